(** Specification vocabulary for the bytes moved inside the receive buffer. *)
From Verif Require Export SpecReceiver Moves.

(** [moving c coll beh ok h0 a m w]: calls each meeting [ok] (the call, the receiver before it, what it returned)
    led a new receiver to [w]; they gave it [a] bytes and moved [m] bytes inside its buffer. *)
Inductive moving (c : config) (coll : collection) (beh : hbehav) (ok : op -> world -> opret -> Prop)
          (h0 : option handler) : Z -> Z -> world -> Prop :=
| moving_new : moving c coll beh ok h0 0 0 (start coll h0)
| moving_step a m w fuel o w' r :
    moving c coll beh ok h0 a m w -> allowed coll o w -> ok o w r ->
    step fuel c coll beh o w = Ok (w', r) ->
    moving c coll beh ok h0 (a + zlen (received coll beh o w w')) (m + moves (m_step fuel c coll beh o w)) w'.

(** A receiveFrom that got all the bytes it made room for: as many as the adapter said there were, or as fit. *)
Definition full_read (coll : collection) (o : op) (w : world) (r : opret) : Prop :=
  match o with
  | OpReceive a => r = RetCount (Z.min (ad_available a mod 256) (rx_available coll (w_rx w)))
  | _ => True
  end.

(** No exception left the call. *)
Definition no_throw (o : op) (w : world) (r : opret) : Prop := r <> RetProcess Threw.
