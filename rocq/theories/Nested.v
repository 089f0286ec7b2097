(** Messages sent while another one is being sent on the same transmitter: by an interrupt routine, or by the
    code behind the port.
    Simplification: a call on the transmitter is not itself interrupted; where writing a block is interrupted between
    its bytes it is taken as the writing of single bytes (TransmitterBase.h:72-76). *)
From Verif Require Export Transmit.

(** What happens before a call on the transmitter: a function on its state; the following calls' are left over. *)
Definition interrupt {S} (s : S * list (S -> outcome S)) : outcome (S * list (S -> outcome S)) :=
  match snd s with
  | [] => Ok s
  | h :: rest => do s' <- h (fst s); Ok (s', rest)
  end.

(** A call on the transmitter (tuple-transmission/detail/bases/TransmitterBase.h:49-62), after an interrupt. *)
Definition after_interrupt {S} (call : S -> outcome S) (s : S * list (S -> outcome S))
  : outcome (S * list (S -> outcome S)) :=
  do s <- interrupt s;
  do s' <- call (fst s);
  Ok (s', snd s).

(** A transmitter with interrupts before every call that TransmitterBase forwards
    (tuple-transmission/detail/bases/TransmitterBase.h:49-62); with [fine], blocks are written byte by byte
    and interrupts occur between the bytes (lines 72-76). *)
Definition interruptible {S} (fine : bool) (t : transmitter S) : transmitter (S * list (S -> outcome S)) :=
  let byte v := after_interrupt (tx_byte t v) in
  Transmitter byte
    (if fine then write_fallback byte else fun d => after_interrupt (tx_block t d))
    (after_interrupt (tx_finished t)).

(** A message with the messages sent before each of the calls made on the transmitter while it is sent; while these
    are sent others may be sent, and so on. *)
Inductive sending := Sending (m : mtype) (vs : list value) (during : list (list sending)).

(** send<Collection, Message>(tx, contents), tuple-transmission/Send.h:48-67, interrupted in this way. *)
Fixpoint send_during {S} (fine : bool) (c : config) (coll : collection) (t : transmitter S) (x : sending) (s : S)
  : outcome S :=
  match x with
  | Sending m vs during =>
      let hooks := map (fun l => (fix all (l : list sending) (s : S) : outcome S :=
                                    match l with
                                    | [] => Ok s
                                    | y :: rest => do s <- send_during fine c coll t y s; all rest s
                                    end) l) during in
      do r <- send c coll m (interruptible fine t) (combine (mt_fields m) vs) (s, hooks);
      Ok (fst r)
  end.

(** Several messages, one after the other. *)
Fixpoint send_during_all {S} (fine : bool) (c : config) (coll : collection) (t : transmitter S) (l : list sending) (s : S)
  : outcome S :=
  match l with
  | [] => Ok s
  | x :: rest => do s <- send_during fine c coll t x s; send_during_all fine c coll t rest s
  end.
