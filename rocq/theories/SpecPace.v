(** Specification vocabulary for ports whose own buffer is limited. *)
From Verif Require Export SpecLink.

(** A port that keeps at most [F] bytes until they are read: of those that arrive while it is full, none. *)
Definition port_keeps (F : Z) (P d : list Z) : list Z := firstn (Z.to_nat F) (P ++ d).
Definition port_loses (F : Z) (P d : list Z) : list Z := skipn (Z.to_nat F) (P ++ d).

(** A turn of a program's loop: the bytes [d] arrive at the port; then receiveFrom, through one of the shipped adapters,
    then processMessages.  State: the receiver and what it has delivered, the bytes waiting at the port, those lost. *)
Record looping := Looping { lp_world : world; lp_port : list Z; lp_lost : list Z }.
Definition loop_turn (vrpn : bool) (F : Z) (fuel : nat) (c : config) (coll : collection) (beh : hbehav) (d : list Z) (s : looping)
  : outcome looping :=
  let P := port_keeps F (lp_port s) d in
  let a := if vrpn then vrpn_adapter (fifo_read P) else arduino_adapter (zlen P) (fifo_read P) in
  do (w1, r1) <- step fuel c coll beh (OpReceive a) (lp_world s);
  do (w2, r2) <- step fuel c coll beh OpProcess w1;
  match r1, r2 with
  | RetCount k, RetProcess (Returned _) => Ok (Looping w2 (skipn (Z.to_nat k) P) (lp_lost s ++ port_loses F (lp_port s) d))
  | _, _ => Rejected
  end.
Fixpoint loop_turns (vrpn : bool) (F : Z) (fuel : nat) (c : config) (coll : collection) (beh : hbehav) (bursts : list (list Z))
  (s : looping) : outcome looping :=
  match bursts with
  | [] => Ok s
  | d :: rest => do s <- loop_turn vrpn F fuel c coll beh d s; loop_turns vrpn F fuel c coll beh rest s
  end.

(** What a turn takes from the port at least: twice the longest message and one byte, but not more than 255 bytes. *)
Definition turn_rate (coll : collection) : Z := Z.min 255 (2 * max_message_length coll + 1).

(** What waits at the port after some bursts, [q] bytes waiting before, if every turn takes [R] bytes, or all; and that
    this never exceeds what it keeps. *)
Fixpoint waiting (R q : Z) (bursts : list (list Z)) : Z :=
  match bursts with [] => q | d :: rest => waiting R (Z.max 0 (q + zlen d - R)) rest end.
Fixpoint within (R F q : Z) (bursts : list (list Z)) : Prop :=
  match bursts with [] => True | d :: rest => q + zlen d <= F /\ within R F (Z.max 0 (q + zlen d - R)) rest end.
