(** Property theorems: bytes moved inside the receive buffer. *)
From Verif Require Import MoveRuns.

(** C87: the operations that count moves return what those that do not count return ... *)
Theorem C87_same_results :
  forall fuel c coll beh o w, fst (m_step fuel c coll beh o w) = step fuel c coll beh o w.
Proof. exact same_step_lemma. Qed.
Print Assumptions C87_same_results.

(** ... one call moves nothing or, when bytes are given to a receiver that holds some, all it holds ... *)
Theorem C87_each :
  forall c coll, static_ok coll = true -> index_safe c (capacity coll) ->
  forall beh h0, tame beh -> forall ops S rs w, history c coll beh (start coll h0) ops S rs w ->
  forall fuel o w' r, allowed coll o w -> step fuel c coll beh o w = Ok (w', r) ->
  moves (m_step fuel c coll beh o w) = 0 \/ moves (m_step fuel c coll beh o w) = zlen (held w) /\ held w <> []
    /\ match o with OpAppend _ | OpReceive _ => True | _ => False end.
Proof. exact each_lemma. Qed.
Print Assumptions C87_each.

(** ... and over the life of a receiver at most twice as many bytes are moved as were given to it, in however
    many pieces, if every receiveFrom gets the bytes it made room for and no handler throws ... *)
Theorem C87_moves :
  forall c coll, static_ok coll = true -> index_safe c (capacity coll) ->
  forall beh h0 a m w, steady beh ->
  moving c coll beh (fun o w r => full_read coll o w r /\ no_throw o w r) h0 a m w -> m <= 2 * a.
Proof. exact moves_lemma. Qed.
Print Assumptions C87_moves.

(** ... where two can hardly be lowered. *)
Theorem C87_attained : exists c coll beh h0 a m w,
  static_ok coll = true /\ index_safe c (capacity coll) /\ steady beh
  /\ moving c coll beh (fun o w r => full_read coll o w r /\ no_throw o w r) h0 a m w /\ 19 * a < 10 * m.
Proof. exact attained_moves_lemma. Qed.
Print Assumptions C87_attained.

(** Polled through VrpnSerialReceiveAdapter, which always asks for 255 bytes, a receiver getting a byte at a time may
    move more than thirty times what it gets ... *)
Theorem C87_polled_refuted : exists c coll beh h0 a m w,
  static_ok coll = true /\ index_safe c (capacity coll) /\ steady beh
  /\ moving c coll beh no_throw h0 a m w /\ 30 * a < m.
Proof. exact polled_lemma. Qed.
Print Assumptions C87_polled_refuted.

(** ... and one whose handler throws at every other message more than forty times. *)
Theorem C87_thrown_refuted : exists c coll beh h0 a m w,
  static_ok coll = true /\ index_safe c (capacity coll) /\ steady beh
  /\ moving c coll beh (full_read coll) h0 a m w /\ 40 * a < m.
Proof. exact thrown_lemma. Qed.
Print Assumptions C87_thrown_refuted.

(** The collection of the tests: a message in full, the beginning of the next at the end of the buffer, which is
    moved to the front when its rest comes. *)
Example C87_case : exists w,
  moving (avr true) test_basic quiet (fun o w r => full_read test_basic o w r /\ no_throw o w r) (Some hd1) 56 1 w
  /\ held w = [] /\ List.length (w_log w) = 7%nat.
Proof.
  assert (exists w, m_run (okb test_basic) 100 (avr true) test_basic quiet
            (chunks (cycle [1; 1; 2; 10; 20; 30; 3; 4] 7) [(49, true); (7, true)]%nat) 0 0 (start test_basic (Some hd1))
          = Some (56, 1, w) /\ held w = [] /\ List.length (w_log w) = 7%nat) as (w & Hw & H1 & H2)
    by (eexists; split; [vm_compute; reflexivity|]; split; reflexivity).
  exists w. split; [|auto].
  refine (m_run_moving (okb test_basic) _ 100 _ _ _ _ (okb_careful test_basic) _ 0 0 _ _ _ _ (chunks_ok _ _)
            (moving_new _ _ _ _ _) Hw).
Qed.
