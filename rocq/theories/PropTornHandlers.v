(** Property C105: interrupts while the handler is changed. *)
From Verif Require Import TornHandlersLemmas Runs.

(** C105: without interrupts the accesses are those of setHandler, clearHandler and processMessages of the other claims. *)
Theorem C105_quiet :
  forall fuel c coll beh o w,
  h_process fuel o c coll beh [] w = process_messages fuel c coll beh w
  /\ (forall h, h_change fuel c coll beh (Some h) [] w = Ok (World (rx_set_handler h (w_rx w)) (w_log w), []))
  /\ h_change fuel c coll beh None [] w = Ok (World (rx_clear_handler (w_rx w)) (w_log w), []).
Proof. exact quiet_lemma. Qed.
Print Assumptions C105_quiet.

(** processMessages comes in the midst of setHandler or clearHandler.  Let no handler be in place, or the new handler be of the class
    of the old one, or no complete message be held, or let it not come between the two writes.  Then all is as if it had been called
    before. *)
Theorem C105_change_separate :
  forall c coll, static_ok coll = true -> index_safe c (capacity coll) ->
  forall beh h0 ops S rs w, (forall log, hr_acts (beh log) = []) -> bool_free coll ->
  history c coll beh (start coll h0) ops S rs w ->
  forall fuel, (Z.to_nat (capacity coll) < fuel)%nat ->
  forall to coming,
  rx_functor (w_rx w) = None
    \/ (exists h1 h, rx_functor (w_rx w) = Some h1 /\ to = Some h /\ h_type h1 = h_type h)
    \/ (exists r, Scan coll (held w) [] r)
    \/ hd false (tl coming) = false ->
  exists w' ps, h_change fuel c coll beh to coming w = Ok (w', ps)
    /\ history c coll beh w (map (fun _ => OpProcess) ps ++ [match to with Some h => OpSetHandler h | None => OpClearHandler end]) []
         (map RetProcess ps ++ [RetUnit]) w'.
Proof. exact change_lemma. Qed.
Print Assumptions C105_change_separate.

(** A message is held; the routine comes between the two writes of setHandler for another object of the class: the old handler gets
    the message. *)
Example C105_change_case : exists rs w w1,
  history (desktop true) test_basic quiet (start test_basic (Some hd1)) [OpAppend [1; 1; 2; 10; 20; 30; 3; 4]] [1; 1; 2; 10; 20; 30; 3; 4] rs w
  /\ rx_functor (w_rx w) = Some hd1
  /\ h_change 60 (desktop true) test_basic quiet (Some (Handler 9 (h_type hd1))) [false; true] w = Ok (w1, [Returned 1])
  /\ w_log w1 = [Delivery hd1 MessageB (map VInt [10; 20; 30])] /\ rx_functor (w_rx w1) = Some (Handler 9 (h_type hd1)).
Proof.
  do 3 eexists. split; [apply (checked_history 60); vm_compute; reflexivity|]. repeat (split; [vm_compute; reflexivity|]); vm_compute; reflexivity.
Qed.

(** Expected also with a message held and another class of handler, or with clearHandler.  It is not so: the routine calls the function
    of one class with an object of another, or calls through a null pointer; both are undefined behaviour. *)
Theorem C105_change_undefined :
  forall c coll, static_ok coll = true -> index_safe c (capacity coll) ->
  forall beh h0 ops S rs w, (forall log, hr_acts (beh log) = []) -> bool_free coll ->
  history c coll beh (start coll h0) ops S rs w ->
  forall fuel, (Z.to_nat (capacity coll) < fuel)%nat ->
  forall to h1 ms r,
  rx_functor (w_rx w) = Some h1 -> option_map h_type to <> Some (h_type h1) ->
  Scan coll (held w) ms r -> ms <> [] ->
  h_change fuel c coll beh to [false; true] w = UB.
Proof. exact change_undefined_lemma. Qed.
Print Assumptions C105_change_undefined.

(** One message is held, and each handler is replaced by one of another class, or removed. *)
Theorem C105_change_refuted :
  forall to, to = None \/ to = Some hd2 ->
  exists rs w,
  history (desktop true) test_basic quiet (start test_basic (Some hd1)) [OpAppend [1; 1; 2; 10; 20; 30; 3; 4]] [1; 1; 2; 10; 20; 30; 3; 4] rs w
  /\ h_change 60 (desktop true) test_basic quiet to [false; true] w = UB
  /\ exists ps w1, h_change 60 (desktop true) test_basic quiet to [true; false] w = Ok (w1, ps) /\ ps = [Returned 1].
Proof. exact change_witness. Qed.
Print Assumptions C105_change_refuted.

(** setHandler and clearHandler come in the midst of processMessages, any number of times before any of the reads of the two members
    (in either order [o]).  [inplace j]: the handler in place when the interrupts before the first [j] reads have come; the first read
    is that of hasHandler.  Let there always be one, and let it be of the same class at the two reads for a message.  The same messages
    are delivered, the same is returned, held and recorded as last as without interrupts; each message goes to the handler in place
    when _functorPointer is read for it. *)
Theorem C105_processing :
  forall c coll, static_ok coll = true -> index_safe c (capacity coll) ->
  forall beh h0 ops S rs w, (forall log, hr_acts (beh log) = []) -> bool_free coll ->
  history c coll beh (start coll h0) ops S rs w ->
  forall fuel, (Z.to_nat (capacity coll) < fuel)%nat ->
  forall o h1 coming, (forall log, hr_throws (beh log) = false) -> rx_functor (w_rx w) = Some h1 ->
  let inplace (j : nat) := last (Some h1 :: concat (firstn j coming)) None in
  (forall j, inplace j <> None) -> (forall k, option_map h_type (inplace (2 * k + 2)%nat) = option_map h_type (inplace (2 * k + 3)%nat)) ->
  exists w' v' p new,
    history c coll beh w [OpProcess] [] [RetProcess p] w'
    /\ h_process fuel o c coll beh coming w = Ok (v', p)
    /\ rx_recv (w_rx v') = rx_recv (w_rx w') /\ rx_last (w_rx v') = rx_last (w_rx w')
    /\ w_log v' = w_log w ++ new
    /\ map content (w_log v') = map content (w_log w')
    /\ (forall k d, nth_error new k = Some d -> inplace (2 * k + (if o then 3 else 2))%nat = Some (d_handler d))
    /\ rx_functor (w_rx v') = inplace (2 * length new + 1)%nat
    /\ rx_invoker (w_rx v') = option_map h_type (rx_functor (w_rx v')).
Proof. exact processing_lemma. Qed.
Print Assumptions C105_processing.

(** Two messages are held; another object of the class is set between the reads for the first: the first message goes to the one or
    the other, depending on the order of the reads, the second to the new one. *)
Example C105_processing_case : exists rs w w1 w2,
  history (desktop true) test_basic quiet (start test_basic (Some hd1)) [OpAppend [1; 4; 2; 3; 4; 1; 1; 2; 10; 20; 30; 3; 4]]
    [1; 4; 2; 3; 4; 1; 1; 2; 10; 20; 30; 3; 4] rs w
  /\ h_process 60 true (desktop true) test_basic quiet [[]; []; [Some (Handler 9 (h_type hd1))]] w = Ok (w1, Returned 2)
  /\ map d_handler (w_log w1) = [Handler 9 (h_type hd1); Handler 9 (h_type hd1)]
  /\ h_process 60 false (desktop true) test_basic quiet [[]; []; [Some (Handler 9 (h_type hd1))]] w = Ok (w2, Returned 2)
  /\ map d_handler (w_log w2) = [hd1; Handler 9 (h_type hd1)] /\ map d_message (w_log w2) = [MessageEmpty; MessageB].
Proof.
  do 4 eexists. split; [apply (checked_history 60); vm_compute; reflexivity|]. repeat (split; [vm_compute; reflexivity|]); vm_compute; reflexivity.
Qed.

(** A handler of another class is set before the reads for the second message. *)
Example C105_processing_other_class : exists rs w w1,
  let coming := [[]; []; []; [None; Some hd2]] in
  history (desktop true) test_basic quiet (start test_basic (Some hd1)) [OpAppend [1; 4; 2; 3; 4; 1; 1; 2; 10; 20; 30; 3; 4]]
    [1; 4; 2; 3; 4; 1; 1; 2; 10; 20; 30; 3; 4] rs w
  /\ h_process 60 true (desktop true) test_basic quiet coming w = Ok (w1, Returned 2)
  /\ map d_handler (w_log w1) = [hd1; hd2] /\ h_type hd1 <> h_type hd2.
Proof.
  do 3 eexists. cbv zeta. split; [apply (checked_history 60); vm_compute; reflexivity|].
  split; [vm_compute; reflexivity|]. split; [vm_compute; reflexivity|]. intros H; discriminate H.
Qed.

(** Expected for every handler.  It is not so: if up to the [k]-th message it was as above, and for this one no handler is in place
    when _functorPointer is read, or handlers of different classes are at the two reads, or one and none, the behaviour is undefined. *)
Theorem C105_processing_undefined :
  forall c coll, static_ok coll = true -> index_safe c (capacity coll) ->
  forall beh h0 ops S rs w, (forall log, hr_acts (beh log) = []) ->
  history c coll beh (start coll h0) ops S rs w ->
  forall fuel,
  forall (o : bool) h1 (coming : list (list (option handler))) k w' p, (forall log, hr_throws (beh log) = false) -> rx_functor (w_rx w) = Some h1 ->
  process_messages fuel c coll beh w = Ok (w', p) -> (length (w_log w) + k < length (w_log w'))%nat ->
  let inplace (j : nat) := last (Some h1 :: concat (firstn j coming)) None in
  (forall j, (j <= 2 * k + 1)%nat -> inplace j <> None) ->
  (forall i, (i < k)%nat -> option_map h_type (inplace (2 * i + 2)%nat) = option_map h_type (inplace (2 * i + 3)%nat)) ->
  inplace (2 * k + (if o then 3 else 2))%nat = None \/ option_map h_type (inplace (2 * k + 2)%nat) <> option_map h_type (inplace (2 * k + 3)%nat) ->
  h_process fuel o c coll beh coming w = UB.
Proof. exact processing_undefined_lemma. Qed.
Print Assumptions C105_processing_undefined.

(** The same two messages: the handler is removed, or replaced by one of another class, in the midst of processing. *)
Theorem C105_processing_refuted :
  forall o, exists rs w,
  history (desktop true) test_basic quiet (start test_basic (Some hd1)) [OpAppend [1; 4; 2; 3; 4; 1; 1; 2; 10; 20; 30; 3; 4]]
    [1; 4; 2; 3; 4; 1; 1; 2; 10; 20; 30; 3; 4] rs w
  /\ h_process 60 o (desktop true) test_basic quiet [[]; [None]] w = UB
  /\ h_process 60 o (desktop true) test_basic quiet [[]; []; [Some hd2]] w = UB
  /\ h_process 60 o (desktop true) test_basic quiet [[]; []; []; [None]] w = UB
  /\ exists w1, h_process 60 o (desktop true) test_basic quiet [[None]] w = Ok (w1, Returned 0) /\ w_log w1 = [].
Proof. exact processing_witness. Qed.
Print Assumptions C105_processing_refuted.
