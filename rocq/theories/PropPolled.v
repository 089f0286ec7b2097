(** Property C101: interrupts in the midst of processMessages. *)
From Verif Require Import PolledLemmas PolledSeparate.

(** C101: without interrupts, the accesses are those of processMessages of the other claims. *)
Theorem C101_quiet :
  forall c coll, static_ok coll = true -> index_safe c (capacity coll) ->
  forall beh h0 ops S rs w o fuel steps, tame beh -> history c coll beh (start coll h0) ops S rs w ->
  (Z.to_nat (capacity coll) < steps)%nat ->
  t_process fuel steps o c coll beh w [] = (do (w', p) <- process_messages fuel c coll beh w; Ok (w', p, [])).
Proof. exact quiet_process. Qed.
Print Assumptions C101_quiet.

(** When the bytes held contain a message, bytes that come before whatever accesses of checkBufferForMessage, and that fit behind
    the contents, change nothing: the message is found, and no byte that comes is lost. *)
Theorem C101_found :
  forall c coll, static_ok coll = true -> index_safe c (capacity coll) ->
  forall beh h0 ops S rs w o steps e coming, tame beh -> history c coll beh (start coll h0) ops S rs w ->
  check c coll (rx_recv (w_rx w)) = Ok (true, e) ->
  bytes_ok (concat coming) -> rb_pastEnd (er_buf (rx_recv (w_rx w))) + zlen (concat coming) <= capacity coll ->
  (Z.to_nat (capacity coll) < steps)%nat ->
  exists e' used rest,
    tc_check steps o c coll (TState (rx_recv (w_rx w)) coming) = Ok (true, TState e' rest)
    /\ coming = used ++ rest /\ er_id e' = er_id e
    /\ held (w_set_recv e' w) = held (w_set_recv e w) ++ concat used.
Proof. exact found_lemma. Qed.
Print Assumptions C101_found.

(** Noise, a false start and a message; bytes come one by one while the noise and the false start are thrown away and while the
    message is looked at. *)
Example C101_case :
  exists rs w w1,
  history (desktop true) test_basic quiet (start test_basic (Some hd1))
    [OpAppend [9; 9; 1; 2; 1; 1; 2; 10; 20; 30; 3; 4]] [9; 9; 1; 2; 1; 1; 2; 10; 20; 30; 3; 4] rs w
  /\ t_process 10 100 true (desktop true) test_basic quiet w
       [[]; [7]; []; []; [1]; []; []; []; []; []; [1]; []; []; [2]; []; []; []; []; []; []; []; []; []; []; []; []; []; [11; 21]; []; [31]]
     = Ok (w1, Returned 1, [])
  /\ map content (w_log w1) = [(MessageB, map VInt [10; 20; 30])]
  /\ held w1 = [1; 1; 2; 11; 21; 31].
Proof.
  do 3 eexists. split; [apply (checked_history 60); vm_compute; reflexivity|].
  split; [vm_compute; reflexivity|]. split; vm_compute; reflexivity.
Qed.

(** As long as bytes are still to come, let those that have come leave some over when the messages are taken out of them; and let
    all fit behind the contents.  Then processMessages, whatever accesses the bytes come before - looking for a message, reading its
    fields, removing it - returns, and its effect, now and later, is that of some sequence of separate calls of appendReceived and processMessages. *)
Theorem C101_separate :
  forall c coll, static_ok coll = true -> index_safe c (capacity coll) ->
  forall beh h0 ops S rs w o coming fuel steps, steady beh -> bool_free coll ->
  history c coll beh (start coll h0) ops S rs w ->
  bytes_ok (concat coming) -> rb_pastEnd (er_buf (rx_recv (w_rx w))) + zlen (concat coming) <= capacity coll ->
  (forall u v ms r, coming = u ++ v -> concat v <> [] -> Scan coll (held w ++ concat u) ms r -> r <> []) ->
  (Z.to_nat (capacity coll) < fuel)%nat -> (Z.to_nat (capacity coll) < steps)%nat ->
  exists w' p used rest, t_process fuel steps o c coll beh w coming = Ok (w', p, rest) /\ coming = used ++ rest
    /\ exists ops' rs' v, separate ops' /\ history c coll beh w ops' (concat used) rs' v
         /\ same_view coll w' v /\ p = ends_with rs' w v
         /\ (forall ops2 S2 rs2 w2, history c coll beh w' ops2 S2 rs2 w2 ->
               exists v2, history c coll beh v ops2 S2 rs2 v2 /\ same_view coll w2 v2)
         /\ (forall ops2 S2 rs2 v2, history c coll beh v ops2 S2 rs2 v2 ->
               exists w2, history c coll beh w' ops2 S2 rs2 w2 /\ same_view coll w2 v2).
Proof. exact separate_lemma. Qed.
Print Assumptions C101_separate.

(** Noise and the beginning of a message are held; the rest of the message comes while they are looked at, and then the beginning
    of the next. *)
Example C101_separate_case :
  (forall u v ms r, pieces = u ++ v -> concat v <> [] -> Scan test_basic ([9; 1; 1; 2] ++ concat u) ms r -> r <> [])
  /\ exists rs w w1,
  history (desktop true) test_basic quiet (start test_basic (Some hd1)) [OpAppend [9; 1; 1; 2]] [9; 1; 1; 2] rs w
  /\ held w = [9; 1; 1; 2] /\ rb_pastEnd (er_buf (rx_recv (w_rx w))) + zlen (concat pieces) <= capacity test_basic
  /\ t_process 100 100 true (desktop true) test_basic quiet w pieces = Ok (w1, Returned 1, [])
  /\ map content (w_log w1) = [(MessageB, map VInt [10; 20; 30])] /\ held w1 = [1; 1].
Proof.
  split; [exact pieces_over|]. do 3 eexists. split; [apply (checked_history 60); vm_compute; reflexivity|].
  split; [vm_compute; reflexivity|]. split; [apply Z.leb_le; vm_compute; reflexivity|].
  split; [vm_compute; reflexivity|]. split; vm_compute; reflexivity.
Qed.

(** A message is held and the first byte of another; the rest of that comes while the fields of the first are read and while it is
    removed. *)
Example C101_reading_case :
  (forall u v ms r, reading_pieces = u ++ v -> concat v <> [] ->
     Scan test_basic ([1; 1; 2; 10; 20; 30; 3; 4; 1] ++ concat u) ms r -> r <> [])
  /\ exists rs w w1,
  history (desktop true) test_basic quiet (start test_basic (Some hd1)) [OpAppend [1; 1; 2; 10; 20; 30; 3; 4; 1]]
    [1; 1; 2; 10; 20; 30; 3; 4; 1] rs w
  /\ held w = [1; 1; 2; 10; 20; 30; 3; 4; 1]
  /\ rb_pastEnd (er_buf (rx_recv (w_rx w))) + zlen (concat reading_pieces) <= capacity test_basic
  /\ t_process 100 100 true (desktop true) test_basic quiet w reading_pieces = Ok (w1, Returned 2, [])
  /\ map content (w_log w1) = [(MessageB, map VInt [10; 20; 30]); (MessageB, map VInt [11; 21; 31])] /\ held w1 = [].
Proof.
  split; [exact reading_over|]. do 3 eexists. split; [apply (checked_history 60); vm_compute; reflexivity|].
  split; [vm_compute; reflexivity|]. split; [apply Z.leb_le; vm_compute; reflexivity|].
  split; [vm_compute; reflexivity|]. split; vm_compute; reflexivity.
Qed.

(** Expected also of a receiver that holds nothing.  It is not so.  Where a failed assertion stops the program, a single byte that
    comes while processMessages asks an empty buffer for its size stops it, unless fewer than two bytes had been removed from the
    buffer since it was last empty. *)
Theorem C101_abort :
  forall c coll, static_ok coll = true -> index_safe c (capacity coll) -> mode c = Aborting ->
  forall beh h0 ops S1 rs w o fuel steps x, tame beh -> history c coll beh (start coll h0) ops S1 rs w ->
  rx_has_handler (w_rx w) = true -> held w = [] -> 2 <= rb_begin (er_buf (rx_recv (w_rx w))) ->
  t_process (S fuel) (S steps) o c coll beh w [[]; []; []; [x]] = AssertFail.
Proof. exact abort_lemma. Qed.
Print Assumptions C101_abort.

(** In the tests' collection, two bytes of noise before are enough. *)
Theorem C101_abort_refuted :
  forall o, exists rs w,
  history (desktop true) test_basic quiet (start test_basic (Some hd1)) [OpAppend [9; 9]; OpProcess] [9; 9] rs w
  /\ held w = [] /\ t_process 10 100 o (desktop true) test_basic quiet w [[]; []; []; [1]] = AssertFail.
Proof. exact abort_witness. Qed.
Print Assumptions C101_abort_refuted.

(** Where assertions are switched off, the byte is thrown away, whatever it is, if the byte that once followed is no message id. *)
Theorem C101_lost :
  forall c coll, static_ok coll = true -> index_safe c (capacity coll) -> mode c = Disabled ->
  forall beh h0 ops S1 rs w o fuel steps x, tame beh -> history c coll beh (start coll h0) ops S1 rs w ->
  rx_has_handler (w_rx w) = true -> held w = [] -> 2 <= rb_begin (er_buf (rx_recv (w_rx w))) ->
  zlen (mc_types coll) <= nth 1 (rb_contents (er_buf (rx_recv (w_rx w)))) 0 ->
  exists w', t_process (S fuel) (S (S steps)) o c coll beh w [[]; []; []; [x]] = Ok (w', Returned 0, [])
    /\ held w' = [] /\ w_log w' = w_log w.
Proof. exact lost_lemma. Qed.
Print Assumptions C101_lost.

(** The first byte of a message comes then: the message is lost. *)
Theorem C101_lost_refuted :
  forall o, exists rs w w1 S2 rs2 w2 v,
  history (desktop false) test_basic quiet (start test_basic (Some hd1)) [OpAppend [9; 9]; OpProcess] [9; 9] rs w
  /\ t_process 10 100 o (desktop false) test_basic quiet w [[]; []; []; [1]] = Ok (w1, Returned 0, [])
  /\ history (desktop false) test_basic quiet w1 [OpAppend [1; 2; 10; 20; 30; 3; 4]; OpProcess] S2 rs2 w2
  /\ w_log w2 = []
  /\ processed (desktop false) test_basic quiet (Some hd1) [9; 9; 1; 1; 2; 10; 20; 30; 3; 4] v
  /\ map content (w_log v) = [(MessageB, map VInt [10; 20; 30])].
Proof. exact lost_witness. Qed.
Print Assumptions C101_lost_refuted.

(** The bytes must fit behind the contents: when these have to be moved, a message that was there already is lost. *)
Theorem C101_moved_refuted :
  forall o, exists n rs w w1 v,
  history (desktop false) test_basic quiet (start test_basic (Some hd1))
    [OpAppend (repeat 9 20 ++ [1; 5; 2]); OpProcess; OpAppend (repeat 9 11 ++ [1; 1; 2; 10; 20; 30; 3; 4])]
    (repeat 9 20 ++ [1; 5; 2] ++ repeat 9 11 ++ [1; 1; 2; 10; 20; 30; 3; 4]) rs w
  /\ zlen (held w) + 10 <= capacity test_basic
  /\ t_process 10 100 o (desktop false) test_basic quiet w (repeat [] n ++ [repeat 9 10]) = Ok (w1, Returned 0, [])
  /\ w_log w1 = [] /\ held w1 = []
  /\ processed (desktop false) test_basic quiet (Some hd1)
       (repeat 9 20 ++ [1; 5; 2] ++ repeat 9 11 ++ [1; 1; 2; 10; 20; 30; 3; 4] ++ repeat 9 10) v
  /\ map content (w_log v) = [(MessageB, map VInt [10; 20; 30])].
Proof. exact moved_witness. Qed.
Print Assumptions C101_moved_refuted.
