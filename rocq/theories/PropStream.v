(** Properties C19, C23-C34, C46, C52, C65-C69, C74: what a receiver does with the bytes it is given.

    [history c coll beh (start coll h0) ops S rs w]: a new receiver (handler [h0] or
    none) was given the calls [ops], each keeping to the reported space, and got the bytes
    [S].  [processed ... S w]: the last of these calls was a processMessages with a
    handler set, which returned.  [beh] is the code of the handlers. *)
From Verif Require Import Runs LossLemmas DamageLemmas AccountLemmas NarrowLemmas.

(** C19: the reported space is capacity minus what is held; any data up to that length
    is appended, none beyond. *)
Theorem C19_space :
  forall c coll, static_ok coll = true -> index_safe c (capacity coll) ->
  forall beh h0 ops S rs w, tame beh -> history c coll beh (start coll h0) ops S rs w ->
  rx_available coll (w_rx w) = capacity coll - zlen (held w)
  /\ 0 <= rx_available coll (w_rx w)
  /\ (forall d, bytes_ok d -> zlen d <= rx_available coll (w_rx w) ->
        forall fuel, exists w', step fuel c coll beh (OpAppend d) w = Ok (w', RetUnit)
          /\ held w' = held w ++ d /\ w_log w' = w_log w
          /\ rx_available coll (w_rx w') = rx_available coll (w_rx w) - zlen d)
  /\ (forall d, rx_available coll (w_rx w) < zlen d ->
        forall fuel w' r, step fuel c coll beh (OpAppend d) w <> Ok (w', r)).
Proof. exact space_lemma. Qed.
Print Assumptions C19_space.

(** Bytes of MessageB(10,20,30), MessageEmpty() and the beginning of a MessageA. *)
Definition frameB : list Z := [1;1;2;10;20;30;3;4].
Definition frameE : list Z := [1;4;2;3;4].
Definition partA : list Z := [1;0;2;5].

(** 51 bytes of capacity, content in the middle of the array. *)
Example C19_case :
  capacity test_basic = 51
  /\ exists S rs w, history (desktop true) test_basic quiet (start test_basic (Some hd1))
       [OpAppend (frameB ++ partA); OpProcess] S rs w
     /\ rx_available test_basic (w_rx w) = 47 /\ rb_begin (er_buf (rx_recv (w_rx w))) = 8.
Proof.
  split; [reflexivity|]. eexists. eexists. eexists. split.
  - apply (checked_history 60). vm_compute. reflexivity.
  - vm_compute. auto.
Qed.

(** C46: for every receiver of the excluded kind the reported space is not usable: after
    some bytes without a message and a processMessages, appending as many bytes as the
    receiver reports to have room for leaves the array, whatever the assertion mode. *)
Theorem C46_receiver_refuted :
  forall c coll beh h, static_ok coll = true -> ~ index_safe c (capacity coll) ->
  exists n w d, history c coll beh (start coll (Some h)) [OpAppend (repeat 0 n ++ [1]); OpProcess]
                  (repeat 0 n ++ [1]) [RetUnit; RetProcess (Returned 0)] w
    /\ held w = [1] /\ allowed coll (OpAppend d) w
    /\ forall fuel, step fuel c coll beh (OpAppend d) w = UB.
Proof. exact narrow_receiver_lemma. Qed.
Print Assumptions C46_receiver_refuted.
(** A message with 12000 bytes of payload on a machine with 16-bit int. *)
Example C46_receiver_case :
  let coll := Collection [MType 0 (repeat (TRaw 3000) 4)] Basic in
  static_ok coll = true /\ capacity coll = 36015 /\ ~ index_safe (avr true) (capacity coll)
  /\ index_safe (desktop true) (capacity coll).
Proof.
  cbv zeta. split; [vm_compute; reflexivity|].
  assert (capacity (Collection [MType 0 (repeat (TRaw 3000) 4)] Basic) = 36015) as -> by (vm_compute; reflexivity).
  split; [reflexivity|]. unfold index_safe. change (size_bits 36015) with 16.
  change (int_bits (avr true)) with 16. change (int_bits (desktop true)) with 32. change (2 ^ 16) with 65536. lia.
Qed.

(** C23: receiveFrom asks for the smaller of what the adapter reports (an 8-bit number) and
    the free space; if the adapter keeps its contract for that request, its bytes are
    appended and counted. *)
Theorem C23_receive_from :
  forall c coll, static_ok coll = true -> index_safe c (capacity coll) ->
  forall beh h0 ops S rs w a fuel, tame beh -> history c coll beh (start coll h0) ops S rs w ->
  let n := Z.min (ad_available a mod 256) (rx_available coll (w_rx w)) in
  let d := fst (ad_read a n) in
  0 <= n <= 255 /\ n <= rx_available coll (w_rx w)
  /\ (adapter_ok_at a n ->
      exists w', step fuel c coll beh (OpReceive a) w = Ok (w', RetCount (zlen d))
        /\ held w' = held w ++ d /\ w_log w' = w_log w /\ rx_last_id (w_rx w') = rx_last_id (w_rx w)
        /\ rx_functor (w_rx w') = rx_functor (w_rx w)).
Proof. exact receive_lemma. Qed.
Print Assumptions C23_receive_from.

(** The shipped adapters keep the contract when the port does. *)
Theorem C23_shipped_adapters :
  forall read, (forall n, 0 <= n <= 255 -> bytes_ok (fst (read n)) /\ zlen (fst (read n)) <= n
                   /\ snd (read n) = zlen (fst (read n))) ->
  adapter_ok (vrpn_adapter read) /\ forall av, adapter_ok (arduino_adapter av read).
Proof. exact shipped_adapters_lemma. Qed.
Print Assumptions C23_shipped_adapters.

(** A port with three bytes waiting. *)
Definition port3 : Z -> list Z * Z :=
  fun n => let d := firstn (Z.to_nat n) [1;4;2] in (d, zlen d).
Example C23_case :
  (forall n, 0 <= n <= 255 -> bytes_ok (fst (port3 n)) /\ zlen (fst (port3 n)) <= n
                   /\ snd (port3 n) = zlen (fst (port3 n)))
  /\ exists w, step 1 (desktop true) test_basic quiet (OpReceive (vrpn_adapter port3)) (start test_basic None)
       = Ok (w, RetCount 3) /\ held w = [1;4;2].
Proof.
  split.
  - intros n Hn. unfold port3. cbn [fst snd]. split; [|split; [|reflexivity]].
    + apply Forall_forall. intros x Hx. assert (In x [1;4;2]) as H
        by (rewrite <- (firstn_skipn (Z.to_nat n)); apply in_or_app; left; exact Hx).
      cbn in H. lia.
    + unfold zlen. rewrite firstn_length. lia.
  - eexists. split; vm_compute; reflexivity.
Qed.

(** C24: a receiver that got exactly the bytes of sent messages, however split, delivers
    these messages in order, each once (counting calls that did not throw), and
    keeps nothing. *)
Theorem C24_lossless :
  forall c coll, static_ok coll = true -> index_safe c (capacity coll) ->
  forall cs beh h0 msgs S w, tame beh -> little cs = little c -> Forall (sendable coll) msgs ->
  send_all cs coll vector_tx msgs [] = Ok S -> processed c coll beh h0 S w ->
  map content (completed beh [] (w_log w)) = msgs /\ held w = [].
Proof. exact lossless_lemma. Qed.
Print Assumptions C24_lossless.

(** All calls return: the sent bytes, cut into any chunks of at most two maximal
    messages, each followed by processMessages. *)
Theorem C24_lossless_run :
  forall c coll, static_ok coll = true -> index_safe c (capacity coll) ->
  forall beh, steady beh -> (forall log, hr_throws (beh log) = false) ->
  forall fuel, (Z.to_nat (capacity coll) < fuel)%nat ->
  forall cs msgs S h chunks, little cs = little c -> Forall (sendable coll) msgs ->
  send_all cs coll vector_tx msgs [] = Ok S -> S = concat chunks -> chunks <> [] ->
  Forall (fun ch => zlen ch <= 2 * max_message_length coll) chunks ->
  exists w rs, run fuel c coll beh (feed chunks) (start coll (Some h)) = Ok (w, rs)
    /\ map content (w_log w) = msgs /\ held w = [].
Proof. exact feed_sent_lemma. Qed.
Print Assumptions C24_lossless_run.

Definition msgs2 := [(MessageB, [VInt 10; VInt 20; VInt 30]); (MessageEmpty, []);
                     (MessageA, [VInt (-1); VInt 4; VInt (-2)])].
Definition sent2 : list Z := frameB ++ frameE ++ [1;0;2;255;4;254;255;3;4].
Example C24_case :
  Forall (sendable test_basic) msgs2
  /\ send_all (avr false) test_basic vector_tx msgs2 [] = Ok sent2
  /\ sent2 = concat [[1;1;2;10]; []; [20;30;3;4;1]; [4;2;3;4;1;0;2;255;4;254;255;3;4]]
  /\ exists w, processed (desktop true) test_basic quiet (Some hd1) sent2 w /\ length (w_log w) = 3%nat.
Proof.
  split; [|split; [reflexivity | split; [reflexivity|]]].
  - repeat (apply Forall_cons || apply Forall_nil); split; try reflexivity; cbn; auto 10.
  - eexists. split.
    + apply (outcome_processed 60) with (ops := [OpAppend [1;1;2;10]; OpProcess; OpAppend [20;30;3;4;1]; OpClearHandler; OpProcess;
         OpAppend [4;2;3;4;1;0;2;255]; OpSetHandler hd2; OpAppend [4;254;255;3;4]]) (n := 3). vm_compute. reflexivity.
    + reflexivity.
Qed.

(** C25: what is delivered, and what is kept, is what the frame scanner makes of the byte
    stream ... *)
Theorem C25_stream_scanner :
  forall c coll, static_ok coll = true -> index_safe c (capacity coll) ->
  forall beh, tame beh -> forall h0 S w, processed c coll beh h0 S w ->
  exists ms, Scan coll S ms (held w)
    /\ Forall2 (delivers (little c)) ms (completed beh [] (w_log w)).
Proof. exact stream_lemma. Qed.
Print Assumptions C25_stream_scanner.

(** ... so two receivers given the same bytes agree, however they got them; the
    scanner's result exists for all bytes and is unique. *)
Theorem C25_stream_only :
  forall c coll, static_ok coll = true -> index_safe c (capacity coll) ->
  forall c2 beh beh2 h0 h1 S w v, index_safe c2 (capacity coll) -> little c2 = little c ->
  tame beh -> tame beh2 ->
  processed c coll beh h0 S w -> processed c2 coll beh2 h1 S v ->
  map content (completed beh [] (w_log w)) = map content (completed beh2 [] (w_log v)) /\ held w = held v.
Proof. exact stream_only_lemma. Qed.
Print Assumptions C25_stream_only.

Theorem C25_scanner_total :
  forall coll s, exists ms r, Scan coll s ms r
    /\ forall ms' r', Scan coll s ms' r' -> ms = ms' /\ r = r'.
Proof. exact scan_function_lemma. Qed.
Print Assumptions C25_scanner_total.

(** The same corrupt bytes, split in two ways. *)
Definition corrupt : list Z := [7;1;9;1;4;2;3;5;1;1;2;10;20;30;3;4;1;4].
Example C25_case :
  exists w v, processed (desktop true) test_basic quiet (Some hd1) corrupt w
    /\ processed (desktop false) test_basic quiet None corrupt v
    /\ map content (w_log w) = [(MessageB, [VInt 10; VInt 20; VInt 30])] /\ held w = [1;4].
Proof.
  eexists. eexists. split; [|split].
  - apply (outcome_processed 60) with (ops := [OpAppend corrupt]) (n := 1). vm_compute. reflexivity.
  - apply (outcome_processed 60) with (ops := [OpAppend [7;1]; OpProcess; OpAppend [9;1;4;2;3]; OpSetHandler hd2; OpProcess;
       OpAppend [5;1;1;2;10;20]; OpProcess; OpAppend [30;3;4;1]; OpProcess; OpAppend [4]]) (n := 0). vm_compute. reflexivity.
  - split; vm_compute; reflexivity.
Qed.

(** C26: the completed calls are those of disjoint frames of the received bytes, in
    order; and every call, also one that threw, is for a frame that was received. *)
Theorem C26_no_invention :
  forall c coll, static_ok coll = true -> index_safe c (capacity coll) ->
  forall beh h0 ops S rs w, tame beh -> history c coll beh (start coll h0) ops S rs w ->
  exists ms, occurs coll ms S /\ Forall2 (delivers (little c)) ms (completed beh [] (w_log w)).
Proof. exact no_invention_lemma. Qed.
Print Assumptions C26_no_invention.

Theorem C26_every_call_has_a_frame :
  forall c coll, static_ok coll = true -> index_safe c (capacity coll) ->
  forall beh h0 ops S rs w, tame beh -> history c coll beh (start coll h0) ops S rs w ->
  Forall (fun d => exists pre f fd post, S = pre ++ f ++ post
            /\ is_frame coll f (f_message fd) (f_id fd) (f_payload fd) /\ delivers (little c) fd d) (w_log w).
Proof. exact calls_have_frames_lemma. Qed.
Print Assumptions C26_every_call_has_a_frame.

(** A handler that throws at its first call. *)
Definition throws_once : hbehav := fun log => HResult [] (Nat.eqb (length log) 1).
Example C26_case :
  tame throws_once
  /\ exists S rs w, history (desktop true) test_basic throws_once (start test_basic (Some hd1))
       [OpAppend (frameB ++ frameE); OpProcess; OpProcess] S rs w
     /\ length (w_log w) = 3%nat /\ length (completed throws_once [] (w_log w)) = 2%nat
     /\ rs = [RetUnit; RetProcess Threw; RetProcess (Returned 2)].
Proof.
  split; [intros log a H; destruct H|]. eexists. eexists. eexists. split.
  - apply (checked_history 60). vm_compute. reflexivity.
  - vm_compute. auto.
Qed.

(** C27: after processMessages less than a maximal message is kept and more than two
    thirds of the buffer are free. *)
Theorem C27_never_full :
  forall c coll, static_ok coll = true -> index_safe c (capacity coll) ->
  forall beh h0 S w, tame beh -> processed c coll beh h0 S w ->
  zlen (held w) < max_message_length coll
  /\ rx_available coll (w_rx w) = capacity coll - zlen (held w)
  /\ 2 * max_message_length coll < rx_available coll (w_rx w)
  /\ 2 * capacity coll < 3 * rx_available coll (w_rx w).
Proof. exact never_full_lemma. Qed.
Print Assumptions C27_never_full.
(** A full buffer of start codes and header look-alikes. *)
Example C27_case :
  exists w, processed (desktop true) test_basic quiet (Some hd1) (concat (repeat [1;2;2] 17)) w
    /\ zlen (concat (repeat [1;2;2] 17)) = capacity test_basic /\ zlen (held w) = 15.
Proof.
  eexists. split; [|split].
  - apply (outcome_processed 60) with (ops := [OpAppend (concat (repeat [1;2;2] 17))]) (n := 0). vm_compute. reflexivity.
  - reflexivity.
  - vm_compute. reflexivity.
Qed.

(** C28: whatever was received, every permitted call returns: no undefined behaviour, no
    failing assertion, no endless loop. Handlers may install other handlers or throw. *)
Theorem C28_terminates_safely :
  forall c coll, static_ok coll = true -> index_safe c (capacity coll) ->
  forall beh h0 ops S rs w o fuel, steady beh -> bool_free coll ->
  history c coll beh (start coll h0) ops S rs w -> allowed coll o w ->
  (Z.to_nat (capacity coll) < fuel)%nat ->
  exists w' r, step fuel c coll beh o w = Ok (w', r).
Proof. exact progress_lemma. Qed.
Print Assumptions C28_terminates_safely.
Lemma test_bool_free e : bool_free (Collection test_types e).
Proof. intros m t Hm Ht. cbn in Hm. intuition; subst; cbn in Ht; intuition; subst; discriminate. Qed.
Example C28_case :
  bool_free test_checksum /\ static_ok test_checksum = true /\ index_safe (avr true) (capacity test_checksum)
  /\ exists S rs w, history (avr true) test_checksum quiet (start test_checksum (Some hd1))
       [OpAppend (repeat 1 54)] S rs w.
Proof.
  split; [apply test_bool_free|]. split; [reflexivity|]. split; [left; reflexivity|].
  eexists. eexists. eexists. apply (checked_history 60). vm_compute. reflexivity.
Qed.

(** C29: bytes other than the start code, arriving at a frame boundary, change nothing. *)
Theorem C29_noise_skipped :
  forall c coll, static_ok coll = true -> index_safe c (capacity coll) ->
  forall beh beh2 h0 h1 pre ms noise s w v, tame beh -> tame beh2 ->
  Scan coll pre ms [] -> ~ In 1 noise ->
  processed c coll beh h0 (pre ++ noise ++ s) w -> processed c coll beh2 h1 (pre ++ s) v ->
  map content (completed beh [] (w_log w)) = map content (completed beh2 [] (w_log v)) /\ held w = held v.
Proof. exact noise_lemma. Qed.
Print Assumptions C29_noise_skipped.
Lemma frameB_is_frame : is_frame test_basic frameB MessageB 1 [10;20;30].
Proof. split; [split; [discriminate | reflexivity] | split; reflexivity]. Qed.
Lemma frameE_is_frame : is_frame test_basic frameE MessageEmpty 4 [].
Proof. split; [split; [discriminate | reflexivity] | split; reflexivity]. Qed.
Example C29_case :
  Scan test_basic frameB [Found MessageB 1 [10;20;30]] []
  /\ ~ In 1 [3;0;4;255]
  /\ (exists w, processed (desktop true) test_basic quiet (Some hd1) (frameB ++ [3;0;4;255] ++ frameE ++ [1]) w
        /\ length (w_log w) = 2%nat)
  /\ exists v, processed (desktop true) test_basic quiet (Some hd1) (frameB ++ frameE ++ [1]) v.
Proof.
  split; [|split; [|split]].
  - rewrite <- (app_nil_r frameB). apply scan_frame; [apply frameB_is_frame | apply scan_nil].
  - cbn. lia.
  - eexists. split.
    + apply (outcome_processed 60) with (ops := [OpAppend (frameB ++ [3;0;4;255] ++ frameE ++ [1])]) (n := 2). vm_compute. reflexivity.
    + reflexivity.
  - eexists. apply (outcome_processed 60) with (ops := [OpAppend (frameB ++ frameE ++ [1])]) (n := 2). vm_compute. reflexivity.
Qed.

(** C30: after any bytes, a maximal message's length of bytes that are not start codes
    empties the buffer, and everything sent from then on is delivered. *)
Theorem C30_idle_empties :
  forall c coll, static_ok coll = true -> index_safe c (capacity coll) ->
  forall beh h0 g idle w, tame beh -> ~ In 1 idle -> max_message_length coll <= zlen idle ->
  processed c coll beh h0 (g ++ idle) w -> held w = [].
Proof. exact idle_lemma. Qed.
Print Assumptions C30_idle_empties.

Theorem C30_resynchronised :
  forall c coll, static_ok coll = true -> index_safe c (capacity coll) ->
  forall cs beh h0 g idle msgs S w, tame beh -> little cs = little c ->
  ~ In 1 idle -> max_message_length coll <= zlen idle ->
  Forall (sendable coll) msgs -> send_all cs coll vector_tx msgs [] = Ok S ->
  processed c coll beh h0 (g ++ idle ++ S) w ->
  (exists before, map content (completed beh [] (w_log w)) = before ++ msgs) /\ held w = [].
Proof. exact resync_lemma. Qed.
Print Assumptions C30_resynchronised.
Example C30_case :
  max_message_length test_basic <= zlen (repeat 0 17) /\ ~ In 1 (repeat 0 17)
  /\ exists w, processed (desktop true) test_basic quiet (Some hd1) ([1;1;1;2;2] ++ repeat 0 17 ++ sent2) w
    /\ length (w_log w) = 3%nat.
Proof.
  split; [vm_compute; discriminate|]. split; [intros H; apply repeat_spec in H; discriminate|].
  eexists. split.
  - apply (outcome_processed 60) with (ops := [OpAppend ([1;1;1;2;2] ++ repeat 0 17 ++ sent2)]) (n := 3). vm_compute. reflexivity.
  - reflexivity.
Qed.

(** C31: three bytes looking like the header of a message 3 bytes longer turn a frame of
    the Basic envelope into that message; the one sent is lost ... *)
Theorem C31_garbage_swallows :
  forall c coll, static_ok coll = true -> index_safe c (capacity coll) ->
  forall beh h0 pre ms f m id p m' id' s w, tame beh -> mc_env coll = Basic ->
  is_frame coll f m id p -> has_id coll m' id' -> payload_size m' = (payload_size m + 3)%nat ->
  Scan coll pre ms [] ->
  processed c coll beh h0 (pre ++ [1; id'; 2] ++ f ++ s) w ->
  exists ms', Scan coll s ms' (held w)
    /\ Forall2 (delivers (little c)) (ms ++ Found m' id' ([1; id; 2] ++ p) :: ms') (completed beh [] (w_log w)).
Proof. exact swallow_lemma. Qed.
Print Assumptions C31_garbage_swallows.

(** ... as in the protocol of the repository's tests. *)
Theorem C31_garbage_refuted :
  exists g m vs w, sendable test_basic (m, vs)
    /\ send_all (desktop true) test_basic vector_tx [(m, vs)] [] = Ok frameE
    /\ processed (desktop true) test_basic quiet (Some hd1) (g ++ frameE) w
    /\ ~ In (m, vs) (map content (w_log w)) /\ w_log w <> [] /\ held w = [].
Proof.
  exists [1;1;2], MessageEmpty, []. eexists. split; [split; cbn; auto 10|]. split; [reflexivity|]. split.
  - apply (outcome_processed 60) with (ops := [OpAppend [1;1;2]; OpProcess; OpAppend frameE]) (n := 1). vm_compute. reflexivity.
  - split; [|split; [discriminate | reflexivity]]. vm_compute. intros [H|[]]. discriminate.
Qed.
Print Assumptions C31_garbage_refuted.
Example C31_case : payload_size MessageB = (payload_size MessageEmpty + 3)%nat /\ has_id test_basic MessageB 1
  /\ is_frame test_basic frameE MessageEmpty 4 [].
Proof. split; [reflexivity|]. split; [split; [discriminate | reflexivity] | apply frameE_is_frame]. Qed.

(** C32: with BasicChecksum, one changed byte makes a frame unacceptable, provided a
    changed id byte does not change the length; the receiver passes over its first byte
    and goes on with the rest. *)
Theorem C32_single_byte :
  forall c coll, static_ok coll = true -> index_safe c (capacity coll) ->
  forall beh h0 pre ms f m id p a x y b s w, tame beh -> mc_env coll = BasicChecksum ->
  is_frame coll f m id p -> bytes_ok f -> f = a ++ x :: b -> byte y -> x <> y ->
  (length a = 1%nat -> forall m', has_id coll m' y -> payload_size m' = payload_size m) ->
  Scan coll pre ms [] ->
  processed c coll beh h0 (pre ++ (a ++ y :: b) ++ s) w ->
  (forall m' id' p', ~ is_frame coll (a ++ y :: b) m' id' p')
  /\ exists b0 t ms', a ++ y :: b = b0 :: t /\ Scan coll (t ++ s) ms' (held w)
       /\ Forall2 (delivers (little c)) (ms ++ ms') (completed beh [] (w_log w)).
Proof. exact corrupt_lemma. Qed.
Print Assumptions C32_single_byte.
(** MessageB with the id corrupted to that of MessageD (same length). *)
Definition frameBc : list Z := [1;1;2;10;20;30;3;67;4].
Example C32_case :
  is_frame test_checksum frameBc MessageB 1 [10;20;30]
  /\ (forall m', has_id test_checksum m' 3 -> payload_size m' = payload_size MessageB)
  /\ exists w, processed (desktop true) test_checksum quiet (Some hd1) (frameBc ++ [1;3;2;10;20;30;3;67;4]) w
    /\ length (w_log w) = 1%nat.
Proof.
  split; [split; [split; [discriminate | reflexivity] | split; reflexivity]|]. split.
  - intros m' (_ & H). change (Z.to_nat 3) with 3%nat in H. cbn in H. injection H as <-. reflexivity.
  - eexists. split.
    + apply (outcome_processed 60) with (ops := [OpAppend (frameBc ++ [1;3;2;10;20;30;3;67;4])]) (n := 1). vm_compute. reflexivity.
    + reflexivity.
Qed.

(** C33: exchanging two payload bytes goes unnoticed ... *)
Theorem C33_swapped_bytes :
  forall c coll, static_ok coll = true -> index_safe c (capacity coll) ->
  forall beh h0 pre ms m id a x b y d s w, tame beh -> mc_env coll = BasicChecksum ->
  has_id coll m id -> length (a ++ x :: b ++ y :: d) = payload_size m ->
  Scan coll pre ms [] ->
  exists f1 f2, spec_frame BasicChecksum id (a ++ x :: b ++ y :: d) = f1 ++ x :: b ++ y :: f2
    /\ (processed c coll beh h0 (pre ++ (f1 ++ y :: b ++ x :: f2) ++ s) w ->
        exists ms', Scan coll s ms' (held w)
          /\ Forall2 (delivers (little c)) (ms ++ Found m id (a ++ y :: b ++ x :: d) :: ms') (completed beh [] (w_log w))).
Proof. exact swap_lemma. Qed.
Print Assumptions C33_swapped_bytes.
Example C33_case : exists w,
  processed (desktop true) test_checksum quiet (Some hd1) [1;1;2;20;10;30;3;67;4] w
  /\ map content (w_log w) = [(MessageB, [VInt 20; VInt 10; VInt 30])].
Proof.
  eexists. split.
  - apply (outcome_processed 60) with (ops := [OpAppend [1;1;2;20;10;30;3;67;4]]) (n := 1). vm_compute. reflexivity.
  - reflexivity.
Qed.

(** ... and a single changed id byte can make another message of part of the frame. *)
Definition id_types := [MType 0 [u8; u8]; MType 1 []; MType 2 [u8]].
Definition id_coll := Collection id_types BasicChecksum.
Theorem C33_id_byte_refuted :
  exists m vs f x y b w, sendable id_coll (m, vs)
    /\ send_all (desktop true) id_coll vector_tx [(m, vs)] [] = Ok f
    /\ f = 1 :: x :: b /\ x <> y /\ 0 <= y < 256
    /\ processed (desktop true) id_coll quiet (Some hd1) (1 :: y :: b) w /\ w_log w <> [].
Proof.
  exists (MType 0 [u8; u8]), [VInt 251; VInt 3]. eexists. eexists. exists 2. eexists. eexists.
  split; [split; cbn; auto|]. split; [reflexivity|]. split; [reflexivity|]. split; [discriminate|]. split; [lia|].
  split.
  - apply (outcome_processed 60) with (ops := [OpAppend [1;2;2;251;3;3;4;4]]) (n := 1). vm_compute. reflexivity.
  - discriminate.
Qed.
Print Assumptions C33_id_byte_refuted.

(** C34: the Basic envelope does not look into the payload: any bytes of the same number,
    control codes included, are delivered as the message's fields. *)
Theorem C34_basic_payload_unprotected :
  forall c coll, static_ok coll = true -> index_safe c (capacity coll) ->
  forall beh h0 pre ms f m id p p' s w, tame beh -> mc_env coll = Basic ->
  is_frame coll f m id p -> length p' = length p -> Scan coll pre ms [] ->
  processed c coll beh h0 (pre ++ ([1; id; 2] ++ p' ++ [3; 4]) ++ s) w ->
  exists ms', Scan coll s ms' (held w)
    /\ Forall2 (delivers (little c)) (ms ++ Found m id p' :: ms') (completed beh [] (w_log w)).
Proof. exact any_payload_lemma. Qed.
Print Assumptions C34_basic_payload_unprotected.
Example C34_case : is_frame test_basic frameB MessageB 1 [10;20;30]
  /\ exists w, processed (desktop true) test_basic quiet (Some hd1) (frameE ++ ([1;1;2] ++ [3;4;1] ++ [3;4]) ++ [1]) w
    /\ map content (w_log w) = [(MessageEmpty, []); (MessageB, [VInt 3; VInt 4; VInt 1])] /\ held w = [1].
Proof.
  split; [apply frameB_is_frame|]. eexists. split; [|split].
  - apply (outcome_processed 60) with (ops := [OpAppend (frameE ++ ([1;1;2] ++ [3;4;1] ++ [3;4]) ++ [1])]) (n := 2). vm_compute. reflexivity.
  - reflexivity.
  - reflexivity.
Qed.

(** C52: a read error of a VRPN port (-1, nothing stored) is taken for 255 bytes.  A
    receiver with 8-bit sizes loses the last byte it holds ... *)
Theorem C52_read_error_drops_refuted :
  forall c coll, static_ok coll = true -> index_safe c (capacity coll) ->
  forall beh h0 ops S rs w X x read fuel, tame beh -> history c coll beh (start coll h0) ops S rs w ->
  (forall n, read n = ([], -1)) -> capacity coll < 256 -> held w = X ++ [x] ->
  exists w', step fuel c coll beh (OpReceive (vrpn_adapter read)) w = Ok (w', RetCount 255)
    /\ held w' = X /\ w_log w' = w_log w.
Proof. exact error_drops. Qed.
Print Assumptions C52_read_error_drops_refuted.
(** ... or, holding none, fails an assertion; ... *)
Theorem C52_read_error_asserts :
  forall c coll, static_ok coll = true -> index_safe c (capacity coll) ->
  forall beh h0 ops S rs w read fuel, tame beh -> history c coll beh (start coll h0) ops S rs w ->
  (forall n, read n = ([], -1)) -> capacity coll < 255 -> held w = [] -> aborts c = true ->
  step fuel c coll beh (OpReceive (vrpn_adapter read)) w = AssertFail.
Proof. exact error_asserts. Qed.
Print Assumptions C52_read_error_asserts.
(** ... one with room for 255 bytes gets as many that nobody sent. *)
Theorem C52_read_error_invents_refuted :
  forall c coll, static_ok coll = true -> index_safe c (capacity coll) ->
  forall beh h0 ops S rs w read fuel, tame beh -> history c coll beh (start coll h0) ops S rs w ->
  (forall n, read n = ([], -1)) -> 255 <= rx_available coll (w_rx w) ->
  exists w' d, step fuel c coll beh (OpReceive (vrpn_adapter read)) w = Ok (w', RetCount 255)
    /\ held w' = held w ++ d /\ zlen d = 255 /\ w_log w' = w_log w.
Proof. exact error_invents. Qed.
Print Assumptions C52_read_error_invents_refuted.
(** With less room the content ends at its size plus 255, modulo the range of the size type: where that is inside of
    the array all bytes from there on are lost (in a receiver with 16-bit sizes more than 65000 of them), elsewhere an
    assertion fails; where none stops the program, the content then ends outside of the array. *)
Theorem C52_read_error_overruns_refuted :
  forall c coll, static_ok coll = true -> index_safe c (capacity coll) ->
  forall beh h0 ops S rs w read fuel bits, tame beh -> history c coll beh (start coll h0) ops S rs w ->
  (forall n, read n = ([], -1)) -> size_type (capacity coll) bits -> rx_available coll (w_rx w) < 255 ->
  let e := (zlen (held w) + 255) mod 2 ^ bits in
  if e <=? capacity coll
  then e < zlen (held w)
       /\ exists w', step fuel c coll beh (OpReceive (vrpn_adapter read)) w = Ok (w', RetCount 255)
            /\ held w' = firstn (Z.to_nat e) (held w) /\ w_log w' = w_log w
  else if aborts c then step fuel c coll beh (OpReceive (vrpn_adapter read)) w = AssertFail
  else exists w', step fuel c coll beh (OpReceive (vrpn_adapter read)) w = Ok (w', RetCount 255)
         /\ capacity coll < rb_pastEnd (er_buf (rx_recv (w_rx w'))).
Proof. exact error_overruns. Qed.
Print Assumptions C52_read_error_overruns_refuted.
(** The smaller protocol loses the end of its frame; one with a 100-byte message gets the
    message it handled before once more, out of the old array content. *)
Definition long_basic := Collection [MType 0 []; MType 1 [TRaw 100]] Basic.
Definition broken_port : Z -> list Z * Z := fun _ => ([], -1).
Example C52_case :
  capacity test_basic = 51 /\ capacity long_basic = 315
  /\ (exists S rs w w', history (desktop true) test_basic quiet (start test_basic (Some hd1)) [OpAppend frameE] S rs w
       /\ step 1 (desktop true) test_basic quiet (OpReceive (vrpn_adapter broken_port)) w = Ok (w', RetCount 255)
       /\ held w' = [1;4;2;3])
  /\ exists S rs w w' w'', history (desktop true) long_basic quiet (start long_basic (Some hd1))
         [OpAppend [1;0;2;3;4]; OpProcess] S rs w
       /\ step 1 (desktop true) long_basic quiet (OpReceive (vrpn_adapter broken_port)) w = Ok (w', RetCount 255)
       /\ step 400 (desktop true) long_basic quiet OpProcess w' = Ok (w'', RetProcess (Returned 1))
       /\ length (w_log w) = 1%nat /\ length (w_log w'') = 2%nat.
Proof.
  split; [reflexivity|]. split; [reflexivity|]. split.
  - eexists. eexists. eexists. eexists. split; [apply (checked_history 60); vm_compute; reflexivity|].
    split; vm_compute; reflexivity.
  - eexists. eexists. eexists. eexists. eexists. split; [apply (checked_history 400); vm_compute; reflexivity|].
    split; [vm_compute; reflexivity|]. split; [vm_compute; reflexivity|]. split; reflexivity.
Qed.

(** The protocol with a 100-byte message, 100 bytes waiting in its buffer: the content ends at 355 of 315;
    the next append is outside of the array. *)
Example C52_overrun_case : size_type (capacity long_basic) 16
  /\ exists S rs w w', history (desktop false) long_basic quiet (start long_basic (Some hd1)) [OpAppend (repeat 0 100)] S rs w
       /\ rx_available long_basic (w_rx w) = 215
       /\ step 1 (desktop false) long_basic quiet (OpReceive (vrpn_adapter broken_port)) w = Ok (w', RetCount 255)
       /\ rb_pastEnd (er_buf (rx_recv (w_rx w'))) = 355
       /\ step 1 (desktop false) long_basic quiet (OpAppend [7]) w' = UB.
Proof.
  split.
  - split; [cbn; auto|]. split; [reflexivity|]. intros v Hv. change (capacity long_basic) with 315. cbn in Hv. intuition subst; lia.
  - eexists. eexists. eexists. eexists. split; [apply (checked_history 60); vm_compute; reflexivity|].
    split; [reflexivity|]. split; [vm_compute; reflexivity|]. split; vm_compute; reflexivity.
Qed.

(** A protocol with a 21800-byte message, 65400 bytes waiting: 119 are left. *)
Definition wide_basic := Collection [MType 0 [TRaw (Z.to_nat 21800)]] Basic.
Example C52_wrap_case : size_type (capacity wide_basic) 16 /\ static_ok wide_basic = true
  /\ exists S rs w w', history (desktop true) wide_basic quiet (start wide_basic (Some hd1)) [OpAppend (repeat 0 (Z.to_nat 65400))] S rs w
       /\ rx_available wide_basic (w_rx w) = 15 /\ zlen (held w) = 65400
       /\ step 1 (desktop true) wide_basic quiet (OpReceive (vrpn_adapter broken_port)) w = Ok (w', RetCount 255)
       /\ zlen (held w') = 119.
Proof.
  assert (capacity wide_basic = 65415) as E by (vm_compute; reflexivity).
  assert (static_ok wide_basic = true) as Hst by (vm_compute; reflexivity).
  assert (index_safe (desktop true) (capacity wide_basic)) as Hs by (rewrite E; left; reflexivity).
  assert (zlen (repeat 0 (Z.to_nat 65400)) = 65400) as Hz by (unfold zlen; rewrite repeat_length, Z2Nat.id by lia; reflexivity).
  assert (bytes_ok (repeat 0 (Z.to_nat 65400))) as Hb.
  { apply Forall_forall. intros x Hx. apply repeat_spec in Hx. subst x. split; reflexivity || discriminate. }
  assert (size_type (capacity wide_basic) 16) as Hbits.
  { rewrite E; split; [cbn; auto|]; split; [reflexivity|]; intros v Hv; cbn in Hv; intuition subst; lia. }
  split; [exact Hbits|]. split; [exact Hst|].
  generalize dependent (repeat 0 (Z.to_nat 65400)). intros d Hz Hb.
  assert (zlen d <= capacity wide_basic) as Hd by (rewrite E, Hz; discriminate).
  assert (capacity wide_basic - zlen d < 255) as H255 by (rewrite E, Hz; reflexivity).
  assert ((zlen d + 255) mod 2 ^ 16 = 119) as He by (rewrite Hz; reflexivity).
  assert ((zlen d + 255) mod 2 ^ 16 <= capacity wide_basic) as He2 by (rewrite He, E; discriminate).
  destruct (error_wrap_run (desktop true) wide_basic Hst Hs quiet hd1 d broken_port 16 quiet_tame Hb Hd H255 Hbits (fun _ => eq_refl) He2)
    as (S & rs & w & w' & H1 & H2 & H3 & H4 & H5).
  rewrite E, Hz in H2. rewrite He in H5. exists S, rs, w, w'. rewrite H3.
  split; [exact H1|]. split; [exact H2|]. split; [exact Hz|]. split; [exact H4|exact H5].
Qed.

(** C65: the checksum envelope with any damage to payload and checksum byte: a frame with payload
    [p] and checksum byte [k] at a frame boundary is delivered, with these payload bytes, if [k] is
    the sum of the other bytes modulo 256; otherwise its first byte is passed over and the search
    goes on at the second. *)
Theorem C65_payload_damage :
  forall c coll, static_ok coll = true -> index_safe c (capacity coll) ->
  forall beh h0 pre ms m id p k s w, tame beh -> mc_env coll = BasicChecksum ->
  has_id coll m id -> length p = payload_size m -> Scan coll pre ms [] ->
  processed c coll beh h0 (pre ++ ([1; id; 2] ++ p ++ [3; k; 4]) ++ s) w ->
  ((id + zsum p + 6) mod 256 = k ->
     exists ms', Scan coll s ms' (held w)
       /\ Forall2 (delivers (little c)) (ms ++ Found m id p :: ms') (completed beh [] (w_log w)))
  /\ ((id + zsum p + 6) mod 256 <> k ->
     exists ms', Scan coll ([id; 2] ++ p ++ [3; k; 4] ++ s) ms' (held w)
       /\ Forall2 (delivers (little c)) (ms ++ ms') (completed beh [] (w_log w))).
Proof. exact payload_corruption_lemma. Qed.
Print Assumptions C65_payload_damage.
(** MessageB(10,20,30), its payload damaged to 40,255,21 (same sum modulo 256) and to 40,20,40. *)
Example C65_case : exists w v,
  (1 + zsum [40;255;21] + 6) mod 256 = 67 /\ (1 + zsum [40;20;40] + 6) mod 256 <> 67
  /\ processed (desktop true) test_checksum quiet (Some hd1) ([1;1;2;40;255;21;3;67;4] ++ [1]) w
  /\ map content (w_log w) = [(MessageB, map VInt [40;255;21])] /\ held w = [1]
  /\ processed (desktop true) test_checksum quiet (Some hd1) ([1;1;2;40;20;40;3;67;4] ++ [1]) v
  /\ w_log v = [] /\ held v = [1].
Proof.
  eexists. eexists. split; [reflexivity|]. split; [discriminate|]. split; [|split; [|split; [|split; [|split]]]].
  - apply (outcome_processed 60) with (n := 1) (ops := [OpAppend ([1;1;2;40;255;21;3;67;4] ++ [1])]). vm_compute. reflexivity.
  - vm_compute. reflexivity.
  - vm_compute. reflexivity.
  - apply (outcome_processed 60) with (n := 0) (ops := [OpAppend ([1;1;2;40;20;40;3;67;4] ++ [1])]). vm_compute. reflexivity.
  - vm_compute. reflexivity.
  - vm_compute. reflexivity.
Qed.

(** C66: the bytes given to a receiver are those consumed followed by those held; the
    consumed ones contain, one after the other without overlap, a frame for every handler
    call that did not throw.  Every other handler call is the end of a processMessages
    that threw. *)
Theorem C66_accounting :
  forall c coll, static_ok coll = true -> index_safe c (capacity coll) ->
  forall beh h0 ops S rs w, tame beh -> history c coll beh (start coll h0) ops S rs w ->
  exists used ms, S = used ++ held w /\ occurs coll ms used
    /\ Forall2 (delivers (little c)) ms (completed beh [] (w_log w))
    /\ zlen (w_log w) = zlen (completed beh [] (w_log w)) + zlen (throws rs).
Proof. exact account_lemma. Qed.
Print Assumptions C66_accounting.
(** ... so the handler is called at most once per five bytes received, and once more for
    every processMessages that threw. *)
Theorem C66_call_bound :
  forall c coll, static_ok coll = true -> index_safe c (capacity coll) ->
  forall beh h0 ops S rs w, tame beh -> history c coll beh (start coll h0) ops S rs w ->
  frame_bytes coll (completed beh [] (w_log w)) + zlen (held w) <= zlen S
  /\ 5 * (zlen (w_log w) - zlen (throws rs)) + zlen (held w) <= zlen S.
Proof. exact call_bound_lemma. Qed.
Print Assumptions C66_call_bound.
(** The first call throws; both bounds are reached but for the byte of noise. *)
Example C66_case : exists S rs w,
  history (desktop true) test_basic throws_once (start test_basic (Some hd1))
    [OpAppend (9 :: frameE ++ [1;4]); OpProcess; OpProcess] S rs w
  /\ zlen (w_log w) = 2 /\ zlen (throws rs) = 1 /\ held w = [1;4] /\ zlen S = 8
  /\ frame_bytes test_basic (completed throws_once [] (w_log w)) = 5.
Proof.
  eexists. eexists. eexists. split.
  - apply (checked_history 60). vm_compute. reflexivity.
  - vm_compute. repeat split.
Qed.

(** C67: more bytes never change what was delivered before; what is delivered of them
    depends on the bytes held, not on anything else in the past. *)
Theorem C67_future :
  forall c coll, static_ok coll = true -> index_safe c (capacity coll) ->
  forall c2 beh beh2 h0 h1 S T w v, index_safe c2 (capacity coll) -> little c2 = little c ->
  tame beh -> tame beh2 ->
  processed c coll beh h0 S w -> processed c2 coll beh2 h1 (S ++ T) v ->
  exists ms later, Scan coll (held w ++ T) ms (held v)
    /\ Forall2 (delivers (little c)) ms later
    /\ map content (completed beh2 [] (w_log v)) = map content (completed beh [] (w_log w)) ++ map content later.
Proof. exact future_lemma. Qed.
Print Assumptions C67_future.
(** A message split in the middle: the first receiver stopped there. *)
Example C67_case : exists w v,
  processed (desktop true) test_basic quiet (Some hd1) (frameB ++ [1;4]) w
  /\ processed (avr false) test_basic throws_once (Some hd2) ((frameB ++ [1;4]) ++ [2;3;4;9;1]) v
  /\ held w = [1;4] /\ held v = [1]
  /\ map content (w_log w) = [(MessageB, map VInt [10;20;30])]
  /\ map content (w_log v) = [(MessageB, map VInt [10;20;30]); (MessageB, map VInt [10;20;30]); (MessageEmpty, [])].
Proof.
  eexists. eexists. split; [|split].
  - apply (outcome_processed 60) with (n := 1) (ops := [OpAppend (frameB ++ [1;4])]). vm_compute. reflexivity.
  - apply (outcome_processed 60) with (n := 2) (ops := [OpAppend (frameB ++ [1;4]); OpProcess; OpAppend [2;3;4;9;1]]). vm_compute. reflexivity.
  - vm_compute. repeat split.
Qed.

(** C68: a frame that lost a byte behind its id, with something other than EOT following, is not
    delivered: its first byte is passed over and the search goes on at the second.  If the rest
    has no start code, only this message is lost. *)
Theorem C68_lost_byte :
  forall c coll, static_ok coll = true -> index_safe c (capacity coll) ->
  forall beh h0 pre ms f m id p a x b y s w, tame beh -> is_frame coll f m id p ->
  f = [1; id] ++ a ++ x :: b -> y <> 4 -> Scan coll pre ms [] ->
  processed c coll beh h0 (pre ++ ([1; id] ++ a ++ b) ++ y :: s) w ->
  exists ms', Scan coll ((id :: a ++ b) ++ y :: s) ms' (held w)
    /\ Forall2 (delivers (little c)) (ms ++ ms') (completed beh [] (w_log w))
    /\ (~ In 1 (id :: a ++ b) -> Scan coll (y :: s) ms' (held w)).
Proof. exact lost_lemma. Qed.
Print Assumptions C68_lost_byte.
(** MessageA(7,8,9) loses its last payload byte. *)
Example C68_case :
  is_frame test_basic [1;0;2;7;8;9;0;3;4] MessageA 0 [7;8;9;0]
  /\ ~ In 1 (0 :: [2;7;8;9] ++ [3;4])
  /\ exists w, processed (desktop true) test_basic quiet (Some hd1)
       (frameE ++ ([1;0] ++ [2;7;8;9] ++ [3;4]) ++ 1 :: [1;2;10;20;30;3;4]) w
  /\ map content (w_log w) = [(MessageEmpty, []); (MessageB, map VInt [10;20;30])].
Proof.
  split; [split; [split; [discriminate | reflexivity] | split; reflexivity]|]. split; [cbn; lia|]. eexists. split.
  - apply (outcome_processed 60) with (n := 2)
      (ops := [OpAppend (frameE ++ ([1;0] ++ [2;7;8;9] ++ [3;4]) ++ 1 :: [1;2;10;20;30;3;4])]). vm_compute. reflexivity.
  - reflexivity.
Qed.
(** Without its start code, or without its id, a frame can become one of another message. *)
Definition loss_types := [MType 0 []; MType 1 [u8; u8; u8]; MType 2 [u8; u8]].
Theorem C68_lost_header_refuted :
  forall k, (k < 2)%nat ->
  let coll := Collection loss_types Basic in
  exists m vs f w, sendable coll (m, vs)
    /\ send_all (desktop true) coll vector_tx [(m, vs)] [] = Ok f
    /\ processed (desktop true) coll quiet (Some hd1) (firstn k f ++ skipn (k + 1) f) w
    /\ w_log w <> [] /\ ~ In (m, vs) (map content (w_log w)).
Proof.
  intros k Hk coll. exists (MType 1 [u8; u8; u8]), (map VInt [2; 8; 9]). eexists. eexists.
  split; [split; cbn; auto|]. split; [vm_compute; reflexivity|].
  replace (firstn k [1;1;2;2;8;9;3;4] ++ skipn (k + 1) [1;1;2;2;8;9;3;4]) with [1;2;2;8;9;3;4]
    by (destruct k as [|[|k]]; [reflexivity | reflexivity | lia]).
  split.
  - apply (outcome_processed 60) with (ops := [OpAppend [1;2;2;8;9;3;4]]) (n := 1). vm_compute. reflexivity.
  - split; [discriminate|]. vm_compute. intros [H|[]]. discriminate.
Qed.
Print Assumptions C68_lost_header_refuted.

(** C69: a byte inserted behind the id, before the end of the frame: either the frame is still there,
    followed by an EOT, or it is not delivered and the search goes on at its second byte.  (With
    BasicChecksum: unless the checksum happens to be 4.) *)
Theorem C69_extra_byte :
  forall c coll, static_ok coll = true -> index_safe c (capacity coll) ->
  forall beh h0 pre ms f m id p a x b s w, tame beh -> is_frame coll f m id p ->
  f = [1; id] ++ a ++ b -> b <> [] ->
  (mc_env coll = BasicChecksum -> (id + zsum p + 6) mod 256 <> 4) ->
  [1; id] ++ a ++ x :: b <> f ++ [4] -> Scan coll pre ms [] ->
  processed c coll beh h0 (pre ++ ([1; id] ++ a ++ x :: b) ++ s) w ->
  exists ms', Scan coll ((id :: a ++ x :: b) ++ s) ms' (held w)
    /\ Forall2 (delivers (little c)) (ms ++ ms') (completed beh [] (w_log w))
    /\ (~ In 1 (id :: a ++ x :: b) -> Scan coll s ms' (held w)).
Proof. exact extra_lemma. Qed.
Print Assumptions C69_extra_byte.
(** A second ETX in a checksummed MessageA(7,8,9). *)
Example C69_case :
  is_frame test_checksum [1;0;2;7;8;9;0;3;30;4] MessageA 0 [7;8;9;0]
  /\ (0 + zsum [7;8;9;0] + 6) mod 256 <> 4
  /\ ~ In 1 (0 :: [2;7;8;9;0;3] ++ 3 :: [30;4])
  /\ exists w, processed (desktop true) test_checksum quiet (Some hd1)
       ([] ++ ([1;0] ++ [2;7;8;9;0;3] ++ 3 :: [30;4]) ++ frameBc) w
  /\ map content (w_log w) = [(MessageB, map VInt [10;20;30])].
Proof.
  split; [split; [split; [discriminate | reflexivity] | split; reflexivity]|]. split; [discriminate|].
  split; [cbn; lia|]. eexists. split.
  - apply (outcome_processed 60) with (n := 1)
      (ops := [OpAppend (([1;0] ++ [2;7;8;9;0;3] ++ 3 :: [30;4]) ++ frameBc)]). vm_compute. reflexivity.
  - reflexivity.
Qed.
(** The exception is real: one byte more in the payload, and another payload is delivered. *)
Theorem C69_checksum_4_refuted :
  let coll := Collection [MType 0 [u8; u8]] BasicChecksum in
  exists m vs f a x b w, sendable coll (m, vs)
    /\ send_all (desktop true) coll vector_tx [(m, vs)] [] = Ok f /\ f = [1; 0; 2] ++ a ++ b
    /\ processed (desktop true) coll quiet (Some hd1) ([1; 0; 2] ++ a ++ x :: b) w
    /\ w_log w <> [] /\ ~ In (m, vs) (map content (w_log w)).
Proof.
  cbv zeta. exists (MType 0 [u8; u8]), (map VInt [251; 3]). eexists. exists [], 2, [251;3;3;4;4]. eexists.
  split; [split; cbn; auto|]. split; [vm_compute; reflexivity|]. split; [reflexivity|]. split.
  - apply (outcome_processed 60) with (ops := [OpAppend [1;0;2;2;251;3;3;4;4]]) (n := 1). vm_compute. reflexivity.
  - split; [discriminate|]. vm_compute. intros [H|[]]. discriminate.
Qed.
Print Assumptions C69_checksum_4_refuted.

(** C74: a frame of either envelope with one of the codes SOH, STX, ETX, EOT changed is not delivered;
    scanning continues at its second byte, and finds the frames behind it if no SOH is in the way. *)
Theorem C74_control_code :
  forall c coll, static_ok coll = true -> index_safe c (capacity coll) ->
  forall beh h0 pre ms f m id p a x y b s w, tame beh -> is_frame coll f m id p ->
  f = a ++ x :: b -> x <> y ->
  In (length a) [0; 2; 3 + payload_size m; frame_size (mc_env coll) m - 1]%nat -> Scan coll pre ms [] ->
  processed c coll beh h0 (pre ++ (a ++ y :: b) ++ s) w ->
  exists ms', Scan coll (tl (a ++ y :: b) ++ s) ms' (held w)
    /\ Forall2 (delivers (little c)) (ms ++ ms') (completed beh [] (w_log w))
    /\ (~ In 1 (tl (a ++ y :: b)) -> Scan coll s ms' (held w)).
Proof. exact control_lemma. Qed.
Print Assumptions C74_control_code.

(** The same if the id is changed to one that the collection does not have. *)
Theorem C74_unknown_id :
  forall c coll, static_ok coll = true -> index_safe c (capacity coll) ->
  forall beh h0 pre ms f m id p y t s w, tame beh -> is_frame coll f m id p ->
  f = 1 :: id :: t -> (forall m', ~ has_id coll m' y) -> Scan coll pre ms [] ->
  processed c coll beh h0 (pre ++ (1 :: y :: t) ++ s) w ->
  exists ms', Scan coll ((y :: t) ++ s) ms' (held w)
    /\ Forall2 (delivers (little c)) (ms ++ ms') (completed beh [] (w_log w))
    /\ (~ In 1 (y :: t) -> Scan coll s ms' (held w)).
Proof. exact unknown_id_lemma. Qed.
Print Assumptions C74_unknown_id.

(** An id changed to another valid one, without a checksum: a message of the same size is delivered in place
    of the one sent, so is a smaller one if ETX EOT are where it ends, and for a larger one the receiver
    delivers nothing and waits until that many bytes have come. *)
Theorem C74_other_id :
  forall c coll, static_ok coll = true -> index_safe c (capacity coll) ->
  forall beh h0 pre ms f m id p y m' s w, tame beh -> mc_env coll = Basic -> is_frame coll f m id p ->
  has_id coll m' y -> Scan coll pre ms [] ->
  processed c coll beh h0 (pre ++ ([1; y; 2] ++ p ++ [3; 4]) ++ s) w ->
  (payload_size m' = payload_size m ->
     exists ms', Scan coll s ms' (held w)
       /\ Forall2 (delivers (little c)) (ms ++ Found m' y p :: ms') (completed beh [] (w_log w)))
  /\ (forall p' t, p = p' ++ [3; 4] ++ t -> length p' = payload_size m' ->
     exists ms', Scan coll ((t ++ [3; 4]) ++ s) ms' (held w)
       /\ Forall2 (delivers (little c)) (ms ++ Found m' y p' :: ms') (completed beh [] (w_log w)))
  /\ ((payload_size m + length s < payload_size m')%nat ->
     held w = ([1; y; 2] ++ p ++ [3; 4]) ++ s
     /\ Forall2 (delivers (little c)) ms (completed beh [] (w_log w))).
Proof. exact other_id_lemma. Qed.
Print Assumptions C74_other_id.

(** MessageB followed by MessageEmpty; ETX of the first changed, its id changed to 200, to that of MessageD
    (same size), and, for payload 3,4,9, to that of MessageEmpty. *)
Example C74_case :
  is_frame test_basic frameB MessageB 1 [10;20;30]
  /\ In (length [1;1;2;10;20;30]) [0; 2; 3 + payload_size MessageB; frame_size Basic MessageB - 1]%nat
  /\ (forall m', ~ has_id test_basic m' 200)
  /\ exists w1 w2 w3 w4 w5,
     processed (desktop true) test_basic quiet (Some hd1) ([1;1;2;10;20;30;0;4] ++ frameE) w1
  /\ processed (desktop true) test_basic quiet (Some hd1) ([1;200;2;10;20;30;3;4] ++ frameE) w2
  /\ processed (desktop true) test_basic quiet (Some hd1) ([1;3;2;10;20;30;3;4] ++ frameE) w3
  /\ processed (desktop true) test_basic quiet (Some hd1) ([1;4;2;3;4;9;3;4] ++ frameE) w4
  /\ processed (desktop true) test_basic quiet (Some hd1) [1;5;2;10;20;30;3;4] w5
  /\ map content (w_log w1) = [(MessageEmpty, [])] /\ map content (w_log w2) = [(MessageEmpty, [])]
  /\ map content (w_log w3) = [(MessageD, map VInt [10;20;30]); (MessageEmpty, [])]
  /\ map content (w_log w4) = [(MessageEmpty, []); (MessageEmpty, [])]
  /\ w_log w5 = [] /\ held w5 = [1;5;2;10;20;30;3;4].
Proof.
  split; [apply frameB_is_frame|]. split; [cbn; auto|].
  split; [intros m' (_ & H); vm_compute in H; discriminate|].
  do 5 eexists. repeat match goal with |- _ /\ _ => split end.
  - apply (outcome_processed 60) with (n := 1) (ops := [OpAppend ([1;1;2;10;20;30;0;4] ++ frameE)]). vm_compute. reflexivity.
  - apply (outcome_processed 60) with (n := 1) (ops := [OpAppend ([1;200;2;10;20;30;3;4] ++ frameE)]). vm_compute. reflexivity.
  - apply (outcome_processed 60) with (n := 2) (ops := [OpAppend ([1;3;2;10;20;30;3;4] ++ frameE)]). vm_compute. reflexivity.
  - apply (outcome_processed 60) with (n := 2) (ops := [OpAppend ([1;4;2;3;4;9;3;4] ++ frameE)]). vm_compute. reflexivity.
  - apply (outcome_processed 60) with (n := 0) (ops := [OpAppend [1;5;2;10;20;30;3;4]]). vm_compute. reflexivity.
  - reflexivity.
  - reflexivity.
  - reflexivity.
  - reflexivity.
  - reflexivity.
  - reflexivity.
Qed.
