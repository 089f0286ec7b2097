(** Properties C35-C45, C50, C51, C58: counts, ids, handlers and copies.  See PropStream.v for [history]
    and [processed]. *)
From Verif Require Import Runs.

(** C35: processMessages returns the number of handler calls it made, modulo 256 ... *)
Theorem C35_count_mod_256 :
  forall c coll, static_ok coll = true -> index_safe c (capacity coll) ->
  forall beh h0 ops S rs w w' k, tame beh -> history c coll beh (start coll h0) ops S rs w ->
  returns c coll beh OpProcess w w' (RetProcess (Returned k)) ->
  k = zlen (new_calls w w') mod 256.
Proof. exact count_lemma. Qed.
Print Assumptions C35_count_mod_256.

(** ... which is their number when the buffer cannot hold 256 of the smallest frames ... *)
Theorem C35_count_exact :
  forall c coll, static_ok coll = true -> index_safe c (capacity coll) ->
  forall beh h0 ops S rs w w' k q, tame beh ->
  (forall log, appended (hr_acts (beh log)) = []) ->
  (forall m, In m (mc_types coll) -> q <= Z.of_nat (frame_size (mc_env coll) m)) ->
  capacity coll < 256 * q ->
  history c coll beh (start coll h0) ops S rs w ->
  returns c coll beh OpProcess w w' (RetProcess (Returned k)) ->
  k = zlen (new_calls w w').
Proof. exact count_exact_lemma. Qed.
Print Assumptions C35_count_exact.
Example C35_case :
  (forall m, In m (mc_types test_basic) -> 5 <= Z.of_nat (frame_size (mc_env test_basic) m))
  /\ capacity test_basic < 256 * 5
  /\ exists S rs w w', history (desktop true) test_basic quiet (start test_basic (Some hd1))
       [OpAppend (concat (repeat [1;4;2;3;4] 10))] S rs w
     /\ returns (desktop true) test_basic quiet OpProcess w w' (RetProcess (Returned 10)).
Proof.
  split; [|split; [reflexivity|]].
  - intros m Hm. cbn in Hm. intuition; subst; cbn; lia.
  - eexists. eexists. eexists. eexists. split.
    + apply (checked_history 60). vm_compute. reflexivity.
    + exists 60%nat. vm_compute. reflexivity.
Qed.

(** ... but wrong otherwise: 256 messages delivered, 0 returned. *)
Definition big_types := [MType 0 []; MType 1 [TRaw 425]].
Definition big_basic := Collection big_types Basic.
Definition frames256 : list Z := concat (repeat [1;0;2;3;4] 256).
Theorem C35_count_refuted :
  exists c coll ops S rs w w', static_ok coll = true /\ index_safe c (capacity coll)
    /\ history c coll quiet (start coll (Some hd1)) ops S rs w
    /\ returns c coll quiet OpProcess w w' (RetProcess (Returned 0))
    /\ length (new_calls w w') = 256%nat.
Proof.
  exists (desktop true), big_basic, [OpAppend frames256]. eexists. eexists. eexists. eexists.
  split; [reflexivity|]. split; [left; reflexivity|]. split; [|split].
  - apply (checked_history 300). vm_compute. reflexivity.
  - exists 300%nat. vm_compute. reflexivity.
  - vm_compute. reflexivity.
Qed.
Print Assumptions C35_count_refuted.

(** C36: the last message id is that of the frame of the last handler call, none before
    the first one. *)
Theorem C36_last_id :
  forall c coll, static_ok coll = true -> index_safe c (capacity coll) ->
  forall beh h0 ops S rs w, tame beh -> history c coll beh (start coll h0) ops S rs w ->
  (w_log w = [] /\ rx_last_id (w_rx w) = None)
  \/ exists l d pre f fd post, w_log w = l ++ [d] /\ rx_last_id (w_rx w) = Some (f_id fd)
       /\ S = pre ++ f ++ post /\ is_frame coll f (f_message fd) (f_id fd) (f_payload fd)
       /\ delivers (little c) fd d.
Proof. exact last_id_lemma. Qed.
Print Assumptions C36_last_id.
Example C36_case :
  exists S rs w, history (desktop true) test_basic quiet (start test_basic (Some hd1))
       [OpAppend [1;4;2;3;4]; OpProcess; OpAppend [1;1;2;5;6;7;3;4;1;2]; OpProcess; OpClearHandler; OpAppend [2;0]] S rs w
     /\ rx_last_id (w_rx w) = Some 1.
Proof. eexists. eexists. eexists. split; [apply (checked_history 60); vm_compute; reflexivity | reflexivity]. Qed.

(** C37: without a handler processMessages changes nothing ... *)
Theorem C37_no_handler :
  forall c coll beh fuel w, rx_has_handler (w_rx w) = false ->
  step fuel c coll beh OpProcess w = Ok (w, RetProcess (Returned 0)).
Proof. exact process_none. Qed.
Print Assumptions C37_no_handler.

(** ... and every handler call goes to the handler set at the time ([served]); only
    processMessages makes calls; the other operations only add the bytes received. *)
Theorem C37_handlers :
  forall c coll, static_ok coll = true -> index_safe c (capacity coll) ->
  forall beh h0 ops S rs w o w' r, tame beh -> history c coll beh (start coll h0) ops S rs w ->
  allowed coll o w -> returns c coll beh o w w' r ->
  w_log w' = w_log w ++ new_calls w w'
  /\ served beh (w_log w) (rx_functor (w_rx w)) (new_calls w w')
            (match o with OpProcess => rx_functor (w_rx w') | _ => rx_functor (w_rx w) end)
  /\ match o with
     | OpSetHandler h => rx_functor (w_rx w') = Some h
     | OpClearHandler => rx_functor (w_rx w') = None
     | OpProcess => True
     | _ => rx_functor (w_rx w') = rx_functor (w_rx w)
     end
  /\ (o <> OpProcess -> new_calls w w' = [] /\ rx_last_id (w_rx w') = rx_last_id (w_rx w)
        /\ held w' = held w ++ received coll beh o w w').
Proof. exact handler_lemma. Qed.
Print Assumptions C37_handlers.

(** A handler that installs [hd2] at its first call. *)
Definition hands_over : hbehav :=
  fun log => HResult (if Nat.eqb (length log) 1 then [ASetHandler hd2] else []) false.
Definition three_frames : list Z := [1;4;2;3;4; 1;1;2;5;6;7;3;4; 1;4;2;3;4].
Example C37_case :
  tame hands_over
  /\ rx_has_handler (w_rx (start test_basic None)) = false
  /\ exists S rs w w', history (desktop true) test_basic hands_over (start test_basic None)
       [OpAppend three_frames; OpProcess; OpSetHandler hd1] S rs w
     /\ returns (desktop true) test_basic hands_over OpProcess w w' (RetProcess (Returned 3))
     /\ map d_handler (new_calls w w') = [hd1; hd2; hd2].
Proof.
  split; [intros log a H; unfold hands_over in H; destruct (Nat.eqb (length log) 1); cbn in H; intuition; subst; exact I|].
  split; [reflexivity|].
  eexists. eexists. eexists. eexists. split; [|split].
  - apply (checked_history 60). vm_compute. reflexivity.
  - exists 60%nat. vm_compute. reflexivity.
  - reflexivity.
Qed.

(** C38: when the handler throws, its message [f] is still the first one in the buffer,
    followed by everything received later; the calls before it were for the frames before
    it; the next processMessages begins with the same message. *)
Theorem C38_throwing_handler :
  forall c coll, static_ok coll = true -> index_safe c (capacity coll) ->
  forall beh h0 ops S rs w w1, tame beh -> history c coll beh (start coll h0) ops S rs w ->
  returns c coll beh OpProcess w w1 (RetProcess Threw) ->
  exists ms f fd rest l d,
    held w1 = f ++ rest /\ is_frame coll f (f_message fd) (f_id fd) (f_payload fd)
    /\ w_log w1 = w_log w ++ l ++ [d] /\ delivers (little c) fd d
    /\ hr_throws (beh (w_log w1)) = true
    /\ rx_last_id (w_rx w1) = Some (f_id fd)
    /\ Forall2 (delivers (little c)) ms l
    /\ Consumed coll (held w ++ appended_by beh (w_log w) (l ++ [d])) ms (held w1)
    /\ forall w2 r, rx_has_handler (w_rx w1) = true -> returns c coll beh OpProcess w1 w2 r ->
         exists d' new, w_log w2 = w_log w1 ++ d' :: new /\ content d' = content d
           /\ rx_functor (w_rx w1) = Some (d_handler d').
Proof. exact throw_lemma. Qed.
Print Assumptions C38_throwing_handler.
(** A handler that throws at its second call. *)
Definition throws_second : hbehav := fun log => HResult [] (Nat.eqb (length log) 2).
Example C38_case :
  tame throws_second
  /\ exists S rs w w1 w2, history (desktop true) test_basic throws_second (start test_basic (Some hd1))
       [OpAppend three_frames] S rs w
     /\ returns (desktop true) test_basic throws_second OpProcess w w1 (RetProcess Threw)
     /\ returns (desktop true) test_basic throws_second OpProcess w1 w2 (RetProcess (Returned 2))
     /\ held w1 = [1;1;2;5;6;7;3;4; 1;4;2;3;4]
     /\ map d_message (w_log w2) = [MessageEmpty; MessageB; MessageB; MessageEmpty].
Proof.
  split; [intros log a H; destruct H|]. eexists. eexists. eexists. eexists. eexists. split; [|split; [|split]].
  - apply (checked_history 60). vm_compute. reflexivity.
  - exists 60%nat. vm_compute. reflexivity.
  - exists 60%nat. vm_compute. reflexivity.
  - split; vm_compute; reflexivity.
Qed.

(** C39: after a handler call that leaves no handler set, with another complete message
    in the buffer, processMessages calls through a null pointer ... *)
Theorem C39_clear_inside_handler :
  forall c coll, static_ok coll = true -> index_safe c (capacity coll) ->
  forall beh h0 ops S rs w h fd1 fd2 ms r vs fuel, tame beh ->
  history c coll beh (start coll h0) ops S rs w ->
  rx_functor (w_rx w) = Some h -> Scan coll (held w) (fd1 :: fd2 :: ms) r ->
  encodes (little c) (mt_fields (f_message fd1)) vs (f_payload fd1) ->
  let hr := beh (w_log w ++ [Delivery h (f_message fd1) vs]) in
  hr_throws hr = false -> appended (hr_acts hr) = [] -> handler_after (hr_acts hr) (Some h) = None ->
  (2 <= fuel)%nat -> step fuel c coll beh OpProcess w = UB.
Proof. exact clear_lemma. Qed.
Print Assumptions C39_clear_inside_handler.

(** ... as with a handler that clears itself at the first of two messages. *)
Definition clears : hbehav := fun _ => HResult [AClearHandler] false.
Theorem C39_clear_refuted :
  exists c coll beh ops S rs w, static_ok coll = true /\ tame beh
    /\ history c coll beh (start coll (Some hd1)) ops S rs w
    /\ (forall a log, In a (hr_acts (beh log)) -> a = AClearHandler)
    /\ forall fuel, (2 <= fuel)%nat -> step fuel c coll beh OpProcess w = UB.
Proof.
  exists (desktop true), test_basic, clears, [OpAppend three_frames]. eexists. eexists. eexists.
  assert (tame clears) as Ht by (intros log a [<-|[]]; exact I).
  assert (history (desktop true) test_basic clears (start test_basic (Some hd1)) [OpAppend three_frames]
            (three_frames ++ []) [RetUnit] (World (Receiver (ERB None (RBuf 0 18 (three_frames ++ repeat 0 33))) (Some 1) (Some hd1) None) [])) as H
    by (apply (checked_history 60); vm_compute; reflexivity).
  split; [reflexivity|]. split; [exact Ht|]. split; [exact H|]. split; [intros a log [<-|[]]; reflexivity|].
  intros fuel Hf.
  apply (clear_lemma (desktop true) test_basic eq_refl (or_introl eq_refl) clears _ _ _ _ _ hd1
           (Found MessageEmpty 4 []) (Found MessageB 1 [5;6;7]) [Found MessageEmpty 4 []] [] [] fuel Ht H); try reflexivity; try assumption.
  - change (held _) with ([1;4;2;3;4] ++ [1;1;2;5;6;7;3;4] ++ [1;4;2;3;4] ++ []).
    repeat (apply scan_frame; [split; [split; [discriminate | reflexivity] | split; reflexivity] |]). apply scan_nil.
  - split; reflexivity.
Qed.
Print Assumptions C39_clear_refuted.

(** C40: handlers that call processMessages first thing never finish: any number of
    nested calls is made (model: no number of steps suffices) ... *)
Theorem C40_reentrant :
  forall c coll, static_ok coll = true -> index_safe c (capacity coll) ->
  forall beh beh0 h0 ops S rs w fd ms r vs, tame beh0 ->
  (forall log, exists acts, hr_acts (beh log) = AProcess :: acts) ->
  history c coll beh0 (start coll h0) ops S rs w ->
  rx_has_handler (w_rx w) = true -> Scan coll (held w) (fd :: ms) r ->
  encodes (little c) (mt_fields (f_message fd)) vs (f_payload fd) ->
  forall fuel, step fuel c coll beh OpProcess w = Hang.
Proof. exact nested_lemma. Qed.
Print Assumptions C40_reentrant.

(** ... as with one message in the buffer. *)
Definition reenters : hbehav := fun _ => HResult [AProcess] false.
Theorem C40_reentrant_refuted :
  exists c coll ops S rs w, static_ok coll = true
    /\ history c coll reenters (start coll (Some hd1)) ops S rs w
    /\ forall fuel, step fuel c coll reenters OpProcess w = Hang.
Proof.
  exists (desktop true), test_basic, [OpAppend [1;4;2;3;4]]. eexists. eexists. eexists.
  assert (forall b, history (desktop true) test_basic b (start test_basic (Some hd1)) [OpAppend [1;4;2;3;4]]
            ([1;4;2;3;4] ++ []) [RetUnit] (World (Receiver (ERB None (RBuf 0 5 ([1;4;2;3;4] ++ repeat 0 46))) (Some 1) (Some hd1) None) [])) as H
    by (intros b; apply (checked_history 60); vm_compute; reflexivity).
  split; [reflexivity|]. split; [exact (H reenters)|].
  apply (nested_lemma (desktop true) test_basic eq_refl (or_introl eq_refl) reenters quiet _ _ _ _ _
           (Found MessageEmpty 4 []) [] [] [] quiet_tame (fun _ => ex_intro _ [] eq_refl) (H quiet)); try reflexivity.
  - change (held _) with ([1;4;2;3;4] ++ []).
    apply scan_frame; [split; [split; [discriminate | reflexivity] | split; reflexivity] |]. apply scan_nil.
  - split; reflexivity.
Qed.
Print Assumptions C40_reentrant_refuted.

(** C41: bytes a handler appends come after what is in the buffer ... *)
Theorem C41_append_inside_handler :
  forall c coll, static_ok coll = true -> index_safe c (capacity coll) ->
  forall beh h0 ops S rs w w' n, tame beh ->
  history c coll beh (start coll h0) ops S rs w -> rx_has_handler (w_rx w) = true ->
  returns c coll beh OpProcess w w' (RetProcess (Returned n)) ->
  exists ms, Scan coll (held w ++ appended_by beh (w_log w) (new_calls w w')) ms (held w')
    /\ Forall2 (delivers (little c)) ms (new_calls w w').
Proof. exact handler_append_lemma. Qed.
Print Assumptions C41_append_inside_handler.

(** A handler that receives MessageB at its first call, while a MessageEmpty and the
    beginning of a frame are in the buffer. *)
Definition receives_more : hbehav :=
  fun log => HResult (if Nat.eqb (length log) 1 then [AAppend [4;2;3;4;1;1;2;5;6]; AAppend [7;3;4;1]] else []) false.
Lemma receives_more_tame : tame receives_more.
Proof.
  intros log a H. unfold receives_more in H. destruct (Nat.eqb (length log) 1); cbn in H; intuition; subst; apply forallb_bytes; reflexivity.
Qed.
Example C41_case :
  exists S rs w w', history (desktop true) test_basic receives_more (start test_basic (Some hd1))
       [OpAppend [1;4;2;3;4;1]] S rs w
     /\ rx_has_handler (w_rx w) = true
     /\ returns (desktop true) test_basic receives_more OpProcess w w' (RetProcess (Returned 3))
     /\ map d_message (w_log w') = [MessageEmpty; MessageEmpty; MessageB] /\ held w' = [1].
Proof.
  eexists. eexists. eexists. eexists. split; [|split; [|split]].
  - apply (checked_history 60). vm_compute. reflexivity.
  - reflexivity.
  - exists 60%nat. vm_compute. reflexivity.
  - split; vm_compute; reflexivity.
Qed.

(** ... and as long as all of them fit besides the content, processMessages returns. *)
Theorem C41_append_returns :
  forall c coll, static_ok coll = true -> index_safe c (capacity coll) ->
  forall beh h0 ops S rs w fuel, tame beh -> bool_free coll ->
  (forall log h, handler_after (hr_acts (beh log)) (Some h) <> None) ->
  history c coll beh (start coll h0) ops S rs w ->
  (forall new, zlen (held w) + zlen (appended_by beh (w_log w) new) <= capacity coll) ->
  (Z.to_nat (capacity coll) < fuel)%nat ->
  exists w' r, step fuel c coll beh OpProcess w = Ok (w', r).
Proof. exact bounded_append_lemma. Qed.
Print Assumptions C41_append_returns.
Lemma receives_more_bound : forall new l, zlen (appended_by receives_more l new) <= if Nat.ltb (length l) 1 then 13 else 0.
Proof.
  induction new as [|d new IH]; intros l; cbn [appended_by].
  - destruct (Nat.ltb _ _); discriminate.
  - rewrite zlen_app. specialize (IH (l ++ [d])). rewrite app_length in IH. simpl length in IH.
    replace (length l + 1)%nat with (Datatypes.S (length l)) in IH by lia. cbn [Nat.ltb Nat.leb] in IH.
    unfold receives_more at 1. rewrite app_length. simpl length.
    replace (length l + 1)%nat with (Datatypes.S (length l)) by lia.
    generalize dependent (zlen (appended_by receives_more (l ++ [d]) new)). intros z IH.
    destruct (length l) as [|n]; [change (13 + z <= 13) | change (0 + z <= 0)]; lia.
Qed.
Example C41_returns_case :
  bool_free test_basic
  /\ (forall log h, handler_after (hr_acts (receives_more log)) (Some h) <> None)
  /\ exists S rs w, history (desktop true) test_basic receives_more (start test_basic (Some hd1))
       [OpAppend (repeat 9 33 ++ [1;4;2;3;4])] S rs w
     /\ forall new, zlen (held w) + zlen (appended_by receives_more (w_log w) new) <= capacity test_basic.
Proof.
  split; [intros m t Hm Ht; cbn in Hm; intuition; subst; cbn in Ht; intuition; subst; discriminate|].
  split; [intros log h; unfold receives_more; destruct (Nat.eqb (length log) 1); discriminate|].
  eexists. eexists. eexists. split; [apply (checked_history 60); vm_compute; reflexivity|].
  intros new. pose proof (receives_more_bound new []) as H. cbn in H.
  change (w_log _) with (@nil delivery). change (zlen (held _)) with 38. change (capacity test_basic) with 51. lia.
Qed.

(** C42: whatever calls a receiver of one build (say with assertions) has been through, one of
    another build (without them, or with an assertion handler that returns) given the same calls
    returns the same and looks the same. *)
Theorem C42_builds_agree :
  forall c coll, static_ok coll = true -> index_safe c (capacity coll) ->
  forall c2 beh h0 ops S rs w, tame beh -> little c2 = little c -> index_safe c2 (capacity coll) ->
  history c coll beh (start coll h0) ops S rs w ->
  exists v, history c2 coll beh (start coll h0) ops S rs v /\ same_view coll w v.
Proof. exact build_lemma. Qed.
Print Assumptions C42_builds_agree.
Example C42_case :
  little (avr false) = little (desktop true) /\ index_safe (avr false) (capacity test_basic)
  /\ little reporting = little (desktop true) /\ index_safe reporting (capacity test_basic)
  /\ exists S rs w, history (desktop true) test_basic throws_second (start test_basic (Some hd1))
       [OpAppend three_frames; OpProcess; OpProcess; OpAppend [1;9;1;4]; OpProcess] S rs w
     /\ length (w_log w) = 4%nat /\ held w = [1;4].
Proof.
  split; [reflexivity|]. split; [left; reflexivity|]. split; [reflexivity|]. split; [left; reflexivity|].
  eexists. eexists. eexists. split.
  - apply (checked_history 60). vm_compute. reflexivity.
  - split; vm_compute; reflexivity.
Qed.

(** C43: a handler derived from PartialHandlerBase with the functions [fns]: every
    call reaches the function with exactly its field types, if there is one, with the
    fields as arguments; all others are ignored. *)
Theorem C43_partial_handler :
  forall c coll, static_ok coll = true -> index_safe c (capacity coll) ->
  forall beh h0 ops S rs w fns, tame beh -> distinct_fns fns ->
  partial_compiles fns coll = true ->
  history c coll beh (start coll h0) ops S rs w ->
  exists calls, partial_calls fns (w_log w) = Ok calls
    /\ PartialCalls fns (w_log w) calls
    /\ forall calls', PartialCalls fns (w_log w) calls' -> calls' = calls.
Proof. exact partial_lemma. Qed.
Print Assumptions C43_partial_handler.
(** ... The program compiles if and only if no message has more than 9 fields. *)
Theorem C43_compiles :
  forall fns coll, distinct_fns fns ->
  (partial_compiles fns coll = true <-> forall m, In m (mc_types coll) -> (length (mt_fields m) <= 9)%nat).
Proof. exact partial_compiles_lemma. Qed.
Print Assumptions C43_compiles.
(** Own functions for MessageB and, with a parameter type that is not the field's, for
    MessageD. *)
Definition own_fns := [UserFn MessageB [u8; u8; u8]; UserFn MessageD [u8; i16; u8]].
Example C43_case :
  distinct_fns own_fns
  /\ partial_compiles own_fns test_basic = true /\ partial_compiles own_fns (Collection [MType 7 (repeat u8 10)] Basic) = false
  /\ exists S rs w, history (desktop true) test_basic quiet (start test_basic (Some hd1))
       [OpAppend (three_frames ++ [1;3;2;8;8;8;3;4]); OpProcess] S rs w
     /\ length (w_log w) = 4%nat
     /\ partial_calls own_fns (w_log w) = Ok [UserCall (UserFn MessageB [u8; u8; u8]) [VInt 5; VInt 6; VInt 7]].
Proof.
  split; [repeat constructor; cbn; intuition discriminate|]. split; [reflexivity|]. split.
  - reflexivity.
  - eexists. eexists. eexists. split; [apply (checked_history 60); vm_compute; reflexivity|].
    split; vm_compute; reflexivity.
Qed.

(** C58: a handler derived from ParameterHandlerBase with the functions [fns]: if the program compiles,
    every delivery becomes one call of the function that is the [best] for its message, with the fields converted
    to the parameter types, unchanged if the function takes exactly the field types - unless a
    floating point field has no value in the integer type of its parameter, which is undefined ... *)
Theorem C58_parameter_handler :
  forall c coll, static_ok coll = true -> index_safe c (capacity coll) ->
  forall beh h0 ops S rs w fns, tame beh -> parameter_compiles c fns coll = true ->
  (forall f, In f fns -> Forall fty_ok (uf_params f)) ->
  history c coll beh (start coll h0) ops S rs w ->
  (exists calls, parameter_calls c fns (w_log w) = Ok calls
    /\ Forall2 (passed_to fns) (w_log w) calls
    /\ Forall2 (fun d u => best (int_bits c) fns (d_message d) (uc_fn u)) (w_log w) calls
    /\ Forall2 (fun d u => forall f, In f fns -> uf_message f = d_message d ->
                  uf_params f = mt_fields (d_message d) -> u = UserCall f (d_values d)) (w_log w) calls)
  \/ (parameter_calls c fns (w_log w) = UB
      /\ exists d f, In d (w_log w) /\ In f fns /\ uf_message f = d_message d
           /\ (forall vs, ~ converted_all (uf_params f) (firstn (length (uf_params f)) (d_values d)) vs)
           /\ exists x k s n, In (TFloat x, TIntN k s n) (combine (mt_fields (d_message d)) (uf_params f))).
Proof. exact parameter_lemma. Qed.
Print Assumptions C58_parameter_handler.

(** ... which cannot happen when no function takes a floating point field as an integer, ... *)
Theorem C58_no_float_as_integer :
  forall c coll, static_ok coll = true -> index_safe c (capacity coll) ->
  forall beh h0 ops S rs w fns, tame beh -> parameter_compiles c fns coll = true ->
  (forall f, In f fns -> Forall fty_ok (uf_params f)) ->
  (forall f x k s n, In f fns -> ~ In (TFloat x, TIntN k s n) (combine (mt_fields (uf_message f)) (uf_params f))) ->
  history c coll beh (start coll h0) ops S rs w ->
  exists calls, parameter_calls c fns (w_log w) = Ok calls /\ Forall2 (passed_to fns) (w_log w) calls.
Proof. exact parameter_defined_lemma. Qed.
Print Assumptions C58_no_float_as_integer.

(** ... but does happen for others: "a handler that compiles gets a call for every message" is false, the
    sender decides whether the behaviour is defined. *)
Definition int_fns := [UserFn MessageC [i16; i16; i16]].
Theorem C58_float_as_integer_refuted :
  exists coll d S rs w, static_ok coll = true /\ parameter_compiles (desktop true) int_fns coll = true
    /\ history (desktop true) coll quiet (start coll (Some hd1)) [OpAppend d; OpProcess] S rs w
    /\ length (w_log w) = 1%nat /\ parameter_calls (desktop true) int_fns (w_log w) = UB.
Proof.
  exists (Collection [MessageC] Basic), [1;0;2; 0;0;128;63; 0;0;160;64; 0;0;0;71; 3;4]. eexists. eexists. eexists.
  split; [reflexivity|]. split; [reflexivity|]. split; [apply (checked_history 60); vm_compute; reflexivity|].
  split; vm_compute; reflexivity.
Qed.
Print Assumptions C58_float_as_integer_refuted.
(** 1.0f, 5.0f and -2.75f as integers. *)
Example C58_float_case :
  exists S rs w, history (desktop true) (Collection [MessageC] Basic) quiet (start (Collection [MessageC] Basic) (Some hd1))
      [OpAppend [1;0;2; 0;0;128;63; 0;0;160;64; 0;0;48;192; 3;4]; OpProcess] S rs w
    /\ parameter_calls (desktop true) int_fns (w_log w) = Ok [UserCall (UserFn MessageC [i16; i16; i16]) [VInt 1; VInt 5; VInt (-2)]].
Proof.
  eexists. eexists. eexists. split; [apply (checked_history 60); vm_compute; reflexivity|]. vm_compute. reflexivity.
Qed.

(** 1.0f as an integer and two floats through an ellipsis, as doubles. *)
Example C58_rest_case :
  let f := UserFnRest MessageC [i16] true in
  exists S rs w, history (desktop true) (Collection [MessageC] Basic) quiet (start (Collection [MessageC] Basic) (Some hd1))
      [OpAppend [1;0;2; 0;0;128;63; 0;0;160;64; 0;0;48;192; 3;4]; OpProcess] S rs w
    /\ parameter_calls (desktop true) [f] (w_log w)
       = Ok [UserCall f [VInt 1; VFloat true 4617315517961601024; VFloat true 13836746905142427648]]
    /\ parameter_calls (desktop true) (f :: int_fns) (w_log w)
       = Ok [UserCall (UserFn MessageC [i16; i16; i16]) [VInt 1; VInt 5; VInt (-2)]].
Proof.
  eexists. eexists. eexists. split; [apply (checked_history 60); vm_compute; reflexivity|]. split; vm_compute; reflexivity.
Qed.

(** A handler compiles if and only if for every message type of the collection one function is better than
    all others, and no message has more than 9 fields ... *)
Theorem C58_compiles :
  forall c fns coll, NoDup fns ->
  (parameter_compiles c fns coll = true
   <-> forall m, In m (mc_types coll) -> (length (mt_fields m) <= 9)%nat /\ exists f, best (int_bits c) fns m f).
Proof. exact compiles_lemma. Qed.
Print Assumptions C58_compiles.
(** For a byte and a 16 bit field: [int] parameters are better than [double] ones where int has 32 bits,
    so are [int16_t] ones where int has 16; two functions that are better at different fields are
    ambiguous; ten fields are too many. *)
Example C58_compiles_case :
  let m := MType 7 [u8; i16] in let coll := Collection [m] Basic in let avr := Config 16 true Disabled Disabled Disabled in
  let f_int := UserFn m [TInt true 4; TInt true 4] in let f_double := UserFn m [TFloat true; TFloat true] in
  let f_short := UserFn m [i16; i16] in let f_mixed := UserFn m [u8; TFloat true] in
  parameter_dispatch (desktop true) [f_double; f_int] m = Ok f_int
  /\ parameter_compiles avr [f_double; f_int] coll = false
  /\ parameter_compiles (desktop true) [f_int; f_short] coll = false
  /\ parameter_dispatch avr [f_int; f_short] m = Ok f_short
  /\ parameter_compiles (desktop true) [f_int; f_mixed] coll = false
  /\ best 32 [f_double; f_int] m f_int /\ (forall f, ~ best 32 [f_int; f_mixed] m f)
  /\ parameter_compiles (desktop true) [UserFn (MType 8 (repeat u8 10)) (repeat u8 10)] (Collection [MType 8 (repeat u8 10)] Basic) = false
  /\ parameter_compiles (desktop true) [UserFn (MType 8 (repeat u8 9)) (repeat u8 9)] (Collection [MType 8 (repeat u8 9)] Basic) = true.
Proof.
  cbn zeta. do 5 (split; [reflexivity|]). split; [|split; [|split; reflexivity]].
  - apply (resolve_best (desktop true)). reflexivity.
  - intros f Hf. apply (best_resolve (desktop true)) in Hf; [|repeat constructor; cbn; intuition discriminate].
    vm_compute in Hf. discriminate.
Qed.
(** A 32 bit long, an enumeration of bytes and a struct: long is not int, though as wide (the functions taking it are
    chosen by a conversion or not at all); an enumeration is promoted to int; a struct is taken by a function for
    that struct only, whatever its size; no number becomes an enumeration. *)
Example C58_kinds_case :
  let long := TIntN (INamed 1) true 4 in let color := TIntN (IEnum 2) false 1 in let point := TRawN 3 4 in
  let m := MType 7 [long; color; point] in let n := MType 8 [u8] in
  let f_exact := UserFn m [long; color; point] in let f_int := UserFn m [TInt true 4; TInt true 4; point] in
  let f_unsigned := UserFn m [TInt true 4; TInt false 4; point] in
  parameter_dispatch (desktop true) [f_int; f_exact] m = Ok f_exact
  /\ parameter_dispatch (desktop true) [f_unsigned; f_int] m = Ok f_int
  /\ parameter_dispatch (desktop true) [UserFn m [long; color; TRawN 4 4]] m = Rejected
  /\ parameter_dispatch (desktop true) [UserFn n [color]] n = Rejected
  /\ partial_dispatch [f_int] m = Ok None /\ partial_dispatch [f_int; f_exact] m = Ok (Some f_exact)
  /\ Rank 32 long (TInt true 4) 2 /\ Rank 32 color (TInt true 4) 1.
Proof.
  cbn zeta. do 6 (split; [reflexivity|]). split; apply (conv_rank_spec (desktop true)); reflexivity.
Qed.

(** ... so there must be one for every message type. *)
Theorem C58_parameter_missing :
  forall c coll fns m, In m (mc_types coll) -> (forall f, In f fns -> uf_message f <> m) ->
  parameter_compiles c fns coll = false.
Proof. exact parameter_missing_lemma. Qed.
Print Assumptions C58_parameter_missing.

(** A function with wider and narrower parameters than the fields is called with converted values, one
    with an ellipsis (tests/Handler.cpp:57) with all fields; a
    partial handler with the same functions ignores the message. *)
Definition all_fns :=
  [UserFn MessageA [i16; i8; u8]; UserFn MessageB [u8; u8; u8]; UserFn MessageC [f32; f32; f32]; UserFn MessageD [TBool; u8; i16];
   UserFn MessageEmpty []; UserFnRest MessageMaxArity [] true].
Example C58_case :
  parameter_compiles (desktop true) all_fns test_basic = true
  /\ (forall f, In f all_fns -> Forall fty_ok (uf_params f))
  /\ parameter_compiles (desktop true) own_fns test_basic = false
  /\ exists S rs w, history (desktop true) test_basic quiet (start test_basic (Some hd1))
       [OpAppend ([1;0;2;255;200;254;255;3;4] ++ [1;3;2;8;8;8;3;4] ++ [1;5;2;1;2;3;4;5;6;7;8;9;3;4]); OpProcess] S rs w
     /\ parameter_calls (desktop true) all_fns (w_log w)
        = Ok [UserCall (UserFn MessageA [i16; i8; u8]) [VInt (-1); VInt (-56); VInt 254];
              UserCall (UserFn MessageD [TBool; u8; i16]) [VBool true; VInt 8; VInt 8];
              UserCall (UserFnRest MessageMaxArity [] true) (map VInt [1;2;3;4;5;6;7;8;9])]
     /\ partial_calls all_fns (w_log w) = Ok [].
Proof.
  split; [reflexivity|]. split.
  - intros f Hf. unfold all_fns in Hf. cbn [In] in Hf.
    repeat match goal with H : _ \/ _ |- _ => destruct H as [<-|Hf] end; try contradiction; cbn; repeat constructor; lia.
  - split; [reflexivity|]. eexists. eexists. eexists. split; [apply (checked_history 60); vm_compute; reflexivity|].
    split; vm_compute; reflexivity.
Qed.

(** C44: a receiver constructed from a receiver that is const or a temporary looks the same and goes
    through every further sequence of calls like the original, and the original like the copy ... *)
Theorem C44_copy :
  forall c coll, static_ok coll = true -> index_safe c (capacity coll) ->
  forall beh h0 ops S rs w cat, tame beh -> history c coll beh (start coll h0) ops S rs w ->
  cat <> Lvalue ->
  exists r, rx_construct coll cat (FromReceiver (w_rx w)) = Ok r /\ let v := World r (w_log w) in
    same_view coll w v
    /\ (forall ops' S' rs' w', history c coll beh w ops' S' rs' w' ->
        exists v', history c coll beh v ops' S' rs' v' /\ same_view coll w' v')
    /\ (forall ops' S' rs' v', history c coll beh v ops' S' rs' v' ->
        exists w', history c coll beh w ops' S' rs' w' /\ same_view coll w' v').
Proof. exact copy_receiver_lemma. Qed.
Print Assumptions C44_copy.

(** ... and so does a receiver [u] assigned from it. *)
Theorem C44_assign :
  forall c coll, static_ok coll = true -> index_safe c (capacity coll) ->
  forall beh beh2 h0 h1 ops S rs w ops2 S2 rs2 u, tame beh -> tame beh2 ->
  history c coll beh (start coll h0) ops S rs w -> history c coll beh2 (start coll h1) ops2 S2 rs2 u ->
  exists r, rx_assign coll (w_rx w) (w_rx u) = Ok r /\ let v := World r (w_log w) in
    same_view coll w v
    /\ (forall ops' S' rs' w', history c coll beh w ops' S' rs' w' ->
        exists v', history c coll beh v ops' S' rs' v' /\ same_view coll w' v')
    /\ (forall ops' S' rs' v', history c coll beh v ops' S' rs' v' ->
        exists w', history c coll beh w ops' S' rs' w' /\ same_view coll w' v').
Proof. exact assign_receiver_lemma. Qed.
Print Assumptions C44_assign.
(** A receiver holding the beginning of a frame not at the start of the array, copied. *)
Example C44_case :
  exists S rs w r, history (desktop true) test_basic quiet (start test_basic (Some hd1))
       [OpAppend (three_frames ++ [1;3;2;8]); OpProcess] S rs w
     /\ rx_construct test_basic ConstLvalue (FromReceiver (w_rx w)) = Ok r
     /\ rb_begin (er_buf (rx_recv (w_rx w))) = 18 /\ rb_begin (er_buf (rx_recv r)) = 0
     /\ held (World r (w_log w)) = [1;3;2;8].
Proof.
  eexists. eexists. eexists. eexists. split; [apply (checked_history 60); vm_compute; reflexivity|].
  split; [vm_compute; reflexivity|]. vm_compute. auto.
Qed.

(** ... but a receiver variable that is not const cannot be copied: the constructor for handlers is
    chosen, and does not compile. *)
Theorem C44_variable_refuted :
  exists S rs w r, history (desktop true) test_basic quiet (start test_basic (Some hd1))
       [OpAppend (three_frames ++ [1;3;2;8]); OpProcess] S rs w
    /\ rx_construct test_basic Temporary (FromReceiver (w_rx w)) = Ok r
    /\ rx_construct test_basic Lvalue (FromReceiver (w_rx w)) = Rejected.
Proof.
  eexists. eexists. eexists. eexists. split; [apply (checked_history 60); vm_compute; reflexivity|].
  split; vm_compute; reflexivity.
Qed.
Print Assumptions C44_variable_refuted.

(** A receiver is constructed from a handler that is a variable, not const, and is then in the state of
    one constructed without a handler on which setHandler was called. With a const handler or a temporary
    one nothing compiles. *)
Theorem C44_from_handler :
  forall c coll beh h cat,
  match rx_construct coll cat (FromHandler h) with
  | Ok r => cat = Lvalue /\ returns c coll beh (OpSetHandler h) (start coll None) (World r []) RetUnit
  | Rejected => cat <> Lvalue
  | _ => False
  end.
Proof. exact from_handler_lemma. Qed.
Print Assumptions C44_from_handler.
(** Frames of MessageB and of the empty message reach the handler given to the constructor. *)
Example C44_from_handler_case : exists r w rs,
  rx_construct test_basic Lvalue (FromHandler hd1) = Ok r
  /\ rx_construct test_basic ConstLvalue (FromHandler hd1) = Rejected
  /\ run 60 (desktop true) test_basic quiet [OpAppend [1;1;2;10;20;30;3;4;1;4;2;3;4]; OpProcess] (World r []) = Ok (w, rs)
  /\ map d_handler (w_log w) = [hd1; hd1].
Proof. eexists. eexists. eexists. split; [reflexivity|]. split; [reflexivity|]. split; vm_compute; reflexivity. Qed.

(** Assigning a receiver to itself changes nothing that can be observed, now or later, unless it holds
    bytes that begin at the front of the array: then it is undefined. *)
Theorem C44_self_assign :
  forall c coll, static_ok coll = true -> index_safe c (capacity coll) ->
  forall beh h0 ops S rs w, tame beh -> history c coll beh (start coll h0) ops S rs w ->
  if (rb_begin (er_buf (rx_recv (w_rx w))) =? 0) && negb (zlen (held w) =? 0)
  then rx_self_assign coll (w_rx w) = UB
  else exists r, rx_self_assign coll (w_rx w) = Ok r /\ let v := World r (w_log w) in
    same_view coll w v
    /\ (forall ops' S' rs' w', history c coll beh w ops' S' rs' w' ->
        exists v', history c coll beh v ops' S' rs' v' /\ same_view coll w' v')
    /\ (forall ops' S' rs' v', history c coll beh v ops' S' rs' v' ->
        exists w', history c coll beh w ops' S' rs' w' /\ same_view coll w' v').
Proof. exact self_assign_receiver_lemma. Qed.
Print Assumptions C44_self_assign.
(** The receiver of C44_case, and one that was just given its first bytes. *)
Theorem C44_self_assign_refuted :
  exists S rs w S2 rs2 w2 r,
    history (desktop true) test_basic quiet (start test_basic (Some hd1)) [OpAppend [1;3]] S rs w
    /\ rx_self_assign test_basic (w_rx w) = UB
    /\ history (desktop true) test_basic quiet (start test_basic (Some hd1))
         [OpAppend (three_frames ++ [1;3;2;8]); OpProcess] S2 rs2 w2
    /\ rx_self_assign test_basic (w_rx w2) = Ok r /\ held (World r (w_log w2)) = [1;3;2;8].
Proof.
  eexists. eexists. eexists. eexists. eexists. eexists. eexists.
  split; [apply (checked_history 60); vm_compute; reflexivity|]. split; [vm_compute; reflexivity|].
  split; [apply (checked_history 60); vm_compute; reflexivity|]. split; vm_compute; reflexivity.
Qed.
Print Assumptions C44_self_assign_refuted.

(** C45: when the first complete frame in the buffer holds bytes that are no value of its field
    types, processMessages has undefined behaviour ... *)
Theorem C45_invalid_value :
  forall c coll, static_ok coll = true -> index_safe c (capacity coll) ->
  forall beh h0 ops S rs w fd ms r fuel, tame beh ->
  history c coll beh (start coll h0) ops S rs w ->
  rx_has_handler (w_rx w) = true -> Scan coll (held w) (fd :: ms) r ->
  (forall vs, ~ encodes (little c) (mt_fields (f_message fd)) vs (f_payload fd)) ->
  (0 < fuel)%nat -> step fuel c coll beh OpProcess w = UB.
Proof. exact invalid_payload_lemma. Qed.
Print Assumptions C45_invalid_value.

(** ... as for a bool field and the byte 2. *)
Definition bool_coll := Collection [MType 0 [TBool]] BasicChecksum.
Theorem C45_bool_refuted :
  exists c coll d S rs w, static_ok coll = true /\ index_safe c (capacity coll)
    /\ history c coll quiet (start coll (Some hd1)) [OpAppend d] S rs w
    /\ forall fuel, (0 < fuel)%nat -> step fuel c coll quiet OpProcess w = UB.
Proof.
  exists (desktop true), bool_coll, [1;0;2;2;3;8;4]. eexists. eexists. eexists.
  assert (history (desktop true) bool_coll quiet (start bool_coll (Some hd1)) [OpAppend [1;0;2;2;3;8;4]]
            ([1;0;2;2;3;8;4] ++ []) [RetUnit] (World (Receiver (ERB None (RBuf 0 7 ([1;0;2;2;3;8;4] ++ repeat 0 14))) (Some 1) (Some hd1) None) [])) as H
    by (apply (checked_history 60); vm_compute; reflexivity).
  split; [reflexivity|]. split; [left; reflexivity|]. split; [exact H|].
  intros fuel Hf.
  apply (invalid_payload_lemma (desktop true) bool_coll eq_refl (or_introl eq_refl) quiet _ _ _ _ _
           (Found (MType 0 [TBool]) 0 [2]) [] [] fuel quiet_tame H); try reflexivity; try assumption.
  - change (held _) with ([1;0;2;2;3;8;4] ++ []).
    apply scan_frame; [split; [split; [discriminate | reflexivity] | split; reflexivity] |]. apply scan_nil.
  - intros vs (_ & E). destruct vs as [|[z|[|]|x z|bs] [|? ?]]; cbn in E; discriminate.
Qed.
Print Assumptions C45_bool_refuted.

(** C50: when each handler call appends one complete frame to the receiver, processMessages
    never returns, although every append fits ... *)
Theorem C50_feedback :
  forall c coll, static_ok coll = true -> index_safe c (capacity coll) ->
  forall beh h0 ops S rs w fd vs, tame beh -> (forall log, hr_throws (beh log) = false) ->
  (forall log h, handler_after (hr_acts (beh log)) (Some h) <> None) ->
  (forall log, exists f m id p vs, appended (hr_acts (beh log)) = f /\ is_frame coll f m id p
                                   /\ encodes (little c) (mt_fields m) vs p) ->
  history c coll beh (start coll h0) ops S rs w -> rx_has_handler (w_rx w) = true ->
  Scan coll (held w) [fd] [] -> encodes (little c) (mt_fields (f_message fd)) vs (f_payload fd) ->
  zlen (held w) + max_message_length coll <= capacity coll ->
  forall fuel, step fuel c coll beh OpProcess w = Hang.
Proof. exact feedback_lemma. Qed.
Print Assumptions C50_feedback.

(** ... as with a handler that answers every message by one for the same receiver. *)
Definition answers : hbehav := fun _ => HResult [AAppend [1;1;2;5;6;7;3;4]] false.
Theorem C50_feedback_refuted :
  exists c coll ops S rs w, static_ok coll = true /\ tame answers
    /\ history c coll answers (start coll (Some hd1)) ops S rs w
    /\ forall fuel, step fuel c coll answers OpProcess w = Hang.
Proof.
  exists (desktop true), test_basic, [OpAppend [1;4;2;3;4]]. eexists. eexists. eexists.
  assert (tame answers) as Ht by (intros log a [<-|[]]; apply forallb_bytes; reflexivity).
  assert (history (desktop true) test_basic answers (start test_basic (Some hd1)) [OpAppend [1;4;2;3;4]]
            ([1;4;2;3;4] ++ []) [RetUnit] (World (Receiver (ERB None (RBuf 0 5 ([1;4;2;3;4] ++ repeat 0 46))) (Some 1) (Some hd1) None) [])) as H
    by (apply (checked_history 60); vm_compute; reflexivity).
  split; [reflexivity|]. split; [exact Ht|]. split; [exact H|].
  assert (forall log, exists f m id p vs, appended (hr_acts (answers log)) = f /\ is_frame test_basic f m id p
                                   /\ encodes true (mt_fields m) vs p) as Ha.
  { intros log. exists [1;1;2;5;6;7;3;4], MessageB, 1, [5;6;7], [VInt 5; VInt 6; VInt 7].
    split; [reflexivity|]. split; [split; [split; [discriminate | reflexivity] | split; reflexivity]|].
    split; reflexivity. }
  apply (feedback_lemma (desktop true) test_basic eq_refl (or_introl eq_refl) answers _ _ _ _ _
           (Found MessageEmpty 4 []) [] Ht (fun _ => eq_refl) ltac:(discriminate) Ha H); try reflexivity.
  - change (held _) with ([1;4;2;3;4] ++ []).
    apply scan_frame; [split; [split; [discriminate | reflexivity] | split; reflexivity] |]. apply scan_nil.
  - split; reflexivity.
  - discriminate.
Qed.
Print Assumptions C50_feedback_refuted.

(** C51: a handler that calls processMessages only once, inside its first call, has the
    message handled twice and then popped once too often: with assertions enabled, one
    fails ... *)
Theorem C51_guarded_reentry :
  forall c coll, static_ok coll = true -> index_safe c (capacity coll) ->
  forall beh beh0 h0 ops S rs w h fd ms r vs fuel, tame beh0 -> aborts c = true ->
  history c coll beh0 (start coll h0) ops S rs w ->
  rx_functor (w_rx w) = Some h -> Scan coll (held w) (fd :: ms) r -> decodable coll (little c) (held w) ->
  encodes (little c) (mt_fields (f_message fd)) vs (f_payload fd) ->
  let log1 := w_log w ++ [Delivery h (f_message fd) vs] in
  beh log1 = HResult [AProcess] false ->
  (forall log, (length log1 < length log)%nat -> hr_acts (beh log) = [] /\ hr_throws (beh log) = false) ->
  (Z.to_nat (capacity coll) + 1 < fuel)%nat ->
  step fuel c coll beh OpProcess w = AssertFail.
Proof. exact reentry_lemma. Qed.
Print Assumptions C51_guarded_reentry.

(** ... as for one message in the buffer; without assertions the same has undefined
    behaviour. *)
Definition reenters_once : hbehav :=
  fun log => HResult (if Nat.eqb (length log) 1 then [AProcess] else []) false.
Theorem C51_guarded_reentry_refuted :
  exists coll ops S rs w, static_ok coll = true
    /\ history (desktop true) coll quiet (start coll (Some hd1)) ops S rs w
    /\ history (desktop false) coll quiet (start coll (Some hd1)) ops S rs w
    /\ (forall fuel, (52 < fuel)%nat -> step fuel (desktop true) coll reenters_once OpProcess w = AssertFail)
    /\ step 60 (desktop false) coll reenters_once OpProcess w = UB.
Proof.
  exists test_basic, [OpAppend [1;4;2;3;4]]. eexists. eexists. eexists.
  assert (forall b, history (desktop b) test_basic quiet (start test_basic (Some hd1)) [OpAppend [1;4;2;3;4]]
            ([1;4;2;3;4] ++ []) [RetUnit] (World (Receiver (ERB None (RBuf 0 5 ([1;4;2;3;4] ++ repeat 0 46))) (Some 1) (Some hd1) None) [])) as H
    by (intros [|]; apply (checked_history 60); vm_compute; reflexivity).
  split; [reflexivity|]. split; [exact (H true)|]. split; [exact (H false)|].
  split; [|vm_compute; reflexivity]. intros fuel Hf.
  assert (Scan test_basic (held (World (Receiver (ERB None (RBuf 0 5 ([1;4;2;3;4] ++ repeat 0 46))) (Some 1) (Some hd1) None) []))
            [Found MessageEmpty 4 []] []) as HS.
  { change (held _) with ([1;4;2;3;4] ++ []).
    apply scan_frame; [split; [split; [discriminate | reflexivity] | split; reflexivity] |]. apply scan_nil. }
  apply (reentry_lemma (desktop true) test_basic eq_refl (or_introl eq_refl) reenters_once quiet _ _ _ _ _ hd1
           (Found MessageEmpty 4 []) [] [] [] fuel quiet_tame eq_refl (H true) eq_refl HS); try reflexivity.
  - intros ms' r' HS'. destruct (scan_function_lemma test_basic (held (World (Receiver (ERB None (RBuf 0 5 ([1;4;2;3;4] ++ repeat 0 46))) (Some 1) (Some hd1) None) []))) as (ms & r & _ & HU).
    destruct (HU _ _ HS) as (-> & ->). destruct (HU _ _ HS') as (<- & <-).
    constructor; [exists []; split; reflexivity | constructor].
  - split; reflexivity.
  - intros log Hl. simpl in Hl. unfold reenters_once. destruct (Nat.eqb_spec (length log) 1); [lia | split; reflexivity].
  - exact Hf.
Qed.
Print Assumptions C51_guarded_reentry_refuted.

(** Whether the behaviour is undefined depends on the bytes after the message: here a message
    received and delivered long ago, of which a copy is left in the buffer's array, is delivered
    a second time (also when the assertion handler returns). *)
Definition reenters_second : hbehav :=
  fun log => HResult (if Nat.eqb (length log) 2 then [AProcess] else []) (Nat.eqb (length log) 4).
Theorem C51_old_message_again_refuted :
  exists coll ops S rs, static_ok coll = true
    /\ S = repeat 0 13 ++ [1;1;2;10;20;30;3;4] ++ [1;4;2;3;4;1;4;9]
    /\ Forall (fun c => exists w w', history c coll quiet (start coll (Some hd1)) ops S rs w
         /\ step 60 c coll reenters_second OpProcess w = Ok (w', RetProcess Threw)
         /\ map content (w_log w') = [(MessageB, map VInt [10;20;30]); (MessageEmpty, []); (MessageEmpty, []);
                                       (MessageB, map VInt [10;20;30])])
        [desktop false; reporting].
Proof.
  exists test_basic, [OpAppend (repeat 0 13 ++ [1;1;2;10;20;30;3;4]); OpProcess; OpAppend [1;4;2;3;4;1;4;9]].
  eexists. exists [RetUnit; RetProcess (Returned 1); RetUnit]. split; [reflexivity|]. split; [reflexivity|].
  repeat (apply Forall_cons || apply Forall_nil); eexists; eexists;
    (split; [apply (checked_history 60); vm_compute; reflexivity|]);
    (split; [vm_compute; reflexivity | vm_compute; reflexivity]).
Qed.
Print Assumptions C51_old_message_again_refuted.
