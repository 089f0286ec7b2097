(** What goes wrong when processMessages comes in the midst of an append. *)
From Verif Require Import ReceiverProofs FeedLemmas PolledSeparate ScanLemmas Runs.
From Verif Require Export TornAppendLemmas.

Lemma proc_scan coll little beh s s' r : steady beh -> (forall log, hr_throws (beh log) = false) ->
  Proc coll little beh s s' r ->
  exists ms new, Scan coll (s_bytes s) ms (s_bytes s') /\ s_log s' = s_log s ++ new /\ Forall2 (delivers little) ms new.
Proof.
  intros Hb Hnt HP. destruct (Proc_consumed _ _ _ _ _ _ HP (s_bytes s) [] (fun T ms r H => H)) as (new & ms & Hn & HC & HF).
  rewrite (appended_by_steady beh Hb), app_nil_r in HC. rewrite (completed_all beh Hnt) in HF. exists ms, new.
  split; [|auto]. destruct r as [n|]; [|exfalso; exact (Proc_no_throw _ _ _ _ _ _ Hnt HP eq_refl)].
  pose proof (Proc_returned_undecided _ _ _ _ _ _ HP) as HU. specialize (HC [] [] (s_bytes s')).
  rewrite !app_nil_r in HC. apply HC. apply scan_wait. exact HU.
Qed.

Lemma append_start c coll h d r : rx_append c coll d (w_rx (start coll (Some h))) = Ok r -> rb_begin (er_buf (rx_recv r)) = 0.
Proof.
  cbn [start w_rx]. unfold rx_append, er_append, rb_push_range, rb_ensure_space, rx_init_handler, er_init, rb_init. cbn [rx_recv er_buf].
  unfold rb_empty. cbn [rb_begin rb_pastEnd rb_contents Z.eqb].
  set (b0 := RBuf 0 0 _). destruct (promoted_add _ _ _ _ <=? _); cbn [bind].
  - destruct (_ <=? _); [|discriminate]. destruct (rb_verify _ _ _); try discriminate. intros [= <-]. reflexivity.
  - destruct (assert_ _ _); try discriminate. cbn [bind]. unfold rb_slide. cbn [b0 rb_begin rb_empty rb_pastEnd Z.eqb negb andb].
    unfold rb_ideal_copy. destruct (range_ok _ _ _); [|discriminate]. cbn [bind].
    destruct (_ <=? _); [|discriminate]. destruct (rb_verify _ _ _); try discriminate. intros [= <-]. reflexivity.
Qed.

Section Again.
Context (c : config) (coll : collection) (Hst : static_ok coll = true) (Hsafe : index_safe c (capacity coll)).
Local Notation cap := (capacity coll).
Context (beh : hbehav) (Hb : steady beh) (Hnt : forall log, hr_throws (beh log) = false) (Hbf : bool_free coll).
Context (o : bool) (fuel : nat) (Hfuel : (Z.to_nat cap < fuel)%nat).
Let Ht : tame beh := steady_tame _ Hb.

(** A new receiver that has been given [S0] and has processed it. *)
Lemma once h S0 w1 w r1 r : allowed coll (OpAppend S0) (start coll (Some h)) ->
  returns c coll beh (OpAppend S0) (start coll (Some h)) w1 r1 -> returns c coll beh OpProcess w1 w r -> held w = [] ->
  exists B ms, array_of w = S0 ++ B /\ zlen S0 + zlen B = cap /\ end_of w = zlen S0 /\ front_of w = zlen S0
    /\ sim coll w (view w) /\ bytes_ok S0 /\ rx_has_handler (w_rx w) = true
    /\ Scan coll S0 ms [] /\ Forall2 (delivers (little c)) ms (w_log w).
Proof.
  intros Ha H1 H2 HW. pose proof (start_sim coll Hst (Some h)) as H0. rewrite <- (view_of coll _ _ H0) in H0.
  destruct (other_step c coll Hst Hsafe beh Ht (OpAppend S0) _ w1 r1 H0 Ha H1) as (HD & HL & _ & Hs1 & HF & _); [discriminate|].
  cbn [received] in HD. rewrite <- (sim_held coll _ _ H0) in HD. cbn [view s_bytes] in HD.
  assert (held (start coll (Some h)) = []) as HE by (rewrite <- (sim_held coll _ _ (start_sim coll Hst (Some h))); reflexivity).
  rewrite HE in HD. cbn [app] in HD.
  assert (front_of w1 = 0) as F1.
  { destruct H1 as (fu & H1). cbn [step] in H1. destruct (rx_append _ _ _ _) as [r0| | | |] eqn:EA; try discriminate.
    cbn [bind] in H1. assert (w1 = World r0 (w_log (start coll (Some h)))) as -> by congruence. exact (append_start c coll h S0 r0 EA). }
  assert (rx_has_handler (w_rx w1) = true) as HH1 by (unfold rx_has_handler; rewrite HF; reflexivity).
  destruct (returns_process c coll Hst Hsafe beh Ht w1 w r Hs1 HH1 H2) as (k & HP & _ & Hs).
  destruct (proc_scan _ _ _ _ _ _ Hb Hnt HP) as (ms & new & HSc & Hlog & HD2). cbn [view s_bytes s_log] in HSc, Hlog.
  rewrite HD, HW in HSc. rewrite HL in Hlog. change (w_log (start coll (Some h))) with (@nil delivery) in Hlog. cbn [app] in Hlog.
  destruct H2 as (fu & H2). cbn [step] in H2.
  destruct (process_messages fu c coll beh w1) as [[w2 p]| | | |] eqn:EP; try discriminate. cbn [bind] in H2.
  assert (w2 = w) as -> by congruence. unfold process_messages in EP. rewrite HH1 in EP. cbn [negb] in EP.
  pose proof (process_loop_end c coll beh Hb _ _ _ _ _ EP) as E1. pose proof (process_loop_kept c coll beh Hb _ _ _ _ _ EP) as E2.
  destruct Hs1 as (R1 & HB1 & _). destruct R1 as (A & B & HC & HBg & HEn & HLn). cbn [view s_bytes] in HC, HEn, HLn, HB1.
  fold (array_of w1) in HC. fold (front_of w1) in HBg. fold (end_of w1) in HEn. rewrite HD in *.
  assert (A = []) as -> by (apply length_zero_iff_nil; unfold zlen in *; lia). change (zlen (@nil Z)) with 0 in *.
  destruct (sim_indices coll w (view w) Hs) as (I1 & I2 & _). cbn [view s_bytes] in I2. rewrite HW in I2.
  change (zlen (@nil Z)) with 0 in I2.
  exists B, ms. rewrite E2, E1. split; [exact HC|]. split; [lia|]. split; [lia|]. split; [lia|]. split; [assumption|].
  split; [assumption|]. split; [|split; [assumption | rewrite Hlog; assumption]].
  pose proof (Proc_steady_handler _ _ _ _ _ _ Hb HP) as HN. cbn [view s_handler] in HN. rewrite HF in HN.
  unfold rx_has_handler. destruct (rx_functor (w_rx w)); [reflexivity | exfalso; apply HN; [discriminate | reflexivity]].
Qed.

(** The routine comes when _begin is 0 again and _pastEnd not yet. *)
Lemma between h S0 w1 w r1 r d : allowed coll (OpAppend S0) (start coll (Some h)) ->
  returns c coll beh (OpAppend S0) (start coll (Some h)) w1 r1 -> returns c coll beh OpProcess w1 w r -> held w = [] ->
  zlen d <= cap ->
  exists n w2, w_append fuel o c coll beh d [false; false; false; true] w
      = (do _ <- assert_ c (zlen S0 <=? zlen d); Ok (w2, [Returned n]))
    /\ map content (w_log w2) = map content (w_log w) ++ map content (w_log w)
    /\ front_of w2 = zlen S0 /\ end_of w2 = zlen d.
Proof.
  intros Ha H1 H2 HW Hd. destruct (once h S0 w1 w r1 r Ha H1 H2 HW) as (B & ms & EA & EL & EE & EF & Hs & HB & HH & HSc & HDl).
  pose proof (capacity_ok coll Hst) as Hcap. pose proof (zlen_nonneg d). pose proof (zlen_nonneg B).
  set (wt := w_set_buf (RBuf 0 (end_of w) (array_of w)) w).
  assert (sim coll wt (SState S0 (s_handler (view w)) (s_last (view w)) (s_log (view w)))) as Ht1.
  { apply sim_set; [assumption| |assumption]. exists [], B. cbn [rb_contents rb_begin rb_pastEnd app].
    change (zlen (@nil Z)) with 0. repeat split; [exact EA | lia | lia]. }
  assert (rx_has_handler (w_rx wt) = true) as HHt by exact HH.
  destruct (step_progress c coll Hst Hsafe beh OpProcess wt _ fuel Hb Ht1 I) as (w2 & r2 & E).
  { apply (bool_free_decodable c coll Hst); [assumption | exact HB]. } { assumption. }
  pose proof (view_of coll _ _ Ht1) as Vt. rewrite <- Vt in Ht1.
  destruct (returns_process c coll Hst Hsafe beh Ht wt w2 r2 Ht1 HHt (ex_intro _ fuel E)) as (k & HP & Hr2 & Hs2).
  rewrite Vt in HP. destruct (proc_scan _ _ _ _ _ _ Hb Hnt HP) as (ms2 & new & HSc2 & Hlog & HD2).
  cbn [view s_bytes s_log] in HSc2, Hlog. destruct (scan_det _ _ _ _ HSc _ _ HSc2) as (<- & HN2).
  cbn [step] in E. destruct (process_messages fuel c coll beh wt) as [[w3 p]| | | |] eqn:EP; try discriminate. cbn [bind] in E.
  assert (w3 = w2) as -> by congruence. assert (r2 = RetProcess p) as -> by congruence.
  destruct k as [kk|]; [|exfalso; exact (Proc_no_throw _ _ _ _ _ _ Hnt HP eq_refl)].
  assert (p = spec_result (Some kk)) as -> by congruence. cbn [spec_result] in *.
  assert (end_of w2 = zlen S0 /\ array_of w2 = array_of w) as [E1 E2].
  { pose proof EP as EP'. unfold process_messages in EP'. rewrite HHt in EP'. cbn [negb] in EP'.
    split; [rewrite (process_loop_end c coll beh Hb _ _ _ _ _ EP'); exact EE | exact (process_loop_kept c coll beh Hb _ _ _ _ _ EP')]. }
  destruct (sim_indices coll w2 (view w2) Hs2) as (I1 & I2 & I3 & I4). cbn [view s_bytes] in I2. rewrite <- HN2 in I2.
  change (zlen (@nil Z)) with 0 in I2.
  set (w4 := w_set_buf (RBuf (front_of w2) 0 (array_of w2)) w2).
  set (w5 := w_set_buf (RBuf (front_of w2) (zlen d) (arr_write (array_of w2) 0 d)) w2).
  exists (Z.of_nat kk mod 256), w5.
  split; [|split; [|split; [change (front_of w5) with (front_of w2); lia | reflexivity]]].
  2:{ change (w_log w5) with (w_log w2). rewrite Hlog, map_app. f_equal.
      apply (delivers_all_fun c coll ms Hst (scan_frames_in coll _ _ _ HSc) _ _ HD2 HDl). }
  assert (w_run fuel c coll beh (w_push_range o c cap d) [false; false; false; true] w =
          (do (w', qs) <- w_run fuel c coll beh (WPastEnd (fun p =>
             if promoted_add c (size_bits cap) p (zlen d) <=? cap then
               WPastEnd (fun pos => if pos + zlen d <=? cap then w_store pos d
                 (WPastEnd (fun p => WSetPastEnd (to_sz cap (p + zlen d)) (w_verify o c cap WDone))) else WUndefined)
             else w_assert c (fun kt => w_size o cap (fun m => kt (promoted_add c (size_bits cap) m (zlen d) <=? cap)))
                    (w_slide o cap (WPastEnd (fun pos => if pos + zlen d <=? cap then w_store pos d
                 (WPastEnd (fun p => WSetPastEnd (to_sz cap (p + zlen d)) (w_verify o c cap WDone))) else WUndefined)))))
             [] w4; Ok (w', [Returned (Z.of_nat kk mod 256)] ++ qs))) as ER.
  { unfold w_push_range, w_ensure_space. rewrite (to_sz_small cap Hcap (zlen d)) by lia. set (rest := WPastEnd _).
    assert (w_run fuel c coll beh (WSetBegin 0 (WSetPastEnd 0 rest)) [false; true] w =
      (do (w', qs) <- w_run fuel c coll beh rest [] w4; Ok (w', [Returned (Z.of_nat kk mod 256)] ++ qs))) as Hreset.
    { rewrite (acc_set_begin c coll beh fuel 0 _ [false; true] w). cbn [hd tl w_interrupt bind].
      rewrite (acc_set_pastEnd c coll beh fuel 0 _ [true] _). cbn [hd tl w_interrupt]. fold wt. rewrite EP. cbn [bind].
      fold w4. destruct (w_run fuel c coll beh rest [] w4) as [[w' qs]| | | |]; reflexivity. }
    assert ((front_of w =? end_of w) = true) as HEq by (apply Z.eqb_eq; lia).
    unfold w_empty, w_both. destruct (Bool.eqb o true).
    - rewrite (acc_begin c coll beh fuel _ _ w). cbn [hd tl w_interrupt bind].
      rewrite (acc_pastEnd c coll beh fuel _ _ w). cbn [hd tl w_interrupt bind]. rewrite HEq, Hreset.
      destruct (w_run fuel c coll beh rest [] w4) as [[w' qs]| | | |]; reflexivity.
    - rewrite (acc_pastEnd c coll beh fuel _ _ w). cbn [hd tl w_interrupt bind].
      rewrite (acc_begin c coll beh fuel _ _ w). cbn [hd tl w_interrupt bind]. rewrite HEq, Hreset.
      destruct (w_run fuel c coll beh rest [] w4) as [[w' qs]| | | |]; reflexivity. }
  unfold w_append. rewrite ER. clear ER.
  rewrite (quiet_access c coll beh fuel _ _ _ _ (acc_pastEnd c coll beh fuel _)). change (end_of w4) with 0.
  rewrite (promoted_add_exact c cap Hsafe) by (destruct Hcap; lia). rewrite (proj2 (Z.leb_le _ _)) by lia.
  rewrite (quiet_access c coll beh fuel _ _ _ _ (acc_pastEnd c coll beh fuel _)). change (end_of w4) with 0.
  rewrite (proj2 (Z.leb_le _ _)) by lia.
  rewrite quiet_store by (change (array_of w4) with (array_of w2); lia).
  rewrite (quiet_access c coll beh fuel _ _ _ _ (acc_pastEnd c coll beh fuel _)).
  rewrite (quiet_access c coll beh fuel _ _ _ _ (acc_set_pastEnd c coll beh fuel _ _)).
  change (end_of (with_array _ w4)) with 0. rewrite (to_sz_small cap Hcap) by lia. rewrite Z.add_0_l.
  change (w_set_buf _ _) with w5. unfold w_verify.
  rewrite (quiet_assert c coll beh fuel _ _ w5 (zlen S0 <=? zlen d)).
  2:{ intros kt. rewrite quiet_both. change (front_of w5) with (front_of w2). replace (front_of w2) with (zlen S0) by lia. reflexivity. }
  destruct (assert_ c (zlen S0 <=? zlen d)) as [[]| | | |]; cbn [bind]; try reflexivity.
  rewrite (quiet_assert c coll beh fuel _ _ w5 (zlen d <=? cap)).
  2:{ intros kt. rewrite (quiet_access c coll beh fuel _ _ _ _ (acc_pastEnd c coll beh fuel _)). reflexivity. }
  rewrite (assert_true c) by (apply Z.leb_le; lia). reflexivity.
Qed.
End Again.

Lemma again_lemma c coll : static_ok coll = true -> index_safe c (capacity coll) ->
  forall beh h S w1 w r1 r o d fuel, steady beh -> (forall log, hr_throws (beh log) = false) -> bool_free coll ->
  bytes_ok S -> zlen S <= capacity coll ->
  returns c coll beh (OpAppend S) (start coll (Some h)) w1 r1 -> returns c coll beh OpProcess w1 w r -> held w = [] ->
  zlen d < zlen S -> (Z.to_nat (capacity coll) < fuel)%nat ->
  match mode c with
  | Aborting => w_append fuel o c coll beh d [false; false; false; true] w = AssertFail
  | _ => exists n w2, w_append fuel o c coll beh d [false; false; false; true] w = Ok (w2, [Returned n])
           /\ map content (w_log w2) = map content (w_log w) ++ map content (w_log w)
           /\ rb_begin (er_buf (rx_recv (w_rx w2))) = zlen S /\ rb_pastEnd (er_buf (rx_recv (w_rx w2))) = zlen d
  end.
Proof.
  intros Hst Hsafe beh h S w1 w r1 r o d fuel Hb Hnt Hbf HS HL H1 H2 HW Hd Hf.
  destruct (between c coll Hst Hsafe beh Hb Hnt Hbf o fuel Hf h S w1 w r1 r d) as (n & w2 & E & HC & H3 & H4); try assumption.
  { split; [assumption|]. rewrite (sim_available coll Hst _ _ (start_sim coll Hst (Some h))). cbn [s_bytes].
    change (zlen (@nil Z)) with 0. lia. }
  { lia. }
  rewrite (proj2 (Z.leb_gt _ _) Hd) in E. unfold assert_, aborts in E.
  destruct (mode c); cbn [bind] in E; [|assumption|]; exists n, w2; auto.
Qed.

(** A message was received and processed; the next piece of the stream is being appended. *)
Lemma again_witness o : exists rs w w2,
  history (desktop false) test_basic quiet (start test_basic (Some hd1)) [OpAppend [1; 1; 2; 10; 20; 30; 3; 4]; OpProcess]
    [1; 1; 2; 10; 20; 30; 3; 4] rs w
  /\ held w = [] /\ map content (w_log w) = [(MessageB, map VInt [10; 20; 30])]
  /\ w_append 60 o (desktop false) test_basic quiet [1; 1; 2] [false; false; false; true] w = Ok (w2, [Returned 1])
  /\ map content (w_log w2) = [(MessageB, map VInt [10; 20; 30]); (MessageB, map VInt [10; 20; 30])]
  /\ rx_available test_basic (w_rx w2) = 56
  /\ forall fuel, (0 < fuel)%nat -> step fuel (desktop false) test_basic quiet OpProcess w2 = UB.
Proof.
  destruct o; do 3 eexists; (split; [apply (checked_history 60); vm_compute; reflexivity|]);
    (split; [vm_compute; reflexivity|]); (split; [vm_compute; reflexivity|]); (split; [vm_compute; reflexivity|]);
    (split; [vm_compute; reflexivity|]); (split; [vm_compute; reflexivity|]);
    intros fuel Hf; (destruct fuel as [|fuel]; [inversion Hf|]); vm_compute; reflexivity.
Qed.

(** The contents have to be moved, and a message is taken out of them meanwhile. *)
Lemma restored_witness o : exists n rs w w2 rs3 w3,
  history (desktop true) test_basic quiet (start test_basic (Some hd1))
    [OpAppend (repeat 9 20 ++ [1; 5; 2]); OpProcess; OpAppend (repeat 9 11 ++ [1; 1; 2; 10; 20; 30; 3; 4])]
    (repeat 9 20 ++ [1; 5; 2] ++ repeat 9 11 ++ [1; 1; 2; 10; 20; 30; 3; 4]) rs w
  /\ zlen (held w) + 10 <= capacity test_basic
  /\ w_append 60 o (desktop true) test_basic quiet (repeat 9 10) (repeat false n ++ [true]) w = Ok (w2, [Returned 1])
  /\ map content (w_log w2) = [(MessageB, map VInt [10; 20; 30])]
  /\ history (desktop true) test_basic quiet w2 [OpProcess] [] rs3 w3
  /\ map content (w_log w3) = [(MessageB, map VInt [10; 20; 30]); (MessageB, map VInt [10; 20; 30])].
Proof.
  destruct o; exists 53%nat; do 5 eexists; (split; [apply (checked_history 60); vm_compute; reflexivity|]);
    (split; [apply Z.leb_le; vm_compute; reflexivity|]); (split; [vm_compute; reflexivity|]);
    (split; [vm_compute; reflexivity|]); (split; [apply (checked_history 60); vm_compute; reflexivity|]); vm_compute; reflexivity.
Qed.

(** A message and the first two bytes of another. *)
Lemma some_left : forall ms r, Scan test_basic [1; 1; 2; 10; 20; 30; 3; 4; 1; 1] ms r -> r <> [].
Proof.
  intros ms r HS.
  assert (Scan test_basic ([1; 1; 2; 10; 20; 30; 3; 4] ++ [1; 1]) [Found MessageB 1 [10; 20; 30]] [1; 1]) as Q.
  { eapply scan_frame; [split; [split; [lia | reflexivity]|]; split; reflexivity|]. apply scan_wait.
    split; [reflexivity|]. exists MessageB. split; [lia | reflexivity]. }
  destruct (scan_det _ _ _ _ Q _ _ HS) as (_ & <-). discriminate.
Qed.
