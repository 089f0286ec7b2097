(** Where the bytes given to a receiver went, and what its future depends on (C66, C67). *)
From Verif Require Export DeliveryLemmas.

Lemma occurs_before coll g s ms : occurs coll ms s -> occurs coll ms (g ++ s).
Proof.
  intros H. destruct H as [s|g0 f m id p ms s F H]; [constructor|].
  rewrite app_assoc. constructor; assumption.
Qed.
Lemma occurs_after coll s t ms : occurs coll ms s -> occurs coll ms (s ++ t).
Proof.
  intros H. induction H as [s|g f m id p ms s F H IH]; [constructor|].
  rewrite <- !app_assoc. constructor; assumption.
Qed.
Lemma occurs_app coll s t ms ms' : occurs coll ms s -> occurs coll ms' t -> occurs coll (ms ++ ms') (s ++ t).
Proof.
  intros H H'. induction H as [s|g f m id p ms s F H IH]; cbn [app].
  - apply occurs_before, H'.
  - rewrite <- !app_assoc. constructor; assumption.
Qed.
Lemma occurs_size coll ms s : occurs coll ms s ->
  fold_right Z.add 0 (map (fun fd => Z.of_nat (frame_size (mc_env coll) (f_message fd))) ms) <= zlen s.
Proof.
  induction 1 as [s|g f m id p ms s F H IH]; cbn [map fold_right f_message]; [apply zlen_nonneg|].
  rewrite !zlen_app. pose proof (is_frame_length _ _ _ _ _ F) as HL. pose proof (zlen_nonneg g).
  unfold zlen at 2. rewrite HL. lia.
Qed.

Lemma Proc_used coll little beh s s' r : Proc coll little beh s s' r ->
  forall new, s_log s' = s_log s ++ new ->
  exists used ms, s_bytes s ++ appended_by beh (s_log s) new = used ++ s_bytes s'
    /\ occurs coll ms used /\ Forall2 (delivers little) ms (completed beh (s_log s) new).
Proof.
  induction 1 as [X h last log U | b X h last log s' r D HP IH
                 | f m id p vs s h last log s' r F E log1 acts HT Hfit HP IH
                 | f m id p vs s h last log F E log1 acts HT Hfit]; intros new Hn; cbn [s_log s_bytes] in *.
  - rewrite <- (app_nil_r log) in Hn at 1. apply app_inv_head in Hn. subst new. exists [], []. cbn.
    rewrite app_nil_r. repeat split; constructor.
  - destruct (IH new Hn) as (K & ms & HK & HO & HF). exists (b :: K), ms. cbn [app]. rewrite HK.
    split; [reflexivity|]. split; [|assumption]. apply (occurs_before coll [b]), HO.
  - destruct (Proc_log_prefix _ _ _ _ _ _ HP) as (new' & Hn'). cbn [s_log] in Hn'. rewrite Hn' in Hn.
    unfold log1 in Hn at 1. rewrite <- app_assoc in Hn. apply app_inv_head in Hn. subst new.
    destruct (IH new' Hn') as (K & ms & HK & HO & HF). exists (f ++ K), (Found m id p :: ms).
    cbn [app appended_by completed]. fold log1. fold acts. rewrite HT.
    rewrite <- app_assoc in HK. rewrite <- !app_assoc, HK. split; [reflexivity|]. split.
    + apply (occ_cons coll [] f m id p ms K F HO).
    + cbn [app]. constructor; [|assumption]. split; [reflexivity | exact E].
  - unfold log1 in Hn at 1. apply app_inv_head in Hn. subst new. exists [], []. cbn [app appended_by completed].
    fold log1. fold acts. rewrite HT, app_nil_r, <- app_assoc. repeat split; constructor.
Qed.

Section Account.
Context (c : config) (coll : collection).
Hypothesis Hst : static_ok coll = true.
Hypothesis Hsafe : index_safe c (capacity coll).

(** C66 *)
Lemma account_lemma beh h0 ops S rs w : tame beh -> history c coll beh (start coll h0) ops S rs w ->
  exists used ms, S = used ++ held w /\ occurs coll ms used
    /\ Forall2 (delivers (little c)) ms (completed beh [] (w_log w))
    /\ zlen (w_log w) = zlen (completed beh [] (w_log w)) + zlen (throws rs).
Proof.
  intros Ht H. remember (start coll h0) as w0 eqn:E0.
  induction H as [w|w ops S rs w1 o r w2 H IH Ha Hr].
  - subst w. exists [], []. destruct h0; repeat split; constructor.
  - destruct (IH E0) as (used & ms & HS & HO & HF & HC). clear IH. subst w.
    pose proof (history_sim c coll Hst Hsafe beh Ht _ _ _ _ _ H) as Hs.
    assert (forall l l', throws (l ++ l') = throws l ++ throws l') as HTA.
    { intros l l'. unfold throws. apply filter_app. }
    assert (o = OpProcess \/ o <> OpProcess) as [->|Ho] by (destruct o; auto; right; discriminate).
    + destruct (process_cases c coll Hst Hsafe beh Ht _ _ _ Hs Hr) as [(_ & -> & ->)|(_ & k & HP & -> & _)].
      * exists used, ms. cbn [received]. unfold new_calls. rewrite skipn_all. cbn [appended_by].
        rewrite !app_nil_r, HTA. cbn [throws filter]. rewrite app_nil_r. auto.
      * pose proof (process_new_calls _ _ _ _ _ _ HP) as Hn.
        destruct (Proc_used _ _ _ _ _ _ HP _ Hn) as (used' & ms' & E & HO' & HF'). cbn [view s_bytes s_log] in E, HF'.
        exists (used ++ used'), (ms ++ ms'). cbn [received].
        assert (completed beh [] (w_log w2) = completed beh [] (w_log w1) ++ completed beh (w_log w1) (new_calls w1 w2)) as HCA.
        { rewrite Hn at 1. rewrite completed_app. reflexivity. }
        split; [rewrite HS, <- !app_assoc, E; reflexivity|]. split; [apply occurs_app; assumption|].
        split; [rewrite HCA; apply Forall2_app; assumption|].
        rewrite HCA, HTA, Hn, !zlen_app, HC.
        pose proof (Proc_completed _ _ _ _ _ _ HP _ Hn) as HX. cbn [view s_log] in HX. destruct k as [n|].
        -- rewrite HX. cbn [throws filter spec_result]. change (zlen (@nil opret)) with 0. lia.
        -- destruct HX as (pre & d & -> & -> & _). rewrite zlen_app. cbn [throws filter spec_result].
           change (zlen [d]) with 1. change (zlen [RetProcess Threw]) with 1. lia.
    + destruct (other_step c coll Hst Hsafe beh Ht o w1 w2 r Hs Ha Hr Ho) as (HH & HL & _ & _ & _ & Hret).
      exists used, ms. rewrite HH, HL, HTA. split; [rewrite HS, <- app_assoc; reflexivity|].
      split; [assumption|]. split; [assumption|]. rewrite zlen_app, HC.
      assert (throws [r] = []) as ->. { rewrite Hret. destruct o; reflexivity. }
      change (zlen (@nil opret)) with 0. lia.
Qed.

Lemma call_bound_lemma beh h0 ops S rs w : tame beh -> history c coll beh (start coll h0) ops S rs w ->
  frame_bytes coll (completed beh [] (w_log w)) + zlen (held w) <= zlen S
  /\ 5 * (zlen (w_log w) - zlen (throws rs)) + zlen (held w) <= zlen S.
Proof.
  intros Ht H. destruct (account_lemma beh h0 ops S rs w Ht H) as (used & ms & HS & HO & HF & HC).
  apply occurs_size in HO.
  assert (frame_bytes coll (completed beh [] (w_log w))
          = fold_right Z.add 0 (map (fun fd => Z.of_nat (frame_size (mc_env coll) (f_message fd))) ms)) as E.
  { unfold frame_bytes. clear - HF. induction HF as [|fd d ms l (HD & _) HF IH]; [reflexivity|].
    cbn [map fold_right]. rewrite HD, IH. reflexivity. }
  assert (5 * zlen (completed beh [] (w_log w)) <= frame_bytes coll (completed beh [] (w_log w))) as H5.
  { generalize (completed beh [] (w_log w)). clear. intros l. unfold frame_bytes. induction l as [|d l IH]; [reflexivity|].
    cbn [map fold_right]. rewrite zlen_cons. pose proof (frame_size_ge5 (mc_env coll) (d_message d)). lia. }
  rewrite HS, zlen_app. split; lia.
Qed.

(** C67 *)
Lemma future_lemma c2 beh beh2 h0 h1 S T w v : index_safe c2 (capacity coll) -> little c2 = little c ->
  tame beh -> tame beh2 ->
  processed c coll beh h0 S w -> processed c2 coll beh2 h1 (S ++ T) v ->
  exists ms later, Scan coll (held w ++ T) ms (held v)
    /\ Forall2 (delivers (little c)) ms later
    /\ map content (completed beh2 [] (w_log v)) = map content (completed beh [] (w_log w)) ++ map content later.
Proof.
  intros Hs2 HE Ht Ht2 Hw Hv.
  destruct (stream_lemma c coll Hst Hsafe beh Ht _ _ _ Hw) as (ms & HS & HF).
  destruct (stream_lemma c2 coll Hst Hs2 beh2 Ht2 _ _ _ Hv) as (ms2 & HS2 & HF2).
  destruct (scan_total coll (held w ++ T)) as (ms' & r & HS').
  pose proof (scan_consumed _ _ _ _ HS T ms' r HS') as HA.
  destruct (scan_det _ _ _ _ HA _ _ HS2) as (<- & ->). rewrite HE in HF2.
  apply Forall2_app_inv_l in HF2. destruct HF2 as (l1 & l2 & H1 & H2 & E).
  exists ms', l2. split; [assumption|]. split; [assumption|]. rewrite E, map_app. f_equal. symmetry.
  apply (delivers_all_fun c coll ms Hst); [eapply scan_frames_in; eauto | assumption | assumption].
Qed.
End Account.
