(** processMessages with bytes arriving does what separate calls do. *)
From Verif Require Import ArrivalLemmas FeedLemmas.
From Verif Require Export SpecArrivals HandlerLemmas DeliveryLemmas.

Section Linear.
Context (c : config) (coll : collection) (Hst : static_ok coll = true) (Hsafe : index_safe c (capacity coll)).
Local Notation cap := (capacity coll).
Context (beh : hbehav) (Hb : steady beh).
Local Notation Pr := (Proc coll (little c) beh).

(** ** Separate calls, on the states of the specification *)
Definition with_more (d : list Z) (s : sstate) : sstate :=
  SState (s_bytes s ++ d) (s_handler s) (s_last s) (s_log s).

Inductive Lin : sstate -> list Z -> sstate -> option nat -> Prop :=
| lin_end s s1 r d : Pr s s1 r -> zlen (s_bytes s1 ++ d) <= cap -> bytes_ok d -> Lin s d (with_more d s1) r
| lin_more s s1 n d g s' r : Pr s s1 (Some n) -> zlen (s_bytes s1 ++ d) <= cap -> bytes_ok d ->
    Lin (with_more d s1) g s' r -> Lin s (d ++ g) s' (option_map (Nat.add n) r).

Lemma with_more_app d g s : with_more g (with_more d s) = with_more (d ++ g) s.
Proof. unfold with_more. cbn [s_bytes s_handler s_last s_log]. rewrite app_assoc. reflexivity. Qed.

Lemma prefix_cases (f s X d : list Z) : f ++ s = X ++ d ->
  (exists q, X = f ++ q /\ s = q ++ d) \/ (exists x q, f = X ++ x :: q).
Proof.
  revert X. induction f as [|a f IH]; intros X E; cbn [app] in *.
  - left. exists X. auto.
  - destruct X as [|b X]; cbn [app] in *.
    + right. exists a, f. reflexivity.
    + injection E as -> E. destruct (IH X E) as [(q & -> & ->)|(x & q & ->)]; [left; exists q; auto | right; exists x, q; reflexivity].
Qed.

Lemma undecided_front f m id p X x q : is_frame coll f m id p -> f = X ++ x :: q -> undecided coll X.
Proof.
  intros F E. destruct (classify coll X) as [U|[(f' & m' & id' & p' & s' & F' & ->)|(b & s' & -> & D)]]; [assumption| |].
  - exfalso. rewrite <- app_assoc in E. rewrite <- (app_nil_r f) in E.
    destruct (is_frame_unique _ _ _ _ _ _ _ _ _ _ _ F F' E) as (_ & _ & _ & _ & E2). destruct s'; discriminate.
  - exfalso. pose proof (dead_app coll b s' (x :: q) D) as (_ & D2). apply (D2 _ _ _ _ [] F). rewrite app_nil_r, E. reflexivity.
Qed.

(** Processing [X ++ d] is processing [X] and then, with [d], what is left. *)
Lemma Proc_split s s' r : Pr s s' r -> forall X d, s_bytes s = X ++ d ->
  exists s1 r1, Pr (SState X (s_handler s) (s_last s) (s_log s)) s1 r1
    /\ (exists Y, X = Y ++ s_bytes s1)
    /\ match r1 with
       | Some n => exists r2, Pr (with_more d s1) s' r2 /\ r = option_map (Nat.add n) r2
       | None => r = None /\ s' = with_more d s1
       end.
Proof.
  assert (forall r : option nat, r = option_map (Nat.add 0) r) as H0 by (intros [|]; reflexivity).
  assert (forall X d h last log s' r, undecided coll X -> Pr (SState (X ++ d) h last log) s' r ->
    exists s1 r1, Pr (SState X h last log) s1 r1 /\ (exists Y, X = Y ++ s_bytes s1)
    /\ match r1 with
       | Some n => exists r2, Pr (with_more d s1) s' r2 /\ r = option_map (Nat.add n) r2
       | None => r = None /\ s' = with_more d s1
       end) as Hwait.
  { intros X d h last log s0 r0 U HP. exists (SState X h last log), (Some O). split; [apply proc_wait, U|].
    split; [exists []; reflexivity|]. exists r0. auto. }
  intros HPr. induction HPr as [X0 h last log U | b X0 h last log s' r D HP IH
                 | f m id p vs s h last log s' r F E log1 acts HT Hfit HP IH
                 | f m id p vs s h last log F E log1 acts HT Hfit]; intros X d EX; cbn [s_bytes s_handler s_last s_log] in *.
  - subst X0. destruct (classify coll X) as [U'|[(f & m & id & p & s' & F & ->)|(b & s' & -> & D)]].
    + apply Hwait; [assumption|]. apply proc_wait, U.
    + exfalso. rewrite <- app_assoc in U. exact (frame_not_undecided _ _ _ _ _ _ F U).
    + exfalso. exact (proj1 (dead_app coll b s' d D) U).
  - destruct X as [|b' X].
    + cbn [app] in EX. subst d. apply (Hwait []); [exact I|]. cbn [app]. apply proc_skip; assumption.
    + cbn [app] in EX. injection EX as <- ->.
      destruct (classify coll (b :: X)) as [U'|[(f & m & id & p & s0 & F & EF)|(b1 & s0 & EF & D1)]].
      * apply Hwait; [assumption|]. cbn [app]. apply proc_skip; assumption.
      * exfalso. destruct D as [_ D]. apply (D _ _ _ _ (s0 ++ d) F). rewrite app_assoc, <- EF. reflexivity.
      * injection EF as <- <-. destruct (IH X d eq_refl) as (s1 & r1 & H1 & (Y & HY) & H2).
        exists s1, r1. split; [apply proc_skip; assumption|]. split; [exists (b :: Y); rewrite HY at 1; reflexivity|]. assumption.
  - assert (appended acts = []) as HA by (unfold acts; apply steady_appended, Hb).
    destruct (prefix_cases _ _ _ _ EX) as [(q & -> & ->)|(x & q & EF)].
    + destruct (IH q d) as (s1 & r1 & H1 & (Y & HY) & H2). { rewrite HA, app_nil_r. reflexivity. }
      exists s1, (option_map S r1). split.
      { eapply proc_frame; try eassumption; fold log1; fold acts; rewrite HA.
        - rewrite HA in Hfit. rewrite !zlen_app in *. pose proof (zlen_nonneg d). lia.
        - rewrite app_nil_r. assumption. }
      split; [exists (f ++ Y); rewrite HY at 1; rewrite app_assoc; reflexivity|].
      destruct r1 as [n|]; cbn [option_map].
      * destruct H2 as (r2 & H2 & ->). exists r2. split; [assumption|]. destruct r2; reflexivity.
      * destruct H2 as (-> & ->). auto.
    + apply Hwait; [eapply undecided_front; eassumption|]. rewrite <- EX. eapply proc_frame; eassumption.
  - assert (appended acts = []) as HA by (unfold acts; apply steady_appended, Hb).
    destruct (prefix_cases _ _ _ _ EX) as [(q & -> & ->)|(x & q & EF)].
    + eexists. exists None. split.
      { eapply proc_throw; try eassumption; fold log1; fold acts; rewrite HA.
        rewrite HA in Hfit. rewrite !zlen_app in *. pose proof (zlen_nonneg d). lia. }
      fold log1. fold acts. rewrite HA, !app_nil_r. cbn [s_bytes].
      split; [exists []; reflexivity|]. split; [reflexivity|]. unfold with_more. cbn [s_bytes s_handler s_last s_log].
      rewrite <- app_assoc. reflexivity.
    + apply Hwait; [eapply undecided_front; eassumption|]. rewrite <- EX. eapply proc_throw; eassumption.
Qed.

Lemma option_add n m (r : option nat) : option_map (Nat.add n) (option_map (Nat.add m) r) = option_map (Nat.add (n + m)) r.
Proof. destruct r; cbn [option_map]; [rewrite Nat.add_assoc|]; reflexivity. Qed.

Lemma suffix_fits (X Y Z0 d : list Z) : X = Y ++ Z0 -> zlen (X ++ d) <= cap -> zlen (Z0 ++ d) <= cap.
Proof. intros ->. rewrite !zlen_app. pose proof (zlen_nonneg Y). lia. Qed.

Lemma lin_append X d h last log g s' r : zlen (X ++ d) <= cap -> bytes_ok d ->
  Lin (SState (X ++ d) h last log) g s' r -> Lin (SState X h last log) (d ++ g) s' r.
Proof.
  intros Hf Hd H. inversion H as [s s1 r0 g0 HP Hf1 Hg | s s1 n d2 g2 s2 r2 HP Hf1 Hg HL]; subst.
  - destruct (Proc_split _ _ _ HP X d eq_refl) as (s0 & r1 & H1 & (Y & HY) & H2). cbn [s_handler s_last s_log] in H1.
    destruct r1 as [n|].
    + destruct H2 as (r2 & H2 & ->). eapply lin_more; [exact H1 | eapply suffix_fits; eassumption | assumption |].
      apply lin_end; assumption.
    + destruct H2 as (-> & ->). rewrite with_more_app. apply lin_end; [assumption | | apply Forall_app; auto].
      cbn [with_more s_bytes] in Hf1. rewrite app_assoc. assumption.
  - destruct (Proc_split _ _ _ HP X d eq_refl) as (s0 & r1 & H1 & (Y & HY) & H2). cbn [s_handler s_last s_log] in H1.
    destruct r1 as [k|].
    + destruct H2 as (r3 & H2 & E3). destruct r3 as [j|]; [|discriminate]. cbn [option_map] in E3. injection E3 as ->.
      rewrite <- option_add.
      eapply lin_more; [exact H1 | eapply suffix_fits; eassumption | assumption |].
      eapply lin_more; eassumption.
    + destruct H2 as (E & _). discriminate.
Qed.

Lemma lin_skips X Y h last log g s' r : Skips coll X Y -> Lin (SState Y h last log) g s' r -> Lin (SState X h last log) g s' r.
Proof.
  intros HS H. inversion H as [s s1 r0 g0 HP Hf1 Hg | s s1 n d2 g2 s2 r2 HP Hf1 Hg HL]; subst.
  - apply lin_end; auto. eapply Proc_skips; eassumption.
  - eapply lin_more; eauto. eapply Proc_skips; eassumption.
Qed.

Lemma lin_runs X d Y : Runs coll X d Y -> forall h last log g s' r,
  Lin (SState Y h last log) g s' r -> Lin (SState X h last log) (d ++ g) s' r.
Proof.
  induction 1 as [X|X d g' Y Hf Hd _ IH|b X g' Y D _ IH]; intros h last log g s' r H.
  - assumption.
  - rewrite <- app_assoc. apply lin_append; auto.
  - eapply lin_skips; [constructor; [exact D | constructor]|]. auto.
Qed.

Lemma lin_wait X h last log d : undecided coll X -> zlen (X ++ d) <= cap -> bytes_ok d ->
  Lin (SState X h last log) d (SState (X ++ d) h last log) (Some O).
Proof.
  intros U Hf Hd. pose proof (lin_end (SState X h last log) (SState X h last log) (Some O) d (proc_wait _ _ _ _ _ _ _ U)) as H.
  unfold with_more in H. cbn [s_bytes s_handler s_last s_log] in H. apply H; assumption.
Qed.

Lemma lin_frame f m id p vs s h last log g s' r : is_frame coll f m id p -> encodes (little c) (mt_fields m) vs p ->
  let log1 := log ++ [Delivery h m vs] in hr_throws (beh log1) = false -> zlen (f ++ s) <= cap ->
  Lin (SState s (handler_after (hr_acts (beh log1)) (Some h)) (Some id) log1) g s' r ->
  Lin (SState (f ++ s) (Some h) last log) g s' (option_map S r).
Proof.
  intros F E log1 HT Hf H.
  assert (appended (hr_acts (beh log1)) = []) as HA by (apply steady_appended, Hb).
  assert (forall s1 r1, Pr (SState s (handler_after (hr_acts (beh log1)) (Some h)) (Some id) log1) s1 r1 ->
            Pr (SState (f ++ s) (Some h) last log) s1 (option_map S r1)) as HF.
  { intros s1 r1 HP. eapply proc_frame; try eassumption; fold log1; rewrite HA, app_nil_r; assumption. }
  inversion H as [s0 s1 r0 g0 HP Hf1 Hg | s0 s1 n d2 g2 s2 r2 HP Hf1 Hg HL]; subst.
  - apply lin_end; auto.
  - assert (option_map S (option_map (Nat.add n) r2) = option_map (Nat.add (S n)) r2) as -> by (destruct r2; reflexivity).
    eapply lin_more; eauto. exact (HF _ _ HP).
Qed.

Lemma lin_throw f m id p vs s h last log d : is_frame coll f m id p -> encodes (little c) (mt_fields m) vs p ->
  let log1 := log ++ [Delivery h m vs] in hr_throws (beh log1) = true -> zlen (f ++ s ++ d) <= cap -> bytes_ok d ->
  Lin (SState (f ++ s) (Some h) last log) d (SState (f ++ s ++ d) (handler_after (hr_acts (beh log1)) (Some h)) (Some id) log1) None.
Proof.
  intros F E log1 HT Hf Hd.
  assert (appended (hr_acts (beh log1)) = []) as HA by (apply steady_appended, Hb).
  pose proof (proc_throw coll (little c) beh f m id p vs s h last log F E) as HP. cbv zeta in HP. fold log1 in HP. rewrite HA, !app_nil_r in HP.
  assert (zlen (f ++ s) <= cap) as Hf2. { rewrite !zlen_app in *. pose proof (zlen_nonneg d). lia. }
  specialize (HP HT Hf2). apply lin_end with (d := d) in HP.
  - unfold with_more in HP. cbn [s_bytes s_handler s_last s_log] in HP. rewrite <- app_assoc in HP. exact HP.
  - cbn [s_bytes]. rewrite <- app_assoc. assumption.
  - assumption.
Qed.

(** ** The loop *)
Definition buf (w : aworld) : fbuf := FBuf (rx_recv (w_rx (aw_world w))) (aw_coming w) (aw_arrived w).

Definition live (w : aworld) (s : sstate) : Prop :=
  sim coll (aw_world w) s /\ Forall fits (aw_coming w) /\ Forall harmless (aw_coming w).

Lemma live_has w X h last log : live w (SState X h last log) -> has coll (buf w) X.
Proof. intros ((R & HB & _) & HF & HH). split; [exact R|]. auto. Qed.

Lemma has_live w X h last log s' Y : live w (SState X h last log) -> has coll s' Y ->
  live (AWorld (w_set_recv (fb_recv s') (aw_world w)) (fb_coming s') (fb_arrived s')) (SState Y h last log).
Proof.
  intros ((R & HB & Hf & Hi & Hl & Hlog) & _) (R' & HB' & HF & HH). split; [|auto]. repeat split; auto.
Qed.

Lemma buf_set s' w : buf (AWorld (w_set_recv (fb_recv s') w) (fb_coming s') (fb_arrived s')) = s'.
Proof. destruct s'. reflexivity. Qed.

Lemma live_fits w X h last log : live w (SState X h last log) -> zlen X <= cap.
Proof. intros ((R & _) & _). exact (rep_size_le _ _ _ R). Qed.

Lemma a_acts_spec proc : forall acts, (forall a, In a acts -> exists h, a = ASetHandler h) ->
  forall w X h last log, live w (SState X h last log) ->
  exists w' d, a_acts c coll proc acts w = Ok (w', false)
    /\ live w' (SState (X ++ d) (handler_after acts h) last log) /\ goes coll (buf w) d (buf w')
    /\ er_id (fb_recv (buf w')) = er_id (fb_recv (buf w)).
Proof.
  induction acts as [|a acts IH]; intros Ha w X h last log H.
  - exists w, []. rewrite app_nil_r. split; [reflexivity|]. split; [exact H|]. split; [apply goes_refl | reflexivity].
  - destruct (Ha a (or_introl eq_refl)) as (h1 & ->). cbn [a_acts].
    pose proof (live_has _ _ _ _ _ H) as HH.
    unfold on_buffer, call_after. fold (buf w).
    destruct (arrive_spec c coll Hst Hsafe Between _ _ HH) as (s1 & d1 & -> & H1 & G1 & I1 & _). cbn [bind aw_world aw_coming aw_arrived].
    set (s1' := FBuf (fb_recv s1) (fb_coming s1) (fb_arrived s1)).
    assert (s1' = s1) as E1 by (destruct s1; reflexivity).
    rewrite E1. cbn [fb_recv fb_coming fb_arrived].
    pose proof (has_live _ _ _ _ _ _ _ H H1) as L1.
    match goal with |- context [a_acts c coll proc acts ?w2] => set (W := w2) end.
    destruct (IH (fun a Hin => Ha a (or_intror Hin)) W (X ++ d1) (Some h1) last log) as (w' & d2 & E2 & L2 & G2 & I2).
    { destruct L1 as ((R & HB & Hf & Hi & Hl & Hlog) & HF2 & HH2). split; [|auto]. repeat split; auto. }
    rewrite E2. exists w', (d1 ++ d2). split; [reflexivity|]. rewrite <- app_assoc in L2. split; [exact L2|].
    assert (buf W = s1) as EB by (subst W; destruct s1; reflexivity). rewrite EB in G2, I2.
    split; [eapply goes_trans; eassumption | congruence].
Qed.

Lemma a_loop_spec (Hbf : bool_free coll) fuel : forall n w X h last log, live w (SState X (Some h) last log) ->
  (weight coll (buf w) X < fuel)%nat -> 0 <= n < 256 ->
  exists w' p d s' r, a_loop fuel c coll beh n w = Ok (w', p) /\ live w' s' /\ goes coll (buf w) d (buf w')
    /\ Lin (SState X (Some h) last log) d s' r
    /\ p = match r with Some k => Returned ((n + Z.of_nat k) mod 256) | None => Threw end.
Proof.
  induction fuel as [|fuel IH]; intros n w X h last log H W Hn; [lia|].
  assert (forall w', AWorld (aw_world w') (aw_coming w') (aw_arrived w') = w') as Heta by (intros []; reflexivity).
  cbn [a_loop]. pose proof (live_has _ _ _ _ _ H) as HH.
  unfold on_buffer at 1. fold (buf w).
  destruct (a_check_spec c coll Hst Hsafe (S fuel) _ _ HH W) as (ok & s1 & d1 & g1 & Y & -> & H1 & G1 & HR1 & HY). cbn [bind].
  set (w1 := AWorld (w_set_recv (fb_recv s1) (aw_world w)) (fb_coming s1) (fb_arrived s1)).
  assert (buf w1 = s1) as B1 by apply buf_set.
  pose proof (has_live _ _ _ _ _ _ _ H H1) as L1. fold w1 in L1.
  destruct ok; cbn [negb].
  2:{ exists w1, (Returned n), (d1 ++ g1), (SState (Y ++ g1) (Some h) last log), (Some O). rewrite B1.
      split; [reflexivity|]. split; [exact L1|]. split; [exact G1|]. split.
      - eapply lin_runs; [exact HR1|]. apply lin_wait; [exact HY | eapply live_fits; exact L1 |].
        destruct G1 as (HB1 & _). apply Forall_app in HB1 as [_ HB1]. exact HB1.
      - rewrite Z.add_0_r, Z.mod_small by lia. reflexivity. }
  destruct HY as (-> & f & m & id & pl & t & -> & F & Hid). rewrite app_nil_r in H1, G1, L1.
  unfold on_buffer at 1. fold (buf w1). rewrite B1.
  destruct (a_id_spec c coll Hst Hsafe s1 _ id H1 Hid) as (s2 & d2 & -> & H2 & G2 & I2). cbn [bind aw_world aw_coming aw_arrived].
  rewrite <- app_assoc in H2.
  set (w2 := AWorld (w_set_last id (w_set_recv (fb_recv s2) (aw_world w1))) (fb_coming s2) (fb_arrived s2)).
  assert (buf w2 = s2) as B2 by (subst w2; destruct s2; reflexivity).
  assert (live w2 (SState (f ++ t ++ d2) (Some h) (Some id) log)) as L2.
  { destruct (has_live _ _ _ _ _ _ _ L1 H2) as ((R & HB & Hf & Hi & Hl & Hlog) & HF & HH2). split; [|auto]. repeat split; auto. }
  unfold a_invoke. pose proof L2 as ((R & HB & Hfn & Hi & Hl & Hlog) & _ & _). cbn [s_bytes s_handler s_last s_log] in *.
  rewrite Hfn, Hi. cbn [option_map]. rewrite Z.eqb_refl. cbn [negb].
  assert (exists vs, encodes (little c) (mt_fields m) vs pl) as (vs & E).
  { destruct (scan_total coll (t ++ d2)) as (ms & r0 & HS).
    pose proof (bool_free_decodable c coll Hst (f ++ t ++ d2) Hbf HB _ _ (scan_frame _ _ _ _ _ _ _ _ F HS)) as HD.
    exact (Forall_inv HD). }
  unfold on_buffer at 1. fold (buf w2). rewrite B2.
  destruct (a_deserialize_spec c coll Hst Hsafe s2 f m id pl (t ++ d2) vs H2 F E I2) as (s3 & d3 & -> & H3 & G3 & I3).
  cbn [bind aw_world aw_coming aw_arrived w_log w_set_recv w_rx].
  change (w_log (aw_world w2)) with (w_log (aw_world w)).
  assert (w_log (aw_world w) = log) as Hlog0 by apply Hlog. rewrite Hlog0.
  set (log1 := log ++ [Delivery h m vs]).
  match goal with |- context [a_acts c coll ?pr (hr_acts (beh log1)) ?w3] => set (w3' := w3); set (proc := pr) end.
  assert (buf w3' = s3) as B3 by (subst w3'; destruct s3; reflexivity).
  assert (live w3' (SState (f ++ (t ++ d2) ++ d3) (Some h) (Some id) log1)) as L3.
  { destruct (has_live _ _ _ _ _ _ _ L2 H3) as ((R3 & HB3 & Hf3 & Hi3 & Hl3 & Hlog3) & HF3 & HH3). split; [|auto]. repeat split; auto. }
  destruct (a_acts_spec proc (hr_acts (beh log1)) (Hb log1) w3' _ _ _ _ L3) as (w4 & d4 & -> & L4 & G4 & I4). cbn [bind orb].
  rewrite B3 in G4, I4. rewrite I3 in I4. rewrite <- !app_assoc in L4.
  assert (goes coll s1 (d2 ++ d3 ++ d4) (buf w4)) as G by (repeat (eapply goes_trans; [eassumption|]); assumption).
  pose proof G as (Hd & _).
  destruct (hr_throws (beh log1)) eqn:HT.
  - eexists. eexists. exists (d1 ++ d2 ++ d3 ++ d4). eexists. exists None. split; [reflexivity|]. split; [exact L4|].
    split; [eapply goes_trans; eassumption|]. split; [|reflexivity].
    eapply lin_runs; [exact HR1|]. eapply lin_throw; try eassumption. apply (live_fits _ _ _ _ _ L4).
  - unfold on_buffer at 1. fold (buf w4). pose proof (live_has _ _ _ _ _ L4) as H4.
    pose proof (goes_weight coll _ X _ _ G1) as W1. pose proof (goes_weight coll _ (f ++ t) _ _ G) as W2.
    destruct (skips_suffix coll _ _ (runs_skips coll _ _ _ HR1)) as (Z0 & EZ).
    rewrite <- app_assoc in W2.
    assert (weight coll (buf w4) (f ++ t ++ d2 ++ d3 ++ d4) < S fuel)%nat as W4.
    { rewrite EZ in W1. unfold weight in *. rewrite (app_length Z0) in W1. lia. }
    destruct (a_pop_message_spec c coll Hst Hsafe (S fuel) (buf w4) f m id pl (t ++ d2 ++ d3 ++ d4) H4 W4 F I4)
      as (s5 & d5 & -> & H5 & G5). cbn [bind].
    rewrite <- !app_assoc in H5.
    pose proof (has_live _ _ _ _ _ _ _ L4 H5) as L5.
    set (w5 := AWorld (w_set_recv (fb_recv s5) (aw_world w4)) (fb_coming s5) (fb_arrived s5)) in *.
    assert (buf w5 = s5) as B5 by apply buf_set.
    destruct (steady_handler beh log1 h Hb) as (h' & Eh). rewrite Eh in L5.
    pose proof (goes_weight coll _ (f ++ t ++ d2 ++ d3 ++ d4) _ _ G5) as W5.
    pose proof (is_frame_length _ _ _ _ _ F) as HL. pose proof (frame_size_ge5 (mc_env coll) m) as H5'.
    destruct (IH (trunc 8 (n + 1)) w5 _ _ _ _ L5) as (w6 & p6 & d6 & s6 & r6 & E6 & L6 & G6 & HL6 & Hp6).
    { rewrite B5. unfold weight in *. rewrite !app_length in *. lia. }
    { unfold trunc. apply Z.mod_pos_bound. reflexivity. }
    rewrite B5 in G6.
    exists w6, p6, (d1 ++ ((d2 ++ d3 ++ d4) ++ d5) ++ d6), s6, (option_map S r6). split; [exact E6|]. split; [exact L6|].
    split; [exact (goes_trans coll _ _ _ _ _ G1 (goes_trans coll _ _ _ _ _ (goes_trans coll _ _ _ _ _ G G5) G6))|].
    split.
    + eapply lin_runs; [exact HR1|].
      eapply lin_frame; [exact F | exact E | exact HT | eapply live_fits; exact L1 |]. fold log1. rewrite Eh.
      apply lin_append; [rewrite <- !app_assoc; apply (live_fits _ _ _ _ _ L5) | | rewrite <- !app_assoc in *; exact HL6].
      destruct G5 as (Hd5 & _). apply Forall_app. auto.
    + subst p6. destruct r6 as [k|]; [|reflexivity]. cbn [option_map]. f_equal.
      unfold trunc. change (2 ^ 8) with 256. rewrite Zplus_mod_idemp_l. f_equal. lia.
Qed.

(** ** Separate calls, on the modelled receiver *)
Let Ht : tame beh := steady_tame _ Hb.

Lemma step_history w s o d s' r : sim coll w s -> allowed coll o w -> Step coll (little c) beh o s d s' r ->
  exists v, returns c coll beh o w v r /\ sim coll v s'.
Proof.
  intros Hs Ha HS.
  destruct (step_complete c coll Hst beh (S (length (s_log s'))) o w s d s' r Ht Hsafe Hs Ha HS) as (v & E & Hv); [lia|].
  exists v. split; [exists (S (length (s_log s'))); exact E | exact Hv].
Qed.

Lemma no_appended_by new : forall log, appended_by beh log new = [].
Proof.
  induction new as [|d new IH]; intros log; cbn [appended_by]; [reflexivity|].
  rewrite steady_appended by assumption. apply IH.
Qed.

Lemma history_process w s s1 r : sim coll w s -> s_handler s <> None -> Pr s s1 r ->
  exists v, returns c coll beh OpProcess w v (RetProcess (spec_result r)) /\ received coll beh OpProcess w v = [] /\ sim coll v s1.
Proof.
  intros Hs Hh HP. destruct s as [X [h|] last log]; [|contradiction].
  destruct (step_history w _ OpProcess [] s1 (RetProcess (spec_result r)) Hs I) as (v & Hr & Hv); [constructor; exact HP|].
  exists v. split; [assumption|]. split; [apply no_appended_by | assumption].
Qed.

Lemma history_append w s d : sim coll w s -> zlen (s_bytes s ++ d) <= cap -> bytes_ok d ->
  exists v, returns c coll beh (OpAppend d) w v RetUnit /\ allowed coll (OpAppend d) w /\ sim coll v (with_more d s).
Proof.
  intros Hs Hf Hd. destruct s as [X h last log]. cbn [s_bytes] in *. rewrite zlen_app in Hf.
  assert (allowed coll (OpAppend d) w) as Ha.
  { split; [assumption|]. rewrite (sim_available coll Hst _ _ Hs). cbn [s_bytes]. lia. }
  destruct (step_history w _ (OpAppend d) d (SState (X ++ d) h last log) RetUnit Hs Ha) as (v & Hr & Hv).
  { constructor. assumption. }
  exists v. auto.
Qed.

Lemma lin_history : forall s d s' r, Lin s d s' r -> forall w, sim coll w s -> s_handler s <> None ->
  exists ops rs v, separate ops /\ history c coll beh w ops d rs v /\ sim coll v s'
    /\ (exists new, s_log s' = s_log s ++ new /\ match r with Some n => length new = n /\ throws rs = [] | None => throws rs <> [] end).
Proof.
  assert (forall w s s1 r d, sim coll w s -> s_handler s <> None -> Pr s s1 r -> zlen (s_bytes s1 ++ d) <= cap -> bytes_ok d ->
    exists v, history c coll beh w [OpProcess; OpAppend d] d [RetProcess (spec_result r); RetUnit] v /\ sim coll v (with_more d s1)) as Hstep.
  { intros w s s1 r d Hs Hh HP Hf Hd. destruct (history_process w s s1 r Hs Hh HP) as (v & Hr & HE & Hv).
    destruct (history_append v s1 d Hv Hf Hd) as (v' & Hr' & Ha & Hv'). exists v'. split; [|exact Hv'].
    pose proof (hist_snoc c coll beh w [] [] [] w OpProcess _ v (hist_nil c coll beh w) I Hr) as Q1. rewrite HE in Q1.
    exact (hist_snoc c coll beh w _ _ _ v (OpAppend d) _ v' Q1 Ha Hr'). }
  induction 1 as [s s1 r d HP Hf Hd | s s1 n d g s' r HP Hf Hd HL IH]; intros w Hs Hh.
  - destruct (Hstep w s s1 r d Hs Hh HP Hf Hd) as (v & HH & Hv).
    exists [OpProcess; OpAppend d]. eexists. exists v. split.
    { constructor; [left; reflexivity|]. constructor; [right; eauto | constructor]. }
    split; [exact HH|]. split; [exact Hv|].
    destruct (Proc_log_prefix _ _ _ _ _ _ HP) as (new & En). exists new. split; [exact En|].
    pose proof (Proc_count _ _ _ _ _ _ HP) as HC. destruct r as [n|]; [|discriminate].
    split; [|reflexivity]. rewrite En, app_length in HC. lia.
  - destruct (Hstep w s s1 (Some n) d Hs Hh HP Hf Hd) as (v & HH & Hv).
    destruct (IH v Hv) as (ops & rs & v' & HSep & HH' & Hv' & new' & En' & HR).
    { exact (Proc_steady_handler _ _ _ _ _ _ Hb HP Hh). }
    exists ([OpProcess; OpAppend d] ++ ops). eexists. exists v'. split.
    { apply Forall_app. split; [constructor; [left; reflexivity|]; constructor; [right; eauto | constructor] | exact HSep]. }
    split; [eapply history_app; eassumption|]. split; [exact Hv'|].
    destruct (Proc_log_prefix _ _ _ _ _ _ HP) as (new & En). exists (new ++ new').
    cbn [with_more s_log] in En'. split; [rewrite En', En, app_assoc; reflexivity|].
    pose proof (Proc_count _ _ _ _ _ _ HP) as HC. cbn beta iota in HC. rewrite En, app_length in HC.
    unfold throws in *. rewrite filter_app. cbn [filter spec_result app].
    destruct r as [k|]; cbn [option_map]; [|exact HR]. destruct HR as (HR1 & HR2). split; [rewrite app_length; lia | exact HR2].
Qed.
End Linear.

Lemma arrivals_lemma c coll : static_ok coll = true -> index_safe c (capacity coll) ->
  forall beh h0 ops S rs w coming fuel, steady beh -> bool_free coll ->
  history c coll beh (start coll h0) ops S rs w ->
  Forall fits coming -> Forall harmless coming ->
  (Z.to_nat (capacity coll) * (1 + length coming) < fuel)%nat ->
  exists w' rest d r, a_process fuel c coll beh (AWorld w coming []) = Ok (AWorld w' rest d, r)
    /\ exists ops' rs' v, separate ops' /\ history c coll beh w ops' d rs' v
         /\ same_view coll w' v /\ r = ends_with rs' w v
         /\ (forall ops2 S2 rs2 w2, history c coll beh w' ops2 S2 rs2 w2 ->
               exists v2, history c coll beh v ops2 S2 rs2 v2 /\ same_view coll w2 v2)
         /\ (forall ops2 S2 rs2 v2, history c coll beh v ops2 S2 rs2 v2 ->
               exists w2, history c coll beh w' ops2 S2 rs2 w2 /\ same_view coll w2 v2).
Proof.
  intros Hst Hsafe beh h0 ops S rs w coming fuel Hb Hbf H HF HH Hfu.
  pose proof (steady_tame _ Hb) as Ht.
  pose proof (history_sim c coll Hst Hsafe beh Ht _ _ _ _ _ H) as Hs.
  assert (forall w1 v1 s, sim coll w1 s -> sim coll v1 s -> same_view coll w1 v1) as Hsame.
  { intros w1 v1 s H1 H2. pose proof (view_of coll w1 s H1) as E. apply (same_view_sim coll Hst); rewrite E; assumption. }
  assert (forall w1 v1 s, sim coll w1 s -> sim coll v1 s -> forall ops2 S2 rs2 w2, history c coll beh w1 ops2 S2 rs2 w2 ->
     exists v2, history c coll beh v1 ops2 S2 rs2 v2 /\ same_view coll w2 v2) as Hfut.
  { intros w1 v1 s H1 H2 ops2 S2 rs2 w2 H3.
    destruct (history_transfer c coll Hst Hsafe c beh Ht eq_refl Hsafe _ _ _ _ _ _ _ H1 H2 H3) as (v2 & s2 & Hv2 & Q1 & Q2).
    exists v2. split; [assumption|]. eapply Hsame; eassumption. }
  assert (forall w1 v1, same_view coll w1 v1 -> same_view coll v1 w1) as Hsym.
  { unfold same_view. intros w1 v1 (A & B & C & D & E). auto. }
  unfold a_process. cbn [aw_world].
  destruct (rx_has_handler (w_rx w)) eqn:EH; cbn [negb].
  - unfold rx_has_handler in EH. unfold view in Hs.
    assert (exists h, rx_functor (w_rx w) = Some h) as (h & Eh).
    { destruct (rx_functor (w_rx w)); [eauto|discriminate]. }
    rewrite Eh in Hs.
    destruct (a_loop_spec c coll Hst Hsafe beh Hb Hbf fuel 0 (AWorld w coming []) (held w) h (rx_last_id (w_rx w)) (w_log w))
      as (w' & p & d & s' & r & E & L & G & HL & Hp).
    { split; [exact Hs|]. auto. }
    { unfold weight, buf. cbn [fb_coming aw_coming].
      destruct Hs as (R & _). pose proof (rep_size_le _ _ _ R) as Hle. cbn [s_bytes] in Hle. unfold zlen in Hle. lia. }
    { lia. }
    destruct w' as [w' rest arr]. rewrite E. exists w', rest, arr, p. split; [reflexivity|].
    destruct G as (_ & Ga & _). cbn [buf fb_arrived aw_arrived app] in Ga. subst arr.
    destruct (lin_history c coll Hst Hsafe beh Hb _ _ _ _ HL w Hs) as (ops' & rs' & v & H1 & H2 & H3 & new & H4 & H5).
    { discriminate. }
    destruct L as (L & _). cbn [aw_world] in L.
    exists ops', rs', v. split; [assumption|]. split; [assumption|]. split; [eapply Hsame; eassumption|].
    split; [|split; [eapply Hfut; eassumption|]].
    + rewrite Hp. unfold ends_with. destruct r as [k|].
      * destruct H5 as (H5 & ->). rewrite (new_calls_app w v new).
        { unfold zlen. rewrite H5. reflexivity. }
        destruct H3 as (_ & _ & _ & _ & _ & Hlog). rewrite Hlog, H4. reflexivity.
      * destruct (throws rs'); [contradiction | reflexivity].
    + intros ops2 S2 rs2 v2 Q. destruct (Hfut _ _ _ H3 L _ _ _ _ Q) as (w2 & Q1 & Q2). exists w2. auto.
  - exists w, coming, [], (Returned 0). split; [reflexivity|]. exists [], [], w. split; [constructor|]. split; [constructor|].
    split; [eapply Hsame; eassumption|]. split; [unfold ends_with, new_calls; cbn [throws filter]; rewrite skipn_all; reflexivity|].
    split; [eapply Hfut; eassumption|]. intros ops2 S2 rs2 v2 Q. exists v2. split; [assumption|].
    destruct (Hfut _ _ _ Hs Hs _ _ _ _ Q) as (w2 & _ & Q2). unfold same_view. auto.
Qed.

(** Nothing arrives: the effect of processMessages. *)
Lemma nothing_arrives c coll : static_ok coll = true -> index_safe c (capacity coll) ->
  forall beh h0 ops S rs w fuel, steady beh -> bool_free coll ->
  history c coll beh (start coll h0) ops S rs w -> (Z.to_nat (capacity coll) < fuel)%nat ->
  exists w' r v, a_process fuel c coll beh (AWorld w [] []) = Ok (AWorld w' [] [], r)
    /\ returns c coll beh OpProcess w v (RetProcess r) /\ same_view coll w' v.
Proof.
  intros Hst Hsafe beh h0 ops S rs w fuel Hb Hbf H Hfu.
  pose proof (steady_tame _ Hb) as Ht.
  pose proof (history_sim c coll Hst Hsafe beh Ht _ _ _ _ _ H) as Hs.
  unfold a_process. cbn [aw_world].
  destruct (rx_has_handler (w_rx w)) eqn:EH; cbn [negb].
  - unfold rx_has_handler in EH. unfold view in Hs.
    assert (exists h, rx_functor (w_rx w) = Some h) as (h & Eh).
    { destruct (rx_functor (w_rx w)); [eauto|discriminate]. }
    rewrite Eh in Hs.
    destruct (a_loop_spec c coll Hst Hsafe beh Hb Hbf fuel 0 (AWorld w [] []) (held w) h (rx_last_id (w_rx w)) (w_log w))
      as (w' & p & d & s' & r & E & L & G & HL & Hp).
    { split; [exact Hs|]. split; constructor. }
    { unfold weight, buf. cbn [fb_coming aw_coming length]. rewrite Nat.mul_0_r.
      destruct Hs as (R & _). pose proof (rep_size_le _ _ _ R) as Hle. cbn [s_bytes] in Hle. unfold zlen in Hle. lia. }
    { lia. }
    destruct G as (_ & Ga & Gl). destruct w' as [w' rest arr]. cbn [buf fb_arrived aw_arrived fb_coming aw_coming app length] in *.
    pose proof (capacity_ok coll Hst) as Hc. unfold cap_ok in Hc.
    assert (d = []) as -> by (destruct d; [reflexivity | cbn [length] in Gl; lia]). subst arr.
    assert (rest = []) as -> by (destruct rest; [reflexivity | cbn [length] in Gl; lia]).
    assert (forall s d s' r, Lin c coll beh s d s' r -> d = [] -> Proc coll (little c) beh s s' r) as HN.
    { clear. intros s d s' r HL. induction HL as [s s1 r d HP Hf Hd | s s1 n d g s' r HP Hf Hd HL IH]; intros E.
      - subst d. unfold with_more. rewrite app_nil_r. destruct s1. exact HP.
      - apply app_eq_nil in E as (-> & ->). specialize (IH eq_refl).
        assert (with_more [] s1 = s1) as E1 by (unfold with_more; rewrite app_nil_r; destruct s1; reflexivity).
        rewrite E1 in IH. pose proof (Proc_returned_undecided _ _ _ _ _ _ HP) as U.
        inversion IH as [? ? ? ? U' | ? ? ? ? ? ? ? D HP' | ? ? ? ? ? ? ? ? ? ? ? F | ? ? ? ? ? ? ? ? ? F]; subst.
        + cbn [option_map]. rewrite Nat.add_0_r. exact HP.
        + exfalso. cbn [s_bytes] in U. destruct D as [D _]. contradiction.
        + exfalso. cbn [s_bytes] in U. eapply frame_not_undecided; eassumption.
        + exfalso. cbn [s_bytes] in U. eapply frame_not_undecided; eassumption. }
    pose proof (HN _ _ _ _ HL eq_refl) as HP.
    destruct (history_process c coll Hst Hsafe beh Hb w _ s' r Hs ltac:(discriminate) HP) as (v & Hr & _ & Hv).
    rewrite E. exists w', p, v. split; [reflexivity|]. destruct L as (L & _). cbn [aw_world] in L.
    split.
    + rewrite Hp. destruct r; exact Hr.
    + pose proof (view_of coll w' s' L) as EV. apply (same_view_sim coll Hst); rewrite EV; assumption.
  - exists w, (Returned 0), w. split; [reflexivity|]. split.
    + exists 1%nat. cbn [step]. unfold process_messages. rewrite EH. reflexivity.
    + unfold same_view. auto.
Qed.

(** What handlers are called with, for a stream that is known. *)
Lemma calls_of_stream c coll beh h0 ops S rs v ms r : static_ok coll = true -> index_safe c (capacity coll) ->
  tame beh -> (forall log, hr_throws (beh log) = false) -> history c coll beh (start coll h0) ops S rs v ->
  Scan coll S ms r -> exists ms1 ms2, ms = ms1 ++ ms2 /\ Forall2 (delivers (little c)) ms1 (w_log v).
Proof.
  intros Hst Hsafe Ht Hn H HS.
  destruct (history_consumed c coll Hst Hsafe beh Ht _ _ _ _ _ H) as (ms1 & HC & HF).
  rewrite completed_all in HF by assumption.
  destruct (scan_total coll (held v)) as (ms2 & r2 & HS2). specialize (HC [] ms2 r2). rewrite !app_nil_r in HC.
  destruct (scan_det _ _ _ _ HS _ _ (HC HS2)) as (-> & _). exists ms1, ms2. auto.
Qed.
