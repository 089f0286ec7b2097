(** The frame scanner: determinism, totality, composition. *)
From Verif Require Export Spec Lists MetaProofs.

Lemma spec_frame_length coll m id p : length p = payload_size m ->
  length (spec_frame (mc_env coll) id p) = frame_size (mc_env coll) m.
Proof.
  intros H. unfold spec_frame, frame_size. destruct (mc_env coll); rewrite !app_length; simpl length;
    rewrite ?app_length; simpl length; lia.
Qed.

Lemma is_frame_length coll f m id p : is_frame coll f m id p ->
  length f = frame_size (mc_env coll) m.
Proof. intros (_ & Hp & ->). apply spec_frame_length, Hp. Qed.

Lemma frame_size_ge5 e m : (5 <= frame_size e m)%nat.
Proof. unfold frame_size. destruct e; lia. Qed.

Lemma is_frame_head coll f m id p : is_frame coll f m id p ->
  exists t, f = 1 :: id :: 2 :: t.
Proof.
  intros (_ & _ & ->). unfold spec_frame. destruct (mc_env coll); eexists; reflexivity.
Qed.

Lemma spec_frame_inj e id p id' p' : length p = length p' ->
  spec_frame e id p = spec_frame e id' p' -> id = id' /\ p = p'.
Proof.
  intros HL H. unfold spec_frame in H. destruct e; simpl in H.
  - injection H as -> H. split; [reflexivity|]. apply app_inv_tail in H. exact H.
  - injection H as -> H. split; [reflexivity|].
    rewrite <- !app_assoc in H.
    apply (f_equal (firstn (length p))) in H.
    rewrite firstn_app_exact in H by reflexivity. rewrite HL, firstn_app_exact in H by reflexivity.
    exact H.
Qed.

Lemma app_eq_len {A} (a b c d : list A) : a ++ b = c ++ d -> length a = length c -> a = c /\ b = d.
Proof.
  revert c; induction a as [|x a IH]; intros [|y c] H HL; simpl in *; try discriminate.
  - auto.
  - injection H as -> H. injection HL as HL. destruct (IH _ H HL) as [-> ->]. auto.
Qed.

(** Two frames at the start of the same string are the same frame. *)
Lemma is_frame_unique coll f f' m m' id id' p p' s s' :
  is_frame coll f m id p -> is_frame coll f' m' id' p' -> f ++ s = f' ++ s' ->
  f = f' /\ m = m' /\ id = id' /\ p = p' /\ s = s'.
Proof.
  intros F F' H.
  destruct (is_frame_head _ _ _ _ _ F) as (t & E). destruct (is_frame_head _ _ _ _ _ F') as (t' & E').
  assert (id = id') as <-. { rewrite E, E' in H. simpl in H. congruence. }
  assert (m = m') as <-. { eapply has_id_fun; [apply F | apply F']. }
  apply app_eq_len in H as [H ->].
  2:{ rewrite (is_frame_length _ _ _ _ _ F), (is_frame_length _ _ _ _ _ F'). reflexivity. }
  destruct F as (_ & Hp & ->), F' as (_ & Hp' & ->).
  split; [exact H|]. apply spec_frame_inj in H as [_ ->]; [|congruence]. auto.
Qed.

Lemma undecided_long coll b id x s : undecided coll (b :: id :: x :: s) <->
  b = 1 /\ x = 2 /\ exists m, has_id coll m id
     /\ (length (b :: id :: x :: s) < frame_size (mc_env coll) m)%nat.
Proof. reflexivity. Qed.

Lemma frame_not_undecided coll f m id p s : is_frame coll f m id p -> ~ undecided coll (f ++ s).
Proof.
  intros F U. destruct (is_frame_head _ _ _ _ _ F) as (t & E).
  pose proof (is_frame_length _ _ _ _ _ F) as HL. rewrite E in U. simpl app in U.
  apply undecided_long in U as (_ & _ & m' & Hm' & Hlt).
  assert (m' = m) as -> by (eapply has_id_fun; [eassumption | apply F]).
  rewrite <- HL, E in Hlt. simpl in Hlt. rewrite app_length in Hlt. lia.
Qed.

(** Nothing can start here. *)
Definition dead (coll : collection) (s : list Z) : Prop :=
  ~ undecided coll s /\ forall f m id p s', is_frame coll f m id p -> s <> f ++ s'.

Lemma has_id_dec coll id : (exists m, has_id coll m id) \/ (forall m, ~ has_id coll m id).
Proof.
  destruct (Z_le_gt_dec 0 id) as [H|H].
  - destruct (nth_error (mc_types coll) (Z.to_nat id)) as [m|] eqn:E.
    + left. exists m. split; assumption.
    + right. intros m [_ H2]. congruence.
  - right. intros m [H1 _]. lia.
Qed.

(** Every string waits, starts with a frame, or has a dead first byte. *)
Lemma classify coll s :
  undecided coll s
  \/ (exists f m id p s', is_frame coll f m id p /\ s = f ++ s')
  \/ (exists b s', s = b :: s' /\ dead coll s).
Proof.
  destruct s as [|b s]; [left; exact I|].
  assert (forall P, (undecided coll (b :: s) -> False) ->
                    (forall f m id p s', is_frame coll f m id p -> b :: s <> f ++ s') ->
                    P \/ (exists b' s', b :: s = b' :: s' /\ dead coll (b :: s))) as Hdead.
  { intros P H1 H2. right. exists b, s. split; [reflexivity|]. split; assumption. }
  destruct (Z.eq_dec b 1) as [->|Hb].
  2:{ right. apply Hdead.
      - destruct s as [|x [|y s]]; simpl; tauto.
      - intros f m id p s' F E. destruct (is_frame_head _ _ _ _ _ F) as (t & ->). simpl in E. congruence. }
  destruct s as [|id s]; [left; reflexivity|].
  destruct (has_id_dec coll id) as [(m & Hm)|Hno].
  2:{ right. apply Hdead.
      - destruct s as [|x s]; simpl.
        + intros (_ & m & H). apply (Hno m H).
        + intros (_ & _ & m & H & _). apply (Hno m H).
      - intros f m id' p s' F E. destruct (is_frame_head _ _ _ _ _ F) as (t & Ef).
        rewrite Ef in E. simpl in E. injection E as <- _. apply (Hno m). apply F. }
  destruct s as [|x s]; [left; split; [reflexivity | eauto]|].
  destruct (Z.eq_dec x 2) as [->|Hx].
  2:{ right. apply Hdead.
      - simpl. tauto.
      - intros f m' id' p s' F E. destruct (is_frame_head _ _ _ _ _ F) as (t & Ef).
        rewrite Ef in E. simpl in E. congruence. }
  destruct (lt_dec (length (1 :: id :: 2 :: s)) (frame_size (mc_env coll) m)) as [Hlt|Hge].
  { left. simpl. eauto 10. }
  right.
  set (S := 1 :: id :: 2 :: s) in *.
  set (n := frame_size (mc_env coll) m) in *.
  set (f := firstn n S).
  set (p := firstn (payload_size m) s).
  destruct (list_eq_dec Z.eq_dec f (spec_frame (mc_env coll) id p)) as [Ef|Nf].
  - left. exists f, m, id, p, (skipn n S). split; [|symmetry; apply firstn_skipn].
    split; [assumption|]. split; [|assumption].
    unfold p. rewrite firstn_length. unfold S in Hge. simpl in Hge. unfold n, frame_size in Hge.
    destruct (mc_env coll); lia.
  - apply Hdead.
    + intros U. apply undecided_long in U as (_ & _ & m' & Hm' & Hlt).
      assert (m' = m) as -> by (eapply has_id_fun; eassumption). unfold S in Hge. lia.
    + intros f' m' id' p' s' F E. apply Nf.
      destruct (is_frame_head _ _ _ _ _ F) as (t & Ef').
      assert (id' = id) as ->. { rewrite Ef' in E. unfold S in E. simpl in E. congruence. }
      assert (m' = m) as -> by (eapply has_id_fun; [apply F | eassumption]).
      pose proof (is_frame_length _ _ _ _ _ F) as HL.
      unfold f. rewrite E. rewrite firstn_app_exact by (symmetry; exact HL).
      destruct F as (_ & Hp' & Ff). rewrite Ff. f_equal.
      unfold p. subst f'.
      assert (exists q, s = p' ++ q) as (q & ->).
      { clear -E. unfold spec_frame in E. destruct (mc_env coll); simpl in E; injection E as ->;
          rewrite <- ?app_assoc; eexists; reflexivity. }
      symmetry. apply firstn_app_exact. congruence.
Qed.

(** Deadness of the first byte is not affected by bytes arriving later. *)
Lemma dead_app coll b s s2 : dead coll (b :: s) -> dead coll (b :: s ++ s2).
Proof.
  intros [HU HF].
  assert (~ undecided coll (b :: s ++ s2)) as HU2.
  { intros U. apply HU. destruct s as [|id s].
    - simpl. destruct s2 as [|? [|? ?]]; simpl in U; tauto.
    - destruct s as [|x s].
      + simpl. simpl in U. destruct s2 as [|x s2].
        * exact U.
        * destruct U as (-> & _ & m & Hm & _). eauto.
      + simpl in U. simpl. destruct U as (-> & -> & m & Hm & Hlt). split; [reflexivity|]. split; [reflexivity|].
        exists m. split; [assumption|]. rewrite app_length in Hlt. lia. }
  split; [assumption|].
  intros f m id p s' F E.
  assert (is_frame coll f m id p -> undecided coll (b :: s) \/ (exists s'', b :: s = f ++ s'')) as K.
  { intros _. destruct (is_frame_head _ _ _ _ _ F) as (t & Ef).
    pose proof (is_frame_length _ _ _ _ _ F) as HL.
    destruct (le_lt_dec (length f) (length (b :: s))) as [Hle|Hlt].
    - right. exists (skipn (length f) (b :: s)).
      apply (f_equal (firstn (length f))) in E.
      rewrite firstn_app_exact in E by reflexivity.
      change (b :: s ++ s2) with ((b :: s) ++ s2) in E.
      rewrite firstn_app in E. replace (length f - length (b :: s))%nat with 0%nat in E by lia.
      rewrite firstn_O, app_nil_r in E. rewrite <- E at 1. symmetry. apply firstn_skipn.
    - left. rewrite Ef in E. simpl in E. injection E as -> E.
      destruct s as [|x s]; [reflexivity|]. simpl in E. injection E as -> E.
      destruct s as [|y s]; [split; [reflexivity|]; exists m; apply F|].
      simpl in E. injection E as -> E. simpl. split; [reflexivity|]. split; [reflexivity|].
      exists m. split; [apply F|]. rewrite <- HL. simpl in Hlt. exact Hlt. }
  destruct (K F) as [U|(s'' & E'')].
  - exact (HU U).
  - exact (HF _ _ _ _ _ F E'').
Qed.

Theorem scan_total coll : forall s, exists ms r, Scan coll s ms r.
Proof.
  intros s. remember (length s) as n eqn:Hn. assert (length s <= n)%nat as H by lia. clear Hn.
  revert s H. induction n as [|n IH]; intros s H.
  - destruct s; [|simpl in H; lia]. exists [], []. apply scan_wait. exact I.
  - destruct (classify coll s) as [U|[(f & m & id & p & s' & F & E)|(b & s' & E & D)]].
    + exists [], s. apply scan_wait, U.
    + pose proof (is_frame_length _ _ _ _ _ F). pose proof (frame_size_ge5 (mc_env coll) m).
      destruct (IH s') as (ms & r & S).
      { rewrite E, app_length in H. lia. }
      exists (Found m id p :: ms), r. rewrite E. apply scan_frame with (1 := F), S.
    + destruct (IH s') as (ms & r & S). { rewrite E in H. simpl in H. lia. }
      exists ms, r. rewrite E in D |- *. destruct D. apply scan_skip; assumption.
Qed.

Theorem scan_det coll s ms r : Scan coll s ms r ->
  forall ms' r', Scan coll s ms' r' -> ms = ms' /\ r = r'.
Proof.
  induction 1 as [s U | f m id p s ms r F S IH | b s ms r HU HF S IH]; intros ms' r' S'.
  - inversion S' as [s0 U' | f m id p s0 ms0 r0 F' S0 | b s0 ms0 r0 HU' HF' S0]; subst.
    + auto.
    + exfalso. exact (frame_not_undecided _ _ _ _ _ _ F' U).
    + contradiction.
  - inversion S' as [s0 U' | f' m' id' p' s0 ms0 r0 F' S0 E | b s0 ms0 r0 HU' HF' S0 E]; subst.
    + exfalso. exact (frame_not_undecided _ _ _ _ _ _ F U').
    + symmetry in E. destruct (is_frame_unique _ _ _ _ _ _ _ _ _ _ _ F F' E) as (-> & -> & -> & -> & ->).
      destruct (IH _ _ S0) as [-> ->]. auto.
    + exfalso. exact (HF' _ _ _ _ _ F E).
  - inversion S' as [s0 U' | f' m' id' p' s0 ms0 r0 F' S0 E | b' s0 ms0 r0 HU' HF' S0 E]; subst.
    + contradiction.
    + exfalso. exact (HF _ _ _ _ _ F' (eq_sym E)).
    + apply IH. assumption.
Qed.

Theorem scan_app coll s1 ms1 r1 : Scan coll s1 ms1 r1 ->
  forall s2 ms2 r2, Scan coll (r1 ++ s2) ms2 r2 -> Scan coll (s1 ++ s2) (ms1 ++ ms2) r2.
Proof.
  induction 1 as [s U | f m id p s ms r F S IH | b s ms r HU HF S IH]; intros s2 ms2 r2 S2.
  - exact S2.
  - rewrite <- app_assoc. simpl. apply scan_frame with (1 := F). apply IH, S2.
  - simpl. destruct (dead_app coll b s s2 (conj HU HF)) as [HU' HF'].
    apply scan_skip; auto.
Qed.

Lemma scan_rest_undecided coll s ms r : Scan coll s ms r -> undecided coll r.
Proof. induction 1; assumption. Qed.

Lemma scan_undecided coll s : undecided coll s -> Scan coll s [] s.
Proof. apply scan_wait. Qed.

(** The rest is a suffix of the scanned string. *)
Lemma scan_suffix coll s ms r : Scan coll s ms r -> exists pre, s = pre ++ r.
Proof.
  induction 1 as [s U | f m id p s ms r F S [pre ->] | b s ms r HU HF S [pre ->]].
  - exists []. reflexivity.
  - exists (f ++ pre). rewrite app_assoc. reflexivity.
  - exists (b :: pre). reflexivity.
Qed.

Lemma undecided_short coll s : undecided coll s ->
  (length s < 5)%nat \/ exists m id, has_id coll m id /\ (length s < frame_size (mc_env coll) m)%nat.
Proof.
  destruct s as [|b [|id [|x s]]]; simpl; try (left; lia).
  intros (_ & _ & m & H1 & H2). right. exists m, id. auto.
Qed.

Lemma undecided_lt_max coll s : static_ok coll = true -> undecided coll s ->
  zlen s < max_message_length coll.
Proof.
  intros Hs U. pose proof (max_ge5 _ Hs).
  destruct (undecided_short _ _ U) as [H1|(m & id & Hm & Hlt)]; unfold zlen; [lia|].
  pose proof (frame_size_le_max coll m (has_id_in _ _ _ Hm)). lia.
Qed.

(** ** Dropping dead bytes *)
Inductive Skips (coll : collection) : list Z -> list Z -> Prop :=
| skips_refl s : Skips coll s s
| skips_cons b s s' : dead coll (b :: s) -> Skips coll s s' -> Skips coll (b :: s) s'.

Lemma skips_scan coll s s' ms r : Skips coll s s' -> Scan coll s' ms r -> Scan coll s ms r.
Proof. induction 1 as [|b s s' [HU HF] _ IH]; intros S; [assumption|]. apply scan_skip; auto. Qed.

Lemma skips_trans coll s1 s2 s3 : Skips coll s1 s2 -> Skips coll s2 s3 -> Skips coll s1 s3.
Proof. induction 1; intros H2; [assumption | constructor; auto]. Qed.

Lemma not_soh_dead coll b s : b <> 1 -> dead coll (b :: s).
Proof.
  intros Hb. split.
  - destruct s as [|x [|y s]]; simpl; tauto.
  - intros f m id p s' F E. destruct (is_frame_head _ _ _ _ _ F) as (t & ->). simpl in E. congruence.
Qed.

Lemma bad_id_dead coll b id s : (forall m, ~ has_id coll m id) -> dead coll (b :: id :: s).
Proof.
  intros Hno. split.
  - destruct s as [|x s]; simpl.
    + intros (_ & m & H). apply (Hno m H).
    + intros (_ & _ & m & H & _). apply (Hno m H).
  - intros f m id' p s' F E. destruct (is_frame_head _ _ _ _ _ F) as (t & Ef).
    rewrite Ef in E. simpl in E. injection E as _ <- _. apply (Hno m). apply F.
Qed.

Lemma bad_stx_dead coll b id x s : x <> 2 -> dead coll (b :: id :: x :: s).
Proof.
  intros Hx. split.
  - simpl. tauto.
  - intros f m' id' p s' F E. destruct (is_frame_head _ _ _ _ _ F) as (t & Ef).
    rewrite Ef in E. simpl in E. congruence.
Qed.

(** A full-length candidate that is not a frame. *)
Lemma bad_frame_dead coll m id p t s : has_id coll m id -> length p = payload_size m ->
  length ([1; id; 2] ++ p ++ t) = frame_size (mc_env coll) m ->
  [1; id; 2] ++ p ++ t <> spec_frame (mc_env coll) id p ->
  dead coll ([1; id; 2] ++ p ++ t ++ s).
Proof.
  intros Hm Hp HL Hne. split.
  - intros U. apply undecided_long in U as (_ & _ & m' & Hm' & Hlt).
    assert (m' = m) as -> by (eapply has_id_fun; eassumption).
    simpl in HL, Hlt. rewrite !app_length in *. lia.
  - intros f m' id' p' s' F E. apply Hne.
    destruct (is_frame_head _ _ _ _ _ F) as (t' & Ef').
    assert (id' = id) as ->. { rewrite Ef' in E. simpl in E. congruence. }
    assert (m' = m) as -> by (eapply has_id_fun; [apply F | eassumption]).
    pose proof (is_frame_length _ _ _ _ _ F) as HL'.
    assert (([1; id; 2] ++ p ++ t) ++ s = f ++ s') as E2 by (rewrite <- E, <- !app_assoc; reflexivity).
    apply app_eq_len in E2 as [E2 _]; [|congruence].
    rewrite E2. destruct F as (_ & Hp' & ->).
    f_equal. assert (firstn (3 + length p) (spec_frame (mc_env coll) id p')
                     = firstn (3 + length p) ([1; id; 2] ++ p ++ t)) as E3 by congruence.
    simpl in E3. rewrite firstn_app_exact in E3 by reflexivity.
    unfold spec_frame in E3. destruct (mc_env coll); simpl in E3; injection E3 as E3;
      rewrite <- ?app_assoc in E3; rewrite firstn_app_exact in E3 by congruence; congruence.
Qed.
