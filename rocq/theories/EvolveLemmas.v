(** Lemmas on collections extending each other, and on damage to streams of frames
    without start codes inside. *)
From Verif Require Export PollLemmas.

Section Extends.
Context (old new : collection).
Hypothesis He : extends old new.

Lemma extends_has_id m id : has_id old m id -> has_id new m id.
Proof.
  destruct He as (_ & extra & E). intros (H1 & H2). split; [assumption|]. rewrite E, nth_error_app1; [assumption|].
  apply nth_error_Some. congruence.
Qed.

Lemma extends_has_id_old m id : has_id new m id -> id < message_count old -> has_id old m id.
Proof.
  destruct He as (_ & extra & E). intros (H1 & H2) HL. split; [assumption|]. rewrite E, nth_error_app1 in H2; [assumption|].
  unfold message_count, zlen in HL. lia.
Qed.

Lemma extends_sendable mv : sendable old mv -> sendable new mv.
Proof.
  destruct He as (_ & extra & E). intros (H1 & H2). split; [|assumption]. rewrite E. apply in_or_app. auto.
Qed.

(** The same frame in both. *)
Lemma extends_frame c m vs f : In m (mc_types old) ->
  is_message_frame c old m vs f <-> is_message_frame c new m vs f.
Proof.
  intros Hm. split.
  - intros (id & H1 & H2 & ->). exists id. split; [apply extends_has_id; assumption|]. split.
    + intros j Hj. pose proof (has_id_lt old m id H1). destruct (Z_lt_ge_dec j (message_count old)) as [L|L]; [|lia].
      apply H2. apply extends_has_id_old; assumption.
    + destruct He as (-> & _). reflexivity.
  - intros (id & H1 & H2 & ->).
    apply In_nth_error in Hm as (k & Hk).
    assert (has_id old m (Z.of_nat k)) as HK by (split; [lia | rewrite Nat2Z.id; assumption]).
    assert (has_id old m id) as HO.
    { apply extends_has_id_old; [assumption|]. pose proof (H2 _ (extends_has_id _ _ HK)). pose proof (has_id_lt _ _ _ HK). lia. }
    exists id. split; [assumption|]. split; [intros j Hj; apply H2, extends_has_id, Hj|]. destruct He as (-> & _). reflexivity.
Qed.

Lemma extends_is_frame f m id p : is_frame old f m id p -> is_frame new f m id p.
Proof.
  intros (H1 & H2 & H3). split; [apply extends_has_id; assumption|]. split; [assumption|]. destruct He as (-> & _). assumption.
Qed.

(** Sending gives the same bytes, through any transmitter. *)
Lemma extends_find m i : find_index (mc_types old) m = Some i -> find_index (mc_types new) m = Some i.
Proof.
  destruct He as (_ & extra & E). unfold find_index. rewrite E. clear E. generalize 0.
  induction (mc_types old) as [|x l IH]; intros pos; cbn [find_index_from app]; [discriminate|].
  destruct (mtype_eqb x m); [intros H; exact H | apply IH].
Qed.
End Extends.

Lemma extends_send old new : extends old new -> static_ok old = true -> static_ok new = true ->
  forall (S : Type) c m (t : transmitter S) contents s, In m (mc_types old) ->
  send c new m t contents s = send c old m t contents s.
Proof.
  intros He H1 H2 S c m t contents s Hm. unfold send. rewrite H1, H2.
  destruct (find_index_in _ _ Hm) as (i & Hi). rewrite Hi, (extends_find old new He m i Hi).
  destruct He as (-> & _). reflexivity.
Qed.

Lemma known_true coll mv : known coll mv = true <-> In (fst mv) (mc_types coll).
Proof.
  unfold known. rewrite existsb_exists. split.
  - intros (x & Hx & E). apply mtype_eqb_eq in E. congruence.
  - intros H. exists (fst mv). split; [assumption|]. apply mtype_eqb_eq. reflexivity.
Qed.

(** The frame of a message the old collection does not have: skipped by its scanner when it
    has no start code inside. *)
Lemma unknown_skipped old new c m vs f s ms r : extends old new -> ~ In m (mc_types old) ->
  is_message_frame c new m vs f -> ~ In 1 (tl f) -> Scan old s ms r -> Scan old (f ++ s) ms r.
Proof.
  intros He Hm (id & H1 & H2 & ->) Hc HS.
  assert (forall m', ~ has_id old m' id) as Hn.
  { intros m' H. pose proof (extends_has_id old new He _ _ H) as H'. pose proof (has_id_fun _ _ _ _ H1 H') as <-.
    apply Hm. eapply has_id_in; eassumption. }
  assert (exists t, spec_frame (mc_env new) id (spec_payload (little c) (mt_fields m) vs) = 1 :: id :: t) as (t & E)
    by (destruct (mc_env new); eexists; reflexivity).
  rewrite E in Hc |- *. cbn [tl] in Hc. change ((1 :: id :: t) ++ s) with (1 :: id :: t ++ s).
  destruct (bad_id_dead old 1 id (t ++ s) Hn) as (D1 & D2).
  apply scan_skip; [assumption | assumption |]. apply (scan_noise old (id :: t) s); assumption.
Qed.

Lemma new_frames old new c msgs fs : extends old new -> Forall (sendable new) msgs ->
  Forall (fun mv => known old mv = true \/ clean c new mv) msgs ->
  Forall2 (fun mv f => is_message_frame c new (fst mv) (snd mv) f) msgs fs ->
  exists fds, Scan old (concat fs) fds []
    /\ Forall2 (fun mv fd => f_message fd = fst mv
                 /\ encodes (little c) (mt_fields (fst mv)) (snd mv) (f_payload fd)) (filter (known old) msgs) fds.
Proof.
  intros He HM HC HF. induction HF as [|mv f msgs fs Hf HF IH].
  - exists []. split; [apply scan_nil | constructor].
  - inversion HM as [|? ? (M1 & M2) HM']; subst. inversion HC as [|? ? C1 HC']; subst.
    destruct (IH HM' HC') as (fds & HS & HD). cbn [concat filter].
    destruct (known old mv) eqn:EK.
    + apply known_true in EK. apply (extends_frame old new He c _ _ _ EK) in Hf.
      destruct (message_frame_is_frame c old _ _ f M2 Hf) as (id & HIF).
      exists (Found (fst mv) id (spec_payload (little c) (mt_fields (fst mv)) (snd mv)) :: fds). split.
      * apply scan_frame; assumption.
      * constructor; [|assumption]. cbn [f_message f_payload]. split; [reflexivity|]. split; [assumption | reflexivity].
    + destruct C1 as [C1|C1]; [congruence|]. exists fds. split; [|assumption].
      apply (unknown_skipped old new c (fst mv) (snd mv)); auto.
      intros H. apply known_true in H. congruence.
Qed.

Section Deliver.
Context (c : config).

Lemma old_to_new_lemma old new cs beh h0 msgs S w : extends old new ->
  static_ok old = true -> static_ok new = true -> index_safe c (capacity new) ->
  tame beh -> little cs = little c -> Forall (sendable old) msgs ->
  send_all cs old vector_tx msgs [] = Ok S -> processed c new beh h0 S w ->
  map content (completed beh [] (w_log w)) = msgs /\ held w = [].
Proof.
  intros He H1 H2 Hsafe Ht HE HM HS HP.
  assert (Forall (sendable new) msgs) as HM'.
  { eapply Forall_impl; [|exact HM]. intros mv. apply (extends_sendable old new He). }
  apply (lossless_lemma c new H2 Hsafe cs beh h0 msgs S w Ht HE HM'); [|assumption].
  rewrite <- HS. clear HS HP HM'. generalize (@nil Z).
  induction HM as [|[m vs] msgs (Hm & _) HM IH]; intros s; cbn [send_all]; [reflexivity|].
  rewrite (extends_send old new He H1 H2) by assumption.
  destruct (send cs old m vector_tx (combine (mt_fields m) vs) s); cbn [bind]; auto.
Qed.

Lemma new_to_old_lemma old new cs beh h0 msgs S w : extends old new ->
  static_ok old = true -> static_ok new = true -> index_safe c (capacity old) ->
  tame beh -> little cs = little c -> Forall (sendable new) msgs ->
  Forall (fun mv => known old mv = true \/ clean cs new mv) msgs ->
  send_all cs new vector_tx msgs [] = Ok S -> processed c old beh h0 S w ->
  map content (completed beh [] (w_log w)) = filter (known old) msgs /\ held w = [].
Proof.
  intros He H1 H2 Hsafe Ht HE HM HC HS HP.
  destruct (send_all_vector cs new msgs H2 HM []) as (fs & HF & E). rewrite HS in E. cbn [app] in E. injection E as ->.
  destruct (new_frames old new cs msgs fs He HM HC HF) as (fds & HSc & HFd). rewrite HE in HFd.
  destruct (stream_lemma c old H1 Hsafe beh Ht _ _ _ HP) as (ms & HSc' & HF').
  destruct (scan_det _ _ _ _ HSc _ _ HSc') as (<- & <-). split; [|reflexivity].
  apply (delivered_content c old _ fds _ H1); auto.
  clear - HM. induction HM as [|mv msgs (M1 & M2) HM IH]; cbn [filter]; [constructor|].
  destruct (known old mv) eqn:EK; [|assumption]. constructor; [|assumption].
  apply known_true in EK. split; assumption.
Qed.
End Deliver.

(** ** Damage *)

(** A suffix of a sequence of frames without start codes inside, cut anywhere. *)
Lemma clean_suffix coll : forall (fds : list found) (fs : list (list Z)),
  Forall2 (fun fd f => is_frame coll f (f_message fd) (f_id fd) (f_payload fd)) fds fs ->
  Forall (fun f => ~ In 1 (tl f)) fs ->
  forall k s, k <> [] -> concat fs = k ++ s ->
  exists n, Scan coll s (skipn (S n) fds) [] /\ zlen (concat (firstn n fs)) < zlen k.
Proof.
  intros fds fs HF. induction HF as [|fd f fds fs Hf HF IH]; intros HC k s Hk E; cbn [concat] in E.
  - destruct k; [congruence | discriminate].
  - inversion HC as [|? ? C1 HC']; subst.
    destruct (le_lt_dec (length k) (length f)) as [L|L].
    + exists O. split.
      * cbn [skipn]. assert (exists t, f = k ++ t /\ s = t ++ concat fs) as (t & -> & ->).
        { exists (skipn (length k) f).
          assert (firstn (length k) (f ++ concat fs) = k) as E1 by (rewrite E, firstn_app, firstn_all, Nat.sub_diag; apply app_nil_r).
          assert (skipn (length k) (f ++ concat fs) = s) as E2 by (rewrite E, skipn_app, skipn_all, Nat.sub_diag; reflexivity).
          rewrite firstn_app in E1. rewrite skipn_app in E2. replace (length k - length f)%nat with O in * by lia.
          cbn [firstn skipn] in *. rewrite app_nil_r in E1. split; [rewrite <- E1 at 1; symmetry; apply firstn_skipn | auto]. }
        apply scan_noise; [|apply scan_frames; assumption].
        intros H1. apply C1. destruct k as [|b k]; [congruence|]. cbn [app tl]. apply in_or_app. auto.
      * cbn [firstn concat]. change (zlen (@nil Z)) with 0. destruct k; [congruence|]. rewrite zlen_cons. pose proof (zlen_nonneg k). lia.
    + assert (exists k', k = f ++ k' /\ concat fs = k' ++ s) as (k' & -> & E').
      { exists (skipn (length f) k).
        assert (firstn (length f) (k ++ s) = f) as E1 by (rewrite <- E, firstn_app, firstn_all, Nat.sub_diag; apply app_nil_r).
        assert (skipn (length f) (k ++ s) = concat fs) as E2 by (rewrite <- E, skipn_app, skipn_all, Nat.sub_diag; reflexivity).
        rewrite firstn_app in E1. rewrite skipn_app in E2. replace (length f - length k)%nat with O in * by lia.
        cbn [firstn skipn] in *. rewrite app_nil_r in E1. split; [rewrite <- E1 at 1; symmetry; apply firstn_skipn | auto]. }
      destruct (IH HC' k' s) as (n & HS & HL); [intros ->; rewrite app_nil_r in L; lia | assumption |].
      exists (S n). split; [exact HS|]. cbn [firstn concat]. rewrite !zlen_app. lia.
Qed.

(** Whatever comes before, at most the frames beginning within the next
    [max_message_length - 1] bytes are lost. *)
Lemma damage_scan coll fds fs : static_ok coll = true ->
  Forall2 (fun fd f => is_frame coll f (f_message fd) (f_id fd) (f_payload fd)) fds fs ->
  Forall (fun f => ~ In 1 (tl f)) fs ->
  forall g ms r, Scan coll (g ++ concat fs) ms r ->
  exists n before, ms = before ++ skipn n fds
    /\ (n < length fds -> r = [])%nat
    /\ (g = [] -> n = O)
    /\ zlen (concat (firstn (n - 1) fs)) < max_message_length coll - 1.
Proof.
  intros Hst HF HC g. pose proof (max_ge5 _ Hst) as H5. remember (length g) as k eqn:Ek. revert g Ek.
  induction k as [k IH] using lt_wf_ind. intros g -> ms r HS.
  destruct g as [|b g].
  - exists O, []. cbn [app] in HS. destruct (scan_det _ _ _ _ HS _ _ (scan_frames coll fds fs HF)) as (-> & ->).
    conj; auto. cbn [Nat.sub firstn concat]. change (zlen (@nil Z)) with 0. lia.
  - destruct (classify coll ((b :: g) ++ concat fs)) as [Hu | [(f & m & id & p & s & Hf & E) | (b' & s & E & Hd)]].
    + destruct (scan_det _ _ _ _ HS _ _ (scan_undecided _ _ Hu)) as (-> & ->).
      exists (length fds), []. rewrite skipn_all. conj; auto; try lia; [discriminate|].
      pose proof (undecided_lt_max coll _ Hst Hu) as HL. rewrite zlen_app, zlen_cons in HL. pose proof (zlen_nonneg g).
      assert (zlen (concat (firstn (length fds - 1) fs)) <= zlen (concat fs)) as HL2.
      { rewrite <- (firstn_skipn (length fds - 1) fs) at 2. rewrite concat_app, zlen_app.
        pose proof (zlen_nonneg (concat (skipn (length fds - 1) fs))). lia. }
      lia.
    + assert (exists ms', ms = Found m id p :: ms' /\ Scan coll s ms' r) as (ms' & -> & HS').
      { destruct (scan_total coll s) as (ms' & r' & HS'). rewrite E in HS.
        destruct (scan_det _ _ _ _ HS _ _ (scan_frame coll f m id p s ms' r' Hf HS')) as (-> & ->). eauto. }
      pose proof (is_frame_length _ _ _ _ _ Hf) as HLf. pose proof (frame_size_ge5 (mc_env coll) m) as H5'.
      destruct (le_lt_dec (length f) (length (b :: g))) as [L|L].
      * assert (exists g', b :: g = f ++ g' /\ s = g' ++ concat fs) as (g' & Eg & ->).
        { exists (skipn (length f) (b :: g)).
          assert (firstn (length f) ((b :: g) ++ concat fs) = f) as E1 by (rewrite E, firstn_app, firstn_all, Nat.sub_diag; apply app_nil_r).
          assert (skipn (length f) ((b :: g) ++ concat fs) = s) as E2 by (rewrite E, skipn_app, skipn_all, Nat.sub_diag; reflexivity).
          rewrite firstn_app in E1. rewrite skipn_app in E2. replace (length f - length (b :: g))%nat with O in * by lia.
          cbn [firstn] in E1. rewrite app_nil_r in E1. change (skipn 0 (concat fs)) with (concat fs) in E2.
          split; [rewrite <- E1 at 1; symmetry; apply firstn_skipn | auto]. }
        assert (length g' < length (b :: g))%nat as Lg by (rewrite Eg, app_length; lia).
        destruct (IH _ Lg g' eq_refl _ _ HS') as (n & before & -> & N1 & N2 & N3).
        exists n, (Found m id p :: before). conj; auto. discriminate.
      * assert (exists k, f = (b :: g) ++ k /\ concat fs = k ++ s) as (k & Ef & Ek).
        { exists (skipn (length (b :: g)) f).
          assert (firstn (length (b :: g)) (f ++ s) = b :: g) as E1 by (rewrite <- E, firstn_app, firstn_all, Nat.sub_diag; apply app_nil_r).
          assert (skipn (length (b :: g)) (f ++ s) = concat fs) as E2 by (rewrite <- E, skipn_app, skipn_all, Nat.sub_diag; reflexivity).
          rewrite firstn_app in E1. rewrite skipn_app in E2. replace (length (b :: g) - length f)%nat with O in * by lia.
          cbn [firstn] in E1. rewrite app_nil_r in E1. change (skipn 0 s) with s in E2.
          split; [rewrite <- E1 at 1; symmetry; apply firstn_skipn | auto]. }
        destruct (clean_suffix coll fds fs HF HC k s) as (n & HSn & HLn).
        { intros ->. rewrite app_nil_r in Ef. rewrite Ef in L. lia. }
        { assumption. }
        destruct (scan_det _ _ _ _ HS' _ _ HSn) as (-> & ->).
        exists (S n), [Found m id p]. conj; auto; [discriminate|].
        replace (S n - 1)%nat with n by lia.
        assert (zlen f <= max_message_length coll) as HM.
        { unfold zlen. rewrite HLf. apply frame_size_le_max. destruct Hf as (Hid & _). eapply has_id_in; eassumption. }
        rewrite Ef, zlen_app, zlen_cons in HM. pose proof (zlen_nonneg g). lia.
    + assert (b' = b /\ s = g ++ concat fs) as (-> & ->) by (cbn [app] in E; injection E as -> ->; auto).
      assert (Scan coll (g ++ concat fs) ms r) as HS'.
      { destruct (scan_total coll (g ++ concat fs)) as (ms' & r' & HS'). destruct Hd as (D1 & D2).
        destruct (scan_det _ _ _ _ HS _ _ (scan_skip coll b (g ++ concat fs) ms' r' D1 D2 HS')) as (-> & ->). assumption. }
      destruct (IH (length g) (Nat.lt_succ_diag_r _) g eq_refl _ _ HS') as (n & before & -> & N1 & N2 & N3).
      exists n, before. conj; auto. discriminate.
Qed.

Lemma damage_lemma c coll : static_ok coll = true -> index_safe c (capacity coll) ->
  forall cs beh h0 g msgs S w, tame beh -> little cs = little c -> Forall (sendable coll) msgs ->
  Forall (clean cs coll) msgs -> send_all cs coll vector_tx msgs [] = Ok S ->
  processed c coll beh h0 (g ++ S) w ->
  exists n before lost, map content (completed beh [] (w_log w)) = before ++ skipn n msgs
    /\ (n < length msgs -> held w = [])%nat
    /\ send_all cs coll vector_tx (firstn (n - 1) msgs) [] = Ok lost
    /\ zlen lost < max_message_length coll - 1.
Proof.
  intros Hst Hsafe cs beh h0 g msgs S w Ht HE HM HC HS HP.
  destruct (send_all_vector cs coll msgs Hst HM []) as (fs & HF & E). rewrite HS in E. cbn [app] in E. injection E as ->.
  destruct (sent_frames cs coll msgs fs HM HF) as (fds & HFd & HFe). rewrite HE in HFe.
  assert (Forall (fun f => ~ In 1 (tl f)) fs) as HCf.
  { clear - HF HC. induction HF as [|mv f msgs fs Hf HF IH]; [constructor|]. inversion HC as [|? ? C1 HC']; subst.
    constructor; [apply C1; assumption | auto]. }
  destruct (stream_lemma c coll Hst Hsafe beh Ht _ _ _ HP) as (ms & HSc & HFm).
  destruct (damage_scan coll fds fs Hst HFd HCf g ms _ HSc) as (n & before & -> & N1 & _ & N3).
  apply Forall2_app_inv_l in HFm as (l1 & l2 & F1 & F2 & ->).
  exists n, (map content l1), (concat (firstn (n - 1) fs)). rewrite map_app. conj; auto.
  - f_equal. apply (delivered_content c coll _ (skipn n fds) l2 Hst); auto.
    + rewrite <- (firstn_skipn n msgs) in HM. apply Forall_app in HM. apply HM.
    + clear - HFe. revert n. induction HFe; intros [|n]; cbn [skipn]; auto.
  - intros L. apply N1. rewrite <- (forall2_length _ _ _ HFe). assumption.
  - assert (Forall (sendable coll) (firstn (n - 1) msgs)) as HMn.
    { rewrite <- (firstn_skipn (n - 1) msgs) in HM. apply Forall_app in HM. apply HM. }
    destruct (send_all_vector cs coll _ Hst HMn []) as (fs' & HF' & E'). rewrite E'. cbn [app]. f_equal. f_equal.
    clear - HF HF'. revert fs' HF'. generalize (n - 1)%nat as k. induction HF as [|mv f msgs fs Hf HF IH]; intros [|k] fs' HF';
      cbn [firstn] in *; inversion HF'; subst; auto. f_equal; [|auto].
    eapply message_frame_unique; eassumption.
Qed.
