(** Messages separated by idle bytes. *)
From Verif Require Export SpecGaps InterruptLemmas AccountLemmas.

Lemma scan_gap coll g gap ms r : static_ok coll = true -> is_gap coll gap -> Scan coll (g ++ gap) ms r -> r = [].
Proof.
  intros Hst (H1 & H2 & HL) H. pose proof (scan_rest_undecided _ _ _ _ H) as Hu.
  destruct (scan_suffix _ _ _ _ H) as (pre & E). pose proof (undecided_lt_max _ _ Hst Hu) as Hlt. pose proof (max_ge5 coll Hst) as H5.
  destruct r as [|b r]; [reflexivity|]. exfalso.
  assert (b = 1) as ->. { destruct r as [|? [|? ?]]; cbn in Hu; intuition. }
  destruct (Nat.le_gt_cases (length g) (length pre)) as [Hp|Hp].
  - apply H1. assert (gap = skipn (length g) pre ++ 1 :: r) as ->; [|apply in_or_app; right; left; reflexivity].
    apply (f_equal (skipn (length g))) in E. rewrite skipn_app_exact in E by reflexivity. rewrite skipn_app in E.
    replace (length g - length pre)%nat with 0%nat in E by lia. exact E.
  - assert (1 :: r = skipn (length pre) g ++ gap) as Er.
    { apply (f_equal (skipn (length pre))) in E. rewrite (skipn_app_exact pre) in E by reflexivity. rewrite skipn_app in E.
      replace (length pre - length g)%nat with 0%nat in E by lia. symmetry. exact E. }
    set (q := skipn (length pre) g) in *. assert (0 < length q)%nat as Hq by (unfold q; rewrite skipn_length; lia).
    unfold zlen in *. rewrite Er in Hlt. rewrite app_length in Hlt.
    destruct gap as [|g1 [|g2 gap]]; [cbn in *; lia | cbn in *; lia|].
    destruct q as [|q1 [|q2 [|q3 q]]]; cbn [length] in *; try lia.
    + cbn [app] in Er. injection Er as E1 ->. cbn in Hu. destruct Hu as (_ & -> & _). apply H2. cbn. auto.
    + cbn [app] in Er. injection Er as E1 ->. cbn in Hu. destruct Hu as (_ & -> & _). apply H2. cbn. auto.
Qed.

Lemma no_code k l : existsb (Z.eqb k) l = false -> ~ In k l.
Proof.
  intros H HI. assert (existsb (Z.eqb k) l = true) as HT; [|congruence]. apply existsb_exists. exists k. split; [exact HI | apply Z.eqb_refl].
Qed.

Section Gaps.
Context (c : config) (coll : collection).
Hypothesis Hst : static_ok coll = true.
Hypothesis Hsafe : index_safe c (capacity coll).

Lemma gap_empties_lemma beh h0 g gap w : tame beh -> is_gap coll gap -> processed c coll beh h0 (g ++ gap) w -> held w = [].
Proof.
  intros Ht HG Hw. destruct (stream_lemma c coll Hst Hsafe beh Ht _ _ _ Hw) as (ms & HS & _). eapply scan_gap; eauto.
Qed.

Lemma gap_needed_lemma : exists g, g <> [] /\ forall gap beh h0 w, zlen gap < max_message_length coll - 3 -> tame beh ->
  processed c coll beh h0 (g ++ gap) w -> held w = g ++ gap.
Proof.
  destruct (max_message_length_in coll (static_ok_nonempty _ Hst)) as (m & Hin & EM).
  rewrite sizeof_bound_spec in EM. destruct (find_index_in (mc_types coll) m Hin) as (id & Hid).
  exists [1; id; 2]. split; [discriminate|]. intros gap beh h0 w HL Ht Hw.
  destruct (stream_lemma c coll Hst Hsafe beh Ht _ _ _ Hw) as (ms & HS & HD).
  assert (undecided coll ([1; id; 2] ++ gap)) as HU.
  { cbn [app]. apply undecided_long. split; [reflexivity|]. split; [reflexivity|]. exists m. split; [apply find_index_has_id, Hid|].
    unfold zlen in HL. cbn [length]. lia. }
  destruct (scan_det _ _ _ _ HS _ _ (scan_undecided _ _ HU)) as (-> & E). exact E.
Qed.

(** Scanning the segments one by one. *)
Lemma scan_segments segs : Forall (fun s => is_gap coll (sg_gap s)) segs ->
  exists parts, Forall2 (fun s ms => Scan coll (segment_bytes s) ms []) segs parts
    /\ Scan coll (flat_map segment_bytes segs) (concat parts) [].
Proof.
  induction 1 as [|s segs HG _ (parts & H1 & H2)]; [exists []; split; [constructor | apply scan_nil]|].
  destruct (scan_total coll (segment_bytes s)) as (ms & r & HS). pose proof (scan_gap _ _ _ _ _ Hst HG HS) as ->.
  exists (ms :: parts). split; [constructor; assumption|]. cbn [flat_map concat]. apply scan_app; assumption.
Qed.

Lemma delivered_parts beh h0 segs w : tame beh -> Forall (fun s => is_gap coll (sg_gap s)) segs ->
  processed c coll beh h0 (flat_map segment_bytes segs) w ->
  held w = [] /\ exists mss lss, Forall2 (fun s ms => Scan coll (segment_bytes s) ms []) segs mss
    /\ Forall2 (Forall2 (delivers (little c))) mss lss /\ completed beh [] (w_log w) = concat lss.
Proof.
  intros Ht HG Hw. destruct (scan_segments segs HG) as (mss & H1 & H2).
  destruct (stream_lemma c coll Hst Hsafe beh Ht _ _ _ Hw) as (ms & HS & HD).
  destruct (scan_det _ _ _ _ HS _ _ H2) as (-> & E). split; [exact E|]. exists mss.
  clear - H1 HD. revert HD. generalize (completed beh [] (w_log w)). induction H1 as [|s ms segs mss H1 H2 IH]; intros l HD.
  - exists []. inversion HD. repeat split; constructor.
  - cbn [concat] in HD. apply Forall2_app_inv_l in HD as (l1 & l2 & D1 & D2 & ->). destruct (IH _ D2) as (lss & G1 & G2 & ->).
    exists (l1 :: lss). repeat split; constructor; assumption.
Qed.

Lemma gap_independent_lemma beh h0 segs w alone : tame beh -> Forall (fun s => is_gap coll (sg_gap s)) segs ->
  processed c coll beh h0 (flat_map segment_bytes segs) w ->
  Forall2 (fun s bv => tame (fst bv) /\ exists h, processed c coll (fst bv) h (segment_bytes s) (snd bv)) segs alone ->
  map content (completed beh [] (w_log w)) = flat_map (fun bv => map content (completed (fst bv) [] (w_log (snd bv)))) alone
  /\ held w = [].
Proof.
  intros Ht HG Hw HA. destruct (delivered_parts beh h0 segs w Ht HG Hw) as (HE & mss & lss & H1 & H2 & ->). split; [|exact HE].
  clear - Hst Hsafe H1 H2 HA. revert mss lss H1 H2. induction HA as [|s [b v] segs alone (Htb & h & HP) HA IH]; intros mss lss H1 H2.
  - inversion H1; subst. inversion H2; subst. reflexivity.
  - inversion H1 as [|? ms ? mss' G1 G2]; subst. inversion H2 as [|? l ? lss' K1 K2]; subst. cbn [concat flat_map fst snd] in *.
    rewrite map_app. f_equal; [|exact (IH _ _ G2 K2)].
    destruct (stream_lemma c coll Hst Hsafe b Htb _ _ _ HP) as (ms2 & HS & HD). destruct (scan_det _ _ _ _ HS _ _ G1) as (-> & _).
    eapply delivers_all_fun; [exact Hst | eapply scan_frames_in, G1 | exact K1 | exact HD].
Qed.

Lemma scan_five s ms r : Scan coll s ms r -> 5 * zlen ms + zlen r <= zlen s.
Proof.
  induction 1 as [s _|f m id p s ms r F HS IH|b s ms r _ _ HS IH]; unfold zlen in *; cbn [length] in *; [lia | | lia].
  rewrite app_length. pose proof (is_frame_length _ _ _ _ _ F) as HL. pose proof (frame_size_ge5 (mc_env coll) m). lia.
Qed.

Lemma gap_local_lemma cs beh h0 segs w : tame beh -> little cs = little c -> Forall (fun s => is_gap coll (sg_gap s)) segs ->
  Forall (fun s => sendable coll (sg_sent s)) segs -> processed c coll beh h0 (flat_map segment_bytes segs) w ->
  held w = [] /\ exists parts, map content (completed beh [] (w_log w)) = concat parts
    /\ Forall2 (fun s part => (is_message_frame cs coll (fst (sg_sent s)) (snd (sg_sent s)) (sg_body s) -> part = [sg_sent s])
                             /\ 5 * zlen part <= zlen (segment_bytes s)) segs parts.
Proof.
  intros Ht HE HG HM Hw. destruct (delivered_parts beh h0 segs w Ht HG Hw) as (HH & mss & lss & H1 & H2 & ->). split; [exact HH|].
  exists (map (map content) lss). split; [rewrite concat_map; reflexivity|].
  clear - Hst Hsafe HE HG HM H1 H2. revert lss H2. induction H1 as [|s ms segs mss G1 G2 IH]; intros lss H2.
  - inversion H2; subst. constructor.
  - inversion H2 as [|? l ? lss' K1 K2]; subst. cbn [map].
    constructor; [|exact (IH (Forall_inv_tail HG) (Forall_inv_tail HM) _ K2)]. split.
    + intros HF. destruct s as [[m vs] body gap]. cbn [sg_sent fst snd sg_body] in *. pose proof (Forall_inv HM) as Hmv. cbn [sg_sent] in Hmv.
      destruct (sent_frames cs coll [(m, vs)] [body]) as (fds & F1 & F2); [constructor; [exact Hmv | constructor] | constructor; [exact HF | constructor]|].
      assert (Scan coll (body ++ gap) (fds ++ []) []) as HS.
      { rewrite <- (app_nil_r gap). apply scan_app.
        - pose proof (scan_frames _ _ _ F1) as HS. cbn [concat] in HS. rewrite app_nil_r in HS. exact HS.
        - apply scan_noise; [apply (Forall_inv HG) | apply scan_nil]. }
      rewrite app_nil_r in HS. destruct (scan_det _ _ _ _ G1 _ _ HS) as (-> & _). rewrite HE in F2.
      eapply delivered_content; [exact Hst | constructor; [exact Hmv | constructor] | exact F2 | exact K1].
    + pose proof (scan_five _ _ _ G1) as H5. assert (length (map content l) = length ms) as EL.
      { rewrite map_length. clear - K1. induction K1; cbn [length]; congruence. }
      unfold zlen in *. rewrite EL. cbn [length] in H5. lia.
Qed.
End Gaps.
