(** Sender and receiver with different collections: same or different layout. *)
From Verif Require Export EvolveLemmas.

Section Layout.
Context (A B : collection).
Hypothesis HAB : same_layout A B.

Lemma layout_has_id m id : has_id A m id -> exists m', has_id B m' id /\ payload_size m' = payload_size m.
Proof.
  intros (H1 & H2). destruct HAB as (_ & E). apply (map_nth_error payload_size) in H2. rewrite E in H2.
  destruct (nth_error (mc_types B) (Z.to_nat id)) as [m'|] eqn:Em.
  - exists m'. split; [split; assumption|]. apply (map_nth_error payload_size) in Em. congruence.
  - apply nth_error_None in Em. assert (nth_error (map payload_size (mc_types B)) (Z.to_nat id) = None) as E2
      by (apply nth_error_None; rewrite map_length; exact Em). congruence.
Qed.

Lemma layout_undecided s : undecided A s -> undecided B s.
Proof.
  destruct s as [|b [|id [|x s]]]; cbn [undecided]; auto.
  - intros (-> & m & H). split; [reflexivity|]. destruct (layout_has_id _ _ H) as (m' & H' & _). eauto.
  - intros (-> & -> & m & H & HL). split; [reflexivity|]. split; [reflexivity|].
    destruct (layout_has_id _ _ H) as (m' & H' & E). exists m'. split; [assumption|].
    destruct HAB as (He & _). unfold frame_size in *. rewrite <- He, E. exact HL.
Qed.

Lemma layout_frame f m id p : is_frame A f m id p -> exists m', is_frame B f m' id p.
Proof.
  intros (H1 & H2 & H3). destruct (layout_has_id _ _ H1) as (m' & H' & E). exists m'.
  destruct HAB as (He & _). repeat split; try apply H'; congruence.
Qed.
End Layout.

Lemma layout_sym A B : same_layout A B -> same_layout B A.
Proof. intros (H1 & H2). split; congruence. Qed.

Lemma layout_scan A B s ms r : same_layout A B -> Scan A s ms r ->
  exists ms', Scan B s ms' r /\ Forall2 (fun x y => f_id x = f_id y /\ f_payload x = f_payload y) ms ms'
    /\ Forall (fun y => has_id B (f_message y) (f_id y)) ms'.
Proof.
  intros HAB H. induction H as [s U | f m id p s ms r F S IH | b s ms r HU HF S IH].
  - exists []. split; [apply scan_wait, (layout_undecided A B HAB), U|]. split; constructor.
  - destruct IH as (ms' & H1 & H2 & H3). destruct (layout_frame A B HAB _ _ _ _ F) as (m' & F').
    exists (Found m' id p :: ms'). split; [apply scan_frame; assumption|].
    split; constructor; auto. cbn [f_message f_id]. apply F'.
  - destruct IH as (ms' & H1 & H2 & H3). exists ms'. split; [|auto]. apply scan_skip; [| |assumption].
    + intros U. apply HU, (layout_undecided B A (layout_sym _ _ HAB)), U.
    + intros f m id p s' F E. destruct (layout_frame B A (layout_sym _ _ HAB) _ _ _ _ F) as (m' & F').
      exact (HF _ _ _ _ _ F' E).
Qed.

(** C70 *)
Lemma same_layout_lemma A B c c2 : static_ok A = true -> static_ok B = true ->
  index_safe c (capacity A) -> index_safe c2 (capacity B) -> same_layout A B ->
  forall beh beh2 h0 h1 S w v, tame beh -> tame beh2 ->
  processed c A beh h0 S w -> processed c2 B beh2 h1 S v ->
  held w = held v
  /\ exists ms ms', Forall2 (fun x y => f_id x = f_id y /\ f_payload x = f_payload y) ms ms'
    /\ Forall2 (delivers (little c)) ms (completed beh [] (w_log w))
    /\ Forall2 (delivers (little c2)) ms' (completed beh2 [] (w_log v)).
Proof.
  intros HA HB SA SB HL beh beh2 h0 h1 S w v Ht Ht2 Hw Hv.
  destruct (stream_lemma c A HA SA beh Ht _ _ _ Hw) as (ms & H1 & H2).
  destruct (stream_lemma c2 B HB SB beh2 Ht2 _ _ _ Hv) as (ms' & H1' & H2').
  destruct (layout_scan A B _ _ _ HL H1) as (ms2 & H3 & H4 & _).
  destruct (scan_det _ _ _ _ H3 _ _ H1') as (-> & ->). split; [reflexivity|]. eauto 10.
Qed.

Lemma layout_sent A B cs c2 msgs fs : same_layout A B -> Forall (sendable A) msgs ->
  Forall2 (fun mv f => is_message_frame cs A (fst mv) (snd mv) f) msgs fs ->
  exists fds, Scan B (concat fs) fds []
    /\ forall ds, Forall2 (delivers (little c2)) fds ds -> Forall2 (rereads (little cs) (little c2) A B) msgs ds.
Proof.
  intros HL HM HF. induction HF as [|mv f msgs fs Hf HF IH].
  - exists []. split; [apply scan_nil|]. intros ds H. inversion H. constructor.
  - inversion HM as [|? ? (M1 & M2) HM']; subst. destruct (IH HM') as (fds & H1 & H2).
    destruct Hf as (id & I1 & I2 & Ef).
    assert (is_frame A f (fst mv) id (spec_payload (little cs) (mt_fields (fst mv)) (snd mv))) as F.
    { split; [assumption|]. split; [|assumption]. apply spec_payload_length, M2. }
    destruct (layout_frame A B HL _ _ _ _ F) as (m' & F').
    exists (Found m' id (spec_payload (little cs) (mt_fields (fst mv)) (snd mv)) :: fds). split.
    + cbn [concat]. apply scan_frame; assumption.
    + intros ds HD. inversion HD as [|? d ? ds' (D1 & D2) HD']; subst. constructor; [|auto].
      cbn [f_message f_payload] in D1, D2. destruct D2 as (D2 & D3). rewrite <- D1 in *. exists id. repeat split; try assumption; try apply I1; try apply F'.
Qed.

Lemma same_layout_sent_lemma A B c cs : static_ok A = true -> static_ok B = true ->
  index_safe c (capacity B) -> same_layout A B ->
  forall beh h0 msgs S w, tame beh -> Forall (sendable A) msgs -> send_all cs A vector_tx msgs [] = Ok S ->
  processed c B beh h0 S w ->
  Forall2 (rereads (little cs) (little c) A B) msgs (completed beh [] (w_log w)) /\ held w = [].
Proof.
  intros HA HB SB HL beh h0 msgs S w Ht HM HS Hw.
  destruct (send_all_vector cs A msgs HA HM []) as (fs & HF & E). rewrite HS in E. cbn [app] in E.
  assert (S = concat fs) as -> by congruence.
  destruct (layout_sent A B cs c msgs fs HL HM HF) as (fds & H1 & H2).
  destruct (stream_lemma c B HB SB beh Ht _ _ _ Hw) as (ms & H3 & H4).
  destruct (scan_det _ _ _ _ H1 _ _ H3) as (<- & <-). auto.
Qed.

(** A frame longer than the receiver expects for its id: its beginning is a frame, or none
    starts here. *)
Lemma shorter_lemma A B c : static_ok B = true -> index_safe c (capacity B) -> mc_env A = mc_env B ->
  forall beh h0 pre ms f m id p m' s w, tame beh -> is_frame A f m id p -> has_id B m' id ->
  (payload_size m' < payload_size m)%nat -> Scan B pre ms [] ->
  processed c B beh h0 (pre ++ f ++ s) w ->
  (forall u rest p', f = u ++ rest -> is_frame B u m' id p' ->
     exists ms', Scan B (rest ++ s) ms' (held w)
       /\ Forall2 (delivers (little c)) (ms ++ Found m' id p' :: ms') (completed beh [] (w_log w)))
  /\ ((forall u rest p', f = u ++ rest -> ~ is_frame B u m' id p') ->
     exists ms', Scan B (tl f ++ s) ms' (held w)
       /\ Forall2 (delivers (little c)) (ms ++ ms') (completed beh [] (w_log w))).
Proof.
  intros HB SB He beh h0 pre ms f m id p m' s w Ht F Hm' HL HP Hw. split.
  - intros u rest p' -> F'. rewrite <- app_assoc in Hw.
    exact (frame_delivered_lemma c B HB SB beh h0 pre ms u m' id p' (rest ++ s) w Ht HP F' Hw).
  - intros HN. pose proof (is_frame_length _ _ _ _ _ F) as HLf.
    assert (frame_size (mc_env B) m' < length f)%nat as HLt.
    { rewrite HLf, He. unfold frame_size. destruct (mc_env B); lia. }
    destruct (is_frame_head _ _ _ _ _ F) as (t & Ef).
    assert (dead B (f ++ s)) as D.
    { split.
      - rewrite Ef. cbn [app]. intros U. apply undecided_long in U as (_ & _ & m2 & Hm2 & Hlt).
        assert (m2 = m') as -> by (eapply has_id_fun; eassumption).
        rewrite Ef in HLt. cbn [length] in Hlt, HLt. rewrite ?app_length in Hlt. lia.
      - intros u m2 id2 p2 s2 F2 E. destruct (is_frame_head _ _ _ _ _ F2) as (t2 & Eu).
        assert (id2 = id) as ->. { rewrite Ef, Eu in E. cbn [app] in E. congruence. }
        assert (m2 = m') as -> by (eapply has_id_fun; [apply F2 | eassumption]).
        pose proof (is_frame_length _ _ _ _ _ F2) as HLu.
        apply (HN u (skipn (length u) f) p2); [|exact F2].
        assert (firstn (length u) (f ++ s) = u) as E1 by (rewrite E, firstn_app, firstn_all, Nat.sub_diag; apply app_nil_r).
        rewrite firstn_app in E1. replace (length u - length f)%nat with O in E1 by lia.
        rewrite app_nil_r in E1. rewrite <- E1 at 1. symmetry. apply firstn_skipn. }
    rewrite Ef in *. cbn [app tl] in *.
    exact (dead_skipped_lemma c B HB SB beh h0 pre ms 1 _ w Ht HP D Hw).
Qed.

(** A frame shorter than expected is kept, waiting for the rest. *)
Lemma longer_lemma A B c : static_ok B = true -> index_safe c (capacity B) -> mc_env A = mc_env B ->
  forall beh h0 pre ms f m id p m' w, tame beh -> is_frame A f m id p -> has_id B m' id ->
  (payload_size m < payload_size m')%nat -> Scan B pre ms [] ->
  processed c B beh h0 (pre ++ f) w ->
  held w = f /\ Forall2 (delivers (little c)) ms (completed beh [] (w_log w)).
Proof.
  intros HB SB He beh h0 pre ms f m id p m' w Ht F Hm' HL HP Hw.
  destruct (stream_lemma c B HB SB beh Ht _ _ _ Hw) as (ms' & H3 & H4).
  assert (undecided B f) as U.
  { pose proof (is_frame_length _ _ _ _ _ F) as HLf. destruct (is_frame_head _ _ _ _ _ F) as (t & Ef).
    rewrite Ef in *. apply undecided_long. split; [reflexivity|]. split; [reflexivity|]. exists m'. split; [assumption|].
    rewrite HLf, He. unfold frame_size. destruct (mc_env B); lia. }
  pose proof (ScanLemmas.scan_app B pre ms f [] f HP (scan_undecided _ _ U)) as HS.
  rewrite app_nil_r in HS. destruct (scan_det _ _ _ _ HS _ _ H3) as (<- & <-). auto.
Qed.
