(** What a receiver delivers from a byte stream: the lemmas behind the property theorems. *)
From Verif Require Export ReceiverLemmas.

Lemma completed_all beh : (forall log, hr_throws (beh log) = false) -> forall new log, completed beh log new = new.
Proof.
  intros H new. induction new as [|d new IH]; intros log; cbn [completed]; [reflexivity|].
  rewrite H, IH. reflexivity.
Qed.

Lemma completed_app beh : forall l1 l2 log,
  completed beh log (l1 ++ l2) = completed beh log l1 ++ completed beh (log ++ l1) l2.
Proof.
  induction l1 as [|d l1 IH]; intros l2 log; cbn [completed app].
  - rewrite app_nil_r. reflexivity.
  - rewrite IH, <- !app_assoc. reflexivity.
Qed.

(** The contents of the calls for found messages that encode [msgs]. *)
Lemma delivered_content c coll msgs fds l : static_ok coll = true -> Forall (sendable coll) msgs ->
  Forall2 (fun mv fd => f_message fd = fst mv
             /\ encodes (little c) (mt_fields (fst mv)) (snd mv) (f_payload fd)) msgs fds ->
  Forall2 (delivers (little c)) fds l -> map content l = msgs.
Proof.
  intros Hst HS H. revert l HS. induction H as [|[m vs] fd msgs fds (H1 & H2) H IH]; intros l HS HD;
    inversion HD as [|? d ? l' (D1 & D2) HD']; subst; [reflexivity|].
  inversion HS as [|? ? (S1 & S2) HS']; subst. cbn [map fst snd] in *. f_equal; [|auto].
  unfold content. rewrite H1 in *. rewrite D1. f_equal.
  apply (encodes_unique c (mt_fields m) _ _ (f_payload fd)); auto. apply (static_fields_ok coll); auto.
Qed.

Lemma send_all_frames cs coll msgs S : static_ok coll = true -> Forall (sendable coll) msgs ->
  send_all cs coll vector_tx msgs [] = Ok S ->
  exists fds, Scan coll S fds []
    /\ Forall2 (fun mv fd => f_message fd = fst mv
             /\ encodes (little cs) (mt_fields (fst mv)) (snd mv) (f_payload fd)) msgs fds.
Proof.
  intros Hst HS H. destruct (send_all_vector cs coll msgs Hst HS []) as (fs & HF & H').
  rewrite H' in H. assert (S = concat fs) as -> by (cbn in H; congruence).
  destruct (sent_frames cs coll msgs fs HS HF) as (fds & H1 & H2). exists fds. split; [|assumption].
  apply scan_frames, H1.
Qed.

Lemma send_all_bytes cs coll msgs S : static_ok coll = true -> Forall (sendable coll) msgs ->
  send_all cs coll vector_tx msgs [] = Ok S -> bytes_ok S.
Proof.
  intros Hst HS H. destruct (send_all_vector cs coll msgs Hst HS []) as (fs & HF & H').
  rewrite H' in H. assert (S = concat fs) as -> by (cbn in H; congruence). clear H H'.
  induction HF as [|[m vs] f msgs fs Hf HF IH]; cbn [concat]; [constructor|].
  inversion HS as [|? ? (S1 & S2) HS']; subst. apply Forall_app. split; [|exact (IH HS')].
  exact (message_frame_bytes cs coll m vs f Hst S2 Hf).
Qed.

(** A prefix of the stream gives a prefix of the messages. *)
Lemma scan_prefix coll A T ms r MS R : Scan coll A ms r -> Scan coll (A ++ T) MS R -> exists ms', MS = ms ++ ms'.
Proof.
  intros H HT. destruct (scan_total coll (r ++ T)) as (ms' & r' & H').
  pose proof (scan_consumed _ _ _ _ H T ms' r' H') as H2.
  destruct (scan_det _ _ _ _ HT _ _ H2) as (-> & _). eauto.
Qed.

Section Delivery.
Context (c : config) (coll : collection).
Hypothesis Hst : static_ok coll = true.
Hypothesis Hsafe : index_safe c (capacity coll).

(** C25 *)
Lemma stream_only_lemma c2 beh beh2 h0 h1 S w v : index_safe c2 (capacity coll) -> little c2 = little c ->
  tame beh -> tame beh2 ->
  processed c coll beh h0 S w -> processed c2 coll beh2 h1 S v ->
  map content (completed beh [] (w_log w)) = map content (completed beh2 [] (w_log v)) /\ held w = held v.
Proof.
  intros Hs2 HE Ht Ht2 Hw Hv.
  destruct (stream_lemma c coll Hst Hsafe beh Ht _ _ _ Hw) as (ms & HS & HF).
  destruct (stream_lemma c2 coll Hst Hs2 beh2 Ht2 _ _ _ Hv) as (ms2 & HS2 & HF2).
  destruct (scan_det _ _ _ _ HS _ _ HS2) as (<- & <-). split; [|reflexivity]. rewrite HE in HF2.
  apply (delivers_all_fun c coll ms Hst); [eapply scan_frames_in; eauto | assumption | assumption].
Qed.

(** C24 *)
Lemma lossless_lemma cs beh h0 msgs S w : tame beh -> little cs = little c -> Forall (sendable coll) msgs ->
  send_all cs coll vector_tx msgs [] = Ok S -> processed c coll beh h0 S w ->
  map content (completed beh [] (w_log w)) = msgs /\ held w = [].
Proof.
  intros Ht HE HM HS Hw. destruct (send_all_frames cs coll msgs S Hst HM HS) as (fds & HSc & HF).
  destruct (stream_lemma c coll Hst Hsafe beh Ht _ _ _ Hw) as (ms & HS2 & HD).
  destruct (scan_det _ _ _ _ HSc _ _ HS2) as (<- & E). split; [|auto]. rewrite HE in HF.
  eapply delivered_content; eauto.
Qed.

(** C26 *)
Lemma no_invention_lemma beh h0 ops S rs w : tame beh -> history c coll beh (start coll h0) ops S rs w ->
  exists ms, occurs coll ms S /\ Forall2 (delivers (little c)) ms (completed beh [] (w_log w)).
Proof.
  intros Ht H. destruct (history_consumed c coll Hst Hsafe beh Ht _ _ _ _ _ H) as (ms & HC & HF).
  exists ms. split; [|assumption]. eapply consumed_occurs, HC.
Qed.

Lemma calls_have_frames_lemma beh h0 ops S rs w : tame beh -> history c coll beh (start coll h0) ops S rs w ->
  Forall (fun d => exists pre f fd post, S = pre ++ f ++ post
            /\ is_frame coll f (f_message fd) (f_id fd) (f_payload fd) /\ delivers (little c) fd d) (w_log w).
Proof.
  intros Ht H. remember (start coll h0) as w0 eqn:E0.
  induction H as [w|w ops S rs w1 o r w2 H IH Ha Hr].
  - subst w. destruct h0; constructor.
  - specialize (IH E0). subst w. pose proof (history_sim c coll Hst Hsafe beh Ht _ _ _ _ _ H) as Hs.
    assert (Forall (fun d => exists pre f fd post, S ++ received coll beh o w1 w2 = pre ++ f ++ post
            /\ is_frame coll f (f_message fd) (f_id fd) (f_payload fd) /\ delivers (little c) fd d) (w_log w1)) as IH'.
    { eapply Forall_impl; [|exact IH]. cbn beta. intros d (pre & f & fd & post & -> & H1).
      exists pre, f, fd, (post ++ received coll beh o w1 w2). split; [|assumption]. rewrite <- !app_assoc. reflexivity. }
    assert (o = OpProcess \/ o <> OpProcess) as [->|Ho] by (destruct o; auto; right; discriminate).
    + destruct (process_cases c coll Hst Hsafe beh Ht _ _ _ Hs Hr) as [(_ & -> & _)|(_ & k & HP & _)]; [assumption|].
      pose proof (process_new_calls _ _ _ _ _ _ HP) as Hn. rewrite Hn. apply Forall_app. split; [assumption|].
      pose proof (Proc_frames _ _ _ _ _ _ HP _ Hn) as HF. eapply Forall_impl; [|exact HF]. cbn beta.
      cbn [view s_bytes s_log received]. intros d (pre & f & fd & post & E & H1 & H2).
      destruct (history_suffix c coll Hst Hsafe beh Ht _ _ _ _ _ H) as (K & ->).
      exists (K ++ pre), f, fd, post. rewrite <- !app_assoc. rewrite E. auto.
    + destruct (other_step c coll Hst Hsafe beh Ht o w1 w2 r Hs Ha Hr Ho) as (_ & -> & _). assumption.
Qed.

(** C27 *)
Lemma never_full_lemma beh h0 S w : tame beh -> processed c coll beh h0 S w ->
  zlen (held w) < max_message_length coll
  /\ rx_available coll (w_rx w) = capacity coll - zlen (held w)
  /\ 2 * max_message_length coll < rx_available coll (w_rx w)
  /\ 2 * capacity coll < 3 * rx_available coll (w_rx w).
Proof.
  intros Ht H. pose proof (processed_undecided c coll Hst Hsafe beh Ht _ _ _ H) as U.
  destruct (processed_history c coll beh _ _ _ H) as (ops & rs & HH).
  pose proof (history_sim c coll Hst Hsafe beh Ht _ _ _ _ _ HH) as Hs.
  pose proof (undecided_lt_max _ _ Hst U) as HL.
  pose proof (sim_available coll Hst _ _ Hs) as HA. cbn [view s_bytes] in HA. rewrite HA.
  unfold capacity, receive_buffer_size in *. lia.
Qed.

(** C28 *)
Lemma bool_free_decodable X : bool_free coll -> bytes_ok X -> decodable coll (little c) X.
Proof.
  intros Hb HX ms r HS. revert HX.
  induction HS as [s U | f m id p s ms r F HS IH | b s ms r HU HF HS IH]; intros HX.
  - constructor.
  - constructor.
    + cbn [f_message f_payload]. assert (In m (mc_types coll)) as Hin by (eapply has_id_in, F).
      apply (encodes_total c).
      * apply (static_fields_ok coll); assumption.
      * apply Forall_forall. intros t Hi. exact (Hb m t Hin Hi).
      * eapply frame_payload_ok; eassumption.
      * apply F.
    + apply IH. apply Forall_app in HX. apply HX.
  - apply IH. inversion HX. assumption.
Qed.

Lemma progress_lemma beh h0 ops S rs w o fuel : steady beh -> bool_free coll ->
  history c coll beh (start coll h0) ops S rs w -> allowed coll o w ->
  (Z.to_nat (capacity coll) < fuel)%nat ->
  exists w' r, step fuel c coll beh o w = Ok (w', r).
Proof.
  intros Hb Hf H Ha Hfu. pose proof (steady_tame _ Hb) as Ht.
  pose proof (history_sim c coll Hst Hsafe beh Ht _ _ _ _ _ H) as Hs.
  eapply step_progress; eauto. apply bool_free_decodable; [assumption|]. apply (sim_bytes_ok coll _ _ Hs).
Qed.

(** C29 *)
Lemma noise_lemma beh beh2 h0 h1 pre ms noise s w v : tame beh -> tame beh2 ->
  Scan coll pre ms [] -> ~ In 1 noise ->
  processed c coll beh h0 (pre ++ noise ++ s) w -> processed c coll beh2 h1 (pre ++ s) v ->
  map content (completed beh [] (w_log w)) = map content (completed beh2 [] (w_log v)) /\ held w = held v.
Proof.
  intros Ht Ht2 HP Hn Hw Hv.
  destruct (stream_lemma c coll Hst Hsafe beh Ht _ _ _ Hw) as (ms1 & HS1 & HF1).
  destruct (stream_lemma c coll Hst Hsafe beh2 Ht2 _ _ _ Hv) as (ms2 & HS2 & HF2).
  destruct (scan_total coll s) as (ms3 & r & HS3).
  pose proof (scan_app _ _ _ _ _ _ HP (scan_noise _ _ _ _ _ Hn HS3)) as HA.
  pose proof (scan_app _ _ _ _ _ _ HP HS3) as HB.
  destruct (scan_det _ _ _ _ HA _ _ HS1) as (<- & <-). destruct (scan_det _ _ _ _ HB _ _ HS2) as (<- & <-).
  split; [|reflexivity]. apply (delivers_all_fun c coll (ms ++ ms3) Hst); [eapply scan_frames_in; eauto | assumption | assumption].
Qed.

(** C30 *)
Lemma idle_lemma beh h0 g idle w : tame beh -> ~ In 1 idle -> max_message_length coll <= zlen idle ->
  processed c coll beh h0 (g ++ idle) w -> held w = [].
Proof.
  intros Ht Hn Hl Hw. destruct (stream_lemma c coll Hst Hsafe beh Ht _ _ _ Hw) as (ms & HS & _).
  eapply scan_idle; eauto.
Qed.

Lemma resync_lemma cs beh h0 g idle msgs S w : tame beh -> little cs = little c ->
  ~ In 1 idle -> max_message_length coll <= zlen idle ->
  Forall (sendable coll) msgs -> send_all cs coll vector_tx msgs [] = Ok S ->
  processed c coll beh h0 (g ++ idle ++ S) w ->
  (exists before, map content (completed beh [] (w_log w)) = before ++ msgs) /\ held w = [].
Proof.
  intros Ht HE Hn Hl HM HS Hw. destruct (send_all_frames cs coll msgs S Hst HM HS) as (fds & HSc & HF).
  destruct (stream_lemma c coll Hst Hsafe beh Ht _ _ _ Hw) as (ms & HS2 & HD).
  destruct (scan_total coll (g ++ idle)) as (ms0 & r0 & HS0). pose proof (scan_idle _ _ _ _ _ Hst Hn Hl HS0) as ->.
  pose proof (scan_app _ _ _ _ _ _ HS0 HSc) as HA. rewrite <- app_assoc in HA.
  destruct (scan_det _ _ _ _ HA _ _ HS2) as (<- & E). split; [|auto].
  apply Forall2_app_inv_l in HD as (l1 & l2 & HD1 & HD2 & ->). exists (map content l1). rewrite map_app. f_equal.
  rewrite HE in HF. eapply delivered_content; eauto.
Qed.

(** A frame at a frame boundary is delivered; so is what follows. *)
Lemma frame_delivered_lemma beh h0 pre ms f m id p s w : tame beh -> Scan coll pre ms [] ->
  is_frame coll f m id p -> processed c coll beh h0 (pre ++ f ++ s) w ->
  exists ms', Scan coll s ms' (held w)
    /\ Forall2 (delivers (little c)) (ms ++ Found m id p :: ms') (completed beh [] (w_log w)).
Proof.
  intros Ht HP F Hw. destruct (stream_lemma c coll Hst Hsafe beh Ht _ _ _ Hw) as (ms2 & HS2 & HD).
  destruct (scan_total coll s) as (ms3 & r & HS3).
  pose proof (scan_app _ _ _ _ _ _ HP (scan_frame _ _ _ _ _ _ _ _ F HS3)) as HA.
  destruct (scan_det _ _ _ _ HA _ _ HS2) as (<- & <-). eauto.
Qed.

(** A byte that starts no frame is passed over. *)
Lemma dead_skipped_lemma beh h0 pre ms b s w : tame beh -> Scan coll pre ms [] ->
  dead coll (b :: s) -> processed c coll beh h0 (pre ++ b :: s) w ->
  exists ms', Scan coll s ms' (held w)
    /\ Forall2 (delivers (little c)) (ms ++ ms') (completed beh [] (w_log w)).
Proof.
  intros Ht HP (D1 & D2) Hw. destruct (stream_lemma c coll Hst Hsafe beh Ht _ _ _ Hw) as (ms2 & HS2 & HD).
  destruct (scan_total coll s) as (ms3 & r & HS3).
  pose proof (scan_app _ _ _ _ _ _ HP (scan_skip _ _ _ _ _ D1 D2 HS3)) as HA.
  destruct (scan_det _ _ _ _ HA _ _ HS2) as (<- & <-). eauto.
Qed.
End Delivery.
