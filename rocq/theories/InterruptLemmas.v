(** A sender interrupted in the middle of a message. *)
From Verif Require Export LossLemmas.

(** Calls that do not all succeed: the first ones do, the next one fails. *)
Lemma calls_interrupted {S} (t : transmitter S) l : forall s,
  (forall s', run_calls t l s <> Ok s') ->
  exists done x rest s', l = done ++ x :: rest /\ run_calls t done s = Ok s'
    /\ (forall s2, run_call t x s' <> Ok s2) /\ run_calls t l s = run_call t x s'.
Proof.
  induction l as [|x l IH]; intros s H; cbn [run_calls] in *; [exfalso; exact (H s eq_refl)|].
  destruct (run_call t x s) as [s1| | | |] eqn:E; cbn [bind] in *.
  - destruct (IH s1 H) as (d & y & r & s' & -> & H1 & H2 & H3). exists (x :: d), y, r, s'.
    split; [reflexivity|]. cbn [run_calls]. rewrite E. cbn [bind]. auto.
  - exists [], x, l, s. rewrite E. repeat split; discriminate.
  - exists [], x, l, s. rewrite E. repeat split; discriminate.
  - exists [], x, l, s. rewrite E. repeat split; discriminate.
  - exists [], x, l, s. rewrite E. repeat split; discriminate.
Qed.

Lemma calls_out {S} (t : transmitter S) (out : S -> list Z) :
  (forall x s s', run_call t x s = Ok s' -> out s' = out s ++ call_bytes x) ->
  forall l s s', run_calls t l s = Ok s' -> out s' = out s ++ calls_bytes l.
Proof.
  intros H. induction l as [|x l IH]; intros s s' E; cbn [run_calls] in E.
  - assert (s = s') as -> by congruence. unfold calls_bytes. cbn. rewrite app_nil_r. reflexivity.
  - destruct (run_call t x s) as [s1| | | |] eqn:E1; cbn [bind] in E; try discriminate.
    rewrite (IH _ _ E), (H _ _ _ E1). unfold calls_bytes. cbn [map concat]. rewrite app_assoc. reflexivity.
Qed.

(** C77: what is written when a message cannot be sent. *)
Lemma failed_send_lemma S (t : transmitter S) (out : S -> list Z) :
  (forall x s s', run_call t x s = Ok s' -> out s' = out s ++ call_bytes x) ->
  forall c coll m vs f s, static_ok coll = true -> In m (mc_types coll) -> has_types vs (mt_fields m) = true ->
  is_message_frame c coll m vs f ->
  (forall s', send c coll m t (combine (mt_fields m) vs) s <> Ok s') ->
  exists j s', out s' = out s ++ firstn j f
    /\ ((exists x rest, skipn j f = call_bytes x ++ rest
           /\ send c coll m t (combine (mt_fields m) vs) s = run_call t x s')
        \/ j = length f /\ send c coll m t (combine (mt_fields m) vs) s = tx_finished t s').
Proof.
  intros Hout c coll m vs f s Hst Hin Hty HF HN.
  destruct (send_spec c coll m vs Hst Hin Hty) as (calls & HF' & H). specialize (H S t s).
  pose proof (message_frame_unique c coll m vs _ _ HF HF') as ->. rewrite H in *.
  assert ((exists s1, run_calls t calls s = Ok s1) \/ (forall s', run_calls t calls s <> Ok s')) as [(s1 & E)|E].
  { destruct (run_calls t calls s); [left; eauto | right; discriminate ..]. }
  - rewrite E in *. cbn [bind] in *. exists (length (calls_bytes calls)), s1. rewrite firstn_all.
    split; [exact (calls_out t out Hout _ _ _ E)|]. right. auto.
  - destruct (calls_interrupted t calls s E) as (d & x & rest & s' & -> & H1 & H2 & H3).
    exists (length (calls_bytes d)), s'. rewrite calls_bytes_app, firstn_app_exact, skipn_app_exact by reflexivity.
    split; [exact (calls_out t out Hout _ _ _ H1)|]. left. exists x, (calls_bytes rest).
    split; [reflexivity|]. rewrite H3. destruct (run_call t x s') as [y| | | |]; [destruct (H2 y); reflexivity | reflexivity ..].
Qed.

(** A frame that is not complete is waited for. *)
Lemma undecided_prefix coll f m id p j : is_frame coll f m id p -> (j < length f)%nat -> undecided coll (firstn j f).
Proof.
  intros F Hj. pose proof (is_frame_length _ _ _ _ _ F) as HL. destruct (is_frame_head _ _ _ _ _ F) as (t & E).
  destruct F as (Hm & _ & _).
  destruct j as [|[|[|j]]]; rewrite E; cbn [firstn].
  - exact I.
  - reflexivity.
  - split; [reflexivity|]. exists m. exact Hm.
  - apply undecided_long. split; [reflexivity|]. split; [reflexivity|]. exists m. split; [exact Hm|].
    rewrite <- HL. rewrite E in *. cbn [length] in *. rewrite firstn_length. lia.
Qed.

Section Interrupt.
Context (c : config) (coll : collection).
Hypothesis Hst : static_ok coll = true.
Hypothesis Hsafe : index_safe c (capacity coll).

(** C77 *)
Lemma prompt_lemma cs beh h0 msgs S m vs f j w : tame beh -> little cs = little c ->
  Forall (sendable coll) msgs -> send_all cs coll vector_tx msgs [] = Ok S ->
  sendable coll (m, vs) -> is_message_frame cs coll m vs f -> (j < length f)%nat ->
  processed c coll beh h0 (S ++ firstn j f) w ->
  map content (completed beh [] (w_log w)) = msgs /\ held w = firstn j f.
Proof.
  intros Ht HE HM HS (Hin & Hty) HF Hj Hw. destruct (send_all_frames cs coll msgs S Hst HM HS) as (fds & HSc & HFd).
  destruct (stream_lemma c coll Hst Hsafe beh Ht _ _ _ Hw) as (ms & HS2 & HD).
  destruct (message_frame_is_frame cs coll m vs f Hty HF) as (id & F).
  pose proof (scan_app _ _ _ _ _ _ HSc (scan_undecided _ _ (undecided_prefix _ _ _ _ _ j F Hj))) as HA.
  destruct (scan_det _ _ _ _ HA _ _ HS2) as (<- & E). split; [|auto]. rewrite app_nil_r in HD. rewrite HE in HFd.
  eapply delivered_content; eauto.
Qed.

Lemma interrupted_lemma cs beh h0 msgs S m vs f j noise msgs2 S2 z w : tame beh -> little cs = little c ->
  Forall (sendable coll) msgs -> send_all cs coll vector_tx msgs [] = Ok S ->
  sendable coll (m, vs) -> is_message_frame cs coll m vs f -> (2 <= j < length f)%nat ->
  ~ In 1 (tl (firstn j f)) -> ~ In 1 noise ->
  Forall (sendable coll) msgs2 -> send_all cs coll vector_tx msgs2 [] = Ok S2 ->
  nth_error (noise ++ S2) (length f - 1 - j) = Some z -> z <> 4 ->
  processed c coll beh h0 (S ++ firstn j f ++ noise ++ S2) w ->
  map content (completed beh [] (w_log w)) = msgs ++ msgs2 /\ held w = [].
Proof.
  intros Ht HE HM HS (Hin & Hty) HF Hj Hn1 Hn2 HM2 HS2 Hz Hz4 Hw.
  destruct (send_all_frames cs coll msgs S Hst HM HS) as (fds & HSc & HFd).
  destruct (send_all_frames cs coll msgs2 S2 Hst HM2 HS2) as (fds2 & HSc2 & HFd2).
  destruct (message_frame_is_frame cs coll m vs f Hty HF) as (id & F).
  destruct (is_frame_head _ _ _ _ _ F) as (t & E). destruct j as [|[|j]]; [lia | lia|].
  assert (firstn (Datatypes.S (Datatypes.S j)) f = 1 :: id :: firstn j (2 :: t)) as Ef by (rewrite E; reflexivity).
  rewrite Ef in *. cbn [tl] in Hn1.
  apply nth_error_split in Hz as (l1 & l2 & El & Hl).
  assert (dead coll (1 :: id :: (firstn j (2 :: t) ++ l1) ++ z :: l2)) as D.
  { apply (tail_dead coll m); [apply F | | exact Hz4]. rewrite <- (is_frame_length _ _ _ _ _ F).
    rewrite E in *. cbn [length] in *. rewrite !app_length, firstn_length. cbn [length]. lia. }
  rewrite <- app_assoc, <- El in D.
  cbn [app] in Hw.
  destruct (dead_skipped_lemma c coll Hst Hsafe beh h0 S fds 1 _ w Ht HSc D Hw) as (ms' & H1 & H2).
  rewrite app_comm_cons, app_assoc in H1.
  assert (~ In 1 ((id :: firstn j (2 :: t)) ++ noise)) as HN by (rewrite in_app_iff; tauto).
  pose proof (noise_rest coll _ _ _ _ HN H1) as H3. destruct (scan_det _ _ _ _ HSc2 _ _ H3) as (<- & E3).
  split; [|auto]. rewrite HE in HFd, HFd2. apply Forall2_app_inv_l in H2 as (d1 & d2 & D1 & D2 & ->).
  rewrite map_app. f_equal; eapply delivered_content; eauto.
Qed.

Lemma interrupted_soh_lemma cs beh h0 msgs S noise msgs2 S2 z w : tame beh -> little cs = little c ->
  Forall (sendable coll) msgs -> send_all cs coll vector_tx msgs [] = Ok S -> ~ In 1 noise ->
  Forall (sendable coll) msgs2 -> send_all cs coll vector_tx msgs2 [] = Ok S2 ->
  nth_error (noise ++ S2) 1 = Some z -> z <> 2 ->
  processed c coll beh h0 (S ++ 1 :: noise ++ S2) w ->
  map content (completed beh [] (w_log w)) = msgs ++ msgs2 /\ held w = [].
Proof.
  intros Ht HE HM HS Hn HM2 HS2 Hz Hz2 Hw.
  destruct (send_all_frames cs coll msgs S Hst HM HS) as (fds & HSc & HFd).
  destruct (send_all_frames cs coll msgs2 S2 Hst HM2 HS2) as (fds2 & HSc2 & HFd2).
  assert (dead coll (1 :: noise ++ S2)) as D.
  { destruct (noise ++ S2) as [|x [|y t]]; cbn in Hz; try discriminate. injection Hz as ->. split.
    - intros U. apply undecided_long in U as (_ & U & _). exact (Hz2 U).
    - intros f m id p s' F E. destruct (is_frame_head _ _ _ _ _ F) as (u & Eu). rewrite Eu in E. cbn [app] in E. congruence. }
  destruct (dead_skipped_lemma c coll Hst Hsafe beh h0 S fds 1 _ w Ht HSc D Hw) as (ms' & H1 & H2).
  pose proof (noise_rest coll _ _ _ _ Hn H1) as H3. destruct (scan_det _ _ _ _ HSc2 _ _ H3) as (<- & E3).
  split; [|auto]. rewrite HE in HFd, HFd2. apply Forall2_app_inv_l in H2 as (d1 & d2 & D1 & D2 & ->).
  rewrite map_app. f_equal; eapply delivered_content; eauto.
Qed.
End Interrupt.
