(** Lemmas about handlers that append: safety, and never-ending feedback. *)
From Verif Require Export HandlerLemmas FeedLemmas.

Section Append.
Context (c : config) (coll : collection).
Hypothesis Hst : static_ok coll = true.
Hypothesis Hsafe : index_safe c (capacity coll).

Lemma Proc_bounded_exists beh : tame beh -> bool_free coll ->
  (forall log h, exists h', handler_after (hr_acts (beh log)) (Some h) = Some h') ->
  forall n X h last log, bytes_ok X ->
  (forall new, zlen X + zlen (appended_by beh log new) <= Z.of_nat n) -> Z.of_nat n <= capacity coll ->
  exists s' r, Proc coll (little c) beh (SState X (Some h) last log) s' r
               /\ (length (s_log s') <= length log + n)%nat.
Proof.
  intros Ht Hbf Hh n. induction n as [n IH] using (well_founded_induction lt_wf). intros X h last log HX Hn Hcap.
  destruct (classify coll X) as [U|[(f & m & id & p & s & F & ->)|(b & s & -> & D)]].
  - eexists. eexists. split; [apply proc_wait; exact U|]. cbn [s_log]. lia.
  - assert (exists vs, encodes (little c) (mt_fields m) vs p) as (vs & E).
    { assert (In m (mc_types coll)) as Hin by (eapply has_id_in, F). apply (encodes_total c).
      - apply (static_fields_ok coll); assumption.
      - apply Forall_forall. intros t Hi. exact (Hbf m t Hin Hi).
      - eapply frame_payload_ok; eassumption.
      - apply F. }
    set (log1 := log ++ [Delivery h m vs]). set (acts := hr_acts (beh log1)).
    pose proof (is_frame_length _ _ _ _ _ F) as HFL. pose proof (frame_size_ge5 (mc_env coll) m) as H5.
    assert (zlen (f ++ s ++ appended acts) <= capacity coll) as Hfit.
    { specialize (Hn [Delivery h m vs]). cbn [appended_by] in Hn. fold log1 acts in Hn. rewrite app_nil_r in Hn.
      rewrite !zlen_app in *. lia. }
    destruct (hr_throws (beh log1)) eqn:HT.
    + eexists. eexists. split; [eapply proc_throw; eassumption|]. cbn [s_log]. rewrite app_length. simpl length.
      specialize (Hn []). cbn [appended_by] in Hn. rewrite zlen_app in Hn. unfold zlen in Hn. cbn [length] in Hn. lia.
    + destruct (Hh log1 h) as (h' & Hh').
      assert (length f <= n)%nat as Hfn. { specialize (Hn []). rewrite !zlen_app in Hn. unfold zlen in Hn. lia. }
      destruct (IH (n - length f)%nat ltac:(lia) (s ++ appended acts) h' (Some id) log1) as (s' & r & HP & HLL).
      * apply Forall_app in HX. apply Forall_app. split; [apply HX|]. apply appended_ok. intros a Ha. exact (Ht log1 a Ha).
      * intros new. specialize (Hn (Delivery h m vs :: new)). cbn [appended_by] in Hn. fold log1 acts in Hn.
        rewrite !zlen_app in *. unfold zlen in *. lia.
      * lia.
      * exists s', (option_map Datatypes.S r). split.
        -- eapply proc_frame; try eassumption. subst acts. fold log1. rewrite Hh'. exact HP.
        -- unfold log1 in HLL. rewrite app_length in HLL. simpl length in HLL. lia.
  - assert (1 <= n)%nat as Hn1. { specialize (Hn []). rewrite zlen_cons in Hn. pose proof (zlen_nonneg s). cbn [appended_by] in Hn. change (zlen (@nil Z)) with 0 in Hn. lia. }
    destruct (IH (n - 1)%nat ltac:(lia) s h last log) as (s' & r & HP & HLL).
    + inversion HX. assumption.
    + intros new. specialize (Hn new). rewrite zlen_cons in Hn. lia.
    + lia.
    + exists s', r. split; [apply proc_skip; assumption|]. lia.
Qed.

(** Handlers whose appended bytes all fit besides the content cannot break processing. *)
Lemma bounded_append_lemma beh h0 ops S rs w fuel : tame beh -> bool_free coll ->
  (forall log h, handler_after (hr_acts (beh log)) (Some h) <> None) ->
  history c coll beh (start coll h0) ops S rs w ->
  (forall new, zlen (held w) + zlen (appended_by beh (w_log w) new) <= capacity coll) ->
  (Z.to_nat (capacity coll) < fuel)%nat ->
  exists w' r, step fuel c coll beh OpProcess w = Ok (w', r).
Proof.
  intros Ht Hbf Hh H Hn Hfu. pose proof (history_sim c coll Hst Hsafe beh Ht _ _ _ _ _ H) as Hs.
  assert (0 <= capacity coll) by (pose proof (capacity_ok coll Hst) as [? ?]; lia).
  assert (exists s' r, Step coll (little c) beh OpProcess (view w) [] s' r
            /\ (length (s_log s') - length (s_log (view w)) < fuel)%nat) as (s' & r & HS & HF).
  { unfold view. destruct (rx_functor (w_rx w)) as [h|].
    - destruct (Proc_bounded_exists beh Ht Hbf) with (n := Z.to_nat (capacity coll)) (X := held w) (h := h)
        (last := rx_last_id (w_rx w)) (log := w_log w) as (s' & r & HP & HL).
      + intros log h1. destruct (handler_after (hr_acts (beh log)) (Some h1)) eqn:E; [eauto | exfalso; exact (Hh _ _ E)].
      + apply (sim_bytes_ok coll _ _ Hs).
      + intros new. specialize (Hn new). lia.
      + lia.
      + do 2 eexists. split; [constructor; exact HP|]. cbn [s_log]. lia.
    - do 2 eexists. split; [constructor|]. cbn [s_log]. lia. }
  destruct (step_complete c coll Hst beh fuel OpProcess w _ [] s' r Ht Hsafe Hs I HS HF) as (w' & E & _). eauto.
Qed.

Lemma skips_suffix X Y : Skips coll X Y -> exists K, X = K ++ Y.
Proof. induction 1 as [X|b X Y D HK (K & ->)]; [exists []; reflexivity | exists (b :: K); reflexivity]. Qed.

Lemma scan_nothing_skips s : Scan coll s [] [] -> forall T, Skips coll (s ++ T) T.
Proof.
  intros H. remember (@nil found) as ms eqn:Em. remember (@nil Z) as r eqn:Er. revert Em Er.
  induction H as [s U | f m id p s ms r F HS IH | b s ms r HU HF HS IH]; intros Em Er T; [subst s; constructor | discriminate |].
  cbn [app]. constructor; [|apply IH; assumption]. apply dead_app. split; assumption.
Qed.

(** Handlers that append one frame at every call keep processing busy for ever. *)
Lemma feedback_loop beh : tame beh -> (forall log, hr_throws (beh log) = false) ->
  (forall log h, handler_after (hr_acts (beh log)) (Some h) <> None) ->
  (forall log, exists f m id p vs, appended (hr_acts (beh log)) = f /\ is_frame coll f m id p
                                   /\ encodes (little c) (mt_fields m) vs p) ->
  forall fuel n w s f m id p s0 vs, sim coll w s -> s_handler s <> None ->
  Skips coll (s_bytes s) (f ++ s0) -> is_frame coll f m id p -> encodes (little c) (mt_fields m) vs p ->
  Scan coll s0 [] [] -> zlen (f ++ s0) + max_message_length coll <= capacity coll ->
  process_loop fuel c coll beh n w = Hang.
Proof.
  intros Ht Hnt Hh Ha. induction fuel as [|fuel IH]; intros n w s f m id p s0 vs Hs Hsh HK F HE HS Hfit; [reflexivity|].
  destruct (s_handler s) as [h|] eqn:Eh; [|congruence].
  set (log1 := s_log s ++ [Delivery h m vs]).
  destruct (Ha log1) as (f' & m' & id' & p' & vs' & EA & F' & HE').
  assert (zlen f' <= max_message_length coll) as HL.
  { assert (In m' (mc_types coll)) as Hin by (eapply has_id_in, F'). pose proof (max_message_length_ge coll m' Hin) as HM.
    pose proof (is_frame_length _ _ _ _ _ F') as HFL. rewrite sizeof_bound_spec in HM. unfold zlen. lia. }
  destruct (deliver_one c coll Hst Hsafe beh fuel n w s f m id p s0 vs h Ht Hs Eh HK F HE) as (w' & E & Hs').
  { apply Hnt. }
  { fold log1. rewrite EA, app_assoc, zlen_app. lia. }
  fold log1 in Hs'. rewrite EA in Hs'. rewrite E.
  eapply (IH _ w' _ f' m' id' p' [] vs' Hs'); auto.
  - cbn [s_handler]. apply Hh.
  - cbn [s_bytes]. rewrite app_nil_r. apply scan_nothing_skips, HS.
  - apply scan_nil.
  - rewrite app_nil_r. pose proof (max_ge5 coll Hst). unfold capacity, receive_buffer_size. lia.
Qed.

Lemma feedback_lemma beh h0 ops S rs w fd vs : tame beh -> (forall log, hr_throws (beh log) = false) ->
  (forall log h, handler_after (hr_acts (beh log)) (Some h) <> None) ->
  (forall log, exists f m id p vs, appended (hr_acts (beh log)) = f /\ is_frame coll f m id p
                                   /\ encodes (little c) (mt_fields m) vs p) ->
  history c coll beh (start coll h0) ops S rs w -> rx_has_handler (w_rx w) = true ->
  Scan coll (held w) [fd] [] -> encodes (little c) (mt_fields (f_message fd)) vs (f_payload fd) ->
  zlen (held w) + max_message_length coll <= capacity coll ->
  forall fuel, step fuel c coll beh OpProcess w = Hang.
Proof.
  intros Ht Hnt Hh Ha H Hw HS HE Hfit fuel. pose proof (history_sim c coll Hst Hsafe beh Ht _ _ _ _ _ H) as Hs.
  destruct (scan_first coll _ _ _ _ HS) as (f & s' & HK & F & HS').
  rewrite step_process by assumption.
  rewrite (feedback_loop beh Ht Hnt Hh Ha fuel 0 w _ f _ _ _ s' vs Hs (has_handler_some w Hw) HK F HE HS'); [reflexivity|].
  destruct (skips_suffix _ _ HK) as (K & EK). cbn [view s_bytes] in EK. rewrite EK, zlen_app in Hfit.
  pose proof (zlen_nonneg K). lia.
Qed.
End Append.
