(** Lemmas about handlers that ask. *)
From Verif Require Export SpecInteractive HandlerLemmas DeliveryLemmas.

(** ** Programs that do not ask *)
Lemma program_acts c coll p q : (forall w, p w = q w) -> forall acts t w,
  i_play c coll p (program acts t) w = do (w', threw) <- run_acts c coll q acts w; Ok (w', threw || t).
Proof.
  intros Hpq. induction acts as [|a acts IH]; intros t w; [reflexivity|]. cbn [run_acts].
  destruct a as [h| |d|]; cbn [program i_play bind].
  - apply IH.
  - apply IH.
  - destruct (rx_append c coll d (w_rx w)) as [r| | | |]; cbn [bind]; try reflexivity. apply IH.
  - rewrite Hpq. destruct (q w) as [[w1 r]| | | |]; cbn [bind]; try reflexivity. destruct r; [apply IH|reflexivity].
Qed.

Lemma program_loop c coll beh : forall fuel n w,
  i_process_loop fuel c coll (fun log => program (hr_acts (beh log)) (hr_throws (beh log))) n w = process_loop fuel c coll beh n w.
Proof.
  induction fuel as [|fuel IH]; intros n w; [reflexivity|]. cbn [i_process_loop process_loop].
  destruct (check c coll (rx_recv (w_rx w))) as [[found e]| | | |]; try reflexivity. cbn [bind].
  destruct found; cbn [negb]; [|reflexivity].
  destruct (er_current_id c e) as [id| | | |]; try reflexivity. cbn [bind].
  set (w1 := w_set_last id (w_set_recv e w)).
  unfold i_invoke, invoke. destruct (rx_invoker (w_rx w1)) as [ty|]; [|reflexivity]. destruct (rx_functor (w_rx w1)) as [h|]; [|reflexivity].
  destruct (negb (ty =? h_type h)); [reflexivity|].
  destruct (deserialize_message c coll (rx_recv (w_rx w1)) id) as [[[m vs]|]| | | |]; try reflexivity; cbn [bind].
  - set (log1 := w_log w1 ++ [Delivery h m vs]).
    rewrite (program_acts c coll _ (fun w => if rx_has_handler (w_rx w) then process_loop fuel c coll beh 0 w else Ok (w, Returned 0))).
    2: { intros v. destruct (rx_has_handler (w_rx v)); [apply IH|reflexivity]. }
    destruct (run_acts c coll _ (hr_acts (beh log1)) (World (w_rx w1) log1)) as [[w2 t]| | | |]; try reflexivity. cbn [bind].
    destruct (t || hr_throws (beh log1)); [reflexivity|].
    destruct (er_pop_message c coll (rx_recv (w_rx w2))) as [e2| | | |]; try reflexivity. cbn [bind]. apply IH.
  - destruct (er_pop_message c coll (rx_recv (w_rx w1))) as [e2| | | |]; try reflexivity. cbn [bind]. apply IH.
Qed.

Lemma program_lemma fuel c coll beh o w :
  i_step fuel c coll (fun log => program (hr_acts (beh log)) (hr_throws (beh log))) o w = step fuel c coll beh o w.
Proof.
  destruct o; try reflexivity. cbn [i_step step]. unfold i_process_messages, process_messages. rewrite program_loop. reflexivity.
Qed.

(** ** Which behaviour matters *)
Lemma Proc_agree coll little beh beh' s s' r : Proc coll little beh s s' r ->
  (forall log, (length (s_log s) < length log <= length (s_log s'))%nat -> beh log = beh' log) ->
  (length (s_log s) <= length (s_log s'))%nat /\ Proc coll little beh' s s' r.
Proof.
  induction 1 as [X h last log U | b X h last log s' r D HP IH
                 | f m id p vs s h last log s' r F E log1 acts HT Hfit HP IH
                 | f m id p vs s h last log F E log1 acts HT Hfit]; intros HA; cbn [s_log] in *.
  - split; [lia|]. constructor. assumption.
  - destruct (IH HA) as (HL & IH'). split; [exact HL|]. apply proc_skip; assumption.
  - assert (length log1 = S (length log)) as HL1 by (unfold log1; rewrite app_length; cbn; lia).
    pose proof (Proc_log_prefix _ _ _ _ _ _ HP) as (new & Hn). cbn [s_log] in Hn.
    assert (length log1 <= length (s_log s'))%nat as HL by (rewrite Hn, app_length; lia).
    destruct IH as (_ & IH). { intros l Hl. apply HA. lia. }
    split; [lia|]. assert (beh log1 = beh' log1) as Eb by (apply HA; lia).
    unfold acts in *. rewrite Eb in *. eapply proc_frame; eassumption.
  - assert (length log1 = S (length log)) as HL1 by (unfold log1; rewrite app_length; cbn; lia).
    split; [lia|]. assert (beh log1 = beh' log1) as Eb by (apply HA; lia).
    unfold acts in *. rewrite Eb in *. eapply proc_throw; eassumption.
Qed.

Section Ask.
Context (c : config) (coll : collection).
Hypothesis Hst : static_ok coll = true.
Hypothesis Hsafe : index_safe c (capacity coll).

Lemma receive_id a r r' n : rx_receive_from c coll a r = Ok (r', n) -> er_id (rx_recv r') = er_id (rx_recv r).
Proof.
  unfold rx_receive_from, er_from_functor. destruct (rb_from_functor c _ _ _ _) as [[b k]| | | |]; try discriminate.
  cbn [bind]. intros H. injection H as <- <-. reflexivity.
Qed.

Definition tame_acts (acts : list hact) : Prop :=
  forall a, In a acts -> match a with AProcess => False | AAppend d => bytes_ok d | _ => True end.

Lemma tame_cons a acts : match a with AProcess => False | AAppend d => bytes_ok d | _ => True end -> tame_acts acts -> tame_acts (a :: acts).
Proof. intros Ha H b [<-|Hb]; [exact Ha|exact (H b Hb)]. Qed.

Lemma play_sound proc : forall p, calm p -> forall w X h last log w' t, sim coll w (SState X h last log) ->
  i_play c coll proc p w = Ok (w', t) ->
  exists acts, asks coll p X h last acts t /\ tame_acts acts
    /\ sim coll w' (SState (X ++ appended acts) (handler_after acts h) last log)
    /\ er_id (rx_recv (w_rx w')) = er_id (rx_recv (w_rx w)).
Proof.
  induction p as [t0|h' k IH|k IH|d k IH|a k IH|k IH|k IH|k IH|k IH]; intros HC w X h last log w' t Hs H;
    cbn [i_play calm] in H, HC.
  - injection H as <- <-. exists []. split; [constructor|]. split; [intros a []|]. unfold appended. cbn [map concat handler_after fold_left].
    rewrite app_nil_r. auto.
  - assert (sim coll (World (rx_set_handler h' (w_rx w)) (w_log w)) (SState X (Some h') last log)) as Hs'.
    { destruct Hs as (A1 & A2 & A3 & A4 & A5 & A6). repeat split; auto. }
    destruct (IH HC _ X (Some h') last log _ _ Hs' H) as (acts & H1 & H2 & H3 & H4).
    exists (ASetHandler h' :: acts). split; [constructor; exact H1|]. split; [apply tame_cons; [exact I|exact H2]|]. split; [exact H3|exact H4].
  - assert (sim coll (World (rx_clear_handler (w_rx w)) (w_log w)) (SState X None last log)) as Hs'.
    { destruct Hs as (A1 & A2 & A3 & A4 & A5 & A6). repeat split; auto. }
    destruct (IH HC _ X None last log _ _ Hs' H) as (acts & H1 & H2 & H3 & H4).
    exists (AClearHandler :: acts). split; [constructor; exact H1|]. split; [apply tame_cons; [exact I|exact H2]|]. split; [exact H3|exact H4].
  - destruct HC as (Hd & HC). unfold rx_append, er_append in H.
    destruct (rb_push_range c (capacity coll) d (er_buf (rx_recv (w_rx w)))) as [b'| | | |] eqn:E; try discriminate.
    cbn [bind] in H. destruct Hs as (R & HB & Hf & Hi & Hl & Hlog). cbn [s_bytes s_handler s_last s_log] in *.
    destruct (push_range_sound c (capacity coll) (capacity_ok coll Hst) _ X _ _ R E) as (_ & R').
    match type of H with i_play _ _ _ _ ?v = _ => assert (sim coll v (SState (X ++ d) h last log)) as Hs' end.
    { repeat split; auto. apply Forall_app. auto. }
    destruct (IH HC _ (X ++ d) h last log _ _ Hs' H) as (acts & H1 & H2 & H3 & H4).
    exists (AAppend d :: acts). split; [constructor; exact H1|]. split; [apply tame_cons; [exact Hd|exact H2]|].
    unfold appended. cbn [map concat]. fold (appended acts). rewrite app_assoc. split; [exact H3|exact H4].
  - destruct HC as (Ha & HC).
    destruct (receive_sim c coll Hst a w _ Hsafe Ha Hs) as (r & E & Hs1). cbn [s_bytes s_handler s_last s_log] in *.
    fold (delivered a (capacity coll - zlen X)) in E, Hs1. set (d := delivered a (capacity coll - zlen X)) in *.
    pose proof (receive_id _ _ _ _ E) as Hid. rewrite E in H. cbn [bind] in H.
    destruct (IH _ (HC _) _ (X ++ d) h last log _ _ Hs1 H) as (acts & H1 & H2 & H3 & H4).
    exists (AAppend d :: acts). split; [apply asks_receive; exact H1|]. split.
    { apply tame_cons; [|exact H2]. unfold d, delivered. apply Ha. pose proof (Z.mod_pos_bound (ad_available a) 256 eq_refl).
      destruct Hs as (R & _). pose proof (rep_size_le _ _ _ R). cbn [s_bytes] in *. lia. }
    unfold appended. cbn [map concat]. fold (appended acts). rewrite app_assoc. split; [exact H3|].
    rewrite H4. exact Hid.
  - contradiction.
  - rewrite (sim_available coll Hst _ _ Hs) in H. cbn [s_bytes] in H.
    destruct (IH _ (HC _) _ _ _ _ _ _ _ Hs H) as (acts & H1 & H2 & H3 & H4). exists acts. split; [constructor; exact H1|auto].
  - rewrite <- (sim_last coll _ _ Hs) in H. cbn [s_last] in H.
    destruct (IH _ (HC _) _ _ _ _ _ _ _ Hs H) as (acts & H1 & H2 & H3 & H4). exists acts. split; [constructor; exact H1|auto].
  - unfold rx_has_handler in H. rewrite <- (sim_functor coll _ _ Hs) in H. cbn [s_handler] in H.
    destruct (IH _ (HC _) _ _ _ _ _ _ _ Hs H) as (acts & H1 & H2 & H3 & H4). exists acts. split; [constructor; exact H1|auto].
Qed.

(** What is known of the calls made from the state [s] to the state [s']. *)
Definition asked (prog : ibehav) (beh : hbehav) (from : nat) (all : list delivery) : Prop :=
  forall log d rest, all = log ++ d :: rest -> (from <= length log)%nat ->
  exists f s fd, is_frame coll f (f_message fd) (f_id fd) (f_payload fd) /\ delivers (little c) fd d
    /\ asks coll (prog (log ++ [d])) (f ++ s) (Some (d_handler d)) (Some (f_id fd))
            (hr_acts (beh (log ++ [d]))) (hr_throws (beh (log ++ [d]))).

Lemma ask_loop prog : (forall log, calm (prog log)) -> forall fuel n w s w' p, sim coll w s ->
  i_process_loop fuel c coll prog n w = Ok (w', p) -> 0 <= n < 256 ->
  exists beh s' r, tame beh /\ Proc coll (little c) beh s s' r /\ sim coll w' s'
    /\ p = match r with Some k => Returned ((n + Z.of_nat k) mod 256) | None => Threw end
    /\ asked prog beh (length (s_log s)) (s_log s').
Proof.
  intros HC. induction fuel as [|fuel IH]; intros n w s w' p Hs H Hn; [discriminate|].
  cbn [i_process_loop] in H.
  destruct (check_sim c coll Hst w s Hs) as (ok & e & Y & HCk & HS & Hs1 & HY). rewrite HCk in H. cbn [bind] in H.
  destruct s as [X h last log]. cbn [s_bytes s_handler s_last s_log] in *.
  destruct ok; cbn [negb] in H.
  2:{ injection H as <- <-. exists (fun _ => HResult [] false), (SState Y h last log), (Some O).
      split; [intros l a []|].
      split; [eapply (Proc_skips c); [eassumption | apply proc_wait, HY]|]. split; [assumption|].
      split; [rewrite Z.add_0_r, Z.mod_small by lia; reflexivity|].
      intros l d rest E HL. cbn [s_log] in E. exfalso. rewrite E, app_length in HL. cbn [length] in HL. lia. }
  destruct HY as (f & m & id & pl & s0 & -> & F & Hid).
  unfold er_current_id in H. rewrite Hid in H. cbn [bind] in H.
  set (w1 := w_set_last id (w_set_recv e w)) in H.
  assert (sim coll w1 (SState (f ++ s0) h (Some id) log)) as Hs2.
  { destruct Hs1 as (A1 & A2 & A3 & A4 & A5 & A6). repeat split; auto. }
  assert (rx_recv (w_rx w1) = e) as He by reflexivity.
  unfold i_invoke in H.
  pose proof Hs2 as (R & HB & Hf & Hi & Hl & Hlog). cbn [s_bytes s_handler s_last s_log] in *.
  rewrite Hf, Hi in H. destruct h as [h|]; cbn [option_map] in H; [|discriminate].
  rewrite Z.eqb_refl in H. cbn [negb] in H.
  destruct (deserialize_message c coll (rx_recv (w_rx w1)) id) as [x| | | |] eqn:D; try discriminate.
  cbn [bind] in H.
  destruct (deserialize_message_sound c coll Hst _ _ _ _ _ _ _ R F HB D) as (vs & -> & E).
  rewrite Hlog in H. set (d1 := Delivery h m vs) in *. set (log1 := log ++ [d1]) in *.
  destruct (i_play c coll _ (prog log1) (World (w_rx w1) log1)) as [[w2 t]| | | |] eqn:RA; try discriminate. cbn [bind] in H.
  eapply (play_sound _ _ (HC log1)) with (X := f ++ s0) (h := Some h) (last := Some id) (log := log1) in RA.
  2:{ repeat split; auto. }
  destruct RA as (acts & HAsk & HTm & Hs3 & Hid2). cbn [w_rx] in Hid2. rewrite He, Hid in Hid2.
  rewrite <- app_assoc in Hs3.
  assert (zlen (f ++ s0 ++ appended acts) <= capacity coll) as Hfit.
  { destruct Hs3 as (R3 & _). exact (rep_size_le _ _ _ R3). }
  assert (forall beh0, beh0 log1 = HResult acts t -> forall l d rest, log1 = l ++ d :: rest -> (length log <= length l)%nat ->
     exists f s fd, is_frame coll f (f_message fd) (f_id fd) (f_payload fd) /\ delivers (little c) fd d
      /\ asks coll (prog (l ++ [d])) (f ++ s) (Some (d_handler d)) (Some (f_id fd)) (hr_acts (beh0 (l ++ [d]))) (hr_throws (beh0 (l ++ [d]))))
    as Hthis.
  { intros beh0 Eb l d rest El HL.
    assert (l = log /\ d = d1) as (-> & ->).
    { unfold log1 in El. assert (rest = []) as ->.
      { apply (f_equal (@length _)) in El. rewrite !app_length in El. cbn [length] in El. destruct rest; [reflexivity|]. cbn [length] in El. lia. }
      apply app_inj_tail in El. destruct El as (-> & ->). auto. }
    exists f, s0, (Found m id pl). cbn [f_message f_id f_payload]. split; [exact F|]. split; [split; [reflexivity|exact E]|].
    fold log1. rewrite Eb. exact HAsk. }
  destruct t.
  - injection H as <- <-. set (beh := fun _ : list delivery => HResult acts true).
    exists beh, (SState (f ++ s0 ++ appended acts) (handler_after acts (Some h)) (Some id) log1), None.
    split; [intros l a Ha; exact (HTm a Ha)|]. split.
    + eapply (Proc_skips c); [eassumption|]. eapply (proc_throw coll (little c) beh f m id pl vs); try eassumption. reflexivity.
    + split; [exact Hs3|]. split; [reflexivity|]. intros l d rest El HL. cbn [s_log] in El.
      apply (Hthis beh eq_refl l d rest El HL).
  - pose proof Hs3 as (R3 & HB3 & Hf3 & Hi3 & Hl3 & Hlog3). cbn [s_bytes s_handler s_last s_log] in *.
    destruct (pop_message_spec c coll Hst (rx_recv (w_rx w2)) f m id pl (s0 ++ appended acts)) as (e3 & HP & R4 & _); auto.
    rewrite HP in H. cbn [bind] in H.
    assert (sim coll (w_set_recv e3 w2) (SState (s0 ++ appended acts) (handler_after acts (Some h)) (Some id) log1)) as Hs4.
    { split; [exact R4|]. apply Forall_app in HB3 as [_ HB3]. repeat split; auto. }
    destruct (IH _ _ _ _ _ Hs4 H) as (beh2 & s' & r & HT2 & HPr & Hsim & -> & HA2).
    { unfold trunc. apply Z.mod_pos_bound. reflexivity. }
    cbn [s_log] in *.
    set (beh := fun l : list delivery => if Nat.leb (length l) (length log1) then HResult acts false else beh2 l).
    assert (beh log1 = HResult acts false) as Eb1 by (unfold beh; rewrite Nat.leb_refl; reflexivity).
    assert (forall l, (length log1 < length l)%nat -> beh l = beh2 l) as Eb2.
    { intros l Hl'. unfold beh. destruct (Nat.leb_spec (length l) (length log1)); [lia|reflexivity]. }
    assert (Proc coll (little c) beh (SState (s0 ++ appended acts) (handler_after acts (Some h)) (Some id) log1) s' r) as HPr'.
    { apply (Proc_agree coll (little c) beh2 beh _ _ _ HPr). cbn [s_log]. intros l Hl'. symmetry. apply Eb2. lia. }
    exists beh, s', (option_map S r). split.
    { intros l a Ha. unfold beh in Ha. destruct (Nat.leb _ _); [exact (HTm a Ha)|exact (HT2 l a Ha)]. }
    split.
    { eapply (Proc_skips c); [eassumption|]. eapply (proc_frame coll (little c) beh f m id pl vs); try eassumption;
        fold d1; fold log1; rewrite Eb1; try reflexivity; assumption. }
    split; [exact Hsim|]. split.
    { destruct r as [k|]; [|reflexivity]. cbn [option_map]. f_equal.
      unfold trunc. change (2 ^ 8) with 256. rewrite Zplus_mod_idemp_l. f_equal. lia. }
    intros l d rest El HL.
    destruct (Nat.leb_spec (length log1) (length l)) as [HLL|HLL].
    + destruct (HA2 l d rest El HLL) as (f' & s'' & fd & G1 & G2 & G3). exists f', s'', fd. split; [exact G1|]. split; [exact G2|].
      rewrite Eb2; [exact G3|]. rewrite app_length. cbn [length]. lia.
    + assert (length log1 = S (length log)) as HL1 by (unfold log1; rewrite app_length; cbn [length]; lia).
      destruct (Proc_log_prefix _ _ _ _ _ _ HPr) as (new & Hnew). cbn [s_log] in Hnew.
      assert (log1 = l ++ [d]) as El1.
      { rewrite Hnew in El. change (d :: rest) with ([d] ++ rest) in El. rewrite app_assoc in El.
        assert (length log1 = length (l ++ [d])) as Elen by (rewrite app_length; cbn [length]; lia).
        assert (firstn (length log1) (log1 ++ new) = firstn (length log1) ((l ++ [d]) ++ rest)) as Ef by (rewrite El; reflexivity).
        rewrite firstn_app, Nat.sub_diag, firstn_all in Ef. cbn [firstn] in Ef. rewrite app_nil_r in Ef.
        rewrite Elen, firstn_app, Nat.sub_diag, firstn_all in Ef. cbn [firstn] in Ef. rewrite app_nil_r in Ef. exact Ef. }
      apply (Hthis beh Eb1 l d [] El1). lia.
Qed.

Lemma Step_agree beh beh' o s d s' r : Step coll (little c) beh o s d s' r ->
  (forall log, (length (s_log s) < length log <= length (s_log s'))%nat -> beh log = beh' log) ->
  Step coll (little c) beh' o s d s' r.
Proof.
  intros H HA. inversion H; subst; try (constructor; auto; fail).
  constructor. match goal with HP : Proc _ _ _ _ _ _ |- _ => apply (Proc_agree _ _ _ _ _ _ _ HP HA) end.
Qed.

Lemma Step_log beh o s d s' r : Step coll (little c) beh o s d s' r -> (length (s_log s) <= length (s_log s'))%nat.
Proof.
  intros H. inversion H; subst; cbn [s_log]; try lia.
  match goal with HP : Proc _ _ _ _ _ _ |- _ => destruct (Proc_log_prefix _ _ _ _ _ _ HP) as (new & Hn) end.
  cbn [s_log] in Hn. rewrite Hn, app_length. lia.
Qed.

Lemma allowed_sim o w v s : sim coll w s -> sim coll v s -> allowed coll o w -> allowed coll o v.
Proof.
  intros Hw Hv H. destruct o; auto. cbn [allowed] in *.
  rewrite (sim_available coll Hst _ _ Hv), <- (sim_available coll Hst _ _ Hw). exact H.
Qed.

(** A history under another behaviour that agrees on the calls made. *)
Lemma history_agree beh beh' h0 ops S rs w : tame beh -> tame beh' ->
  history c coll beh (start coll h0) ops S rs w ->
  (forall log, (length log <= length (w_log w))%nat -> beh log = beh' log) ->
  exists S' w' s, history c coll beh' (start coll h0) ops S' rs w' /\ sim coll w s /\ sim coll w' s.
Proof.
  intros Ht Ht' H. remember (start coll h0) as w0 eqn:E0. induction H as [w|w ops S rs w1 o r w2 H IH Ha (fuel & Hr)]; intros HA.
  - subst w. pose proof (start_sim coll Hst h0) as Hs. eexists. exists (start coll h0). eexists. split; [constructor|]. split; exact Hs.
  - specialize (IH E0). subst w.
    pose proof (history_sim c coll Hst Hsafe beh Ht _ _ _ _ _ H) as Hs1.
    destruct (step_sound c coll Hst beh fuel o w1 _ w2 r Ht Hsafe Hs1 Ha Hr) as (d & s2 & HS & Hs2).
    pose proof (Step_log _ _ _ _ _ _ HS) as HL. cbn [view s_log] in HL. rewrite (sim_log coll _ _ Hs2) in HL.
    destruct IH as (S' & v1 & s1 & HH & HV1 & HV2). { intros log Hl. apply HA. lia. }
    assert (s1 = view w1) as -> by (exact (sim_eta coll _ _ HV1)).
    pose proof (Step_agree beh beh' _ _ _ _ _ HS) as HS'.
    destruct (step_complete c coll Hst beh' (Datatypes.S (length (s_log s2))) o v1 _ d s2 r Ht' Hsafe HV2) as (v2 & E2 & Hv2).
    { eapply allowed_sim; [exact HV1|exact HV2|exact Ha]. }
    { apply HS'. cbn [view s_log]. rewrite (sim_log coll _ _ Hs2). intros log Hl. apply HA. lia. }
    { lia. }
    exists (S' ++ received coll beh' o v1 v2), v2, s2. split; [|split; assumption].
    eapply hist_snoc; [exact HH| |exists (Datatypes.S (length (s_log s2))); exact E2].
    eapply allowed_sim; [exact HV1|exact HV2|exact Ha].
Qed.

Lemma ask_history prog h0 ops rs w : (forall log, calm (prog log)) ->
  i_history c coll prog (start coll h0) ops rs w ->
  exists beh S v s, tame beh /\ history c coll beh (start coll h0) ops S rs v /\ sim coll w s /\ sim coll v s
    /\ asked prog beh 0 (w_log w).
Proof.
  intros HC H. remember (start coll h0) as w0 eqn:E0. induction H as [w|w ops rs w1 o r w2 H IH Ha (fuel & Hr)].
  - subst w. exists (fun _ => HResult [] false), [], (start coll h0). pose proof (start_sim coll Hst h0) as Hs. eexists.
    split; [intros l a []|]. split; [constructor|]. split; [exact Hs|]. split; [exact Hs|].
    intros l d rest E. exfalso. destruct l; discriminate E.
  - specialize (IH E0). subst w. destruct IH as (beh & S & v1 & s1 & Ht & HH & Hw1 & Hv1 & HA).
    assert (exists beh2 d s2, tame beh2 /\ Step coll (little c) beh2 o s1 d s2 r /\ sim coll w2 s2
              /\ asked prog beh2 (length (s_log s1)) (s_log s2)) as (beh2 & d & s2 & Ht2 & HS2 & Hw2 & HA2).
    { assert (o = OpProcess \/ o <> OpProcess) as [->|Ho] by (destruct o; auto; right; discriminate).
      - cbn [i_step] in Hr. unfold i_process_messages in Hr.
        destruct (rx_has_handler (w_rx w1)) eqn:Eh; cbn [negb] in Hr.
        + destruct (i_process_loop fuel c coll prog 0 w1) as [[w3 p]| | | |] eqn:EL; try discriminate. cbn [bind] in Hr. injection Hr as <- <-.
          destruct (ask_loop prog HC fuel 0 w1 s1 w3 p Hw1 EL ltac:(lia)) as (beh2 & s' & r & Ht2 & HP & Hs' & -> & HAs).
          exists beh2, [], s'. split; [exact Ht2|]. split; [|split; [exact Hs'|exact HAs]].
          destruct s1 as [X h last log]. pose proof (sim_functor coll _ _ Hw1) as Hf. cbn [s_handler] in Hf.
          unfold rx_has_handler in Eh. rewrite <- Hf in Eh. destruct h as [h|]; [|discriminate].
          replace (match r with Some k => Returned ((0 + Z.of_nat k) mod 256) | None => Threw end) with (spec_result r)
            by (destruct r; reflexivity).
          constructor. exact HP.
        + cbn [bind] in Hr. injection Hr as <- <-. exists beh, [], s1. split; [exact Ht|].
          destruct s1 as [X h last log]. pose proof (sim_functor coll _ _ Hw1) as Hf. cbn [s_handler] in Hf.
          unfold rx_has_handler in Eh. rewrite <- Hf in Eh. destruct h as [h|]; [discriminate|].
          split; [constructor|]. split; [exact Hw1|]. intros l dd rest El HL. exfalso. rewrite El, app_length in HL. cbn [length] in HL. lia.
      - assert (step fuel c coll beh o w1 = Ok (w2, r)) as Hr' by (destruct o; try exact Hr; congruence).
        destruct (step_sound c coll Hst beh fuel o w1 s1 w2 r Ht Hsafe Hw1 Ha Hr') as (d & s2 & HS & Hs2).
        exists beh, d, s2. split; [exact Ht|]. split; [exact HS|]. split; [exact Hs2|].
        assert (s_log s2 = s_log s1) as El by (inversion HS; subst; try reflexivity; congruence).
        intros l dd rest E HL. exfalso. rewrite El in E. rewrite E, app_length in HL. cbn [length] in HL. lia. }
    set (glued := fun log => if Nat.leb (length log) (length (s_log s1)) then beh log else beh2 log).
    assert (forall log, (length log <= length (s_log s1))%nat -> beh log = glued log) as G1.
    { intros log Hl. unfold glued. destruct (Nat.leb_spec (length log) (length (s_log s1))); [reflexivity|lia]. }
    assert (forall log, (length (s_log s1) < length log)%nat -> beh2 log = glued log) as G2.
    { intros log Hl. unfold glued. destruct (Nat.leb_spec (length log) (length (s_log s1))); [lia|reflexivity]. }
    assert (tame glued) as Htg.
    { intros log a Hi. unfold glued in Hi. destruct (Nat.leb _ _); [exact (Ht log a Hi)|exact (Ht2 log a Hi)]. }
    destruct (history_agree beh glued h0 ops S rs v1 Ht Htg HH) as (S' & v' & s0 & HH' & HV & HV').
    { intros log Hl. apply G1. rewrite (sim_log coll _ _ Hv1). exact Hl. }
    assert (s0 = s1) as ->.
    { rewrite (sim_eta coll _ _ HV). symmetry. exact (sim_eta coll _ _ Hv1). }
    assert (allowed coll o v') as Hav by (eapply allowed_sim; [exact Hw1|exact HV'|exact Ha]).
    destruct (step_complete c coll Hst glued (Datatypes.S (length (s_log s2))) o v' s1 d s2 r Htg Hsafe HV' Hav) as (v2 & E2 & Hv2).
    { eapply Step_agree; [exact HS2|]. intros log Hl. apply G2. lia. }
    { lia. }
    exists glued, (S' ++ received coll glued o v' v2), v2, s2. split; [exact Htg|].
    split; [eapply hist_snoc; [exact HH'|exact Hav|exists (Datatypes.S (length (s_log s2))); exact E2]|].
    split; [exact Hw2|]. split; [exact Hv2|].
    intros l dd rest El _. rewrite <- (sim_log coll _ _ Hw2) in El.
    destruct (Nat.leb_spec (length (s_log s1)) (length l)) as [HLL|HLL].
    + destruct (HA2 l dd rest El HLL) as (f & t & fd & K1 & K2 & K3). exists f, t, fd. split; [exact K1|]. split; [exact K2|].
      rewrite <- G2 by (rewrite app_length; cbn [length]; lia). exact K3.
    + assert (exists new, s_log s2 = s_log s1 ++ new) as (new & Hnew).
      { inversion HS2; subst; cbn [s_log]; try (exists []; symmetry; apply app_nil_r).
        match goal with HP : Proc _ _ _ _ _ _ |- _ => exact (Proc_log_prefix _ _ _ _ _ _ HP) end. }
      assert (exists rest', s_log s1 = l ++ dd :: rest') as (rest' & El1).
      { rewrite Hnew in El. clear -El HLL. revert l El HLL. induction (s_log s1) as [|x A IHA]; intros l El HLL; [cbn [length] in HLL; lia|].
        destruct l as [|y l]; cbn [app length] in *.
        - injection El as -> _. exists A. reflexivity.
        - injection El as -> El. destruct (IHA l El ltac:(lia)) as (rest' & ->). exists rest'. reflexivity. }
      rewrite (sim_log coll _ _ Hw1) in El1. destruct (HA l dd rest' El1 ltac:(lia)) as (f & t & fd & K1 & K2 & K3).
      exists f, t, fd. split; [exact K1|]. split; [exact K2|]. rewrite <- G1; [exact K3|].
      rewrite app_length. cbn [length]. lia.
Qed.

Lemma ask_lemma prog h0 ops rs w : (forall log, calm (prog log)) ->
  i_history c coll prog (start coll h0) ops rs w ->
  exists beh S v, tame beh /\ history c coll beh (start coll h0) ops S rs v /\ same_view coll w v
    /\ forall log d rest, w_log w = log ++ d :: rest ->
       exists f s fd, is_frame coll f (f_message fd) (f_id fd) (f_payload fd) /\ delivers (little c) fd d
         /\ asks coll (prog (log ++ [d])) (f ++ s) (Some (d_handler d)) (Some (f_id fd))
                 (hr_acts (beh (log ++ [d]))) (hr_throws (beh (log ++ [d]))).
Proof.
  intros HC H. destruct (ask_history prog h0 ops rs w HC H) as (beh & S & v & s & Ht & HH & Hw & Hv & HA).
  exists beh, S, v. split; [exact Ht|]. split; [exact HH|]. split.
  - pose proof (view_of coll _ _ Hw) as E. apply (same_view_sim coll Hst); rewrite E; assumption.
  - intros log d rest E. apply (HA log d rest E). lia.
Qed.

(** ** Handlers that keep to the space *)
Lemma play_complete proc : forall p, calm p -> forall w X h last log, sim coll w (SState X h last log) ->
  careful coll p X h last ->
  exists w' t, i_play c coll proc p w = Ok (w', t).
Proof.
  induction p as [t0|h' k IH|k IH|d k IH|a k IH|k IH|k IH|k IH|k IH]; intros HC w X h last log Hs HD;
    cbn [i_play calm careful] in *.
  - eauto.
  - eapply (IH HC _ X (Some h') last log); [|exact HD]. destruct Hs as (A1 & A2 & A3 & A4 & A5 & A6). repeat split; auto.
  - eapply (IH HC _ X None last log); [|exact HD]. destruct Hs as (A1 & A2 & A3 & A4 & A5 & A6). repeat split; auto.
  - destruct HC as (Hd & HC). destruct HD as (Hfit & HD). unfold rx_append, er_append.
    destruct Hs as (R & HB & Hf & Hi & Hl & Hlog). cbn [s_bytes s_handler s_last s_log] in *.
    destruct (rep_push_range c (capacity coll) (capacity_ok coll Hst) Hsafe (er_buf (rx_recv (w_rx w))) X d R) as (b' & -> & R'); [lia|].
    cbn [bind]. eapply (IH HC _ (X ++ d) h last log); [|exact HD]. repeat split; auto. apply Forall_app. auto.
  - destruct HC as (Ha & HC).
    destruct (receive_sim c coll Hst a w _ Hsafe Ha Hs) as (r & E & Hs1). cbn [s_bytes s_handler s_last s_log] in *.
    fold (delivered a (capacity coll - zlen X)) in E, Hs1. rewrite E. cbn [bind].
    exact (IH _ (HC _) _ _ _ _ _ Hs1 HD).
  - contradiction.
  - rewrite (sim_available coll Hst _ _ Hs). cbn [s_bytes]. exact (IH _ (HC _) _ _ _ _ _ Hs HD).
  - rewrite <- (sim_last coll _ _ Hs). cbn [s_last]. exact (IH _ (HC _) _ _ _ _ _ Hs HD).
  - unfold rx_has_handler. rewrite <- (sim_functor coll _ _ Hs). cbn [s_handler]. exact (IH _ (HC _) _ _ _ _ _ Hs HD).
Qed.

Lemma careful_handler p X h last acts t : asks coll p X h last acts t -> careful coll p X h last -> handler_after acts h <> None.
Proof. induction 1; intros HD; cbn [careful] in HD; auto; try (apply IHasks; apply HD). Qed.

Lemma careful_loop prog : (forall log, calm (prog log)) -> bool_free coll ->
  (forall log X h id, zlen X <= capacity coll -> careful coll (prog log) X (Some h) (Some id)) ->
  forall fuel n w s, sim coll w s -> s_handler s <> None ->
  (exists w' p, i_process_loop fuel c coll prog n w = Ok (w', p)) \/ i_process_loop fuel c coll prog n w = Hang.
Proof.
  intros HC Hb HD. induction fuel as [|fuel IH]; intros n w s Hs Hh; [right; reflexivity|].
  cbn [i_process_loop].
  destruct (check_sim c coll Hst w s Hs) as (ok & e & Y & -> & HS & Hs1 & HY). cbn [bind].
  destruct s as [X h last log]. cbn [s_bytes s_handler s_last s_log] in *.
  destruct ok; cbn [negb]; [|left; eauto].
  destruct HY as (f & m & id & pl & s0 & -> & F & Hid).
  unfold er_current_id. rewrite Hid. cbn [bind].
  set (w1 := w_set_last id (w_set_recv e w)).
  assert (sim coll w1 (SState (f ++ s0) h (Some id) log)) as Hs2.
  { destruct Hs1 as (A1 & A2 & A3 & A4 & A5 & A6). repeat split; auto. }
  assert (rx_recv (w_rx w1) = e) as He by reflexivity.
  unfold i_invoke. pose proof Hs2 as (R & HB & Hf & Hi & Hl & Hlog). cbn [s_bytes s_handler s_last s_log] in *.
  rewrite Hf, Hi. destruct h as [h|]; [|congruence]. cbn [option_map]. rewrite Z.eqb_refl. cbn [negb].
  destruct (scan_total coll s0) as (ms & r0 & HS0).
  pose proof (bool_free_decodable c coll Hst (f ++ s0) Hb HB _ _ (scan_frame _ _ _ _ _ _ _ _ F HS0)) as HDec.
  pose proof (Forall_inv HDec) as (vs & E). cbn [f_message f_payload] in E.
  rewrite (deserialize_message_complete c coll Hst _ _ _ _ _ _ _ R F E). cbn [bind].
  rewrite Hlog. set (log1 := log ++ [Delivery h m vs]).
  match goal with |- context [i_play c coll ?p _ _] => set (pr := p) end.
  assert (sim coll (World (w_rx w1) log1) (SState (f ++ s0) (Some h) (Some id) log1)) as Hs3 by (repeat split; auto).
  assert (zlen (f ++ s0) <= capacity coll) as Hfit by exact (rep_size_le _ _ _ R).
  pose proof (HD log1 (f ++ s0) h id Hfit) as HDk.
  destruct (play_complete pr _ (HC log1) _ _ _ _ _ Hs3 HDk) as (w2 & t & RA). rewrite RA. cbn [bind].
  destruct (play_sound pr _ (HC log1) _ _ _ _ _ _ _ Hs3 RA) as (acts & HA & HT & Hs4 & Hid2).
  destruct t; [left; eauto|].
  cbn [w_rx] in Hid2. rewrite He, Hid in Hid2. rewrite <- app_assoc in Hs4.
  pose proof Hs4 as (R3 & HB3 & Hf3 & Hi3 & Hl3 & Hlog3). cbn [s_bytes s_handler s_last s_log] in *.
  destruct (pop_message_spec c coll Hst (rx_recv (w_rx w2)) f m id pl (s0 ++ appended acts)) as (e3 & -> & R4 & _); auto.
  cbn [bind]. apply (IH _ (w_set_recv e3 w2) (SState (s0 ++ appended acts) (handler_after acts (Some h)) (Some id) log1)).
  - split; [exact R4|]. apply Forall_app in HB3 as [_ HB3]. repeat split; auto.
  - cbn [s_handler]. eapply careful_handler; [exact HA|exact HDk].
Qed.

Lemma careful_lemma prog h0 ops rs w fuel : (forall log, calm (prog log)) -> bool_free coll ->
  (forall log X h id, zlen X <= capacity coll -> careful coll (prog log) X (Some h) (Some id)) ->
  i_history c coll prog (start coll h0) ops rs w ->
  (exists w' r, i_step fuel c coll prog OpProcess w = Ok (w', r)) \/ i_step fuel c coll prog OpProcess w = Hang.
Proof.
  intros HC Hb HD H. destruct (ask_history prog h0 ops rs w HC H) as (beh & S & v & s & Ht & HH & Hw & Hv & HA).
  cbn [i_step]. unfold i_process_messages. destruct (rx_has_handler (w_rx w)) eqn:Eh; cbn [negb].
  - destruct (careful_loop prog HC Hb HD fuel 0 w s Hw) as [(w' & p & E)|E].
    + rewrite (sim_functor coll _ _ Hw). unfold rx_has_handler in Eh. destruct (rx_functor (w_rx w)); congruence.
    + rewrite E. left. cbn [bind]. eauto.
    + rewrite E. right. reflexivity.
  - left. cbn [bind]. eauto.
Qed.
End Ask.
