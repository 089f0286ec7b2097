(** Histories of calls on a receiver. *)
From Verif Require Export ReceiverProofs.

(** ** Scanner-level meaning of consumption *)
Lemma consumed_nil coll : Consumed coll [] [] [].
Proof. intros T ms r H. exact H. Qed.

Lemma consumed_append coll S ms X d : Consumed coll S ms X -> Consumed coll (S ++ d) ms (X ++ d).
Proof. intros H T ms' r HS. rewrite <- app_assoc in *. apply H, HS. Qed.

Lemma consumed_skip coll S ms b X : Consumed coll S ms (b :: X) -> no_frame coll b X ->
  Consumed coll S ms X.
Proof.
  intros H D T ms' r HS. apply H. cbn [app].
  destruct (dead_app coll b X T D) as [D1 D2]. apply scan_skip; assumption.
Qed.

Lemma consumed_frame coll S ms f m id p s : Consumed coll S ms (f ++ s) -> is_frame coll f m id p ->
  Consumed coll S (ms ++ [Found m id p]) s.
Proof.
  intros H F T ms' r HS. rewrite <- app_assoc. apply H. rewrite <- app_assoc. cbn [app].
  apply scan_frame; assumption.
Qed.

Lemma consumed_scan coll S ms X : Consumed coll S ms X -> undecided coll X -> Scan coll S ms X.
Proof.
  intros H U. specialize (H [] [] X). rewrite !app_nil_r in H. apply H, scan_wait, U.
Qed.

(** ** Facts about specification processing *)

Section Proc.
Context (coll : collection) (little : bool) (beh : hbehav).

Lemma Proc_consumed s s' r : Proc coll little beh s s' r -> forall S ms,
  Consumed coll S ms (s_bytes s) ->
  exists new ms', s_log s' = s_log s ++ new
    /\ Consumed coll (S ++ appended_by beh (s_log s) new) (ms ++ ms') (s_bytes s')
    /\ Forall2 (delivers little) ms' (completed beh (s_log s) new).
Proof.
  induction 1 as [X h last log U | b X h last log s' r D HP IH
                 | f m id p vs s h last log s' r F E log1 acts HT Hfit HP IH
                 | f m id p vs s h last log F E log1 acts HT Hfit]; intros S0 ms HC; cbn [s_bytes s_log] in *.
  - exists [], []. cbn [appended_by completed]. rewrite !app_nil_r. auto.
  - apply IH. eapply consumed_skip; eassumption.
  - apply (consumed_frame _ _ _ f m id p s) in HC; [|assumption].
    apply (consumed_append _ _ _ _ (appended acts)) in HC.
    destruct (IH _ _ HC) as (new & ms' & H1 & H2 & H3).
    exists (Delivery h m vs :: new), (Found m id p :: ms'). fold log1. fold acts.
    split; [rewrite H1; unfold log1; rewrite <- app_assoc; reflexivity|].
    cbn [appended_by completed]. fold log1. fold acts. rewrite HT. split.
    + rewrite <- !app_assoc in H2. cbn [app] in H2. exact H2.
    + cbn [app]. constructor; [|assumption]. split; [reflexivity | exact E].
  - exists [Delivery h m vs], []. fold log1. split; [reflexivity|].
    cbn [appended_by completed]. fold log1. fold acts. rewrite HT, !app_nil_r. cbn [app].
    split; [|constructor]. rewrite app_assoc. apply consumed_append, HC.
Qed.

Lemma Proc_returned_undecided s s' n : Proc coll little beh s s' (Some n) -> undecided coll (s_bytes s').
Proof.
  intros H. remember (Some n) as r eqn:Er. revert n Er.
  induction H as [X h last log U | b X h last log s' r D HP IH
                 | f m id p vs s h last log s' r F E log1 acts HT Hfit HP IH
                 | f m id p vs s h last log F E log1 acts HT Hfit]; intros n0 Er; try discriminate.
  - assumption.
  - eauto.
  - destruct r as [k|]; [|discriminate]. eauto.
Qed.

(** Number of messages. *)
Lemma Proc_count s s' r : Proc coll little beh s s' r ->
  match r with Some n => length (s_log s') = (length (s_log s) + n)%nat | None => True end.
Proof.
  induction 1 as [X h last log U | b X h last log s' r D HP IH
                 | f m id p vs s h last log s' r F E log1 acts HT Hfit HP IH
                 | f m id p vs s h last log F E log1 acts HT Hfit]; cbn [s_log] in *; auto.
  destruct r; cbn [option_map]; [|exact I]. rewrite IH. unfold log1. rewrite app_length. simpl. lia.
Qed.

Lemma Proc_log_prefix s s' r : Proc coll little beh s s' r -> exists new, s_log s' = s_log s ++ new.
Proof.
  induction 1 as [X h last log U | b X h last log s' r D HP IH
                 | f m id p vs s h last log s' r F E log1 acts HT Hfit HP IH
                 | f m id p vs s h last log F E log1 acts HT Hfit]; cbn [s_log] in *.
  - exists []. rewrite app_nil_r. reflexivity.
  - assumption.
  - destruct IH as (new & ->). unfold log1. rewrite <- app_assoc. eauto.
  - unfold log1. eauto.
Qed.

(** All calls completed when processing returned; only the last did not when it threw. *)
Lemma Proc_completed s s' r : Proc coll little beh s s' r ->
  forall new, s_log s' = s_log s ++ new ->
  match r with
  | Some _ => completed beh (s_log s) new = new
  | None => exists pre d, new = pre ++ [d] /\ completed beh (s_log s) new = pre
                          /\ hr_throws (beh (s_log s')) = true
  end.
Proof.
  induction 1 as [X h last log U | b X h last log s' r D HP IH
                 | f m id p vs s h last log s' r F E log1 acts HT Hfit HP IH
                 | f m id p vs s h last log F E log1 acts HT Hfit]; intros new Hn; cbn [s_log] in *.
  - rewrite <- (app_nil_r log) in Hn at 1. apply app_inv_head in Hn. subst new. reflexivity.
  - exact (IH new Hn).
  - destruct (Proc_log_prefix _ _ _ HP) as (new' & Hn'). cbn [s_log] in Hn'. rewrite Hn' in Hn.
    unfold log1 in Hn at 1. rewrite <- app_assoc in Hn. apply app_inv_head in Hn. subst new.
    specialize (IH new' Hn'). cbn [app completed]. fold log1. rewrite HT.
    destruct r as [k|]; cbn [option_map app].
    + rewrite IH. reflexivity.
    + destruct IH as (pre & d & -> & H2 & H3). exists (Delivery h m vs :: pre), d. rewrite H2. auto.
  - unfold log1 in Hn at 1. apply app_inv_head in Hn. subst new. exists [], (Delivery h m vs).
    cbn [completed app]. fold log1. rewrite HT. auto.
Qed.

(** The bytes held afterwards are a suffix of those before plus those appended. *)
Lemma Proc_suffix s s' r : Proc coll little beh s s' r ->
  forall new, s_log s' = s_log s ++ new ->
  exists K, s_bytes s ++ appended_by beh (s_log s) new = K ++ s_bytes s'.
Proof.
  induction 1 as [X h last log U | b X h last log s' r D HP IH
                 | f m id p vs s h last log s' r F E log1 acts HT Hfit HP IH
                 | f m id p vs s h last log F E log1 acts HT Hfit]; intros new Hn; cbn [s_log s_bytes] in *.
  - rewrite <- (app_nil_r log) in Hn at 1. apply app_inv_head in Hn. subst new. exists []. cbn. apply app_nil_r.
  - destruct (IH new Hn) as (K & HK). exists (b :: K). cbn [app]. rewrite HK. reflexivity.
  - destruct (Proc_log_prefix _ _ _ HP) as (new' & Hn'). cbn [s_log] in Hn'. rewrite Hn' in Hn.
    unfold log1 in Hn at 1. rewrite <- app_assoc in Hn. apply app_inv_head in Hn. subst new.
    destruct (IH new' Hn') as (K & HK). exists (f ++ K). cbn [app appended_by]. fold log1. fold acts.
    rewrite <- app_assoc in HK. rewrite <- !app_assoc, HK. reflexivity.
  - unfold log1 in Hn at 1. apply app_inv_head in Hn. subst new. exists []. cbn [app appended_by].
    fold log1. fold acts. rewrite app_nil_r, <- app_assoc. reflexivity.
Qed.

(** Last message id. *)
Lemma Proc_last s s' r : Proc coll little beh s s' r ->
  forall new, s_log s' = s_log s ++ new ->
  (new = [] /\ s_last s' = s_last s)
  \/ exists pre d id, new = pre ++ [d] /\ s_last s' = Some id /\ has_id coll (d_message d) id.
Proof.
  induction 1 as [X h last log U | b X h last log s' r D HP IH
                 | f m id p vs s h last log s' r F E log1 acts HT Hfit HP IH
                 | f m id p vs s h last log F E log1 acts HT Hfit]; intros new Hn; cbn [s_log s_bytes s_last] in *.
  - rewrite <- (app_nil_r log) in Hn at 1. apply app_inv_head in Hn. subst new. auto.
  - exact (IH new Hn).
  - right. destruct (Proc_log_prefix _ _ _ HP) as (new' & Hn'). cbn [s_log] in Hn'. rewrite Hn' in Hn.
    unfold log1 in Hn at 1. rewrite <- app_assoc in Hn. apply app_inv_head in Hn. subst new.
    destruct (IH new' Hn') as [[-> HL]|(pre & d & id' & -> & HL & Hid)].
    + exists [], (Delivery h m vs), id. split; [reflexivity|]. split; [assumption | apply F].
    + exists (Delivery h m vs :: pre), d, id'. auto.
  - unfold log1 in Hn at 1. apply app_inv_head in Hn. subst new. right.
    exists [], (Delivery h m vs), id. split; [reflexivity|]. split; [reflexivity | apply F].
Qed.

(** Each call goes to the handler in place at that time. *)
Lemma Proc_served s s' r : Proc coll little beh s s' r ->
  forall new, s_log s' = s_log s ++ new -> served beh (s_log s) (s_handler s) new (s_handler s').
Proof.
  induction 1 as [X h last log U | b X h last log s' r D HP IH
                 | f m id p vs s h last log s' r F E log1 acts HT Hfit HP IH
                 | f m id p vs s h last log F E log1 acts HT Hfit]; intros new Hn; cbn [s_log s_bytes s_last s_handler] in *.
  - rewrite <- (app_nil_r log) in Hn at 1. apply app_inv_head in Hn. subst new. reflexivity.
  - exact (IH new Hn).
  - destruct (Proc_log_prefix _ _ _ HP) as (new' & Hn'). cbn [s_log] in Hn'. rewrite Hn' in Hn.
    unfold log1 in Hn at 1. rewrite <- app_assoc in Hn. apply app_inv_head in Hn. subst new.
    cbn [app served d_handler]. split; [reflexivity|]. apply IH, Hn'.
  - unfold log1 in Hn at 1. apply app_inv_head in Hn. subst new. cbn [served d_handler]. split; reflexivity.
Qed.

(** After a throw the message is still at the front. *)
Lemma Proc_threw s s' : Proc coll little beh s s' None ->
  exists f m id p rest d pre, s_bytes s' = f ++ rest /\ is_frame coll f m id p
    /\ s_log s' = pre ++ [d] /\ d_message d = m /\ encodes little (mt_fields m) (d_values d) p
    /\ s_last s' = Some id.
Proof.
  intros H. remember None as r eqn:Er.
  induction H as [X h last log U | b X h last log s' r D HP IH
                 | f m id p vs s h last log s' r F E log1 acts HT Hfit HP IH
                 | f m id p vs s h last log F E log1 acts HT Hfit]; try discriminate; auto.
  - destruct r; [discriminate|]. auto.
  - exists f, m, id, p, (s ++ appended acts), (Delivery h m vs), log. cbn [s_bytes s_log s_last d_message d_values].
    repeat split; auto; apply E || apply F.
Qed.
End Proc.

Lemma Proc_front_frame coll little beh f m id p s h last log vs s' r : Forall fty_ok (mt_fields m) ->
  is_frame coll f m id p -> encodes little (mt_fields m) vs p ->
  Proc coll little beh (SState (f ++ s) (Some h) last log) s' r ->
  exists new, s_log s' = log ++ Delivery h m vs :: new.
Proof.
  intros Hty F E HP.
  inversion HP as [? ? ? ? U | ? ? ? ? ? ? ? D HP' EQ | f' m' id' p' vs' ? h0 ? ? ? r' F' E' ? ? HT Hfit HP' EQ
                    | f' m' id' p' vs' ? h0 ? ? F' E' ? ? HT Hfit EQ]; subst.
  - exfalso. eapply frame_not_undecided; eassumption.
  - exfalso. destruct D as [_ D]. eapply D; eassumption.
  - destruct (is_frame_unique _ _ _ _ _ _ _ _ _ _ _ F F' (eq_sym EQ)) as (<- & <- & <- & <- & <-).
    assert (vs' = vs) as -> by (eapply (encodes_unique (Config 32 little Aborting Aborting Aborting)); eassumption).
    destruct (Proc_log_prefix _ _ _ _ _ _ HP') as (new & Hn). cbn [s_log] in Hn. exists new.
    rewrite Hn. unfold log1. rewrite <- app_assoc. reflexivity.
  - destruct (is_frame_unique _ _ _ _ _ _ _ _ _ _ _ F F' (eq_sym EQ)) as (<- & <- & <- & <- & <-).
    assert (vs' = vs) as -> by (eapply (encodes_unique (Config 32 little Aborting Aborting Aborting)); eassumption).
    exists []. reflexivity.
Qed.

(** ** Existence: processing with steady handlers on decodable bytes *)

Lemma steady_appended beh log : steady beh -> appended (hr_acts (beh log)) = [].
Proof.
  intros H. specialize (H log). induction (hr_acts (beh log)) as [|a acts IH]; [reflexivity|].
  unfold appended. cbn [map concat]. destruct (H a (or_introl eq_refl)) as (h & ->). apply IH.
  intros a' Ha. apply H. right. assumption.
Qed.

Lemma steady_handler beh log h : steady beh -> exists h', handler_after (hr_acts (beh log)) (Some h) = Some h'.
Proof.
  intros H. specialize (H log). revert h. induction (hr_acts (beh log)) as [|a acts IH]; intros h; [simpl; eauto|].
  unfold handler_after. cbn [fold_left]. destruct (H a (or_introl eq_refl)) as (h' & ->). apply IH.
  intros a' Ha. apply H. right. assumption.
Qed.

Lemma steady_tame beh : steady beh -> tame beh.
Proof. intros H log a Ha. destruct (H log a Ha) as (h & ->). exact I. Qed.

Lemma decodable_tail coll little b X : no_frame coll b X -> decodable coll little (b :: X) -> decodable coll little X.
Proof. intros [D1 D2] H ms r HS. eapply H. apply scan_skip; eassumption. Qed.

Lemma decodable_frame coll little f m id p s : is_frame coll f m id p -> decodable coll little (f ++ s) ->
  (exists vs, encodes little (mt_fields m) vs p) /\ decodable coll little s.
Proof.
  intros F H. split.
  - destruct (scan_total coll s) as (ms & r & HS).
    specialize (H _ _ (scan_frame _ _ _ _ _ _ _ _ F HS)). inversion H; subst. assumption.
  - intros ms r HS. specialize (H _ _ (scan_frame _ _ _ _ _ _ _ _ F HS)). inversion H; subst. assumption.
Qed.

Lemma Proc_steady_exists coll little beh : steady beh -> forall n X h last log, (length X <= n)%nat ->
  zlen X <= capacity coll -> decodable coll little X ->
  exists s' r, Proc coll little beh (SState X (Some h) last log) s' r
               /\ (length (s_log s') <= length log + length X)%nat.
Proof.
  intros Hst n. induction n as [|n IH]; intros X h last log HL Hfit HD.
  - destruct X; [|simpl in HL; lia]. eexists. eexists. split; [apply proc_wait; exact I|]. cbn [s_log]. lia.
  - destruct (classify coll X) as [U|[(f & m & id & p & s & F & ->)|(b & s & -> & D)]].
    + eexists. eexists. split; [apply proc_wait; exact U|]. cbn [s_log]. lia.
    + destruct (decodable_frame _ _ _ _ _ _ _ F HD) as ((vs & E) & HD').
      set (log1 := log ++ [Delivery h m vs]).
      pose proof (is_frame_length _ _ _ _ _ F) as HFL. pose proof (frame_size_ge5 (mc_env coll) m) as H5.
      rewrite app_length in HL |- *.
      destruct (hr_throws (beh log1)) eqn:HT.
      * eexists. eexists. split.
        -- eapply proc_throw; try eassumption. fold log1. rewrite steady_appended by assumption.
           rewrite app_nil_r. assumption.
        -- cbn [s_log]. rewrite app_length. simpl length. lia.
      * destruct (steady_handler beh log1 h Hst) as (h' & Hh').
        destruct (IH s h' (Some id) log1) as (s' & r & HP & HLL); auto.
        { lia. }
        { rewrite zlen_app in Hfit. pose proof (zlen_nonneg f). lia. }
        exists s', (option_map S r). split.
        -- eapply proc_frame; try eassumption; fold log1; rewrite steady_appended by assumption;
             rewrite ?app_nil_r; [assumption|]. rewrite Hh'. assumption.
        -- unfold log1 in HLL. rewrite app_length in HLL. simpl length in HLL. lia.
    + destruct (IH s h last log) as (s' & r & HP & HLL).
      { simpl in HL. lia. }
      { rewrite zlen_cons in Hfit. lia. }
      { eapply decodable_tail; eassumption. }
      exists s', r. split; [apply proc_skip; assumption|]. simpl length. lia.
Qed.

(** ** Histories *)
Section Hist.
Context (c : config) (coll : collection) (Hst : static_ok coll = true) (Hsafe : index_safe c (capacity coll)).

Lemma held_sim w s : sim coll w s -> held w = s_bytes s.
Proof. intros (R & _). apply (rep_bytes _ _ _ R). Qed.

Lemma start_sim h : sim coll (start coll h) (SState [] h None []).
Proof.
  destruct h; repeat split; try constructor; apply (rep_init _ (capacity_ok coll Hst)).
Qed.

Lemma new_calls_app w w' new : w_log w' = w_log w ++ new -> new_calls w w' = new.
Proof. intros H. unfold new_calls. rewrite H. apply skipn_app_exact. reflexivity. Qed.

Lemma received_sim beh o w w' s s' d r : tame beh -> sim coll w s -> sim coll w' s' ->
  Step coll (little c) beh o s d s' r ->
  exists new, s_log s' = s_log s ++ new
    /\ received coll beh o w w' = match o with OpProcess => appended_by beh (s_log s) new | _ => d end
    /\ match o with OpProcess => True | _ => new = [] /\ s_bytes s' = s_bytes s ++ d /\ s_last s' = s_last s end.
Proof.
  intros Ht Hs Hs' HS. pose proof (sim_available coll Hst w s Hs) as Hav.
  destruct Hs as (_ & _ & _ & _ & _ & Hlog). destruct Hs' as (_ & _ & _ & _ & _ & Hlog').
  inversion HS; subst; cbn [s_log s_bytes s_last received] in *;
    try (exists []; rewrite ?app_nil_r; repeat split; rewrite ?app_nil_r; reflexivity).
  - exists []. rewrite app_nil_r, Hav. repeat split; reflexivity.
  - exists []. rewrite app_nil_r. split; [reflexivity|]. split; [|exact I].
    rewrite (new_calls_app w w' []); [reflexivity|]. rewrite app_nil_r. congruence.
  - match goal with HP : Proc _ _ _ _ _ _ |- _ => destruct (Proc_log_prefix _ _ _ _ _ _ HP) as (new & Hn) end.
    exists new. split; [assumption|]. split; [|exact I].
    rewrite Hlog. f_equal. apply new_calls_app. rewrite Hlog, Hlog', Hn. reflexivity.
Qed.

(** The invariant of every history. *)
Lemma history_inv beh : tame beh -> forall w0 s0 ops S rs w, sim coll w0 s0 ->
  s_bytes s0 = [] -> s_log s0 = [] ->
  history c coll beh w0 ops S rs w ->
  exists s ms, sim coll w s /\ Consumed coll S ms (s_bytes s)
    /\ Forall2 (delivers (little c)) ms (completed beh [] (s_log s)).
Proof.
  intros Ht w0 s0 ops S rs w Hs0 HX HL H. revert s0 Hs0 HX HL.
  induction H as [w|w ops S rs w1 o r w2 H IH Ha (fuel & Hr)]; intros s0 Hs0 HX HL.
  - exists s0, []. split; [assumption|]. rewrite HX, HL. split; [apply consumed_nil | constructor].
  - destruct (IH s0 Hs0 HX HL) as (s1 & ms & Hs1 & HC & HF).
    destruct (step_sound c coll Hst beh fuel o w1 s1 w2 r Ht Hsafe Hs1 Ha Hr) as (d & s2 & HS & Hs2).
    destruct (received_sim beh o w1 w2 s1 s2 d r Ht Hs1 Hs2 HS) as (new & Hn & -> & Hx).
    assert (completed beh [] (s_log s2) = completed beh [] (s_log s1) ++ completed beh (s_log s1) new) as HCN.
    { rewrite Hn. clear. change (s_log s1) with ([] ++ s_log s1) at 3. generalize (@nil delivery).
      induction (s_log s1) as [|x l IH]; intros pre; cbn [app completed].
      - rewrite app_nil_r. reflexivity.
      - rewrite <- app_assoc. f_equal. rewrite (IH (pre ++ [x])). rewrite <- app_assoc. reflexivity. }
    destruct o; try (destruct Hx as (-> & HX2 & _); exists s2, ms; split; [assumption|]; split;
                     [rewrite HX2; apply consumed_append, HC | rewrite HCN; cbn [completed]; rewrite app_nil_r; assumption]).
    inversion HS; subst.
    + exists (SState X None last log), ms. cbn [s_log s_bytes] in *.
      assert (new = []) as ->. { rewrite <- (app_nil_r log) in Hn at 1. apply app_inv_head in Hn. auto. }
      split; [assumption|]. cbn [appended_by]. rewrite app_nil_r. split; [assumption|].
      rewrite HCN. cbn [completed]. rewrite app_nil_r. assumption.
    + match goal with HP : Proc _ _ _ _ _ _ |- _ =>
        destruct (Proc_consumed _ _ _ _ _ _ HP _ _ HC) as (new' & ms' & Hn' & HC' & HF') end.
      cbn [s_log] in *. assert (new' = new) as -> by (rewrite Hn in Hn'; apply app_inv_head in Hn'; auto).
      exists s2, (ms ++ ms'). split; [assumption|]. split; [assumption|]. rewrite HCN. apply Forall2_app; assumption.
Qed.

(** Same observations from worlds holding the same bytes. *)
Lemma history_transfer c2 beh : tame beh -> little c2 = little c -> index_safe c2 (capacity coll) ->
  forall w ops S rs w' v s, sim coll w s -> sim coll v s ->
  history c coll beh w ops S rs w' ->
  exists v' s', history c2 coll beh v ops S rs v' /\ sim coll w' s' /\ sim coll v' s'.
Proof.
  intros Ht HE Hs2 w ops S rs w' v s Hw Hv H. revert s v Hw Hv.
  induction H as [w|w ops S rs w1 o r w2 H IH Ha (fuel & Hr)]; intros s v Hw Hv.
  - exists v, s. split; [constructor|]. auto.
  - destruct (IH s v Hw Hv) as (v1 & s1 & Hh & Hw1 & Hv1).
    destruct (step_sound c coll Hst beh fuel o w1 s1 w2 r Ht Hsafe Hw1 Ha Hr) as (d & s2 & HS & Hw2).
    assert (allowed coll o v1) as Ha2.
    { destruct o; auto. cbn [allowed] in *. rewrite (sim_available coll Hst _ _ Hw1) in Ha.
      rewrite (sim_available coll Hst _ _ Hv1). assumption. }
    rewrite <- HE in HS.
    destruct (step_complete c2 coll Hst beh (1 + (length (s_log s2) - length (s_log s1)))%nat o v1 s1 d s2 r Ht Hs2 Hv1 Ha2 HS)
      as (v2 & Hr2 & Hv2); [lia|].
    exists v2, s2. split; [|auto].
    assert (received coll beh o w1 w2 = received coll beh o v1 v2) as ->.
    { destruct o; try reflexivity.
      - cbn [received]. rewrite (sim_available coll Hst _ _ Hw1), (sim_available coll Hst _ _ Hv1). reflexivity.
      - cbn [received]. unfold new_calls. destruct Hw1 as (_ & _ & _ & _ & _ & ->). destruct Hv1 as (_ & _ & _ & _ & _ & ->).
        destruct Hw2 as (_ & _ & _ & _ & _ & ->). destruct Hv2 as (_ & _ & _ & _ & _ & ->). reflexivity. }
    eapply hist_snoc; eauto. eexists. eassumption.
Qed.

Lemma history_app beh w ops1 S1 rs1 w1 ops2 S2 rs2 w2 :
  history c coll beh w ops1 S1 rs1 w1 -> history c coll beh w1 ops2 S2 rs2 w2 ->
  history c coll beh w (ops1 ++ ops2) (S1 ++ S2) (rs1 ++ rs2) w2.
Proof.
  intros H1 H2. revert H1. induction H2; intros H1.
  - rewrite !app_nil_r. assumption.
  - rewrite !app_assoc. eapply hist_snoc; eauto.
Qed.

(** Every allowed call returns: steady handlers, decodable content. *)
Lemma step_progress beh o w s fuel : steady beh -> sim coll w s -> allowed coll o w ->
  decodable coll (little c) (s_bytes s) -> (Z.to_nat (capacity coll) < fuel)%nat ->
  exists w' r, step fuel c coll beh o w = Ok (w', r).
Proof.
  intros Hb Hs Ha HD Hf. pose proof (steady_tame _ Hb) as Ht.
  assert (zlen (s_bytes s) <= capacity coll) as Hfit. { destruct Hs as (R & _). exact (rep_size_le _ _ _ R). }
  assert (exists d s' r, Step coll (little c) beh o s d s' r
            /\ (length (s_log s') - length (s_log s) < fuel)%nat) as (d & s' & r & HS & HF).
  { destruct s as [X h last log]. cbn [s_bytes] in *.
    destruct o as [h'| |d|a|].
    - do 3 eexists. split; [constructor|]. cbn [s_log]. lia.
    - do 3 eexists. split; [constructor|]. cbn [s_log]. lia.
    - do 3 eexists. split; [constructor|].
      + destruct Ha as [_ Ha]. rewrite (sim_available coll Hst _ _ Hs) in Ha. cbn [s_bytes] in Ha. lia.
      + cbn [s_log]. lia.
    - do 3 eexists. split; [constructor; reflexivity|]. cbn [s_log]. lia.
    - destruct h as [h|].
      + destruct (Proc_steady_exists coll (little c) beh Hb (length X) X h last log) as (s' & r & HP & HL); auto.
        do 3 eexists. split; [constructor; exact HP|]. cbn [s_log]. unfold zlen in Hfit. lia.
      + do 3 eexists. split; [constructor|]. cbn [s_log]. lia. }
  destruct (step_complete c coll Hst beh fuel o w s d s' r Ht Hsafe Hs Ha HS HF) as (w' & H & _). eauto.
Qed.
End Hist.
