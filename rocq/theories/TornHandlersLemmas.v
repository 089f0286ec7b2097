(** Interrupts and the handler. *)
From Verif Require Import ReceiverProofs HistoryProofs ScanProofs OperationLemmas PolledSeparate Runs.
From Verif Require Export TornHandlers ReceiverLemmas.

Definition change_op (to : option handler) : op := match to with Some h => OpSetHandler h | None => OpClearHandler end.

(** ** processMessages in the midst of setHandler *)
Section Change.
Context (c : config) (coll : collection) (Hst : static_ok coll = true) (Hsafe : index_safe c (capacity coll)).
Context (beh : hbehav) (Hq : forall log, hr_acts (beh log) = []) (Hbf : bool_free coll).
Context (fuel : nat) (Hfuel : (Z.to_nat (capacity coll) < fuel)%nat).

Lemma idle_steady : steady beh.
Proof. intros log a H. rewrite Hq in H. destruct H. Qed.
Let Hb : steady beh := idle_steady.
Let Ht : tame beh := steady_tame _ Hb.

Lemma proc_keeps_handler little s s' r : Proc coll little beh s s' r -> s_handler s' = s_handler s.
Proof.
  induction 1; cbn [s_handler] in *; try reflexivity; try assumption.
  - rewrite IHProc. unfold acts. rewrite Hq. reflexivity.
  - unfold acts. rewrite Hq. reflexivity.
Qed.

(** A call of processMessages that is made apart. *)
Lemma whole_call w : sim coll w (view w) -> exists w3 p, process_messages fuel c coll beh w = Ok (w3, p) /\ sim coll w3 (view w3)
  /\ rx_functor (w_rx w3) = rx_functor (w_rx w) /\ history c coll beh w [OpProcess] [] [RetProcess p] w3.
Proof.
  intros Hs.
  destruct (step_progress c coll Hst Hsafe beh OpProcess w (view w) fuel Hb Hs I) as (w3 & r & E).
  { apply (bool_free_decodable c coll Hst); [assumption | apply (sim_bytes_ok coll _ _ Hs)]. } { assumption. }
  destruct (step_sound c coll Hst beh fuel OpProcess w (view w) w3 r Ht Hsafe Hs I E) as (d & s2 & HS & Hs2).
  pose proof E as E'. cbn [step] in E.
  destruct (process_messages fuel c coll beh w) as [[w4 p]| | | |] eqn:EP; try discriminate. cbn [bind] in E.
  assert (w4 = w3) as -> by congruence. assert (r = RetProcess p) as -> by congruence.
  exists w3, p. split; [reflexivity|]. pose proof (view_of coll w3 s2 Hs2) as EV. split; [rewrite EV; exact Hs2|]. split.
  - change (rx_functor (w_rx w3)) with (s_handler (view w3)). change (rx_functor (w_rx w)) with (s_handler (view w)). rewrite EV.
    inversion HS; subst; [cbn; congruence|]. eapply eq_trans; [eapply proc_keeps_handler; eassumption | cbn [view s_handler]; congruence].
  - pose proof (hist_snoc c coll beh w [] [] [] w OpProcess (RetProcess p) w3 (hist_nil _ _ _ w) I (ex_intro _ fuel E')) as H.
    replace (received coll beh OpProcess w w3) with (@nil Z) in H by (symmetry; apply (no_appended_by beh Hb)). exact H.
Qed.

(** When the routine may come between the two writes. *)
Definition harmless (to : option handler) (w : world) : Prop :=
  rx_functor (w_rx w) = None
  \/ (exists h1 h, rx_functor (w_rx w) = Some h1 /\ to = Some h /\ h_type h1 = h_type h)
  \/ exists r, Scan coll (held w) [] r.

Lemma nothing_found w r : sim coll w (view w) -> Scan coll (held w) [] r ->
  exists e, check c coll (rx_recv (w_rx w)) = Ok (false, e) /\ exists r2, Scan coll (held (w_set_recv e w)) [] r2.
Proof.
  intros Hs HS. destruct (check_sim c coll Hst w (view w) Hs) as (ok & e & Y & E & HK & Hs1 & HY). cbn [view s_bytes] in HK.
  destruct ok.
  - exfalso. destruct HY as (f & m & id & p & s0 & -> & F & _).
    destruct (scan_total coll s0) as (ms & r2 & HS2).
    pose proof (skips_scan _ _ _ _ _ HK (scan_frame _ _ _ _ _ _ _ _ F HS2)) as HS3.
    destruct (scan_det _ _ _ _ HS _ _ HS3) as (ED & _). discriminate.
  - exists e. split; [exact E|]. exists Y. pose proof (view_of coll _ _ Hs1) as EV.
    change (held (w_set_recv e w)) with (s_bytes (view (w_set_recv e w))). rewrite EV. cbn [s_bytes]. apply scan_wait, HY.
Qed.

Lemma torn_call to w : sim coll w (view w) -> harmless to w ->
  exists w3 p, process_messages fuel c coll beh w = Ok (w3, p)
    /\ process_messages fuel c coll beh (h_set_invoker (option_map h_type to) w) = Ok (h_set_invoker (option_map h_type to) w3, p)
    /\ sim coll w3 (view w3) /\ harmless to w3 /\ history c coll beh w [OpProcess] [] [RetProcess p] w3.
Proof.
  intros Hs HH. destruct (whole_call w Hs) as (w3 & p & E & Hs3 & HF & HY). exists w3, p. split; [assumption|].
  enough (process_messages fuel c coll beh (h_set_invoker (option_map h_type to) w) = Ok (h_set_invoker (option_map h_type to) w3, p)
          /\ harmless to w3) as [H1 H2] by auto.
  destruct HH as [H0|[(h1 & h & H1 & -> & HT)|(r & HS)]].
  - assert (w3 = w) as -> by (unfold process_messages, rx_has_handler in E; rewrite H0 in E; cbn [negb] in E; congruence).
    unfold process_messages, rx_has_handler in E |- *. cbn [h_set_invoker w_rx rx_functor]. rewrite H0 in E |- *. cbn [negb] in E |- *.
    split; [congruence | left; assumption].
  - assert (forall u, sim coll u (view u) -> rx_functor (w_rx u) = Some h1 -> h_set_invoker (option_map h_type (Some h)) u = u) as HI.
    { intros u (_ & _ & _ & Hi & _) Hf. cbn [view s_handler] in Hi. rewrite Hf in Hi. cbn [option_map] in Hi |- *.
      destruct u as [[recv inv fn last] log]. cbn in *. subst inv. unfold h_set_invoker. cbn. congruence. }
    rewrite (HI w Hs H1). rewrite (HI w3 Hs3) by congruence. split; [assumption|].
    right. left. exists h1, h. repeat split; congruence.
  - destruct (nothing_found w r Hs HS) as (e & EC & r2 & HS2).
    destruct fuel as [|fuel']; [lia|].
    unfold process_messages in E |- *. change (rx_has_handler (w_rx (h_set_invoker (option_map h_type to) w))) with (rx_has_handler (w_rx w)).
    destruct (negb (rx_has_handler (w_rx w))).
    + assert (w3 = w /\ p = Returned 0) as [-> ->] by (split; congruence). split; [reflexivity|]. right. right. eauto.
    + cbn [process_loop] in E |- *. change (rx_recv (w_rx (h_set_invoker (option_map h_type to) w))) with (rx_recv (w_rx w)).
      rewrite EC in E |- *. cbn [bind negb] in E |- *.
      assert (w3 = w_set_recv e w /\ p = Returned 0) as [-> ->] by (split; congruence).
      split; [reflexivity|]. right. right. eauto.
Qed.

Lemma change_step to w : step fuel c coll beh (change_op to) w = Ok (h_set_functor to (h_set_invoker (option_map h_type to) w), RetUnit).
Proof. destruct to; reflexivity. Qed.

Lemma change_history to w : history c coll beh w [change_op to] [] [RetUnit] (h_set_functor to (h_set_invoker (option_map h_type to) w)).
Proof.
  pose proof (hist_snoc c coll beh w [] [] [] w (change_op to) RetUnit (h_set_functor to (h_set_invoker (option_map h_type to) w)) (hist_nil _ _ _ w)) as H.
  replace (@nil Z) with ([] ++ received coll beh (change_op to) w (h_set_functor to (h_set_invoker (option_map h_type to) w))) at 1
    by (destruct to; reflexivity).
  apply H; [destruct to; exact I | exists fuel; apply change_step].
Qed.

Lemma torn_change to coming w : sim coll w (view w) -> harmless to w \/ hd false (tl coming) = false ->
  exists w' ps, h_change fuel c coll beh to coming w = Ok (w', ps)
    /\ history c coll beh w (map (fun _ => OpProcess) ps ++ [change_op to]) [] (map RetProcess ps ++ [RetUnit]) w'.
Proof.
  intros Hs HH. unfold h_change.
  assert (exists w1 ps, w_interrupt fuel c coll beh (hd false coming) w = Ok (w1, ps) /\ sim coll w1 (view w1)
    /\ (harmless to w1 \/ hd false (tl coming) = false)
    /\ history c coll beh w (map (fun _ => OpProcess) ps) [] (map RetProcess ps) w1) as (w1 & ps & E1 & Hs1 & HH1 & HY1).
  { destruct (hd false coming); cbn [w_interrupt].
    - destruct HH as [HH|HH].
      + destruct (torn_call to w Hs HH) as (w3 & p & E & _ & Hs3 & HH3 & HY). exists w3, [p]. rewrite E. cbn [bind]. auto.
      + destruct (whole_call w Hs) as (w3 & p & E & Hs3 & _ & HY). exists w3, [p]. rewrite E. cbn [bind]. auto.
    - exists w, []. split; [reflexivity|]. split; [assumption|]. split; [assumption|]. constructor. }
  rewrite E1. cbn [bind]. destruct (hd false (tl coming)); cbn [w_interrupt].
  - destruct HH1 as [HH1|HH1]; [|discriminate]. destruct (torn_call to w1 Hs1 HH1) as (w3 & p & E & E3 & _ & _ & HY3).
    rewrite E3. cbn [bind]. exists (h_set_functor to (h_set_invoker (option_map h_type to) w3)), (ps ++ [p]).
    split; [reflexivity|]. rewrite !map_app, <- !app_assoc.
    exact (history_app c coll beh _ _ _ _ _ _ _ _ _ HY1 (history_app c coll beh _ _ _ _ _ _ _ _ _ HY3 (change_history to w3))).
  - exists (h_set_functor to (h_set_invoker (option_map h_type to) w1)), ps. cbn [bind]. rewrite app_nil_r. split; [reflexivity|].
    exact (history_app c coll beh _ _ _ _ _ _ _ _ _ HY1 (change_history to w1)).
Qed.

(** *** With a message held *)
Lemma something_found w ms r : sim coll w (view w) -> rx_functor (w_rx w) <> None -> Scan coll (held w) ms r -> ms <> [] ->
  exists e id, check c coll (rx_recv (w_rx w)) = Ok (true, e) /\ er_current_id c e = Ok id.
Proof.
  intros Hs HF HS HM. destruct (check_sim c coll Hst w (view w) Hs) as (ok & e & Y & E & HK & Hs1 & HY). cbn [view s_bytes] in HK.
  destruct ok.
  - destruct (whole_call w Hs) as (w3 & p & EP & _). unfold process_messages, rx_has_handler in EP.
    destruct (rx_functor (w_rx w)); [|congruence]. cbn [negb] in EP. destruct fuel as [|fuel']; [lia|]. cbn [process_loop] in EP.
    rewrite E in EP. cbn [bind negb] in EP. destruct (er_current_id c e) as [id| | | |] eqn:EI; cbn [bind] in EP; try discriminate. eauto.
  - exfalso. apply HM. destruct (scan_det _ _ _ _ HS _ _ (skips_scan _ _ _ _ _ HK (scan_wait _ _ HY))) as (ED & _). assumption.
Qed.

Lemma torn_change_undefined to h1 w ms r : sim coll w (view w) -> rx_functor (w_rx w) = Some h1 ->
  option_map h_type to <> Some (h_type h1) -> Scan coll (held w) ms r -> ms <> [] ->
  h_change fuel c coll beh to [false; true] w = UB.
Proof.
  intros Hs HF HT HS HM. destruct (something_found w ms r Hs ltac:(congruence) HS HM) as (e & id & E & EI).
  unfold h_change. cbn [hd tl w_interrupt bind]. unfold process_messages, rx_has_handler. cbn [h_set_invoker w_rx rx_functor].
  rewrite HF. cbn [negb]. destruct fuel as [|fuel']; [lia|]. cbn [process_loop h_set_invoker w_rx rx_recv]. rewrite E. cbn [bind negb].
  rewrite EI. cbn [bind]. unfold invoke. cbn [w_set_last w_set_recv w_rx rx_invoker rx_functor h_set_invoker]. rewrite HF.
  destruct to as [h|]; cbn [option_map]; [|reflexivity].
  destruct (Z.eqb_spec (h_type h) (h_type h1)) as [EQ|_]; [exfalso; apply HT; cbn; congruence | reflexivity].
Qed.

Lemma changes_recv a : forall w, rx_recv (w_rx (h_changes a w)) = rx_recv (w_rx w).
Proof. induction a as [|to a IH]; intros w; [reflexivity|]. unfold h_changes in *. cbn [fold_left]. rewrite IH. reflexivity. Qed.

End Change.

(** ** setHandler in the midst of processMessages *)
Lemma quiet_invoke o c coll beh proc id w : h_invoke o c coll beh proc [] [] id w = invoke c coll beh proc id w.
Proof. unfold h_invoke. cbn [h_changes fold_left]. destruct o; reflexivity. Qed.

Lemma bind_same {A B} (m : outcome A) (f g : A -> outcome B) : (forall x, f x = g x) -> bind m f = bind m g.
Proof. intros H. destruct m; cbn [bind]; auto. Qed.

Lemma quiet_loop o c coll beh : forall fuel n w, h_loop fuel o c coll beh n [] w = process_loop fuel c coll beh n w.
Proof.
  induction fuel as [|fuel IH]; intros n w; [reflexivity|]. cbn [h_loop process_loop hd tl].
  apply bind_same. intros [found e]. destruct found; [|reflexivity]. cbn [negb]. apply bind_same. intros id.
  rewrite quiet_invoke. apply bind_same. intros [w' threw]. destruct threw; [reflexivity|]. apply bind_same. intros e2. apply IH.
Qed.

Lemma quiet_process fuel o c coll beh w : h_process fuel o c coll beh [] w = process_messages fuel c coll beh w.
Proof. unfold h_process, process_messages. cbn [hd tl h_changes fold_left]. rewrite quiet_loop. reflexivity. Qed.

Lemma changes_functor tos : forall w, rx_functor (w_rx (h_changes tos w)) = last (rx_functor (w_rx w) :: tos) None.
Proof.
  induction tos as [|to tos IH]; intros w; [reflexivity|]. unfold h_changes in *. cbn [fold_left]. rewrite IH. reflexivity.
Qed.

Lemma changes_invoker tos : forall w, rx_invoker (w_rx w) = option_map h_type (rx_functor (w_rx w)) ->
  rx_invoker (w_rx (h_changes tos w)) = option_map h_type (rx_functor (w_rx (h_changes tos w))).
Proof. induction tos as [|to tos IH]; intros w Hw; [assumption|]. unfold h_changes in *. cbn [fold_left]. apply IH. reflexivity. Qed.

Lemma changes_rest tos : forall w, w_log (h_changes tos w) = w_log w /\ rx_last (w_rx (h_changes tos w)) = rx_last (w_rx w).
Proof.
  induction tos as [|to tos IH]; intros w; [auto|]. unfold h_changes in *. cbn [fold_left]. destruct (IH (h_set_functor to (h_set_invoker (option_map h_type to) w))) as [-> ->].
  auto.
Qed.

Lemma last_last {A} (a b : list A) : forall x d, last (x :: a ++ b) d = last (last (x :: a) d :: b) d.
Proof. induction a as [|y a IH]; intros x d; [reflexivity|]. cbn [app]. change (last (x :: y :: a ++ b) d) with (last (y :: a ++ b) d). rewrite IH. reflexivity. Qed.

Lemma firstn_hd {A} (l : list (list A)) : forall j, concat (firstn (S j) l) = concat (firstn j l) ++ hd [] (skipn j l).
Proof.
  induction l as [|x l IH]; intros j; [destruct j; reflexivity|]. destruct j; [cbn; rewrite app_nil_r; reflexivity|].
  change (firstn (S (S j)) (x :: l)) with (x :: firstn (S j) l). cbn [concat]. rewrite IH, app_assoc. reflexivity.
Qed.

Lemma tl_skipn {A} (l : list A) : forall j, tl (skipn j l) = skipn (S j) l.
Proof. induction l as [|x l IH]; intros j; [destruct j; reflexivity|]. destruct j; [reflexivity|]. cbn [skipn]. rewrite IH. destruct l; reflexivity. Qed.

Section Consistent.
Context (o : bool) (c : config) (coll : collection) (Hst : static_ok coll = true) (beh : hbehav).
Context (Hq : forall log, hr_acts (beh log) = [] /\ hr_throws (beh log) = false).
Context (h1 : handler) (coming : list (list (option handler))).

(** The handler in place when the routine has come [j] times. *)
Definition placed (j : nat) : option handler := last (Some h1 :: concat (firstn j coming)) None.

Lemma placed_next j : placed (S j) = last (placed j :: hd [] (skipn j coming)) None.
Proof. unfold placed. rewrite firstn_hd, last_last. reflexivity. Qed.

(** The two receivers hold the same and have delivered the same. *)
Definition alike (j : nat) (w v : world) (new old : list delivery) : Prop :=
  rx_recv (w_rx v) = rx_recv (w_rx w) /\ rx_last (w_rx v) = rx_last (w_rx w)
  /\ map (fun d => (d_message d, d_values d)) (w_log v) = map (fun d => (d_message d, d_values d)) (w_log w)
  /\ rx_invoker (w_rx v) = option_map h_type (rx_functor (w_rx v)) /\ rx_functor (w_rx v) = placed j
  /\ w_log v = old ++ new
  /\ forall k d, nth_error new k = Some d -> placed (2 * k + (if o then 3 else 2)) = Some (d_handler d).

Lemma alike_changes j w v new old : alike j w v new old -> alike (S j) w (h_changes (hd [] (skipn j coming)) v) new old.
Proof.
  intros (H1 & H2 & H3 & H4 & H5 & H6 & H7). destruct (changes_rest (hd [] (skipn j coming)) v) as [EL ER]. unfold alike.
  rewrite changes_recv, EL, ER, (changes_invoker _ _ H4), changes_functor, H5, placed_next. repeat (split; [assumption || reflexivity|]). assumption.
Qed.

(** The [i]-th message meets a null pointer or another class. *)
Definition torn_at (i : nat) : Prop :=
  placed (2 * i + (if o then 3 else 2)) = None \/ option_map h_type (placed (2 * i + 2)) <> option_map h_type (placed (2 * i + 3)).

Lemma alike_undefined : forall fuel n k w v new old w' p, sim coll w (view w) -> rx_functor (w_rx w) = Some h1 ->
  alike (2 * length new + 1) w v new old -> process_loop fuel c coll beh n w = Ok (w', p) ->
  (length (w_log w) + k < length (w_log w'))%nat ->
  (forall j, (j <= 2 * (length new + k) + 1)%nat -> placed j <> None) ->
  (forall i, (i < length new + k)%nat -> option_map h_type (placed (2 * i + 2)) = option_map h_type (placed (2 * i + 3))) ->
  torn_at (length new + k) ->
  h_loop fuel o c coll beh n (skipn (2 * length new + 1) coming) v = UB.
Proof.
  induction fuel as [|fuel IH]; intros n k w v new old w' p Hs Hh HA E HL HS HK HB0; [discriminate|].
  cbn [process_loop] in E. cbn [h_loop]. rewrite (proj1 HA).
  destruct (check_sim c coll Hst w (view w) Hs) as (ok & e & Y & EC & _ & Hs1 & HY). rewrite EC in E |- *. cbn [bind] in E |- *.
  assert (alike (2 * length new + 1) (w_set_recv e w) (w_set_recv e v) new old) as HA1
    by (destruct HA as (H1 & H2 & H3 & H4 & H5 & H6 & H7); unfold alike; cbn [w_set_recv w_rx rx_recv rx_last rx_invoker rx_functor w_log]; auto 10).
  destruct ok; cbn [negb] in E |- *.
  2: { injection E as <- <-. cbn in HL. lia. }
  destruct HY as (f & m & id & pl & s0 & -> & F & Hid).
  unfold er_current_id in E |- *. rewrite Hid in E |- *. cbn [bind] in E |- *.
  set (w2 := w_set_last id (w_set_recv e w)) in *.
  assert (alike (2 * length new + 1) w2 (w_set_last id (w_set_recv e v)) new old) as HA2
    by (destruct HA1 as (H1 & H2 & H3 & H4 & H5 & H6 & H7); unfold alike, w2; cbn [w_set_last w_set_recv w_rx rx_recv rx_last rx_invoker rx_functor w_log] in *; auto 10).
  assert (sim coll w2 (SState (f ++ s0) (Some h1) (Some id) (w_log w))) as Hs2.
  { destruct Hs1 as (A1 & A2 & A3 & A4 & A5 & A6). cbn in A1, A2, A3, A4, A5, A6. rewrite Hh in A4. repeat split; auto. }
  pose proof (alike_changes _ _ _ _ _ HA2) as HA3. pose proof (alike_changes _ _ _ _ _ HA3) as HA4.
  rewrite !tl_skipn. unfold h_invoke.
  set (v3 := h_changes (hd [] (skipn (2 * length new + 1) coming)) _) in *. set (v4 := h_changes _ v3) in *.
  assert (rx_functor (w_rx (if o then v4 else v3)) = placed (2 * length new + (if o then 3 else 2))) as EF.
  { destruct o; [replace (2 * length new + 3)%nat with (S (S (2 * length new + 1))) by lia; apply HA4
               | replace (2 * length new + 2)%nat with (S (2 * length new + 1)) by lia; apply HA3]. }
  assert (rx_invoker (w_rx (if o then v3 else v4)) = option_map h_type (placed (2 * length new + (if o then 2 else 3)))) as EI.
  { destruct HA3 as (_ & _ & _ & I3 & F3 & _). destruct HA4 as (_ & _ & _ & I4 & F4 & _).
    destruct o; [replace (2 * length new + 2)%nat with (S (2 * length new + 1)) by lia
               | replace (2 * length new + 3)%nat with (S (S (2 * length new + 1))) by lia]; congruence. }
  rewrite EI, EF. destruct k as [|k].
  { rewrite Nat.add_0_r in HB0. unfold torn_at in HB0.
    destruct (placed (2 * length new + (if o then 3 else 2))) as [h|] eqn:EH.
    - destruct HB0 as [HB0|HB0]; [discriminate|].
      destruct (placed (2 * length new + (if o then 2 else 3))) as [h'|] eqn:EH'; cbn [option_map]; [|reflexivity].
      destruct (Z.eqb_spec (h_type h') (h_type h)) as [EQ|_]; [|reflexivity].
      exfalso. apply HB0. destruct o; rewrite EH, EH'; cbn [option_map]; congruence.
    - destruct (option_map h_type (placed (2 * length new + (if o then 2 else 3)))); reflexivity. }
  assert (option_map h_type (placed (2 * length new + (if o then 2 else 3))) = option_map h_type (placed (2 * length new + (if o then 3 else 2)))) as EQ
    by (pose proof (HK (length new) ltac:(lia)); destruct o; congruence).
  assert (placed (2 * length new + (if o then 3 else 2)) <> None) as HN by (apply HS; destruct o; lia).
  destruct (placed (2 * length new + (if o then 3 else 2))) as [h|] eqn:EH; [|congruence].
  rewrite EQ. cbn [option_map]. rewrite Z.eqb_refl. cbn [negb].
  pose proof HA4 as (H1 & H2 & H3 & H4 & H5 & H6 & H7).
  pose proof Hs2 as (R & HB & Hf & Hi & Hl & Hlog). cbn [s_bytes s_handler s_last s_log option_map] in *.
  unfold invoke in E. rewrite Hf, Hi, Z.eqb_refl in E. cbn [negb] in E. rewrite H1.
  destruct (deserialize_message c coll (rx_recv (w_rx w2)) id) as [x| | | |] eqn:D; cbn [bind] in E |- *; try discriminate.
  destruct (deserialize_message_sound c coll Hst _ _ _ _ _ _ _ R F HB D) as (vs & -> & _).
  rewrite (proj1 (Hq _)), (proj2 (Hq _)) in E. rewrite (proj1 (Hq _)), (proj2 (Hq _)).
  cbn [run_acts bind orb] in E |- *. cbn [w_rx] in E |- *. rewrite H1.
  destruct (pop_message_spec c coll Hst (rx_recv (w_rx w2)) f m id pl s0) as (e3 & HP & R4 & _); auto.
  rewrite HP in E |- *. cbn [bind] in E |- *.
  assert (length (new ++ [Delivery h m vs]) = S (length new)) as EL by (rewrite app_length; cbn [length]; lia).
  replace (S (S (2 * length new + 1)))%nat with (2 * length (new ++ [Delivery h m vs]) + 1)%nat by lia.
  eapply IH with (k := k) (old := old) (new := new ++ [Delivery h m vs]); [| | | eassumption | | | |]; rewrite ?EL.
  - apply Forall_app in HB as [_ HB].
    assert (sim coll (w_set_recv e3 (World (w_rx w2) (w_log w2 ++ [Delivery h1 m vs]))) (SState s0 (Some h1) (Some id) (w_log w2 ++ [Delivery h1 m vs]))) as Hs3
      by (repeat split; auto).
    rewrite (view_of coll _ _ Hs3). exact Hs3.
  - exact Hf.
  - unfold alike. cbn [w_set_recv w_rx rx_recv rx_last rx_invoker rx_functor w_log].
    rewrite !map_app, H3, H6, <- app_assoc. cbn [length map d_message d_values]. repeat (split; [assumption || reflexivity|]).
    split; [replace (2 * S (length new) + 1)%nat with (S (S (2 * length new + 1))) by lia; assumption|]. split; [reflexivity|].
    intros q d Hk. destruct (Nat.lt_ge_cases q (length new)).
    + rewrite nth_error_app1 in Hk by assumption. auto.
    + rewrite nth_error_app2 in Hk by assumption. destruct (q - length new)%nat as [|i] eqn:EK.
      * injection Hk as <-. replace q with (length new) by lia. exact EH.
      * destruct i; discriminate.
  - cbn [w_log w_set_recv]. rewrite app_length. cbn [length]. assert (w_log w2 = w_log w) as EW by reflexivity. rewrite EW in *. lia.
  - intros j Hj. apply HS. lia.
  - intros i Hi'. apply HK. lia.
  - replace (S (length new) + k)%nat with (length new + S k)%nat by lia. exact HB0.
Qed.

Context (Hsome : forall j, placed j <> None) (Hclass : forall k, option_map h_type (placed (2 * k + 2)) = option_map h_type (placed (2 * k + 3))).

Lemma alike_loop : forall fuel n w v new old w' p, sim coll w (view w) -> rx_functor (w_rx w) = Some h1 ->
  alike (2 * length new + 1) w v new old -> process_loop fuel c coll beh n w = Ok (w', p) ->
  exists v' new', h_loop fuel o c coll beh n (skipn (2 * length new + 1) coming) v = Ok (v', p)
    /\ alike (2 * length new' + 1) w' v' new' old.
Proof.
  induction fuel as [|fuel IH]; intros n w v new old w' p Hs Hh HA E; [discriminate|].
  cbn [process_loop] in E. cbn [h_loop]. rewrite (proj1 HA).
  destruct (check_sim c coll Hst w (view w) Hs) as (ok & e & Y & EC & _ & Hs1 & HY). rewrite EC in E |- *. cbn [bind] in E |- *.
  assert (alike (2 * length new + 1) (w_set_recv e w) (w_set_recv e v) new old) as HA1
    by (destruct HA as (H1 & H2 & H3 & H4 & H5 & H6 & H7); unfold alike; cbn [w_set_recv w_rx rx_recv rx_last rx_invoker rx_functor w_log]; auto 10).
  destruct ok; cbn [negb] in E |- *.
  2: { injection E as <- <-. eauto. }
  destruct HY as (f & m & id & pl & s0 & -> & F & Hid).
  unfold er_current_id in E |- *. rewrite Hid in E |- *. cbn [bind] in E |- *.
  set (w2 := w_set_last id (w_set_recv e w)) in *.
  assert (alike (2 * length new + 1) w2 (w_set_last id (w_set_recv e v)) new old) as HA2
    by (destruct HA1 as (H1 & H2 & H3 & H4 & H5 & H6 & H7); unfold alike, w2; cbn [w_set_last w_set_recv w_rx rx_recv rx_last rx_invoker rx_functor w_log] in *; auto 10).
  assert (sim coll w2 (SState (f ++ s0) (Some h1) (Some id) (w_log w))) as Hs2.
  { destruct Hs1 as (A1 & A2 & A3 & A4 & A5 & A6). cbn in A1, A2, A3, A4, A5, A6. rewrite Hh in A4. repeat split; auto. }
  pose proof (alike_changes _ _ _ _ _ HA2) as HA3. pose proof (alike_changes _ _ _ _ _ HA3) as HA4.
  rewrite !tl_skipn. unfold h_invoke.
  set (v3 := h_changes (hd [] (skipn (2 * length new + 1) coming)) _) in *. set (v4 := h_changes _ v3) in *.
  assert (rx_functor (w_rx (if o then v4 else v3)) = placed (2 * length new + (if o then 3 else 2))) as EF.
  { destruct o; [replace (2 * length new + 3)%nat with (S (S (2 * length new + 1))) by lia; apply HA4
               | replace (2 * length new + 2)%nat with (S (2 * length new + 1)) by lia; apply HA3]. }
  assert (rx_invoker (w_rx (if o then v3 else v4)) = option_map h_type (placed (2 * length new + (if o then 3 else 2)))) as EI.
  { pose proof (Hclass (length new)) as HK.
    replace (2 * length new + 3)%nat with (S (S (2 * length new + 1))) in HK by lia.
    replace (2 * length new + 2)%nat with (S (2 * length new + 1)) in HK by lia.
    destruct HA3 as (_ & _ & _ & I3 & F3 & _). destruct HA4 as (_ & _ & _ & I4 & F4 & _).
    destruct o; [replace (2 * length new + 3)%nat with (S (S (2 * length new + 1))) by lia
               | replace (2 * length new + 2)%nat with (S (2 * length new + 1)) by lia]; congruence. }
  destruct (placed (2 * length new + (if o then 3 else 2))) as [h|] eqn:EH; [|exfalso; exact (Hsome _ EH)].
  rewrite EI, EF. cbn [option_map]. rewrite Z.eqb_refl. cbn [negb].
  pose proof HA4 as (H1 & H2 & H3 & H4 & H5 & H6 & H7).
  pose proof Hs2 as (R & HB & Hf & Hi & Hl & Hlog). cbn [s_bytes s_handler s_last s_log option_map] in *.
  unfold invoke in E. rewrite Hf, Hi, Z.eqb_refl in E. cbn [negb] in E. rewrite H1.
  destruct (deserialize_message c coll (rx_recv (w_rx w2)) id) as [x| | | |] eqn:D; cbn [bind] in E |- *; try discriminate.
  destruct (deserialize_message_sound c coll Hst _ _ _ _ _ _ _ R F HB D) as (vs & -> & _).
  rewrite (proj1 (Hq _)), (proj2 (Hq _)) in E. rewrite (proj1 (Hq _)), (proj2 (Hq _)).
  cbn [run_acts bind orb] in E |- *. cbn [w_rx] in E |- *. rewrite H1.
  destruct (pop_message_spec c coll Hst (rx_recv (w_rx w2)) f m id pl s0) as (e3 & HP & R4 & _); auto.
  rewrite HP in E |- *. cbn [bind] in E |- *.
  edestruct IH with (new := new ++ [Delivery h m vs]) (old := old) as (v' & new' & E' & HA').
  5: { exists v', new'. split; [|exact HA']. rewrite app_length in E'. cbn [length] in E'.
       replace (2 * (length new + 1) + 1)%nat with (S (S (2 * length new + 1))) in E' by lia. exact E'. }
  4: eassumption.
  - apply Forall_app in HB as [_ HB].
    assert (sim coll (w_set_recv e3 (World (w_rx w2) (w_log w2 ++ [Delivery h1 m vs]))) (SState s0 (Some h1) (Some id) (w_log w2 ++ [Delivery h1 m vs]))) as Hs3
      by (repeat split; auto).
    rewrite (view_of coll _ _ Hs3). exact Hs3.
  - exact Hf.
  - unfold alike. cbn [w_set_recv w_rx rx_recv rx_last rx_invoker rx_functor w_log].
    rewrite !map_app, H3, H6, <- app_assoc, app_length. cbn [length map d_message d_values]. repeat (split; [assumption || reflexivity|]).
    split; [replace (2 * (length new + 1) + 1)%nat with (S (S (2 * length new + 1))) by lia; assumption|]. split; [reflexivity|].
    intros k d Hk. destruct (Nat.lt_ge_cases k (length new)).
    + rewrite nth_error_app1 in Hk by assumption. auto.
    + rewrite nth_error_app2 in Hk by assumption. destruct (k - length new)%nat as [|i] eqn:EK.
      * injection Hk as <-. replace k with (length new) by lia. exact EH.
      * destruct i; discriminate.
Qed.
End Consistent.

(** ** From any history *)
Section Histories.
Context (c : config) (coll : collection) (Hst : static_ok coll = true) (Hsafe : index_safe c (capacity coll)).
Context (beh : hbehav) (h0 : option handler) (ops : list op) (S : list Z) (rs : list opret) (w : world).
Context (Hq : forall log, hr_acts (beh log) = []) (Hbf : bool_free coll) (HY : history c coll beh (start coll h0) ops S rs w).
Context (fuel : nat) (Hfuel : (Z.to_nat (capacity coll) < fuel)%nat).

Lemma idle_sim : sim coll w (view w).
Proof. exact (history_sim c coll Hst Hsafe beh (steady_tame _ (idle_steady beh Hq)) h0 ops S rs w HY). Qed.

Lemma change_lemma to coming :
  rx_functor (w_rx w) = None
    \/ (exists h1 h, rx_functor (w_rx w) = Some h1 /\ to = Some h /\ h_type h1 = h_type h)
    \/ (exists r, Scan coll (held w) [] r)
    \/ hd false (tl coming) = false ->
  exists w' ps, h_change fuel c coll beh to coming w = Ok (w', ps)
    /\ history c coll beh w (map (fun _ => OpProcess) ps ++ [match to with Some h => OpSetHandler h | None => OpClearHandler end]) []
         (map RetProcess ps ++ [RetUnit]) w'.
Proof.
  intros H. apply (torn_change c coll Hst Hsafe beh Hq Hbf fuel Hfuel to coming w idle_sim). unfold harmless. tauto.
Qed.

Lemma change_undefined_lemma to h1 ms r : rx_functor (w_rx w) = Some h1 -> option_map h_type to <> Some (h_type h1) ->
  Scan coll (held w) ms r -> ms <> [] -> h_change fuel c coll beh to [false; true] w = UB.
Proof. apply (torn_change_undefined c coll Hst Hsafe beh Hq Hbf fuel Hfuel to h1 w ms r idle_sim). Qed.

Lemma processing_lemma o h1 coming : (forall log, hr_throws (beh log) = false) -> rx_functor (w_rx w) = Some h1 ->
  let inplace j := last (Some h1 :: concat (firstn j coming)) None in
  (forall j, inplace j <> None) -> (forall k, option_map h_type (inplace (2 * k + 2)%nat) = option_map h_type (inplace (2 * k + 3)%nat)) ->
  exists w' v' p new,
    history c coll beh w [OpProcess] [] [RetProcess p] w'
    /\ h_process fuel o c coll beh coming w = Ok (v', p)
    /\ rx_recv (w_rx v') = rx_recv (w_rx w') /\ rx_last (w_rx v') = rx_last (w_rx w')
    /\ w_log v' = w_log w ++ new
    /\ map (fun d => (d_message d, d_values d)) (w_log v') = map (fun d => (d_message d, d_values d)) (w_log w')
    /\ (forall k d, nth_error new k = Some d -> inplace (2 * k + (if o then 3 else 2))%nat = Some (d_handler d))
    /\ rx_functor (w_rx v') = inplace (2 * length new + 1)%nat
    /\ rx_invoker (w_rx v') = option_map h_type (rx_functor (w_rx v')).
Proof.
  intros Hn HF inplace Hsome Hclass. pose proof idle_sim as Hs.
  destruct (whole_call c coll Hst Hsafe beh Hq Hbf fuel Hfuel w Hs) as (w' & p & E & _ & _ & HY').
  assert (alike o h1 coming 0 w w [] (w_log w)) as HA.
  { pose proof Hs as (_ & _ & _ & Hi & _). cbn [view s_handler] in Hi. unfold alike. rewrite app_nil_r.
    repeat (split; [assumption || reflexivity|]). intros [|k] d Hk; discriminate. }
  pose proof (alike_changes o h1 coming _ _ _ _ _ HA) as HA1. cbn [skipn] in HA1.
  unfold process_messages, rx_has_handler in E. rewrite HF in E. cbn [negb] in E.
  destruct (alike_loop o c coll Hst beh (fun log => conj (Hq log) (Hn log)) h1 coming Hsome Hclass fuel 0 w _ [] (w_log w) w' p Hs HF HA1 E)
    as (v' & new & E2 & H1 & H2 & H3 & H4 & H5 & H6 & H7).
  exists w', v', p, new. split; [assumption|]. split.
  - unfold h_process, rx_has_handler. destruct HA1 as (_ & _ & _ & _ & -> & _). specialize (Hsome 1%nat). unfold inplace in Hsome. fold (placed h1 coming 1) in Hsome.
    destruct (placed h1 coming 1); [|congruence]. cbn [negb].
    replace (tl coming) with (skipn 1 coming) by (destruct coming; reflexivity). exact E2.
  - repeat (split; [eassumption|]). eassumption.
Qed.

Lemma processing_undefined_lemma (o : bool) h1 (coming : list (list (option handler))) k w' p : (forall log, hr_throws (beh log) = false) -> rx_functor (w_rx w) = Some h1 ->
  process_messages fuel c coll beh w = Ok (w', p) -> (length (w_log w) + k < length (w_log w'))%nat ->
  let inplace (j : nat) := last (Some h1 :: concat (firstn j coming)) None in
  (forall j, (j <= 2 * k + 1)%nat -> inplace j <> None) ->
  (forall i, (i < k)%nat -> option_map h_type (inplace (2 * i + 2)%nat) = option_map h_type (inplace (2 * i + 3)%nat)) ->
  inplace (2 * k + (if o then 3 else 2))%nat = None \/ option_map h_type (inplace (2 * k + 2)%nat) <> option_map h_type (inplace (2 * k + 3)%nat) ->
  h_process fuel o c coll beh coming w = UB.
Proof.
  clear Hfuel. intros Hn HF E HL inplace Hsome Hclass HB. pose proof idle_sim as Hs.
  assert (alike o h1 coming 0 w w [] (w_log w)) as HA.
  { pose proof Hs as (_ & _ & _ & Hi & _). cbn [view s_handler] in Hi. unfold alike. rewrite app_nil_r.
    repeat (split; [assumption || reflexivity|]). intros [|i] d Hk; discriminate. }
  pose proof (alike_changes o h1 coming _ _ _ _ _ HA) as HA1. cbn [skipn] in HA1.
  unfold process_messages, rx_has_handler in E. rewrite HF in E. cbn [negb] in E.
  unfold h_process, rx_has_handler. pose proof HA1 as (_ & _ & _ & _ & -> & _).
  pose proof (Hsome 1%nat ltac:(lia)) as H1. unfold inplace in H1. fold (placed h1 coming 1) in H1.
  destruct (placed h1 coming 1); [|congruence]. cbn [negb].
  replace (tl coming) with (skipn 1 coming) by (destruct coming; reflexivity).
  exact (alike_undefined o c coll Hst beh (fun log => conj (Hq log) (Hn log)) h1 coming fuel 0 k w _ [] (w_log w) w' p Hs HF HA1 E HL Hsome Hclass HB).
Qed.
End Histories.

Lemma quiet_lemma fuel c coll beh o w :
  h_process fuel o c coll beh [] w = process_messages fuel c coll beh w
  /\ (forall h, h_change fuel c coll beh (Some h) [] w = Ok (World (rx_set_handler h (w_rx w)) (w_log w), []))
  /\ h_change fuel c coll beh None [] w = Ok (World (rx_clear_handler (w_rx w)) (w_log w), []).
Proof. split; [apply quiet_process|]. split; reflexivity. Qed.

(** ** Undefined behaviour *)
Lemma change_witness to : to = None \/ to = Some hd2 ->
  exists rs w,
  history (desktop true) test_basic quiet (start test_basic (Some hd1)) [OpAppend [1; 1; 2; 10; 20; 30; 3; 4]] [1; 1; 2; 10; 20; 30; 3; 4] rs w
  /\ h_change 60 (desktop true) test_basic quiet to [false; true] w = UB
  /\ exists ps w1, h_change 60 (desktop true) test_basic quiet to [true; false] w = Ok (w1, ps) /\ ps = [Returned 1].
Proof.
  intros [->| ->]; do 2 eexists; (split; [apply (checked_history 60); vm_compute; reflexivity|]);
    (split; [vm_compute; reflexivity|]); do 2 eexists; split; vm_compute; reflexivity.
Qed.

Lemma processing_witness o : exists rs w,
  history (desktop true) test_basic quiet (start test_basic (Some hd1)) [OpAppend [1; 4; 2; 3; 4; 1; 1; 2; 10; 20; 30; 3; 4]]
    [1; 4; 2; 3; 4; 1; 1; 2; 10; 20; 30; 3; 4] rs w
  /\ h_process 60 o (desktop true) test_basic quiet [[]; [None]] w = UB
  /\ h_process 60 o (desktop true) test_basic quiet [[]; []; [Some hd2]] w = UB
  /\ h_process 60 o (desktop true) test_basic quiet [[]; []; []; [None]] w = UB
  /\ exists w1, h_process 60 o (desktop true) test_basic quiet [[None]] w = Ok (w1, Returned 0) /\ w_log w1 = [].
Proof.
  destruct o; do 2 eexists; (split; [apply (checked_history 60); vm_compute; reflexivity|]);
    do 3 (split; [vm_compute; reflexivity|]); eexists; split; vm_compute; reflexivity.
Qed.
