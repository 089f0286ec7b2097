(** Lemmas about handlers that clear, re-enter or append, invalid values, copies, and
    the fuel of the model. *)
From Verif Require Export OperationLemmas.

(** ** Fuel *)
Definition no_hang {A} (o : outcome A) : Prop := o <> Hang.

Lemma run_acts_mono c coll (p q : world -> outcome (world * presult)) :
  (forall w, no_hang (p w) -> q w = p w) ->
  forall acts w, no_hang (run_acts c coll p acts w) -> run_acts c coll q acts w = run_acts c coll p acts w.
Proof.
  intros H. induction acts as [|a acts IH]; intros w Hn; [reflexivity|]. cbn [run_acts] in *.
  destruct a as [h| |d|]; cbn [bind] in *; auto.
  - destruct (rx_append c coll d (w_rx w)) as [r| | | |]; cbn [bind] in *; auto.
  - assert (q w = p w) as ->. { apply H. intros E. apply Hn. rewrite E. reflexivity. }
    destruct (p w) as [[w' r]| | | |]; cbn [bind] in *; auto. destruct r; auto.
Qed.

Lemma process_loop_mono c coll beh : forall fuel n w, no_hang (process_loop fuel c coll beh n w) ->
  forall fuel', (fuel <= fuel')%nat -> process_loop fuel' c coll beh n w = process_loop fuel c coll beh n w.
Proof.
  induction fuel as [|fuel IH]; intros n w Hn fuel' Hle; [exfalso; apply Hn; reflexivity|].
  destruct fuel' as [|fuel']; [lia|]. cbn [process_loop] in *.
  destruct (check c coll (rx_recv (w_rx w))) as [[found e]| | | |]; cbn [bind] in *; auto.
  destruct found; cbn [negb] in *; auto.
  destruct (er_current_id c e) as [id| | | |]; cbn [bind] in *; auto.
  set (w1 := w_set_last id (w_set_recv e w)) in *.
  set (pf := fun f w => if rx_has_handler (w_rx w) then process_loop f c coll beh 0 w else Ok (w, Returned 0)) in *.
  change (fun w0 => if rx_has_handler (w_rx w0) then process_loop fuel c coll beh 0 w0 else Ok (w0, Returned 0)) with (pf fuel) in *.
  change (fun w0 => if rx_has_handler (w_rx w0) then process_loop fuel' c coll beh 0 w0 else Ok (w0, Returned 0)) with (pf fuel').
  assert (invoke c coll beh (pf fuel') id w1 = invoke c coll beh (pf fuel) id w1) as ->.
  { assert (no_hang (invoke c coll beh (pf fuel) id w1)) as Hi.
    { intros E. apply Hn. rewrite E. reflexivity. }
    unfold invoke in *. destruct (rx_invoker (w_rx w1)); auto. destruct (rx_functor (w_rx w1)); auto.
    destruct (negb _); auto. destruct (deserialize_message c coll (rx_recv (w_rx w1)) id) as [[[m vs]|]| | | |]; cbn [bind] in *; auto.
    rewrite (run_acts_mono c coll (pf fuel) (pf fuel')); auto.
    - intros v Hv. unfold pf in *. destruct (rx_has_handler (w_rx v)); auto. apply IH; [assumption | lia].
    - intros E. apply Hi. rewrite E. reflexivity. }
  destruct (invoke c coll beh (pf fuel) id w1) as [[w2 threw]| | | |]; cbn [bind] in *; auto.
  destruct threw; auto.
  destruct (er_pop_message c coll (rx_recv (w_rx w2))) as [e2| | | |]; cbn [bind] in *; auto.
  apply IH; [assumption | lia].
Qed.

Lemma step_mono c coll beh o w fuel fuel' : no_hang (step fuel c coll beh o w) -> (fuel <= fuel')%nat ->
  step fuel' c coll beh o w = step fuel c coll beh o w.
Proof.
  intros Hn Hle. destruct o; auto. cbn [step] in *. unfold process_messages in *.
  destruct (negb (rx_has_handler (w_rx w))); auto.
  rewrite (process_loop_mono c coll beh fuel 0 w); auto.
  intros E. apply Hn. rewrite E. reflexivity.
Qed.

(** A call has one result, whatever the fuel. *)
Lemma step_fuel_lemma c coll beh o w fuel fuel' :
  step fuel c coll beh o w <> Hang -> step fuel' c coll beh o w <> Hang ->
  step fuel c coll beh o w = step fuel' c coll beh o w.
Proof.
  intros H H'. destruct (Nat.le_ge_cases fuel fuel') as [L|L].
  - symmetry. apply step_mono; assumption.
  - apply step_mono; assumption.
Qed.

Lemma returns_fun c coll beh o w w1 r1 w2 r2 : returns c coll beh o w w1 r1 -> returns c coll beh o w w2 r2 ->
  w1 = w2 /\ r1 = r2.
Proof.
  intros (f1 & H1) (f2 & H2). pose proof (step_fuel_lemma c coll beh o w f1 f2) as H.
  rewrite H1, H2 in H. assert (Ok (w1, r1) = Ok (w2, r2)) as E by (apply H; discriminate). split; congruence.
Qed.

(** Deserialization only ever succeeds or is undefined. *)
Lemma deserialize_outcome c cap contents : forall ts pos acc,
  (exists vs, deserialize c cap contents ts pos acc = Ok vs) \/ deserialize c cap contents ts pos acc = UB.
Proof.
  induction ts as [|t ts IH]; intros pos acc; cbn [deserialize]; [eauto|].
  unfold unbuffer. destruct (range_ok cap pos (pos + Z.of_nat (fsize t))); [|auto].
  destruct (decode c t _); [|auto]. cbn [bind]. apply IH.
Qed.

Section Handlers.
Context (c : config) (coll : collection).
Hypothesis Hst : static_ok coll = true.
Hypothesis Hsafe : index_safe c (capacity coll).

(** C45 *)
Lemma invalid_payload_loop beh fuel n w s f m id p s0 : sim coll w s -> s_handler s <> None ->
  Skips coll (s_bytes s) (f ++ s0) -> is_frame coll f m id p ->
  (forall vs, ~ encodes (little c) (mt_fields m) vs p) ->
  process_loop (S fuel) c coll beh n w = UB.
Proof.
  intros Hs Hh HK F HE. cbn [process_loop].
  destruct (check_frame c coll Hst w s f m id p s0 Hs HK F) as (e & -> & He & Hs1). cbn [bind negb].
  unfold er_current_id. rewrite He. cbn [bind]. set (w1 := w_set_last id (w_set_recv e w)) in *.
  unfold invoke. pose proof Hs1 as (R & HB & Hf & Hi & _). cbn [s_bytes s_handler] in *. rewrite Hf, Hi.
  destruct (s_handler s) as [h|]; [|congruence]. cbn [option_map]. rewrite Z.eqb_refl. cbn [negb].
  destruct (deserialize_frame c coll Hst _ f m id p s0 R F) as (A & B & HL & E).
  destruct (deserialize_message c coll (rx_recv (w_rx w1)) id) as [x| | | |] eqn:D; try reflexivity.
  - exfalso. destruct (deserialize_message_sound c coll Hst _ _ _ _ _ _ _ R F HB D) as (vs & _ & HV). exact (HE vs HV).
  - exfalso. destruct (deserialize_outcome c (capacity coll) (A ++ p ++ B) (mt_fields m) (zlen A) []) as [(vs & E2)|E2];
      rewrite E2 in E; discriminate.
  - exfalso. destruct (deserialize_outcome c (capacity coll) (A ++ p ++ B) (mt_fields m) (zlen A) []) as [(vs & E2)|E2];
      rewrite E2 in E; discriminate.
  - exfalso. destruct (deserialize_outcome c (capacity coll) (A ++ p ++ B) (mt_fields m) (zlen A) []) as [(vs & E2)|E2];
      rewrite E2 in E; discriminate.
Qed.

Lemma step_process fuel beh w : rx_has_handler (w_rx w) = true ->
  step fuel c coll beh OpProcess w = do (w', p) <- process_loop fuel c coll beh 0 w; Ok (w', RetProcess p).
Proof. intros H. cbn [step]. unfold process_messages. rewrite H. reflexivity. Qed.

Lemma has_handler_some w : rx_has_handler (w_rx w) = true -> s_handler (view w) <> None.
Proof. unfold rx_has_handler, view. cbn. destruct (rx_functor (w_rx w)); congruence. Qed.

Lemma invalid_payload_lemma beh h0 ops S rs w fd ms r fuel : tame beh ->
  history c coll beh (start coll h0) ops S rs w ->
  rx_has_handler (w_rx w) = true -> Scan coll (held w) (fd :: ms) r ->
  (forall vs, ~ encodes (little c) (mt_fields (f_message fd)) vs (f_payload fd)) ->
  (0 < fuel)%nat -> step fuel c coll beh OpProcess w = UB.
Proof.
  intros Ht H Hh HS HE Hf. pose proof (history_sim c coll Hst Hsafe beh Ht _ _ _ _ _ H) as Hs.
  destruct (scan_first coll _ _ _ _ HS) as (f & s' & HK & F & _).
  destruct fuel as [|fuel]; [lia|]. rewrite step_process by assumption.
  rewrite (invalid_payload_loop beh fuel 0 w _ f _ _ _ s' Hs (has_handler_some w Hh) HK F HE). reflexivity.
Qed.

(** C40 *)
Lemma nested_loop beh : (forall log, exists acts, hr_acts (beh log) = AProcess :: acts) ->
  forall fuel n w s f m id p s0 vs, sim coll w s -> s_handler s <> None ->
  Skips coll (s_bytes s) (f ++ s0) -> is_frame coll f m id p ->
  encodes (little c) (mt_fields m) vs p ->
  process_loop fuel c coll beh n w = Hang.
Proof.
  intros Hb. induction fuel as [|fuel IH]; intros n w s f m id p s0 vs Hs Hh HK F HE; [reflexivity|].
  cbn [process_loop].
  destruct (check_frame c coll Hst w s f m id p s0 Hs HK F) as (e & -> & He & Hs1). cbn [bind negb].
  unfold er_current_id. rewrite He. cbn [bind]. set (w1 := w_set_last id (w_set_recv e w)) in *.
  unfold invoke. pose proof Hs1 as (R & HB & Hf & Hi & Hl & Hlog). cbn [s_bytes s_handler s_last s_log] in *. rewrite Hf, Hi.
  destruct (s_handler s) as [h|]; [|congruence]. cbn [option_map]. rewrite Z.eqb_refl. cbn [negb].
  rewrite (deserialize_message_complete c coll Hst _ _ _ _ _ _ _ R F HE). cbn [bind].
  destruct (Hb (w_log w1 ++ [Delivery h m vs])) as (acts & ->). cbn [run_acts bind w_rx].
  unfold rx_has_handler. rewrite Hf.
  rewrite (IH 0 (World (w_rx w1) (w_log w1 ++ [Delivery h m vs]))
    (SState (f ++ s0) (Some h) (Some id) (s_log s ++ [Delivery h m vs])) f m id p s0 vs); auto.
  - unfold sim. conj; auto. cbn [w_log s_log]. rewrite Hlog. reflexivity.
  - constructor.
Qed.

Lemma nested_lemma beh beh0 h0 ops S rs w fd ms r vs : tame beh0 ->
  (forall log, exists acts, hr_acts (beh log) = AProcess :: acts) ->
  history c coll beh0 (start coll h0) ops S rs w ->
  rx_has_handler (w_rx w) = true -> Scan coll (held w) (fd :: ms) r ->
  encodes (little c) (mt_fields (f_message fd)) vs (f_payload fd) ->
  forall fuel, step fuel c coll beh OpProcess w = Hang.
Proof.
  intros Ht Hb H Hh HS HE fuel. pose proof (history_sim c coll Hst Hsafe beh0 Ht _ _ _ _ _ H) as Hs.
  destruct (scan_first coll _ _ _ _ HS) as (f & s' & HK & F & _).
  rewrite step_process by assumption.
  rewrite (nested_loop beh Hb fuel 0 w _ f _ _ _ s' vs Hs (has_handler_some w Hh) HK F HE). reflexivity.
Qed.

(** Delivering one frame with a tame handler call that does not throw. *)
Lemma deliver_one beh fuel n w s f m id p s0 vs h : tame beh -> sim coll w s -> s_handler s = Some h ->
  Skips coll (s_bytes s) (f ++ s0) -> is_frame coll f m id p -> encodes (little c) (mt_fields m) vs p ->
  let log1 := s_log s ++ [Delivery h m vs] in
  let acts := hr_acts (beh log1) in
  hr_throws (beh log1) = false -> zlen (f ++ s0 ++ appended acts) <= capacity coll ->
  exists w', process_loop (S fuel) c coll beh n w = process_loop fuel c coll beh (trunc 8 (n + 1)) w'
    /\ sim coll w' (SState (s0 ++ appended acts) (handler_after acts (Some h)) (Some id) log1).
Proof.
  intros Ht Hs Hh HK F HE log1 acts HT Hfit. cbn [process_loop].
  destruct (check_frame c coll Hst w s f m id p s0 Hs HK F) as (e & -> & He & Hs1). cbn [bind negb].
  unfold er_current_id. rewrite He. cbn [bind]. set (w1 := w_set_last id (w_set_recv e w)) in *.
  unfold invoke. pose proof Hs1 as (R & HB & Hf & Hi & Hl & Hlog). cbn [s_bytes s_handler s_last s_log] in *.
  rewrite Hf, Hi, Hh. cbn [option_map]. rewrite Z.eqb_refl. cbn [negb].
  rewrite (deserialize_message_complete c coll Hst _ _ _ _ _ _ _ R F HE). cbn [bind].
  rewrite Hlog. fold log1. fold acts. rewrite HT.
  edestruct (run_acts_complete c coll Hst
      (fun w => if rx_has_handler (w_rx w) then process_loop fuel c coll beh 0 w else Ok (w, Returned 0))
      acts Hsafe (Ht log1) (World (w_rx w1) log1) (f ++ s0) (Some h) (Some id) log1)
    as (w2 & RA & Hs3 & Hid2).
  { unfold sim. conj; auto; cbn [s_handler w_rx]; congruence. }
  { rewrite <- app_assoc. assumption. }
  rewrite RA. cbn [bind orb]. cbn [w_rx] in Hid2. rewrite <- app_assoc in Hs3.
  pose proof Hs3 as (R3 & HB3 & Hf3 & Hi3 & Hl3 & Hlog3). cbn [s_bytes s_handler s_last s_log] in *.
  destruct (pop_message_spec c coll Hst (rx_recv (w_rx w2)) f m id p (s0 ++ appended acts))
    as (e3 & HPM & R4 & _); auto.
  { rewrite Hid2. exact He. }
  rewrite HPM. cbn [bind]. exists (w_set_recv e3 w2). split; [reflexivity|].
  split; [exact R4|]. apply Forall_app in HB3 as [_ HB3]. conj; auto.
Qed.

(** C39: a handler call after which no handler is set, with another frame to come. *)
Lemma clear_lemma beh h0 ops S rs w h fd1 fd2 ms r vs fuel : tame beh ->
  history c coll beh (start coll h0) ops S rs w ->
  rx_functor (w_rx w) = Some h -> Scan coll (held w) (fd1 :: fd2 :: ms) r ->
  encodes (little c) (mt_fields (f_message fd1)) vs (f_payload fd1) ->
  let hr := beh (w_log w ++ [Delivery h (f_message fd1) vs]) in
  hr_throws hr = false -> appended (hr_acts hr) = [] -> handler_after (hr_acts hr) (Some h) = None ->
  (2 <= fuel)%nat -> step fuel c coll beh OpProcess w = UB.
Proof.
  intros Ht H Hh HS HE hr HT HA HN Hf. pose proof (history_sim c coll Hst Hsafe beh Ht _ _ _ _ _ H) as Hs.
  destruct (scan_first coll _ _ _ _ HS) as (f & s' & HK & F & HS2).
  destruct (scan_first coll _ _ _ _ HS2) as (f2 & s2 & HK2 & F2 & _).
  destruct fuel as [|[|fuel]]; try lia.
  rewrite step_process by (unfold rx_has_handler; rewrite Hh; reflexivity).
  assert (zlen (f ++ s') <= capacity coll) as Hfit.
  { destruct Hs as (R & _). pose proof (rep_size_le _ _ _ R) as HL. cbn [view s_bytes] in HL.
    assert (exists K, held w = K ++ f ++ s') as (K & EK).
    { clear - HK. cbn [view s_bytes] in HK. induction HK as [X|b X Y D HK (K & ->)]; [exists []; reflexivity|].
      exists (b :: K). reflexivity. }
    rewrite EK, zlen_app in HL. pose proof (zlen_nonneg K). lia. }
  destruct (deliver_one beh (Datatypes.S fuel) 0 w (view w) f _ _ _ s' vs h Ht Hs Hh HK F HE HT) as (w' & E & Hs').
  { cbn [view s_log]. fold hr. rewrite HA, app_nil_r. exact Hfit. }
  rewrite E. cbn [view s_log] in Hs'. fold hr in Hs'. rewrite HA, HN, app_nil_r in Hs'.
  cbn [process_loop].
  destruct (check_frame c coll Hst w' _ f2 _ _ _ s2 Hs' HK2 F2) as (e & -> & He & Hs1). cbn [bind negb].
  unfold er_current_id. rewrite He. cbn [bind]. set (w1 := w_set_last _ (w_set_recv e w')) in *.
  unfold invoke. pose proof Hs1 as (_ & _ & Hf1 & Hi & _). cbn [s_handler] in *. rewrite Hf1, Hi. reflexivity.
Qed.

(** C41 *)
Lemma handler_append_lemma beh h0 ops S rs w w' n : tame beh ->
  history c coll beh (start coll h0) ops S rs w -> rx_has_handler (w_rx w) = true ->
  returns c coll beh OpProcess w w' (RetProcess (Returned n)) ->
  exists ms, Scan coll (held w ++ appended_by beh (w_log w) (new_calls w w')) ms (held w')
    /\ Forall2 (delivers (little c)) ms (new_calls w w').
Proof.
  intros Ht H Hh Hr. pose proof (history_sim c coll Hst Hsafe beh Ht _ _ _ _ _ H) as Hs.
  destruct (returns_process c coll Hst Hsafe beh Ht _ _ _ Hs Hh Hr) as (k & HP & E & _).
  destruct k as [k|]; [|discriminate].
  destruct (Proc_consumed _ _ _ _ _ _ HP (held w) []) as (new & ms & Hn & HC & HF).
  { intros T ms' r' HS. exact HS. }
  cbn [view s_log s_bytes] in *. rewrite (new_calls_app _ _ _ Hn).
  exists ms. split; [apply consumed_scan; [exact HC|]; exact (Proc_returned_undecided _ _ _ _ _ _ HP)|].
  pose proof (Proc_completed _ _ _ _ _ _ HP new Hn) as HX. cbn beta iota in HX. cbn [view s_log] in HX. rewrite HX in HF. exact HF.
Qed.

(** One handler call that appends, and then processing goes on as if the bytes had been
    appended after the message was consumed. *)
Lemma same_view_sim w v : sim coll w (view w) -> sim coll v (view w) -> same_view coll w v.
Proof.
  intros Hw Hv. pose proof (sim_eta coll _ _ Hv) as E. unfold view in E.
  pose proof (sim_available coll Hst _ _ Hw) as H1. pose proof (sim_available coll Hst _ _ Hv) as H2.
  unfold same_view. rewrite H1, H2. conj; congruence.
Qed.

Lemma view_of w s : sim coll w s -> view w = s.
Proof. intros H. symmetry. apply (sim_eta coll), H. Qed.

(** C42 *)
Lemma build_lemma c2 beh h0 ops S rs w : tame beh -> little c2 = little c -> index_safe c2 (capacity coll) ->
  history c coll beh (start coll h0) ops S rs w ->
  exists v, history c2 coll beh (start coll h0) ops S rs v /\ same_view coll w v.
Proof.
  intros Ht HE Hs2 H.
  destruct (history_transfer c coll Hst Hsafe c2 beh Ht HE Hs2 _ _ _ _ _ _ _ (start_sim coll Hst h0) (start_sim coll Hst h0) H)
    as (v & s & Hv & Hsw & Hsv). exists v. split; [assumption|].
  pose proof (view_of _ _ Hsw) as E. apply same_view_sim; rewrite E; assumption.
Qed.

(** C44 *)
Lemma copy_sim w r : sim coll w (view w) -> rx_copy coll (w_rx w) = Ok r -> sim coll (World r (w_log w)) (view w).
Proof.
  intros (R & HB & Hf & Hi & Hl & Hlog) E. unfold rx_copy in E.
  destruct (rep_copy _ (capacity_ok coll Hst) _ _ R) as (b & Eb & Rb). rewrite Eb in E. cbn [bind] in E. injection E as <-.
  unfold sim. conj; auto.
Qed.

Lemma assign_sim w v r Y : sim coll w (view w) -> sim coll v Y -> rx_assign coll (w_rx w) (w_rx v) = Ok r ->
  sim coll (World r (w_log w)) (view w).
Proof.
  intros (R & HB & Hf & Hi & Hl & Hlog) (R2 & _) E. unfold rx_assign in E.
  destruct (rep_assign _ (capacity_ok coll Hst) _ _ _ _ R R2) as (b & Eb & Rb). rewrite Eb in E. cbn [bind] in E. injection E as <-.
  unfold sim. conj; auto.
Qed.

Lemma alike beh w v : tame beh -> sim coll w (view w) -> sim coll v (view w) ->
  same_view coll w v
  /\ (forall ops S rs w', history c coll beh w ops S rs w' ->
        exists v', history c coll beh v ops S rs v' /\ same_view coll w' v')
  /\ (forall ops S rs v', history c coll beh v ops S rs v' ->
        exists w', history c coll beh w ops S rs w' /\ same_view coll w' v').
Proof.
  intros Ht Hw Hv. split; [apply same_view_sim; assumption|]. split.
  - intros ops S rs w' H.
    destruct (history_transfer c coll Hst Hsafe c beh Ht eq_refl Hsafe _ _ _ _ _ _ _ Hw Hv H) as (v' & s & Hv' & S1 & S2).
    exists v'. split; [assumption|]. pose proof (view_of _ _ S1) as E. apply same_view_sim; rewrite E; assumption.
  - intros ops S rs v' H.
    destruct (history_transfer c coll Hst Hsafe c beh Ht eq_refl Hsafe _ _ _ _ _ _ _ Hv Hw H) as (w' & s & Hw' & S1 & S2).
    exists w'. split; [assumption|]. pose proof (view_of _ _ S2) as E. apply same_view_sim; rewrite E; assumption.
Qed.

Lemma copy_receiver_lemma beh h0 ops S rs w cat : tame beh -> history c coll beh (start coll h0) ops S rs w ->
  cat <> Lvalue ->
  exists r, rx_construct coll cat (FromReceiver (w_rx w)) = Ok r /\ let v := World r (w_log w) in
    same_view coll w v
    /\ (forall ops' S' rs' w', history c coll beh w ops' S' rs' w' ->
        exists v', history c coll beh v ops' S' rs' v' /\ same_view coll w' v')
    /\ (forall ops' S' rs' v', history c coll beh v ops' S' rs' v' ->
        exists w', history c coll beh w ops' S' rs' w' /\ same_view coll w' v').
Proof.
  intros Ht H Hcat. pose proof (history_sim c coll Hst Hsafe beh Ht _ _ _ _ _ H) as Hs.
  pose proof Hs as (R & _). destruct (rep_copy _ (capacity_ok coll Hst) _ _ R) as (b & Eb & _).
  replace (rx_construct coll cat (FromReceiver (w_rx w))) with (rx_copy coll (w_rx w)) by (destruct cat; [contradiction | reflexivity..]).
  unfold rx_copy at 1. rewrite Eb. cbn [bind]. eexists. split; [reflexivity|]. cbv zeta.
  apply alike; auto. apply copy_sim; [assumption|]. unfold rx_copy. rewrite Eb. reflexivity.
Qed.

Lemma assign_receiver_lemma beh beh2 h0 h1 ops S rs w ops2 S2 rs2 u : tame beh -> tame beh2 ->
  history c coll beh (start coll h0) ops S rs w -> history c coll beh2 (start coll h1) ops2 S2 rs2 u ->
  exists r, rx_assign coll (w_rx w) (w_rx u) = Ok r /\ let v := World r (w_log w) in
    same_view coll w v
    /\ (forall ops' S' rs' w', history c coll beh w ops' S' rs' w' ->
        exists v', history c coll beh v ops' S' rs' v' /\ same_view coll w' v')
    /\ (forall ops' S' rs' v', history c coll beh v ops' S' rs' v' ->
        exists w', history c coll beh w ops' S' rs' w' /\ same_view coll w' v').
Proof.
  intros Ht Ht2 H H2. pose proof (history_sim c coll Hst Hsafe beh Ht _ _ _ _ _ H) as Hs.
  pose proof (history_sim c coll Hst Hsafe beh2 Ht2 _ _ _ _ _ H2) as Hs2.
  pose proof Hs as (R & _). pose proof Hs2 as (R2 & _).
  destruct (rep_assign _ (capacity_ok coll Hst) _ _ _ _ R R2) as (b & Eb & _).
  unfold rx_assign at 1. rewrite Eb. cbn [bind]. eexists. split; [reflexivity|]. cbv zeta.
  apply alike; auto. eapply assign_sim; [assumption|exact Hs2|]. unfold rx_assign. rewrite Eb. reflexivity.
Qed.

Lemma self_assign_receiver_lemma beh h0 ops S rs w : tame beh -> history c coll beh (start coll h0) ops S rs w ->
  if (rb_begin (er_buf (rx_recv (w_rx w))) =? 0) && negb (zlen (held w) =? 0)
  then rx_self_assign coll (w_rx w) = UB
  else exists r, rx_self_assign coll (w_rx w) = Ok r /\ let v := World r (w_log w) in
    same_view coll w v
    /\ (forall ops' S' rs' w', history c coll beh w ops' S' rs' w' ->
        exists v', history c coll beh v ops' S' rs' v' /\ same_view coll w' v')
    /\ (forall ops' S' rs' v', history c coll beh v ops' S' rs' v' ->
        exists w', history c coll beh w ops' S' rs' w' /\ same_view coll w' v').
Proof.
  intros Ht H. pose proof (history_sim c coll Hst Hsafe beh Ht _ _ _ _ _ H) as Hs.
  pose proof Hs as (R & HB & Hf & Hi & Hl & Hlog). pose proof (rep_empty _ _ _ R) as He.
  change (s_bytes (view w)) with (held w) in *.
  assert (held w = [] \/ rb_begin (er_buf (rx_recv (w_rx w))) <> 0 ->
    exists r, rx_self_assign coll (w_rx w) = Ok r /\ sim coll (World r (w_log w)) (view w)) as HOK.
  { intros HC. destruct (rep_slide _ (capacity_ok coll Hst) _ _ R) as (b & E & Rb & _).
    { destruct HC as [HC|HC]; [left; assumption | right]. destruct (rep_inv _ _ _ R) as (HI & _). lia. }
    unfold rx_self_assign, rb_self_assign. rewrite E. cbn [bind]. eexists. split; [reflexivity|]. unfold sim. conj; auto. }
  destruct (Z.eqb_spec (rb_begin (er_buf (rx_recv (w_rx w)))) 0) as [H0|H0]; cbn [andb].
  - destruct (held w) as [|x X] eqn:EX.
    + cbn [zlen length Z.of_nat Z.eqb negb]. destruct (HOK (or_introl eq_refl)) as (r & Er & Hr).
      exists r. split; [assumption|]. apply alike; auto.
    + rewrite zlen_cons. pose proof (zlen_nonneg X). rewrite (proj2 (Z.eqb_neq _ _)) by lia. cbn [negb].
      unfold rx_self_assign, rb_self_assign, rb_slide. rewrite H0, He. reflexivity.
  - destruct (HOK (or_intror H0)) as (r & Er & Hr). exists r. split; [assumption|]. apply alike; auto.
Qed.

End Handlers.

Lemma from_handler_lemma c coll beh h cat :
  match rx_construct coll cat (FromHandler h) with
  | Ok r => cat = Lvalue /\ returns c coll beh (OpSetHandler h) (start coll None) (World r []) RetUnit
  | Rejected => cat <> Lvalue
  | _ => False
  end.
Proof.
  destruct cat; cbn; [|discriminate..]. split; [reflexivity|]. exists 1%nat. reflexivity.
Qed.
