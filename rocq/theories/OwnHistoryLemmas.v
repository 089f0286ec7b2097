(** Histories of a receiver with an envelope written by an application. *)
From Verif Require Export OwnMatchLemmas.

Section Own.
Context (c : config) (oc : own_collection) (Hst : own_static_ok oc = true).
Local Notation cap := (own_capacity oc).
Context (w : Z) (Hw : size_type cap w) (Hsafe : index_safe c cap).
Let Hcap : cap_ok cap := own_cap_ok oc Hst.

(** The state of the receiver in terms of the specification. *)
Definition own_good (v : world) : Prop := own_sim oc (own_id v) v (view v).

Lemma own_sim_view id v s : own_sim oc id v s -> s = view v /\ id = own_id v.
Proof.
  intros (R & HB & Hid & HI & Hf & Hi & Hl & Hlog). destruct s as [X h last log].
  cbn [s_bytes s_handler s_last s_log] in *. split; [|symmetry; exact Hid].
  unfold view. f_equal; try (symmetry; assumption). symmetry. exact (rep_bytes _ _ _ R).
Qed.
Lemma own_sim_good id v s : own_sim oc id v s -> own_good v.
Proof. intros H. destruct (own_sim_view _ _ _ H) as (-> & ->). exact H. Qed.

Lemma own_start_good h : own_good (own_start oc h).
Proof. apply (own_sim_good _ _ _ (own_start_sim oc Hst h)). Qed.
Lemma own_start_view h : view (own_start oc h) = SState [] h None [].
Proof. symmetry. exact (proj1 (own_sim_view _ _ _ (own_start_sim oc Hst h))). Qed.

Lemma own_good_handler v : own_good v -> rx_has_handler (w_rx v) = match rx_functor (w_rx v) with Some _ => true | None => false end.
Proof. intros (_ & _ & _ & _ & _ & _ & _ & _). unfold rx_has_handler. destruct (rx_functor (w_rx v)); reflexivity. Qed.

(** Operations other than processMessages. *)
Lemma own_other beh fuel o v : o <> OpProcess -> own_good v -> own_allowed oc o v ->
  exists v' r, own_step fuel c oc beh o v = Ok (v', r) /\ own_good v'
    /\ held v' = held v ++ own_received oc beh o v v' /\ w_log v' = w_log v
    /\ rx_last_id (w_rx v') = rx_last_id (w_rx v) /\ own_id v' = own_id v
    /\ rx_functor (w_rx v') = match o with OpSetHandler h => Some h | OpClearHandler => None | _ => rx_functor (w_rx v) end.
Proof.
  intros Ho Hg Ha. destruct (own_step_other c oc Hst beh fuel o _ v _ _ _ _ Hsafe Ho Hg Ha) as (v' & r & E & Hs).
  exists v', r. split; [assumption|]. split; [exact (own_sim_good _ _ _ Hs)|].
  destruct (own_sim_view _ _ _ Hs) as (EV & EI). unfold view in EV.
  injection EV as E1 E2 E3 E4. repeat split; auto.
Qed.

Lemma own_other_returns beh o v v' r : o <> OpProcess -> own_good v -> own_allowed oc o v -> own_returns c oc beh o v v' r ->
  own_good v' /\ held v' = held v ++ own_received oc beh o v v' /\ w_log v' = w_log v
    /\ rx_last_id (w_rx v') = rx_last_id (w_rx v) /\ own_id v' = own_id v
    /\ rx_functor (w_rx v') = match o with OpSetHandler h => Some h | OpClearHandler => None | _ => rx_functor (w_rx v) end.
Proof.
  intros Ho Hg Ha (fuel & E). destruct (own_other beh fuel o v Ho Hg Ha) as (v1 & r1 & E1 & H).
  rewrite E in E1. injection E1 as <- <-. exact H.
Qed.

(** processMessages without a handler. *)
Lemma own_process_none fuel beh v : rx_functor (w_rx v) = None ->
  own_step fuel c oc beh OpProcess v = Ok (v, RetProcess (Returned 0)).
Proof. intros H. cbn [own_step]. unfold own_process, rx_has_handler. rewrite H. reflexivity. Qed.
Lemma own_process_some fuel beh v h : rx_functor (w_rx v) = Some h ->
  own_step fuel c oc beh OpProcess v = do (v', p) <- own_loop fuel c oc beh 0 v; Ok (v', RetProcess p).
Proof. intros H. cbn [own_step]. unfold own_process, rx_has_handler. rewrite H. reflexivity. Qed.

Section Well.
Context (WB : well_behaved oc) (beh : hbehav).

Lemma own_process_effect v v' r h : policy_reads c oc -> tame beh -> own_good v -> rx_functor (w_rx v) = Some h ->
  own_returns c oc beh OpProcess v v' r ->
  exists k, OProc w oc c beh (own_id v) (view v) (own_id v') (view v') k
    /\ r = RetProcess (spec_result k) /\ own_good v'.
Proof.
  intros HP0 Ht Hg Hh (fuel & E). rewrite (own_process_some _ _ _ _ Hh) in E.
  destruct (own_loop fuel c oc beh 0 v) as [(v1, p)| | | |] eqn:EL; try discriminate. cbn [bind] in E.
  injection E as <- <-.
  destruct (own_process_sound c oc Hst w Hw WB beh HP0 Ht fuel 0 _ _ _ _ _ Hg EL ltac:(lia)) as (s' & k & id' & HP & Hs & ->).
  exists k. destruct (own_sim_view _ _ _ Hs) as (-> & ->). split; [assumption|]. split; [|exact Hs].
  unfold spec_result. destruct k; reflexivity.
Qed.

Lemma total_reads : policy_total c oc -> policy_reads c oc.
Proof. intros H m bs Hm HB HL. destruct (H m bs Hm HB HL) as (vs & E). eauto. Qed.

Lemma own_history_good h0 ops S rs v : policy_reads c oc -> tame beh -> own_history c oc beh (own_start oc h0) ops S rs v -> own_good v.
Proof.
  intros HP0 Ht H. induction H as [|ops S rs v1 o r v2 H IH Ha Hr]; [apply own_start_good|].
  destruct o as [h| |d|a|].
  5:{ destruct (rx_functor (w_rx v1)) as [h|] eqn:Hh.
      - destruct (own_process_effect _ _ _ _ HP0 Ht IH Hh Hr) as (_ & _ & _ & Hg). exact Hg.
      - destruct Hr as (fuel & E). rewrite own_process_none in E by assumption. injection E as <- _. exact IH. }
  all: refine (proj1 (own_other_returns beh _ _ _ _ _ IH Ha Hr)); discriminate.
Qed.

Lemma own_safe_lemma h0 ops S rs v o : steady beh -> policy_total c oc ->
  own_history c oc beh (own_start oc h0) ops S rs v -> own_allowed oc o v ->
  exists v' r, own_step (Z.to_nat cap + 1) c oc beh o v = Ok (v', r).
Proof.
  intros Hb HF H Ha. pose proof (own_history_good _ _ _ _ _ (total_reads HF) (steady_tame _ Hb) H) as Hg.
  destruct o as [h| |d|a|].
  5:{ destruct (rx_functor (w_rx v)) as [h|] eqn:Hh.
      - rewrite (own_process_some _ _ _ _ Hh). pose proof Hg as (R & _). pose proof (rep_size_le _ _ _ R).
        unfold own_good in Hg. unfold view in Hg. rewrite Hh in Hg. cbn [view s_bytes] in *.
        destruct (own_process_total c oc Hst w Hw WB beh Hb Hsafe HF (Z.to_nat cap + 1)%nat 0 _ _ _ _ _ _ Hg) as (v' & p & ->);
          [lia|]. cbn [bind]. eauto.
      - rewrite own_process_none by assumption. eauto. }
  all: edestruct (own_other beh (Z.to_nat cap + 1)%nat) as (v' & r & E & _); [|exact Hg|exact Ha|rewrite E; eauto]; discriminate.
Qed.
End Well.

(** ** Matched envelopes *)
Section Match.
Context (cs : config) (HM : matched oc) (He : policy_matched cs c oc) (beh : hbehav) (Hb : steady beh).

Lemma appended_by_nil log new : appended_by beh log new = [].
Proof. apply appended_by_steady, Hb. Qed.

Lemma matched_history h0 ops S rs v : own_history c oc beh (own_start oc h0) ops S rs v ->
  forall msgs F T, frames_of cs oc msgs F -> S ++ T = concat F ->
  own_good v /\ exists done rest Fd Fr, msgs = done ++ rest /\ F = Fd ++ Fr /\ frames_of cs oc rest Fr
    /\ map content (completed beh [] (w_log v)) = done /\ S = concat Fd ++ held v /\ held v ++ T = concat Fr.
Proof.
  intros H. induction H as [|ops S rs v1 o r v2 H IH Ha Hr]; intros msgs F T HF HS.
  - split; [apply own_start_good|]. exists [], msgs, [], F.
    assert (held (own_start oc h0) = []) as -> by (exact (f_equal s_bytes (own_start_view h0))).
    repeat (split; [first [reflexivity | assumption]|]). assumption.
  - rewrite <- app_assoc in HS. destruct (IH msgs F _ HF HS) as (Hg & done & rest & Fd & Fr & -> & -> & HFr & Hd & ES & ET).
    destruct o as [h| |d|a|].
    5:{ cbn [own_received] in *. rewrite appended_by_nil in *. cbn [app] in *. rewrite app_nil_r.
        destruct (rx_functor (w_rx v1)) as [h|] eqn:Hh.
        - destruct Hr as (fuel & E). rewrite (own_process_some _ _ _ _ Hh) in E.
          destruct (own_loop fuel c oc beh 0 v1) as [(v', p)| | | |] eqn:EL; try discriminate. cbn [bind] in E.
          injection E as <- <-. unfold own_good, view in Hg. rewrite Hh in Hg.
          destruct (matched_loop c cs oc Hst w Hw HM He Hsafe beh Hb fuel 0 _ _ _ _ _ _ Fr rest T Hg HFr ET ltac:(lia)) as (_ & HL).
          destruct (HL _ _ EL) as (id' & X' & h' & last' & new & done' & rest' & Fd' & Fr' & Q1 & -> & -> & Q4 & Q5 & Q6 & Q7 & _).
          split; [exact (own_sim_good _ _ _ Q1)|]. destruct (own_sim_view _ _ _ Q1) as (EV & _). unfold view in EV.
          injection EV as E1 _ _ E4. subst X'.
          exists (done ++ done'), rest', (Fd ++ Fd'), Fr'. rewrite !app_assoc.
          repeat (split; [first [reflexivity | assumption]|]).
          split; [|split; [|assumption]].
          + rewrite <- E4, completed_app, map_app. cbn [app]. rewrite Hd, Q5. reflexivity.
          + rewrite concat_app, ES, Q6, app_assoc. reflexivity.
        - destruct Hr as (fuel & E). rewrite own_process_none in E by assumption. injection E as <- _.
          split; [exact Hg|]. exists done, rest, Fd, Fr. auto 10. }
    all: match type of Hr with own_returns _ _ _ ?o _ _ _ => assert (o <> OpProcess) as Ho by discriminate end;
         destruct (own_other_returns beh _ _ _ _ Ho Hg Ha Hr) as (Hg2 & Eh & El & _);
         split; [exact Hg2|]; exists done, rest, Fd, Fr;
         repeat (split; [first [reflexivity | assumption]|]); rewrite El, Eh, ES, <- !app_assoc; auto.
Qed.

Lemma frames_of_sendable msgs F : Forall (own_sendable oc) msgs ->
  Forall2 (fun mv f => own_frame cs oc (fst mv) (snd mv) f) msgs F -> frames_of cs oc msgs F.
Proof.
  intros HS HF. induction HF as [|mv f msgs F Hf HF IH]; [constructor|].
  inversion HS as [|? ? (S1 & S2) HS']; subst. constructor; [auto | exact (IH HS')].
Qed.

(** The operation after a history on a beginning of what was sent. *)
Lemma own_in_order_lemma h0 ops S rs v msgs B T : Forall (own_sendable oc) msgs ->
  own_send_all cs oc vector_tx msgs [] = Ok B -> own_history c oc beh (own_start oc h0) ops S rs v -> B = S ++ T ->
  exists done rest, msgs = done ++ rest /\ map content (completed beh [] (w_log v)) = done
    /\ own_send_all cs oc vector_tx rest [] = Ok (held v ++ T).
Proof.
  intros HS HB H ->. destruct (own_send_all_vector cs oc Hst msgs HS []) as (F & HF & E). rewrite HB in E.
  injection E as E. cbn [app] in E. pose proof (frames_of_sendable _ _ HS HF) as HF'.
  destruct (matched_history _ _ _ _ _ H msgs F T HF' E) as (_ & done & rest & Fd & Fr & -> & -> & HFr & Hd & _ & ET).
  exists done, rest. split; [reflexivity|]. split; [assumption|].
  apply Forall_app in HS as (_ & HS). destruct (own_send_all_vector cs oc Hst rest HS []) as (F2 & HF2 & E2).
  rewrite E2. cbn [app]. rewrite ET. do 2 f_equal. clear - HFr HF2.
  revert F2 HF2. induction HFr as [|mv f rest Fr (_ & Hf) HFr IH]; intros F2 HF2; inversion HF2; subst; [reflexivity|].
  f_equal; [eapply own_frame_fun; eassumption | auto].
Qed.

Lemma own_in_order_progress_lemma h0 ops S rs v msgs B T o : Forall (own_sendable oc) msgs ->
  own_send_all cs oc vector_tx msgs [] = Ok B -> own_history c oc beh (own_start oc h0) ops S rs v -> B = S ++ T ->
  own_allowed oc o v ->
  exists v' r, own_step (Z.to_nat cap + 1) c oc beh o v = Ok (v', r).
Proof.
  intros HS HB H -> Ha. destruct (own_send_all_vector cs oc Hst msgs HS []) as (F & HF & E). rewrite HB in E.
  injection E as E. cbn [app] in E. pose proof (frames_of_sendable _ _ HS HF) as HF'.
  destruct (matched_history _ _ _ _ _ H msgs F T HF' E) as (Hg & done & rest & Fd & Fr & _ & _ & HFr & _ & _ & ET).
  destruct o as [h| |d|a|].
  5:{ destruct (rx_functor (w_rx v)) as [h|] eqn:Hh.
      - rewrite (own_process_some _ _ _ _ Hh). pose proof Hg as (R & _). pose proof (rep_size_le _ _ _ R).
        unfold own_good in Hg. unfold view in Hg. rewrite Hh in Hg. cbn [view s_bytes] in *.
        destruct (matched_loop c cs oc Hst w Hw HM He Hsafe beh Hb (Z.to_nat cap + 1)%nat 0 _ _ _ _ _ _ Fr rest T Hg HFr ET ltac:(lia)) as (HL & _).
        destruct HL as ((v', p) & ->); [lia|]. cbn [bind]. eauto.
      - rewrite own_process_none by assumption. eauto. }
  all: edestruct (own_other beh (Z.to_nat cap + 1)%nat) as (v' & r & E' & _); [|exact Hg|exact Ha|rewrite E'; eauto]; discriminate.
Qed.

Lemma own_drained_lemma h0 ops S rs v msgs B T v' k : Forall (own_sendable oc) msgs ->
  own_send_all cs oc vector_tx msgs [] = Ok B -> own_history c oc beh (own_start oc h0) ops S rs v -> B = S ++ T ->
  rx_has_handler (w_rx v) = true -> own_returns c oc beh OpProcess v v' (RetProcess (Returned k)) ->
  (forall m vs rest, msgs = map content (completed beh [] (w_log v')) ++ (m, vs) :: rest ->
     zlen (held v') < own_length oc m)
  /\ (T = [] -> map content (completed beh [] (w_log v')) = msgs /\ held v' = [])
  /\ k = zlen (completed beh (w_log v) (new_calls v v')) mod 256.
Proof.
  intros HS HB H -> Hh (fuel & Hr). destruct (own_send_all_vector cs oc Hst msgs HS []) as (F & HF & E). rewrite HB in E.
  injection E as E. cbn [app] in E. pose proof (frames_of_sendable _ _ HS HF) as HF'.
  destruct (matched_history _ _ _ _ _ H msgs F T HF' E) as (Hg & done & rest & Fd & Fr & -> & _ & HFr & Hd & _ & ET).
  rewrite (own_good_handler _ Hg) in Hh. destruct (rx_functor (w_rx v)) as [h|] eqn:Eh; [|discriminate].
  rewrite (own_process_some _ _ _ _ Eh) in Hr. unfold own_good, view in Hg. rewrite Eh in Hg.
  destruct (own_loop fuel c oc beh 0 v) as [(v1, p)| | | |] eqn:EL; try discriminate. cbn [bind] in Hr.
  injection Hr as -> ->.
  destruct (matched_loop c cs oc Hst w Hw HM He Hsafe beh Hb fuel 0 _ _ _ _ _ _ Fr rest T Hg HFr ET ltac:(lia)) as (_ & HL).
  destruct (HL _ _ EL) as (id' & X' & h' & last' & new & done' & rest' & Fd' & Fr' & Q1 & -> & -> & Q4 & Q5 & Q6 & Q7 & (Q8 & Q9)).
  destruct (own_sim_view _ _ _ Q1) as (EV & _). unfold view in EV. injection EV as E1 _ _ E4. subst X'.
  assert (map content (completed beh [] (w_log v')) = done ++ done') as EC.
  { rewrite <- E4, completed_app, map_app. cbn [app]. rewrite Hd, Q5. reflexivity. }
  rewrite EC. split; [|split].
  - intros m vs rest2 E2. rewrite app_assoc in E2. apply app_inv_head in E2. subst rest'.
    inversion Q4 as [|? f ? Fr2 (Hv & Hf) ? EA EB]; subst. cbn [short fst snd] in *.
    destruct (own_frame_facts c cs oc w Hw HM He m vs f Hv Hf) as (i & _ & <- & _). exact Q8.
  - intros ->. rewrite app_nil_r in Q7. destruct Q4 as [|(m, vs) f rest' Fr' (Hv & Hf) Q4].
    + cbn [short] in Q8. rewrite !app_nil_r. auto.
    + exfalso. cbn [short concat] in *. rewrite Q7, zlen_app in Q8. pose proof (zlen_nonneg (concat Fr')). lia.
  - rewrite (new_calls_app v v' new) by (symmetry; exact E4). rewrite Q9, <- Q5. unfold zlen. rewrite map_length. reflexivity.
Qed.
End Match.
End Own.

Lemma own_width oc : own_static_ok oc = true -> exists w, size_type (own_capacity oc) w.
Proof.
  intros Hst. pose proof (own_cap_ok oc Hst) as (H1 & H2). set (cap := own_capacity oc) in *.
  destruct (Z_lt_dec cap (2 ^ 8)); [exists 8|destruct (Z_lt_dec cap (2 ^ 16)); [exists 16|destruct (Z_lt_dec cap (2 ^ 32)); [exists 32|exists 64]]].
  all: split; [cbn [In]; tauto|]; split; [lia|].
  all: intros u Hu Hc; cbn [In] in Hu; destruct Hu as [<-|[<-|[<-|[<-|[]]]]]; lia.
Qed.
