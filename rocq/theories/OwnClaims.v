(** The claims on application-written envelopes, the width of the size type found. *)
From Verif Require Export OwnCases.

Section Claims.
Context (c : config) (oc : own_collection) (Hst : own_static_ok oc = true).
Context (Hsafe : index_safe c (own_capacity oc)).

Lemma own_safe_claim beh h0 ops S rs v o : well_behaved oc -> steady beh -> policy_total c oc ->
  own_history c oc beh (own_start oc h0) ops S rs v -> own_allowed oc o v ->
  exists v' r, own_step (Z.to_nat (own_capacity oc) + 1) c oc beh o v = Ok (v', r).
Proof.
  intros. destruct (own_width oc Hst) as (w & Hw).
  eapply (own_safe_lemma c oc Hst w Hw Hsafe); eassumption.
Qed.

Lemma own_effect_claim beh h0 ops S rs v : well_behaved oc -> policy_reads c oc -> tame beh ->
  own_history c oc beh (own_start oc h0) ops S rs v ->
  forall v' r, own_returns c oc beh OpProcess v v' r ->
  match rx_functor (w_rx v) with
  | None => v' = v /\ r = RetProcess (Returned 0)
  | Some _ => exists w k, size_type (own_capacity oc) w
                /\ OProc w oc c beh (own_id v) (view v) (own_id v') (view v') k
                /\ r = RetProcess (spec_result k)
  end.
Proof.
  intros Hwb Hpr Ht H v' r Hr. destruct (own_width oc Hst) as (w & Hw).
  pose proof (own_history_good c oc Hst w Hw Hsafe Hwb beh h0 ops S rs v Hpr Ht H) as G.
  destruct (rx_functor (w_rx v)) as [h|] eqn:E.
  - destruct (own_process_effect c oc Hst w Hw Hwb beh v v' r h Hpr Ht G E Hr) as (k & HP & Hk & _). exists w, k. auto.
  - destruct Hr as (fuel & Hr). cbn [own_step] in Hr. unfold own_process in Hr.
    assert (rx_has_handler (w_rx v) = false) as Hh.
    { unfold rx_has_handler. rewrite E. reflexivity. }
    rewrite Hh in Hr. cbn [negb bind] in Hr. injection Hr as <- <-. auto.
Qed.

Lemma own_in_order_claim cs beh h0 ops S rs v msgs B T : matched oc -> policy_matched cs c oc -> steady beh ->
  Forall (own_sendable oc) msgs -> own_send_all cs oc vector_tx msgs [] = Ok B ->
  own_history c oc beh (own_start oc h0) ops S rs v -> B = S ++ T ->
  (exists done rest, msgs = done ++ rest /\ map content (completed beh [] (w_log v)) = done
     /\ own_send_all cs oc vector_tx rest [] = Ok (held v ++ T))
  /\ forall o, own_allowed oc o v ->
       exists v' r, own_step (Z.to_nat (own_capacity oc) + 1) c oc beh o v = Ok (v', r).
Proof.
  intros. destruct (own_width oc Hst) as (w & Hw). split.
  - eapply (own_in_order_lemma c oc Hst w Hw Hsafe cs); eassumption.
  - intros o Ho. eapply (own_in_order_progress_lemma c oc Hst w Hw Hsafe cs); eassumption.
Qed.

Lemma own_drained_claim cs beh h0 ops S rs v msgs B T v' k : matched oc -> policy_matched cs c oc -> steady beh ->
  Forall (own_sendable oc) msgs -> own_send_all cs oc vector_tx msgs [] = Ok B ->
  own_history c oc beh (own_start oc h0) ops S rs v -> B = S ++ T ->
  rx_has_handler (w_rx v) = true -> own_returns c oc beh OpProcess v v' (RetProcess (Returned k)) ->
  (forall m vs rest, msgs = map content (completed beh [] (w_log v')) ++ (m, vs) :: rest ->
     zlen (held v') < own_length oc m)
  /\ (T = [] -> map content (completed beh [] (w_log v')) = msgs /\ held v' = [])
  /\ k = zlen (completed beh (w_log v) (new_calls v v')) mod 256.
Proof.
  intros. destruct (own_width oc Hst) as (w & Hw).
  eapply (own_drained_lemma c oc Hst w Hw Hsafe cs); eassumption.
Qed.
End Claims.

Lemma own_send_claim c oc : own_static_ok oc = true -> forall m vs, has_types vs (mt_fields m) = true ->
  (In m (oc_types oc) ->
    exists f l, own_frame c oc m vs f /\ calls_bytes l = f
    /\ forall S (t : transmitter S) s,
         own_send c oc m t (combine (mt_fields m) vs) s = do s' <- run_calls t l s; tx_finished t s')
  /\ (~ In m (oc_types oc) ->
    forall S (t : transmitter S) s, own_send c oc m t (combine (mt_fields m) vs) s = Rejected).
Proof.
  intros Hst m vs Hv. split.
  - intros Hm. apply own_send_calls; assumption.
  - intros Hm S t s. unfold own_send. rewrite (find_index_notin _ _ Hm). destruct (negb _); reflexivity.
Qed.

Lemma shipped_same_claim c coll : static_ok coll = true -> index_safe c (capacity coll) ->
  forall beh h0, tame beh ->
  own_start (as_own coll) h0 = start coll h0
  /\ forall ops S rs v, history c coll beh (start coll h0) ops S rs v ->
     forall fuel o, own_step fuel c (as_own coll) beh o v = step fuel c coll beh o v.
Proof.
  intros Hst Hsafe beh h0 Ht. split; [apply own_start_shipped|]. intros ops S rs v H fuel o.
  eapply own_shipped_lemma; eassumption.
Qed.

Lemma shipped_good_claim coll : static_ok coll = true ->
  own_static_ok (as_own coll) = true /\ well_behaved (as_own coll) /\ matched (as_own coll)
  /\ forall m, own_length (as_own coll) m = Z.of_nat (frame_size (mc_env coll) m).
Proof.
  intros H. split; [rewrite as_own_static; exact H|]. split; [apply shipped_well_behaved; exact H|].
  split; [apply shipped_matched; exact H|]. intros m. apply shipped_length.
Qed.

Lemma bitwise_claim oc : own_static_ok oc = true -> oe_policy (oc_env oc) = bitwise ->
  (forall c, policy_reads c oc)
  /\ (own_bool_free oc -> forall c, policy_total c oc)
  /\ (forall cs c, little cs = little c -> policy_matched cs c oc)
  /\ forall c m vs, has_types vs (mt_fields m) = true ->
     own_written c oc m vs = spec_payload (little c) (mt_fields m) vs.
Proof.
  intros Hst HP. split; [intros c; apply bitwise_policy_reads; assumption|].
  split; [intros Hb c; apply bitwise_policy_total; assumption|].
  split; [intros cs c HL; apply bitwise_policy_matched; assumption|].
  intros c m vs Hv. unfold own_written. rewrite HP. apply bitwise_written, Hv.
Qed.

Lemma portable_claim oc c0 : portable (oe_policy (oc_env oc)) -> policy_matched c0 c0 oc ->
  forall cs c, policy_matched cs c oc.
Proof. intros (HB & HR). exact (portable_policy_matched oc HB HR c0). Qed.

Lemma portable_send_claim oc : portable (oe_policy (oc_env oc)) ->
  forall c c' m T (t : transmitter T) contents s, own_send c oc m t contents s = own_send c' oc m t contents s.
Proof. intros (HB & _). exact (portable_send oc HB). Qed.

Lemma portable_in_order_claim cs c c0 oc : own_static_ok oc = true -> index_safe c (own_capacity oc) ->
  forall beh h0 ops S rs v msgs B T, matched oc ->
  portable (oe_policy (oc_env oc)) -> policy_matched c0 c0 oc -> steady beh ->
  Forall (own_sendable oc) msgs -> own_send_all cs oc vector_tx msgs [] = Ok B ->
  own_history c oc beh (own_start oc h0) ops S rs v -> B = S ++ T ->
  (exists done rest, msgs = done ++ rest /\ map content (completed beh [] (w_log v)) = done
     /\ own_send_all cs oc vector_tx rest [] = Ok (held v ++ T))
  /\ forall o, own_allowed oc o v ->
       exists v' r, own_step (Z.to_nat (own_capacity oc) + 1) c oc beh o v = Ok (v', r).
Proof.
  intros Hst Hsafe beh h0 ops S rs v msgs B T HM HP H0 Hb. intros.
  eapply (own_in_order_claim c oc Hst Hsafe cs); eauto. exact (portable_claim oc c0 HP H0 cs c).
Qed.
