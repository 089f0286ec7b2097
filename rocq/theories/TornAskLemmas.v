(** getBufferAvailableSpace interrupted by processMessages. *)
From Verif Require Import ReceiverProofs ArrivalHistory FeedLemmas PolledSeparate TornAppendLemmas OperationLemmas.
From Verif Require Export TornAsk.

Section Ask.
Context (c : config) (coll : collection) (Hst : static_ok coll = true) (Hsafe : index_safe c (capacity coll)).
Context (beh : hbehav) (Hb : steady beh) (fuel : nat).

Lemma interrupt_history now w w2 ps : w_interrupt fuel c coll beh now w = Ok (w2, ps) ->
  history c coll beh w (map (fun _ => OpProcess) ps) [] (map RetProcess ps) w2.
Proof.
  intros E. destruct now; cbn [w_interrupt] in E.
  - destruct (process_messages fuel c coll beh w) as [[w3 p]| | | |] eqn:EP; try discriminate. cbn [bind] in E. injection E as <- <-.
    assert (step fuel c coll beh OpProcess w = Ok (w3, RetProcess p)) as E' by (cbn [step]; rewrite EP; reflexivity).
    pose proof (hist_snoc c coll beh w [] [] [] w OpProcess (RetProcess p) w3 (hist_nil _ _ _ w) I (ex_intro _ fuel E')) as H.
    replace (received coll beh OpProcess w w3) with (@nil Z) in H by (symmetry; apply (no_appended_by beh Hb)). exact H.
  - injection E as <- <-. constructor.
Qed.
End Ask.

Lemma ask_lemma c coll : static_ok coll = true -> index_safe c (capacity coll) ->
  forall beh h0 ops S rs w o coming fuel, steady beh -> bool_free coll ->
  history c coll beh (start coll h0) ops S rs w -> (Z.to_nat (capacity coll) < fuel)%nat ->
  exists w1 w2 ps qs x, w_available fuel o c coll beh coming w = Ok (x, w2, ps ++ qs)
    /\ history c coll beh w (map (fun _ => OpProcess) ps) [] (map RetProcess ps) w1
    /\ history c coll beh w1 (map (fun _ => OpProcess) qs) [] (map RetProcess qs) w2
    /\ x = rx_available coll (w_rx (if o then w2 else w1))
    /\ forall d, bytes_ok d -> zlen d <= x -> exists w3, history c coll beh w2 [OpAppend d] d [RetUnit] w3.
Proof.
  intros Hst Hsafe beh h0 ops S rs w o coming fuel Hb Hbf H Hfu.
  pose proof (steady_tame _ Hb) as Ht. pose proof (capacity_ok coll Hst) as Hcap.
  pose proof (history_sim c coll Hst Hsafe beh Ht _ _ _ _ _ H) as Hs.
  destruct (interrupt_spec c coll Hst Hsafe beh Hb Hbf fuel Hfu (hd false coming) w (view w) Hs)
    as (w1 & ps1 & s1 & E1 & Hs1 & En1 & Ar1 & Ea1 & No1 & Hi1).
  destruct (interrupt_spec c coll Hst Hsafe beh Hb Hbf fuel Hfu (hd false (tl coming)) w1 s1 Hs1)
    as (w2 & ps2 & s2 & E2 & Hs2 & En2 & Ar2 & Ea2 & No2 & Hi2).
  assert (zlen (s_bytes s2) <= zlen (s_bytes s1)) as Hle by apply Ea2.
  destruct (sim_indices _ _ _ Hs1) as (J1 & J2 & J3 & _). destruct (sim_indices _ _ _ Hs2) as (L1 & L2 & L3 & _).
  pose proof (zlen_nonneg (s_bytes s1)). pose proof (zlen_nonneg (s_bytes s2)).
  pose proof (sim_available coll Hst _ _ Hs1) as A1. pose proof (sim_available coll Hst _ _ Hs2) as A2.
  exists w1, w2, ps1, ps2, (rx_available coll (w_rx (if o then w2 else w1))).
  split; [|split; [|split; [|split; [reflexivity|]]]].
  - unfold w_available, w_read_size. rewrite E1. cbn [bind]. rewrite E2. cbn [bind].
    fold (end_of w1) (end_of w2) (front_of w1) (front_of w2).
    unfold rb_max_size. rewrite (to_sz_small _ Hcap (capacity coll)) by lia.
    rewrite (to_sz_small _ Hcap (if o then _ else _)) by (destruct o; lia).
    rewrite (to_sz_small _ Hcap) by (destruct o; lia).
    destruct o; [rewrite A2 | rewrite A1]; repeat f_equal; lia.
  - eapply interrupt_history; eassumption.
  - eapply interrupt_history; eassumption.
  - intros d Hd Hl. destruct (history_append c coll Hst Hsafe beh Hb w2 s2 d Hs2) as (v & Hr & Ha & _); [|assumption|].
    + rewrite zlen_app. destruct o; lia.
    + exists v. exact (hist_snoc c coll beh w2 [] [] [] w2 (OpAppend d) RetUnit v (hist_nil _ _ _ w2) Ha Hr).
Qed.

Lemma quiet_ask_lemma fuel o c coll beh w : w_available fuel o c coll beh [] w = Ok (rx_available coll (w_rx w), w, []).
Proof. destruct o; reflexivity. Qed.
