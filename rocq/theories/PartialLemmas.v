(** Partial handlers. *)
From Verif Require Export OperationLemmas SpecHandlers.

Lemma exact_match_eq m f : exact_match m f = true <-> uf_message f = m /\ uf_params f = mt_fields m.
Proof.
  unfold exact_match. rewrite andb_true_iff, mtype_eqb_eq, ftys_eqb_eq. intuition.
Qed.

Lemma exact_unique fns m f g : In f fns -> distinct_fns fns -> exact_match m f = true ->
  In g fns -> exact_match m g = true -> g = f.
Proof.
  unfold distinct_fns. intros Hf HN Ef Hg Eg. apply exact_match_eq in Ef as (F1 & F2). apply exact_match_eq in Eg as (G1 & G2).
  revert Hf HN Hg. induction fns as [|h fns IH]; cbn [map In]; intros Hf HN Hg; [destruct Hf|].
  inversion HN as [|x l H1 H2 HE]. subst x l. destruct Hf as [->|Hf], Hg as [->|Hg]; auto; exfalso; apply H1.
  - replace (uf_message f, uf_params f) with (uf_message g, uf_params g) by congruence.
    exact (in_map (fun f => (uf_message f, uf_params f)) fns g Hg).
  - replace (uf_message g, uf_params g) with (uf_message f, uf_params f) by congruence.
    exact (in_map (fun f => (uf_message f, uf_params f)) fns f Hf).
Qed.

(** At most one function matches exactly. *)
Lemma exact_cases fns m : distinct_fns fns ->
  (filter (exact_match m) fns = [] /\ (forall f, In f fns -> uf_message f = m -> uf_params f <> mt_fields m))
  \/ exists f, filter (exact_match m) fns = [f] /\ In f fns /\ uf_message f = m /\ uf_params f = mt_fields m.
Proof.
  intros HN. destruct (filter (exact_match m) fns) as [|f l] eqn:E.
  - left. split; [reflexivity|]. intros f Hf H1 H2.
    assert (In f (filter (exact_match m) fns)) as Hx by (apply filter_In; split; [assumption | apply exact_match_eq; auto]).
    rewrite E in Hx. destruct Hx.
  - right. exists f.
    assert (In f (filter (exact_match m) fns)) as Hf by (rewrite E; left; reflexivity).
    pose proof Hf as Hf'. apply filter_In in Hf' as (F1 & F2). split; [|split; [assumption | apply exact_match_eq, F2]].
    destruct l as [|g l]; [reflexivity|]. exfalso.
    assert (In g (filter (exact_match m) fns)) as Hg by (rewrite E; right; left; reflexivity).
    apply filter_In in Hg as (G1 & G2). assert (g = f) as -> by (eapply exact_unique; eauto).
    assert (NoDup (filter (exact_match m) fns)) as HD.
    { apply NoDup_filter. eapply NoDup_map_inv. exact HN. }
    rewrite E in HD. inversion HD as [|? ? HX]. apply HX. left. reflexivity.
Qed.

Lemma pass_args_exact f vs : Forall fty_ok (uf_params f) -> has_types vs (uf_params f) = true -> pass_args f vs = Ok vs.
Proof.
  intros Hok Hty. unfold pass_args. rewrite <- (has_types_length _ _ Hty).
  rewrite firstn_all, skipn_all, (has_types_convert _ _ Hok Hty). cbn [bind map].
  rewrite map_snd_combine, app_nil_r by (symmetry; apply has_types_length, Hty). reflexivity.
Qed.

Lemma partial_calls_lemma fns log : distinct_fns fns ->
  Forall (fun d => has_types (d_values d) (mt_fields (d_message d)) = true
                   /\ Forall fty_ok (mt_fields (d_message d))
                   /\ (length (mt_fields (d_message d)) <= 9)%nat) log ->
  exists calls, partial_calls fns log = Ok calls /\ PartialCalls fns log calls.
Proof.
  intros HN. induction 1 as [|d log (Hty & Hok & Hlen) H (calls & E & HP)]; cbn [partial_calls].
  - exists []. split; [reflexivity | constructor].
  - unfold partial_dispatch. rewrite (proj2 (Nat.leb_le _ _) Hlen). unfold invocable.
    rewrite (proj2 (Nat.leb_le (S (length (mt_fields (d_message d)))) 10)) by lia. cbn [andb].
    destruct (exact_cases fns (d_message d) HN) as [(-> & Hno)|(f & -> & Hin & H1 & H2)]; cbn [bind].
    + exists calls. split; [assumption|]. apply pc_ignored; assumption.
    + rewrite pass_args_exact, E by (rewrite H2; assumption). cbn [bind].
      eexists. split; [reflexivity|]. apply pc_own; assumption.
Qed.

Lemma partial_calls_unique fns log c1 : distinct_fns fns ->
  PartialCalls fns log c1 -> forall c2, PartialCalls fns log c2 -> c1 = c2.
Proof.
  intros HN. induction 1 as [|d rest f calls Hin H1 H2 H IH|d rest calls Hno H IH]; intros c2 H'; inversion H'; subst; auto.
  - f_equal; auto. f_equal. symmetry. eapply (exact_unique fns (d_message d)); eauto; apply exact_match_eq; auto.
  - exfalso. match goal with h : forall g, In g fns -> _ |- _ => exact (h f Hin H1 H2) end.
  - exfalso. match goal with h : In ?g fns |- _ => exact (Hno g h ltac:(assumption) ltac:(assumption)) end.
Qed.

Lemma partial_compiles_lemma fns coll : distinct_fns fns ->
  (partial_compiles fns coll = true <-> forall m, In m (mc_types coll) -> (length (mt_fields m) <= 9)%nat).
Proof.
  intros HN. unfold partial_compiles. rewrite forallb_forall. split; intros H m Hm; specialize (H m Hm).
  - unfold partial_dispatch in H. destruct (Nat.leb_spec (length (mt_fields m)) 9); [assumption|].
    rewrite andb_false_r in H. discriminate.
  - unfold partial_dispatch, invocable. rewrite (proj2 (Nat.leb_le _ _) H), (proj2 (Nat.leb_le (S (length (mt_fields m))) 10)) by lia.
    cbn [andb]. destruct (exact_cases fns m HN) as [(-> & _)|(f & -> & _)]; reflexivity.
Qed.

Section Partial.
Context (c : config) (coll : collection).
Hypothesis Hst : static_ok coll = true.
Hypothesis Hsafe : index_safe c (capacity coll).

Lemma log_typed beh h0 ops S rs w : tame beh -> history c coll beh (start coll h0) ops S rs w ->
  Forall (fun d => In (d_message d) (mc_types coll) /\ has_types (d_values d) (mt_fields (d_message d)) = true) (w_log w).
Proof.
  intros Ht H. eapply Forall_impl; [|exact (calls_have_frames_lemma c coll Hst Hsafe beh h0 ops S rs w Ht H)].
  cbn beta. intros d (pre & f & fd & post & _ & F & D1 & D2 & _). rewrite D1 in *. split; [|assumption].
  eapply has_id_in, F.
Qed.

Lemma partial_lemma beh h0 ops S rs w fns : tame beh -> distinct_fns fns ->
  partial_compiles fns coll = true ->
  history c coll beh (start coll h0) ops S rs w ->
  exists calls, partial_calls fns (w_log w) = Ok calls
    /\ PartialCalls fns (w_log w) calls
    /\ forall calls', PartialCalls fns (w_log w) calls' -> calls' = calls.
Proof.
  intros Ht HN H9 H. rewrite partial_compiles_lemma in H9 by assumption. destruct (partial_calls_lemma fns (w_log w) HN) as (calls & E & HP).
  - eapply Forall_impl; [|exact (log_typed beh h0 ops S rs w Ht H)]. cbn beta. intros d (H1 & H2).
    pose proof (static_fields_ok coll _ Hst H1). auto.
  - exists calls. split; [assumption|]. split; [assumption|]. intros calls' H'. eapply partial_calls_unique; eassumption.
Qed.
End Partial.

(** ** ParameterHandlerBase *)
Lemma all2_convertible_refl ts : all2 convertible ts ts = true.
Proof. induction ts; cbn; [reflexivity|]. rewrite convertible_refl. assumption. Qed.

Lemma all2_length {A B} (p : A -> B -> bool) l1 : forall l2, all2 p l1 l2 = true -> length l1 = length l2.
Proof.
  induction l1 as [|a l1 IH]; intros [|b l2] H; cbn in *; try discriminate; [reflexivity|].
  apply andb_true_iff in H as (_ & H). f_equal. auto.
Qed.

Lemma promotes_spec c t u : promotes c t u = true <-> promotion (int_bits c) t u.
Proof.
  unfold promotion. split.
  - destruct t as [k s n| |[]|k n], u as [[] s' n'| |[]|]; try (destruct s'); try (destruct k); cbn [promotes]; try discriminate; auto;
      intros H; try (destruct (Z.ltb_spec (8 * Z.of_nat n) (int_bits c)); cbn [orb andb] in H);
      try (destruct s; cbn [orb andb Bool.eqb] in H);
      try (destruct (Z.eqb_spec (8 * Z.of_nat n) (int_bits c)); cbn [orb andb Bool.eqb] in H); try discriminate H;
      rewrite ?Z.eqb_eq, ?Nat.eqb_eq in H; try subst n';
      try (right; left; exists n'; split; [reflexivity|]; split; [lia|]; solve [left; reflexivity | right; eauto 8]).
    all: try (right; right; do 3 eexists; split; [reflexivity|]; split; [|reflexivity]; lia).
    all: right; right; do 3 eexists; split; [reflexivity|]; split; [|repeat f_equal]; lia.
  - intros [(-> & ->)|[(n & -> & Hn & [->|(k & s & n' & -> & Hk)])|(e & s & n & -> & Hn & ->)]].
    + reflexivity.
    + cbn [promotes]. rewrite Z.eqb_eq. assumption.
    + apply Z.ltb_lt in Hk. apply Z.eqb_eq in Hn. destruct k; cbn [promotes]; rewrite Hk, Hn; reflexivity.
    + cbn [promotes]. destruct (Z.ltb_spec (8 * Z.of_nat n) (int_bits c)); [lia|]. cbn [orb].
      destruct s; cbn [andb Bool.eqb]; [|apply Nat.eqb_refl].
      destruct (8 * Z.of_nat n =? int_bits c); [reflexivity | apply Nat.eqb_refl].
Qed.
Lemma promotion_neq ib t u : promotion ib t u -> t <> u.
Proof.
  intros [(-> & ->)|[(n & -> & Hn & [->|(k & s & n' & -> & Hk)])|(e & s & n & -> & Hn & ->)]]; try discriminate.
  intros E. injection E as _ _ E. subst. lia.
Qed.
Lemma promotion_accepted ib t u : promotion ib t u -> accepted t u.
Proof.
  intros [(-> & ->)|[(n & -> & Hn & [->|(k & s & n' & -> & Hk)])|(e & s & n & -> & Hn & ->)]]; right; (split; [|exact I]);
    try (left; exact I); [|right; do 3 eexists; reflexivity]. destruct k; [left; exact I.. | right; do 3 eexists; reflexivity].
Qed.

Lemma conv_rank_spec c t u r : conv_rank c t u = Some r <-> Rank (int_bits c) t u r.
Proof.
  unfold conv_rank. destruct (fty_eqb t u) eqn:E1.
  - apply fty_eqb_eq in E1 as ->. split; [intros H; injection H as <-; constructor|].
    intros H. inversion H as [|? H1|? H1 H2 H3]; subst; [reflexivity | |congruence]. destruct (promotion_neq _ _ _ H1). reflexivity.
  - assert (t <> u) as Hn by (intros E; apply fty_eqb_eq in E; congruence).
    destruct (promotes c t u) eqn:E2.
    + apply promotes_spec in E2. split; [intros H; injection H as <-; constructor; assumption|].
      intros H. inversion H; subst; [congruence | reflexivity | contradiction].
    + assert (~ promotion (int_bits c) t u) as Hp by (intros E; apply promotes_spec in E; congruence).
      destruct (convertible t u) eqn:E3.
      * apply convertible_spec in E3 as [E3|(A1 & A2)]; [contradiction|].
        split; [intros H; injection H as <-; constructor; assumption|].
        intros H. inversion H; subst; [congruence | contradiction | reflexivity].
      * split; [discriminate|]. intros H. inversion H; subst; [congruence | contradiction|].
        assert (convertible t u = true) by (apply convertible_spec; right; auto). congruence.
Qed.
Lemma fn_ranks_spec c rest ts : forall ps rs, fn_ranks c ts ps rest = Some rs <-> Ranks (int_bits c) rest ts ps rs.
Proof.
  induction ts as [|t ts IH]; intros [|u ps] rs; cbn [fn_ranks].
  - split; [intros H; injection H as <-; constructor | intros H; inversion H; reflexivity].
  - split; [discriminate | intros H; inversion H].
  - destruct rest.
    + destruct (fn_ranks c ts [] true) as [rs'|] eqn:E.
      * apply IH in E. split; [intros H; injection H as <-; constructor; auto|].
        intros H. inversion H as [| |? ? ? ? H']. subst. apply IH in E. apply IH in H'. congruence.
      * split; [discriminate|]. intros H. inversion H as [| |? ? ? ? H']. subst. apply IH in H'. congruence.
    + split; [discriminate|]. intros H. inversion H. discriminate.
  - destruct (conv_rank c t u) as [r|] eqn:E1.
    + destruct (fn_ranks c ts ps rest) as [rs'|] eqn:E2.
      * split; [intros H; injection H as <-; constructor; [apply conv_rank_spec, E1 | apply IH, E2]|].
        intros H. inversion H as [|? ? ? ? ? ? H1 H2|]. subst. apply conv_rank_spec in H1. apply IH in H2. congruence.
      * split; [discriminate|]. intros H. inversion H as [|? ? ? ? ? ? H1 H2|]. subst. apply IH in H2. congruence.
    + split; [discriminate|]. intros H. inversion H as [|? ? ? ? ? ? H1 H2|]. subst. apply conv_rank_spec in H1. congruence.
Qed.
Lemma ranks_unique ib rest ts ps r r' : Ranks ib rest ts ps r -> Ranks ib rest ts ps r' -> r = r'.
Proof.
  intros H H'. pose proof (proj2 (fn_ranks_spec (Config ib true Disabled Disabled Disabled) rest ts ps r) H) as E.
  rewrite (proj2 (fn_ranks_spec (Config ib true Disabled Disabled Disabled) rest ts ps r') H') in E. congruence.
Qed.
Lemma candidates_in c fns m f r : In (f, r) (candidates c fns m)
  <-> In f fns /\ uf_message f = m /\ Ranks (int_bits c) (uf_rest f) (mt_fields m) (uf_params f) r.
Proof.
  induction fns as [|g fns IH]; cbn [candidates In]; [tauto|].
  destruct (mtype_eqb (uf_message g) m) eqn:E.
  - apply mtype_eqb_eq in E. destruct (fn_ranks c (mt_fields m) (uf_params g) (uf_rest g)) as [r'|] eqn:E2.
    + apply fn_ranks_spec in E2. cbn [In]. rewrite IH. split.
      * intros [H|H]; [injection H as <- <-; auto | tauto].
      * intros ([->|H] & H1 & H2); [left; f_equal; eapply ranks_unique; eassumption | tauto].
    + rewrite IH. split; [tauto|]. intros ([->|H] & H1 & H2); [|tauto]. apply fn_ranks_spec in H2. congruence.
  - rewrite IH. split; [tauto|]. intros ([->|H] & H1 & H2); [|tauto]. apply mtype_eqb_eq in H1. congruence.
Qed.
Lemma candidates_nodup c fns m : NoDup fns -> NoDup (candidates c fns m).
Proof.
  induction 1 as [|g fns Hg H IH]; cbn [candidates]; [constructor|].
  destruct (if mtype_eqb (uf_message g) m then _ else _) as [r|]; [|exact IH]. constructor; [|exact IH].
  intros HI. apply candidates_in in HI as (HI & _). contradiction.
Qed.
Lemma leb_all2 r1 : forall r2, all2 Nat.leb r1 r2 = true <-> Forall2 le r1 r2.
Proof.
  induction r1 as [|a r1 IH]; intros [|b r2]; cbn [all2]; split; intros H; try discriminate; try (inversion H; fail).
  - constructor.
  - reflexivity.
  - apply andb_true_iff in H as (H1 & H2). constructor; [apply Nat.leb_le, H1 | apply IH, H2].
  - inversion H. subst. apply andb_true_iff. split; [apply Nat.leb_le; assumption | apply IH; assumption].
Qed.
Lemma eqb_all2 r1 : forall r2, all2 Nat.eqb r1 r2 = true <-> r1 = r2.
Proof.
  induction r1 as [|a r1 IH]; intros [|b r2]; cbn; split; intros H; try discriminate; try reflexivity.
  - apply andb_true_iff in H as (H1 & H2). apply Nat.eqb_eq in H1. apply IH in H2. congruence.
  - injection H as -> ->. rewrite Nat.eqb_refl. apply IH. reflexivity.
Qed.
Lemma better_spec r1 r2 : better r1 r2 = true <-> Forall2 le r1 r2 /\ r1 <> r2.
Proof.
  unfold better. rewrite andb_true_iff, leb_all2, negb_true_iff. split; intros (H1 & H2); split; auto.
  - intros E. apply eqb_all2 in E. congruence.
  - destruct (all2 Nat.eqb r1 r2) eqn:E; [|reflexivity]. apply eqb_all2 in E. contradiction.
Qed.
Lemma le_antisym_all r1 : forall r2, Forall2 le r1 r2 -> Forall2 le r2 r1 -> r1 = r2.
Proof.
  induction r1 as [|a r1 IH]; intros r2 H H'; inversion H; subst; [reflexivity|]. inversion H'; subst. f_equal; [lia | auto].
Qed.
Lemma user_fn_eqb_spec f g : user_fn_eqb f g = true <-> f = g.
Proof.
  unfold user_fn_eqb. rewrite !andb_true_iff, mtype_eqb_eq, ftys_eqb_eq, Bool.eqb_true_iff. destruct f, g; cbn.
  intuition congruence.
Qed.

Lemma winner_spec c fns m f r :
  In (f, r) (filter (fun f => forallb (fun g => user_fn_eqb (fst f) (fst g) || better (snd f) (snd g)) (candidates c fns m))
               (candidates c fns m))
  <-> best (int_bits c) fns m f /\ Ranks (int_bits c) (uf_rest f) (mt_fields m) (uf_params f) r.
Proof.
  rewrite filter_In, candidates_in, forallb_forall. unfold best. cbn [fst snd]. split.
  - intros ((H1 & H2 & H3) & H4). split; [|assumption]. split; [assumption|]. split; [assumption|]. exists r.
    split; [assumption|]. intros g r' G1 G2 G3 G4.
    assert (In (g, r') (candidates c fns m)) as HI by (apply candidates_in; auto).
    specialize (H4 _ HI). cbn [fst snd] in H4. apply orb_true_iff in H4 as [H4|H4].
    + apply user_fn_eqb_spec in H4. congruence.
    + apply better_spec, H4.
  - intros ((H1 & H2 & r0 & H3 & H4) & H5). split; [auto|]. intros (g & r') HI. cbn [fst snd].
    apply candidates_in in HI as (I1 & I2 & I3). apply orb_true_iff.
    destruct (user_fn_eqb f g) eqn:E; [left; reflexivity | right]. apply better_spec.
    rewrite (ranks_unique _ _ _ _ _ _ H5 H3). apply (H4 g r' I1); auto.
    intros ->. rewrite (proj2 (user_fn_eqb_spec f f) eq_refl) in E. discriminate.
Qed.

Lemma resolve_best c fns m f : resolve c fns m = Ok f -> best (int_bits c) fns m f.
Proof.
  unfold resolve. intros H. destruct (filter _ _) as [|(g, r) [|]] eqn:E; try discriminate. injection H as <-. cbn [fst].
  assert (In (g, r) (filter (fun f => forallb (fun g => user_fn_eqb (fst f) (fst g) || better (snd f) (snd g)) (candidates c fns m))
               (candidates c fns m))) as HI by (rewrite E; left; reflexivity).
  apply winner_spec in HI. apply HI.
Qed.
Lemma best_unique ib fns m f g : best ib fns m f -> best ib fns m g -> f = g.
Proof.
  intros (F1 & F2 & r & F3 & F4) (G1 & G2 & r' & G3 & G4). destruct (user_fn_eqb f g) eqn:E; [apply user_fn_eqb_spec, E|].
  assert (f <> g) as Hn by (intros ->; rewrite (proj2 (user_fn_eqb_spec g g) eq_refl) in E; discriminate).
  destruct (F4 g r' G1) as (A & B); auto. destruct (G4 f r F1) as (C & _); auto. destruct B. apply le_antisym_all; assumption.
Qed.
Lemma best_resolve c fns m f : NoDup fns -> best (int_bits c) fns m f -> resolve c fns m = Ok f.
Proof.
  intros HN HB. unfold resolve. pose proof HB as (_ & _ & r & HR & _).
  set (l := filter _ _). assert (In (f, r) l) as HI by (apply winner_spec; auto).
  assert (forall x, In x l -> x = (f, r)) as HU.
  { intros (g, r') Hg. apply winner_spec in Hg as (B1 & B2).
    assert (g = f) as -> by (eapply best_unique; eassumption). f_equal. eapply ranks_unique; eassumption. }
  assert (NoDup l) as HD by (apply NoDup_filter, candidates_nodup, HN).
  destruct l as [|x [|y l]]; [destruct HI | rewrite (HU x) by (left; reflexivity); reflexivity|].
  exfalso. inversion HD as [|? ? H1]. apply H1. rewrite (HU x), (HU y) by (cbn; auto). left. reflexivity.
Qed.

Lemma ranks_convertible ib rest ts ps r : Ranks ib rest ts ps r ->
  all2 convertible (firstn (length ps) ts) ps = true /\ (rest = false -> length ps = length ts).
Proof.
  induction 1 as [|t u r ts ps rs H1 H2 (IH1 & IH2)|t ts rs H1 H2 (IH1 & IH2)]; [split; reflexivity | |].
  - cbn [length firstn all2]. rewrite IH1. split; [|intros H; f_equal; auto]. rewrite andb_true_r.
    apply convertible_spec. inversion H1; subst; [left; reflexivity | eapply promotion_accepted; eassumption | right; auto].
  - split; [reflexivity | congruence].
Qed.
Lemma ranks_exact ib rest ts : Ranks ib rest ts ts (map (fun _ => O) ts).
Proof. induction ts; cbn [map]; constructor; [constructor | assumption]. Qed.

Lemma parameter_dispatch_in c fns m f : parameter_dispatch c fns m = Ok f ->
  In f fns /\ uf_message f = m
  /\ all2 convertible (firstn (length (uf_params f)) (mt_fields m)) (uf_params f) = true
  /\ (uf_rest f = false -> length (uf_params f) = length (mt_fields m)).
Proof.
  unfold parameter_dispatch. destruct (invocable m); [|discriminate]. intros H.
  destruct (resolve_best _ _ _ _ H) as (H1 & H2 & r & H3 & _). destruct (ranks_convertible _ _ _ _ _ H3). auto.
Qed.

Lemma best_exact ib fns m f g : In f fns -> uf_message f = m -> uf_params f = mt_fields m -> best ib fns m g -> g = f.
Proof.
  intros Hin H1 H2 (G1 & G2 & r & G3 & G4).
  destruct (user_fn_eqb f g) eqn:E; [symmetry; apply user_fn_eqb_spec, E|].
  assert (f <> g) as Hn by (intros ->; rewrite (proj2 (user_fn_eqb_spec g g) eq_refl) in E; discriminate).
  exfalso. destruct (G4 f (map (fun _ => O) (mt_fields m)) Hin Hn H1) as (A & B).
  { rewrite H2. apply ranks_exact. }
  apply B. clear - A. revert r A. induction (mt_fields m) as [|t ts IH]; intros r A; cbn [map] in *; inversion A; subst; [reflexivity|].
  f_equal; [lia | auto].
Qed.
Lemma parameter_dispatch_exact c fns m f g : In f fns -> uf_message f = m -> uf_params f = mt_fields m ->
  parameter_dispatch c fns m = Ok g -> g = f.
Proof.
  unfold parameter_dispatch. destruct (invocable m); [|discriminate]. intros H1 H2 H3 H.
  exact (best_exact _ fns m f g H1 H2 H3 (resolve_best c fns m g H)).
Qed.

Lemma compiles_lemma c fns coll : NoDup fns ->
  (parameter_compiles c fns coll = true
   <-> forall m, In m (mc_types coll) -> (length (mt_fields m) <= 9)%nat /\ exists f, best (int_bits c) fns m f).
Proof.
  intros HN. unfold parameter_compiles. rewrite forallb_forall. split; intros H m Hm; specialize (H m Hm).
  - unfold parameter_dispatch, invocable in H. destruct (Nat.leb_spec (S (length (mt_fields m))) 10); [|discriminate]. split; [lia|].
    destruct (resolve c fns m) as [f| | | |] eqn:E; try discriminate. exists f. apply resolve_best, E.
  - destruct H as (Hl & f & Hf). unfold parameter_dispatch, invocable.
    rewrite (proj2 (Nat.leb_le (S (length (mt_fields m))) 10)) by lia. rewrite (best_resolve c fns m f HN Hf). reflexivity.
Qed.

Lemma has_types_firstn n : forall vs ts, has_types vs ts = true -> has_types (firstn n vs) (firstn n ts) = true.
Proof.
  induction n as [|n IH]; intros [|v vs] [|t ts] H; cbn [firstn has_types] in *; try discriminate; auto.
  apply andb_true_iff in H as (-> & H). cbn. auto.
Qed.
Lemma combine_firstn_r {A B} (l2 : list B) : forall (l1 : list A), combine (firstn (length l2) l1) l2 = combine l1 l2.
Proof. induction l2 as [|b l2 IH]; intros [|a l1]; cbn; try reflexivity. f_equal. apply IH. Qed.

Lemma promote_ok vs : forall ts, has_types vs ts = true -> Forall2 promoted vs (map promote vs).
Proof.
  induction vs as [|v vs IH]; intros [|t ts] H; cbn [has_types] in H; try discriminate; [constructor|].
  apply andb_true_iff in H as (H1 & H2). cbn [map]. constructor; [|eauto].
  destruct v as [z|b|[|] bits|bs]; cbn [promoted promote]; try reflexivity.
  destruct (convert_arg_ok t (TFloat true) (VFloat false bits)) as [(v & E & HV)|(E & _)]; auto.
  - unfold fty_ok. cbn. lia.
  - destruct t; cbn [has_type] in H1; try discriminate. reflexivity.
  - cbn [convert_arg] in E. injection E as <-. exact HV.
  - discriminate.
Qed.

(** Passing the fields to a function that takes them. *)
Lemma pass_args_ok f vs ts : Forall fty_ok (uf_params f) -> has_types vs ts = true ->
  all2 convertible (firstn (length (uf_params f)) ts) (uf_params f) = true ->
  (uf_rest f = false -> length (uf_params f) = length ts) ->
  (exists args, pass_args f vs = Ok args
     /\ exists a1 a2 v1 v2, vs = a1 ++ a2 /\ args = v1 ++ v2
          /\ converted_all (uf_params f) a1 v1 /\ Forall2 promoted a2 v2 /\ (uf_rest f = false -> a2 = []))
  \/ (pass_args f vs = UB /\ (forall vs', ~ converted_all (uf_params f) (firstn (length (uf_params f)) vs) vs')
      /\ exists w k s n, In (TFloat w, TIntN k s n) (combine ts (uf_params f))).
Proof.
  intros HF Hty HC HR. unfold pass_args.
  destruct (convert_args_ok _ _ _ HF (has_types_firstn (length (uf_params f)) vs ts Hty) HC) as [(l & E & Hl)|(E & Hl & HT)]; rewrite E; cbn [bind].
  - left. eexists. split; [reflexivity|].
    exists (firstn (length (uf_params f)) vs), (skipn (length (uf_params f)) vs). eexists. eexists.
    split; [symmetry; apply firstn_skipn|]. split; [reflexivity|]. split; [exact Hl|]. split.
    + destruct (Nat.le_gt_cases (length (uf_params f)) (length vs)) as [Hle|Hgt].
      * assert (exists ts', has_types (skipn (length (uf_params f)) vs) ts' = true) as (ts' & Hts).
        { exists (skipn (length (uf_params f)) ts). clear - Hty. revert vs ts Hty. generalize (length (uf_params f)) as n.
          induction n as [|n IH]; intros [|v vs] [|t ts] H; cbn [skipn has_types] in *; try discriminate; auto.
          apply andb_true_iff in H as (_ & H). auto. }
        eapply promote_ok, Hts.
      * rewrite skipn_all2 by lia. constructor.
    + intros Hr. apply skipn_all2. rewrite (HR Hr). rewrite (has_types_length _ _ Hty). lia.
  - right. split; [reflexivity|]. split; [assumption|]. rewrite combine_firstn_r in HT. assumption.
Qed.

Section ByParameter.
Context (c : config) (coll : collection).
Hypothesis Hst : static_ok coll = true.
Hypothesis Hsafe : index_safe c (capacity coll).

Lemma parameter_lemma beh h0 ops S rs w fns : tame beh -> parameter_compiles c fns coll = true ->
  (forall f, In f fns -> Forall fty_ok (uf_params f)) ->
  history c coll beh (start coll h0) ops S rs w ->
  (exists calls, parameter_calls c fns (w_log w) = Ok calls
    /\ Forall2 (passed_to fns) (w_log w) calls
    /\ Forall2 (fun d u => best (int_bits c) fns (d_message d) (uc_fn u)) (w_log w) calls
    /\ Forall2 (fun d u => forall f, In f fns -> uf_message f = d_message d ->
                  uf_params f = mt_fields (d_message d) -> u = UserCall f (d_values d)) (w_log w) calls)
  \/ (parameter_calls c fns (w_log w) = UB
      /\ exists d f, In d (w_log w) /\ In f fns /\ uf_message f = d_message d
           /\ (forall vs, ~ converted_all (uf_params f) (firstn (length (uf_params f)) (d_values d)) vs)
           /\ exists x k s n, In (TFloat x, TIntN k s n) (combine (mt_fields (d_message d)) (uf_params f))).
Proof.
  intros Ht HC HF H. pose proof (log_typed c coll Hst Hsafe beh h0 ops S rs w Ht H) as HL.
  induction HL as [|d log (L1 & L2) HL IH]; cbn [parameter_calls].
  - left. exists []. repeat split; constructor.
  - unfold parameter_compiles in HC. rewrite forallb_forall in HC. specialize (HC _ L1).
    destruct (parameter_dispatch c fns (d_message d)) as [f| | | |] eqn:Ef; try discriminate. cbn [bind].
    destruct (parameter_dispatch_in _ _ _ _ Ef) as (D1 & D2 & D3 & D4).
    destruct (pass_args_ok f _ _ (HF f D1) L2 D3 D4) as [(args & El & Hl)|(El & Hl & HT)]; rewrite El; cbn [bind].
    + destruct IH as [(calls & E & F1 & F3 & F2)|(E & d' & f' & I1 & I2)]; rewrite E; cbn [bind].
      * left. eexists. split; [reflexivity|]. split; [|split]; constructor; auto.
        -- split; [assumption|]. split; assumption.
        -- cbn [uc_fn]. apply resolve_best. unfold parameter_dispatch in Ef. destruct (invocable (d_message d)); [exact Ef | discriminate].
        -- intros g G1 G2 G3. rewrite (parameter_dispatch_exact c fns _ g f G1 G2 G3 Ef) in *. f_equal.
           rewrite pass_args_exact in El by (rewrite G3; (exact (static_fields_ok coll _ Hst L1) || exact L2)). congruence.
      * right. split; [reflexivity|]. exists d', f'. split; [right; assumption | assumption].
    + right. split; [reflexivity|]. exists d, f. split; [left; reflexivity|]. auto.
Qed.

Lemma parameter_defined_lemma beh h0 ops S rs w fns : tame beh -> parameter_compiles c fns coll = true ->
  (forall f, In f fns -> Forall fty_ok (uf_params f)) ->
  (forall f x k s n, In f fns -> ~ In (TFloat x, TIntN k s n) (combine (mt_fields (uf_message f)) (uf_params f))) ->
  history c coll beh (start coll h0) ops S rs w ->
  exists calls, parameter_calls c fns (w_log w) = Ok calls /\ Forall2 (passed_to fns) (w_log w) calls.
Proof.
  intros Ht HC HF HN H. destruct (parameter_lemma beh h0 ops S rs w fns Ht HC HF H) as [(calls & E & F & _ & _)|(_ & d & f & _ & I & M & _ & x & k & s & n & HI)].
  - eauto.
  - rewrite <- M in HI. destruct (HN _ _ _ _ _ I HI).
Qed.

Lemma parameter_missing_lemma fns m : In m (mc_types coll) ->
  (forall f, In f fns -> uf_message f <> m) -> parameter_compiles c fns coll = false.
Proof.
  intros Hm HN. destruct (parameter_compiles c fns coll) eqn:E; [|reflexivity]. exfalso.
  unfold parameter_compiles in E. rewrite forallb_forall in E. specialize (E _ Hm).
  destruct (parameter_dispatch c fns m) as [f| | | |] eqn:Ef; try discriminate.
  destruct (parameter_dispatch_in _ _ _ _ Ef) as (D1 & D2 & _). exact (HN f D1 D2).
Qed.
End ByParameter.
