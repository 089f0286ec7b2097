(** Lemmas behind C99. *)
From Verif Require Export Asserts.
From Verif Require Import HandlerLemmas.

Lemma preprocessed_app b s l1 l2 : preprocessed b s (l1 ++ l2) = fold_left (preprocess_line b) l2 (preprocessed b s l1).
Proof. apply fold_left_app. Qed.

Lemma set_kept b mid : (forall x, ~ In (LSet x) mid) -> forall u, um_set (fold_left (preprocess_line b) mid u) = um_set u.
Proof.
  induction mid as [|l mid IH]; intros H u; [reflexivity|]. cbn [fold_left]. rewrite IH by (intros x Hx; apply (H x); right; assumption).
  destruct l as [s| |]; [exfalso; apply (H s); left; reflexivity | reflexivity|].
  cbn [preprocess_line]. unfold include_header. destruct (um_seen u); reflexivity.
Qed.
Lemma unseen b l : ~ In LHeader l -> forall u, um_seen (fold_left (preprocess_line b) l u) = um_seen u.
Proof.
  induction l as [|x l IH]; intros H u; [reflexivity|]. cbn [fold_left]. rewrite IH by (intros Hx; apply H; right; assumption).
  destruct x; [reflexivity | reflexivity | exfalso; apply H; left; reflexivity].
Qed.
Lemma undefined b l : (forall s, ba_msg b s = None) -> ~ In LHeader l -> forall u, um_msg (fold_left (preprocess_line b) l u) = um_msg u.
Proof.
  intros HB. induction l as [|x l IH]; intros H u; [reflexivity|]. cbn [fold_left]. rewrite IH by (intros Hx; apply H; right; assumption).
  destruct x; [reflexivity | cbn; rewrite HB; reflexivity | exfalso; apply H; left; reflexivity].
Qed.
Lemma frozen b l : (forall s, ba_msg b s = None) -> forall u, um_seen u = true -> um_msg (fold_left (preprocess_line b) l u) = um_msg u.
Proof.
  intros HB. induction l as [|x l IH]; intros u Hu; [reflexivity|]. cbn [fold_left]. rewrite IH.
  - destruct x; [reflexivity | cbn; rewrite HB; reflexivity | cbn; unfold include_header; rewrite Hu; reflexivity].
  - destruct x; [assumption | assumption | cbn; unfold include_header; rewrite Hu; assumption].
Qed.

Lemma msg_lemma b s0 before s mid after : (forall x, ba_msg b x = None) ->
  ~ In LHeader before -> ~ In LHeader mid -> (forall x, ~ In (LSet x) mid) ->
  exists e, um_msg (preprocessed b s0 (before ++ LSet s :: mid ++ LHeader :: after)) = Some e
    /\ (e = Nothing <-> sw_disable s = true \/ sw_ndebug s = true)
    /\ (e = CallsUser <-> sw_disable s = false /\ sw_ndebug s = false /\ sw_handler s = true).
Proof.
  intros HB H1 H2 H3. exists (header_msg s). split.
  - rewrite preprocessed_app. cbn [fold_left]. rewrite fold_left_app. cbn [fold_left].
    set (u0 := preprocess_line b (preprocessed b s0 before) (LSet s)).
    assert (um_seen u0 = false) as E0 by (unfold u0; cbn; unfold preprocessed; rewrite unseen by assumption; reflexivity).
    assert (um_msg u0 = None) as M0 by (unfold u0; cbn; unfold preprocessed; rewrite undefined by assumption; reflexivity).
    set (u1 := fold_left (preprocess_line b) mid u0).
    assert (um_seen u1 = false) as E1 by (unfold u1; rewrite unseen by assumption; exact E0).
    assert (um_msg u1 = None) as M1 by (unfold u1; rewrite undefined by assumption; exact M0).
    assert (um_set u1 = s) as S1 by (unfold u1; rewrite set_kept by assumption; reflexivity).
    rewrite frozen; [|assumption | cbn; unfold include_header; rewrite E1; reflexivity].
    cbn. unfold include_header. rewrite E1. cbn. rewrite HB, M1, S1. reflexivity.
  - unfold header_msg. destruct (sw_disable s), (sw_ndebug s), (sw_handler s); cbn; intuition discriminate.
Qed.

Lemma plain_kept b l : ~ In LBoost l -> ~ In LHeader l -> forall u, um_plain (fold_left (preprocess_line b) l u) = um_plain u.
Proof.
  induction l as [|x l IH]; intros H1 H2 u; [reflexivity|]. cbn [fold_left].
  rewrite IH by (intros Hx; first [apply H1; right; assumption | apply H2; right; assumption]).
  destruct x; [reflexivity | exfalso; apply H1; left; reflexivity | exfalso; apply H2; left; reflexivity].
Qed.
Lemma plain_lemma b s0 before s mid after : (forall x, ~ In (LSet x) mid) -> ~ In LBoost after -> ~ In LHeader after ->
  um_plain (preprocessed b s0 (before ++ LSet s :: mid ++ LBoost :: after)) = Some (ba_plain b s).
Proof.
  intros H1 H2 H3. rewrite preprocessed_app. cbn [fold_left]. rewrite fold_left_app. cbn [fold_left].
  rewrite plain_kept by assumption. cbn. rewrite set_kept by assumption. reflexivity.
Qed.

Lemma boost_own_lemma b s0 before after : (forall x, ba_msg b x <> None) -> ~ In LHeader before -> ~ In LHeader after ->
  um_msg (preprocessed b s0 (before ++ LHeader :: after)) = um_msg (preprocessed b s0 (before ++ LBoost :: after))
  /\ um_plain (preprocessed b s0 (before ++ LHeader :: after)) = um_plain (preprocessed b s0 (before ++ LBoost :: after)).
Proof.
  intros HB H1 H2. rewrite !preprocessed_app. cbn [fold_left].
  set (u := preprocessed b s0 before).
  assert (um_seen u = false) as E by (unfold u, preprocessed; rewrite unseen by assumption; reflexivity).
  assert (forall l x y, ~ In LHeader l -> um_set x = um_set y -> um_plain x = um_plain y -> um_msg x = um_msg y ->
     um_msg (fold_left (preprocess_line b) l x) = um_msg (fold_left (preprocess_line b) l y)
     /\ um_plain (fold_left (preprocess_line b) l x) = um_plain (fold_left (preprocess_line b) l y)) as HL.
  { induction l as [|l ls IH]; intros x y HN HS HP HM; [split; assumption|]. cbn [fold_left]. apply IH.
    - intros Hx. apply HN. right. assumption.
    - destruct l; [reflexivity | exact HS | exfalso; apply HN; left; reflexivity].
    - destruct l; [exact HP | cbn; rewrite HS; reflexivity | exfalso; apply HN; left; reflexivity].
    - destruct l; [exact HM | cbn; rewrite HS, HM; reflexivity | exfalso; apply HN; left; reflexivity]. }
  apply HL; [assumption | | |]; cbn; unfold include_header; rewrite E; cbn; try reflexivity.
  destruct (ba_msg b (um_set u)) eqn:EB; [reflexivity | exfalso; apply (HB _ EB)].
Qed.

Lemma old_lemma s : (sw_ndebug s = true /\ sw_handler s = true /\ sw_disable s = false)
  \/ um_plain (preprocessed old_boost s [LHeader]) = um_msg (preprocessed old_boost s [LHeader]).
Proof. destruct s as [[] [] []]; auto. Qed.
Lemma together_lemma : exists s,
  um_plain (preprocessed old_boost s [LHeader]) = Some CallsUser /\ um_msg (preprocessed old_boost s [LHeader]) = Some Nothing.
Proof. exists (Switches false true true). split; reflexivity. Qed.

Section Build.
Context (c : config) (coll : collection) (Hst : static_ok coll = true) (Hsafe : index_safe c (capacity coll)).
Lemma switched_lemma beh h0 ops S rs w e1 e2 e3 r1 r2 r3 : tame beh -> history c coll beh (start coll h0) ops S rs w ->
  exists v, history (Config (int_bits c) (little c) (acts_as r1 e1) (acts_as r2 e2) (acts_as r3 e3)) coll beh (start coll h0) ops S rs v
    /\ same_view coll w v.
Proof. intros HT HH. apply (build_lemma c coll Hst Hsafe _ beh h0 ops S rs w HT); [reflexivity | exact Hsafe | exact HH]. Qed.
End Build.

(** What a failure does. *)
Lemma ends_lemma i l r1 e1 r2 e2 r3 e3 cap k :
  let c := Config i l (acts_as r1 e1) (acts_as r2 e2) (acts_as r3 e3) in
  let ends r e := e = CallsAbort \/ (e = CallsUser /\ r = false) in
  (assert_ c false = AssertFail <-> ends r1 e1) /\ (assert_ c false = Ok tt <-> ~ ends r1 e1)
  /\ (assert_plain c false = AssertFail <-> ends r2 e2) /\ (assert_plain c false = Ok tt <-> ~ ends r2 e2)
  /\ (k < 0 \/ cap <= k -> (array_check c cap k = AssertFail <-> ends r3 e3) /\ (array_check c cap k = UB <-> ~ ends r3 e3)).
Proof.
  intros c ends.
  assert (forall r e, stops (acts_as r e) = true <-> ends r e) as HS.
  { intros r e. subst ends. destruct e, r; cbn; split; try discriminate; auto; intros [H|[H H']]; discriminate. }
  unfold assert_, assert_plain, array_check, aborts. subst c. cbn [mode plain arrays].
  rewrite <- !HS.
  split; [destruct (stops (acts_as r1 e1)); intuition congruence|].
  split; [destruct (stops (acts_as r1 e1)); intuition congruence|].
  split; [destruct (stops (acts_as r2 e2)); intuition congruence|].
  split; [destruct (stops (acts_as r2 e2)); intuition congruence|].
  intros Hk.
  assert ((0 <=? k) && (k <? cap) = false) as ->.
  { apply andb_false_iff. destruct Hk; [left; apply Z.leb_gt; lia|right; apply Z.ltb_ge; lia]. }
  split; destruct (stops (acts_as r3 e3)); intuition congruence.
Qed.
