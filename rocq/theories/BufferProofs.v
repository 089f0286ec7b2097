(** Lemmas about util::ReceiveBuffer: refinement to lists. *)
From Verif Require Export SpecBuffer Lists.

Lemma rep_bytes cap b X : rep cap b X -> rb_bytes b = X.
Proof.
  intros (A & B & HC & Hb & Hp & _). unfold rb_bytes. rewrite HC, Hb, Hp.
  rewrite skipn_app_exact by (unfold zlen; lia).
  apply firstn_app_exact. unfold zlen; lia.
Qed.

Lemma rep_inv cap b X : rep cap b X -> rb_inv cap b.
Proof.
  intros (A & B & HC & Hb & Hp & Hl). unfold rb_inv. rewrite HC, Hb, Hp, !zlen_app.
  pose proof (zlen_nonneg A); pose proof (zlen_nonneg X); pose proof (zlen_nonneg B). lia.
Qed.

Lemma inv_rep cap b : rb_inv cap b -> rep cap b (rb_bytes b).
Proof.
  intros (H1 & H2 & H3). unfold zlen in H3.
  exists (firstn (Z.to_nat (rb_begin b)) (rb_contents b)),
    (skipn (Z.to_nat (rb_pastEnd b)) (rb_contents b)).
  unfold rb_bytes. repeat split.
  - rewrite <- (firstn_skipn (Z.to_nat (rb_begin b)) (rb_contents b)) at 1. f_equal.
    rewrite <- (firstn_skipn (Z.to_nat (rb_pastEnd b - rb_begin b)) (skipn _ _)) at 1. f_equal.
    rewrite skipn_skipn. f_equal. lia.
  - unfold zlen. rewrite firstn_length. lia.
  - unfold zlen. rewrite !firstn_length, skipn_length. lia.
  - unfold zlen. rewrite !firstn_length, !skipn_length. lia.
Qed.

Lemma rep_unique cap b X Y : rep cap b X -> rep cap b Y -> X = Y.
Proof. intros H1 H2. apply rep_bytes in H1, H2. congruence. Qed.

Section Ops.
Context (c : config) (cap : Z) (Hcap : cap_ok cap).

Lemma to_sz_small x : 0 <= x <= cap -> to_sz cap x = x.
Proof.
  intros H. unfold to_sz, size_bits. apply trunc_small.
  pose proof (uint_least_bits_bound cap). unfold cap_ok in Hcap. lia.
Qed.

Lemma max_size_cap : rb_max_size cap = cap.
Proof. unfold rb_max_size. apply to_sz_small. unfold cap_ok in Hcap. lia. Qed.

Lemma rep_init : rep cap (rb_init cap) [].
Proof.
  exists [], (repeat 0 (Z.to_nat cap)). repeat split; try reflexivity.
  change (zlen (@nil Z)) with 0. rewrite zlen_repeat. unfold cap_ok in Hcap. lia.
Qed.

Ltac rep_bounds :=
  repeat match goal with
         | l : list Z |- _ =>
             lazymatch goal with
             | _ : 0 <= zlen l |- _ => fail
             | _ => let H := fresh "ZL" in pose proof (zlen_nonneg l) as H
             end
         end.

Lemma rep_size b X : rep cap b X -> rb_size cap b = zlen X.
Proof.
  intros (A & B & HC & Hb & Hp & Hl). unfold rb_size. rewrite Hb, Hp. rep_bounds.
  rewrite to_sz_small; lia.
Qed.

Lemma rep_size_le b X : rep cap b X -> zlen X <= cap.
Proof. intros (A & B & HC & Hb & Hp & Hl). rep_bounds. lia. Qed.

Lemma rep_empty b X : rep cap b X -> rb_empty b = match X with [] => true | _ => false end.
Proof.
  intros (A & B & HC & Hb & Hp & Hl). unfold rb_empty. rewrite Hb, Hp. destruct X.
  - rewrite zlen_nil. apply Z.eqb_eq. lia.
  - rewrite zlen_cons. rep_bounds. apply Z.eqb_neq. lia.
Qed.

Lemma rep_clear b X : rep cap b X -> rep cap (rb_clear b) [].
Proof.
  intros (A & B & HC & Hb & Hp & Hl). exists [], (rb_contents b).
  split; [reflexivity|]. split; [reflexivity|]. split; [reflexivity|].
  rewrite HC, !zlen_app. unfold zlen in *; simpl length; lia.
Qed.

Lemma aborts_mode : aborts c = true -> mode c = Aborting.
Proof. unfold aborts, stops. destruct (mode c); congruence. Qed.

Lemma assert_true x : x = true -> assert_ c x = Ok tt.
Proof. intros ->. unfold assert_. destruct (aborts c); reflexivity. Qed.

Lemma plain_true x : x = true -> assert_plain c x = Ok tt.
Proof. intros ->. unfold assert_plain. destruct (stops (plain c)); reflexivity. Qed.

Lemma arr_get_mid (A X B : list Z) i :
  0 <= i < zlen X -> arr_get (A ++ X ++ B) (zlen A + i) = nth (Z.to_nat i) X 0.
Proof.
  intros H. unfold arr_get, zlen in *. rewrite app_nth2 by lia.
  replace (Z.to_nat (Z.of_nat (length A) + i) - length A)%nat with (Z.to_nat i) by lia.
  apply app_nth1. lia.
Qed.

Lemma rep_ref b X i : rep cap b X -> 0 <= i < zlen X ->
  rb_ref c cap b i = Ok (rb_begin b + i).
Proof.
  intros R Hi. pose proof (rep_size _ _ R) as Hs. destruct R as (A & B & HC & Hb & Hp & Hl).
  rep_bounds. unfold rb_ref. rewrite Hs. rewrite assert_true by (apply Z.ltb_lt; lia). simpl.
  unfold rb_adjusted_index. rewrite to_sz_small by lia.
  unfold array_check. rewrite Hb.
  replace (0 <=? zlen A + i) with true by (symmetry; apply Z.leb_le; lia).
  replace (zlen A + i <? cap) with true by (symmetry; apply Z.ltb_lt; lia). reflexivity.
Qed.

Lemma rep_index b X i : rep cap b X -> 0 <= i < zlen X ->
  rb_index c cap b i = Ok (nth (Z.to_nat i) X 0).
Proof.
  intros R Hi. unfold rb_index. rewrite (rep_ref _ _ _ R Hi). simpl.
  destruct R as (A & B & HC & Hb & Hp & Hl). rewrite HC, Hb, arr_get_mid by assumption.
  reflexivity.
Qed.

Lemma rep_front b x X : rep cap b (x :: X) -> rb_front c cap b = Ok x.
Proof.
  intros R. unfold rb_front. rewrite (rep_index _ _ _ R).
  - reflexivity.
  - rewrite zlen_cons. pose proof (zlen_nonneg X). lia.
Qed.

Lemma rep_back b X x : rep cap b (X ++ [x]) -> rb_back c cap b = Ok x.
Proof.
  intros R. unfold rb_back. rewrite (rep_size _ _ R). pose proof (rep_size_le _ _ R) as Hle.
  rewrite zlen_app in *. pose proof (zlen_nonneg X). change (zlen [x]) with 1 in *.
  rewrite to_sz_small by lia. rewrite (rep_index _ _ _ R).
  - replace (Z.to_nat (zlen X + 1 - 1)) with (length X) by (unfold zlen; lia).
    rewrite app_nth2, Nat.sub_diag by lia. reflexivity.
  - rewrite zlen_app. change (zlen [x]) with 1. lia.
Qed.

Lemma range_ok_true lo hi : 0 <= lo <= hi -> hi <= cap -> range_ok cap lo hi = true.
Proof.
  intros. unfold range_ok.
  rewrite (proj2 (Z.leb_le 0 lo)), (proj2 (Z.leb_le lo hi)), (proj2 (Z.leb_le hi cap)) by lia.
  reflexivity.
Qed.

Lemma arr_slice_mid (A X B : list Z) lo hi :
  lo = zlen A -> hi = zlen A + zlen X -> arr_slice (A ++ X ++ B) lo hi = X.
Proof.
  intros -> ->. unfold arr_slice, zlen. rewrite skipn_app_exact by lia.
  apply firstn_app_exact. lia.
Qed.

Lemma arr_write_mid (A Y B data : list Z) pos :
  pos = zlen A -> length Y = length data -> arr_write (A ++ Y ++ B) pos data = A ++ data ++ B.
Proof.
  intros -> HY. unfold arr_write, zlen. rewrite firstn_app_exact by lia.
  do 2 f_equal. rewrite app_assoc. apply skipn_app_exact. rewrite app_length. lia.
Qed.

Lemma arr_set_mid (L R : list Z) y x k : k = zlen L -> arr_set (L ++ y :: R) k x = L ++ x :: R.
Proof.
  intros ->. unfold arr_set. rewrite firstn_app_exact by (unfold zlen; lia).
  change (y :: R) with ([y] ++ R). rewrite (app_assoc L [y] R).
  rewrite skipn_app_exact; [reflexivity|]. rewrite app_length. simpl. unfold zlen. lia.
Qed.

(** Copying the content to the front of an array of [cap] elements. *)
Lemma rep_ideal_copy src dst X Y : rep cap src X -> rep cap dst Y ->
  exists b, rb_ideal_copy cap src dst = Ok b /\ rep cap b X /\ rb_begin b = 0.
Proof.
  intros R Rd. pose proof (rep_size _ _ R) as Hs. pose proof (rep_size_le _ _ R) as Hle.
  destruct R as (A & B & HC & Hb & Hp & Hl).
  destruct (rep_inv _ _ _ Rd) as (_ & _ & HL). rep_bounds.
  destruct (split_at (rb_contents dst) (zlen X)) as (P & Q & HPQ & HP); [lia|].
  unfold rb_ideal_copy. rewrite range_ok_true by lia. eexists. split; [reflexivity|].
  split; [|reflexivity].
  exists [], Q. simpl. rewrite HC, arr_slice_mid by lia. rewrite HPQ.
  rewrite HPQ, zlen_app in HL.
  change (P ++ Q) with ([] ++ P ++ Q). rewrite arr_write_mid.
  - repeat split; cbn [rb_begin rb_pastEnd app]; unfold zlen in *; simpl length; try lia; reflexivity.
  - reflexivity.
  - unfold zlen in HP. lia.
Qed.

Lemma rep_slide b X : rep cap b X -> X = [] \/ 0 < rb_begin b ->
  exists b', rb_slide cap b = Ok b' /\ rep cap b' X /\ rb_begin b' = 0.
Proof.
  intros R H. unfold rb_slide. rewrite (rep_empty _ _ R).
  assert ((rb_begin b =? 0) && negb (match X with [] => true | _ => false end) = false) as ->.
  { destruct H as [-> | H]; [apply andb_false_r|].
    replace (rb_begin b =? 0) with false by (symmetry; apply Z.eqb_neq; lia). reflexivity. }
  apply (rep_ideal_copy b b X X R R).
Qed.

Context (Hsafe : index_safe c cap).

Lemma promoted_add_exact a n : 0 <= a -> 0 <= n -> a + n < 2 * cap ->
  promoted_add c (size_bits cap) a n = a + n.
Proof.
  intros. unfold promoted_add. destruct (Z.ltb_spec (size_bits cap) (int_bits c)); [reflexivity|].
  apply trunc_small. destruct Hsafe; lia.
Qed.

Lemma rep_ensure_space b X n : rep cap b X -> 0 <= n -> zlen X + n <= cap ->
  exists b', rb_ensure_space c cap n b = Ok b' /\ rep cap b' X /\ rb_pastEnd b' + n <= cap.
Proof.
  intros R Hn Hfit. unfold rb_ensure_space. unfold cap_ok in Hcap.
  assert (exists b1, (if rb_empty b then {| rb_begin := 0; rb_pastEnd := 0; rb_contents := rb_contents b |}
                      else b) = b1 /\ rep cap b1 X /\ (X = [] -> rb_pastEnd b1 = 0)) as (b1 & -> & R1 & H1).
  { rewrite (rep_empty _ _ R). destruct X.
    - eexists. split; [reflexivity|]. split; [apply (rep_clear _ _ R)|reflexivity].
    - exists b. split; [reflexivity|]. split; [assumption|discriminate]. }
  clear b R. pose proof (rep_size _ _ R1) as Hs.
  pose proof R1 as (A & B & HC & Hb & Hp & Hl). rep_bounds.
  assert (rb_pastEnd b1 + n < 2 * cap) as Hlt.
  { destruct X as [|x X]; [rewrite H1 by reflexivity; lia|].
    rewrite Hp, zlen_cons in *. rep_bounds. lia. }
  rewrite promoted_add_exact by lia.
  destruct (Z.leb_spec (rb_pastEnd b1 + n) cap).
  - exists b1. auto.
  - rewrite Hs, promoted_add_exact by lia.
    rewrite assert_true by (apply Z.leb_le; lia). simpl.
    destruct (rep_slide b1 X R1) as (b2 & -> & R2 & H2).
    { right. rewrite Hb. lia. }
    exists b2. split; [reflexivity|]. split; [assumption|].
    destruct R2 as (A2 & B2 & _ & Hb2 & Hp2 & _). lia.
Qed.

Lemma rep_verify b X : rep cap b X -> rb_verify c cap b = Ok tt.
Proof.
  intros R. destruct (rep_inv _ _ _ R) as (H1 & H2 & _). unfold rb_verify.
  rewrite !assert_true by (apply Z.leb_le; lia). reflexivity.
Qed.

(** Writing [data] after the content and moving the end: used by range append and by
    functors. *)
Lemma rep_write_end b X data : rep cap b X -> rb_pastEnd b + zlen data <= cap ->
  rep cap (RBuf (rb_begin b) (rb_pastEnd b + zlen data)
             (arr_write (rb_contents b) (rb_pastEnd b) data)) (X ++ data).
Proof.
  intros (A & B & HC & Hb & Hp & Hl) Hfit. rep_bounds.
  destruct (split_at B (zlen data)) as (P & Q & -> & HP); [lia|].
  exists A, Q. simpl. rewrite HC, Hb, Hp.
  replace (A ++ X ++ P ++ Q) with ((A ++ X) ++ P ++ Q) by (rewrite !app_assoc; reflexivity).
  rewrite arr_write_mid.
  - rewrite !zlen_app, <- !app_assoc in *. repeat split; lia.
  - rewrite zlen_app. reflexivity.
  - unfold zlen in HP. lia.
Qed.

Lemma rep_push_range b X data : rep cap b X -> zlen X + zlen data <= cap ->
  exists b', rb_push_range c cap data b = Ok b' /\ rep cap b' (X ++ data).
Proof.
  intros R Hfit. rep_bounds. unfold rb_push_range. rewrite to_sz_small by lia.
  destruct (rep_ensure_space b X (zlen data) R) as (b1 & -> & R1 & H1); [lia|lia|]. simpl.
  rewrite (proj2 (Z.leb_le _ _) H1).
  pose proof (rep_write_end b1 X data R1 H1) as R2.
  pose proof (rep_inv _ _ _ R2) as (I1 & I2 & _). simpl in I1, I2.
  destruct (rep_inv _ _ _ R1) as (I3 & _). rewrite to_sz_small by lia.
  rewrite (rep_verify _ _ R2). simpl. eauto.
Qed.

Lemma rep_increment_pastEnd b X : rep cap b X -> zlen X + 1 <= cap ->
  exists b' y, rb_increment_pastEnd c cap b = Ok b' /\ rep cap b' (X ++ [y]).
Proof.
  intros R Hfit. unfold rb_increment_pastEnd. unfold cap_ok in Hcap.
  destruct (rep_ensure_space b X 1 R) as (b1 & -> & R1 & H1); [lia|lia|]. cbn [bind].
  destruct R1 as (A & B & HC & Hb & Hp & Hl). rep_bounds.
  rewrite to_sz_small by lia. cbn [rb_pastEnd]. rewrite assert_true by (apply Z.leb_le; lia).
  destruct B as [|y B]; [rewrite zlen_nil in *; lia|].
  exists {| rb_begin := rb_begin b1; rb_pastEnd := rb_pastEnd b1 + 1; rb_contents := rb_contents b1 |}, y.
  split; [reflexivity|]. exists A, B. cbn [rb_begin rb_pastEnd rb_contents].
  rewrite HC, <- app_assoc. rewrite zlen_app. change (zlen [y]) with 1.
  rewrite zlen_cons in Hl. repeat split; lia.
Qed.

Lemma rep_push_back b X x : rep cap b X -> zlen X + 1 <= cap ->
  exists b', rb_push_back c cap x b = Ok b' /\ rep cap b' (X ++ [x]).
Proof.
  intros R Hfit. unfold rb_push_back. rep_bounds.
  destruct (rep_increment_pastEnd b X R Hfit) as (b1 & y & -> & R1). cbn [bind].
  rewrite (rep_size _ _ R1). rewrite zlen_app. change (zlen [y]) with 1.
  rewrite to_sz_small by lia.
  rewrite (rep_ref _ _ _ R1) by (rewrite zlen_app; change (zlen [y]) with 1; lia).
  cbn [bind]. eexists. split; [reflexivity|].
  destruct R1 as (A & B & HC & Hb & Hp & Hl). exists A, B. cbn [rb_begin rb_pastEnd rb_contents].
  rewrite Hb, Hp, HC. rewrite zlen_app in *. change (zlen [y]) with 1 in *. change (zlen [x]) with 1.
  repeat split; try lia.
  replace (A ++ (X ++ [y]) ++ B) with ((A ++ X) ++ y :: B) by (rewrite <- !app_assoc; reflexivity).
  rewrite arr_set_mid by (rewrite zlen_app; lia). rewrite <- !app_assoc. reflexivity.
  all: rewrite zlen_app; change (zlen [x]) with 1; lia.
Qed.

Lemma rep_from_functor b X f n data : rep cap b X ->
  0 <= n -> f (Z.min n (cap - zlen X)) = (data, zlen data) ->
  zlen data <= Z.min n (cap - zlen X) ->
  exists b', rb_from_functor c cap f n b = Ok (b', zlen data) /\ rep cap b' (X ++ data).
Proof.
  intros R Hn Hf Hfit. unfold rb_from_functor. rep_bounds.
  pose proof (rep_size_le _ _ R). rewrite (rep_size _ _ R), max_size_cap.
  rewrite to_sz_small by lia. rewrite Hf.
  destruct (rep_ensure_space b X (Z.min n (cap - zlen X)) R) as (b1 & -> & R1 & H1); [lia|lia|].
  cbn [bind]. assert (rb_pastEnd b1 + zlen data <= cap) as H2 by lia.
  rewrite (proj2 (Z.leb_le _ _) H2).
  rewrite (to_sz_small (zlen data)) by lia.
  pose proof (rep_write_end b1 X data R1 H2) as R2.
  destruct (rep_inv _ _ _ R1) as (I3 & _). rewrite to_sz_small by lia.
  rewrite (rep_verify _ _ R2). cbn [bind]. eauto.
Qed.

End Ops.

Section Pops.
Context (c : config) (cap : Z) (Hcap : cap_ok cap).

Ltac rep_bounds :=
  repeat match goal with
         | l : list Z |- _ =>
             lazymatch goal with
             | _ : 0 <= zlen l |- _ => fail
             | _ => let H := fresh "ZL" in pose proof (zlen_nonneg l) as H
             end
         end.

Lemma rep_increment_begin b x X : rep cap b (x :: X) ->
  exists b', rb_increment_begin c cap b = Ok b' /\ rep cap b' X.
Proof.
  intros (A & B & HC & Hb & Hp & Hl). rewrite zlen_cons in *. rep_bounds.
  unfold rb_increment_begin. rewrite assert_true by (apply Z.ltb_lt; lia). cbn [bind].
  rewrite to_sz_small by (auto; lia). eexists. split; [reflexivity|].
  exists (A ++ [x]), B. cbn [rb_begin rb_pastEnd rb_contents]. rewrite HC, <- !app_assoc, zlen_app.
  change (zlen [x]) with 1. repeat split; lia.
Qed.

Lemma rep_decrement_pastEnd b x X : rep cap b (X ++ [x]) ->
  exists b', rb_decrement_pastEnd c cap b = Ok b' /\ rep cap b' X.
Proof.
  intros (A & B & HC & Hb & Hp & Hl). rewrite zlen_app in *. change (zlen [x]) with 1 in *. rep_bounds.
  unfold rb_decrement_pastEnd. rewrite assert_true by (apply Z.ltb_lt; lia). cbn [bind].
  rewrite to_sz_small by (auto; lia). eexists. split; [reflexivity|].
  exists A, ([x] ++ B). cbn [rb_begin rb_pastEnd rb_contents]. rewrite HC, <- !app_assoc, zlen_app.
  change (zlen [x]) with 1. repeat split; lia.
Qed.

Lemma rep_increment_begin_n P : forall b X, rep cap b (P ++ X) ->
  exists b', repeat_m (length P) (rb_increment_begin c cap) b = Ok b' /\ rep cap b' X.
Proof.
  induction P as [|p P IH]; intros b X R; simpl.
  - eauto.
  - destruct (rep_increment_begin b p (P ++ X) R) as (b1 & -> & R1). cbn [bind]. apply IH, R1.
Qed.

Lemma rep_decrement_pastEnd_n P : forall b X, rep cap b (X ++ P) ->
  exists b', repeat_m (length P) (rb_decrement_pastEnd c cap) b = Ok b' /\ rep cap b' X.
Proof.
  induction P as [|p P IH] using rev_ind; intros b X R.
  - rewrite app_nil_r in R. simpl. eauto.
  - rewrite app_length, Nat.add_comm. simpl. rewrite app_assoc in R.
    destruct (rep_decrement_pastEnd b p (X ++ P) R) as (b1 & -> & R1). cbn [bind]. apply IH, R1.
Qed.

Lemma rep_pop_front b P X x n : rep cap b (P ++ X) -> n = zlen P -> hd_error (P ++ X) = Some x ->
  exists b', rb_pop_front c cap n b = Ok (b', x) /\ rep cap b' X.
Proof.
  intros R -> Hx. unfold rb_pop_front.
  destruct (P ++ X) as [|y l] eqn:E; [discriminate|]. injection Hx as ->.
  rewrite (rep_front c cap Hcap _ _ _ R). cbn [bind]. rewrite <- E in R.
  destruct (rep_increment_begin_n P b X R) as (b1 & H1 & R1).
  unfold zlen. rewrite Nat2Z.id, H1. cbn [bind]. eauto.
Qed.

Lemma rep_pop_back b P X x n : rep cap b (X ++ P) -> n = zlen P ->
  (exists Y, X ++ P = Y ++ [x]) ->
  exists b', rb_pop_back c cap n b = Ok (b', x) /\ rep cap b' X.
Proof.
  intros R -> (Y & E). unfold rb_pop_back. pose proof R as R0. rewrite E in R0.
  rewrite (rep_back c cap Hcap _ _ _ R0). cbn [bind].
  destruct (rep_decrement_pastEnd_n P b X R) as (b1 & H1 & R1).
  unfold zlen. rewrite Nat2Z.id, H1. cbn [bind]. eauto.
Qed.

(** Erasing the nonempty middle part [M] of [P ++ M ++ S]. *)
Lemma rep_erase b P M S : rep cap b (P ++ M ++ S) -> M <> [] ->
  exists b', rb_erase c cap (rb_begin b + zlen P) (rb_begin b + zlen P + zlen M) b
             = Ok (b', rb_begin b' + zlen P)
             /\ rep cap b' (P ++ S).
Proof.
  intros R HM. pose proof (rep_size cap Hcap _ _ R) as Hs.
  destruct (rep_inv _ _ _ R) as (I1 & I2 & I3).
  pose proof R as (A & B & HC & Hb & Hp & Hl). rewrite !zlen_app in *. rep_bounds.
  assert (0 < zlen M) as HM0.
  { destruct M; [contradiction|]. rewrite zlen_cons. pose proof (zlen_nonneg M). lia. }
  unfold rb_erase.
  rewrite (to_sz_small cap Hcap (rb_begin b + zlen P - rb_begin b)) by lia.
  rewrite (to_sz_small cap Hcap (rb_begin b + zlen P + zlen M - rb_begin b)) by lia.
  rewrite assert_true by (apply Z.ltb_lt; lia). cbn [bind].
  rewrite (to_sz_small cap Hcap) by lia.
  replace (rb_begin b + zlen P + zlen M - rb_begin b - (rb_begin b + zlen P - rb_begin b)) with (zlen M) by lia.
  replace (rb_begin b + zlen P - rb_begin b) with (zlen P) by lia.
  replace (rb_begin b + zlen P + zlen M - rb_begin b) with (zlen P + zlen M) by lia.
  rewrite (proj2 (Z.eqb_neq (zlen M) 0)) by lia.
  rewrite Hs. rewrite assert_true by (apply Z.leb_le; lia). cbn [bind].
  destruct (Z.eqb_spec (zlen P) 0) as [HP | HP].
  { apply zlen_0 in HP. subst P. cbn [app] in *.
    destruct M as [|x M]; [contradiction|].
    destruct (rep_pop_front b (x :: M) S x (zlen (x :: M)) R eq_refl eq_refl) as (b1 & -> & R1).
    cbn [bind]. eauto. }
  rewrite Hp.
  destruct (Z.eqb_spec (rb_begin b + zlen P + zlen M) (zlen A + (zlen P + (zlen M + zlen S)))) as [HS | HS].
  { assert (zlen S = 0) as HS0 by lia. apply zlen_0 in HS0. subst S. rewrite !app_nil_r in *.
    destruct (exists_last HM) as (Y & x & E).
    destruct (rep_pop_back b M P x (zlen M) R eq_refl) as (b1 & -> & R1).
    { exists (P ++ Y). rewrite E, app_assoc. reflexivity. }
    cbn [bind]. eauto. }
  rewrite !assert_true by (apply Z.ltb_lt; lia). cbn [bind].
  rewrite !range_ok_true by lia. cbn [andb].
  rewrite (proj2 (Z.leb_gt (rb_begin b + zlen P + zlen M) (rb_begin b + zlen P))) by lia. cbn [andb negb].
  assert (rep cap {| rb_begin := rb_begin b;
            rb_pastEnd := zlen A + (zlen P + (zlen M + zlen S));
            rb_contents :=
              arr_write (rb_contents b) (rb_begin b + zlen P)
                (arr_slice (rb_contents b) (rb_begin b + zlen P + zlen M)
                   (zlen A + (zlen P + (zlen M + zlen S))))
          |} ((P ++ S) ++ skipn (length S) (M ++ S))) as R1.
  { exists A, B. cbn [rb_begin rb_pastEnd rb_contents]. rewrite HC, Hb.
    replace (A ++ (P ++ M ++ S) ++ B) with ((A ++ P ++ M) ++ S ++ B) at 2
      by (rewrite <- !app_assoc; reflexivity).
    rewrite arr_slice_mid by (rewrite !zlen_app; lia).
    assert (zlen (skipn (length S) (M ++ S)) = zlen M) as HL.
    { unfold zlen. rewrite skipn_length, app_length. lia. }
    rewrite !zlen_app, HL.
    replace (A ++ (P ++ M ++ S) ++ B)
      with ((A ++ P) ++ firstn (length S) (M ++ S) ++ (skipn (length S) (M ++ S) ++ B)).
    2:{ rewrite (app_assoc (firstn _ _)), firstn_skipn, <- !app_assoc. reflexivity. }
    rewrite arr_write_mid.
    - repeat split; try lia. rewrite <- !app_assoc. reflexivity.
    - rewrite zlen_app. lia.
    - rewrite firstn_length, app_length. lia. }
  destruct (rep_decrement_pastEnd_n _ _ _ R1) as (b2 & H2 & R2).
  rewrite skipn_length, app_length in H2.
  replace (length M + length S - length S)%nat with (Z.to_nat (zlen M)) in H2 by (unfold zlen; lia).
  rewrite H2. cbn [bind]. eauto.
Qed.

Lemma rep_copy b X : rep cap b X ->
  exists b', rb_copy cap b = Ok b' /\ rep cap b' X.
Proof.
  intros R. unfold rb_copy. unfold cap_ok in Hcap.
  assert (rep cap {| rb_begin := 0; rb_pastEnd := rb_size cap b; rb_contents := repeat 0 (Z.to_nat cap) |}
            (repeat 0 (Z.to_nat (rb_size cap b)))) as R0.
  { pose proof (rep_size cap Hcap _ _ R) as Hs. pose proof (rep_size_le _ _ _ R). rep_bounds. rewrite Hs.
    exists [], (repeat 0 (Z.to_nat (cap - zlen X))).
    cbn [rb_begin rb_pastEnd rb_contents]. change (zlen (@nil Z)) with 0. rewrite !zlen_repeat, !Z2Nat.id by lia.
    repeat split; try lia. cbn [app]. rewrite <- repeat_app. f_equal. lia. }
  destruct (rep_ideal_copy cap Hcap b _ X _ R R0) as (b' & H & R' & _). eauto.
Qed.

Lemma rep_assign b d X Y : rep cap b X -> rep cap d Y ->
  exists b', rb_assign cap b d = Ok b' /\ rep cap b' X.
Proof.
  intros R Rd. destruct (rep_ideal_copy cap Hcap b d X Y R Rd) as (b' & H & R' & _). eauto.
Qed.
End Pops.
