(** Programs of buffer operations, copies, and where the buffer misbehaves. *)
From Verif Require Export BufferProofs.

Section Programs.
Context (c : config) (cap : Z) (Hcap : cap_ok cap) (Hsafe : index_safe c cap).

Lemma rep_set b P y x Q : rep cap b (P ++ y :: Q) ->
  exists b', rb_set c cap (zlen P) x b = Ok b' /\ rep cap b' (P ++ x :: Q).
Proof.
  intros R. unfold rb_set. rewrite (rep_ref c cap Hcap b _ _ R).
  2:{ rewrite zlen_app, zlen_cons. pose proof (zlen_nonneg P). pose proof (zlen_nonneg Q). lia. }
  cbn [bind]. eexists. split; [reflexivity|]. destruct R as (A & B & HC & Hb & Hp & Hl).
  exists A, B. cbn [rb_contents rb_begin rb_pastEnd]. rewrite !zlen_app, !zlen_cons in *. split; [|lia].
  rewrite HC. replace (A ++ (P ++ y :: Q) ++ B) with ((A ++ P) ++ y :: (Q ++ B)).
  2:{ rewrite <- !app_assoc. reflexivity. }
  rewrite arr_set_mid by (rewrite zlen_app; lia). rewrite <- !app_assoc. reflexivity.
Qed.

Lemma bstep_refines o b X Y r : rep cap b X -> lstep cap o X Y r ->
  exists b', bstep c cap o b = Ok (b', r) /\ rep cap b' Y.
Proof.
  intros R H. destruct H; cbn [bstep].
  - destruct (rep_push_back c cap Hcap Hsafe b X x R H) as (b' & -> & R'). cbn [bind]. eauto.
  - destruct (rep_push_range c cap Hcap Hsafe b X d R H) as (b' & -> & R'). cbn [bind]. eauto.
  - destruct (rep_from_functor c cap Hcap Hsafe b X f n d R H H0 H1) as (b' & -> & R'). cbn [bind]. eauto.
  - destruct (rep_pop_front c cap Hcap b P Y x _ R eq_refl H) as (b' & -> & R'). cbn [bind]. eauto.
  - destruct (rep_pop_back c cap Hcap b P Y x _ R eq_refl (ex_intro _ Z H)) as (b' & -> & R'). cbn [bind]. eauto.
  - destruct (rep_erase c cap Hcap b P M Q R H) as (b' & E & R').
    replace (rb_begin b + (zlen P + zlen M)) with (rb_begin b + zlen P + zlen M) by lia.
    rewrite E. cbn [bind]. replace (rb_begin b' + zlen P - rb_begin b') with (zlen P) by lia. eauto.
  - destruct (rep_erase c cap Hcap b P [x] Q R) as (b' & E & R'); [discriminate|].
    unfold rb_erase1. change (zlen [x]) with 1 in E. rewrite E. cbn [bind].
    replace (rb_begin b' + zlen P - rb_begin b') with (zlen P) by lia. eauto.
  - destruct (rep_set b P y x Q R) as (b' & -> & R'). cbn [bind]. eauto.
  - eexists. split; [reflexivity|]. eapply rep_clear, R.
  - destruct (rep_ensure_space c cap Hcap Hsafe b X n R H H0) as (b' & -> & R' & _). cbn [bind]. eauto.
  - destruct (rep_copy cap Hcap b X R) as (b' & -> & R'). cbn [bind]. eauto.
Qed.

Lemma brun_refines ops : forall b X Y rs, rep cap b X -> lrun cap ops X Y rs ->
  exists b', brun c cap ops b = Ok (b', rs) /\ rep cap b' Y.
Proof.
  induction ops as [|o ops IH]; intros b X Y rs R H; inversion H; subst; cbn [brun].
  - eauto.
  - match goal with HS : lstep _ _ _ ?Z ?r |- _ =>
      destruct (bstep_refines o b X Z r R HS) as (b1 & -> & R1) end.
    cbn [bind]. match goal with HR : lrun _ ops _ _ _ |- _ => destruct (IH b1 _ _ _ R1 HR) as (b2 & -> & R2) end.
    cbn [bind]. eauto.
Qed.
End Programs.

Lemma rep_slice cap b X : rep cap b X -> arr_slice (rb_contents b) (rb_begin b) (rb_pastEnd b) = X.
Proof.
  intros (A & B & HC & Hb & Hp & Hl). rewrite HC. apply arr_slice_mid; assumption.
Qed.

Lemma rep_observed c cap b X : cap_ok cap -> rep cap b X -> observed_as c cap b X.
Proof.
  intros Hcap R. split; [apply (rep_size cap Hcap); assumption|]. split; [apply (rep_empty cap); assumption|].
  split; [intros i Hi; apply (rep_index c cap Hcap); assumption|]. split.
  - intros x Hx. destruct X as [|y X]; [discriminate|]. injection Hx as ->. eapply rep_front; eassumption.
  - split; [intros Y x ->; eapply rep_back; eassumption|]. split; [eapply rep_inv; eassumption|]. eapply rep_slice; eassumption.
Qed.

Lemma buffer_program_lemma c cap ops b rs X Y : cap_ok cap -> index_safe c cap -> rep cap b X ->
  lrun cap ops X Y rs ->
  exists b', brun c cap ops b = Ok (b', rs) /\ observed_as c cap b' Y /\ rep cap b' Y.
Proof.
  intros H1 H2 R H. destruct (brun_refines c cap H1 H2 ops b X Y rs R H) as (b' & E & R').
  exists b'. split; [assumption|]. split; [apply rep_observed; assumption | assumption].
Qed.

Lemma buffer_program_init c cap ops rs X : cap_ok cap -> index_safe c cap ->
  lrun cap ops [] X rs ->
  exists b', brun c cap ops (rb_init cap) = Ok (b', rs) /\ observed_as c cap b' X /\ rep cap b' X.
Proof. intros H1 H2. apply buffer_program_lemma; auto. apply rep_init, H1. Qed.

(** Every prefix keeps the indices inside the array. *)
Lemma buffer_inside_lemma c cap ops more rs X : cap_ok cap -> index_safe c cap ->
  lrun cap (ops ++ more) [] X rs ->
  exists b' rs', brun c cap ops (rb_init cap) = Ok (b', rs')
    /\ 0 <= rb_begin b' <= rb_pastEnd b' /\ rb_pastEnd b' <= cap
    /\ zlen (rb_contents b') = cap /\ 0 <= rb_size cap b' <= cap
    /\ exists b'' r, brun c cap more b' = Ok (b'', r).
Proof.
  intros H1 H2 H.
  assert (forall ops b X0, rep cap b X0 -> forall rs, lrun cap (ops ++ more) X0 X rs ->
    exists b' rs' Y, brun c cap ops b = Ok (b', rs') /\ rep cap b' Y /\ exists r, lrun cap more Y X r) as G.
  { clear ops H rs. induction ops as [|o ops IH]; intros b X0 R rs H; cbn [app] in H.
    - exists b, [], X0. split; [reflexivity|]. eauto.
    - inversion H; subst. match goal with HS : lstep _ _ _ ?Z ?r |- _ =>
        destruct (bstep_refines c cap H1 H2 o b X0 Z r R HS) as (b1 & E1 & R1) end.
      match goal with HR : lrun _ _ _ _ _ |- _ => destruct (IH b1 _ R1 _ HR) as (b2 & rs2 & Y2 & E2 & R2 & r2 & L2) end.
      exists b2. eexists. exists Y2. cbn [brun]. rewrite E1. cbn [bind]. rewrite E2. cbn [bind].
      split; [reflexivity|]. eauto. }
  destruct (G ops (rb_init cap) [] (rep_init cap H1) rs H) as (b' & rs' & Y & E & R & r & L).
  exists b', rs'. split; [assumption|]. destruct (rep_inv _ _ _ R) as (I1 & I2 & I3).
  rewrite (rep_size cap H1 _ _ R). pose proof (rep_size_le cap _ _ R). pose proof (zlen_nonneg Y).
  repeat (split; [lia|]). destruct (brun_refines c cap H1 H2 more b' Y X r R L) as (b2 & E2 & _). eauto.
Qed.

(** ** Appends that do not fit *)
Lemma ensure_keeps c cap b X n : cap_ok cap -> index_safe c cap -> rep cap b X -> 0 <= n -> zlen X + n <= cap ->
  exists b', rb_ensure_space c cap n b = Ok b' /\ rep cap b' X.
Proof. intros H1 H2 R Hn Hf. destruct (rep_ensure_space c cap H1 H2 b X n R Hn Hf) as (b' & E & R' & _). eauto. Qed.

Lemma oversized_ub c cap b X d : cap_ok cap -> index_safe c cap -> rep cap b X ->
  cap < zlen X + zlen d -> zlen X + zlen d mod 2 ^ size_bits cap <= cap ->
  rb_push_range c cap d b = UB.
Proof.
  intros H1 H2 R Hbig Hwrap. unfold rb_push_range. unfold to_sz at 1, trunc.
  destruct (ensure_keeps c cap b X (zlen d mod 2 ^ size_bits cap) H1 H2 R) as (b' & -> & R').
  { apply Z.mod_pos_bound. apply Z.pow_pos_nonneg; [lia|]. unfold size_bits.
    pose proof (uint_least_bits_bound cap). unfold uint_least_bits. repeat destruct (_ <? _); lia. } { assumption. }
  cbn [bind]. destruct R' as (A & B & HC & Hb & Hp & Hl). rewrite (proj2 (Z.leb_gt _ _)); [reflexivity|].
  pose proof (zlen_nonneg A). lia.
Qed.

Lemma oversized_caught c cap b X d : cap_ok cap -> size_bits cap < int_bits c -> aborts c = true ->
  rep cap b X -> cap < zlen X + zlen d mod 2 ^ size_bits cap ->
  rb_push_range c cap d b = AssertFail.
Proof.
  intros H1 H2 Ha R Hbig. unfold rb_push_range. unfold to_sz at 1, trunc.
  set (n := zlen d mod 2 ^ size_bits cap) in *. unfold rb_ensure_space.
  assert (exists b1, (if rb_empty b then {| rb_begin := 0; rb_pastEnd := 0; rb_contents := rb_contents b |}
                      else b) = b1 /\ rep cap b1 X) as (b1 & -> & R1).
  { pose proof (rep_empty cap b X R) as He. destruct X; rewrite He.
    - eexists. split; [reflexivity|]. eapply (rep_clear cap b), R.
    - exists b. split; [reflexivity | assumption]. }
  pose proof (rep_size cap H1 _ _ R1) as Hs. destruct R1 as (A & B & HC & Hb & Hp & Hl).
  pose proof (zlen_nonneg A). unfold promoted_add. rewrite (proj2 (Z.ltb_lt _ _) H2), Hs.
  rewrite (proj2 (Z.leb_gt _ _)) by lia. rewrite (proj2 (Z.leb_gt _ _)) by lia.
  unfold assert_. rewrite Ha. reflexivity.
Qed.

(** ** Copies *)
Lemma copy_lemma c cap b d X Y : cap_ok cap -> index_safe c cap -> rep cap b X -> rep cap d Y ->
  exists b1 b2, rb_copy cap b = Ok b1 /\ rb_assign cap b d = Ok b2
    /\ observed_as c cap b1 X /\ observed_as c cap b2 X
    /\ forall ops Y' rs, lrun cap ops X Y' rs ->
         exists e e1 e2, brun c cap ops b = Ok (e, rs) /\ brun c cap ops b1 = Ok (e1, rs)
           /\ brun c cap ops b2 = Ok (e2, rs)
           /\ observed_as c cap e Y' /\ observed_as c cap e1 Y' /\ observed_as c cap e2 Y'.
Proof.
  intros H1 H2 R Rd. destruct (rep_copy cap H1 b X R) as (b1 & E1 & R1).
  destruct (rep_assign cap H1 b d X Y R Rd) as (b2 & E2 & R2). exists b1, b2.
  split; [assumption|]. split; [assumption|].
  split; [apply rep_observed; assumption|]. split; [apply rep_observed; assumption|].
  intros ops Y' rs L.
  destruct (buffer_program_lemma c cap ops b rs X Y' H1 H2 R L) as (e & F & O & _).
  destruct (buffer_program_lemma c cap ops b1 rs X Y' H1 H2 R1 L) as (e1 & F1 & O1 & _).
  destruct (buffer_program_lemma c cap ops b2 rs X Y' H1 H2 R2 L) as (e2 & F2 & O2 & _).
  exists e, e1, e2. auto 10.
Qed.

Lemma self_assign_lemma c cap b X : cap_ok cap -> rep cap b X ->
  if (rb_begin b =? 0) && negb (zlen X =? 0)
  then rb_self_assign cap b = UB
  else exists b', rb_self_assign cap b = Ok b' /\ observed_as c cap b' X /\ rb_begin b' = 0.
Proof.
  intros H1 R. unfold rb_self_assign. pose proof (rep_empty cap b X R) as He.
  destruct (Z.eqb_spec (rb_begin b) 0) as [H0|H0]; cbn [andb].
  - destruct X as [|x X].
    + cbn [zlen length Z.of_nat Z.eqb negb].
      destruct (rep_slide cap H1 b [] R (or_introl eq_refl)) as (b' & E & R' & Hb).
      exists b'. split; [assumption|]. split; [apply rep_observed; assumption | assumption].
    + rewrite zlen_cons. pose proof (zlen_nonneg X). rewrite (proj2 (Z.eqb_neq _ _)) by lia. cbn [negb].
      unfold rb_slide. rewrite H0, He. reflexivity.
  - destruct (rep_slide cap H1 b X R) as (b' & E & R' & Hb).
    + right. destruct (rep_inv _ _ _ R) as (? & _). lia.
    + exists b'. split; [assumption|]. split; [apply rep_observed; assumption | assumption].
Qed.

(** ** erase of an empty range *)
Lemma erase_empty c cap b X i : cap_ok cap -> rep cap b X -> 0 <= i <= zlen X ->
  rb_erase c cap (rb_begin b + i) (rb_begin b + i) b
  = if aborts c then AssertFail else Ok (b, rb_begin b + i).
Proof.
  intros H1 R Hi. unfold rb_erase, assert_. rewrite Z.ltb_irrefl.
  destruct (aborts c); [reflexivity|]. cbn [bind].
  rewrite Z.sub_diag. reflexivity.
Qed.

(** ** Room checks that wrap *)
Lemma unsafe_witness c cap : cap_ok cap -> ~ index_safe c cap -> forall d1 d2,
  zlen d1 = cap -> zlen d2 = cap - 1 ->
  exists rs X, lrun cap [BRange d1; BPopFront (cap - 1); BRange d2] [] X rs
    /\ brun c cap [BRange d1; BPopFront (cap - 1); BRange d2] (rb_init cap) = UB.
Proof.
  intros H1 H2 d1 d2 L1 L2.
  assert (int_bits c <= size_bits cap /\ 2 ^ size_bits cap < 2 * cap) as (Hw & Hbig).
  { unfold index_safe in H2. split; lia. }
  assert (cap < 2 ^ size_bits cap) as Hlt by (apply uint_least_bits_bound; unfold cap_ok in H1; lia).
  assert (2 <= cap) as Hc2.
  { assert (0 < 2 ^ size_bits cap) by (unfold cap_ok in H1; lia).
    assert (2 ^ 1 <= 2 ^ size_bits cap). { apply Z.pow_le_mono_r; [lia|]. unfold size_bits, uint_least_bits. repeat destruct (_ <? _); lia. }
    lia. }
  destruct (split_at d1 (cap - 1)) as (P & Q & -> & HP); [lia|].
  assert (exists x, Q = [x]) as (x & ->).
  { rewrite zlen_app in L1. destruct Q as [|x [|y Q]]; rewrite ?zlen_cons, ?zlen_nil in L1.
    - change (zlen (@nil Z)) with 0 in L1. lia. - eauto. - pose proof (zlen_nonneg Q). lia. }
  assert (exists y, hd_error (P ++ [x]) = Some y) as (y & Hy) by (destruct P; eexists; reflexivity).
  exists [RNone; RElem y; RNone], ([x] ++ d2). split.
  { apply lrun_cons with (Y := P ++ [x]); [apply (l_range cap (P ++ [x]) []); change (zlen (@nil Z)) with 0; lia|].
    apply lrun_cons with (Y := [x]).
    - rewrite <- HP. apply l_pop_front, Hy.
    - apply lrun_cons with (Y := [x] ++ d2); [|constructor]. apply l_range. change (zlen [x]) with 1. lia. }
  cbn [brun bstep]. assert (rb_push_range c cap (P ++ [x]) (rb_init cap) = Ok (RBuf 0 cap (P ++ [x]))) as ->.
  { unfold rb_push_range. rewrite L1. rewrite to_sz_small by (auto; unfold cap_ok in H1; lia).
    unfold rb_ensure_space, rb_init, rb_empty. cbn [rb_begin rb_pastEnd rb_contents Z.eqb].
    unfold promoted_add. rewrite (proj2 (Z.ltb_ge _ _)) by lia.
    rewrite trunc_small by (unfold cap_ok in H1; lia). rewrite Z.add_0_l, Z.leb_refl. cbn [bind rb_begin rb_pastEnd rb_contents].
    rewrite Z.add_0_l, Z.leb_refl. rewrite to_sz_small by (auto; unfold cap_ok in H1; lia).
    unfold rb_verify. cbn [rb_begin rb_pastEnd]. rewrite !assert_true by (apply Z.leb_le; lia). cbn [bind].
    unfold arr_write. cbn [Z.to_nat firstn app Nat.add]. rewrite skipn_all2; [rewrite app_nil_r; reflexivity|].
    rewrite repeat_length. unfold zlen in L1. lia. }
  cbn [bind]. assert (rep cap (RBuf 0 cap (P ++ [x])) (P ++ [x])) as R0.
  { exists [], []. cbn [rb_begin rb_pastEnd rb_contents]. rewrite app_nil_r. change (zlen (@nil Z)) with 0. repeat split; lia. }
  destruct (rep_pop_front c cap H1 _ P [x] y (cap - 1) R0 ltac:(lia) Hy) as (b' & E & R').
  assert (rb_pastEnd b' = cap) as HPE.
  { unfold rb_pop_front in E. rewrite (rep_front c cap H1 _ y (tl (P ++ [x]))) in E.
    - cbn [bind] in E. destruct (repeat_m _ _ _) as [b2| | | |] eqn:E2; cbn [bind] in E; try discriminate.
      assert (b2 = b') as -> by congruence.
      assert (forall n b b', repeat_m n (rb_increment_begin c cap) b = Ok b' -> rb_pastEnd b' = rb_pastEnd b) as G.
      { induction n as [|n IH]; intros e e' HE; cbn [repeat_m] in HE; [congruence|].
        unfold rb_increment_begin at 1 in HE. destruct (assert_ c _); cbn [bind] in HE; try discriminate.
        apply IH in HE. exact HE. }
      apply G in E2. exact E2.
    - destruct (P ++ [x]); [discriminate|]. cbn in Hy. assert (z = y) by congruence. subst. exact R0. }
  rewrite E. cbn [bind].
  assert (rb_push_range c cap d2 b' = UB) as ->; [|reflexivity].
  unfold rb_push_range. rewrite to_sz_small by (auto; lia). unfold rb_ensure_space. rewrite (rep_empty cap _ _ R').
  rewrite HPE, L2. unfold promoted_add. rewrite (proj2 (Z.ltb_ge _ _)) by lia.
  assert (trunc (size_bits cap) (cap + (cap - 1)) <= cap) as HT.
  { unfold trunc. replace (cap + (cap - 1)) with (2 * cap - 1 - 2 ^ size_bits cap + 1 * 2 ^ size_bits cap) by lia.
    rewrite Z.mod_add by lia. rewrite Z.mod_small by lia. lia. }
  rewrite (proj2 (Z.leb_le _ _) HT). cbn [bind]. rewrite HPE. rewrite (proj2 (Z.leb_gt _ _)) by lia. reflexivity.
Qed.

Lemma index_safe_small c cap : cap_ok cap -> 16 <= int_bits c -> cap <= 2 ^ (int_bits c - 1) -> index_safe c cap.
Proof.
  intros H1 Hi Hc. unfold index_safe, size_bits, cap_ok in *. unfold uint_least_bits.
  destruct (Z.ltb_spec cap (2 ^ 8)); [left; lia|]. destruct (Z.ltb_spec cap (2 ^ 16)).
  - destruct (Z.lt_ge_cases 16 (int_bits c)); [left; lia|]. right. assert (int_bits c = 16) as E by lia.
    rewrite E in Hc. change (16 - 1) with 15 in Hc. change (2 ^ 15) with 32768 in Hc. change (2 ^ 16) with 65536. lia.
  - destruct (Z.ltb_spec cap (2 ^ 32)).
    + destruct (Z.lt_ge_cases 32 (int_bits c)); [left; lia|]. right.
      assert (2 ^ (int_bits c - 1) <= 2 ^ 31) by (apply Z.pow_le_mono_r; lia).
      change (2 ^ 31) with 2147483648 in *. change (2 ^ 32) with 4294967296. lia.
    + destruct (Z.lt_ge_cases 64 (int_bits c)); [left; lia|]. right.
      assert (2 ^ (int_bits c - 1) <= 2 ^ 63) by (apply Z.pow_le_mono_r; lia).
      change (2 ^ 64) with (2 * 2 ^ 63). lia.
Qed.

Lemma index_safe_iff c cap : cap_ok cap -> int_bits c = 16 \/ int_bits c = 32 \/ int_bits c = 64 ->
  cap < 2 ^ int_bits c -> index_safe c cap <-> cap <= 2 ^ (int_bits c - 1).
Proof.
  intros H1 Hi Hlt. split; [|apply index_safe_small; [assumption | lia]].
  intros [H|H].
  - assert (cap < 2 ^ size_bits cap) by (apply uint_least_bits_bound; unfold cap_ok in H1; lia).
    assert (2 ^ size_bits cap <= 2 ^ (int_bits c - 1)) by (apply Z.pow_le_mono_r; lia). lia.
  - assert (size_bits cap <= int_bits c).
    { clear H. unfold size_bits, uint_least_bits. destruct Hi as [Hi|[Hi|Hi]]; rewrite Hi in *; clear Hi;
      destruct (Z.ltb_spec cap (2 ^ 8)); try lia; destruct (Z.ltb_spec cap (2 ^ 16)); try lia;
      destruct (Z.ltb_spec cap (2 ^ 32)); lia. }
    assert (2 ^ size_bits cap <= 2 ^ int_bits c) by (apply Z.pow_le_mono_r; lia).
    assert (2 ^ int_bits c = 2 * 2 ^ (int_bits c - 1)) by (rewrite <- Z.pow_succ_r by lia; f_equal; lia). lia.
Qed.

(** ** push_back of an element of the same buffer *)
Lemma nth_skipn_Z n : forall (l : list Z) i, nth i (skipn n l) 0 = nth (n + i) l 0.
Proof. induction n as [|n IH]; intros [|x l] i; cbn; auto. destruct i; reflexivity. Qed.

Lemma push_own_lemma c cap b X i : cap_ok cap -> index_safe c cap -> rep cap b X ->
  0 <= i < zlen X -> zlen X + 1 <= cap ->
  let j := if (rb_pastEnd b =? cap) && (rb_begin b + i <? zlen X) then rb_begin b + i else i in
  exists b', rb_push_back_own c cap i b = Ok b' /\ rep cap b' (X ++ [nth (Z.to_nat j) X 0]).
Proof.
  intros H1 H2 R Hi Hfit j. unfold rb_push_back_own. rewrite (rep_ref c cap H1 b X i R Hi). cbn [bind].
  assert (rb_empty b = false) as He.
  { rewrite (rep_empty cap b X R). destruct X; [change (zlen (@nil Z)) with 0 in Hi; lia | reflexivity]. }
  pose proof R as (A & B & HC & Hb & Hp & Hl).
  pose proof (zlen_nonneg A). pose proof (zlen_nonneg B).
  assert (0 < cap) by (unfold cap_ok in H1; lia).
  assert (forall a n, 0 <= a -> 0 <= n -> a + n < 2 * cap ->
    promoted_add c (size_bits cap) a n = a + n) as Hpa by (intros; apply promoted_add_exact; assumption).
  assert (exists b1 y, rb_increment_pastEnd c cap b = Ok b1 /\ rep cap b1 (X ++ [y])
    /\ arr_get (rb_contents b1) (rb_begin b + i) = nth (Z.to_nat j) X 0) as (b1 & y & -> & R1 & HG).
  { unfold rb_increment_pastEnd, rb_ensure_space. rewrite He.
    destruct (Z.eqb_spec (rb_pastEnd b) cap) as [Hfull|Hroom]; cbn [andb] in j.
    - rewrite Hpa by lia. rewrite (proj2 (Z.leb_gt _ _)) by lia.
      rewrite (rep_size cap H1 b X R). rewrite Hpa by lia.
      rewrite assert_true by (apply Z.leb_le; lia). cbn [bind].
      unfold rb_slide. rewrite He. rewrite (proj2 (Z.eqb_neq (rb_begin b) 0)) by lia. cbn [andb].
      unfold rb_ideal_copy. rewrite range_ok_true by lia. cbn [bind rb_begin rb_pastEnd rb_contents].
      rewrite (rep_slice cap b X R), (rep_size cap H1 b X R). rewrite to_sz_small by (auto; lia).
      rewrite assert_true by (apply Z.leb_le; lia). cbn [bind].
      assert (zlen B = 0) as HB by lia. assert (B = []) as -> by (destruct B; [reflexivity | rewrite zlen_cons in HB; pose proof (zlen_nonneg B); lia]).
      rewrite app_nil_r in HC. unfold arr_write. cbn [Z.to_nat firstn app Nat.add]. rewrite HC.
      destruct (skipn (length X) (A ++ X)) as [|y B'] eqn:ES.
      { apply (f_equal (@length Z)) in ES. rewrite skipn_length, app_length in ES. unfold zlen in *. cbn in ES. lia. }
      exists (RBuf 0 (zlen X + 1) (X ++ y :: B')), y. split; [reflexivity|]. split.
      + exists [], B'. cbn [rb_begin rb_pastEnd rb_contents app]. rewrite <- app_assoc, zlen_app.
        change (zlen (@nil Z)) with 0. change (zlen [y]) with 1. repeat split; try lia.
        apply (f_equal (@length Z)) in ES. rewrite skipn_length, app_length in ES. unfold zlen in *. cbn [length] in ES. lia.
      + cbn [rb_contents]. rewrite <- ES. unfold arr_get. rewrite Hb. destruct (Z.ltb_spec (rb_begin b + i) (zlen X)) as [Hk|Hk].
        * unfold j. rewrite Hb. apply app_nth1. unfold zlen in *. lia.
        * rewrite app_nth2 by (unfold zlen in *; lia). rewrite nth_skipn_Z, app_nth2 by (unfold zlen in *; lia).
          unfold j. f_equal. unfold zlen in *. lia.
    - rewrite Hpa by lia. rewrite (proj2 (Z.leb_le _ _)) by lia. cbn [bind].
      rewrite to_sz_small by (auto; lia). cbn [rb_begin rb_pastEnd rb_contents].
      rewrite assert_true by (apply Z.leb_le; lia). cbn [bind].
      destruct B as [|y B']; [change (zlen (@nil Z)) with 0 in Hl; lia|].
      eexists. exists y. split; [reflexivity|]. split.
      + exists A, B'. cbn [rb_begin rb_pastEnd rb_contents]. rewrite HC, <- app_assoc, zlen_app. rewrite zlen_cons in *.
        change (zlen (@nil Z)) with 0. repeat split; try lia.
      + cbn [rb_contents]. rewrite HC, Hb. apply arr_get_mid. assumption. }
  cbn [bind]. rewrite (rep_size cap H1 b1 _ R1). rewrite zlen_app. change (zlen [y]) with 1.
  rewrite to_sz_small by (auto; lia). rewrite (rep_ref c cap H1 b1 _ _ R1) by (rewrite zlen_app; change (zlen [y]) with 1; lia).
  cbn [bind]. rewrite HG. eexists. split; [reflexivity|].
  destruct R1 as (A1 & B1 & HC1 & Hb1 & Hp1 & Hl1). exists A1, B1. cbn [rb_begin rb_pastEnd rb_contents].
  rewrite !zlen_app in *. change (zlen [y]) with 1 in *.
  match goal with |- context [[?v]] => change (zlen [v]) with 1 end. split; [|lia].
  rewrite HC1. replace (A1 ++ (X ++ [y]) ++ B1) with ((A1 ++ X) ++ y :: B1) by (rewrite <- !app_assoc; reflexivity).
  rewrite arr_set_mid by (rewrite zlen_app; lia). rewrite <- !app_assoc. reflexivity.
Qed.

Lemma push_own_witness : exists c cap b X i b', rep cap b X /\ 0 <= i < zlen X /\ zlen X + 1 <= cap
    /\ rb_push_back_own c cap i b = Ok b' /\ rep cap b' (X ++ [2]) /\ nth (Z.to_nat i) X 0 = 1.
Proof.
  exists (Config 32 true Aborting Aborting Aborting), 3, (RBuf 1 3 [0;1;2]), [1;2], 0, (RBuf 0 3 [1;2;2]).
  split; [exists [0], []; repeat split|]. split; [split; [discriminate | reflexivity]|].
  split; [discriminate|]. split; [reflexivity|]. split; [exists [], []; repeat split | reflexivity].
Qed.

(** ** Appending a range of the buffer's own elements *)
Lemma zlen_part l i j : 0 <= i <= j -> j <= zlen l -> zlen (part l i j) = j - i.
Proof. intros. unfold part, zlen in *. rewrite firstn_length, skipn_length. lia. Qed.

Lemma part_app_l (P Q : list Z) i j : 0 <= i <= j -> j <= zlen P -> part (P ++ Q) i j = part P i j.
Proof.
  intros. unfold part, zlen in *. rewrite skipn_app, firstn_app.
  replace (Z.to_nat (j - i) - length (skipn (Z.to_nat i) P))%nat with 0%nat by (rewrite skipn_length; lia).
  cbn [firstn]. apply app_nil_r.
Qed.

Lemma part_app_r (P Q : list Z) i j : zlen P <= i -> part (P ++ Q) i j = part Q (i - zlen P) (j - zlen P).
Proof.
  intros. unfold part, zlen in *. rewrite skipn_app. rewrite (skipn_all2 P) by lia. cbn [app].
  f_equal; [lia|]. f_equal. lia.
Qed.

Lemma part_skipn (l : list Z) n i j : part (skipn n l) i j = part l (i + Z.of_nat n) (j + Z.of_nat n) \/ i < 0.
Proof.
  destruct (Z.lt_ge_cases i 0); [right; assumption|left]. unfold part. rewrite skipn_skipn. f_equal; [lia|].
  f_equal. lia.
Qed.

Lemma push_own_range_lemma c cap b X i j : cap_ok cap -> index_safe c cap -> rep cap b X ->
  0 <= i <= j -> j <= zlen X -> zlen X + (j - i) <= cap ->
  (rb_pastEnd b + (j - i) <= cap ->
     exists b', rb_push_range_own c cap i j b = Ok b' /\ rep cap b' (X ++ part X i j))
  /\ (cap < rb_pastEnd b + (j - i) -> rb_begin b + i <= zlen X < rb_begin b + j ->
      rb_push_range_own c cap i j b = UB)
  /\ (cap < rb_pastEnd b + (j - i) -> rb_begin b + j <= zlen X ->
      exists b', rb_push_range_own c cap i j b = Ok b'
        /\ rep cap b' (X ++ part X (rb_begin b + i) (rb_begin b + j)))
  /\ (cap < rb_pastEnd b + (j - i) -> zlen X < rb_begin b + i ->
      exists b', rb_push_range_own c cap i j b = Ok b' /\ rep cap b' (X ++ part X i j)).
Proof.
  intros H1 H2 R Hi Hj Hfit. unfold rb_push_range_own.
  pose proof R as (A & B & HC & Hb & Hp & Hl).
  pose proof (zlen_nonneg A). pose proof (zlen_nonneg B). pose proof (zlen_nonneg X).
  assert (0 < cap) by (unfold cap_ok in H1; lia).
  assert (forall a n, 0 <= a -> 0 <= n -> a + n < 2 * cap ->
    promoted_add c (size_bits cap) a n = a + n) as Hpa by (intros; apply promoted_add_exact; assumption).
  rewrite range_ok_true by lia. rewrite to_sz_small by (auto; lia).
  replace (rb_begin b + j - (rb_begin b + i)) with (j - i) by lia.
  (* the copy, once there is room *)
  assert (forall b1 Y, rep cap b1 X -> rb_pastEnd b1 + (j - i) <= cap ->
    ~ (rb_begin b + i <= rb_pastEnd b1 < rb_begin b + j) ->
    arr_slice (rb_contents b1) (rb_begin b + i) (rb_begin b + j) = Y -> zlen Y = j - i ->
    exists b', (if (rb_begin b + i <=? rb_pastEnd b1) && (rb_pastEnd b1 <? rb_begin b + j) then UB
       else if rb_pastEnd b1 + (j - i) <=? cap then
         let b2 := RBuf (rb_begin b1) (to_sz cap (rb_pastEnd b1 + (j - i)))
                     (arr_write (rb_contents b1) (rb_pastEnd b1)
                        (arr_slice (rb_contents b1) (rb_begin b + i) (rb_begin b + j))) in
         do _ <- rb_verify c cap b2; Ok b2
       else UB) = Ok b' /\ rep cap b' (X ++ Y)) as Hcopy.
  { intros b1 Y R1 Hr Hn HY HYl.
    assert ((rb_begin b + i <=? rb_pastEnd b1) && (rb_pastEnd b1 <? rb_begin b + j) = false) as ->.
    { apply andb_false_iff. rewrite Z.leb_gt, Z.ltb_ge. lia. }
    rewrite (proj2 (Z.leb_le _ _) Hr). rewrite HY, <- HYl in *.
    pose proof (rep_write_end cap b1 X Y R1 Hr) as R2.
    destruct (rep_inv _ _ _ R1) as (I3 & _). pose proof (zlen_nonneg Y). rewrite to_sz_small by (auto; lia).
    cbv zeta. rewrite (rep_verify c cap _ _ R2). cbn [bind]. eauto. }
  unfold rb_ensure_space.
  destruct (rb_empty b) eqn:He.
  { (* nothing held: the range is empty *)
    rewrite (rep_empty cap b X R) in He. destruct X; [|discriminate].
    change (zlen (@nil Z)) with 0 in *. assert (i = 0) as -> by lia. assert (j = 0) as -> by lia.
    cbn [rb_pastEnd]. rewrite Hpa by lia. rewrite (proj2 (Z.leb_le _ _)) by lia. cbn [bind].
    assert (rep cap (RBuf 0 0 (rb_contents b)) []) as R0 by apply (rep_clear cap b _ R).
    assert (exists b', (if (rb_begin b + 0 <=? rb_pastEnd (RBuf 0 0 (rb_contents b)))
                 && (rb_pastEnd (RBuf 0 0 (rb_contents b)) <? rb_begin b + 0) then UB
       else if rb_pastEnd (RBuf 0 0 (rb_contents b)) + (0 - 0) <=? cap then
         let b2 := RBuf (rb_begin (RBuf 0 0 (rb_contents b))) (to_sz cap (rb_pastEnd (RBuf 0 0 (rb_contents b)) + (0 - 0)))
                     (arr_write (rb_contents (RBuf 0 0 (rb_contents b))) (rb_pastEnd (RBuf 0 0 (rb_contents b)))
                        (arr_slice (rb_contents (RBuf 0 0 (rb_contents b))) (rb_begin b + 0) (rb_begin b + 0))) in
         do _ <- rb_verify c cap b2; Ok b2
       else UB) = Ok b' /\ rep cap b' ([] ++ [])) as (b' & E & R').
    { apply Hcopy; [assumption | cbn [rb_pastEnd]; lia | lia | | reflexivity].
      unfold arr_slice. rewrite Z.sub_diag. reflexivity. }
    split; [|repeat split; intros; lia]. intros _. exists b'. split; [exact E | exact R']. }
  rewrite Hpa by (rewrite ?Hp; destruct X; [rewrite (rep_empty cap b _ R) in He; discriminate|]; rewrite zlen_cons in *; pose proof (zlen_nonneg X); lia).
  destruct (Z.leb_spec (rb_pastEnd b + (j - i)) cap) as [Hroom|Hfull].
  - split; [intros _|repeat split; intros; lia]. cbn [bind].
    apply Hcopy; [assumption | assumption | lia | | rewrite zlen_part by lia; lia].
    rewrite HC. change (arr_slice ?l ?x ?y) with (part l x y). rewrite part_app_r by lia.
    rewrite part_app_l by lia. f_equal; lia.
  - split; [intros; lia|]. rewrite (rep_size cap H1 b X R). rewrite Hpa by lia.
    rewrite assert_true by (apply Z.leb_le; lia). cbn [bind].
    unfold rb_slide. rewrite He. rewrite (proj2 (Z.eqb_neq (rb_begin b) 0)) by lia. cbn [andb].
    unfold rb_ideal_copy. rewrite range_ok_true by lia. cbn [bind].
    rewrite (rep_slice cap b X R), (rep_size cap H1 b X R).
    set (b1 := RBuf 0 (zlen X) (arr_write (rb_contents b) 0 X)).
    assert (rb_contents b1 = X ++ skipn (length X) (A ++ X ++ B)) as HC1.
    { unfold b1. cbn [rb_contents]. unfold arr_write. rewrite HC. reflexivity. }
    assert (rep cap b1 X) as R1.
    { exists [], (skipn (length X) (A ++ X ++ B)). rewrite HC1. cbn [app]. split; [reflexivity|].
      unfold b1. cbn [rb_begin rb_pastEnd]. change (zlen (@nil Z)) with 0. repeat split; try lia.
      unfold zlen in *. rewrite skipn_length, !app_length. lia. }
    repeat split.
    + intros _ Hin. change (rb_pastEnd b1) with (zlen X).
      rewrite (proj2 (Z.leb_le _ _)) by lia. rewrite (proj2 (Z.ltb_lt _ _)) by lia. reflexivity.
    + intros _ Hle. apply Hcopy; [assumption | change (rb_pastEnd b1) with (zlen X); lia
        | change (rb_pastEnd b1) with (zlen X); lia | | rewrite zlen_part by lia; lia].
      rewrite HC1. change (arr_slice ?l ?x ?y) with (part l x y). apply part_app_l; lia.
    + intros _ Hlt. apply Hcopy; [assumption | change (rb_pastEnd b1) with (zlen X); lia
        | change (rb_pastEnd b1) with (zlen X); lia | | rewrite zlen_part by lia; lia].
      rewrite HC1. change (arr_slice ?l ?x ?y) with (part l x y). rewrite part_app_r by lia.
      destruct (part_skipn (A ++ X ++ B) (length X) (rb_begin b + i - zlen X) (rb_begin b + j - zlen X)) as [->|]; [|lia].
      rewrite part_app_r by (unfold zlen in *; lia). rewrite part_app_l by (unfold zlen in *; lia).
      f_equal; unfold zlen in *; lia.
Qed.

Lemma push_own_range_witness : exists c cap b X i j b', rep cap b X /\ 0 <= i < j /\ j <= zlen X
    /\ zlen X + (j - i) <= cap /\ rb_push_range_own c cap i j b = Ok b' /\ rep cap b' (X ++ [3;4])
    /\ part X i j = [1;2].
Proof.
  exists (Config 32 true Aborting Aborting Aborting), 6, (RBuf 2 6 [0;0;1;2;3;4]), [1;2;3;4], 0, 2, (RBuf 0 6 [1;2;3;4;3;4]).
  split; [exists [0;0], []; repeat split|]. split; [split; [discriminate | reflexivity]|].
  split; [discriminate|]. split; [discriminate|]. split; [reflexivity|]. split; [exists [], []; repeat split | reflexivity].
Qed.

(** ** Appends that do not fit, without assertions that stop *)
Lemma oversized_unchecked c cap b X d : cap_ok cap -> aborts c = false ->
  rep cap b X -> cap < zlen X + zlen d -> rb_push_range c cap d b = UB.
Proof.
  intros H1 Ha R Hbig. unfold rb_push_range. set (n := to_sz cap (zlen d)). unfold rb_ensure_space.
  assert (exists b1, (if rb_empty b then {| rb_begin := 0; rb_pastEnd := 0; rb_contents := rb_contents b |}
                      else b) = b1 /\ rep cap b1 X) as (b1 & -> & R1).
  { pose proof (rep_empty cap b X R) as He. destruct X; rewrite He.
    - eexists. split; [reflexivity|]. eapply (rep_clear cap b), R.
    - exists b. split; [reflexivity | assumption]. }
  assert (forall b2, rep cap b2 X -> (rb_pastEnd b2 + zlen d <=? cap) = false) as Hno.
  { intros b2 (A & B & _ & _ & Hp & _). apply Z.leb_gt. pose proof (zlen_nonneg A). lia. }
  destruct (_ <=? cap).
  - cbn [bind]. rewrite (Hno _ R1). reflexivity.
  - unfold assert_. rewrite Ha. cbn [bind]. destruct (rb_slide cap b1) as [b2| | | |] eqn:ES.
    2-5: unfold rb_slide, rb_ideal_copy in ES; destruct (_ && _); [discriminate || reflexivity |]; destruct (range_ok _ _ _); discriminate || reflexivity.
    cbn [bind]. rewrite Hno; [reflexivity|].
    assert (X = [] \/ 0 < rb_begin b1) as Hor.
    { unfold rb_slide in ES. rewrite (rep_empty cap b1 X R1) in ES. destruct X; [left; reflexivity|right].
      destruct (Z.eqb_spec (rb_begin b1) 0); [discriminate|]. destruct R1 as (A & B & _ & Hb & _). pose proof (zlen_nonneg A). lia. }
    destruct (rep_slide cap H1 b1 X R1 Hor) as (b3 & E3 & R3 & _). congruence.
Qed.

Lemma push_full c cap b X x : cap_ok cap -> index_safe c cap -> rep cap b X -> zlen X = cap ->
  rb_push_back c cap x b = if aborts c then AssertFail else UB.
Proof.
  intros H1 H2 R HX. unfold rb_push_back, rb_increment_pastEnd, rb_ensure_space.
  assert (0 < cap) by (unfold cap_ok in H1; lia).
  assert (rb_empty b = false) as He.
  { rewrite (rep_empty cap b X R). destruct X; [change (zlen (@nil Z)) with 0 in HX; lia | reflexivity]. }
  rewrite He. pose proof (rep_size cap H1 b X R) as Hs. destruct R as (A & B & HC & Hb & Hp & Hl).
  pose proof (zlen_nonneg A). pose proof (zlen_nonneg B).
  rewrite Hs. replace (rb_pastEnd b) with cap by lia. replace (zlen X) with cap by lia.
  destruct (Z.eq_dec cap 1) as [->|].
  - unfold promoted_add. assert (size_bits 1 <? int_bits c = true \/ size_bits 1 <? int_bits c = false) as [->| ->] by (destruct (_ <? _); auto).
    + cbn [Z.leb Z.add Pos.add Z.compare Pos.compare Pos.compare_cont]. unfold assert_. destruct (aborts c); [reflexivity|]. cbn [bind].
      unfold rb_slide. replace (rb_begin b) with 0 by lia. rewrite He. reflexivity.
    + change (trunc (size_bits 1) (1 + 1) <=? 1) with false. cbn iota. unfold assert_. destruct (aborts c); [reflexivity|]. cbn [bind].
      unfold rb_slide. replace (rb_begin b) with 0 by lia. rewrite He. reflexivity.
  - rewrite promoted_add_exact by (auto; lia). rewrite (proj2 (Z.leb_gt _ _)) by lia.
    unfold assert_. destruct (aborts c); [reflexivity|]. cbn [bind].
    unfold rb_slide. replace (rb_begin b) with 0 by lia. rewrite He. reflexivity.
Qed.

(** Results in terms of the width of size_type. *)
Lemma size_type_bits cap w : cap_ok cap -> size_type cap w -> size_bits cap = w.
Proof.
  intros H1 (Hin & Hlt & Hmin). unfold size_bits, uint_least_bits.
  assert (HH : forall v, In v [8; 16; 32; 64] -> cap < 2 ^ v -> (forall u, In u [8; 16; 32; 64] -> cap < 2 ^ u -> v <= u) -> v = w).
  { intros v Hv Hc Hm. apply Z.le_antisymm; [apply Hm | apply Hmin]; assumption. }
  unfold cap_ok in H1. clear Hin Hlt Hmin.
  destruct (Z.ltb_spec cap (2 ^ 8)); [|destruct (Z.ltb_spec cap (2 ^ 16)); [|destruct (Z.ltb_spec cap (2 ^ 32))]].
  all: apply HH; [cbn [In]; tauto | lia |].
  all: intros u Hu Hc; cbn [In] in Hu; destruct Hu as [<-|[<-|[<-|[<-|[]]]]]; lia.
Qed.
Lemma index_safe_width c cap w : cap_ok cap -> size_type cap w ->
  (index_safe c cap <-> w < int_bits c \/ 2 * cap <= 2 ^ w).
Proof. intros H1 Hw. unfold index_safe. rewrite (size_type_bits cap w H1 Hw). reflexivity. Qed.
Lemma oversized_ub_width c cap w b X d : cap_ok cap -> index_safe c cap -> size_type cap w -> rep cap b X ->
  cap < zlen X + zlen d -> zlen X + zlen d mod 2 ^ w <= cap ->
  rb_push_range c cap d b = UB.
Proof. intros H1 Hi Hw. rewrite <- (size_type_bits cap w H1 Hw). exact (oversized_ub c cap b X d H1 Hi). Qed.
Lemma oversized_caught_width c cap w b X d : cap_ok cap -> size_type cap w -> w < int_bits c -> aborts c = true ->
  rep cap b X -> cap < zlen X + zlen d mod 2 ^ w -> rb_push_range c cap d b = AssertFail.
Proof. intros H1 Hw. rewrite <- (size_type_bits cap w H1 Hw). exact (oversized_caught c cap b X d H1). Qed.
