(** Buffers constructed from data; checked element access. *)
From Verif Require Export BufferLemmas.

Lemma rep_fresh cap d : cap_ok cap -> zlen d <= cap ->
  rep cap (RBuf 0 (zlen d) (arr_write (repeat 0 (Z.to_nat cap)) 0 d)) d.
Proof.
  intros Hcap Hd. pose proof (rep_write_end cap _ _ d (rep_init cap Hcap)) as H. cbn [rb_init rb_begin rb_pastEnd rb_contents] in H.
  rewrite Z.add_0_l in H. apply H. assumption.
Qed.

Lemma zlen_firstn {A} n (l : list A) : 0 <= n <= zlen l -> zlen (firstn (Z.to_nat n) l) = n.
Proof. intros H. unfold zlen in *. rewrite firstn_length. lia. Qed.

Lemma to_sz_mod cap x : to_sz cap x = x mod 2 ^ size_bits cap.
Proof. reflexivity. Qed.

(** Constructor from pointer and length. *)
Lemma from_array_lemma c cap v len : cap_ok cap -> 0 <= len <= zlen v ->
  let k := len mod 2 ^ size_bits cap in
  if k <=? cap
  then exists b, rb_from_array cap v len = Ok b /\ observed_as c cap b (firstn (Z.to_nat k) v)
                 /\ rep cap b (firstn (Z.to_nat k) v) /\ rb_begin b = 0
  else rb_from_array cap v len = UB.
Proof.
  intros Hcap Hl k. unfold rb_from_array. rewrite to_sz_mod. fold k.
  assert (0 < 2 ^ size_bits cap) as Hp.
  { apply Z.pow_pos_nonneg; [lia|]. unfold size_bits, uint_least_bits. repeat destruct (_ <? _); lia. }
  assert (0 <= k <= zlen v) as Hk.
  { subst k. pose proof (Z.mod_pos_bound len _ Hp). pose proof (Z.mod_le len _ ltac:(lia) Hp). lia. }
  destruct (Z.leb_spec k cap) as [Hle|Hgt]; cbn [andb]; [|reflexivity].
  rewrite (proj2 (Z.leb_le k (zlen v))) by lia.
  pose proof (rep_fresh cap (firstn (Z.to_nat k) v) Hcap) as R. rewrite zlen_firstn in R by assumption. specialize (R Hle).
  eexists. split; [reflexivity|]. split; [apply rep_observed; assumption|]. split; [assumption | reflexivity].
Qed.

(** Constructor from an iterator range. *)
Lemma from_range_lemma c cap d : cap_ok cap -> index_safe c cap -> zlen d <= cap ->
  exists b, rb_from_range c cap d = Ok b /\ observed_as c cap b d /\ rep cap b d.
Proof.
  intros Hcap Hs Hd. unfold rb_from_range.
  destruct (rep_push_range c cap Hcap Hs _ _ d (rep_init cap Hcap)) as (b & E & R).
  { change (zlen []) with 0. lia. }
  exists b. split; [assumption|]. split; [apply rep_observed; assumption | assumption].
Qed.

Lemma from_array_fits c cap v len : cap_ok cap -> 0 <= len <= zlen v -> len <= cap ->
  exists b, rb_from_array cap v len = Ok b /\ observed_as c cap b (firstn (Z.to_nat len) v)
            /\ rep cap b (firstn (Z.to_nat len) v).
Proof.
  intros Hcap Hl Hle. pose proof (from_array_lemma c cap v len Hcap Hl) as H. cbv zeta in H.
  rewrite <- to_sz_mod, (to_sz_small cap Hcap) in H by lia. rewrite (proj2 (Z.leb_le _ _) Hle) in H.
  destruct H as (b & H1 & H2 & H3 & _). eauto.
Qed.

(** at() *)
Lemma at_lemma c cap b X i : cap_ok cap -> rep cap b X -> 0 <= i ->
  let k := i mod 2 ^ size_bits cap in
  (k < zlen X -> rb_at c cap b i = Ok (nth (Z.to_nat k) X 0))
  /\ (zlen X <= k -> aborts c = true -> rb_at c cap b i = AssertFail).
Proof.
  intros Hcap R Hi k. unfold rb_at. rewrite to_sz_mod. fold k.
  assert (0 < 2 ^ size_bits cap) as Hp.
  { apply Z.pow_pos_nonneg; [lia|]. unfold size_bits, uint_least_bits. repeat destruct (_ <? _); lia. }
  assert (0 <= k) as Hk by (subst k; apply Z.mod_pos_bound, Hp). split.
  - intros Hlt. apply (rep_index c cap Hcap b X k R). lia.
  - intros Hge Ha. unfold rb_index, rb_ref. rewrite (rep_size cap Hcap _ _ R).
    rewrite (proj2 (Z.ltb_ge _ _) Hge). unfold assert_. rewrite Ha. reflexivity.
Qed.

Lemma at_in_range c cap b X i : cap_ok cap -> rep cap b X -> 0 <= i < zlen X ->
  rb_at c cap b i = Ok (nth (Z.to_nat i) X 0).
Proof.
  intros Hcap R Hi. pose proof (rep_size_le cap _ _ R).
  destruct (at_lemma c cap b X i Hcap R ltac:(lia)) as (H1 & _).
  rewrite <- to_sz_mod, (to_sz_small cap Hcap) in H1 by lia. apply H1. lia.
Qed.

Lemma from_array_width c cap w v len : cap_ok cap -> size_type cap w -> 0 <= len <= zlen v ->
  let k := len mod 2 ^ w in
  if k <=? cap
  then exists b, rb_from_array cap v len = Ok b /\ observed_as c cap b (firstn (Z.to_nat k) v)
                 /\ rep cap b (firstn (Z.to_nat k) v) /\ rb_begin b = 0
  else rb_from_array cap v len = UB.
Proof. intros H1 Hw. rewrite <- (size_type_bits cap w H1 Hw). exact (from_array_lemma c cap v len H1). Qed.
Lemma at_width c cap w b X i : cap_ok cap -> size_type cap w -> rep cap b X -> 0 <= i ->
  let k := i mod 2 ^ w in
  (k < zlen X -> rb_at c cap b i = Ok (nth (Z.to_nat k) X 0))
  /\ (zlen X <= k -> aborts c = true -> rb_at c cap b i = AssertFail).
Proof. intros H1 Hw. rewrite <- (size_type_bits cap w H1 Hw). exact (at_lemma c cap b X i H1). Qed.
