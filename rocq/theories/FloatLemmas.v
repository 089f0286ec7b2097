(** Lemmas on floating point numbers: the model's rounding yields the nearest number. *)
From Verif Require Export CodecProofs SpecSend.

Section Format.
Context (w : bool).
Let p := fl_prec w - 1.
Let P := 2 ^ p.
Let low := fl_low w.

Lemma fl_p_pos : 1 <= p.
Proof. subst p. destruct w; cbn; lia. Qed.
Lemma fl_low_range : 0 <= low <= fl_unit.
Proof. subst low. unfold fl_low, fl_unit, fl_emax, fl_prec. destruct w; lia. Qed.
Lemma fl_P_even : exists h, P = 2 * h /\ 0 < h.
Proof.
  exists (2 ^ (p - 1)). pose proof fl_p_pos. split; [|apply Z.pow_pos_nonneg; lia].
  unfold P. rewrite <- Z.pow_succ_r by lia. f_equal. lia.
Qed.
Lemma fl_P_pos : 0 < P.
Proof. destruct fl_P_even as (h & H & ?). lia. Qed.

(** The pattern of a number with a given exponent and up to one carry. *)
Lemma fl_abs_at ex q : 0 <= ex -> 0 <= q <= 2 * P -> ex = 0 \/ P <= q ->
  fl_abs w (ex * P + q) = q * 2 ^ (ex + low).
Proof.
  intros He Hq Hn. pose proof fl_P_pos as HP. pose proof fl_low_range as HL.
  unfold fl_abs. fold p. fold P. fold low.
  destruct (Z_lt_le_dec q P) as [H1|H1].
  - assert (ex = 0) as -> by lia. rewrite Z.mul_0_l, !Z.add_0_l, Z.div_small, Z.mod_small by lia. reflexivity.
  - destruct (Z_lt_le_dec q (2 * P)) as [H2|H2].
    + assert ((ex * P + q) / P = ex + 1) as -> by (symmetry; apply (Z.div_unique_pos _ _ _ (q - P)); lia).
      assert ((ex * P + q) mod P = q - P) as -> by (symmetry; apply (Z.mod_unique_pos _ _ (ex + 1)); lia).
      rewrite (proj2 (Z.eqb_neq _ _)) by lia. f_equal; [lia|]. f_equal. lia.
    + assert (q = 2 * P) as -> by lia.
      assert ((ex * P + 2 * P) / P = ex + 2) as -> by (symmetry; apply (Z.div_unique_pos _ _ _ 0); lia).
      assert ((ex * P + 2 * P) mod P = 0) as -> by (symmetry; apply (Z.mod_unique_pos _ _ (ex + 2)); lia).
      rewrite (proj2 (Z.eqb_neq _ _)) by lia. rewrite Z.add_0_l.
      replace (ex + 2 - 1 + low) with (1 + (ex + low)) by lia. rewrite (Z.pow_add_r 2 1) by lia. lia.
Qed.

Lemma fl_abs_split k : 0 <= k -> exists ex q, k = ex * P + q /\ 0 <= ex /\ 0 <= q < 2 * P /\ (ex = 0 \/ P <= q).
Proof.
  intros Hk. pose proof fl_P_pos as HP. pose proof (Z.div_mod k P ltac:(lia)) as HD.
  pose proof (Z.mod_pos_bound k P HP). assert (0 <= k / P) by (apply Z.div_pos; lia).
  destruct (Z.eq_dec (k / P) 0) as [HZ|HZ].
  - exists 0, k. rewrite HZ in HD. lia.
  - exists (k / P - 1), (P + k mod P). lia.
Qed.

Lemma fl_abs_succ k : 0 <= k -> fl_abs w k < fl_abs w (k + 1).
Proof.
  intros Hk. destruct (fl_abs_split k Hk) as (ex & q & -> & He & Hq & Hn). pose proof fl_low_range as HL.
  rewrite <- Z.add_assoc, !fl_abs_at by lia.
  assert (0 < 2 ^ (ex + low)) by (apply Z.pow_pos_nonneg; lia). lia.
Qed.

Lemma fl_abs_mono j k : 0 <= j < k -> fl_abs w j < fl_abs w k.
Proof.
  intros H. assert (exists n, k = j + 1 + Z.of_nat n) as (n & ->).
  { exists (Z.to_nat (k - j - 1)). lia. }
  induction n as [|n IH].
  - rewrite Z.add_0_r. apply fl_abs_succ. lia.
  - eapply Z.lt_trans; [apply IH; lia|].
    replace (j + 1 + Z.of_nat (S n)) with (j + 1 + Z.of_nat n + 1) by lia. apply fl_abs_succ. lia.
Qed.
Lemma fl_abs_le j k : 0 <= j <= k -> fl_abs w j <= fl_abs w k.
Proof. intros H. destruct (Z.eq_dec j k) as [->|]; [lia|]. pose proof (fl_abs_mono j k). lia. Qed.
Lemma fl_abs_inj j k : 0 <= j -> 0 <= k -> fl_abs w j = fl_abs w k -> j = k.
Proof.
  intros H1 H2 H. destruct (Z.lt_trichotomy j k) as [HL|[HL|HL]]; [|assumption|].
  - pose proof (fl_abs_mono j k). lia.
  - pose proof (fl_abs_mono k j). lia.
Qed.
Lemma fl_abs_0 : fl_abs w 0 = 0.
Proof. unfold fl_abs. rewrite Z.div_0_l, Z.mod_0_l by (fold p; fold P; pose proof fl_P_pos; lia). reflexivity. Qed.

(** Rounding without the limit to infinity. *)
Definition fl_raw (a : Z) : Z :=
  let ex := Z.max (Z.log2 a - p) low in (ex - low) * P + div_even a (2 ^ ex).

(** The two neighbours of a number. *)
Lemma fl_neighbours a : 0 < a -> exists k, 0 <= k /\ fl_abs w k <= a < fl_abs w (k + 1)
  /\ (fl_raw a = k /\ (2 * a < fl_abs w k + fl_abs w (k + 1) \/ 2 * a = fl_abs w k + fl_abs w (k + 1) /\ Z.even k = true)
      \/ fl_raw a = k + 1 /\ (fl_abs w k + fl_abs w (k + 1) < 2 * a \/ 2 * a = fl_abs w k + fl_abs w (k + 1) /\ Z.even (k + 1) = true)).
Proof.
  intros Ha. pose proof fl_P_pos as HP. pose proof fl_low_range as HL. pose proof fl_p_pos as Hp.
  unfold fl_raw. set (ex := Z.max (Z.log2 a - p) low). cbv zeta. set (d := 2 ^ ex).
  assert (0 < d) as Hd by (apply Z.pow_pos_nonneg; lia).
  pose proof (Z.log2_spec a Ha) as (L1 & L2).
  assert (a < 2 * P * d) as H1.
  { eapply Z.lt_le_trans; [apply L2|]. unfold P, d. rewrite <- Z.pow_succ_r, <- Z.pow_add_r by lia.
    apply Z.pow_le_mono_r; lia. }
  assert (ex = low \/ P * d <= a) as H2.
  { destruct (Z_le_gt_dec (Z.log2 a - p) low); [left; lia|]. right. eapply Z.le_trans; [|apply L1].
    unfold P, d. rewrite <- Z.pow_add_r by lia. apply Z.pow_le_mono_r; lia. }
  pose proof (Z.div_mod a d ltac:(lia)) as HD. pose proof (Z.mod_pos_bound a d Hd) as HM.
  assert (0 <= a / d) as HQ by (apply Z.div_pos; lia).
  assert (a / d < 2 * P) as HQ2 by (apply Z.div_lt_upper_bound; lia).
  assert (ex = low \/ P <= a / d) as HQ3 by (destruct H2; [auto | right; apply Z.div_le_lower_bound; lia]).
  set (q := a / d) in *. set (r := a mod d) in *.
  exists ((ex - low) * P + q). assert (0 <= (ex - low) * P) by (apply Z.mul_nonneg_nonneg; lia).
  split; [lia|].
  assert (fl_abs w ((ex - low) * P + q) = q * d) as E1.
  { rewrite fl_abs_at by lia. unfold d. do 2 f_equal. lia. }
  assert (fl_abs w ((ex - low) * P + q + 1) = (q + 1) * d) as E2.
  { rewrite <- Z.add_assoc, fl_abs_at by lia. unfold d. do 2 f_equal. lia. }
  rewrite E1, E2. split; [nia|].
  assert (forall x, Z.even ((ex - low) * P + x) = Z.even x) as HE.
  { intros x. destruct fl_P_even as (h & -> & _). replace ((ex - low) * (2 * h) + x) with (x + 2 * ((ex - low) * h)) by lia.
    apply Z.even_add_mul_2. }
  unfold div_even. cbv zeta. fold q. fold r.
  destruct (Z.ltb_spec (2 * r) d) as [R|R]; cbn [orb].
  - left. split; [reflexivity|]. left. nia.
  - destruct (Z.eqb_spec (2 * r) d) as [R'|R']; cbn [andb].
    + destruct (Z.even q) eqn:EQ.
      * left. split; [reflexivity|]. right. split; [nia|]. rewrite HE. assumption.
      * right. split; [lia|]. right. split; [nia|]. rewrite <- Z.add_assoc, HE, Z.even_add, EQ. reflexivity.
    + right. split; [lia|]. left. nia.
Qed.

Lemma fl_raw_nonneg a : 0 <= a -> 0 <= fl_raw a.
Proof.
  intros Ha. destruct (Z.eq_dec a 0) as [->|H0].
  - unfold fl_raw. cbv zeta. pose proof fl_low_range. change (Z.log2 0) with 0. pose proof fl_p_pos.
    rewrite Z.max_r by lia. unfold div_even. rewrite Z.div_0_l, Z.mod_0_l by (apply Z.pow_nonzero; lia).
    destruct (_ || _); lia.
  - destruct (fl_neighbours a ltac:(lia)) as (k & H1 & _ & [(-> & _)|(-> & _)]); lia.
Qed.

Lemma fl_raw_nearest a j : 0 < a -> 0 <= j ->
  Z.abs (fl_abs w (fl_raw a) - a) < Z.abs (fl_abs w j - a)
  \/ Z.abs (fl_abs w (fl_raw a) - a) = Z.abs (fl_abs w j - a) /\ (j = fl_raw a \/ Z.even (fl_raw a) = true).
Proof.
  intros Ha Hj. destruct (fl_neighbours a Ha) as (k & H1 & H2 & H3).
  destruct (Z_lt_le_dec k j) as [H4|H4].
  - assert (fl_abs w (k + 1) <= fl_abs w j) as H5 by (apply fl_abs_le; lia).
    assert (j = k + 1 \/ fl_abs w (k + 1) < fl_abs w j) as H6.
    { destruct (Z.eq_dec j (k + 1)); [auto|]. right. apply fl_abs_mono. lia. }
    destruct H6 as [->|H6]; destruct H3 as [(-> & H3)|(-> & H3)]; destruct H3 as [H3|(H3 & H3')];
      first [left; lia | right; split; [lia | auto]].
  - assert (fl_abs w j <= fl_abs w k) as H5 by (apply fl_abs_le; lia).
    assert (j = k \/ fl_abs w j < fl_abs w k) as H6.
    { destruct (Z.eq_dec j k); [auto|]. right. apply fl_abs_mono. lia. }
    destruct H6 as [->|H6]; destruct H3 as [(-> & H3)|(-> & H3)]; destruct H3 as [H3|(H3 & H3')];
      first [left; lia | right; split; [lia | auto]].
Qed.

(** The middle between the greatest finite number and the next power of 2. *)
Definition fl_limit : Z := (2 ^ fl_emax w - 2 ^ (fl_emax w - fl_prec w - 1)) * 2 ^ fl_unit.
Lemma fl_inf_eq : fl_inf w = (2 * fl_emax w - 2) * P + P.
Proof. unfold fl_inf. fold p. fold P. lia. Qed.
Lemma fl_inf_pos : 0 < fl_inf w.
Proof. rewrite fl_inf_eq. pose proof fl_P_pos. assert (2 <= fl_emax w) by (unfold fl_emax; destruct w; lia). nia. Qed.
Lemma fl_abs_inf : fl_abs w (fl_inf w) = 2 ^ fl_emax w * 2 ^ fl_unit.
Proof.
  pose proof fl_P_pos as HP. assert (2 <= fl_emax w) by (unfold fl_emax; destruct w; lia).
  rewrite fl_inf_eq, fl_abs_at by lia. unfold P, low, fl_low, p.
  rewrite <- !Z.pow_add_r; try (unfold fl_emax, fl_prec, fl_unit; destruct w; lia).
Qed.
Lemma fl_inf_even : Z.even (fl_inf w) = true.
Proof.
  rewrite fl_inf_eq. destruct fl_P_even as (h & -> & _).
  replace ((2 * fl_emax w - 2) * (2 * h) + 2 * h) with (2 * ((2 * fl_emax w - 2) * h + h)) by lia.
  apply Z.even_mul.
Qed.
Lemma fl_abs_last : fl_abs w (fl_inf w - 1) + fl_abs w (fl_inf w) = 2 * fl_limit.
Proof.
  rewrite fl_abs_inf. pose proof fl_P_pos as HP. pose proof fl_p_pos. assert (2 <= fl_emax w) by (unfold fl_emax; destruct w; lia).
  rewrite fl_inf_eq. replace ((2 * fl_emax w - 2) * P + P - 1) with ((2 * fl_emax w - 3) * P + (2 * P - 1)) by lia.
  rewrite fl_abs_at by lia. unfold fl_limit.
  replace (2 * fl_emax w - 3 + low) with (fl_emax w - fl_prec w + fl_unit) by (unfold low, fl_low; lia).
  assert (1 <= fl_emax w - fl_prec w) as HE by (unfold fl_emax, fl_prec; destruct w; lia).
  assert (0 <= fl_unit) by (unfold fl_unit; lia).
  rewrite (Z.pow_add_r 2 (fl_emax w - fl_prec w)) by lia.
  replace (2 ^ (fl_emax w)) with (2 * P * 2 ^ (fl_emax w - fl_prec w)).
  2:{ unfold P. rewrite <- Z.pow_succ_r, <- Z.pow_add_r by lia. f_equal. unfold p. lia. }
  replace (2 ^ (fl_emax w - fl_prec w)) with (2 * 2 ^ (fl_emax w - fl_prec w - 1)).
  2:{ rewrite <- Z.pow_succ_r by lia. f_equal. lia. }
  ring.
Qed.

Lemma fl_round_raw a : 0 < a -> fl_round w a = Z.min (fl_inf w) (fl_raw a).
Proof. intros H. unfold fl_round. rewrite (proj2 (Z.eqb_neq _ _)) by lia. reflexivity. Qed.

Lemma fl_round_finite a : 0 <= a < fl_limit -> 0 <= fl_round w a < fl_inf w
  /\ forall j, 0 <= j ->
     Z.abs (fl_abs w (fl_round w a) - a) < Z.abs (fl_abs w j - a)
     \/ Z.abs (fl_abs w (fl_round w a) - a) = Z.abs (fl_abs w j - a) /\ (j = fl_round w a \/ Z.even (fl_round w a) = true).
Proof.
  intros Ha. pose proof fl_inf_pos as HI. destruct (Z.eq_dec a 0) as [->|H0].
  - change (fl_round w 0) with 0. split; [lia|]. intros j Hj. rewrite fl_abs_0.
    destruct (Z.eq_dec j 0) as [->|]; [rewrite fl_abs_0; auto|]. left. pose proof (fl_abs_mono 0 j). rewrite fl_abs_0 in *. lia.
  - pose proof (fl_raw_nonneg a ltac:(lia)) as HN.
    assert (fl_raw a < fl_inf w) as HF.
    { apply Z.nle_gt. intros HC. pose proof (fl_abs_le (fl_inf w) (fl_raw a) ltac:(lia)).
      pose proof fl_abs_last. pose proof (fl_abs_mono (fl_inf w - 1) (fl_inf w) ltac:(lia)).
      destruct (fl_raw_nearest a (fl_inf w - 1)) as [H3|(H3 & _)]; lia. }
    rewrite fl_round_raw, Z.min_r by lia. split; [lia|]. intros j Hj. apply fl_raw_nearest; lia.
Qed.

Lemma fl_limit_pos : 0 < fl_limit.
Proof.
  pose proof fl_abs_last. pose proof fl_inf_pos. pose proof (fl_abs_mono (fl_inf w - 1) (fl_inf w)).
  pose proof (fl_abs_le 0 (fl_inf w - 1)). rewrite fl_abs_0 in *. lia.
Qed.

Lemma fl_round_infinite a : fl_limit <= a -> fl_round w a = fl_inf w.
Proof.
  intros Ha. pose proof fl_limit_pos. pose proof fl_inf_pos. rewrite fl_round_raw by lia. apply Z.min_l.
  apply Z.nlt_ge. intros HC. pose proof (fl_raw_nonneg a ltac:(lia)) as HN.
  pose proof fl_abs_last. pose proof (fl_abs_mono (fl_inf w - 1) (fl_inf w) ltac:(lia)).
  pose proof (fl_abs_le (fl_raw a) (fl_inf w - 1) ltac:(lia)) as HM.
  destruct (fl_raw_nearest a (fl_inf w)) as [H3|(H3 & [H4|H4])]; try lia.
  assert (fl_raw a = fl_inf w - 1) as E.
  { apply fl_abs_inj; lia. }
  rewrite E in H4. pose proof fl_inf_even as H5. rewrite Z.even_sub, H5 in H4. discriminate.
Qed.

(** Numbers of at most [prec] bits are not changed. *)
Lemma fl_abs_onto z k : 0 <= z <= 2 ^ fl_prec w -> low <= k -> exists j, 0 <= j /\ fl_abs w j = z * 2 ^ k.
Proof.
  intros Hz Hk. destruct (Z.eq_dec z 0) as [->|HZ0]; [exists 0; rewrite fl_abs_0; lia|].
  pose proof fl_low_range as HL. pose proof fl_p_pos as Hp.
  pose proof (Z.log2_spec z ltac:(lia)) as (L1 & L2).
  pose proof (Z.log2_nonneg z) as L0. set (l := Z.log2 z) in *.
  destruct (Z.eq_dec z (2 ^ fl_prec w)) as [->|HN2].
  - exists ((k + 1 - low) * P + P). pose proof fl_P_pos. split; [nia|].
    rewrite fl_abs_at by lia. replace (k + 1 - low + low) with (1 + k) by lia.
    rewrite Z.pow_add_r by lia. rewrite Z.mul_assoc. f_equal. unfold P. rewrite <- Z.pow_add_r by lia. f_equal. unfold p. lia.
  - assert (l < fl_prec w) as HB.
    { apply (Z.pow_lt_mono_r_iff 2); lia. }
    set (ex := k + l - p - low). destruct (Z_le_gt_dec 0 ex) as [HX|HX].
    + exists (ex * P + z * 2 ^ (p - l)).
      assert (0 < 2 ^ (p - l)) by (apply Z.pow_pos_nonneg; unfold p; lia).
      assert (P <= z * 2 ^ (p - l) <= 2 * P) as HQ.
      { unfold P. replace p with (l + (p - l)) at 1 4 by lia. rewrite (Z.pow_add_r 2 l) by (unfold p; lia).
        rewrite Z.pow_succ_r in L2 by lia. nia. }
      split; [pose proof fl_P_pos; nia|]. rewrite fl_abs_at by lia.
      rewrite <- Z.mul_assoc, <- Z.pow_add_r by (unfold p; lia). do 2 f_equal. unfold ex. lia.
    + exists (z * 2 ^ (k - low)). assert (0 < 2 ^ (k - low)) by (apply Z.pow_pos_nonneg; lia).
      split; [nia|].
      rewrite <- (Z.add_0_l (z * _)). replace 0 with (0 * P) by lia. rewrite fl_abs_at; try lia.
      * rewrite <- Z.mul_assoc, <- Z.pow_add_r by lia. do 2 f_equal. lia.
      * split; [nia|]. unfold P.
        apply Z.le_trans with (2 ^ (l + 1) * 2 ^ (k - low)); [nia|].
        rewrite <- Z.pow_add_r, <- Z.pow_succ_r by lia. apply Z.pow_le_mono_r; lia.
Qed.

Lemma fl_round_abs j : 0 <= j < fl_inf w -> fl_round w (fl_abs w j) = j.
Proof.
  intros Hj. pose proof (fl_abs_le 0 j ltac:(lia)) as H0. rewrite fl_abs_0 in H0.
  assert (fl_abs w j < fl_limit) as HL.
  { pose proof fl_abs_last. pose proof (fl_abs_le j (fl_inf w - 1) ltac:(lia)).
    pose proof (fl_abs_mono (fl_inf w - 1) (fl_inf w) ltac:(lia)). lia. }
  destruct (fl_round_finite (fl_abs w j) ltac:(lia)) as (HF & HN).
  apply fl_abs_inj; [lia..|]. destruct (HN j) as [H|(H & _)]; lia.
Qed.
End Format.

(** ** Bit patterns with a sign *)
Definition sign_bit (w : bool) : Z := 2 ^ (8 * Z.of_nat (float_bytes w) - 1).

Lemma fl_inf_below w : fl_inf w < sign_bit w.
Proof. destruct w; reflexivity. Qed.
Lemma sign_bit_even w : Z.even (sign_bit w) = true.
Proof. destruct w; reflexivity. Qed.

Lemma fl_signed_range w s mag : 0 <= mag < sign_bit w -> int_in_range false (float_bytes w) (fl_signed w s mag) = true.
Proof.
  intros H. unfold int_in_range, fl_signed. fold (sign_bit w).
  replace (2 ^ (8 * Z.of_nat (float_bytes w))) with (2 * sign_bit w) by (destruct w; reflexivity).
  apply andb_true_iff. rewrite Z.leb_le, Z.ltb_lt. destruct s; lia.
Qed.
Lemma fl_signed_parts w s mag : 0 <= mag < sign_bit w ->
  fl_sign w (fl_signed w s mag) = s /\ fl_mag w (fl_signed w s mag) = mag.
Proof.
  intros H. unfold fl_sign, fl_mag, fl_signed. fold (sign_bit w). destruct s.
  - split; [apply Z.leb_le; lia|]. symmetry. apply (Z.mod_unique_pos _ _ 1); lia.
  - split; [apply Z.leb_gt; lia|]. apply Z.mod_small. lia.
Qed.
Lemma fl_signed_parts_inv w bits : int_in_range false (float_bytes w) bits = true ->
  bits = fl_signed w (fl_sign w bits) (fl_mag w bits) /\ 0 <= fl_mag w bits < sign_bit w.
Proof.
  unfold int_in_range. replace (2 ^ (8 * Z.of_nat (float_bytes w))) with (2 * sign_bit w) by (destruct w; reflexivity).
  rewrite andb_true_iff, Z.leb_le, Z.ltb_lt. intros H.
  assert (0 < sign_bit w) as HS by (destruct w; reflexivity).
  unfold fl_sign, fl_mag, fl_signed. fold (sign_bit w). split; [|apply Z.mod_pos_bound; assumption].
  destruct (Z.leb_spec (sign_bit w) bits).
  - rewrite <- (Z.mod_unique_pos bits (sign_bit w) 1 (bits - sign_bit w)); lia.
  - rewrite Z.mod_small; lia.
Qed.
Lemma fl_signed_even w s mag : Z.even (fl_signed w s mag) = Z.even mag.
Proof.
  unfold fl_signed. fold (sign_bit w). destruct s; [|reflexivity]. rewrite Z.even_add, sign_bit_even. destruct (Z.even mag); reflexivity.
Qed.

(** The specification's reading of a pattern. *)
Lemma stands_for_iff w bits neg a : stands_for w bits neg a <->
  exists mag, 0 <= mag < fl_inf w /\ bits = fl_signed w neg mag /\ a = fl_abs w mag.
Proof.
  assert ((if w then 2 ^ 52 else 2 ^ 23) = 2 ^ (fl_prec w - 1)) as EP by (destruct w; reflexivity).
  assert ((if w then 2047 else 255) = 2 * fl_emax w - 1) as EE by (destruct w; reflexivity).
  assert ((if w then 0 else 925) = fl_low w) as EL by (destruct w; reflexivity).
  assert ((if w then 2 ^ 63 else 2 ^ 31) = sign_bit w) as ES by (destruct w; reflexivity).
  pose proof (fl_P_pos w) as HP. pose proof (fl_low_range w) as HL.
  unfold stands_for. rewrite EP, EE, EL, ES. cbv zeta. unfold fl_inf, fl_signed. fold (sign_bit w).
  set (P := 2 ^ (fl_prec w - 1)) in *. split.
  - intros (E & M & H1 & H2 & H3 & H4). exists (E * P + M). split; [nia|]. split; [destruct neg; lia|].
    rewrite H4. unfold fl_abs. fold P.
    rewrite <- (Z.div_unique_pos (E * P + M) P E M), <- (Z.mod_unique_pos (E * P + M) P E M) by lia.
    destruct (Z.eqb_spec E 0) as [->|]; f_equal; try lia; f_equal; lia.
  - intros (mag & H1 & H2 & H3). exists (mag / P), (mag mod P). pose proof (Z.mod_pos_bound mag P HP) as HM.
    pose proof (Z.div_mod mag P ltac:(lia)) as HD.
    split; [destruct neg; lia|]. split; [assumption|]. split.
    + split; [apply Z.div_pos; lia|]. apply Z.div_lt_upper_bound; [assumption|]. lia.
    + rewrite H3. unfold fl_abs. fold P. assert (0 <= mag / P) by (apply Z.div_pos; lia).
      destruct (Z.eqb_spec (mag / P) 0) as [->|]; f_equal; try lia; f_equal; lia.
Qed.

Lemma infinite_eq w neg : infinite w neg = fl_signed w neg (fl_inf w).
Proof. destruct w, neg; reflexivity. Qed.

Lemma rounds_limit (w : bool) : (if w then 2 ^ 1024 - 2 ^ 970 else 2 ^ 128 - 2 ^ 103) * 2 ^ 1074 = fl_limit w.
Proof. destruct w; reflexivity. Qed.

Lemma fl_round_range w a : 0 <= a -> 0 <= fl_round w a < sign_bit w.
Proof.
  intros Ha. pose proof (fl_inf_below w). pose proof (fl_inf_pos w). destruct (Z_lt_le_dec a (fl_limit w)) as [H1|H1].
  - destruct (fl_round_finite w a) as (H2 & _); lia.
  - rewrite fl_round_infinite by assumption. lia.
Qed.

Lemma rounds_to_model w neg a : 0 <= a -> rounds_to w neg a (fl_signed w neg (fl_round w a)).
Proof.
  intros Ha. unfold rounds_to. rewrite rounds_limit. destruct (Z.ltb_spec a (fl_limit w)) as [H1|H1].
  - destruct (fl_round_finite w a) as (H2 & H3); [lia|]. exists (fl_abs w (fl_round w a)). split.
    + apply stands_for_iff. exists (fl_round w a). auto.
    + intros bits' x' HS. apply stands_for_iff in HS as (j & J1 & _ & ->). rewrite fl_signed_even.
      destruct (H3 j) as [|(? & [->|])]; auto. lia.
  - rewrite fl_round_infinite by assumption. symmetry. apply infinite_eq.
Qed.

Lemma rounds_to_unique w neg a b1 b2 : rounds_to w neg a b1 -> rounds_to w neg a b2 -> b1 = b2.
Proof.
  unfold rounds_to. rewrite rounds_limit. destruct (Z.ltb_spec a (fl_limit w)) as [H1|H1]; [|congruence].
  intros (x1 & S1 & N1) (x2 & S2 & N2). destruct (N1 _ _ S2) as [A1|(A1 & A2)]; destruct (N2 _ _ S1) as [B1|(B1 & B2)]; try lia.
  apply stands_for_iff in S1 as (m1 & M1 & -> & ->). apply stands_for_iff in S2 as (m2 & M2 & -> & ->).
  rewrite !fl_signed_even in *. destruct (Z.eq_dec m1 m2) as [->|HNE]; [reflexivity|]. exfalso.
  assert (fl_abs w m1 <> fl_abs w m2) as HNA by (intros H; apply fl_abs_inj in H; lia).
  assert (Z.even m1 = true) as E1 by (destruct A2; [congruence | assumption]).
  assert (Z.even m2 = true) as E2 by (destruct B2; [congruence | assumption]).
  assert (forall j k, 0 <= j -> j < k < fl_inf w -> Z.even j = true -> Z.even k = true ->
            Z.abs (fl_abs w j - a) = Z.abs (fl_abs w k - a) ->
            exists bits' x', stands_for w bits' neg x' /\ Z.abs (x' - a) < Z.abs (fl_abs w j - a)) as HB.
  { intros j k Hj Hk Ej Ek HD. exists (fl_signed w neg (j + 1)), (fl_abs w (j + 1)).
    assert (j + 1 < k) as HK.
    { destruct (Z.eq_dec (j + 1) k) as [<-|]; [|lia]. rewrite Z.even_add, Ej in Ek. discriminate. }
    split; [apply stands_for_iff; exists (j + 1); split; [lia|]; auto|].
    pose proof (fl_abs_mono w j (j + 1)). pose proof (fl_abs_mono w (j + 1) k). lia. }
  destruct (Z_lt_le_dec m1 m2) as [HL|HL].
  - destruct (HB m1 m2) as (b & x & S & D); try lia; auto. destruct (N1 _ _ S) as [|(? & _)]; lia.
  - destruct (HB m2 m1) as (b & x & S & D); try lia; auto. destruct (N2 _ _ S) as [|(? & _)]; lia.
Qed.
