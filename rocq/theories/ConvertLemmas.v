(** Lemmas on the conversion of arguments to parameter types. *)
From Verif Require Export FloatLemmas Handlers SpecSend.

Lemma convertible_spec t u : convertible t u = true <-> accepted t u.
Proof.
  unfold accepted, enumeration. destruct (fty_eqb t u) eqn:E.
  - apply fty_eqb_eq in E as ->. split; [auto|]. intros _.
    destruct u as [[] ? ?| | |]; try reflexivity; cbn [convertible]; apply fty_eqb_eq; reflexivity.
  - assert (t <> u) as HN by (intros H; apply fty_eqb_eq in H; congruence).
    destruct t as [[] ? ?| | |], u as [[] ? ?| | |]; cbn [convertible arithmetic]; rewrite ?E; (split; [intros H|intros [H|(H1 & H2)]]);
      try discriminate; try contradiction; try reflexivity; try (right; split; [|exact I]; solve [left; exact I | right; eauto]).
    all: destruct H1 as [[]|(? & ? & ? & H1)]; discriminate.
Qed.
Lemma convertible_refl t : convertible t t = true.
Proof. apply convertible_spec. left. reflexivity. Qed.
Lemma accepted_length ts us : Forall2 accepted ts us -> length ts = length us.
Proof. induction 1; cbn; auto. Qed.
Lemma convertible_list ts us : length ts = length us ->
  (forallb (fun p => convertible (fst p) (snd p)) (combine ts us) = true <-> Forall2 accepted ts us).
Proof.
  revert us. induction ts as [|t ts IH]; intros [|u us] HL; try discriminate HL; cbn [combine forallb fst snd].
  - split; constructor.
  - rewrite andb_true_iff, convertible_spec, IH by (injection HL; auto). split; [intros (H1 & H2); constructor; assumption|].
    intros H. inversion H; auto.
Qed.

Lemma bool_to_int_range s n (b : bool) : (0 < n)%nat -> int_in_range s n (if b then 1 else 0) = true.
Proof.
  intros Hn. pose proof (pow8_half n Hn) as HH.
  assert (128 <= 2 ^ (8 * Z.of_nat n - 1)) by (change 128 with (2 ^ 7); apply Z.pow_le_mono_r; lia).
  unfold int_in_range. destruct s; apply andb_true_iff; rewrite Z.leb_le, Z.ltb_lt; destruct b; lia.
Qed.

Lemma convert_int k s n z : (0 < n)%nat -> exists z', convert_arg (TIntN k s n) (VInt z) = Ok (VInt z')
  /\ int_in_range s n z' = true /\ (z' - z) mod 2 ^ (8 * Z.of_nat n) = 0.
Proof.
  intros Hn. pose proof (pow8_half n Hn) as HH.
  assert (0 < 2 ^ (8 * Z.of_nat n)) as Hp by (apply Z.pow_pos_nonneg; lia).
  unfold convert_arg, int_in_range. set (q := 2 ^ (8 * Z.of_nat n)) in *. set (h := 2 ^ (8 * Z.of_nat n - 1)) in *.
  destruct s; eexists; (split; [reflexivity|]).
  - pose proof (Z.mod_pos_bound (z + h) q Hp). split.
    + apply andb_true_iff. rewrite Z.leb_le, Z.ltb_lt. lia.
    + replace ((z + h) mod q - h - z) with ((z + h) mod q - (z + h)) by lia.
      rewrite Zminus_mod, Z.mod_mod, Z.sub_diag by lia. apply Z.mod_0_l. lia.
  - pose proof (Z.mod_pos_bound z q Hp). split.
    + apply andb_true_iff. rewrite Z.leb_le, Z.ltb_lt. lia.
    + rewrite Zminus_mod, Z.mod_mod, Z.sub_diag by lia. apply Z.mod_0_l. lia.
Qed.

Lemma int_range_mod_unique s n z z' : int_in_range s n z = true -> int_in_range s n z' = true ->
  (z - z') mod 2 ^ (8 * Z.of_nat n) = 0 -> z = z'.
Proof.
  intros H H' HM. apply Z.mod_divide in HM; [|pose proof (Z.pow_pos_nonneg 2 (8 * Z.of_nat n)); lia].
  destruct HM as (k & HM). destruct n as [|n].
  - unfold int_in_range in *. change (8 * Z.of_nat 0 - 1) with (-1) in *. change (8 * Z.of_nat 0) with 0 in *.
    rewrite ?Z.pow_neg_r, ?Z.pow_0_r in * by lia. destruct s; apply andb_true_iff in H, H';
    rewrite Z.leb_le, Z.ltb_lt in H, H'; lia.
  - pose proof (pow8_half (Datatypes.S n) ltac:(lia)) as HH. unfold int_in_range in *.
    set (q := 2 ^ (8 * Z.of_nat (Datatypes.S n))) in *. set (h := 2 ^ (8 * Z.of_nat (Datatypes.S n) - 1)) in *.
    assert (-q < k * q < q) as HK by (destruct s; apply andb_true_iff in H, H';
    rewrite Z.leb_le, Z.ltb_lt in H, H'; lia). assert (k = 0) by nia. lia.
Qed.

(** ** Floating point arguments *)
Lemma float_of_int_spec w z : int_in_range false (float_bytes w) (float_of_int w z) = true
  /\ rounds_to w (z <? 0) (Z.abs z * 2 ^ 1074) (float_of_int w z).
Proof.
  assert (0 <= Z.abs z * 2 ^ 1074) as H by (apply Z.mul_nonneg_nonneg; [lia | apply Z.pow_nonneg; lia]).
  unfold float_of_int. change fl_unit with 1074. split.
  - apply fl_signed_range, fl_round_range, H.
  - apply rounds_to_model, H.
Qed.

Lemma fl_abs_nonneg w mag : 0 <= mag -> 0 <= fl_abs w mag.
Proof. intros H. pose proof (fl_abs_le w 0 mag ltac:(lia)) as HL. rewrite fl_abs_0 in HL. exact HL. Qed.

(** Patterns are finite, infinite or NaN. *)
Lemma fl_cases w bits : int_in_range false (float_bytes w) bits = true ->
  (fl_mag w bits < fl_inf w /\ stands_for w bits (fl_sign w bits) (fl_abs w (fl_mag w bits)))
  \/ (fl_mag w bits = fl_inf w /\ bits = infinite w (fl_sign w bits))
  \/ (fl_inf w < fl_mag w bits < sign_bit w /\ bits = fl_signed w (fl_sign w bits) (fl_mag w bits)).
Proof.
  intros H. destruct (fl_signed_parts_inv w bits H) as (E & HR).
  destruct (Z.lt_trichotomy (fl_mag w bits) (fl_inf w)) as [HL|[HL|HL]].
  - left. split; [assumption|]. apply stands_for_iff. exists (fl_mag w bits). auto with zarith.
  - right. left. split; [assumption|]. rewrite infinite_eq, <- HL. exact E.
  - right. right. split; [lia | exact E].
Qed.

Lemma stands_for_parts w bits neg a : stands_for w bits neg a ->
  fl_mag w bits < fl_inf w /\ neg = fl_sign w bits /\ a = fl_abs w (fl_mag w bits) /\ 0 <= a.
Proof.
  intros H. apply stands_for_iff in H as (mag & H1 & -> & ->). pose proof (fl_inf_below w).
  destruct (fl_signed_parts w neg mag) as (-> & ->); [lia|]. repeat split; try lia. apply fl_abs_nonneg. lia.
Qed.

Lemma infinite_parts w neg : fl_sign w (infinite w neg) = neg /\ fl_mag w (infinite w neg) = fl_inf w.
Proof.
  rewrite infinite_eq. apply fl_signed_parts. pose proof (fl_inf_below w). pose proof (fl_inf_pos w). lia.
Qed.

Definition quiet_bit (w : bool) : Z := 2 ^ (fl_prec w - 2).
Lemma quiet_bit_eq (w : bool) : (if w then 2 ^ 51 else 2 ^ 22) = quiet_bit w.
Proof. destruct w; reflexivity. Qed.
Lemma sign_bit_eq w : sign_bit w = fl_inf w + 2 * quiet_bit w.
Proof. destruct w; reflexivity. Qed.
Lemma quiet_bit_pos w : 0 < quiet_bit w.
Proof. destruct w; reflexivity. Qed.

Lemma nan_parts w neg (q : bool) x : 0 <= x < quiet_bit w ->
  let bits := infinite w neg + (if q then quiet_bit w else 0) + x in
  fl_sign w bits = neg /\ fl_mag w bits = fl_inf w + (if q then quiet_bit w else 0) + x
  /\ fl_mag w bits mod quiet_bit w = x.
Proof.
  intros Hx. cbv zeta. pose proof (sign_bit_eq w). pose proof (fl_inf_pos w). pose proof (quiet_bit_pos w).
  replace (infinite w neg + (if q then quiet_bit w else 0) + x)
    with (fl_signed w neg (fl_inf w + (if q then quiet_bit w else 0) + x)) by (rewrite infinite_eq; unfold fl_signed; destruct neg; lia).
  destruct (fl_signed_parts w neg (fl_inf w + (if q then quiet_bit w else 0) + x)) as (-> & ->); [destruct q; lia|].
  split; [reflexivity|]. split; [reflexivity|].
  assert (fl_inf w = (2 * (2 * fl_emax w - 1)) * quiet_bit w) as E by (destruct w; reflexivity).
  rewrite E. symmetry. apply (Z.mod_unique_pos _ _ (2 * (2 * fl_emax w - 1) + if q then 1 else 0)); [assumption|]. destruct q; lia.
Qed.

Lemma nan_form w bits : int_in_range false (float_bytes w) bits = true -> fl_inf w < fl_mag w bits ->
  exists (q : bool) x, 0 <= x < quiet_bit w /\ 0 < x + (if q then 1 else 0)
    /\ bits = infinite w (fl_sign w bits) + (if q then quiet_bit w else 0) + x.
Proof.
  intros H HN. destruct (fl_signed_parts_inv w bits H) as (E & HR). pose proof (sign_bit_eq w).
  rewrite infinite_eq. destruct (Z_lt_le_dec (fl_mag w bits - fl_inf w) (quiet_bit w)).
  - exists false, (fl_mag w bits - fl_inf w). split; [lia|]. split; [lia|]. rewrite E at 1. unfold fl_signed. destruct (fl_sign w bits); lia.
  - exists true, (fl_mag w bits - fl_inf w - quiet_bit w). split; [lia|]. split; [lia|].
    rewrite E at 1. unfold fl_signed. destruct (fl_sign w bits); lia.
Qed.

(** The payload of a converted NaN. *)
Definition nan_payload (to : bool) (x : Z) : Z := if to then x * 2 ^ 29 else x / 2 ^ 29.
Lemma nan_payload_range w to x : w <> to -> 0 <= x < quiet_bit w -> 0 <= nan_payload to x < quiet_bit to.
Proof.
  intros HN Hx. unfold nan_payload. destruct w, to; try congruence.
  - split; [apply Z.div_pos; lia|]. apply Z.div_lt_upper_bound; [lia|]. exact (proj2 Hx).
  - change (quiet_bit true) with (quiet_bit false * 2 ^ 29). lia.
Qed.
Lemma payload_model (w to : bool) x : w <> to ->
  (if to then x * 2 ^ (fl_prec to - fl_prec w) else x / 2 ^ (fl_prec w - fl_prec to)) = nan_payload to x.
Proof. intros HN. destruct w, to; try congruence; reflexivity. Qed.

Lemma float_of_float_finite w to bits neg a : w <> to -> stands_for w bits neg a ->
  float_of_float w to bits = fl_signed to neg (fl_round to a).
Proof.
  intros HN H. apply stands_for_parts in H as (H1 & -> & -> & _). unfold float_of_float. cbv zeta.
  rewrite (proj2 (eqb_false_iff w to) HN). f_equal.
  rewrite (proj2 (Z.eqb_neq _ _)), (proj2 (Z.ltb_ge _ _)) by lia. reflexivity.
Qed.
Lemma float_of_float_inf w to neg : w <> to -> float_of_float w to (infinite w neg) = infinite to neg.
Proof.
  intros HN. unfold float_of_float. cbv zeta. destruct (infinite_parts w neg) as (-> & ->).
  rewrite (proj2 (eqb_false_iff w to) HN), Z.eqb_refl. symmetry. apply infinite_eq.
Qed.
Lemma float_of_float_nan w to neg (q : bool) x : w <> to -> 0 <= x < quiet_bit w -> 0 < x + (if q then 1 else 0) ->
  float_of_float w to (infinite w neg + (if q then quiet_bit w else 0) + x)
  = infinite to neg + (quiet_bit to + nan_payload to x).
Proof.
  intros HN Hx Hq. destruct (nan_parts w neg q x Hx) as (E1 & E2 & E3). cbv zeta in E1, E2, E3.
  unfold float_of_float. cbv zeta. fold (quiet_bit w). fold (quiet_bit to). rewrite E3, E1, E2, (proj2 (eqb_false_iff w to) HN), payload_model by assumption.
  pose proof (quiet_bit_pos w). rewrite (proj2 (Z.eqb_neq _ _)), (proj2 (Z.ltb_lt _ _)) by (destruct q; lia).
  rewrite infinite_eq. unfold fl_signed. destruct neg; lia.
Qed.

Lemma float_of_float_spec w to bits : int_in_range false (float_bytes w) bits = true ->
  int_in_range false (float_bytes to) (float_of_float w to bits) = true
  /\ reformatted w to bits (float_of_float w to bits).
Proof.
  intros H. unfold reformatted. destruct (Bool.eqb w to) eqn:EB.
  - apply eqb_prop in EB as <-. unfold float_of_float. rewrite eqb_reflx. auto.
  - apply eqb_false_iff in EB. split; [|split; [|split; [|split]]].
    + destruct (fl_cases w bits H) as [(H1 & H2)|[(H1 & H2)|(H1 & H2)]].
      * rewrite (float_of_float_finite w to bits _ _ EB H2). apply fl_signed_range, fl_round_range.
        apply (stands_for_parts _ _ _ _ H2).
      * rewrite H2, float_of_float_inf, infinite_eq by assumption. apply fl_signed_range.
        pose proof (fl_inf_below to). pose proof (fl_inf_pos to). lia.
      * destruct (nan_form w bits H) as (q & x & X1 & X2 & ->); [lia|].
        rewrite float_of_float_nan by assumption. pose proof (nan_payload_range w to x EB X1) as HP.
        match goal with |- context [infinite to ?s] => replace (infinite to s + (quiet_bit to + nan_payload to x))
          with (fl_signed to s (fl_inf to + (quiet_bit to + nan_payload to x))) by (rewrite infinite_eq; unfold fl_signed; destruct s; lia) end.
        apply fl_signed_range. pose proof (sign_bit_eq to). pose proof (fl_inf_pos to). lia.
    + unfold int_in_range in H. apply andb_true_iff in H as [H1 H2]. apply Z.leb_le in H1. apply Z.ltb_lt in H2.
      destruct w; split; assumption.
    + intros neg x HS. rewrite (float_of_float_finite w to bits neg x EB HS). apply rounds_to_model. apply (stands_for_parts _ _ _ _ HS).
    + intros neg ->. apply float_of_float_inf. assumption.
    + intros neg q x H1 H2. rewrite quiet_bit_eq in *. intros ->. rewrite float_of_float_nan by assumption.
      f_equal. destruct to; reflexivity.
Qed.

Lemma reformatted_unique w to bits b : reformatted w to bits b -> float_of_float w to bits = b.
Proof.
  unfold reformatted. destruct (Bool.eqb w to) eqn:EB.
  - intros ->. unfold float_of_float. rewrite EB. reflexivity.
  - apply eqb_false_iff in EB. intros (HR & H1 & H2 & H3).
    assert (int_in_range false (float_bytes w) bits = true) as H.
    { unfold int_in_range. apply andb_true_iff. rewrite Z.leb_le, Z.ltb_lt. destruct w; exact HR. }
    destruct (fl_cases w bits H) as [(C1 & C2)|[(C1 & C2)|(C1 & C2)]].
    + eapply rounds_to_unique; [|exact (H1 _ _ C2)]. rewrite (float_of_float_finite w to bits _ _ EB C2). apply rounds_to_model.
      apply (stands_for_parts _ _ _ _ C2).
    + rewrite (H2 _ C2), C2 at 1. rewrite float_of_float_inf by assumption. reflexivity.
    + destruct (nan_form w bits H) as (q & x & X1 & X2 & E); [lia|].
      rewrite (H3 (fl_sign w bits) q x); rewrite ?quiet_bit_eq; try assumption.
      rewrite E at 1. rewrite float_of_float_nan by assumption. f_equal. destruct to; reflexivity.
Qed.

(** Truncation. *)
Lemma fl_value_trunc w bits : Z.quot (fl_value w bits) (2 ^ fl_unit)
  = (if fl_sign w bits then -1 else 1) * (fl_abs w (fl_mag w bits) / 2 ^ 1074).
Proof.
  change fl_unit with 1074. assert (0 < 2 ^ 1074) by reflexivity.
  assert (0 <= fl_abs w (fl_mag w bits)).
  { apply fl_abs_nonneg. apply Z.mod_pos_bound. destruct w; reflexivity. }
  unfold fl_value. destruct (fl_sign w bits).
  - rewrite Z.quot_opp_l, Z.quot_div_nonneg by lia. lia.
  - rewrite Z.quot_div_nonneg by lia. lia.
Qed.

(** ** Arguments *)
Lemma convert_arg_converted t a v : fty_ok t -> converted t a v -> convert_arg t a = Ok v.
Proof.
  intros Ht (Hv & HC). destruct t as [k s n| |w|k n].
  - destruct v as [z'|b|w' z'|l]; cbn [has_type] in Hv; try discriminate.
    destruct a as [z|b|w' bits|l]; [| | |discriminate].
    + destruct (convert_int k s n z Ht) as (z1 & -> & Hr & HM). do 2 f_equal.
      apply (int_range_mod_unique s n); auto.
      replace (z1 - z') with ((z1 - z) - (z' - z)) by lia. rewrite Zminus_mod, HM, HC. reflexivity.
    + subst z'. destruct s; reflexivity.
    + destruct HC as (neg & x & HS & ->). apply stands_for_parts in HS as (H1 & -> & -> & _).
      cbn [convert_arg]. destruct s; rewrite !fl_value_trunc, (proj2 (Z.ltb_lt _ _) H1), Hv; reflexivity.
  - destruct v as [z'|b|w' z'|l]; cbn [has_type] in Hv; try discriminate. destruct a as [z|b'|w' bits|l]; try discriminate.
    + cbn [convert_arg]. do 2 f_equal. destruct (Z.eqb_spec z 0) as [->|HN], b; cbn; try reflexivity; exfalso.
      * apply HC; reflexivity.
      * assert (false = true) by (apply HC, HN). discriminate.
    + cbn [convert_arg]. congruence.
    + cbn [convert_arg]. do 2 f_equal. destruct (Z.eqb_spec (fl_mag w' bits) 0) as [E|E].
      * destruct b; [|reflexivity]. exfalso. assert (true = false) as X; [|discriminate]. apply HC.
        destruct HC as (HT & _). cbn [has_type] in HT. rewrite eqb_reflx in HT.
        destruct (fl_cases w' bits HT) as [(_ & C)|[(C & _)|(C & _)]]; [|pose proof (fl_inf_pos w'); lia..].
        rewrite E, fl_abs_0 in C. eauto.
      * destruct b; [reflexivity|]. exfalso. destruct (proj1 (proj2 HC) eq_refl) as (neg & HS).
        apply stands_for_iff in HS as (mag & H1 & -> & H3). apply E.
        pose proof (fl_inf_below w'). destruct (fl_signed_parts w' neg mag) as (_ & ->); [lia|].
        apply (fl_abs_inj w'); try lia. rewrite fl_abs_0. auto.
  - destruct v as [z'|b|w' z'|l]; cbn [has_type] in Hv; try discriminate.
    apply andb_true_iff in Hv as (HW & Hv). apply eqb_prop in HW as <-.
    destruct a as [z|b|w' bits|l]; [| | |discriminate]; cbn [convert_arg]; do 2 f_equal.
    + eapply rounds_to_unique; [apply float_of_int_spec | exact HC].
    + eapply rounds_to_unique; [|exact HC]. pose proof (proj2 (float_of_int_spec w (if b then 1 else 0))) as H.
      destruct b; exact H.
    + apply reformatted_unique, HC.
  - subst a. destruct v as [z|b|w bits|l]; cbn [has_type] in Hv; try discriminate.
    apply andb_true_iff in Hv as (Hv & _). cbn [convert_arg]. rewrite Hv. reflexivity.
Qed.

(** Whether a conversion exists at all depends on the types, except from floating point numbers to
    integers. *)
Lemma convert_arg_ok from to a : fty_ok to -> has_type a from = true -> convertible from to = true ->
  (exists v, convert_arg to a = Ok v /\ converted to a v)
  \/ (convert_arg to a = UB /\ (forall v, ~ converted to a v)
      /\ exists w k s n, from = TFloat w /\ to = TIntN k s n).
Proof.
  intros Hok Hty HC. destruct to as [k s n| |w|k n].
  - destruct from as [k' s' n'| |w'|k' n']; [| | |destruct k, n; discriminate];
      destruct a as [z|b|w2 bits|l]; cbn [has_type] in Hty; try discriminate.
    + left. destruct (convert_int k s n z Hok) as (z' & -> & H1 & H2). eexists. split; [reflexivity|]. split; assumption.
    + left. exists (VInt (if b then 1 else 0)). split; [destruct s; reflexivity|]. split; [|reflexivity].
      apply bool_to_int_range, Hok.
    + apply andb_true_iff in Hty as (HW & Hty). apply eqb_prop in HW as <-.
      destruct ((fl_mag w' bits <? fl_inf w') && int_in_range s n (Z.quot (fl_value w' bits) (2 ^ fl_unit))) eqn:E.
      * left. eexists. split; [cbn [convert_arg]; rewrite E; destruct s; reflexivity|].
        apply andb_true_iff in E as (E1 & E2). apply Z.ltb_lt in E1. split; [exact E2|].
        destruct (fl_cases w' bits Hty) as [(_ & HS)|[(H1 & _)|(H1 & _)]]; try lia.
        eexists. eexists. split; [exact HS | apply fl_value_trunc].
      * right. split; [cbn [convert_arg]; rewrite E; destruct s; reflexivity|]. split; [|eauto 10].
        intros v HV. apply convert_arg_converted in HV; [|exact Hok]. cbn [convert_arg] in HV.
        destruct s; rewrite E in HV; discriminate.
  - left. destruct from as [k' s' n'| |w'|k' n']; [| | |discriminate];
      destruct a as [z|b|w2 bits|l]; cbn [has_type] in Hty; try discriminate; (eexists; split; [reflexivity|]).
    + split; [reflexivity|]. cbn. destruct (Z.eqb_spec z 0); cbn; intuition discriminate.
    + split; reflexivity.
    + apply andb_true_iff in Hty as (HW & Hty). apply eqb_prop in HW as <-.
      split; [reflexivity|]. split; [cbn [has_type]; rewrite eqb_reflx; exact Hty|]. split.
      * intros H. apply negb_false_iff, Z.eqb_eq in H.
        destruct (fl_cases w' bits Hty) as [(_ & C)|[(C & _)|(C & _)]]; [|pose proof (fl_inf_pos w'); lia..].
        rewrite H, fl_abs_0 in C. eauto.
      * intros (neg & HS). apply negb_false_iff, Z.eqb_eq.
        apply stands_for_iff in HS as (mag & H1 & -> & H3).
        pose proof (fl_inf_below w'). destruct (fl_signed_parts w' neg mag) as (_ & ->); [lia|].
        apply (fl_abs_inj w'); try lia. rewrite fl_abs_0. auto.
  - left. destruct from as [k' s' n'| |w'|k' n']; [| | |discriminate];
      destruct a as [z|b|w2 bits|l]; cbn [has_type] in Hty; try discriminate; (eexists; split; [reflexivity|]);
      (split; [cbn [has_type]; rewrite eqb_reflx|]).
    + apply float_of_int_spec.
    + apply float_of_int_spec.
    + apply float_of_int_spec.
    + pose proof (proj2 (float_of_int_spec w (if b then 1 else 0))) as H. destruct b; exact H.
    + apply andb_true_iff in Hty as (HW & Hty). apply eqb_prop in HW as <-. apply (float_of_float_spec w' w bits Hty).
    + apply andb_true_iff in Hty as (HW & Hty). apply eqb_prop in HW as <-. apply (float_of_float_spec w' w bits Hty).
  - left. assert (from = TRawN k n) as -> by (destruct from; cbn [convertible] in HC; try discriminate; apply fty_eqb_eq in HC; assumption).
    destruct a as [z|b|w2 bits|l]; cbn [has_type] in Hty; try discriminate.
    exists (VRaw l). apply andb_true_iff in Hty as (H1 & H2). cbn [convert_arg]. rewrite H1. split; [reflexivity|].
    split; [cbn [has_type]; rewrite H1, H2; reflexivity | reflexivity].
Qed.

Lemma map_snd_combine {A B} (l1 : list A) : forall (l2 : list B), length l1 = length l2 -> map snd (combine l1 l2) = l2.
Proof.
  induction l1 as [|a l1 IH]; intros [|b l2] H; cbn in *; try lia; try reflexivity. f_equal. apply IH. lia.
Qed.

Lemma map_fst_combine {A B} (l1 : list A) : forall (l2 : list B), length l1 = length l2 -> map fst (combine l1 l2) = l1.
Proof.
  induction l1 as [|a l1 IH]; intros [|b l2] H; cbn in *; try lia; try reflexivity. f_equal. apply IH. lia.
Qed.
Lemma convert_args_converted ts args vs : Forall fty_ok ts -> converted_all ts args vs ->
  convert_args ts args = Ok (combine ts vs) /\ has_types vs ts = true
  /\ length args = length ts /\ length vs = length ts.
Proof.
  intros HF H. induction H as [|t a v ts args vs H1 H2 IH]; [auto|].
  inversion HF as [|? ? Ht HF']; subst. destruct (IH HF') as (E1 & E2 & E3 & E4).
  cbn [convert_args combine has_types length]. rewrite (convert_arg_converted t a v) by assumption. cbn [bind].
  rewrite E1, E2, E3, E4. cbn [bind]. destruct H1 as [-> _]. auto.
Qed.

Lemma convert_args_ok ts : forall vs ps, Forall fty_ok ps -> has_types vs ts = true -> all2 convertible ts ps = true ->
  (exists l, convert_args ps vs = Ok l /\ converted_all ps vs (map snd l))
  \/ (convert_args ps vs = UB /\ (forall vs', ~ converted_all ps vs vs')
      /\ exists w k s n, In (TFloat w, TIntN k s n) (combine ts ps)).
Proof.
  induction ts as [|t ts IH]; intros [|v vs] [|p ps] HF Hty HC; cbn in Hty, HC; try discriminate.
  - left. exists []. split; [reflexivity | constructor].
  - apply andb_true_iff in Hty as [T1 T2]. apply andb_true_iff in HC as [C1 C2]. inversion HF; subst.
    cbn [convert_args]. destruct (convert_arg_ok t p v) as [(v' & -> & HV)|(-> & HV & w & k & s & n & -> & ->)]; auto; cbn [bind].
    + destruct (IH vs ps) as [(l & -> & HL)|(-> & HL & w & k & s & n & HI)]; auto; cbn [bind].
      * left. eexists. split; [reflexivity|]. cbn [map snd]. constructor; assumption.
      * right. split; [reflexivity|]. split.
        -- intros vs' HX. inversion HX; subst. eapply HL; eassumption.
        -- exists w, k, s, n. right. exact HI.
    + right. split; [reflexivity|]. split.
      * intros vs' HX. inversion HX; subst. eapply HV; eassumption.
      * exists w, k, s, n. left. reflexivity.
Qed.

Lemma has_types_self ts : forall vs, has_types vs ts = true -> converted_all ts vs vs.
Proof.
  induction ts as [|t ts IH]; intros [|v vs] H; cbn [has_types] in H; try discriminate; [constructor|].
  apply andb_true_iff in H as [H1 H2]. constructor; [|auto]. split; [assumption|].
  destruct t as [k sg n| |w|k n], v as [z|b|w' bits|l]; cbn [has_type] in H1; try discriminate; try reflexivity.
  - rewrite Z.sub_diag. apply Z.mod_0_l. pose proof (Z.pow_pos_nonneg 2 (8 * Z.of_nat n)). lia.
  - apply andb_true_iff in H1 as (H1 & _). apply eqb_prop in H1 as <-. unfold reformatted. rewrite eqb_reflx. reflexivity.
Qed.

Lemma has_types_convert args ts : Forall fty_ok ts -> has_types args ts = true -> convert_args ts args = Ok (combine ts args).
Proof. intros HF H. apply (convert_args_converted ts args args HF), has_types_self, H. Qed.

(** Numbers convert to every arithmetic type. *)
Lemma int_has_type z : exists n, has_type (VInt z) (TInt true n) = true.
Proof.
  exists (Datatypes.S (Z.to_nat (Z.abs z))). cbn [has_type]. unfold int_in_range.
  assert (Z.abs z < 2 ^ (8 * Z.of_nat (Datatypes.S (Z.to_nat (Z.abs z))) - 1)) as H.
  { eapply Z.lt_le_trans; [apply (Z.pow_gt_lin_r 2 (Z.abs z)); lia|]. apply Z.pow_le_mono_r; lia. }
  apply andb_true_iff. rewrite Z.leb_le, Z.ltb_lt. lia.
Qed.

Lemma converted_exists_int ts : forall zs, Forall fty_ok ts -> Forall arithmetic ts ->
  length zs = length ts -> exists vs, converted_all ts (map VInt zs) vs.
Proof.
  induction ts as [|t ts IH]; intros [|z zs] HF HI HL; cbn in HL; try discriminate.
  - exists []. constructor.
  - inversion HF as [|? ? Ht HF']; subst.
    destruct (IH zs HF') as (vs & Hvs); [inversion HI; assumption | lia|].
    destruct (int_has_type z) as (n & Hn).
    destruct (convert_arg_ok (TInt true n) t (VInt z) Ht Hn) as [(v & _ & HV)|(_ & _ & w & k & s & n' & H & _)]; [|..|discriminate].
    + inversion HI as [|? ? HA _]; subst. destruct t as [[| |] s' n'| |w|k n']; try reflexivity; destruct HA.
    + exists (v :: vs). cbn [map]. constructor; assumption.
Qed.

(** ** Numbers that are not changed *)
Lemma int_exact w z v : Z.abs z <= 2 ^ fl_prec w -> converted (TFloat w) (VInt z) v ->
  exists bits, v = VFloat w bits /\ stands_for w bits (z <? 0) (Z.abs z * 2 ^ 1074).
Proof.
  intros Hz (Hty & HC). destruct v as [?|?|w' bits|?]; cbn [has_type] in Hty; try discriminate.
  apply andb_true_iff in Hty as (HW & _). apply eqb_prop in HW as <-. exists bits. split; [reflexivity|].
  destruct (fl_abs_onto w (Z.abs z) 1074) as (j & Hj & E); [lia | apply fl_low_range|].
  assert (fl_abs w j < fl_abs w (fl_inf w)) as HL.
  { rewrite E, fl_abs_inf. change fl_unit with 1074. apply Z.mul_lt_mono_pos_r; [reflexivity|].
    eapply Z.le_lt_trans; [apply Hz|]. destruct w; reflexivity. }
  assert (j < fl_inf w) as HJ.
  { apply Z.nle_gt. intros H. pose proof (fl_inf_pos w). pose proof (fl_abs_le w (fl_inf w) j ltac:(lia)). lia. }
  assert (bits = fl_signed w (z <? 0) (fl_round w (Z.abs z * 2 ^ 1074))) as ->.
  { eapply rounds_to_unique; [exact HC|]. apply rounds_to_model. rewrite <- E. apply fl_abs_nonneg, Hj. }
  apply stands_for_iff. exists j. rewrite <- E. rewrite fl_round_abs by lia. auto.
Qed.

Lemma same_exact d f : same_number d f -> has_type (VFloat false f) (TFloat false) = true
  /\ converted (TFloat false) (VFloat true d) (VFloat false f) /\ converted (TFloat true) (VFloat false f) (VFloat true d).
Proof.
  intros (neg & x & H1 & H2).
  assert (forall w b, stands_for w b neg x -> int_in_range false (float_bytes w) b = true) as HR.
  { intros w b HS. apply stands_for_iff in HS as (m & M1 & -> & _). apply fl_signed_range.
    pose proof (fl_inf_below w). lia. }
  assert (forall w to b b', w <> to -> stands_for w b neg x -> stands_for to b' neg x -> float_of_float w to b = b') as HC.
  { intros w to b b' HN HS HS'. rewrite (float_of_float_finite w to b neg x HN HS).
    apply stands_for_iff in HS' as (m & M1 & -> & ->). rewrite fl_round_abs by assumption. reflexivity. }
  pose proof (HR _ _ H1) as R1. pose proof (HR _ _ H2) as R2.
  split; [exact R2|]. split; (split; [assumption|]).
  - rewrite <- (HC true false d f) by (congruence || assumption). apply (float_of_float_spec true false d R1).
  - rewrite <- (HC false true f d) by (congruence || assumption). apply (float_of_float_spec false true f R2).
Qed.

(** Every finite float is a double. *)
Lemma widen_exists f neg x : stands_for false f neg x -> exists d, same_number d f.
Proof.
  intros H. pose proof H as HS. destruct H as (E & M & H1 & H2 & H3 & H4). cbv zeta in *.
  set (z := if E =? 0 then M else 2 ^ 23 + M) in *.
  assert (0 <= z < 2 ^ 24) as Hz by (subst z; change (2 ^ 24) with (2 ^ 23 + 2 ^ 23); destruct (E =? 0); lia).
  destruct (fl_abs_onto true z (Z.max E 1 - 1 + 925)) as (j & Hj & EJ).
  - change (fl_prec true) with 53. assert (2 ^ 24 < 2 ^ 53) by reflexivity. lia.
  - change (fl_low true) with 0. lia.
  - assert (x = fl_abs true j) as EX by (rewrite EJ; exact H4).
    exists (fl_signed true neg j). exists neg, x. split; [|assumption]. apply stands_for_iff. exists j. split; [|auto].
    split; [assumption|]. apply Z.nle_gt. intros HB. pose proof (fl_abs_le true (fl_inf true) j ltac:(pose proof (fl_inf_pos true); lia)) as HL.
    rewrite fl_abs_inf, EJ in HL. change fl_unit with 1074 in HL. change (fl_emax true) with 1024 in HL.
    rewrite <- Z.pow_add_r in HL by lia.
    assert (z * 2 ^ (Z.max E 1 - 1 + 925) < 2 ^ 24 * 2 ^ 1200) as HU.
    { apply Z.le_lt_trans with (z * 2 ^ 1200); [|apply Z.mul_lt_mono_pos_r; [reflexivity | lia]].
      apply Z.mul_le_mono_nonneg_l; [lia|]. apply Z.pow_le_mono_r; lia. }
    rewrite <- Z.pow_add_r in HU by lia.
    assert (2 ^ (24 + 1200) <= 2 ^ (1024 + 1074)) by (apply Z.pow_le_mono_r; lia). lia.
Qed.
