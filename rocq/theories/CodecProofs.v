(** Field and tuple codec. *)
From Verif Require Export CheckProofs.

Lemma bytes_le_spec n : forall z, bytes_le n z = map (spec_byte z) (seq 0 n).
Proof.
  induction n as [|n IH]; intros z; [reflexivity|].
  cbn [bytes_le seq map]. f_equal.
  - unfold spec_byte. change (8 * Z.of_nat 0) with 0. rewrite Z.pow_0_r, Z.div_1_r. reflexivity.
  - rewrite IH, <- seq_shift, map_map. apply map_ext. intros i. unfold spec_byte.
    replace (8 * Z.of_nat (S i)) with (8 + 8 * Z.of_nat i) by lia.
    rewrite Z.pow_add_r by lia. change (2 ^ 8) with 256.
    rewrite Z.div_div by (try lia; apply Z.pow_pos_nonneg; lia). reflexivity.
Qed.

Lemma encode_spec c t v : encode c t v = spec_rep (little c) t v.
Proof.
  destruct t as [k s n| |w|k n], v as [z|b|w' z|bs]; try reflexivity;
    cbn [encode spec_rep]; unfold order; rewrite bytes_le_spec;
    (destruct (little c); [reflexivity|]); symmetry; apply map_rev.
Qed.

Lemma bytes_le_length n : forall z, length (bytes_le n z) = n.
Proof. induction n; intros; simpl; auto. Qed.

Lemma bytes_le_ok n : forall z, bytes_ok (bytes_le n z).
Proof.
  induction n; intros z; cbn [bytes_le]; constructor; [|apply IHn]. apply Z.mod_pos_bound. lia.
Qed.

Lemma order_length c bs : length (order c bs) = length bs.
Proof. unfold order. destruct (little c); [reflexivity | apply rev_length]. Qed.
Lemma order_order c bs : order c (order c bs) = bs.
Proof. unfold order. destruct (little c); [reflexivity | apply rev_involutive]. Qed.
Lemma order_ok c bs : bytes_ok bs -> bytes_ok (order c bs).
Proof. unfold order, bytes_ok. destruct (little c); [auto | apply Forall_rev]. Qed.

Lemma is_byte_spec b : is_byte b = true <-> 0 <= b < 256.
Proof. unfold is_byte. rewrite andb_true_iff, Z.leb_le, Z.ltb_lt. reflexivity. Qed.

Lemma forallb_bytes bs : forallb is_byte bs = true <-> bytes_ok bs.
Proof.
  unfold bytes_ok. rewrite forallb_forall, Forall_forall. split; intros H x Hx; apply is_byte_spec, H, Hx.
Qed.

Lemma encode_length c t v : has_type v t = true -> length (encode c t v) = fsize t.
Proof.
  destruct t as [k s n| |w|k n], v as [z|b|w' z|bs]; simpl; intros H; try discriminate; try reflexivity.
  - rewrite order_length. apply bytes_le_length.
  - rewrite order_length. apply bytes_le_length.
  - apply andb_true_iff in H as [H _]. apply Nat.eqb_eq in H. exact H.
Qed.

Lemma encode_ok c t v : has_type v t = true -> bytes_ok (encode c t v).
Proof.
  destruct t as [k s n| |w|k n], v as [z|b|w' z|bs]; simpl; intros H; try discriminate.
  - apply order_ok, bytes_le_ok.
  - repeat constructor; destruct b; lia.
  - apply order_ok, bytes_le_ok.
  - apply andb_true_iff in H as [_ H]. apply forallb_bytes, H.
Qed.

Lemma of_bytes_le_bytes_le n : forall z, of_bytes_le (bytes_le n z) = z mod 2 ^ (8 * Z.of_nat n).
Proof.
  induction n as [|n IH]; intros z.
  - change (2 ^ (8 * Z.of_nat 0)) with 1. rewrite Z.mod_1_r. reflexivity.
  - cbn [bytes_le of_bytes_le]. rewrite IH.
    replace (8 * Z.of_nat (S n)) with (8 + 8 * Z.of_nat n) by lia.
    rewrite Z.pow_add_r by lia. change (2 ^ 8) with 256.
    assert (0 < 2 ^ (8 * Z.of_nat n)) by (apply Z.pow_pos_nonneg; lia).
    rewrite (Z.rem_mul_r z 256) by lia. reflexivity.
Qed.

Lemma of_bytes_le_range bs : bytes_ok bs -> 0 <= of_bytes_le bs < 2 ^ (8 * zlen bs).
Proof.
  induction bs as [|b bs IH]; intros H.
  - simpl. unfold zlen. simpl. lia.
  - inversion H as [|? ? H1 H2]; subst. specialize (IH H2). cbn [of_bytes_le].
    rewrite zlen_cons. replace (8 * (1 + zlen bs)) with (8 + 8 * zlen bs) by lia.
    pose proof (zlen_nonneg bs). rewrite Z.pow_add_r by lia. change (2 ^ 8) with 256. lia.
Qed.

Lemma bytes_le_of_bytes_le bs : bytes_ok bs -> bytes_le (length bs) (of_bytes_le bs) = bs.
Proof.
  induction bs as [|b bs IH]; intros H; [reflexivity|].
  inversion H as [|? ? H1 H2]; subst. cbn [length of_bytes_le bytes_le].
  replace ((b + 256 * of_bytes_le bs) mod 256) with b.
  2:{ rewrite Z.mul_comm, Z.mod_add by lia. symmetry. apply Z.mod_small. lia. }
  replace ((b + 256 * of_bytes_le bs) / 256) with (of_bytes_le bs).
  2:{ rewrite Z.mul_comm, Z.div_add by lia. rewrite Z.div_small by lia. reflexivity. }
  rewrite IH by assumption. reflexivity.
Qed.

Lemma bytes_le_mod n : forall z k, bytes_le n (z + k * 2 ^ (8 * Z.of_nat n)) = bytes_le n z.
Proof.
  induction n as [|n IH]; intros z k; [reflexivity|].
  cbn [bytes_le]. replace (8 * Z.of_nat (S n)) with (8 * Z.of_nat n + 8) by lia.
  rewrite Z.pow_add_r by lia. change (2 ^ 8) with 256. rewrite Z.mul_assoc. f_equal.
  - apply Z.mod_add. lia.
  - rewrite Z.div_add by lia. apply IH.
Qed.

Lemma pow8_half n : (0 < n)%nat -> 2 ^ (8 * Z.of_nat n) = 2 * 2 ^ (8 * Z.of_nat n - 1).
Proof.
  intros H. rewrite <- Z.pow_succ_r by lia. f_equal. lia.
Qed.

Lemma decode_encode c t v : fty_ok t -> has_type v t = true -> decode c t (encode c t v) = Some v.
Proof.
  unfold fty_ok. destruct t as [k s n| |w|k n], v as [z|b|w' z|bs]; cbn [fsize has_type encode decode]; intros H0 H; try discriminate; try reflexivity.
  - rewrite order_order, of_bytes_le_bytes_le. unfold int_in_range in H.
    assert (0 < 2 ^ (8 * Z.of_nat n - 1)) by (apply Z.pow_pos_nonneg; lia).
    rewrite (pow8_half n H0) in *. set (h := 2 ^ (8 * Z.of_nat n - 1)) in *.
    do 2 f_equal. destruct s; cbn [andb].
    + apply andb_true_iff in H as [Hlo Hhi]. apply Z.leb_le in Hlo. apply Z.ltb_lt in Hhi.
      destruct (Z_le_gt_dec 0 z).
      * rewrite Z.mod_small by lia. rewrite (proj2 (Z.leb_gt h z)) by lia. reflexivity.
      * assert (z mod (2 * h) = z + 2 * h) as ->.
        { symmetry. apply (Z.mod_unique_pos _ _ (-1)); lia. }
        rewrite (proj2 (Z.leb_le h (z + 2 * h))) by lia. lia.
    + apply andb_true_iff in H as [Hlo Hhi]. apply Z.leb_le in Hlo. apply Z.ltb_lt in Hhi.
      apply Z.mod_small. lia.
  - destruct b; reflexivity.
  - apply andb_true_iff in H as [HW H]. apply eqb_prop in HW as <-.
    rewrite order_order, of_bytes_le_bytes_le. unfold int_in_range in H.
    apply andb_true_iff in H as [Hlo Hhi]. apply Z.leb_le in Hlo. apply Z.ltb_lt in Hhi.
    rewrite Z.mod_small by lia. reflexivity.
Qed.

Lemma encode_decode c t bs v : fty_ok t -> bytes_ok bs -> length bs = fsize t ->
  decode c t bs = Some v -> has_type v t = true /\ encode c t v = bs.
Proof.
  unfold fty_ok. destruct t as [k s n| |w|k n]; cbn [fsize has_type encode decode]; intros H0 HB HL H.
  - match type of H with Some ?x = Some _ => assert (x = v) by congruence end. subst v. clear H.
    cbv zeta. cbn [has_type encode]. pose proof (of_bytes_le_range (order c bs) (order_ok c bs HB)) as HR.
    assert (zlen (order c bs) = Z.of_nat n) as HZ. { unfold zlen. rewrite order_length. lia. }
    rewrite HZ in HR.
    assert (bytes_le n (of_bytes_le (order c bs)) = order c bs) as HE.
    { replace n with (length (order c bs)) by (rewrite order_length; assumption).
      apply bytes_le_of_bytes_le, order_ok, HB. }
    set (u := of_bytes_le (order c bs)) in *.
    pose proof (pow8_half n H0) as HH. set (h := 2 ^ (8 * Z.of_nat n - 1)) in *.
    set (q := 2 ^ (8 * Z.of_nat n)) in *. unfold int_in_range. fold q. fold h.
    destruct s; cbn [andb].
    + destruct (Z.leb_spec h u).
      * split.
        -- apply andb_true_iff. rewrite Z.leb_le, Z.ltb_lt. lia.
        -- replace (u - q) with (u + (-1) * q) by lia. unfold q. rewrite bytes_le_mod, HE. apply order_order.
      * split.
        -- apply andb_true_iff. rewrite Z.leb_le, Z.ltb_lt. lia.
        -- rewrite HE. apply order_order.
    + split.
      * apply andb_true_iff. rewrite Z.leb_le, Z.ltb_lt. lia.
      * rewrite HE. apply order_order.
  - destruct bs as [|b [|]]; try discriminate. destruct b as [|[| |]|]; try discriminate; injection H as <-; auto.
  - match type of H with Some ?x = Some _ => assert (x = v) by congruence end. subst v. clear H.
    pose proof (of_bytes_le_range (order c bs) (order_ok c bs HB)) as HR.
    assert (zlen (order c bs) = Z.of_nat (float_bytes w)) as HZ. { unfold zlen. rewrite order_length. lia. }
    rewrite HZ in HR. cbn [has_type encode]. split.
    + rewrite eqb_reflx. unfold int_in_range. cbn [andb]. apply andb_true_iff. rewrite Z.leb_le, Z.ltb_lt. assumption.
    + replace (float_bytes w) with (length (order c bs)) by (rewrite order_length; assumption).
      rewrite bytes_le_of_bytes_le by (apply order_ok, HB). apply order_order.
  - injection H as <-. cbn [has_type encode]. split; [|reflexivity]. apply andb_true_iff. split.
    + apply Nat.eqb_eq. assumption.
    + apply forallb_bytes. assumption.
Qed.

(** Every representation decodes, except for bool. *)
Lemma decode_total c t bs : t <> TBool -> exists v, decode c t bs = Some v.
Proof. destruct t as [k s n| |w|k n]; intros H; try congruence; simpl; eauto. Qed.

(** ** Tuples *)

Lemma has_types_length vs : forall ts, has_types vs ts = true -> length vs = length ts.
Proof.
  induction vs as [|v vs IH]; intros [|t ts] H; simpl in *; try discriminate; [reflexivity|].
  apply andb_true_iff in H as [_ H]. f_equal. apply IH, H.
Qed.

Lemma spec_payload_cons l t ts v vs :
  spec_payload l (t :: ts) (v :: vs) = spec_rep l t v ++ spec_payload l ts vs.
Proof. reflexivity. Qed.

Lemma spec_payload_length c ts : forall vs, has_types vs ts = true ->
  length (spec_payload (little c) ts vs) = list_sum (map fsize ts).
Proof.
  induction ts as [|t ts IH]; intros [|v vs] H; simpl in H; try discriminate; [reflexivity|].
  apply andb_true_iff in H as [H1 H2]. rewrite spec_payload_cons, app_length, (IH vs H2).
  rewrite <- encode_spec, (encode_length c t v H1). reflexivity.
Qed.

Lemma spec_payload_ok c ts : forall vs, has_types vs ts = true ->
  bytes_ok (spec_payload (little c) ts vs).
Proof.
  induction ts as [|t ts IH]; intros [|v vs] H; simpl in H; try discriminate; [constructor|].
  apply andb_true_iff in H as [H1 H2]. rewrite spec_payload_cons. apply Forall_app. split; [|apply IH, H2].
  rewrite <- encode_spec. apply encode_ok, H1.
Qed.

Lemma unbuffer_at c cap A bs B t :
  zlen A + zlen bs + zlen B = cap -> length bs = fsize t ->
  unbuffer c cap (A ++ bs ++ B) t (zlen A) = match decode c t bs with Some v => Ok v | None => UB end.
Proof.
  intros Hc HL. unfold unbuffer. pose proof (zlen_nonneg A). pose proof (zlen_nonneg B).
  assert (Z.of_nat (fsize t) = zlen bs) as -> by (unfold zlen; lia).
  pose proof (zlen_nonneg bs).
  rewrite range_ok_true by lia. rewrite arr_slice_mid by lia. reflexivity.
Qed.

Lemma deserialize_encodes c cap ts : Forall fty_ok ts -> forall vs A B acc bs,
  encodes (little c) ts vs bs -> zlen A + zlen bs + zlen B = cap ->
  deserialize c cap (A ++ bs ++ B) ts (zlen A) acc = Ok (acc ++ vs).
Proof.
  induction 1 as [|t ts Ht Hts IH]; intros [|v vs] A B acc bs [H E] Hc; simpl in H; try discriminate.
  - simpl. rewrite app_nil_r. reflexivity.
  - apply andb_true_iff in H as [H1 H2]. cbn [deserialize].
    rewrite spec_payload_cons, <- encode_spec in E. subst bs. rewrite zlen_app in Hc.
    pose proof (encode_length c t v H1) as HL.
    rewrite <- app_assoc. rewrite unbuffer_at by (rewrite ?zlen_app; try lia; assumption).
    rewrite decode_encode by assumption. cbn [bind].
    replace (zlen A + Z.of_nat (fsize t)) with (zlen (A ++ encode c t v))
      by (rewrite zlen_app; unfold zlen; lia).
    rewrite app_assoc. rewrite (IH vs (A ++ encode c t v) B (acc ++ [v]) (spec_payload (little c) ts vs)).
    + rewrite <- app_assoc. reflexivity.
    + split; [assumption | reflexivity].
    + rewrite zlen_app. lia.
Qed.

Lemma deserialize_ok_inv c cap ts : Forall fty_ok ts -> forall A B acc bs vs',
  bytes_ok bs -> length bs = list_sum (map fsize ts) -> zlen A + zlen bs + zlen B = cap ->
  deserialize c cap (A ++ bs ++ B) ts (zlen A) acc = Ok vs' ->
  exists vs, vs' = acc ++ vs /\ encodes (little c) ts vs bs.
Proof.
  induction 1 as [|t ts Ht Hts IH]; intros A B acc bs vs' HB HL Hc H.
  - destruct bs; [|discriminate HL]. simpl in H. injection H as <-. exists []. rewrite app_nil_r.
    split; [reflexivity|]. split; reflexivity.
  - cbn [deserialize] in H. change (list_sum (map fsize (t :: ts))) with (fsize t + list_sum (map fsize ts))%nat in HL.
    destruct (split_at bs (Z.of_nat (fsize t))) as (b1 & b2 & -> & Hb1); [unfold zlen; lia|].
    assert (length b1 = fsize t) as Hb1' by (unfold zlen in Hb1; lia).
    rewrite app_length in HL. rewrite zlen_app in Hc. apply Forall_app in HB as [HB1 HB2].
    rewrite <- app_assoc in H. rewrite unbuffer_at in H by (rewrite ?zlen_app; try lia; assumption).
    destruct (decode c t b1) as [v|] eqn:D; [|discriminate]. cbn [bind] in H.
    destruct (encode_decode c t b1 v Ht HB1 Hb1' D) as [Hv Ev].
    replace (zlen A + Z.of_nat (fsize t)) with (zlen (A ++ b1)) in H by (rewrite zlen_app; lia).
    rewrite app_assoc in H.
    destruct (IH (A ++ b1) B (acc ++ [v]) b2 vs' HB2) as (vs & -> & [H1 H2]); auto.
    + lia.
    + rewrite zlen_app. lia.
    + exists (v :: vs). rewrite <- app_assoc. split; [reflexivity|]. split.
      * simpl. rewrite Hv, H1. reflexivity.
      * rewrite spec_payload_cons, H2, <- encode_spec, Ev. reflexivity.
Qed.

Lemma deserialize_total c cap ts : Forall (fun t => t <> TBool) ts -> forall A B acc bs,
  length bs = list_sum (map fsize ts) -> zlen A + zlen bs + zlen B = cap ->
  exists vs', deserialize c cap (A ++ bs ++ B) ts (zlen A) acc = Ok vs'.
Proof.
  induction 1 as [|t ts Ht Hts IH]; intros A B acc bs HL Hc.
  - simpl. eauto.
  - cbn [deserialize]. change (list_sum (map fsize (t :: ts))) with (fsize t + list_sum (map fsize ts))%nat in HL.
    destruct (split_at bs (Z.of_nat (fsize t))) as (b1 & b2 & -> & Hb1); [unfold zlen; lia|].
    assert (length b1 = fsize t) as Hb1' by (unfold zlen in Hb1; lia).
    rewrite app_length in HL. rewrite zlen_app in Hc.
    rewrite <- app_assoc. rewrite unbuffer_at by (rewrite ?zlen_app; try lia; assumption).
    destruct (decode_total c t b1 Ht) as (v & ->). cbn [bind].
    replace (zlen A + Z.of_nat (fsize t)) with (zlen (A ++ b1)) by (rewrite zlen_app; lia).
    rewrite app_assoc. apply IH.
    + lia.
    + rewrite zlen_app. lia.
Qed.

Lemma encodes_unique c ts vs vs' bs : Forall fty_ok ts ->
  encodes (little c) ts vs bs -> encodes (little c) ts vs' bs -> vs = vs'.
Proof.
  intros Hts H1 H2.
  pose proof (deserialize_encodes c (zlen bs) ts Hts vs [] [] [] bs H1) as E1.
  pose proof (deserialize_encodes c (zlen bs) ts Hts vs' [] [] [] bs H2) as E2.
  change (zlen (@nil Z)) with 0 in *. rewrite E1 in E2 by lia. specialize (E2 ltac:(lia)).
  injection E2. auto.
Qed.

(** Bool-free field lists: every byte string of the right length is a payload. *)
Lemma encodes_total c ts bs : Forall fty_ok ts -> Forall (fun t => t <> TBool) ts ->
  bytes_ok bs -> length bs = list_sum (map fsize ts) -> exists vs, encodes (little c) ts vs bs.
Proof.
  intros Hts Hnb HB HL.
  destruct (deserialize_total c (zlen bs) ts Hnb [] [] [] bs HL) as (vs' & H).
  { change (zlen (@nil Z)) with 0. lia. }
  apply deserialize_ok_inv in H; auto.
  - destruct H as (vs & _ & H). eauto.
  - change (zlen (@nil Z)) with 0. lia.
Qed.

Lemma static_fields_ok coll m : static_ok coll = true -> In m (mc_types coll) -> Forall fty_ok (mt_fields m).
Proof.
  unfold static_ok. rewrite !andb_true_iff. intros [[_ H] _] Hin.
  rewrite forallb_forall in H. specialize (H m Hin). rewrite forallb_forall in H.
  apply Forall_forall. intros t Ht. specialize (H t Ht). apply Z.leb_le in H. unfold fty_ok. lia.
Qed.
