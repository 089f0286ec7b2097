(** Transmission errors and the checksum: bursts of bits, pairs of bits, how many payloads pass. *)
From Coq Require Import FinFun.
From Verif Require Export RelayLemmas SpecErrors.

(** ** A string of the length of a frame that is no frame *)
Lemma altered_dead coll m g s : length g = frame_size (mc_env coll) m ->
  (forall m2, has_id coll m2 (nth 1 g 0) -> payload_size m2 = payload_size m) ->
  (forall m' id' p', ~ is_frame coll g m' id' p') -> dead coll (g ++ s).
Proof.
  intros HL Hsz HN. pose proof (frame_size_ge5 (mc_env coll) m) as H5.
  destruct g as [|g0 [|g1 [|g2 t]]]; cbn [length] in HL; try lia. cbn [nth] in Hsz. cbn [app].
  destruct (Z.eq_dec g0 1) as [->|H1]; [|apply not_soh_dead; assumption].
  split.
  - intros U. apply undecided_long in U as (_ & _ & m2 & Hm2 & Hlt). specialize (Hsz m2 Hm2).
    cbn [length] in Hlt. rewrite app_length in Hlt. unfold frame_size in *. rewrite Hsz in Hlt. destruct (mc_env coll); lia.
  - intros f2 m2 i2 p2 s2 F2 EE. destruct (is_frame_head _ _ _ _ _ F2) as (t3 & Ef2).
    assert (i2 = g1) as ->. { rewrite Ef2 in EE. cbn [app] in EE. congruence. }
    pose proof (is_frame_length _ _ _ _ _ F2) as HL2. pose proof (Hsz m2 (proj1 F2)) as Hp.
    assert (length f2 = length (1 :: g1 :: g2 :: t)) as HLe.
    { rewrite HL2. cbn [length]. unfold frame_size in *. rewrite Hp. destruct (mc_env coll); lia. }
    change (1 :: g1 :: g2 :: t ++ s) with ((1 :: g1 :: g2 :: t) ++ s) in EE.
    destruct (app_eq_len _ _ _ _ EE (eq_sym HLe)) as (Ef3 & _). rewrite <- Ef3 in F2. exact (HN _ _ _ F2).
Qed.

(** ** Bursts *)
Lemma multiple_small P d q : 0 < P -> d = P * q -> - P < d < P -> d = 0.
Proof.
  intros Hp E H. destruct (Z.lt_trichotomy q 0) as [Hq|[->|Hq]]; [|lia|].
  - assert (P * q <= P * -1) by (apply Z.mul_le_mono_nonneg_l; lia). lia.
  - assert (P * 1 <= P * q) by (apply Z.mul_le_mono_nonneg_l; lia). lia.
Qed.

Lemma burst_arith P R q u u' v v' a a' m b n n' : 0 < P -> 256 = P * R ->
  u = P * a + m -> u' = P * a' + m -> v = P * b + n -> v' = P * b + n' -> 0 <= n < P -> 0 <= n' < P ->
  0 <= u < 256 -> 0 <= u' < 256 -> (u' - u) + (v' - v) = 256 * q -> u' = u /\ v' = v.
Proof.
  intros Hp HR Eu Eu' Ev Ev' Hn Hn' Hu Hu' E.
  assert (n' - n = 0) as E0.
  { apply (multiple_small P _ (R * q - (a' - a))); [assumption | | lia].
    rewrite Z.mul_sub_distr_l, Z.mul_assoc, <- HR, Z.mul_sub_distr_l. lia. }
  assert (u' - u = 0) as E1 by (apply (multiple_small 256 _ q); lia). lia.
Qed.

Lemma last_two {A} (b : list A) : b = [] \/ (exists z, b = [z]) \/ exists b' k e, b = b' ++ [k; e].
Proof.
  induction b as [|z b IH]; [auto|]. right. destruct IH as [->|[(z' & ->)|(b' & k & e & ->)]].
  - left. eauto.
  - right. exists [], z, z'. reflexivity.
  - right. exists (z :: b'), k, e. reflexivity.
Qed.

Lemma burst_sum x y x' y' : byte x -> byte y -> byte x' -> byte y' -> burst x y x' y' ->
  (x' + y') mod 256 = (x + y) mod 256 -> x' = x /\ y' = y.
Proof.
  unfold byte. intros Hx Hy Hx' Hy' (n & Hn & HB) E.
  assert (exists q, (x' - x) + (y' - y) = 256 * q) as (q & Hq).
  { exists ((x' + y') / 256 - (x + y) / 256).
    pose proof (Z.div_mod (x' + y') 256 ltac:(discriminate)). pose proof (Z.div_mod (x + y) 256 ltac:(discriminate)). lia. }
  clear E. assert (256 = 2 ^ n * 2 ^ (8 - n)) as H256 by (rewrite <- Z.pow_add_r by lia; replace (n + (8 - n)) with 8 by lia; reflexivity).
  assert (0 < 2 ^ n) as Hp by (apply Z.pow_pos_nonneg; lia).
  revert H256 Hp HB. generalize (2 ^ n), (2 ^ (8 - n)). intros P R H256 Hp HB.
  assert (P <> 0) as Hp0 by lia.
  destruct HB as [(E1 & E2)|(E1 & E2)].
  - apply (burst_arith P R q x x' y y' (x / P) (x' / P) (x mod P) (y / P) (y mod P) (y' mod P)); try assumption;
      first [apply Z.mod_pos_bound, Hp | apply Z.div_mod, Hp0 | rewrite E1; apply Z.div_mod, Hp0 | rewrite E2; apply Z.div_mod, Hp0].
  - enough (y' = y /\ x' = x) by tauto.
    apply (burst_arith P R q y y' x x' (y / P) (y' / P) (y mod P) (x / P) (x mod P) (x' mod P)); try assumption; try lia;
      first [apply Z.mod_pos_bound, Hp | apply Z.div_mod, Hp0 | rewrite E1; apply Z.div_mod, Hp0 | rewrite E2; apply Z.div_mod, Hp0].
Qed.

Lemma burst_not_frame id p id' p' a x y x' y' b :
  length p = length p' -> byte x -> byte y -> byte x' -> byte y' -> burst x y x' y' ->
  spec_frame BasicChecksum id p = a ++ x :: y :: b -> spec_frame BasicChecksum id' p' = a ++ x' :: y' :: b ->
  x' = x /\ y' = y.
Proof.
  intros HL Hx Hy Hx' Hy' HB E E'. unfold spec_frame in *.
  set (h := [1; id; 2] ++ p ++ [3]) in *. set (h' := [1; id'; 2] ++ p' ++ [3]) in *.
  assert (length h = length h') as Hh by (subst h h'; rewrite !app_length; cbn [length]; lia).
  destruct (last_two b) as [->|[(b0 & ->)|(t & k & e & ->)]].
  - (* checksum byte and EOT *)
    assert (h = a /\ [zsum h mod 256; 4] = [x; y]) as (H & E1).
    { apply app_eq_len; [exact E|]. apply (f_equal (@length Z)) in E. rewrite !app_length in E. cbn [length] in E. lia. }
    assert (h' = a /\ [zsum h' mod 256; 4] = [x'; y']) as (H' & E1').
    { apply app_eq_len; [exact E'|]. rewrite <- Hh, H. reflexivity. }
    rewrite H in E1. rewrite H' in E1'. split; congruence.
  - (* ETX and checksum byte *)
    assert (h = a ++ [x] /\ [zsum h mod 256; 4] = [y; b0]) as (H & E1).
    { apply app_eq_len; [rewrite <- app_assoc; exact E|]. apply (f_equal (@length Z)) in E. rewrite !app_length in *. cbn [length] in *. lia. }
    assert (h' = a ++ [x'] /\ [zsum h' mod 256; 4] = [y'; b0]) as (H' & E1').
    { apply app_eq_len; [rewrite <- app_assoc; exact E'|]. rewrite <- Hh, H, !app_length. reflexivity. }
    assert (x' = x) as ->.
    { unfold h, h' in H, H'. rewrite app_assoc in H, H'. apply app_inj_tail in H as (_ & <-). apply app_inj_tail in H' as (_ & <-). reflexivity. }
    split; [reflexivity|]. rewrite H in E1. rewrite H' in E1'. congruence.
  - assert (h = a ++ x :: y :: t /\ [zsum h mod 256; 4] = [k; e]) as (H & E1).
    { apply app_eq_len; [rewrite <- app_assoc; exact E|]. apply (f_equal (@length Z)) in E. rewrite !app_length in *. cbn [length] in *.
      rewrite app_length in E. cbn [length] in E. lia. }
    assert (h' = a ++ x' :: y' :: t /\ [zsum h' mod 256; 4] = [k; e]) as (H' & E1').
    { apply app_eq_len; [rewrite <- app_assoc; exact E'|]. rewrite <- Hh, H, !app_length. reflexivity. }
    apply burst_sum; auto.
    assert (zsum h' mod 256 = zsum h mod 256) as Ez by congruence. rewrite H, H', !zsum_app in Ez. cbn [zsum fold_right] in Ez.
    change (fold_right Z.add 0 t) with (zsum t) in Ez.
    replace (x' + y') with (zsum a + (x' + (y' + zsum t)) - (zsum a + zsum t)) by lia.
    replace (x + y) with (zsum a + (x + (y + zsum t)) - (zsum a + zsum t)) by lia.
    rewrite Zminus_mod, Ez, <- Zminus_mod. reflexivity.
Qed.

(** ** Two bits *)
Lemma all_bytes (P : Z -> bool) : forallb P (map Z.of_nat (seq 0 256)) = true -> forall x, byte x -> P x = true.
Proof.
  intros H x Hx. rewrite forallb_forall in H. apply H. apply in_map_iff. exists (Z.to_nat x). unfold byte in Hx.
  split; [lia|]. apply in_seq. lia.
Qed.

Lemma flip_value x i : byte x -> 0 <= i < 8 -> flip x i = if Z.testbit x i then x - 2 ^ i else x + 2 ^ i.
Proof.
  intros Hx Hi.
  assert (forallb (fun x => forallb (fun i => flip x i =? if Z.testbit x i then x - 2 ^ i else x + 2 ^ i) [0;1;2;3;4;5;6;7])
            (map Z.of_nat (seq 0 256)) = true) as H by (vm_compute; reflexivity).
  pose proof (all_bytes _ H x Hx) as H1. cbv beta in H1. rewrite forallb_forall in H1. apply Z.eqb_eq, H1. cbn [In]. lia.
Qed.

Lemma bits_cancel i j (u v : bool) : 0 <= i < 8 -> 0 <= j < 8 ->
  (((if u then - 2 ^ i else 2 ^ i) + (if v then - 2 ^ j else 2 ^ j)) mod 256 = 0 <-> i = j /\ (i = 7 \/ u <> v)).
Proof.
  intros Hi Hj.
  assert (forallb (fun i => forallb (fun j => forallb (fun u : bool => forallb (fun v : bool =>
     Bool.eqb (((if u then - 2 ^ i else 2 ^ i) + (if v then - 2 ^ j else 2 ^ j)) mod 256 =? 0)
              ((i =? j) && ((i =? 7) || xorb u v))) [true; false]) [true; false]) [0;1;2;3;4;5;6;7]) [0;1;2;3;4;5;6;7] = true) as H
    by (vm_compute; reflexivity).
  rewrite forallb_forall in H. specialize (H i ltac:(cbn [In]; lia)). rewrite forallb_forall in H. specialize (H j ltac:(cbn [In]; lia)).
  rewrite forallb_forall in H. specialize (H u ltac:(destruct u; cbn [In]; auto)). rewrite forallb_forall in H.
  specialize (H v ltac:(destruct v; cbn [In]; auto)). apply Bool.eqb_prop in H.
  rewrite <- Z.eqb_eq, H, andb_true_iff, orb_true_iff, !Z.eqb_eq. destruct u, v; cbn [xorb]; intuition congruence.
Qed.

Lemma zsum_two a x b y d : zsum (a ++ x :: b ++ y :: d) = zsum a + zsum b + zsum d + x + y.
Proof.
  rewrite zsum_app. change (zsum (x :: b ++ y :: d)) with (x + zsum (b ++ y :: d)). rewrite zsum_app.
  change (zsum (y :: d)) with (y + zsum d). lia.
Qed.

Lemma mod_eq_diff a b : a mod 256 = b mod 256 <-> (a - b) mod 256 = 0.
Proof.
  split; intros H.
  - rewrite Zminus_mod, H, Z.sub_diag. reflexivity.
  - replace a with (b + (a - b)) by lia. rewrite Zplus_mod, H, Z.add_0_r, Zmod_mod. reflexivity.
Qed.

Lemma two_bits_sum id a x b y d i j : byte x -> byte y -> 0 <= i < 8 -> 0 <= j < 8 ->
  ((id + zsum (a ++ flip x i :: b ++ flip y j :: d) + 6) mod 256 = (id + zsum (a ++ x :: b ++ y :: d) + 6) mod 256
   <-> i = j /\ (i = 7 \/ Z.testbit x i <> Z.testbit y j)).
Proof.
  intros Hx Hy Hi Hj. rewrite mod_eq_diff, <- bits_cancel by assumption. rewrite !zsum_two, !flip_value by assumption.
  match goal with |- ?A mod 256 = 0 <-> ?B mod 256 = 0 => replace A with B; [reflexivity|] end.
  destruct (Z.testbit x i), (Z.testbit y j); lia.
Qed.

Lemma payload_and_sum_bits id a x d i j k : byte x -> byte k -> k = (id + zsum (a ++ x :: d) + 6) mod 256 -> 0 <= i < 8 -> 0 <= j < 8 ->
  ((id + zsum (a ++ flip x i :: d) + 6) mod 256 = flip k j <-> i = j /\ (i = 7 \/ Z.testbit x i = Z.testbit k j)).
Proof.
  intros Hx Hk Ek Hi Hj.
  assert (flip k j mod 256 = flip k j) as Hfk.
  { assert (forallb (fun x => forallb (fun i => flip x i mod 256 =? flip x i) [0;1;2;3;4;5;6;7]) (map Z.of_nat (seq 0 256)) = true) as H
      by (vm_compute; reflexivity).
    pose proof (all_bytes _ H k Hk) as H1. cbv beta in H1. rewrite forallb_forall in H1. apply Z.eqb_eq, H1. cbn [In]. lia. }
  rewrite <- Hfk at 1. rewrite mod_eq_diff.
  assert (forall z, zsum (a ++ z :: d) = zsum a + zsum d + z) as HZ.
  { intros z. rewrite zsum_app. change (zsum (z :: d)) with (z + zsum d). lia. }
  rewrite HZ in *. rewrite !flip_value by assumption.
  pose proof (bits_cancel i j (Z.testbit x i) (negb (Z.testbit k j)) Hi Hj) as HC.
  assert (exists q, id + (zsum a + zsum d + x) + 6 = k + q * 256) as (q & Hq).
  { exists ((id + (zsum a + zsum d + x) + 6) / 256). rewrite Ek. pose proof (Z.div_mod (id + (zsum a + zsum d + x) + 6) 256). lia. }
  transitivity (i = j /\ (i = 7 \/ Z.testbit x i <> negb (Z.testbit k j))).
  - rewrite <- HC. clear HC.
    match goal with |- ?A mod 256 = 0 <-> ?B mod 256 = 0 => replace A with (B + q * 256) end.
    + rewrite Z_mod_plus_full. reflexivity.
    + destruct (Z.testbit x i), (Z.testbit k j); cbn [negb]; lia.
  - destruct (Z.testbit x i), (Z.testbit k j); cbn [negb]; intuition congruence.
Qed.

(** ** How many payloads pass *)
Fixpoint payloads (n : nat) : list (list Z) :=
  match n with
  | O => [[]]
  | S n => flat_map (fun b => map (cons b) (payloads n)) (map Z.of_nat (seq 0 256))
  end.

Lemma payloads_in n : forall p, In p (payloads n) <-> length p = n /\ bytes_ok p.
Proof.
  induction n as [|n IH]; intros p; cbn [payloads].
  - cbn [In]. split; [intros [<-|[]]; split; [reflexivity | constructor]|]. intros (H & _). left. destruct p; [reflexivity|discriminate].
  - rewrite in_flat_map. split.
    + intros (b & Hb & Hp). apply in_map_iff in Hb as (k & <- & Hk). apply in_seq in Hk. apply in_map_iff in Hp as (q & <- & Hq).
      apply IH in Hq as (H1 & H2). cbn [length]. split; [lia|]. constructor; [lia | assumption].
    + intros (HL & HB). destruct p as [|b p]; [discriminate|]. injection HL as HL. pose proof (Forall_inv HB) as Hb. cbv beta in Hb. apply Forall_inv_tail in HB.
      exists b. split; [apply in_map_iff; exists (Z.to_nat b); split; [lia | apply in_seq; lia]|]. apply in_map. apply IH. auto.
Qed.

Lemma nodup_app {A} (l k : list A) : NoDup l -> NoDup k -> (forall x, In x l -> ~ In x k) -> NoDup (l ++ k).
Proof.
  induction 1 as [|x l Hx Hl IH]; intros Hk H; [assumption|]. cbn [app]. constructor.
  - rewrite in_app_iff. intros [HI|HI]; [contradiction | exact (H x (or_introl eq_refl) HI)].
  - apply IH; [assumption|]. intros y Hy. apply H. right. assumption.
Qed.

Lemma payloads_nodup n : NoDup (payloads n).
Proof.
  induction n as [|n IH]; cbn [payloads]; [constructor; [intros []|constructor]|].
  assert (forall L, NoDup L -> NoDup (flat_map (fun b : Z => map (cons b) (payloads n)) L)) as H.
  { induction 1 as [|b L Hb HL IH2]; cbn [flat_map]; [constructor|].
    assert (NoDup (map (cons b) (payloads n))) as H1.
    { apply Injective_map_NoDup; [|assumption]. intros u v E. congruence. }
    apply nodup_app; auto. intros u Hu Hv. apply in_map_iff in Hu as (u' & <- & _). apply in_flat_map in Hv as (b' & Hb' & Hv).
    apply in_map_iff in Hv as (v' & E & _). assert (b' = b) as -> by congruence. contradiction. }
  apply H. apply Injective_map_NoDup; [intros u v; apply Nat2Z.inj | apply seq_NoDup].
Qed.

Definition summing (n : nat) (k : Z) : list (list Z) := filter (fun p => zsum p mod 256 =? k mod 256) (payloads n).

Lemma filter_flat_map {A B} (f : B -> bool) (g : A -> list B) l : filter f (flat_map g l) = flat_map (fun x => filter f (g x)) l.
Proof. induction l as [|x l IH]; [reflexivity|]. cbn [flat_map]. rewrite filter_app, IH. reflexivity. Qed.

Lemma summing_S n k : summing (S n) k = flat_map (fun b => map (cons b) (summing n (k - b))) (map Z.of_nat (seq 0 256)).
Proof.
  unfold summing. cbn [payloads]. rewrite filter_flat_map. apply flat_map_ext. intros b.
  induction (payloads n) as [|p l IH]; [reflexivity|]. cbn [map filter].
  change (zsum (b :: p)) with (b + zsum p).
  assert (((b + zsum p) mod 256 =? k mod 256) = (zsum p mod 256 =? (k - b) mod 256)) as ->.
  { apply Bool.eq_iff_eq_true. rewrite !Z.eqb_eq, !mod_eq_diff. replace (b + zsum p - k) with (zsum p - (k - b)) by lia. reflexivity. }
  destruct (zsum p mod 256 =? (k - b) mod 256); cbn [map]; rewrite IH; reflexivity.
Qed.

Lemma flat_map_constant_length {A B} (g : A -> list B) n l : (forall x, In x l -> zlen (g x) = n) ->
  zlen (flat_map g l) = zlen l * n.
Proof.
  induction l as [|x l IH]; intros H; [reflexivity|]. cbn [flat_map]. rewrite zlen_app, IH, zlen_cons, (H x (or_introl eq_refl)).
  - lia.
  - intros y Hy. apply H. right. assumption.
Qed.

Lemma summing_0 k : summing 0 k = if 0 =? k mod 256 then [[]] else [].
Proof. unfold summing. cbn [payloads filter zsum fold_right]. rewrite Zmod_0_l. reflexivity. Qed.

Lemma summing_count n : forall k, zlen (summing (S n) k) = 256 ^ Z.of_nat n.
Proof.
  induction n as [|n IH]; intros k; rewrite summing_S.
  - change (256 ^ Z.of_nat 0) with 1.
    assert (forall j, 0 <= j < 256 -> zlen (flat_map (fun b => map (cons b) (summing 0 (j - b))) (map Z.of_nat (seq 0 256))) = 1) as H.
    { assert (forallb (fun j => zlen (flat_map (fun b => map (cons b) (if 0 =? (j - b) mod 256 then [[]] else [])) (map Z.of_nat (seq 0 256))) =? 1)
                (map Z.of_nat (seq 0 256)) = true) as HF by (vm_compute; reflexivity).
      intros j Hj. apply Z.eqb_eq. rewrite <- (all_bytes _ HF j Hj). cbv beta. f_equal. }
    rewrite <- (H (k mod 256) (Z.mod_pos_bound k 256 eq_refl)). f_equal. apply flat_map_ext. intros b. rewrite !summing_0, Zminus_mod_idemp_l. reflexivity.
  - rewrite (flat_map_constant_length _ (256 ^ Z.of_nat n)).
    + unfold zlen. rewrite map_length, seq_length, (Nat2Z.inj_succ n), Z.pow_succ_r by lia. reflexivity.
    + intros b _. unfold zlen. rewrite map_length. apply IH.
Qed.

Lemma one_in_256_lemma coll m id n k : mc_env coll = BasicChecksum -> has_id coll m id ->
  payload_size m = S n -> 0 <= k < 256 ->
  exists L, NoDup L
    /\ (forall p, In p L <-> bytes_ok p /\ is_frame coll ([1; id; 2] ++ p ++ [3; k; 4]) m id p)
    /\ zlen L = 256 ^ Z.of_nat n.
Proof.
  intros He Hid Hn Hk. exists (summing (S n) (k - id - 6)). split; [|split].
  - apply NoDup_filter, payloads_nodup.
  - intros p. unfold summing. rewrite filter_In, payloads_in, Z.eqb_eq, mod_eq_diff.
    assert (zsum p - (k - id - 6) = id + zsum p + 6 - k) as -> by lia. rewrite <- mod_eq_diff, (Z.mod_small k) by lia.
    split.
    + intros ((HL & HB) & E). split; [assumption|]. apply (checksum_frame_iff coll m id p k He Hid); [congruence | assumption].
    + intros (HB & HF). pose proof HF as (_ & HL & _). split; [split; [congruence | assumption]|].
      destruct (Z.eq_dec ((id + zsum p + 6) mod 256) k) as [E|NE]; [assumption|].
      destruct (proj2 (checksum_frame_iff coll m id p k He Hid HL) NE []) as (_ & HD). exfalso. exact (HD _ _ _ _ _ HF eq_refl).
  - apply summing_count.
Qed.

(** ** At the receiver *)
Section Errors.
Context (c : config) (coll : collection).
Hypothesis Hst : static_ok coll = true.
Hypothesis Hsafe : index_safe c (capacity coll).

Lemma burst_lemma beh h0 pre ms m id p a x y b x' y' s w : tame beh -> mc_env coll = BasicChecksum ->
  is_frame coll (a ++ x :: y :: b) m id p ->
  bytes_ok [x; y; x'; y'] -> burst x y x' y' -> (x', y') <> (x, y) ->
  (forall m2, has_id coll m2 (nth 1 (a ++ x' :: y' :: b) 0) -> payload_size m2 = payload_size m) ->
  Scan coll pre ms [] -> processed c coll beh h0 (pre ++ (a ++ x' :: y' :: b) ++ s) w ->
  exists ms', Scan coll (tl (a ++ x' :: y' :: b) ++ s) ms' (held w)
    /\ Forall2 (delivers (little c)) (ms ++ ms') (completed beh [] (w_log w)).
Proof.
  intros Ht He HF HB Hburst Hne Hsz HP Hw. set (g := a ++ x' :: y' :: b) in *.
  assert (length g = length (a ++ x :: y :: b)) as HLg by (unfold g; rewrite !app_length; reflexivity).
  unfold bytes_ok in HB. repeat (apply Forall_cons_iff in HB as (?H & HB)).
  assert (dead coll (g ++ s)) as HD.
  { apply (altered_dead coll m); [rewrite HLg; apply (is_frame_length _ _ _ _ _ HF) | assumption|].
    intros m' id' p' HF'. apply Hne.
    pose proof HF as (_ & Hp & E). pose proof HF' as (_ & Hp' & E'). rewrite He in E, E'.
    destruct (burst_not_frame id p id' p' a x y x' y' b) as (-> & ->); auto.
    rewrite Hp, Hp'. symmetry. apply Hsz. destruct (is_frame_head _ _ _ _ _ HF') as (t & Et). rewrite Et. exact (proj1 HF'). }
  destruct g as [|g0 t]; [rewrite app_length in HLg; cbn in HLg; lia|]. cbn [app tl] in *.
  exact (dead_skipped_lemma c coll Hst Hsafe beh h0 pre ms _ _ w Ht HP HD Hw).
Qed.

Lemma two_bits_lemma beh h0 pre ms m id a x b y d i j k s w : tame beh -> mc_env coll = BasicChecksum ->
  is_frame coll ([1; id; 2] ++ (a ++ x :: b ++ y :: d) ++ [3; k; 4]) m id (a ++ x :: b ++ y :: d) ->
  bytes_ok [x; y] -> 0 <= i < 8 -> 0 <= j < 8 ->
  Scan coll pre ms [] ->
  processed c coll beh h0 (pre ++ ([1; id; 2] ++ (a ++ flip x i :: b ++ flip y j :: d) ++ [3; k; 4]) ++ s) w ->
  (i = j /\ (i = 7 \/ Z.testbit x i <> Z.testbit y j) ->
     exists ms', Scan coll s ms' (held w)
       /\ Forall2 (delivers (little c)) (ms ++ Found m id (a ++ flip x i :: b ++ flip y j :: d) :: ms') (completed beh [] (w_log w)))
  /\ (~ (i = j /\ (i = 7 \/ Z.testbit x i <> Z.testbit y j)) ->
     exists ms', Scan coll ([id; 2] ++ (a ++ flip x i :: b ++ flip y j :: d) ++ [3; k; 4] ++ s) ms' (held w)
       /\ Forall2 (delivers (little c)) (ms ++ ms') (completed beh [] (w_log w))).
Proof.
  intros Ht He HF HB Hi Hj HP Hw. pose proof HF as (Hid & HL & E). apply Forall_cons_iff in HB as (Hx & HB). apply Forall_inv in HB as Hy.
  assert ((id + zsum (a ++ x :: b ++ y :: d) + 6) mod 256 = k) as Ek.
  { destruct (Z.eq_dec ((id + zsum (a ++ x :: b ++ y :: d) + 6) mod 256) k) as [Ek|NE]; [assumption|].
    destruct (proj2 (checksum_frame_iff coll m id _ k He Hid HL) NE []) as (_ & HD). exfalso. exact (HD _ _ _ _ _ HF eq_refl). }
  pose proof (two_bits_sum id a x b y d i j Hx Hy Hi Hj) as H2. rewrite Ek in H2. rewrite <- H2.
  apply (payload_corruption_lemma c coll Hst Hsafe beh h0 pre ms m id _ k s w Ht He Hid); try assumption.
  rewrite <- HL, !app_length. cbn [length]. rewrite !app_length. reflexivity.
Qed.

Lemma bit_and_checksum_lemma beh h0 pre ms m id a x d i j k s w : tame beh -> mc_env coll = BasicChecksum ->
  is_frame coll ([1; id; 2] ++ (a ++ x :: d) ++ [3; k; 4]) m id (a ++ x :: d) ->
  0 <= x < 256 -> 0 <= i < 8 -> 0 <= j < 8 ->
  Scan coll pre ms [] ->
  processed c coll beh h0 (pre ++ ([1; id; 2] ++ (a ++ flip x i :: d) ++ [3; flip k j; 4]) ++ s) w ->
  (i = j /\ (i = 7 \/ Z.testbit x i = Z.testbit k j) ->
     exists ms', Scan coll s ms' (held w)
       /\ Forall2 (delivers (little c)) (ms ++ Found m id (a ++ flip x i :: d) :: ms') (completed beh [] (w_log w)))
  /\ (~ (i = j /\ (i = 7 \/ Z.testbit x i = Z.testbit k j)) ->
     exists ms', Scan coll ([id; 2] ++ (a ++ flip x i :: d) ++ [3; flip k j; 4] ++ s) ms' (held w)
       /\ Forall2 (delivers (little c)) (ms ++ ms') (completed beh [] (w_log w))).
Proof.
  intros Ht He HF Hx Hi Hj HP Hw. pose proof HF as (Hid & HL & E).
  assert ((id + zsum (a ++ x :: d) + 6) mod 256 = k) as Ek.
  { destruct (Z.eq_dec ((id + zsum (a ++ x :: d) + 6) mod 256) k) as [Ek|NE]; [assumption|].
    destruct (proj2 (checksum_frame_iff coll m id _ k He Hid HL) NE []) as (_ & HD). exfalso. exact (HD _ _ _ _ _ HF eq_refl). }
  assert (byte k) as Hk by (rewrite <- Ek; apply Z.mod_pos_bound; reflexivity).
  pose proof (payload_and_sum_bits id a x d i j k Hx Hk (eq_sym Ek) Hi Hj) as H2. rewrite <- H2.
  apply (payload_corruption_lemma c coll Hst Hsafe beh h0 pre ms m id _ (flip k j) s w Ht He Hid); try assumption.
  rewrite <- HL, !app_length. reflexivity.
Qed.
End Errors.
