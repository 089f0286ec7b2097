(** How many alterations of some bytes of a frame the checksum misses. *)
From Coq Require Import FinFun.
From Verif Require Export SpecAlter ErrorLemmas NoiseLemmas.

Definition all_byte_values : list Z := map Z.of_nat (seq 0 256).
Definition others (x : Z) : list Z := filter (fun y => negb (y =? x)) all_byte_values.
Fixpoint alterations (mask : list bool) (q : list Z) : list (list Z) :=
  match mask, q with
  | true :: mask, x :: q => flat_map (fun y => map (cons y) (alterations mask q)) (others x)
  | false :: mask, x :: q => map (cons x) (alterations mask q)
  | _, _ => [[]]
  end.

Lemma values_in y : In y all_byte_values <-> byte y.
Proof.
  unfold all_byte_values, byte. rewrite in_map_iff. split.
  - intros (k & <- & Hk). apply in_seq in Hk. lia.
  - intros H. exists (Z.to_nat y). split; [lia | apply in_seq; lia].
Qed.
Lemma others_in x y : In y (others x) <-> byte y /\ y <> x.
Proof.
  unfold others. rewrite filter_In, values_in. split; intros (H & E); split; auto.
  - intros ->. rewrite Z.eqb_refl in E. discriminate.
  - apply Z.eqb_neq in E. rewrite E. reflexivity.
Qed.
Lemma values_nodup : NoDup all_byte_values.
Proof. apply Injective_map_NoDup; [intros u v; apply Nat2Z.inj | apply seq_NoDup]. Qed.

Lemma alterations_in mask : forall q, length mask = length q -> bytes_ok q ->
  forall q', In q' (alterations mask q) <-> altered_at mask q q' /\ bytes_ok q'.
Proof.
  induction mask as [|b mask IH]; intros [|x q] HL HB q'; try discriminate.
  - cbn. split; [intros [<-|[]]; split; constructor|]. intros (H & _). inversion H. auto.
  - injection HL as HL. pose proof (Forall_inv HB) as Hx. cbv beta in Hx. apply Forall_inv_tail in HB. destruct b; cbn [alterations].
    + rewrite in_flat_map. split.
      * intros (y & Hy & Hq). apply others_in in Hy as (Hy & HN). apply in_map_iff in Hq as (r & <- & Hr). apply IH in Hr as (H1 & H2); auto.
        split; [constructor; assumption | constructor; assumption].
      * intros (H & HB'). inversion H as [| |? ? y ? r HN Hr]; subst. exists y. pose proof (Forall_inv HB') as Hy. apply Forall_inv_tail in HB'.
        split; [apply others_in; split; [exact Hy | exact HN]|]. apply in_map. apply IH; auto.
    + rewrite in_map_iff. split.
      * intros (r & <- & Hr). apply IH in Hr as (H1 & H2); auto. split; constructor; assumption.
      * intros (H & HB'). inversion H as [|? ? ? r Hr|]; subst. exists r. split; [reflexivity|]. apply IH; auto. split; [exact Hr | exact (Forall_inv_tail HB')].
Qed.

Lemma conses_nodup (L : list (list Z)) l : NoDup L -> NoDup l -> NoDup (flat_map (fun b : Z => map (cons b) L) l).
Proof.
  intros HL. induction 1 as [|b l Hb Hl IH2]; cbn [flat_map]; [constructor|].
  assert (NoDup (map (cons b) L)) as H1 by (apply Injective_map_NoDup; [intros u v E; congruence | assumption]).
  apply nodup_app; auto. intros u Hu Hv. apply in_map_iff in Hu as (u' & <- & _). apply in_flat_map in Hv as (b' & Hb' & Hv).
  apply in_map_iff in Hv as (v' & E & _). assert (b' = b) as -> by congruence. contradiction.
Qed.
Lemma alterations_nodup mask : forall q, NoDup (alterations mask q).
Proof.
  assert (NoDup [@nil Z]) as H0 by (constructor; [intros []|constructor]).
  induction mask as [|b mask IH]; intros q; [exact H0|]. destruct q as [|x q]; [destruct b; exact H0|]. destruct b; cbn [alterations].
  - apply conses_nodup; [apply IH | apply NoDup_filter, values_nodup].
  - apply Injective_map_NoDup; [intros u v E; congruence | apply IH].
Qed.

(** Sums over all bytes but one. *)
Lemma sum_others f x : byte x -> zsum (map f all_byte_values) = f x + zsum (map f (others x)).
Proof.
  intros Hx. unfold others. assert (forall l, NoDup l -> In x l -> zsum (map f l) = f x + zsum (map f (filter (fun y => negb (y =? x)) l))) as H.
  { induction 1 as [|y l Hy Hl IH]; intros HI; [contradiction|]. cbn [map filter]. change (zsum (f y :: map f l)) with (f y + zsum (map f l)).
    destruct (Z.eqb_spec y x) as [->|NE]; cbn [negb].
    - f_equal. f_equal. f_equal. symmetry. clear - Hy. induction l as [|z l IH]; [reflexivity|]. cbn [filter].
      destruct (Z.eqb_spec z x) as [->|NE]; [exfalso; apply Hy; left; reflexivity|]. cbn [negb]. f_equal. apply IH. intros H. apply Hy. right. exact H.
    - destruct HI as [HI|HI]; [contradiction|]. rewrite (IH HI). cbn [map]. change (zsum (?a :: ?r)) with (a + zsum r). lia. }
  apply H; [apply values_nodup | apply values_in; exact Hx].
Qed.
Lemma others_length x : byte x -> zlen (others x) = 255.
Proof.
  intros Hx. pose proof (sum_others (fun _ => 1) x Hx) as H. rewrite !zsum_const in H.
  assert (zlen all_byte_values = 256) as E by reflexivity. rewrite E in H. lia.
Qed.

Lemma marked_cons b mask : marked (b :: mask) = (if b then 1 else 0) + marked mask.
Proof. reflexivity. Qed.
Lemma marked_nonneg mask : 0 <= marked mask.
Proof. apply zsum_nonneg. intros []; lia. Qed.

Lemma alterations_count mask : forall q, length mask = length q -> bytes_ok q -> zlen (alterations mask q) = 255 ^ marked mask.
Proof.
  induction mask as [|b mask IH]; intros [|x q] HL HB; try discriminate; [reflexivity|].
  injection HL as HL. pose proof (Forall_inv HB) as Hx. cbv beta in Hx. apply Forall_inv_tail in HB. specialize (IH q HL HB).
  rewrite marked_cons. destruct b; cbn [alterations].
  - rewrite (flat_map_constant_length _ (255 ^ marked mask)).
    + rewrite others_length by exact Hx. rewrite Z.pow_add_r by (pose proof (marked_nonneg mask); lia). reflexivity.
    + intros y _. unfold zlen in *. rewrite map_length. exact IH.
  - unfold zlen in *. rewrite map_length. exact IH.
Qed.

Definition of_sum (r : Z) (L : list (list Z)) : list (list Z) := filter (fun p => zsum p mod 256 =? r mod 256) L.

Lemma of_sum_cons b r L : of_sum r (map (cons b) L) = map (cons b) (of_sum (r - b) L).
Proof.
  unfold of_sum. induction L as [|p l IH]; [reflexivity|]. cbn [map filter].
  change (zsum (b :: p)) with (b + zsum p).
  assert (((b + zsum p) mod 256 =? r mod 256) = (zsum p mod 256 =? (r - b) mod 256)) as ->.
  { apply Bool.eq_iff_eq_true. rewrite !Z.eqb_eq, !mod_eq_diff. replace (b + zsum p - r) with (zsum p - (r - b)) by lia. reflexivity. }
  destruct (zsum p mod 256 =? (r - b) mod 256); cbn [map]; rewrite IH; reflexivity.
Qed.

(** Every sum is completed by exactly one byte. *)
Lemma one_completes s r : zsum (map (fun y => if s mod 256 =? (r - y) mod 256 then 1 else 0) all_byte_values) = 1.
Proof.
  assert (forallb (fun u => zsum (map (fun y => if u =? y then 1 else 0) all_byte_values) =? 1) (map Z.of_nat (seq 0 256)) = true)
    as HF by (vm_compute; reflexivity).
  rewrite (zsum_ext _ (fun y => if (r - s) mod 256 =? y then 1 else 0)).
  - apply Z.eqb_eq. exact (all_bytes _ HF ((r - s) mod 256) (Z.mod_pos_bound (r - s) 256 eq_refl)).
  - intros y Hy. apply values_in in Hy. unfold byte in Hy.
    assert ((s mod 256 =? (r - y) mod 256) = ((r - s) mod 256 =? y)) as ->; [|reflexivity].
    apply Bool.eq_iff_eq_true. rewrite !Z.eqb_eq. rewrite <- (Z.mod_small y 256) at 2 by lia. rewrite !mod_eq_diff.
    replace (s - (r - y)) with (- (r - s - y)) by lia. split; intros H.
    + rewrite <- (Z.opp_involutive (r - s - y)). apply Z_mod_zero_opp_full. exact H.
    + apply Z_mod_zero_opp_full. exact H.
Qed.

Lemma all_completions L r : zsum (map (fun y => zlen (of_sum (r - y) L)) all_byte_values) = zlen L.
Proof.
  unfold of_sum. rewrite (zsum_ext _ (fun y => zsum (map (fun p => if zsum p mod 256 =? (r - y) mod 256 then 1 else 0) L)))
    by (intros y _; symmetry; apply zsum_filter).
  rewrite zsum_swap. rewrite (zsum_ext _ (fun _ => 1)) by (intros p _; apply one_completes). rewrite zsum_const. lia.
Qed.

Lemma flat_map_zlen {A B} (g : A -> list B) l : zlen (flat_map g l) = zsum (map (fun x => zlen (g x)) l).
Proof. induction l as [|x l IH]; [reflexivity|]. cbn [flat_map map]. rewrite zlen_app, IH. reflexivity. Qed.

Lemma missed_step mask x q r : byte x -> zlen (of_sum r (alterations (true :: mask) (x :: q)))
  = zlen (alterations mask q) - zlen (of_sum (r - x) (alterations mask q)).
Proof.
  intros Hx. cbn [alterations]. unfold of_sum at 1. rewrite filter_flat_map, flat_map_zlen.
  rewrite (zsum_ext _ (fun y => zlen (of_sum (r - y) (alterations mask q)))).
  - pose proof (sum_others (fun y => zlen (of_sum (r - y) (alterations mask q))) x Hx) as H. rewrite all_completions in H. lia.
  - intros y _. fold (of_sum r (map (cons y) (alterations mask q))). rewrite of_sum_cons. unfold zlen. rewrite map_length. reflexivity.
Qed.

Lemma missed_sum mask : forall q, length mask = length q -> bytes_ok q ->
  256 * zlen (of_sum (zsum q) (alterations mask q)) = 255 ^ marked mask + 255 * (-1) ^ marked mask.
Proof.
  induction mask as [|b mask IH]; intros [|x q] HL HB; try discriminate; [reflexivity|].
  pose proof HL as HL'. injection HL as HL. pose proof (Forall_inv HB) as Hx. cbv beta in Hx. apply Forall_inv_tail in HB. specialize (IH q HL HB).
  change (zsum (x :: q)) with (x + zsum q). rewrite marked_cons. destruct b.
  - rewrite missed_step by exact Hx. replace (x + zsum q - x) with (zsum q) by lia. rewrite alterations_count by assumption.
    rewrite !Z.pow_add_r by (pose proof (marked_nonneg mask); lia). change (255 ^ 1) with 255. change ((-1) ^ 1) with (-1). lia.
  - cbn [alterations]. rewrite of_sum_cons. replace (x + zsum q - x) with (zsum q) by lia. unfold zlen in *. rewrite map_length. exact IH.
Qed.

Lemma checksum_frame coll m id p k : mc_env coll = BasicChecksum -> has_id coll m id -> length p = payload_size m ->
  (is_frame coll ([1; id; 2] ++ p ++ [3; k; 4]) m id p <-> (id + zsum p + 6) mod 256 = k).
Proof.
  intros He Hid HL. split.
  - intros HF. destruct (Z.eq_dec ((id + zsum p + 6) mod 256) k) as [E|NE]; [assumption|].
    destruct (proj2 (checksum_frame_iff coll m id p k He Hid HL) NE []) as (_ & HD). exfalso. exact (HD _ _ _ _ _ HF eq_refl).
  - intros E. apply (checksum_frame_iff coll m id p k He Hid HL). exact E.
Qed.

Lemma altered_length mask q q' : altered_at mask q q' -> length q' = length q.
Proof. induction 1; cbn [length]; congruence. Qed.

(** C98 *)
Lemma missed_lemma coll m id p k mask sum : mc_env coll = BasicChecksum ->
  is_frame coll ([1; id; 2] ++ p ++ [3; k; 4]) m id p -> bytes_ok p -> length mask = length p ->
  exists L, NoDup L
    /\ (forall p' k', In (p', k') L <-> bytes_ok p' /\ altered_at (mask ++ [sum]) (p ++ [k]) (p' ++ [k'])
          /\ is_frame coll ([1; id; 2] ++ p' ++ [3; k'; 4]) m id p')
    /\ 256 * zlen L = 255 ^ marked (mask ++ [sum]) + 255 * (-1) ^ marked (mask ++ [sum]).
Proof.
  intros He HF HB HM. pose proof HF as (Hid & HL & _). apply (checksum_frame coll m id p k He Hid HL) in HF.
  assert (forall p' k', altered_at (mask ++ [sum]) (p ++ [k]) (p' ++ [k']) <-> altered_at mask p p' /\ (if sum then k' <> k else k' = k)) as HA.
  { clear - HM. revert p HM. induction mask as [|b mask IH]; intros [|x p] HM p' k'; try discriminate; cbn [app].
    - split.
      + intros H. destruct p' as [|y p']; cbn [app] in H.
        * split; [constructor|]. inversion H; subst; auto.
        * exfalso. apply altered_length in H. cbn in H. rewrite app_length in H. cbn in H. lia.
      + intros (H & E). inversion H; subst. cbn [app]. destruct sum; [constructor; [exact E | constructor]|]. rewrite E. repeat constructor.
    - injection HM as HM. destruct p' as [|y p'].
      + split; [intros H; apply altered_length in H; cbn in H; rewrite app_length in H; cbn in H; lia | intros (H & _); inversion H].
      + cbn [app]. split.
        * intros H. inversion H as [|? ? ? ? H1|? ? ? ? ? N1 H1]; subst; apply (IH p HM) in H1 as (H1 & H2); split; auto; constructor; assumption.
        * intros (H & E). inversion H; subst; constructor; auto; apply (IH p HM); auto. }
  assert (marked (mask ++ [sum]) = marked mask + if sum then 1 else 0) as EM.
  { unfold marked. rewrite map_app, zsum_app. destruct sum; reflexivity. }
  assert (forall p', zsum p' mod 256 = zsum p mod 256 <-> (id + zsum p' + 6) mod 256 = k) as HS.
  { intros p'. rewrite <- HF, !mod_eq_diff. replace (id + zsum p' + 6 - (id + zsum p + 6)) with (zsum p' - zsum p) by lia. reflexivity. }
  pose proof (missed_sum mask p HM HB) as HC. pose proof (alterations_count mask p HM HB) as HT. rewrite EM. destruct sum.
  - exists (map (fun p' => (p', (id + zsum p' + 6) mod 256)) (filter (fun p' => negb (zsum p' mod 256 =? zsum p mod 256)) (alterations mask p))).
    split; [|split].
    + apply Injective_map_NoDup; [intros u v E; congruence | apply NoDup_filter, alterations_nodup].
    + intros p' k'. rewrite in_map_iff, HA. split.
      * intros (u & E & Hu). injection E as -> E. apply filter_In in Hu as (Hu & HN). apply (alterations_in mask p HM HB) in Hu as (H1 & H2).
        split; [exact H2|]. split.
        -- split; [exact H1|]. rewrite <- E. intros E'. apply HS in E'. rewrite E', Z.eqb_refl in HN. discriminate.
        -- apply (checksum_frame coll m id p' k' He Hid); [rewrite <- HL; eapply altered_length; exact H1 | exact E].
      * intros (H1 & (H2 & HK) & H3). assert (length p' = payload_size m) as HL' by (rewrite <- HL; eapply altered_length; exact H2).
        apply (checksum_frame coll m id p' k' He Hid HL') in H3. exists p'. split; [rewrite H3; reflexivity|].
        apply filter_In. split; [apply (alterations_in mask p HM HB); auto|].
        destruct (Z.eqb_spec (zsum p' mod 256) (zsum p mod 256)) as [E|NE]; [|reflexivity]. apply HS in E. congruence.
    + assert (zlen (filter (fun p' => negb (zsum p' mod 256 =? zsum p mod 256)) (alterations mask p))
              = zlen (alterations mask p) - zlen (of_sum (zsum p) (alterations mask p))) as E.
      { unfold of_sum. generalize (alterations mask p). induction l as [|u l IH]; [reflexivity|]. cbn [filter].
        destruct (zsum u mod 256 =? zsum p mod 256); cbn [negb]; rewrite ?zlen_cons; lia. }
      unfold zlen at 1. rewrite map_length. fold (zlen (filter (fun p' => negb (zsum p' mod 256 =? zsum p mod 256)) (alterations mask p))).
      rewrite E, HT. rewrite !Z.pow_add_r by (pose proof (marked_nonneg mask); lia). change (255 ^ 1) with 255. change ((-1) ^ 1) with (-1). lia.
  - exists (map (fun p' => (p', k)) (of_sum (zsum p) (alterations mask p))). split; [|split].
    + apply Injective_map_NoDup; [intros u v E; congruence | apply NoDup_filter, alterations_nodup].
    + intros p' k'. rewrite in_map_iff, HA. unfold of_sum. split.
      * intros (u & E & Hu). injection E as -> <-. apply filter_In in Hu as (Hu & HN). apply Z.eqb_eq, HS in HN.
        apply (alterations_in mask p HM HB) in Hu as (H1 & H2). split; [exact H2|]. split; [auto|].
        apply (checksum_frame coll m id p' k He Hid); [rewrite <- HL; eapply altered_length; exact H1 | exact HN].
      * intros (H1 & (H2 & ->) & H3). exists p'. split; [reflexivity|]. apply filter_In.
        split; [apply (alterations_in mask p HM HB); auto|]. apply Z.eqb_eq, HS.
        apply (checksum_frame coll m id p' k He Hid) in H3; [exact H3 | rewrite <- HL; eapply altered_length; exact H2].
    + unfold zlen in *. rewrite map_length, Z.add_0_r. exact HC.
Qed.

Lemma possible_lemma mask q : length mask = length q -> bytes_ok q ->
  exists L, NoDup L /\ (forall q', In q' L <-> altered_at mask q q' /\ bytes_ok q') /\ zlen L = 255 ^ marked mask.
Proof.
  intros HL HB. exists (alterations mask q). split; [apply alterations_nodup|]. split; [apply alterations_in; assumption | apply alterations_count; assumption].
Qed.

(** Weights. *)
Lemma flat_sum {A B} (f : B -> Z) (g : A -> list B) l : zsum (map f (flat_map g l)) = zsum (map (fun x => zsum (map f (g x))) l).
Proof. induction l as [|x l IH]; [reflexivity|]. cbn [flat_map map]. rewrite map_app, zsum_app, IH. reflexivity. Qed.
Lemma zsum_scale_l {A} (f : A -> Z) k l : zsum (map (fun x => k * f x) l) = k * zsum (map f l).
Proof. rewrite Z.mul_comm, zsum_scale. apply zsum_ext. intros x _. lia. Qed.

Definition weighed (a b : Z) (q : list Z) (P : list Z -> bool) : Z :=
  zsum (map (fun q' => if P q' then weight a b q q' else 0) (payloads (length q))).

Lemma byte_choice (a b x : Z) (f : Z -> Z) : byte x ->
  zsum (map (fun y => (if y =? x then b else a) * f y) all_byte_values) = a * zsum (map f all_byte_values) + (b - a) * f x.
Proof.
  intros Hx. rewrite !(sum_others _ x Hx), Z.eqb_refl.
  rewrite (zsum_ext _ (fun y => a * f y)); [rewrite zsum_scale_l; lia|].
  intros y Hy. apply others_in in Hy as (_ & NE). apply Z.eqb_neq in NE. rewrite NE. reflexivity.
Qed.

Lemma weighed_cons a b x q P : byte x ->
  weighed a b (x :: q) P = a * zsum (map (fun y => weighed a b q (fun r => P (y :: r))) all_byte_values)
                           + (b - a) * weighed a b q (fun r => P (x :: r)).
Proof.
  intros Hx. unfold weighed at 1. cbn [length payloads]. rewrite flat_sum.
  rewrite <- (byte_choice a b x (fun y => weighed a b q (fun r => P (y :: r))) Hx). fold all_byte_values. apply zsum_ext. intros y _.
  rewrite map_map. unfold weighed. rewrite <- zsum_scale_l. apply zsum_ext. intros r _. cbn [weight].
  destruct (P (y :: r)); lia.
Qed.

Lemma weighed_all a b q : bytes_ok q -> weighed a b q (fun _ => true) = (b + 255 * a) ^ zlen q.
Proof.
  induction q as [|x q IH]; intros HB; [reflexivity|]. pose proof (Forall_inv HB) as Hx. apply Forall_inv_tail in HB.
  rewrite weighed_cons by exact Hx. rewrite zsum_const, (IH HB), zlen_cons. change (zlen all_byte_values) with 256.
  rewrite Z.pow_add_r by (pose proof (zlen_nonneg q); lia). lia.
Qed.

Lemma weighed_ext a b q P Q : (forall r, length r = length q -> P r = Q r) -> weighed a b q P = weighed a b q Q.
Proof. intros H. apply zsum_ext. intros r Hr. apply payloads_in in Hr as (HL & _). rewrite (H r HL). reflexivity. Qed.

Lemma weighed_sum a b q : bytes_ok q ->
  256 * weighed a b q (fun r => zsum r mod 256 =? zsum q mod 256) = (b + 255 * a) ^ zlen q + 255 * (b - a) ^ zlen q.
Proof.
  induction q as [|x q IH]; intros HB; [reflexivity|]. pose proof (Forall_inv HB) as Hx. apply Forall_inv_tail in HB.
  rewrite weighed_cons by exact Hx.
  assert (zsum (map (fun y => weighed a b q (fun r => zsum (y :: r) mod 256 =? zsum (x :: q) mod 256)) all_byte_values)
          = (b + 255 * a) ^ zlen q) as ->.
  { rewrite <- (weighed_all a b q HB). unfold weighed. rewrite zsum_swap. apply zsum_ext. intros r _.
    rewrite (zsum_ext _ (fun y => weight a b q r * (if zsum r mod 256 =? (zsum (x :: q) - y) mod 256 then 1 else 0))).
    - rewrite zsum_scale_l, one_completes. lia.
    - intros y _. change (zsum (y :: r)) with (y + zsum r).
      assert (((y + zsum r) mod 256 =? zsum (x :: q) mod 256) = (zsum r mod 256 =? (zsum (x :: q) - y) mod 256)) as ->.
      { apply Bool.eq_iff_eq_true. rewrite !Z.eqb_eq, !mod_eq_diff. replace (y + zsum r - zsum (x :: q)) with (zsum r - (zsum (x :: q) - y)) by lia. reflexivity. }
      destruct (zsum r mod 256 =? (zsum (x :: q) - y) mod 256); lia. }
  rewrite (weighed_ext a b q (fun r => zsum (x :: r) mod 256 =? zsum (x :: q) mod 256) (fun r => zsum r mod 256 =? zsum q mod 256)).
  - rewrite zlen_cons, !Z.pow_add_r by (pose proof (zlen_nonneg q); lia). specialize (IH HB). lia.
  - intros r _. change (zsum (x :: r)) with (x + zsum r). change (zsum (x :: q)) with (x + zsum q).
    apply Bool.eq_iff_eq_true. rewrite !Z.eqb_eq, !mod_eq_diff. replace (x + zsum r - (x + zsum q)) with (zsum r - zsum q) by lia. reflexivity.
Qed.

Lemma weight_app a b q q' k k' : length q' = length q -> weight a b (q ++ [k]) (q' ++ [k']) = weight a b q q' * (if k' =? k then b else a).
Proof.
  revert q'. induction q as [|x q IH]; intros [|y q'] H; try discriminate; cbn [app weight]; [lia|].
  rewrite IH by (cbn in H; lia). lia.
Qed.

Lemma weighted_lemma coll m id p k a b : mc_env coll = BasicChecksum ->
  is_frame coll ([1; id; 2] ++ p ++ [3; k; 4]) m id p -> bytes_ok p ->
  exists L, NoDup L
    /\ (forall p' k', In (p', k') L <-> bytes_ok p' /\ is_frame coll ([1; id; 2] ++ p' ++ [3; k'; 4]) m id p')
    /\ 256 * zsum (map (fun r => weight a b (p ++ [k]) (fst r ++ [snd r])) L)
       = (b + 255 * a) ^ (zlen p + 1) + 255 * (b - a) ^ (zlen p + 1).
Proof.
  intros He HF HB. pose proof HF as (Hid & HL & _). apply (checksum_frame coll m id p k He Hid HL) in HF.
  exists (map (fun p' => (p', (id + zsum p' + 6) mod 256)) (payloads (length p))). split; [|split].
  - apply Injective_map_NoDup; [intros u v E; congruence | apply payloads_nodup].
  - intros p' k'. rewrite in_map_iff. split.
    + intros (u & E & Hu). injection E as -> E. apply payloads_in in Hu as (H1 & H2). split; [exact H2|].
      apply (checksum_frame coll m id p' k' He Hid); [congruence | exact E].
    + intros (H1 & H2). pose proof H2 as (_ & HL' & _). apply (checksum_frame coll m id p' k' He Hid HL') in H2.
      exists p'. split; [rewrite H2; reflexivity|]. apply payloads_in. split; [congruence | exact H1].
  - rewrite map_map. cbn [fst snd].
    rewrite (zsum_ext _ (fun r => a * weight a b p r + (b - a) * (if zsum r mod 256 =? zsum p mod 256 then weight a b p r else 0))).
    + rewrite zsum_plus, !zsum_scale_l. fold (weighed a b p (fun r => zsum r mod 256 =? zsum p mod 256)).
      pose proof (weighed_sum a b p HB) as H1. assert (zsum (map (weight a b p) (payloads (length p))) = (b + 255 * a) ^ zlen p) as H2 by exact (weighed_all a b p HB).
      rewrite H2, !Z.pow_add_r by (pose proof (zlen_nonneg p); lia). lia.
    + intros r Hr. apply payloads_in in Hr as (HL' & _). rewrite weight_app by exact HL'.
      assert (((id + zsum r + 6) mod 256 =? k) = (zsum r mod 256 =? zsum p mod 256)) as ->.
      { apply Bool.eq_iff_eq_true. rewrite !Z.eqb_eq, <- HF, !mod_eq_diff.
        replace (id + zsum r + 6 - (id + zsum p + 6)) with (zsum r - zsum p) by lia. reflexivity. }
      destruct (zsum r mod 256 =? zsum p mod 256); lia.
Qed.

Section Alter.
Context (c : config) (coll : collection).
Hypothesis Hst : static_ok coll = true.
Hypothesis Hsafe : index_safe c (capacity coll).

Lemma missed_delivered beh h0 pre ms m id p k mask sum : tame beh -> mc_env coll = BasicChecksum ->
  is_frame coll ([1; id; 2] ++ p ++ [3; k; 4]) m id p -> bytes_ok p -> length mask = length p ->
  Scan coll pre ms [] ->
  exists L, NoDup L
    /\ 256 * zlen L = 255 ^ marked (mask ++ [sum]) + 255 * (-1) ^ marked (mask ++ [sum])
    /\ (forall p' k', In (p', k') L -> bytes_ok (p' ++ [k']) /\ altered_at (mask ++ [sum]) (p ++ [k]) (p' ++ [k']))
    /\ forall p' k' s w, bytes_ok (p' ++ [k']) -> altered_at (mask ++ [sum]) (p ++ [k]) (p' ++ [k']) ->
       processed c coll beh h0 (pre ++ ([1; id; 2] ++ p' ++ [3; k'; 4]) ++ s) w ->
       (In (p', k') L -> exists ms', Scan coll s ms' (held w)
          /\ Forall2 (delivers (little c)) (ms ++ Found m id p' :: ms') (completed beh [] (w_log w)))
       /\ (~ In (p', k') L -> exists ms', Scan coll ([id; 2] ++ p' ++ [3; k'; 4] ++ s) ms' (held w)
          /\ Forall2 (delivers (little c)) (ms ++ ms') (completed beh [] (w_log w))).
Proof.
  intros Ht He HF HB HM HS. destruct (missed_lemma coll m id p k mask sum He HF HB HM) as (L & HN & HI & HC).
  pose proof HF as (Hid & HL & _). exists L. split; [exact HN|]. split; [exact HC|]. split.
  - intros p' k' H. apply HI in H as (H1 & H2 & H3). split; [|exact H2].
    assert (length p' = payload_size m) as HL' by (apply altered_length in H2; rewrite !app_length in H2; cbn in H2; lia).
    apply (checksum_frame coll m id p' k' He Hid HL') in H3. apply Forall_app. split; [exact H1|]. constructor; [|constructor].
    rewrite <- H3. apply Z.mod_pos_bound. lia.
  - intros p' k' s w HB' HA Hw.
    assert (length p' = payload_size m) as HL' by (apply altered_length in HA; rewrite !app_length in HA; cbn in HA; lia).
    destruct (payload_corruption_lemma c coll Hst Hsafe beh h0 pre ms m id p' k' s w Ht He Hid HL' HS Hw) as (P1 & P2).
    apply Forall_app in HB' as (HB' & _).
    assert (In (p', k') L <-> (id + zsum p' + 6) mod 256 = k') as HE.
    { rewrite <- (checksum_frame coll m id p' k' He Hid HL'), HI. intuition. }
    split; intros H; [apply P1, HE, H | apply P2]. intros E. apply H, HE, E.
Qed.
End Alter.
