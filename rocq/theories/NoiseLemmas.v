(** How often strings of arbitrary bytes contain frames. *)
From Coq Require Import Permutation FinFun.
From Verif Require Export ErrorLemmas PollLemmas FeedLemmas DeliveryLemmas.

Lemma zsum_perm {A} (f : A -> Z) l l' : Permutation l l' -> zsum (map f l) = zsum (map f l').
Proof. induction 1; cbn [map zsum fold_right] in *; unfold zsum in *; cbn [fold_right]; lia. Qed.
Lemma zsum_ext {A} (f g : A -> Z) l : (forall x, In x l -> f x = g x) -> zsum (map f l) = zsum (map g l).
Proof.
  intros H. f_equal. apply map_ext_in. assumption.
Qed.
Lemma zsum_le {A} (f g : A -> Z) l : (forall x, In x l -> f x <= g x) -> zsum (map f l) <= zsum (map g l).
Proof.
  induction l as [|x l IH]; intros H; [apply Z.le_refl|]. cbn [map]. change (f x + zsum (map f l) <= g x + zsum (map g l)).
  pose proof (H x (or_introl eq_refl)). assert (zsum (map f l) <= zsum (map g l)) by (apply IH; intros y Hy; apply H; right; assumption). lia.
Qed.
Lemma zsum_plus {A} (f g : A -> Z) l : zsum (map (fun x => f x + g x) l) = zsum (map f l) + zsum (map g l).
Proof. induction l as [|x l IH]; [reflexivity|]. cbn [map]. unfold zsum in *. cbn [fold_right]. lia. Qed.
Lemma zsum_const {A} k (l : list A) : zsum (map (fun _ => k) l) = zlen l * k.
Proof. induction l as [|x l IH]; [reflexivity|]. cbn [map]. rewrite zlen_cons. unfold zsum in *. cbn [fold_right]. lia. Qed.
Lemma zsum_scale {A} (f : A -> Z) k l : zsum (map f l) * k = zsum (map (fun x => f x * k) l).
Proof. induction l as [|x l IH]; [reflexivity|]. cbn [map]. unfold zsum in *. cbn [fold_right]. lia. Qed.
Lemma zsum_swap {A B} (f : A -> B -> Z) l k :
  zsum (map (fun x => zsum (map (fun y => f x y) k)) l) = zsum (map (fun y => zsum (map (fun x => f x y) l)) k).
Proof.
  induction l as [|x l IH]; cbn [map].
  - change (0 = zsum (map (fun _ => 0) k)). rewrite zsum_const. lia.
  - change (zsum (map (fun y => f x y) k) + zsum (map (fun x => zsum (map (fun y => f x y) k)) l)
            = zsum (map (fun y => f x y + zsum (map (fun x => f x y) l)) k)).
    rewrite zsum_plus, IH. reflexivity.
Qed.
Lemma zsum_nonneg {A} (f : A -> Z) l : (forall x, 0 <= f x) -> 0 <= zsum (map f l).
Proof. intros H. induction l as [|x l IH]; [apply Z.le_refl|]. cbn [map]. unfold zsum in *. cbn [fold_right]. specialize (H x). lia. Qed.
Lemma zsum_member {A} (f : A -> Z) l x : (forall x, 0 <= f x) -> In x l -> f x <= zsum (map f l).
Proof.
  intros H HI. induction l as [|y l IH]; [contradiction|]. cbn [map]. change (f x <= f y + zsum (map f l)).
  destruct HI as [->|HI]; [pose proof (zsum_nonneg f l H); lia|]. specialize (IH HI). specialize (H y). lia.
Qed.
Lemma zsum_filter {A} (b : A -> bool) l : zsum (map (fun x => if b x then 1 else 0) l) = zlen (filter b l).
Proof.
  induction l as [|x l IH]; [reflexivity|]. cbn [map filter]. change (zsum (?a :: ?r)) with (a + zsum r). rewrite IH.
  destruct (b x); rewrite ?zlen_cons; lia.
Qed.
Lemma zsum_flat_map {A B} (f : B -> Z) (g : A -> list B) l :
  zsum (map f (flat_map g l)) = zsum (map (fun x => zsum (map f (g x))) l).
Proof.
  induction l as [|x l IH]; [reflexivity|]. cbn [flat_map map]. rewrite map_app.
  assert (forall a b, zsum (a ++ b) = zsum a + zsum b) as HA.
  { induction a as [|y a IHa]; intros b; [reflexivity|]. cbn [app]. unfold zsum in *. cbn [fold_right]. rewrite IHa. lia. }
  rewrite HA, IH. reflexivity.
Qed.

(** The message types with their ids. *)
Definition with_ids (coll : collection) : list (Z * mtype) :=
  combine (map Z.of_nat (seq 0 (length (mc_types coll)))) (mc_types coll).
Lemma with_ids_in coll id m : In (id, m) (with_ids coll) <-> has_id coll m id.
Proof.
  unfold with_ids, has_id.
  assert (forall l k, In (id, m) (combine (map Z.of_nat (seq k (length l))) l)
            <-> Z.of_nat k <= id /\ nth_error l (Z.to_nat id - k) = Some m) as H.
  { induction l as [|x l IH]; intros k; cbn [length seq map combine].
    - split; [intros []|]. intros (_ & H). destruct (Z.to_nat id - k)%nat; discriminate.
    - cbn [In]. rewrite IH. split.
      + intros [E|(H1 & H2)].
        * injection E as <- <-. split; [lia|]. rewrite Nat2Z.id, Nat.sub_diag. reflexivity.
        * split; [lia|]. replace (Z.to_nat id - k)%nat with (S (Z.to_nat id - S k)) by lia. exact H2.
      + intros (H1 & H2). destruct (Z.eq_dec id (Z.of_nat k)) as [->|NE].
        * left. rewrite Nat2Z.id, Nat.sub_diag in H2. cbn in H2. congruence.
        * right. split; [lia|]. replace (Z.to_nat id - k)%nat with (S (Z.to_nat id - S k)) in H2 by lia. exact H2. }
  rewrite (H (mc_types coll) 0%nat). rewrite Nat.sub_0_r. change (Z.of_nat 0) with 0. reflexivity.
Qed.

(** Whether [s] begins with a frame of the message [m] with id [id]. *)
Definition begins (coll : collection) (im : Z * mtype) (s : list Z) : bool :=
  let '(id, m) := im in
  Nat.leb (frame_size (mc_env coll) m) (length s)
  && if list_eq_dec Z.eq_dec (firstn (frame_size (mc_env coll) m) s)
          (spec_frame (mc_env coll) id (firstn (payload_size m) (skipn 3 s))) then true else false.
Definition begun (coll : collection) (s : list Z) : Z :=
  zsum (map (fun im => if begins coll im s then 1 else 0) (with_ids coll)).
Fixpoint occurrences (coll : collection) (s : list Z) : Z :=
  begun coll s + match s with [] => 0 | _ :: s' => occurrences coll s' end.

Lemma begun_nonneg coll s : 0 <= begun coll s.
Proof. apply zsum_nonneg. intros x. destruct (begins coll x s); lia. Qed.

Lemma frame_payload e id p s : firstn (length p) (skipn 3 (spec_frame e id p ++ s)) = p.
Proof.
  destruct e; cbn [spec_frame]; rewrite <- !app_assoc; cbn [app skipn]; rewrite ?firstn_app_exact by reflexivity; reflexivity.
Qed.

Lemma begins_frame coll id m s : begins coll (id, m) s = true <->
  exists p s', length p = payload_size m /\ s = spec_frame (mc_env coll) id p ++ s'.
Proof.
  unfold begins. rewrite andb_true_iff, Nat.leb_le. split.
  - intros (HL & HE). destruct (list_eq_dec _ _ _) as [E|]; [|discriminate].
    exists (firstn (payload_size m) (skipn 3 s)), (skipn (frame_size (mc_env coll) m) s). split.
    + rewrite firstn_length, skipn_length. unfold frame_size in HL. destruct (mc_env coll); lia.
    + rewrite <- E. symmetry. apply firstn_skipn.
  - intros (p & s' & Hp & ->). pose proof (spec_frame_length coll m id p Hp) as HL. split; [rewrite app_length; lia|].
    rewrite <- Hp, frame_payload. rewrite <- HL, firstn_app_exact by reflexivity.
    destruct (list_eq_dec _ _ _); [reflexivity | contradiction].
Qed.

Lemma occurrences_app coll a s : occurrences coll s <= occurrences coll (a ++ s).
Proof.
  induction a as [|x a IH]; [apply Z.le_refl|]. cbn [app occurrences]. pose proof (begun_nonneg coll (x :: a ++ s)). lia.
Qed.

Lemma occurrences_nonneg coll s : 0 <= occurrences coll s.
Proof.
  induction s as [|x s IH]; cbn [occurrences]; [pose proof (begun_nonneg coll []) | pose proof (begun_nonneg coll (x :: s))]; lia.
Qed.

Lemma scan_occurrences coll s ms r : Scan coll s ms r -> zlen ms <= occurrences coll s.
Proof.
  induction 1 as [s H|f m id p s ms r HF HS IH|b s ms r H1 H2 HS IH].
  - apply (occurrences_nonneg coll s).
  - rewrite zlen_cons. destruct (is_frame_head _ _ _ _ _ HF) as (t & Ef).
    assert (1 <= begun coll (f ++ s)) as HB.
    { destruct HF as (Hid & Hp & E). apply with_ids_in in Hid.
      assert (forall x, 0 <= (fun im => if begins coll im (f ++ s) then 1 else 0) x) as H0 by (intros x; cbv beta; destruct (begins coll x (f ++ s)); lia).
      pose proof (zsum_member _ _ _ H0 Hid) as H. cbv beta in H. rewrite (proj2 (begins_frame coll id m (f ++ s))) in H by (exists p, s; rewrite E; auto). exact H. }
    assert (occurrences coll (f ++ s) = begun coll (f ++ s) + occurrences coll ((id :: 2 :: t) ++ s)) as E by (rewrite Ef; reflexivity).
    pose proof (occurrences_app coll (id :: 2 :: t) s) as HO. lia.
  - cbn [occurrences]. pose proof (begun_nonneg coll (b :: s)). lia.
Qed.

(** ** Counting *)
Lemma payloads_count n : zlen (payloads n) = 256 ^ Z.of_nat n.
Proof.
  induction n as [|n IH]; [reflexivity|]. cbn [payloads].
  rewrite (flat_map_constant_length _ (256 ^ Z.of_nat n)).
  - unfold zlen. rewrite map_length, seq_length, (Nat2Z.inj_succ n), Z.pow_succ_r by lia. reflexivity.
  - intros b _. unfold zlen. rewrite map_length. exact IH.
Qed.

Lemma all_strings_payloads n L : all_strings n L -> Permutation L (payloads n).
Proof.
  intros (HN & HI). apply NoDup_Permutation; [assumption | apply payloads_nodup|].
  intros s. rewrite HI, payloads_in. unfold bytes_ok. tauto.
Qed.
Lemma payloads_all n : all_strings n (payloads n).
Proof. split; [apply payloads_nodup|]. intros s. rewrite payloads_in. unfold bytes_ok. tauto. Qed.

Definition overhead (e : envelope) : nat := match e with Basic => 5 | BasicChecksum => 6 end.
Lemma frame_size_overhead e m : frame_size e m = (payload_size m + overhead e)%nat.
Proof. unfold frame_size. destruct e; cbn [overhead]; lia. Qed.

Lemma begins_count coll id m n : 0 <= id < 256 -> (frame_size (mc_env coll) m <= n)%nat ->
  zlen (filter (begins coll (id, m)) (payloads n)) = 256 ^ Z.of_nat (n - overhead (mc_env coll)).
Proof.
  intros Hid Hn. rewrite <- payloads_count. rewrite frame_size_overhead in Hn.
  set (g := fun q => spec_frame (mc_env coll) id (firstn (payload_size m) q) ++ skipn (payload_size m) q).
  assert (forall q : list Z, length q = (n - overhead (mc_env coll))%nat -> length (firstn (payload_size m) q) = payload_size m) as HFL.
  { intros q Hq. rewrite firstn_length. lia. }
  assert (zlen (map g (payloads (n - overhead (mc_env coll)))) = zlen (payloads (n - overhead (mc_env coll)))) as <- by (unfold zlen; rewrite map_length; reflexivity).
  unfold zlen. f_equal. apply Permutation_length. apply NoDup_Permutation.
  - apply NoDup_filter, payloads_nodup.
  - assert (forall l : list (list Z), NoDup l -> (forall q, In q l -> length q = (n - overhead (mc_env coll))%nat) -> NoDup (map g l)) as H.
    { induction 1 as [|q l Hq HN IH]; intros HL; cbn [map]; constructor.
      - intros HI. apply in_map_iff in HI as (q' & E & HI). apply Hq.
        assert (q' = q) as <-; [|assumption].
        assert (length q' = (n - overhead (mc_env coll))%nat) as L' by (apply HL; right; assumption).
        assert (length q = (n - overhead (mc_env coll))%nat) as L by (apply HL; left; reflexivity).
        unfold g in E. apply app_eq_len in E as (E1 & E2).
        + apply spec_frame_inj in E1 as (_ & E1); [|rewrite !HFL by assumption; reflexivity].
          rewrite <- (firstn_skipn (payload_size m) q'), <- (firstn_skipn (payload_size m) q), E1, E2. reflexivity.
        + rewrite !(spec_frame_length coll m) by (apply HFL; assumption). reflexivity.
      - apply IH. intros q' Hq'. apply HL. right. assumption. }
    apply H; [apply payloads_nodup|]. intros q Hq. apply payloads_in in Hq. tauto.
  - intros s. rewrite filter_In, payloads_in, begins_frame, in_map_iff. split.
    + intros ((HL & HB) & p & s' & Hp & E). exists (p ++ s'). subst s. rewrite app_length, (spec_frame_length coll m) in HL by assumption.
      rewrite frame_size_overhead in HL. split.
      * unfold g. rewrite firstn_app_exact, skipn_app_exact by (symmetry; assumption). reflexivity.
      * apply payloads_in. split; [rewrite app_length; lia|].
        apply Forall_app in HB as (HB1 & HB2). apply Forall_app. split; [|assumption].
        unfold spec_frame in HB1. destruct (mc_env coll); rewrite ?Forall_app in HB1; tauto.
    + intros (q & <- & Hq). apply payloads_in in Hq as (HL & HB). pose proof (HFL q HL) as HF. unfold g. split.
      * split.
        -- rewrite app_length, (spec_frame_length coll m), skipn_length, frame_size_overhead by assumption. lia.
        -- rewrite <- (firstn_skipn (payload_size m) q) in HB. apply Forall_app in HB as (HB1 & HB2). apply Forall_app. split; [|assumption].
           unfold spec_frame. assert (bytes_ok [1; id; 2]) by (repeat constructor; lia).
           destruct (mc_env coll); cbv zeta; repeat (apply Forall_app; split); try assumption; repeat constructor; try lia.
           all: apply Z.mod_pos_bound; reflexivity.
      * eexists. eexists. split; [|reflexivity]. assumption.
Qed.

Lemma has_id_byte coll m id : static_ok coll = true -> has_id coll m id -> 0 <= id < 256.
Proof.
  intros Hst (H0 & HE). apply static_ok_elim in Hst as ((_ & H) & _). unfold message_count, zlen in H.
  assert (nth_error (mc_types coll) (Z.to_nat id) <> None) as HN by congruence. apply nth_error_Some in HN. lia.
Qed.

Lemma begins_none coll id m n : (n < frame_size (mc_env coll) m)%nat -> filter (begins coll (id, m)) (payloads n) = [].
Proof.
  intros Hn. assert (forall s, In s (payloads n) -> begins coll (id, m) s = false) as H.
  { intros s Hs. apply payloads_in in Hs as (HL & _). unfold begins. rewrite (proj2 (Nat.leb_gt _ _)) by lia. reflexivity. }
  induction (payloads n) as [|s l IH]; [reflexivity|]. cbn [filter]. rewrite (H s (or_introl eq_refl)). apply IH. intros t Ht. apply H. right. assumption.
Qed.

Lemma snd_with_ids (f : mtype -> Z) coll : zsum (map (fun im => f (snd im)) (with_ids coll)) = zsum (map f (mc_types coll)).
Proof.
  unfold with_ids. generalize 0%nat. induction (mc_types coll) as [|m l IH]; intros k; [reflexivity|].
  cbn [length seq map combine snd]. change (f m + ?a = zsum (?b :: ?r)) with (f m + a = b + zsum r).
  cbn [zsum fold_right]. unfold zsum in *. cbn [fold_right]. rewrite IH. reflexivity.
Qed.

Lemma begun_sum coll n : static_ok coll = true ->
  zsum (map (begun coll) (payloads n)) * 256 ^ redundant (mc_env coll)
  = zsum (map (fun m => if Nat.leb (frame_size (mc_env coll) m) n then 1 else 0) (mc_types coll)) * 256 ^ Z.of_nat n.
Proof.
  intros Hst. unfold begun. rewrite (zsum_swap (fun s im => if begins coll im s then 1 else 0)).
  rewrite !zsum_scale, <- (snd_with_ids (fun m => (if Nat.leb (frame_size (mc_env coll) m) n then 1 else 0) * 256 ^ Z.of_nat n)).
  apply zsum_ext. intros (id, m) HI. rewrite (zsum_filter (begins coll (id, m))). cbn [snd].
  apply with_ids_in in HI. destruct (Nat.leb_spec (frame_size (mc_env coll) m) n) as [HL|HL].
  - rewrite begins_count by (try assumption; eapply has_id_byte; eassumption).
    assert (redundant (mc_env coll) = Z.of_nat (overhead (mc_env coll))) as -> by (destruct (mc_env coll); reflexivity).
    rewrite <- Z.pow_add_r, Z.mul_1_l by lia. f_equal. rewrite frame_size_overhead in HL. lia.
  - rewrite begins_none by assumption. reflexivity.
Qed.

Lemma occurrences_sum coll n : static_ok coll = true ->
  zsum (map (occurrences coll) (payloads n)) * 256 ^ redundant (mc_env coll) = places coll n * 256 ^ Z.of_nat n.
Proof.
  intros Hst. induction n as [|n IH].
  - pose proof (begun_sum coll 0 Hst) as HB. cbn [payloads map] in *. cbn [occurrences] in *. rewrite Z.add_0_r.
    rewrite HB. f_equal. unfold places. apply zsum_ext. intros m _. pose proof (frame_size_ge5 (mc_env coll) m).
    destruct (Nat.leb_spec (frame_size (mc_env coll) m) 0); lia.
  - rewrite (zsum_ext (occurrences coll) (fun s => begun coll s + occurrences coll (tl s))).
    2:{ intros s Hs. apply payloads_in in Hs as (HL & _). destruct s as [|b s]; [discriminate | reflexivity]. }
    rewrite zsum_plus, Z.mul_add_distr_r, begun_sum by assumption.
    cbn [payloads]. rewrite zsum_flat_map.
    rewrite (zsum_ext (fun b => zsum (map (fun s => occurrences coll (tl s)) (map (cons b) (payloads n)))) (fun _ => zsum (map (occurrences coll) (payloads n)))).
    2:{ intros b _. rewrite map_map. reflexivity. }
    rewrite zsum_const. unfold zlen at 1. rewrite map_length, seq_length.
    rewrite <- Z.mul_assoc, IH, Nat2Z.inj_succ, Z.pow_succ_r by lia.
    assert (places coll (S n) = zsum (map (fun m => if Nat.leb (frame_size (mc_env coll) m) (S n) then 1 else 0) (mc_types coll)) + places coll n) as ->.
    { unfold places. rewrite <- zsum_plus. apply zsum_ext. intros m _. destruct (Nat.leb_spec (frame_size (mc_env coll) m) (S n)); lia. }
    change (Z.of_nat 256) with 256. ring.
Qed.

Section Noise.
Context (c : config) (coll : collection).
Hypothesis Hst : static_ok coll = true.
Hypothesis Hsafe : index_safe c (capacity coll).
Context (beh : hbehav).
Hypothesis Ht : tame beh.

Lemma noise_found h0 pre ms s w : Scan coll pre ms [] -> processed c coll beh h0 (pre ++ s) w ->
  exists ms', Scan coll s ms' (held w) /\ zlen (completed beh [] (w_log w)) = zlen ms + zlen ms'.
Proof.
  intros HP H. destruct (stream_lemma c coll Hst Hsafe beh Ht _ _ _ H) as (all & HS & HF).
  destruct (scan_total coll s) as (ms' & r & HS'). destruct (scan_det _ _ _ _ HS _ _ (scan_app _ _ _ _ _ _ HP HS')) as (E1 & E2).
  exists ms'. rewrite E2. split; [assumption|]. unfold zlen. rewrite <- (forall2_length _ _ _ HF), E1, app_length. lia.
Qed.

Lemma noise_average_lemma h0 pre ms n L (res : list Z -> world) :
  Scan coll pre ms [] -> all_strings n L ->
  (forall s, In s L -> processed c coll beh h0 (pre ++ s) (res s)) ->
  zsum (map (fun s => zlen (completed beh [] (w_log (res s))) - zlen ms) L) * 256 ^ redundant (mc_env coll)
  <= places coll n * 256 ^ Z.of_nat n.
Proof.
  intros HP HL HR. rewrite <- occurrences_sum, <- (zsum_perm _ _ _ (all_strings_payloads _ _ HL)) by assumption.
  apply Z.mul_le_mono_nonneg_r; [apply Z.pow_nonneg; lia|]. apply zsum_le. intros s Hs.
  destruct (noise_found _ _ _ _ _ HP (HR s Hs)) as (ms' & HS & E). pose proof (scan_occurrences _ _ _ _ HS). lia.
Qed.

Lemma noise_rare_lemma h0 pre ms n L (res : list Z -> world) :
  Scan coll pre ms [] -> all_strings n L ->
  (forall s, In s L -> processed c coll beh h0 (pre ++ s) (res s)) ->
  forall bad, NoDup bad ->
  (forall s, In s bad -> In s L /\ length (completed beh [] (w_log (res s))) <> length ms) ->
  zlen bad * 256 ^ redundant (mc_env coll) <= places coll n * 256 ^ Z.of_nat n.
Proof.
  intros HP HL HR bad HN HB.
  etransitivity; [|exact (noise_average_lemma _ _ _ _ _ _ HP HL HR)].
  apply Z.mul_le_mono_nonneg_r; [apply Z.pow_nonneg; lia|].
  set (f := fun s => zlen (completed beh [] (w_log (res s))) - zlen ms).
  set (isbad := fun s => if list_eq_dec (list_eq_dec Z.eq_dec) (filter (fun t => if list_eq_dec Z.eq_dec s t then true else false) bad) [] then false else true).
  assert (forall s, isbad s = true <-> In s bad) as HI.
  { intros s. unfold isbad. destruct (list_eq_dec _ _ _) as [E|E].
    - split; [discriminate|]. intros Hs. assert (In s []) as []. rewrite <- E. apply filter_In. split; [assumption|]. destruct (list_eq_dec _ _ _); [reflexivity | contradiction].
    - split; [intros _ | reflexivity]. destruct (filter _ bad) as [|t l] eqn:EF; [contradiction|].
      assert (In t (t :: l)) as HT by (left; reflexivity). rewrite <- EF in HT. apply filter_In in HT as (HT & E'). destruct (list_eq_dec _ _ _); [subst; assumption | discriminate]. }
  assert (zlen bad = zsum (map (fun s => if isbad s then 1 else 0) L)) as ->.
  { rewrite zsum_filter. unfold zlen. f_equal. apply Permutation_length, NoDup_Permutation; [assumption | apply NoDup_filter; apply HL|].
    intros s. rewrite filter_In, HI. split; [|tauto]. intros Hs. destruct (HB s Hs). auto. }
  apply zsum_le. intros s Hs. destruct (noise_found _ _ _ _ _ HP (HR s Hs)) as (ms' & _ & E).
  unfold f; unfold zlen in *. destruct (isbad s) eqn:Eb; [|lia]. apply HI in Eb. destruct (HB s Eb) as (_ & HE). lia.
Qed.

(** A string as long as all the frames is a frame or contains none. *)
Lemma begun_short s : (forall m, In m (mc_types coll) -> (length s < frame_size (mc_env coll) m)%nat) -> begun coll s = 0.
Proof.
  intros H. unfold begun. rewrite (zsum_ext _ (fun _ => 0)); [rewrite zsum_const; lia|]. intros (id, m) HI. apply with_ids_in in HI as (_ & HI).
  unfold begins. rewrite (proj2 (Nat.leb_gt _ _)); [reflexivity|]. apply H. eapply nth_error_In. eassumption.
Qed.
Lemma occurrences_short s : (forall m, In m (mc_types coll) -> (length s < frame_size (mc_env coll) m)%nat) -> occurrences coll s = 0.
Proof.
  induction s as [|b s IH]; intros H; cbn [occurrences]; rewrite begun_short by assumption; [reflexivity|].
  rewrite IH; [reflexivity|]. intros m Hm. specialize (H m Hm). cbn [length] in H. lia.
Qed.
Lemma begun_none s : (forall f m id p s', is_frame coll f m id p -> s <> f ++ s') -> begun coll s = 0.
Proof.
  intros H. unfold begun. rewrite (zsum_ext _ (fun _ => 0)); [rewrite zsum_const; lia|]. intros (id, m) HI. apply with_ids_in in HI.
  destruct (begins coll (id, m) s) eqn:E; [|reflexivity]. apply begins_frame in E as (p & s' & Hp & E).
  exfalso. refine (H _ m id p s' _ E). split; [|split]; auto.
Qed.
Lemma with_ids_nodup : NoDup (with_ids coll).
Proof.
  unfold with_ids. generalize 0%nat. induction (mc_types coll) as [|m l IH]; intros k; cbn [length seq map combine]; constructor; [|apply IH].
  intros HI. apply in_combine_l in HI. apply in_map_iff in HI as (j & E & HI). apply in_seq in HI. lia.
Qed.
Lemma begun_frame f m id p s : is_frame coll f m id p -> begun coll (f ++ s) = 1.
Proof.
  intros HF. unfold begun. rewrite (zsum_filter (fun im => begins coll im (f ++ s))).
  replace (filter _ _) with [(id, m)]; [reflexivity|]. symmetry. apply Permutation_length_1_inv, NoDup_Permutation.
  - constructor; [intros []|constructor].
  - apply NoDup_filter, with_ids_nodup.
  - intros (id', m'). rewrite filter_In, with_ids_in, begins_frame. cbn [In]. split.
    + intros [E|[]]. injection E as <- <-. destruct HF as (H1 & H2 & ->). split; [assumption|]. eauto.
    + intros (Hid & p' & s' & Hp' & E). left.
      assert (is_frame coll (spec_frame (mc_env coll) id' p') m' id' p') as HF' by (split; auto).
      pose proof (is_frame_unique _ _ _ _ _ _ _ _ _ _ _ HF HF' E) as HU. intuition congruence.
Qed.

Lemma scan_whole s ms r : Scan coll s ms r -> (forall m, In m (mc_types coll) -> frame_size (mc_env coll) m = length s) ->
  zlen ms = begun coll s.
Proof.
  intros H HL. destruct H as [s H|f m id p s ms r HF HS|b s ms r H1 H2 HS].
  - rewrite begun_none; [reflexivity|]. intros f m id p s' HF E. apply (frame_not_undecided _ _ _ _ _ s' HF). rewrite <- E. assumption.
  - rewrite (begun_frame _ _ _ _ _ HF). pose proof (is_frame_length _ _ _ _ _ HF) as EL. destruct HF as ((_ & HI) & _).
    rewrite (HL m), app_length in EL by (eapply nth_error_In; eassumption). destruct s as [|b s]; [|cbn [length] in EL; lia].
    destruct (scan_det _ _ _ _ HS _ _ (scan_nil coll)) as (-> & _). reflexivity.
  - rewrite begun_none by assumption. pose proof (scan_occurrences _ _ _ _ HS) as H. rewrite occurrences_short in H; [unfold zlen in *; lia|].
    intros m Hm. rewrite (HL m Hm). cbn [length]. lia.
Qed.

Lemma noise_exact_lemma h0 pre ms n L (res : list Z -> world) :
  Scan coll pre ms [] -> all_strings n L ->
  (forall m, In m (mc_types coll) -> frame_size (mc_env coll) m = n) ->
  (forall s, In s L -> processed c coll beh h0 (pre ++ s) (res s)) ->
  zsum (map (fun s => zlen (completed beh [] (w_log (res s))) - zlen ms) L) * 256 ^ redundant (mc_env coll)
  = zlen (mc_types coll) * 256 ^ Z.of_nat n.
Proof.
  intros HP HL Hn HR.
  rewrite (zsum_ext _ (begun coll)).
  - rewrite (zsum_perm _ _ _ (all_strings_payloads _ _ HL)), begun_sum by assumption. f_equal.
    rewrite (zsum_ext _ (fun _ => 1)), zsum_const; [lia|]. intros m Hm. rewrite (Hn m Hm), Nat.leb_refl. reflexivity.
  - intros s Hs. destruct (noise_found _ _ _ _ _ HP (HR s Hs)) as (ms' & HS & E).
    rewrite <- (scan_whole _ _ _ HS); [lia|]. intros m Hm. rewrite (Hn m Hm). symmetry. apply HL. assumption.
Qed.
End Noise.

(** A string fed to a new receiver byte by byte, processMessages after each. *)
Definition fed (fuel : nat) (c : config) (coll : collection) (beh : hbehav) (h : handler) (s : list Z) : world :=
  match run fuel c coll beh (feed (map (fun b => [b]) s)) (start coll (Some h)) with Ok (w, _) => w | _ => start coll (Some h) end.
Lemma fed_processed c coll : static_ok coll = true -> index_safe c (capacity coll) ->
  forall beh, steady beh -> (forall log, hr_throws (beh log) = false) -> bool_free coll ->
  forall fuel, (Z.to_nat (capacity coll) < fuel)%nat ->
  forall h s, bytes_ok s -> s <> [] ->
  (exists rs, run fuel c coll beh (feed (map (fun b => [b]) s)) (start coll (Some h)) = Ok (fed fuel c coll beh h s, rs))
  /\ processed c coll beh (Some h) s (fed fuel c coll beh h s).
Proof.
  intros Hst Hsafe beh Hb Hnt Hbf fuel Hfuel h s HB Hne.
  assert (concat (map (fun b => [b]) s) = s) as EC by (clear; induction s as [|b s IH]; [reflexivity | cbn; rewrite IH; reflexivity]).
  destruct (feed_lemma c coll Hst Hsafe beh Hb Hnt fuel Hfuel h (map (fun b => [b]) s)) as (w & rs & H1 & _ & H3).
  - apply Forall_forall. intros ch Hc. apply in_map_iff in Hc as (b & <- & Hbs). split.
    + constructor; [|constructor]. exact (proj1 (Forall_forall _ _) HB b Hbs).
    + pose proof (max_ge5 _ Hst). unfold zlen. cbn [length]. lia.
  - apply bool_free_decodable; [assumption | assumption | rewrite EC; assumption].
  - unfold fed. rewrite H1. split; [eexists; reflexivity|]. rewrite EC in H3. apply H3. destruct s; [contradiction | discriminate].
Qed.

Lemma noise_run_lemma c coll : static_ok coll = true -> index_safe c (capacity coll) ->
  forall beh, steady beh -> (forall log, hr_throws (beh log) = false) -> bool_free coll ->
  forall fuel, (Z.to_nat (capacity coll) < fuel)%nat ->
  forall h n L, (0 < n)%nat -> all_strings n L ->
  exists res, (forall s, In s L -> exists rs,
      run fuel c coll beh (feed (map (fun b => [b]) s)) (start coll (Some h)) = Ok (res s, rs))
    /\ zsum (map (fun s => zlen (w_log (res s))) L) * 256 ^ redundant (mc_env coll) <= places coll n * 256 ^ Z.of_nat n
    /\ zlen (filter (fun s => 0 <? zlen (w_log (res s))) L) * 256 ^ redundant (mc_env coll) <= places coll n * 256 ^ Z.of_nat n.
Proof.
  intros Hst Hsafe beh Hb Hnt Hbf fuel Hfuel h n L Hn HL.
  set (res := fed fuel c coll beh h).
  assert (forall s, In s L -> (exists rs, run fuel c coll beh (feed (map (fun b => [b]) s)) (start coll (Some h)) = Ok (res s, rs))
            /\ processed c coll beh (Some h) s (res s)) as HR.
  { intros s Hs. apply HL in Hs as (HB & HLn). apply fed_processed; try assumption. intros ->. cbn in HLn. lia. }
  exists res. split; [intros s Hs; apply (HR s Hs)|].
  assert (forall s, completed beh [] (w_log (res s)) = w_log (res s)) as HC by (intros s; apply completed_all; assumption).
  pose proof (noise_average_lemma c coll Hst Hsafe beh (steady_tame _ Hb) (Some h) [] [] n L res (scan_nil coll) HL (fun s Hs => proj2 (HR s Hs))) as HA.
  rewrite (zsum_ext _ (fun s => zlen (w_log (res s)))) in HA by (intros s _; rewrite HC; change (zlen (@nil found)) with 0; lia).
  split; [assumption|]. etransitivity; [|exact HA]. apply Z.mul_le_mono_nonneg_r; [apply Z.pow_nonneg; lia|].
  rewrite <- zsum_filter. apply zsum_le. intros s _. unfold zlen. destruct (Z.ltb_spec 0 (Z.of_nat (length (w_log (res s))))); lia.
Qed.
