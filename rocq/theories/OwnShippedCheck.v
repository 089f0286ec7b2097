(** The shipped envelopes are envelopes as the theorems on application-written ones want them. *)
From Verif Require Export OwnShippedLemmas InterruptLemmas ConstructLemmas.

Section ShippedCheck.
Context (coll : collection) (Hst : static_ok coll = true).
Local Notation oc := (as_own coll).
Local Notation cap := (capacity coll).
Let Hcap := capacity_ok coll Hst.
Let Host : own_static_ok oc = true := eq_trans (as_own_static coll) Hst.

Lemma shipped_has_id m i : own_has_id oc m i <-> has_id coll m i.
Proof. reflexivity. Qed.

Lemma shipped_length m : own_length oc m = Z.of_nat (frame_size (mc_env coll) m).
Proof.
  unfold own_length, frame_size, as_own. cbn [oc_env]. destruct (mc_env coll); cbn [oe_size own_basic own_checksum]; lia.
Qed.

Lemma shipped_offset : oe_offset (oc_env oc) = 3.
Proof. unfold as_own. cbn [oc_env]. destruct (mc_env coll); reflexivity. Qed.

Lemma exec_shipped w X id : size_type (own_capacity oc) w -> bytes_ok X -> zlen X <= cap -> id_ok oc id ->
  exists ok Y id', exec_check w oc X id = Some (ok, Y, id') /\ Skips coll X Y
    /\ if ok then exists f m i p s, Y = f ++ s /\ is_frame coll f m i p /\ id' = Some i
       else undecided coll Y.
Proof.
  intros Hw HB HX HI.
  assert (exists b, rep cap b X) as (b & R).
  { exists (RBuf 0 (zlen X) (X ++ repeat 0 (Z.to_nat (cap - zlen X)))). exists [], (repeat 0 (Z.to_nat (cap - zlen X))).
    cbn [rb_contents rb_begin rb_pastEnd app]. repeat split. unfold zlen in *. rewrite repeat_length. cbn [length]. lia. }
  set (c := Config 32 true Aborting Aborting Aborting). set (e := ERB id b).
  pose proof (run_check_exec c oc Host w Hw (oe_check (oc_env oc)) e X) as H.
  rewrite as_own_capacity in H. specialize (H R HI). fold (own_check c oc e) in H. fold (exec_check w oc X (er_id e)) in H.
  rewrite (own_check_shipped c coll Hst e X R HB) in H.
  destruct (check_spec c coll Hst e X R HB) as (ok & e1 & Y & HC & HS & _ & R1 & HO).
  cbn [er_id e] in H. destruct (exec_check w oc X id) as [[[r Y'] id']|].
  - destruct H as (e2 & H & R2 & Hid & _). rewrite HC in H. injection H as <- <-.
    rewrite (rep_unique _ _ _ _ R2 R1) in *. exists ok, Y, id'. split; [reflexivity|]. split; [assumption|].
    destruct ok; [|assumption]. destruct HO as (f & m & i & p & s & E & F & Hi). exists f, m, i, p, s. repeat split; try assumption; try apply F. congruence.
  - rewrite H in HC by reflexivity. discriminate.
Qed.

Lemma shipped_skips_frame f m i p s Y : is_frame coll f m i p -> Skips coll (f ++ s) Y -> Y = f ++ s.
Proof.
  intros F H. remember (f ++ s) as X eqn:E. destruct H as [|b X Y D]; [reflexivity|].
  destruct D as (_ & D). destruct (D f m i p s F E).
Qed.

Lemma shipped_skips_undecided X Y : undecided coll X -> Skips coll X Y -> Y = X.
Proof. intros U H. destruct H as [|b X Y D]; [reflexivity|]. destruct D as (D & _). destruct (D U). Qed.

Lemma exec_shipped_frame w f m i p s id : size_type (own_capacity oc) w -> is_frame coll f m i p -> bytes_ok (f ++ s) ->
  zlen (f ++ s) <= cap -> id_ok oc id -> exec_check w oc (f ++ s) id = Some (true, f ++ s, Some i).
Proof.
  intros Hw F HB HX HI. destruct (exec_shipped w (f ++ s) id Hw HB HX HI) as (ok & Y & id' & HE & HS & HO).
  rewrite (shipped_skips_frame f m i p s Y F HS) in *. rewrite HE. destruct ok.
  - destruct HO as (f' & m' & i' & p' & s' & E & F' & ->).
    destruct (is_frame_unique _ _ _ _ _ _ _ _ _ _ _ F F' E) as (_ & _ & -> & _). reflexivity.
  - destruct (frame_not_undecided _ _ _ _ _ _ F HO).
Qed.

Lemma shipped_room f m i p s : is_frame coll f m i p -> room_for oc m (f ++ s).
Proof.
  intros F. unfold room_for. rewrite shipped_offset, shipped_length, zlen_app. pose proof (is_frame_length _ _ _ _ _ F) as HL.
  pose proof (zlen_nonneg s). unfold zlen at 1. rewrite HL. unfold frame_size.
  destruct (mc_env coll); repeat split; lia.
Qed.

Lemma shipped_well_behaved : well_behaved oc.
Proof.
  intros w X id Hw HB HX HI. pose proof HX as HX'. rewrite as_own_capacity in HX'.
  destruct (exec_shipped w X id Hw HB HX' HI) as (ok & Y & id' & HE & HS & HO).
  exists ok, Y, id'. split; [assumption|]. intros ->. destruct HO as (f & m & i & p & s & -> & F & ->).
  exists i, m. split; [reflexivity|]. split; [apply shipped_has_id, F|]. split; [exact (shipped_room f m i p s F)|].
  intros d Hd HL. rewrite as_own_capacity in HL. rewrite <- app_assoc in *.
  apply (exec_shipped_frame w f m i p); auto.
  - rewrite app_assoc. apply Forall_app. split; [|assumption].
    exact (proj1 (proj2 (exec_shrinks oc w Hw _ _ _ _ _ _ HE)) HB).
  - intros j Hj. injection Hj as <-. exists m. apply shipped_has_id, F.
Qed.

Lemma shipped_sent i p : 0 <= i < 256 -> sent (oe_send (oc_env oc) i) p = spec_frame (mc_env coll) i p.
Proof.
  intros Hi. unfold as_own, spec_frame. cbn [oc_env]. destruct (mc_env coll); cbn [oe_send own_basic own_checksum sent].
  - rewrite (Z.mod_small i) by lia. reflexivity.
  - rewrite (Z.mod_small i) by lia. change (SOH mod 256) with 1. change (STX mod 256) with 2. change (ETX mod 256) with 3.
    change (EOT mod 256) with 4. rewrite fold_add, !zsum_app2, <- !app_assoc. cbn [app zsum fold_right].
    do 3 f_equal. do 3 f_equal. f_equal. change SOH with 1. change STX with 2. change ETX with 3. unfold zsum. lia.
Qed.

Lemma shipped_matched : matched oc.
Proof.
  intros m i p f Hm Hp HB ->. pose proof (own_has_id_lt oc m i Hm) as Hi.
  pose proof (own_static_elim oc Host) as HE.
  assert (0 <= i < 256) as Hi2 by lia.
  rewrite (shipped_sent i p Hi2). set (f := spec_frame (mc_env coll) i p).
  assert (is_frame coll f m i p) as F by (repeat split; assumption || apply Hm).
  pose proof (is_frame_length _ _ _ _ _ F) as HL.
  assert (bytes_ok f) as HBf.
  { unfold f, spec_frame. destruct (mc_env coll); repeat (apply Forall_app; split); try assumption;
      repeat constructor; try lia; try (apply Z.mod_pos_bound; lia); try (pose proof (Z.mod_pos_bound (zsum ([1; i; 2] ++ p ++ [3])) 256); lia). }
  split. { unfold zlen. rewrite HL, shipped_length. reflexivity. }
  split. { rewrite <- (app_nil_r f). exact (shipped_room f m i p [] F). }
  split.
  { unfold own_payload, part. rewrite shipped_offset, <- Hp. unfold f, spec_frame.
    replace (Z.to_nat (3 + Z.of_nat (length p) - 3)) with (length p) by lia. change (Z.to_nat 3) with 3%nat.
    destruct (mc_env coll); cbn [app firstn skipn Nat.add]; rewrite <- ?app_assoc; rewrite ?firstn_app, ?firstn_all, ?Nat.sub_diag.
    all: cbn [firstn]; rewrite ?app_nil_r; try reflexivity. }
  intros w id Hw HI. rewrite as_own_capacity. split.
  - intros s Hs HX. apply (exec_shipped_frame w f m i p); auto. apply Forall_app. auto.
  - intros q t E Ht.
    assert (undecided coll q) as U.
    { replace q with (firstn (length q) f) by (rewrite E, firstn_app, firstn_all, Nat.sub_diag; cbn [firstn]; apply app_nil_r).
      apply (undecided_prefix coll f m i p _ F). rewrite E, app_length. destruct t; [congruence|]. cbn [length]. lia. }
    assert (bytes_ok q) as HBq. { rewrite E in HBf. apply Forall_app in HBf. tauto. }
    assert (zlen q <= cap) as HXq.
    { pose proof (own_length_cap oc Host m (own_has_id_in oc m i Hm)) as HC. rewrite as_own_capacity, shipped_length, <- HL, E, app_length in HC.
      unfold zlen. lia. }
    destruct (exec_shipped w q id Hw HBq HXq HI) as (ok & Y & id' & HE2 & HS & HO).
    rewrite (shipped_skips_undecided _ _ U HS) in *. destruct ok; [|exists id'; exact HE2].
    destruct HO as (f' & m' & i' & p' & s' & E' & F' & _). rewrite E' in U. destruct (frame_not_undecided _ _ _ _ _ _ F' U).
Qed.
End ShippedCheck.
