(** checkBufferForMessage finds exactly what the scanner finds first. *)
From Verif Require Export ScanProofs SpecReceiver.

Definition erep (coll : collection) (e : erb) (X : list Z) : Prop := rep (capacity coll) (er_buf e) X.

Section Check.
Context (c : config) (coll : collection) (Hst : static_ok coll = true).

Local Notation cap := (capacity coll).
Let Hcap : cap_ok cap := capacity_ok coll Hst.

Lemma er_buffer_spec e X i : erep coll e X -> 0 <= i < zlen X ->
  er_buffer c coll e i = Ok (nth (Z.to_nat i) X 0).
Proof.
  intros R Hi. unfold er_buffer. pose proof (rep_size_le _ _ _ R).
  rewrite (to_sz_small _ Hcap) by lia. apply (rep_index c cap Hcap); assumption.
Qed.

Lemma er_pop_front_spec e P X n : erep coll e (P ++ X) -> n = zlen P -> P ++ X <> [] ->
  exists e', er_pop_front c coll n e = Ok e' /\ erep coll e' X /\ er_id e' = er_id e.
Proof.
  intros R -> Hne. unfold er_pop_front. pose proof (rep_size_le _ _ _ R) as Hle.
  rewrite zlen_app in Hle. pose proof (zlen_nonneg P). pose proof (zlen_nonneg X).
  rewrite (to_sz_small _ Hcap) by lia.
  destruct (P ++ X) as [|y l] eqn:E; [contradiction|]. rewrite <- E in R.
  assert (hd_error (P ++ X) = Some y) as Hy by (rewrite E; reflexivity).
  destruct (rep_pop_front c cap Hcap (er_buf e) P X y (zlen P) R eq_refl Hy) as (b' & Hb & Rb).
  rewrite Hb. cbn [bind]. eexists. split; [reflexivity|]. split; [exact Rb | reflexivity].
Qed.

Lemma skip_to_soh_spec fuel : forall e X, erep coll e X -> (length X < fuel)%nat ->
  exists e' Y, skip_to_soh fuel c coll e = Ok e' /\ erep coll e' Y /\ er_id e' = er_id e
               /\ Skips coll X Y /\ (exists K, X = K ++ Y)
               /\ (Y = [] \/ exists Y', Y = 1 :: Y').
Proof.
  induction fuel as [|fuel IH]; intros e X R Hf; [lia|].
  cbn [skip_to_soh]. rewrite (rep_empty _ _ _ R).
  destruct X as [|x X].
  - exists e, []. repeat split; auto. constructor. exists []. reflexivity.
  - rewrite (rep_front c _ Hcap _ _ _ R). cbn [bind]. unfold SOH.
    destruct (Z.eqb_spec x 1) as [->|Hx].
    + exists e, (1 :: X). repeat split; eauto. constructor. exists []. reflexivity.
    + destruct (er_pop_front_spec e [x] X 1 R eq_refl) as (e1 & -> & R1 & H1); [discriminate|].
      cbn [bind]. destruct (IH e1 X R1) as (e2 & Y & -> & R2 & H2 & HS & (K & ->) & HY); [simpl in Hf; lia|].
      exists e2, Y. repeat split; auto; try congruence.
      * constructor; [apply not_soh_dead; assumption | assumption].
      * exists (x :: K). reflexivity.
Qed.

(** Sum computed by the checksum loop. *)
Lemma checksum_loop_spec e X : erep coll e X -> forall L P Q ck,
  X = P ++ L ++ Q -> 0 <= ck < 256 ->
  checksum_loop (length L) c coll e (zlen P) ck = Ok ((ck + zsum L) mod 256).
Proof.
  intros R. induction L as [|x L IH]; intros P Q ck E Hck; cbn [checksum_loop length zsum fold_right].
  - rewrite Z.add_0_r, Z.mod_small by lia. reflexivity.
  - rewrite (er_buffer_spec e X) with (1 := R).
    2:{ rewrite E, !zlen_app, zlen_cons. pose proof (zlen_nonneg P). pose proof (zlen_nonneg L).
        pose proof (zlen_nonneg Q). lia. }
    cbn [bind tx_byte checksum_tx checksum_byte].
    replace (nth (Z.to_nat (zlen P)) X 0) with x.
    2:{ rewrite E. unfold zlen. rewrite Nat2Z.id, app_nth2, Nat.sub_diag by lia. reflexivity. }
    replace (zlen P + 1) with (zlen (P ++ [x])) by (rewrite zlen_app; reflexivity).
    rewrite (IH (P ++ [x]) Q).
    + f_equal. unfold trunc. change (2 ^ 8) with 256. rewrite Zplus_mod_idemp_l. f_equal.
      unfold zsum. simpl. lia.
    + rewrite E, <- app_assoc. reflexivity.
    + unfold trunc. change (2 ^ 8) with 256. apply Z.mod_pos_bound. lia.
Qed.

Lemma nth_app_at {A} (P Q : list A) x d i : i = length P -> nth i (P ++ x :: Q) d = x.
Proof. intros ->. rewrite app_nth2, Nat.sub_diag by lia. reflexivity. Qed.

Lemma er_buffer_at e P x Q i : erep coll e (P ++ x :: Q) -> i = zlen P ->
  er_buffer c coll e i = Ok x.
Proof.
  intros R ->. rewrite (er_buffer_spec _ _ _ R).
  - unfold zlen. rewrite Nat2Z.id, nth_app_at by reflexivity. reflexivity.
  - rewrite zlen_app, zlen_cons. pose proof (zlen_nonneg P). pose proof (zlen_nonneg Q). lia.
Qed.

(** The trailer test decides whether the candidate is a frame. *)
Lemma trailer_spec e m id p t s :
  has_id coll m id -> length p = payload_size m ->
  length ([1; id; 2] ++ p ++ t) = frame_size (mc_env coll) m ->
  erep coll e ([1; id; 2] ++ p ++ t ++ s) ->
  exists ok, trailer c coll e (Z.of_nat (frame_size (mc_env coll) m)) = Ok ok
             /\ (ok = true <-> [1; id; 2] ++ p ++ t = spec_frame (mc_env coll) id p).
Proof.
  intros Hm Hp HL R. unfold trailer, spec_frame, frame_size in *. cbv zeta.
  rewrite !app_length in HL. simpl length in HL.
  destruct (mc_env coll).
  - assert (exists t1 t2, t = [t1; t2]) as (t1 & t2 & ->).
    { destruct t as [|t1 [|t2 [|]]]; simpl in HL; try lia. eauto. }
    unfold basic_trailer.
    rewrite (er_buffer_at e ([1; id; 2] ++ p) t1 (t2 :: s)).
    2:{ rewrite <- app_assoc. exact R. }
    2:{ rewrite zlen_app. unfold zlen. simpl length. lia. }
    cbn [bind]. unfold ETX, EOT. destruct (Z.eqb_spec t1 3) as [->|H1]; cbn [negb].
    + rewrite (er_buffer_at e ([1; id; 2] ++ p ++ [3]) t2 s).
      2:{ rewrite <- !app_assoc. exact R. }
      2:{ rewrite !zlen_app. unfold zlen. simpl length. lia. }
      cbn [bind]. eexists. split; [reflexivity|]. rewrite Z.eqb_eq. split.
      * intros ->. reflexivity.
      * intros H. apply app_inv_head, app_inv_head in H. congruence.
    + eexists. split; [reflexivity|]. split; [discriminate|].
      intros H. apply app_inv_head, app_inv_head in H. congruence.
  - assert (exists t1 t2 t3, t = [t1; t2; t3]) as (t1 & t2 & t3 & ->).
    { destruct t as [|t1 [|t2 [|t3 [|]]]]; simpl in HL; try lia. eauto. }
    unfold checksum_trailer.
    rewrite (er_buffer_at e ([1; id; 2] ++ p) t1 (t2 :: t3 :: s)).
    2:{ rewrite <- app_assoc. exact R. }
    2:{ rewrite zlen_app. unfold zlen. simpl length. lia. }
    cbn [bind]. unfold ETX, EOT. destruct (Z.eqb_spec t1 3) as [->|H1]; cbn [negb].
    2:{ eexists. split; [reflexivity|]. split; [discriminate|].
        rewrite <- !app_assoc. intros H. apply app_inv_head, app_inv_head in H. simpl in H. congruence. }
    rewrite (er_buffer_at e ([1; id; 2] ++ p ++ [3; t2]) t3 s).
    2:{ rewrite <- !app_assoc. exact R. }
    2:{ rewrite !zlen_app. unfold zlen. simpl length. lia. }
    cbn [bind]. destruct (Z.eqb_spec t3 4) as [->|H3]; cbn [negb].
    2:{ eexists. split; [reflexivity|]. split; [discriminate|].
        rewrite <- !app_assoc. intros H. apply app_inv_head, app_inv_head in H. simpl in H. congruence. }
    replace (Z.to_nat (Z.of_nat (payload_size m + 6) - 2)) with (length ([1; id; 2] ++ p ++ [3]))
      by (rewrite !app_length; simpl length; lia).
    change 0 with (zlen (@nil Z)).
    rewrite (checksum_loop_spec e _ R ([1; id; 2] ++ p ++ [3]) [] (t2 :: 4 :: s)).
    2:{ cbn [app]. rewrite <- !app_assoc. reflexivity. }
    2:{ unfold checksum_init. lia. }
    cbn [bind].
    rewrite (er_buffer_at e ([1; id; 2] ++ p ++ [3]) t2 (4 :: s)).
    2:{ rewrite <- !app_assoc. exact R. }
    2:{ rewrite !zlen_app. unfold zlen. simpl length. lia. }
    cbn [bind]. eexists. split; [reflexivity|]. unfold checksum_init. rewrite Z.add_0_l, Z.eqb_eq. split.
    * intros <-. rewrite <- !app_assoc. reflexivity.
    * rewrite <- !app_assoc. intros H. apply app_inv_head, app_inv_head in H. exact (eq_sym (f_equal (fun l => nth 1 l 0) H)).
Qed.

(** What a check establishes, for the bytes [X] in the buffer. *)
Definition check_post (X : list Z) (res : outcome (bool * erb)) : Prop :=
  exists ok e Y, res = Ok (ok, e) /\ Skips coll X Y /\ (exists K, X = K ++ Y) /\ erep coll e Y /\
    if ok then exists f m id p s, Y = f ++ s /\ is_frame coll f m id p /\ er_id e = Some id
    else undecided coll Y.

Lemma check_post_skip b X res : dead coll (b :: X) -> check_post X res -> check_post (b :: X) res.
Proof.
  intros D (ok & e & Y & H1 & H2 & (K & ->) & H3). exists ok, e, Y.
  split; [assumption|]. split; [constructor; assumption|]. split; [exists (b :: K); reflexivity|]. assumption.
Qed.

Lemma check_post_skips X Y res : Skips coll X Y -> (exists K, X = K ++ Y) -> check_post Y res -> check_post X res.
Proof.
  intros D (K1 & E) (ok & e & Z0 & H1 & H2 & (K & ->) & H3). exists ok, e, Z0.
  split; [assumption|]. split; [eapply skips_trans; eassumption|].
  split; [exists (K1 ++ K); rewrite <- app_assoc; assumption|]. assumption.
Qed.

Lemma pop_and_retry_spec chk e b X :
  erep coll e (b :: X) -> dead coll (b :: X) ->
  (forall e', erep coll e' X -> check_post X (chk e')) ->
  check_post (b :: X) (pop_and_retry c coll chk e).
Proof.
  intros R D IH. unfold pop_and_retry. rewrite (rep_empty _ _ _ R).
  rewrite assert_true by reflexivity. cbn [bind].
  destruct (er_pop_front_spec e [b] X 1 R eq_refl) as (e1 & -> & R1 & _); [discriminate|].
  cbn [bind]. apply check_post_skip; auto.
Qed.

Theorem check_fuel_spec fuel : forall e X, erep coll e X -> bytes_ok X -> (length X < fuel)%nat ->
  check_post X (check_fuel fuel c coll e).
Proof.
  induction fuel as [|fuel IH]; intros e X R HB Hf; [lia|].
  cbn [check_fuel]. rewrite (rep_size _ Hcap _ _ R).
  destruct (skip_to_soh_spec (Datatypes.S (Z.to_nat (zlen X))) e X R) as (e1 & Y & -> & R1 & H1 & HS & (K & EK) & HY).
  { unfold zlen. lia. }
  cbn [bind]. apply (check_post_skips X Y); [assumption | eauto |].
  assert (bytes_ok Y) as HBY. { rewrite EK in HB. apply Forall_app in HB. tauto. }
  assert (length Y <= length X)%nat as HlenY. { rewrite EK, app_length. lia. }
  clear HS EK K R H1 HB e. rename e1 into e. rewrite (rep_size _ Hcap _ _ R1).
  destruct HY as [->|(Y' & ->)].
  { cbn. exists false, e, []. repeat split; auto. constructor. exists []. reflexivity. }
  destruct Y' as [|id Y'].
  { cbn. exists false, e, [1]. repeat split; auto. constructor. exists []. reflexivity. }
  rewrite (proj2 (Z.ltb_ge _ _)) by (rewrite !zlen_cons; pose proof (zlen_nonneg Y'); lia).
  rewrite (er_buffer_at e [1] id Y' 1 R1 eq_refl). cbn [bind].
  assert (0 <= id) as Hid0. { apply Forall_inv_tail, Forall_inv in HBY. lia. }
  assert (forall e', erep coll e' (id :: Y') -> check_post (id :: Y') (check_fuel fuel c coll e')) as IH'.
  { intros e' R'. apply IH; [assumption| |].
    - apply Forall_inv_tail in HBY. assumption.
    - cbn [length] in HlenY |- *. lia. }
  unfold er_set_id, er_id_valid. destruct (is_id_valid coll id) eqn:Ev; cbn [er_id negb er_buf].
  2:{ apply pop_and_retry_spec; [exact R1| |exact IH'].
      apply bad_id_dead. intros m Hm. apply has_id_valid in Hm. congruence. }
  destruct (valid_has_id coll id Hid0 Ev) as (m & Hm).
  set (e1 := {| er_id := Some id; er_buf := er_buf e |}).
  assert (erep coll e1 (1 :: id :: Y')) as Re1 by exact R1.
  rewrite (rep_size _ Hcap _ _ R1).
  destruct Y' as [|x Y'].
  { cbn. exists false, e1, [1; id]. repeat split; eauto. constructor. exists []. reflexivity. }
  rewrite (proj2 (Z.ltb_ge _ _)) by (rewrite !zlen_cons; pose proof (zlen_nonneg Y'); lia).
  rewrite (er_buffer_at e1 [1; id] x Y' 2 Re1 eq_refl). cbn [bind]. unfold STX.
  destruct (Z.eqb_spec x 2) as [->|Hx]; cbn [negb].
  2:{ apply pop_and_retry_spec; [exact Re1| |exact IH']. apply bad_stx_dead. assumption. }
  unfold er_message_length. rewrite plain_true by reflexivity. change (er_current_id c e1) with (@Ok Z id). cbn [bind].
  rewrite (get_message_length_valid coll m id Hst Hm). cbn [bind].
  destruct (Z.ltb_spec (zlen (1 :: id :: 2 :: Y')) (Z.of_nat (frame_size (mc_env coll) m))) as [Hlt|Hge].
  { exists false, e1, (1 :: id :: 2 :: Y'). repeat split; auto. constructor. exists []. reflexivity.
    exists m. split; [assumption|]. unfold zlen in Hlt. cbn [length] in Hlt |- *. lia. }
  (* full length available *)
  assert (exists p t s, Y' = p ++ t ++ s /\ length p = payload_size m
                        /\ length ([1; id; 2] ++ p ++ t) = frame_size (mc_env coll) m) as (p & t & s & -> & Hp & HL).
  { exists (firstn (payload_size m) Y'),
      (firstn (frame_size (mc_env coll) m - 3 - payload_size m) (skipn (payload_size m) Y')),
      (skipn (frame_size (mc_env coll) m - 3 - payload_size m) (skipn (payload_size m) Y')).
    rewrite !firstn_skipn. unfold zlen in Hge. cbn [length] in Hge.
    rewrite !app_length, !firstn_length, !skipn_length. cbn [length].
    unfold frame_size in *. destruct (mc_env coll); repeat split; lia. }
  destruct (trailer_spec e1 m id p t s Hm Hp HL Re1) as (ok & -> & Hok). cbn [bind].
  destruct ok.
  - exists true, e1, (1 :: id :: 2 :: p ++ t ++ s). split; [reflexivity|]. split; [constructor|].
    split; [exists []; reflexivity|]. split; [assumption|].
    exists ([1; id; 2] ++ p ++ t), m, id, p, s. split; [cbn [app]; rewrite <- ?app_assoc; reflexivity|].
    split; [|reflexivity]. split; [assumption|]. split; [assumption|]. apply Hok. reflexivity.
  - apply pop_and_retry_spec; [exact Re1| |exact IH'].
    apply (bad_frame_dead coll m id p t s Hm Hp HL). intros H. apply Hok in H. discriminate.
Qed.

Theorem check_spec e X : erep coll e X -> bytes_ok X -> check_post X (check c coll e).
Proof.
  intros R HB. unfold check. apply check_fuel_spec; [assumption|assumption|].
  rewrite (rep_size _ Hcap _ _ R). unfold zlen. lia.
Qed.

(** popMessage after a successful check removes exactly the frame. *)
Lemma pop_message_spec e f m id p s : erep coll e (f ++ s) -> bytes_ok (f ++ s) ->
  is_frame coll f m id p -> er_id e = Some id ->
  exists e', er_pop_message c coll e = Ok e' /\ erep coll e' s /\ er_id e' = None.
Proof.
  intros R HB F Hid. unfold er_pop_message.
  assert (exists e1, match mode c with
                     | Disabled => Ok e
                     | Aborting => do (found, e') <- check c coll e; if found then Ok e' else AssertFail
                     | Reporting => do (_, e') <- check c coll e; Ok e'
                     end = Ok e1 /\ erep coll e1 (f ++ s) /\ er_id e1 = Some id) as (e1 & -> & R1 & H1).
  { assert (exists e1, check c coll e = Ok (true, e1) /\ erep coll e1 (f ++ s) /\ er_id e1 = Some id)
      as (e1 & EC & R1 & H1).
    { destruct (check_spec e (f ++ s) R HB) as (ok & e1 & Y & -> & HS & _ & R1 & HP).
      assert (Y = f ++ s) as ->.
      { inversion HS as [? | b s0 s' [_ D] HS' E]; [reflexivity|]. exfalso. exact (D _ _ _ _ _ F E). }
      destruct ok.
      - exists e1. split; [reflexivity|]. split; [assumption|].
        destruct HP as (f' & m' & id' & p' & s' & E & F' & H).
        destruct (is_frame_unique _ _ _ _ _ _ _ _ _ _ _ F F' E) as (_ & _ & -> & _). assumption.
      - exfalso. exact (frame_not_undecided _ _ _ _ _ _ F HP). }
    destruct (mode c); [eauto| |]; rewrite EC; cbn [bind]; eauto. }
  cbn [bind]. unfold er_message_length, er_id_valid, er_current_id. rewrite H1, plain_true by reflexivity. cbn [bind].
  destruct F as (Hm & Hp & Ef).
  rewrite (get_message_length_valid coll m id Hst Hm). cbn [bind].
  destruct (er_pop_front_spec e1 f s (Z.of_nat (frame_size (mc_env coll) m)) R1) as (e2 & -> & R2 & _).
  - unfold zlen. f_equal. rewrite Ef. symmetry. apply spec_frame_length, Hp.
  - rewrite Ef. unfold spec_frame. destruct (mc_env coll); discriminate.
  - cbn [bind]. eexists. split; [reflexivity|]. split; [exact R2 | reflexivity].
Qed.

End Check.
