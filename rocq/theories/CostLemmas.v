(** Accesses to the buffer: what [Counted.v] counts, as a function of the bytes held. *)
From Verif Require Export SpecCost WorkLemmas.

(** Counting changes no result. *)
Lemma fst_cbind {A B} (m : counted A) (f : A -> counted B) (g : A -> outcome B) :
  (forall a, fst (f a) = g a) -> fst (cbind m f) = bind (fst m) g.
Proof. intros H. destruct m as [[a| | | |] n]; cbn; try reflexivity. rewrite <- H. destruct (f a). reflexivity. Qed.

Lemma fst_skip fuel c coll : forall e, fst (c_skip fuel c coll e) = skip_to_soh fuel c coll e.
Proof.
  induction fuel as [|fuel IH]; intros e; [reflexivity|]. cbn [c_skip skip_to_soh].
  destruct (rb_empty (er_buf e)); [reflexivity|]. apply fst_cbind. intros f. destruct (f =? SOH); [reflexivity|].
  apply fst_cbind. exact IH.
Qed.

Lemma fst_loop n c coll e : forall i ck, fst (c_checksum_loop n c coll e i ck) = checksum_loop n c coll e i ck.
Proof.
  induction n as [|n IH]; intros i ck; [reflexivity|]. cbn [c_checksum_loop checksum_loop].
  apply fst_cbind. intros b. apply fst_cbind. intros ck'. apply IH.
Qed.

Lemma fst_trailer c coll e len : fst (c_trailer c coll e len) = trailer c coll e len.
Proof.
  unfold c_trailer, trailer. destruct (mc_env coll).
  - apply fst_cbind. intros b1. destruct (negb (b1 =? ETX)); [reflexivity|]. apply fst_cbind. reflexivity.
  - apply fst_cbind. intros b1. destruct (negb (b1 =? ETX)); [reflexivity|]. apply fst_cbind. intros b2.
    destruct (negb (b2 =? EOT)); [reflexivity|].
    unfold checksum_trailer. rewrite <- fst_loop. apply fst_cbind. intros ck. apply fst_cbind. reflexivity.
Qed.

Lemma fst_retry c coll chk f e : (forall x, fst (chk x) = f x) -> fst (c_pop_and_retry c coll chk e) = pop_and_retry c coll f e.
Proof.
  intros H. unfold c_pop_and_retry, pop_and_retry. apply fst_cbind. intros _.
  destruct (rb_empty (er_buf e)); [reflexivity|]. apply fst_cbind. exact H.
Qed.

Lemma fst_check_fuel fuel c coll : forall e, fst (c_check_fuel fuel c coll e) = check_fuel fuel c coll e.
Proof.
  induction fuel as [|fuel IH]; intros e; [reflexivity|]. cbn [c_check_fuel check_fuel]. cbv zeta.
  rewrite <- fst_skip. apply fst_cbind. intros e1.
  destruct (rb_size (capacity coll) (er_buf e1) <? 2); [reflexivity|]. apply fst_cbind. intros b1.
  destruct (negb (er_id_valid (er_set_id coll b1 e1))); [apply fst_retry, IH|].
  destruct (rb_size (capacity coll) (er_buf (er_set_id coll b1 e1)) <? 3); [reflexivity|]. apply fst_cbind. intros b2.
  destruct (negb (b2 =? STX)); [apply fst_retry, IH|]. apply fst_cbind. intros len.
  destruct (rb_size (capacity coll) (er_buf (er_set_id coll b1 e1)) <? len); [reflexivity|].
  rewrite <- fst_trailer. apply fst_cbind. intros ok. destruct ok; [reflexivity | apply fst_retry, IH].
Qed.

Lemma fst_check c coll e : fst (c_check c coll e) = check c coll e.
Proof. apply fst_check_fuel. Qed.

Lemma fst_pop_message c coll e : fst (c_pop_message c coll e) = er_pop_message c coll e.
Proof.
  unfold c_pop_message, er_pop_message. rewrite <- fst_check.
  rewrite fst_cbind with (g := fun e => bind (er_message_length c coll e)
    (fun len => bind (er_pop_front c coll len e) (fun e0 => Ok (ERB None (er_buf e0))))).
  2:{ intros x. apply fst_cbind. intros len. apply fst_cbind. reflexivity. }
  f_equal. destruct (mode c); [reflexivity | |]; apply fst_cbind; intros [[] x]; reflexivity.
Qed.

(** The accesses of a trailer test on the bytes [X], for a message of [len] bytes. *)
Definition trailer_reads (en : envelope) (X : list Z) (len : Z) : Z :=
  match en with
  | Basic => if nth (Z.to_nat (len - 2)) X 0 =? 3 then 2 else 1
  | BasicChecksum =>
      if nth (Z.to_nat (len - 3)) X 0 =? 3
      then if nth (Z.to_nat (len - 1)) X 0 =? 4 then len + 1 else 2
      else 1
  end.

(** Is the front of [X] a message of [len] bytes? *)
Definition trailer_right (en : envelope) (X : list Z) (len : Z) : bool :=
  match en with
  | Basic => (nth (Z.to_nat (len - 2)) X 0 =? 3) && (nth (Z.to_nat (len - 1)) X 0 =? 4)
  | BasicChecksum =>
      (nth (Z.to_nat (len - 3)) X 0 =? 3) && (nth (Z.to_nat (len - 1)) X 0 =? 4)
      && (zsum (firstn (Z.to_nat (len - 2)) X) mod 256 =? nth (Z.to_nat (len - 2)) X 0)
  end.

(** The length of the messages with this id. *)
Definition id_length (coll : collection) (id : Z) : Z :=
  match get_message_length coll id with Ok len => len | _ => 0 end.

(** The accesses of checkBufferForMessage on the bytes [X]. *)
Fixpoint reads (coll : collection) (X : list Z) : Z :=
  match X with
  | [] => 0
  | x :: X' =>
      if negb (x =? 1) then 2 + reads coll X'
      else match X' with
      | [] => 1
      | id :: X'' =>
          if negb (is_id_valid coll id) then 3 + reads coll X'
          else match X'' with
          | [] => 2
          | s :: _ =>
              if negb (s =? 2) then 4 + reads coll X'
              else if zlen X <? id_length coll id then 3
              else if trailer_right (mc_env coll) X (id_length coll id)
                   then 3 + trailer_reads (mc_env coll) X (id_length coll id)
                   else 4 + trailer_reads (mc_env coll) X (id_length coll id) + reads coll X'
          end
      end
  end.

(** The bytes left after it. *)
Fixpoint remain (coll : collection) (X : list Z) : list Z :=
  match X with
  | [] => []
  | x :: X' =>
      if negb (x =? 1) then remain coll X'
      else match X' with
      | [] => X
      | id :: X'' =>
          if negb (is_id_valid coll id) then remain coll X'
          else match X'' with
          | [] => X
          | s :: _ =>
              if negb (s =? 2) then remain coll X'
              else if zlen X <? id_length coll id then X
              else if trailer_right (mc_env coll) X (id_length coll id) then X
                   else remain coll X'
          end
      end
  end.

Section Cost.
Context (c : config) (coll : collection) (Hst : static_ok coll = true).

Local Notation cap := (capacity coll).
Let Hcap : cap_ok cap := capacity_ok coll Hst.

Lemma c_buffer_spec e X i : erep coll e X -> 0 <= i < zlen X -> c_buffer c coll e i = (Ok (nth (Z.to_nat i) X 0), 1).
Proof. intros R Hi. unfold c_buffer, access. rewrite (er_buffer_spec c coll Hst e X i R Hi). reflexivity. Qed.

Lemma c_skip_spec fuel : forall e X, erep coll e X -> (length X < fuel)%nat ->
  exists e' K Y n, c_skip fuel c coll e = (Ok e', n) /\ erep coll e' Y /\ X = K ++ Y
    /\ ((Y = [] /\ n = 2 * zlen K) \/ (exists Y', Y = 1 :: Y') /\ n = 2 * zlen K + 1) /\ Forall (fun x => x <> 1) K.
Proof.
  induction fuel as [|fuel IH]; intros e X R Hf; [lia|].
  cbn [c_skip]. rewrite (rep_empty _ _ _ R). destruct X as [|x X].
  - exists e, [], [], 0. repeat split; auto.
  - unfold c_front, access at 1. rewrite (rep_front c _ Hcap _ _ _ R). cbn [cbind]. unfold SOH.
    destruct (Z.eqb_spec x 1) as [->|Hx].
    + exists e, [], (1 :: X), 1. repeat split; auto. right. split; [eauto | reflexivity].
    + destruct (er_pop_front_spec c coll Hst e [x] X 1 R eq_refl) as (e1 & E1 & R1 & H1); [discriminate|].
      unfold c_pop_front. rewrite E1. unfold access. cbn [cbind].
      destruct (IH e1 X R1) as (e2 & K & Y & n & E & R2 & -> & HY & HK); [cbn [length] in Hf; lia|]. rewrite E.
      exists e2, (x :: K), Y, (1 + (1 + n)). rewrite zlen_cons. repeat split; auto.
      destruct HY as [(-> & ->)|(HY & ->)]; [left | right]; split; auto; lia.
Qed.

Lemma reads_skip K Y : Forall (fun x => x <> 1) K -> reads coll (K ++ Y) = 2 * zlen K + reads coll Y.
Proof.
  induction 1 as [|x K Hx HK IH]; [reflexivity|]. cbn [app reads]. rewrite (proj2 (Z.eqb_neq x 1)) by assumption. cbn [negb].
  rewrite IH, zlen_cons. lia.
Qed.

Lemma c_loop_spec e X n : erep coll e X -> forall i ck, 0 <= i -> i + Z.of_nat n <= zlen X ->
  snd (c_checksum_loop n c coll e i ck) = Z.of_nat n.
Proof.
  intros R. induction n as [|n IH]; intros i ck Hi HL; [reflexivity|]. cbn [c_checksum_loop].
  rewrite (c_buffer_spec e X i R) by lia. unfold cret, cbind at 1. cbn [tx_byte checksum_tx checksum_byte cbind].
  specialize (IH (i + 1) (trunc 8 (ck + nth (Z.to_nat i) X 0)) ltac:(lia) ltac:(lia)).
  destruct (c_checksum_loop n c coll e (i + 1) _) as [r k]. cbn [snd] in *. lia.
Qed.

Lemma c_trailer_spec e X len : erep coll e X -> overhead_size (mc_env coll) <= len <= zlen X ->
  c_trailer c coll e len = (Ok (trailer_right (mc_env coll) X len), trailer_reads (mc_env coll) X len).
Proof.
  intros R HL. unfold c_trailer, trailer_right, trailer_reads. destruct (mc_env coll); cbn [overhead_size] in HL.
  - unfold c_basic_trailer. rewrite (c_buffer_spec e X _ R) by lia. cbn [cbind]. unfold ETX, EOT.
    destruct (nth (Z.to_nat (len - 2)) X 0 =? 3); cbn [negb andb]; [|reflexivity].
    rewrite (c_buffer_spec e X _ R) by lia. reflexivity.
  - unfold c_checksum_trailer. rewrite (c_buffer_spec e X _ R) by lia. cbn [cbind]. unfold ETX, EOT.
    destruct (nth (Z.to_nat (len - 3)) X 0 =? 3); cbn [negb andb]; [|reflexivity].
    rewrite (c_buffer_spec e X (len - 1) R) by lia. cbn [cbind].
    destruct (nth (Z.to_nat (len - 1)) X 0 =? 4); cbn [negb andb]; [|reflexivity].
    pose proof (c_loop_spec e X (Z.to_nat (len - 2)) R 0 checksum_init ltac:(lia) ltac:(lia)) as HN.
    pose proof (fst_loop (Z.to_nat (len - 2)) c coll e 0 checksum_init) as HF.
    assert (checksum_loop (Z.to_nat (len - 2)) c coll e 0 checksum_init = Ok (zsum (firstn (Z.to_nat (len - 2)) X) mod 256)) as HS.
    { pose proof (checksum_loop_spec c coll Hst e X R (firstn (Z.to_nat (len - 2)) X) [] (skipn (Z.to_nat (len - 2)) X) checksum_init) as H.
      rewrite firstn_length_le in H by (unfold zlen in HL; lia). cbn [app] in H. apply H.
      - rewrite firstn_skipn. reflexivity.
      - unfold checksum_init. lia. }
    destruct (c_checksum_loop (Z.to_nat (len - 2)) c coll e 0 checksum_init) as [r k]. cbn [fst snd] in *. subst r. rewrite HS. cbn [cbind].
    rewrite (c_buffer_spec e X (len - 2) R) by lia. cbn [cbind cret]. f_equal. lia.
Qed.

Lemma id_length_bounds id : 0 <= id -> is_id_valid coll id = true ->
  overhead_size (mc_env coll) <= id_length coll id <= max_message_length coll /\ get_message_length coll id = Ok (id_length coll id).
Proof.
  intros H0 Hv. destruct (valid_has_id coll id H0 Hv) as (m & Hm).
  unfold id_length. rewrite (get_message_length_valid coll m id Hst Hm). split; [|reflexivity].
  rewrite <- sizeof_bound_spec. split.
  - rewrite sizeof_bound_spec. unfold frame_size, overhead_size. destruct (mc_env coll); lia.
  - apply max_message_length_ge. apply nth_error_In with (n := Z.to_nat id). apply Hm.
Qed.

Lemma c_retry_spec chk e b X : erep coll e (b :: X) ->
  exists e2, erep coll e2 X /\ c_pop_and_retry c coll chk e = (fst (chk e2), 1 + snd (chk e2)).
Proof.
  intros R. destruct (er_pop_front_spec c coll Hst e [b] X 1 R eq_refl) as (e1 & E & R1 & _); [discriminate|].
  exists e1. split; [exact R1|]. unfold c_pop_and_retry.
  rewrite (rep_empty _ _ _ R), assert_true by reflexivity. unfold cret, c_pop_front, access. cbn [cbind]. rewrite E. cbn [cbind].
  destruct (chk e1). reflexivity.
Qed.

Lemma remain_skip K Y : Forall (fun x => x <> 1) K -> remain coll (K ++ Y) = remain coll Y.
Proof.
  induction 1 as [|x K Hx HK IH]; [reflexivity|]. cbn [app remain]. rewrite (proj2 (Z.eqb_neq x 1)) by assumption. exact IH.
Qed.

Theorem check_reads fuel : forall e X, erep coll e X -> bytes_ok X -> (length X < fuel)%nat ->
  exists b e', c_check_fuel fuel c coll e = (Ok (b, e'), reads coll X) /\ erep coll e' (remain coll X).
Proof.
  induction fuel as [|fuel IH]; intros e X R HB Hf; [lia|].
  cbn [c_check_fuel]. cbv zeta. rewrite (rep_size _ Hcap _ _ R).
  destruct (c_skip_spec (Datatypes.S (Z.to_nat (zlen X))) e X R) as (e1 & K & Y & n & -> & R1 & -> & HY & HK).
  { unfold zlen. lia. }
  rewrite (reads_skip K Y HK), (remain_skip K Y HK). cbn [cbind]. rewrite (rep_size _ Hcap _ _ R1).
  apply Forall_app in HB. destruct HB as (_ & HB). rewrite app_length in Hf.
  destruct HY as [(-> & ->)|((Y' & ->) & ->)].
  { exists false, e1. split; [|exact R1]. change (zlen (@nil Z) <? 2) with true. cbn [cret reads]. f_equal; lia. }
  destruct Y' as [|id Y'].
  { exists false, e1. split; [|exact R1]. change (zlen [1] <? 2) with true. unfold cret.
    change (reads coll [1]) with 1. f_equal; lia. }
  rewrite (proj2 (Z.ltb_ge _ _)) by (rewrite !zlen_cons; pose proof (zlen_nonneg Y'); lia).
  rewrite (c_buffer_spec e1 _ 1 R1) by (rewrite !zlen_cons; pose proof (zlen_nonneg Y'); lia). cbn [cbind].
  change (nth (Z.to_nat 1) (1 :: id :: Y') 0) with id.
  assert (0 <= id) as Hid0. { apply Forall_inv_tail, Forall_inv in HB. lia. }
  assert (forall e2, erep coll e2 (id :: Y') -> exists b e',
    c_check_fuel fuel c coll e2 = (Ok (b, e'), reads coll (id :: Y')) /\ erep coll e' (remain coll (id :: Y'))) as IH'.
  { intros e2 R2. apply IH; [exact R2 | apply Forall_inv_tail in HB; exact HB | cbn [length] in Hf |- *; lia]. }
  assert (forall i, exists b e',
    c_pop_and_retry c coll (c_check_fuel fuel c coll) (ERB i (er_buf e1)) = (Ok (b, e'), 1 + reads coll (id :: Y'))
    /\ erep coll e' (remain coll (id :: Y'))) as HR.
  { intros i. destruct (c_retry_spec (c_check_fuel fuel c coll) (ERB i (er_buf e1)) 1 (id :: Y') R1) as (e2 & R2 & ->).
    destruct (IH' e2 R2) as (b & e' & -> & R'). exists b, e'. split; [reflexivity | exact R']. }
  unfold er_set_id, er_id_valid.
  remember (reads coll (id :: Y')) as rd eqn:Erd. remember (remain coll (id :: Y')) as rm eqn:Erm.
  assert (reads coll (1 :: id :: Y') = if negb (is_id_valid coll id) then 3 + rd
          else match Y' with
          | [] => 2
          | s :: _ =>
              if negb (s =? 2) then 4 + rd
              else if zlen (1 :: id :: Y') <? id_length coll id then 3
              else if trailer_right (mc_env coll) (1 :: id :: Y') (id_length coll id)
                   then 3 + trailer_reads (mc_env coll) (1 :: id :: Y') (id_length coll id)
                   else 4 + trailer_reads (mc_env coll) (1 :: id :: Y') (id_length coll id) + rd
          end) as -> by (rewrite Erd; reflexivity).
  assert (remain coll (1 :: id :: Y') = if negb (is_id_valid coll id) then rm
          else match Y' with
          | [] => 1 :: id :: Y'
          | s :: _ =>
              if negb (s =? 2) then rm
              else if zlen (1 :: id :: Y') <? id_length coll id then 1 :: id :: Y'
              else if trailer_right (mc_env coll) (1 :: id :: Y') (id_length coll id) then 1 :: id :: Y' else rm
          end) as -> by (rewrite Erm; reflexivity).
  clear Erd Erm IH'.
  destruct (is_id_valid coll id) eqn:Ev; cbn [er_id negb er_buf].
  2:{ destruct (HR None) as (b & e' & E & R'). exists b, e'. split; [|exact R']. rewrite E. f_equal; lia. }
  set (e3 := {| er_id := Some id; er_buf := er_buf e1 |}).
  assert (erep coll e3 (1 :: id :: Y')) as R3 by exact R1. rewrite (rep_size _ Hcap _ _ R1).
  destruct Y' as [|x Y'].
  { exists false, e3. split; [|exact R3]. change (zlen [1; id] <? 3) with true. unfold cret. f_equal; lia. }
  rewrite (proj2 (Z.ltb_ge _ _)) by (rewrite !zlen_cons; pose proof (zlen_nonneg Y'); lia).
  rewrite (c_buffer_spec e3 _ 2 R3) by (rewrite !zlen_cons; pose proof (zlen_nonneg Y'); lia). cbn [cbind].
  change (nth (Z.to_nat 2) (1 :: id :: x :: Y') 0) with x. unfold STX.
  destruct (HR (Some id)) as (b & e' & E & R'). fold e3 in E.
  destruct (x =? 2) eqn:Ex; cbn [negb].
  2:{ exists b, e'. split; [|exact R'].
      rewrite E. f_equal; lia. }
  destruct (id_length_bounds id Hid0 Ev) as (HL & EL).
  unfold er_message_length. rewrite plain_true by reflexivity. change (er_current_id c e3) with (@Ok Z id). cbn [bind].
  rewrite EL. unfold cret at 1. cbn [cbind].
  destruct (zlen (1 :: id :: x :: Y') <? id_length coll id) eqn:EW.
  { exists false, e3. split; [|exact R3]. unfold cret. f_equal; lia. }
  apply Z.ltb_ge in EW. rewrite (c_trailer_spec e3 _ _ R3) by lia. cbn [cbind].
  destruct (trailer_right (mc_env coll) (1 :: id :: x :: Y') (id_length coll id)).
  { exists true, e3. split; [|exact R3]. unfold cret. f_equal; lia. }
  exists b, e'. split; [|exact R'].
  rewrite E. f_equal; lia.
Qed.

(** The most one byte can cost. *)
Definition price : Z := match mc_env coll with Basic => 6 | BasicChecksum => max_message_length coll + 5 end.

Lemma trailer_reads_le X len : overhead_size (mc_env coll) <= len <= max_message_length coll ->
  0 <= trailer_reads (mc_env coll) X len <= price - 4.
Proof.
  unfold trailer_reads, price. destruct (mc_env coll); cbn [overhead_size]; intros H;
    repeat match goal with |- context [if ?b then _ else _] => destruct b end; lia.
Qed.

Lemma price_ge : 6 <= price.
Proof.
  pose proof (max_ge5 coll Hst). unfold price. destruct (mc_env coll); lia.
Qed.

Lemma remain_le X : zlen (remain coll X) <= zlen X.
Proof.
  induction X as [|x X IH]; [reflexivity|]. cbn [remain]. rewrite zlen_cons.
  destruct (negb (x =? 1)); [lia|]. destruct X as [|id X'']; [rewrite ?zlen_cons; lia|].
  destruct (negb (is_id_valid coll id)); [lia|]. destruct X'' as [|s X3]; [rewrite ?zlen_cons; lia|].
  destruct (negb (s =? 2)); [lia|]. destruct (_ <? _); [rewrite ?zlen_cons; lia|].
  destruct (trailer_right _ _ _); [rewrite ?zlen_cons; lia | lia].
Qed.

Lemma reads_le X : bytes_ok X -> 0 <= reads coll X <= price * (zlen X - zlen (remain coll X)) + (price - 1).
Proof.
  pose proof price_ge as HP.
  induction X as [|x X IH]; intros HB; [cbn; lia|].
  specialize (IH (Forall_inv_tail HB)). pose proof (remain_le X) as HM.
  assert (zlen (x :: X) - zlen (remain coll X) = 1 + (zlen X - zlen (remain coll X))) as HD by (rewrite zlen_cons; lia).
  assert (price * (zlen (x :: X) - zlen (remain coll X)) = price + price * (zlen X - zlen (remain coll X))) as HD2 by (rewrite HD; ring).
  cbn [reads remain].
  destruct (negb (x =? 1)); [lia|]. destruct X as [|id X'']; [lia|].
  destruct (is_id_valid coll id) eqn:Ev; cbn [negb]; [|lia].
  destruct X'' as [|s X3]; [lia|]. destruct (negb (s =? 2)); [lia|].
  assert (0 <= id) as Hid0 by (apply Forall_inv_tail, Forall_inv in HB; lia).
  destruct (id_length_bounds id Hid0 Ev) as (HL & _). pose proof (trailer_reads_le (x :: id :: s :: X3) _ HL) as HT.
  destruct (_ <? _); [lia|]. destruct (trailer_right _ _ _); lia.
Qed.

Hypothesis Hsafe : index_safe c cap.

Lemma c_check_of e X : erep coll e X -> bytes_ok X ->
  exists b e', check c coll e = Ok (b, e') /\ accesses (c_check c coll e) = reads coll X /\ erep coll e' (remain coll X).
Proof.
  intros R HB. destruct (check_reads (S (Z.to_nat (rb_size cap (er_buf e)))) e X R HB) as (b & e' & E & R').
  { rewrite (rep_size _ Hcap _ _ R). unfold zlen. lia. }
  exists b, e'. unfold accesses. split; [|split; [|exact R']].
  - rewrite <- fst_check. unfold c_check. rewrite E. reflexivity.
  - unfold c_check. rewrite E. reflexivity.
Qed.

Lemma frame_remains X f m id p s : X = f ++ s -> is_frame coll f m id p -> bytes_ok X -> zlen X <= cap ->
  forall e, erep coll e X -> remain coll X = X.
Proof.
  intros E F HB _ e R. destruct (c_check_of e X R HB) as (b & e' & EC & _ & R').
  destruct (check_spec c coll Hst e X R HB) as (b2 & e2 & Y & E2 & HS & _ & RY & _).
  assert (e2 = e') as -> by congruence.
  pose proof (rep_bytes _ _ _ R') as H1. pose proof (rep_bytes _ _ _ RY) as H2.
  assert (remain coll X = Y) as -> by congruence.
  inversion HS as [? | b0 s0 s' [_ D] HS' E0]; [reflexivity|]. exfalso. rewrite E in E0. exact (D _ _ _ _ _ F E0).
Qed.

(** C86: one check. *)
Lemma one_check_price ready e b e' : er_reached c coll ready e -> check c coll e = Ok (b, e') ->
  accesses (c_check c coll e) <= price * (zlen (er_held e) - zlen (er_held e')) + (price - 1).
Proof.
  intros H E. destruct (er_reached_good c coll Hst Hsafe _ _ H) as (X & R & HB & _).
  destruct (c_check_of e X R HB) as (b1 & e1 & E1 & -> & R1). assert (e1 = e') as -> by congruence.
  rewrite (er_held_rep _ _ _ R), (er_held_rep _ _ _ R1). apply reads_le, HB.
Qed.

Lemma pop_price e e' : er_reached c coll true e -> er_pop_message c coll e = Ok e' ->
  accesses (c_pop_message c coll e) <= price * (zlen (er_held e) - zlen (er_held e')).
Proof.
  intros H E. pose proof price_ge as HP. destruct (envelope_pop_lemma c coll Hst Hsafe _ H) as (f & m & id & p & e1 & Ei & F & Eh & Ep & _).
  assert (e1 = e') as -> by congruence. rewrite Eh, zlen_app.
  assert (5 <= zlen f) as HF.
  { destruct F as (_ & Hp & ->). unfold spec_frame, zlen. destruct (mc_env coll); rewrite !app_length; cbn [length]; lia. }
  destruct (er_reached_good c coll Hst Hsafe _ _ H) as (X & R & HB & _). rewrite (er_held_rep _ _ _ R) in Eh.
  pose proof (frame_remains X f m id p (er_held e') Eh F HB (rep_size_le _ _ _ R) e R) as HX.
  destruct (c_check_of e X R HB) as (b1 & e2 & E2 & EA & R2). rewrite HX in R2.
  pose proof (reads_le X HB) as HL. rewrite HX in HL.
  assert (accesses (c_pop_message c coll e) <= reads coll X + 1) as HA; [|nia].
  unfold c_pop_message. unfold accesses in *. pose proof (fst_check c coll e) as F1. rewrite E2 in F1.
  assert (forall x, snd (cbind (cret (er_message_length c coll x)) (fun len => cbind (c_pop_front c coll len x)
     (fun e => cret (Ok (ERB None (er_buf e)))))) <= 1) as HX1.
  { intros x. unfold cret, c_pop_front, access. destruct (er_message_length c coll x) as [len| | | |]; cbn [cbind snd]; try lia.
    destruct (er_pop_front c coll len x); cbn [cbind snd]; lia. }
  destruct (c_check c coll e) as [r n]. cbn [fst snd] in *. subst r n.
  destruct (mode c); unfold cret at 1; cbn [cbind fst snd].
  - specialize (HX1 e). destruct (cbind _ _). cbn [snd] in *. lia.
  - destruct b1; cbn [cbind snd]; [|lia]. specialize (HX1 e2). destruct (cbind _ _). cbn [snd] in *. lia.
  - specialize (HX1 e2). destruct (cbind _ _). cbn [snd] in *. lia.
Qed.

Lemma cost_reached n a b ready e : er_cost c coll n a b ready e -> er_reached c coll ready e.
Proof. induction 1; econstructor; eassumption. Qed.

Lemma cost_exists ready e : er_reached c coll ready e -> exists n a b, er_cost c coll n a b ready e.
Proof.
  induction 1 as [|ready e d e' H IH Hd Hl E|ready e x e' H IH Hx Hl E|ready e a m e' r H IH Ha Hm E
                 |ready e f e' H IH E|e e' H IH E|ready e id H IH Hid].
  - do 3 eexists. constructor.
  - destruct IH as (n & k & b & W). do 3 eexists. eapply er_cost_append; eassumption.
  - destruct IH as (n & k & b & W). do 3 eexists. eapply er_cost_append1; eassumption.
  - destruct IH as (n & k & b & W). do 3 eexists. eapply er_cost_functor; eassumption.
  - destruct IH as (n & k & b & W). do 3 eexists. eapply er_cost_check; eassumption.
  - destruct IH as (n & k & b & W). do 3 eexists. eapply er_cost_pop; eassumption.
  - destruct IH as (n & k & b & W). do 3 eexists. eapply er_cost_set_id; eassumption.
Qed.

(** C86: all accesses. *)
Lemma cost_lemma n a b ready e : er_cost c coll n a b ready e -> a <= price * (n + b - zlen (er_held e)) - n.
Proof.
  pose proof price_ge as HP.
  induction 1 as [|n a b ready e d e' H IH Hd Hl E|n a b ready e x e' H IH Hx Hl E|n a b ready e ad m e' r H IH Ha Hm E
                 |n a b ready e f e' H IH E|n a b e e' H IH E|n a b ready e id H IH Hid].
  - unfold er_held. rewrite (rep_bytes _ _ _ (rep_init cap Hcap) : rb_bytes (er_buf (er_init coll)) = []). cbn. lia.
  - destruct (envelope_append_lemma c coll Hst Hsafe _ _ (cost_reached _ _ _ _ _ H)) as (_ & HA & _).
    destruct (HA d Hl) as (e1 & E1 & H1 & _). assert (e1 = e') as -> by congruence. rewrite H1, zlen_app.
    replace (n + (b + zlen d) - (zlen (er_held e) + zlen d)) with (n + b - zlen (er_held e)) by lia. lia.
  - destruct (envelope_append_lemma c coll Hst Hsafe _ _ (cost_reached _ _ _ _ _ H)) as (_ & _ & HA & _).
    destruct (HA x Hl) as (e1 & E1 & H1 & _). assert (e1 = e') as -> by congruence. rewrite H1, zlen_app.
    change (zlen [x]) with 1. replace (n + (b + 1) - (zlen (er_held e) + 1)) with (n + b - zlen (er_held e)) by lia. lia.
  - destruct (envelope_append_lemma c coll Hst Hsafe _ _ (cost_reached _ _ _ _ _ H)) as (_ & _ & _ & HA).
    destruct (HA ad m Ha Hm) as (e1 & E1 & H1 & _). rewrite E in E1. injection E1 as <- ->. rewrite H1, zlen_app.
    match goal with |- context [n + (b + ?x) - (?y + ?x)] => replace (n + (b + x) - (y + x)) with (n + b - y) by lia end. lia.
  - pose proof (one_check_price _ _ _ _ (cost_reached _ _ _ _ _ H) E). lia.
  - pose proof (pop_price _ _ (cost_reached _ _ _ _ _ H) E).
    lia.
  - exact IH.
Qed.
End Cost.

Section Attained.
Context (c : config) (coll : collection) (Hst : static_ok coll = true).
Hypothesis Hsafe : index_safe c (capacity coll).
Hypothesis Henv : mc_env coll = BasicChecksum.

Local Notation cap := (capacity coll).
Let Hcap : cap_ok cap := capacity_ok coll Hst.

(** [k] ends of messages, each with a checksum that is wrong when the bytes before sum to [s]. *)
Fixpoint ends (k : nat) (id s : Z) : list Z :=
  match k with
  | O => []
  | S k' => let x := if s mod 256 =? 10 then 20 else 10 in
            3 :: x :: 4 :: ends k' id (s - (1 + id + 2) + (x + 4 + 3))
  end.

(** [k] beginnings. *)
Fixpoint starts (k : nat) (id : Z) (Y : list Z) : list Z :=
  match k with O => Y | S k' => 1 :: id :: 2 :: starts k' id Y end.

Lemma starts_app k id : forall Y Z1, starts k id (Y ++ Z1) = starts k id Y ++ Z1.
Proof. induction k as [|k IH]; intros Y Z1; cbn [starts app]; [reflexivity | rewrite IH; reflexivity]. Qed.

Lemma starts_len k id Y : length (starts k id Y) = (3 * k + length Y)%nat.
Proof. induction k as [|k IH]; cbn [starts length]; [lia | rewrite IH; lia]. Qed.

Lemma ends_len k id : forall s, length (ends k id s) = (3 * k)%nat.
Proof. induction k as [|k IH]; intros s; cbn [ends length]; [lia | rewrite IH; lia]. Qed.

Lemma reads_nonneg X : bytes_ok X -> 0 <= reads coll X.
Proof. intros H. apply (reads_le coll Hst X H). Qed.

Lemma has_id_byte m id : has_id coll m id -> 0 <= id < 256.
Proof.
  intros (H0 & H). assert (Z.to_nat id < length (mc_types coll))%nat by (apply nth_error_Some; congruence).
  pose proof (static_ok_elim coll Hst). unfold message_count, zlen in *. lia.
Qed.

Lemma zsum_app A B : zsum (A ++ B) = zsum A + zsum B.
Proof. induction A as [|a A IH]; cbn [app zsum fold_right]; [reflexivity|]. fold (zsum (A ++ B)). fold (zsum A). rewrite IH. lia. Qed.

Lemma starts_ok k id Y : 0 <= id < 256 -> bytes_ok Y -> bytes_ok (starts k id Y).
Proof. intros Hid HY. induction k as [|k IH]; [exact HY|]. cbn [starts]. repeat constructor; try lia. exact IH. Qed.

Lemma ends_ok k id : forall s, bytes_ok (ends k id s).
Proof.
  induction k as [|k IH]; intros s; [constructor|]. cbn [ends]. constructor; [lia|]. constructor; [destruct (_ =? _); lia|].
  constructor; [lia | apply IH].
Qed.

Lemma starts_read m id L : has_id coll m id -> 0 <= id < 256 -> L = frame_size (mc_env coll) m ->
  forall k M s, bytes_ok M -> (3 * k + length M)%nat = (L - 3)%nat -> s = zsum (starts k id M) + 3 ->
  Z.of_nat k * (Z.of_nat L + 5) <= reads coll (starts k id (M ++ ends k id s)).
Proof.
  intros Hm Hid HL.
  assert (is_id_valid coll id = true) as Hv by (apply (has_id_valid coll m id Hm)).
  assert (id_length coll id = Z.of_nat L) as HI.
  { unfold id_length. rewrite (get_message_length_valid coll m id Hst Hm), HL. reflexivity. }
  assert (6 <= L)%nat as HL6 by (rewrite HL, Henv; unfold frame_size; lia).
  induction k as [|k IH]; intros M s HM HK Hs.
  - cbn [starts Z.of_nat Z.mul]. apply reads_nonneg. apply Forall_app. split; [exact HM | constructor].
  - remember (if s mod 256 =? 10 then 20 else 10) as x eqn:Ex.
    assert (0 <= x < 256) as Hx by (rewrite Ex; destruct (_ =? _); lia).
    assert (ends (S k) id s = [3; x; 4] ++ ends k id (s - (1 + id + 2) + (x + 4 + 3))) as EE by (cbn [ends app]; rewrite Ex; reflexivity).
    remember (s - (1 + id + 2) + (x + 4 + 3)) as s' eqn:Es'.
    specialize (IH (M ++ [3; x; 4]) s').
    assert (starts (S k) id (M ++ ends (S k) id s) = 1 :: id :: 2 :: starts k id ((M ++ [3; x; 4]) ++ ends k id s')) as ->.
    { rewrite EE. cbn [starts]. rewrite <- app_assoc. reflexivity. }
    remember (starts k id ((M ++ [3; x; 4]) ++ ends k id s')) as Y eqn:EY.
    assert (Z.of_nat k * (Z.of_nat L + 5) <= reads coll Y) as IH'.
    { apply IH.
      - apply Forall_app. split; [exact HM|]. repeat constructor; lia.
      - rewrite app_length. cbn [length]. lia.
      - rewrite starts_app, zsum_app, Es', Hs. cbn [starts]. cbn [zsum fold_right]. fold (zsum (starts k id M)). lia. }
    assert (bytes_ok Y) as HBY.
    { rewrite EY. apply starts_ok; [exact Hid|]. apply Forall_app. split; [|apply ends_ok]. apply Forall_app.
      split; [exact HM|]. repeat constructor; lia. }
    (* after the start code *)
    assert (Z.of_nat k * (Z.of_nat L + 5) <= reads coll (id :: 2 :: Y)) as HR.
    { assert (reads coll (2 :: Y) = 2 + reads coll Y) as E2 by reflexivity.
      destruct (Z.eq_dec id 1) as [->|Hn].
      2:{ assert (reads coll (id :: 2 :: Y) = 2 + reads coll (2 :: Y)) as E1.
          { remember (2 :: Y) as Y0. cbn [reads]. rewrite (proj2 (Z.eqb_neq id 1) Hn). reflexivity. }
          lia. }
      destruct k as [|k].
      { cbn [Z.of_nat Z.mul]. apply reads_nonneg. constructor; [lia|]. constructor; [lia | exact HBY]. }
      cbn [starts] in EY. rewrite EY in *. remember (1 :: 2 :: starts k 1 ((M ++ [3; x; 4]) ++ ends (S k) 1 s')) as Y2 eqn:EY2.
      change (reads coll (1 :: 2 :: 1 :: Y2)) with (if negb (is_id_valid coll 2) then 3 + reads coll (2 :: 1 :: Y2) else 4 + reads coll (2 :: 1 :: Y2)).
      destruct (negb (is_id_valid coll 2)); lia. }
    remember (id :: 2 :: Y) as Y1 eqn:EY1.
    assert (length (1 :: Y1) = (L + 3 * k)%nat) as HLen.
    { rewrite EY1, EY. cbn [length]. rewrite starts_len, !app_length, ends_len. cbn [length]. lia. }
    assert (reads coll (1 :: Y1) = if zlen (1 :: Y1) <? Z.of_nat L then 3
              else if trailer_right BasicChecksum (1 :: Y1) (Z.of_nat L)
                   then 3 + trailer_reads BasicChecksum (1 :: Y1) (Z.of_nat L)
                   else 4 + trailer_reads BasicChecksum (1 :: Y1) (Z.of_nat L) + reads coll Y1) as ->.
    { rewrite EY1. cbn [reads]. rewrite Hv, HI, Henv. reflexivity. }
    rewrite (proj2 (Z.ltb_ge _ _)) by (unfold zlen; lia).
    (* the window *)
    assert (1 :: Y1 = starts (S k) id M ++ 3 :: x :: 4 :: ends k id s') as EW.
    { rewrite EY1, EY. cbn [starts]. rewrite !starts_app, <- app_assoc. reflexivity. }
    assert (length (starts (S k) id M) = (L - 3)%nat) as HW by (rewrite starts_len; lia).
    rewrite EW. remember (starts (S k) id M) as W eqn:EWW.
    assert (nth (Z.to_nat (Z.of_nat L - 3)) (W ++ 3 :: x :: 4 :: ends k id s') 0 = 3) as N1 by (apply nth_app_at; lia).
    assert (nth (Z.to_nat (Z.of_nat L - 1)) (W ++ 3 :: x :: 4 :: ends k id s') 0 = 4) as N2.
    { replace (W ++ 3 :: x :: 4 :: ends k id s') with ((W ++ [3; x]) ++ 4 :: ends k id s') by (rewrite <- app_assoc; reflexivity).
      apply nth_app_at. rewrite app_length. cbn [length]. lia. }
    assert (nth (Z.to_nat (Z.of_nat L - 2)) (W ++ 3 :: x :: 4 :: ends k id s') 0 = x) as N3.
    { replace (W ++ 3 :: x :: 4 :: ends k id s') with ((W ++ [3]) ++ x :: 4 :: ends k id s') by (rewrite <- app_assoc; reflexivity).
      apply nth_app_at. rewrite app_length. cbn [length]. lia. }
    assert (firstn (Z.to_nat (Z.of_nat L - 2)) (W ++ 3 :: x :: 4 :: ends k id s') = W ++ [3]) as N4.
    { replace (W ++ 3 :: x :: 4 :: ends k id s') with ((W ++ [3]) ++ x :: 4 :: ends k id s') by (rewrite <- app_assoc; reflexivity).
      replace (Z.to_nat (Z.of_nat L - 2)) with (length (W ++ [3%Z]) + 0)%nat by (rewrite app_length; cbn [length]; lia).
      rewrite firstn_app_2. cbn [firstn]. apply app_nil_r. }
    unfold trailer_right, trailer_reads. rewrite N1, N2, N3, N4. cbn [Z.eqb Pos.eqb andb].
    rewrite zsum_app. cbn [zsum fold_right]. fold (zsum W). rewrite Z.add_0_r, <- Hs.
    replace (s mod 256 =? x) with false.
    2:{ symmetry. apply Z.eqb_neq. rewrite Ex. destruct (Z.eqb_spec (s mod 256) 10); lia. }
    lia.
Qed.

(** C86: the price is attained. *)
Lemma attained_lemma m id k : has_id coll m id -> (3 * k + 3 <= frame_size (mc_env coll) m)%nat ->
  exists d e, bytes_ok d /\ length d = (3 * k + frame_size (mc_env coll) m - 3)%nat
    /\ er_append c coll d (er_init coll) = Ok e /\ er_reached c coll false e
    /\ Z.of_nat k * (Z.of_nat (frame_size (mc_env coll) m) + 5) <= accesses (c_check c coll e).
Proof.
  intros Hm Hk. remember (frame_size (mc_env coll) m) as L eqn:HL.
  assert (0 <= id < 256) as Hid by (exact (has_id_byte m id Hm)).
  remember (repeat 0 (L - 3 - 3 * k)) as M eqn:EM. remember (zsum (starts k id M) + 3) as s eqn:Es.
  assert (bytes_ok M) as HM by (rewrite EM; apply Forall_forall; intros y Hy; apply repeat_spec in Hy; lia).
  assert (length M = L - 3 - 3 * k)%nat as LM by (rewrite EM; apply repeat_length).
  remember (starts k id (M ++ ends k id s)) as d eqn:Ed.
  assert (bytes_ok d) as HB.
  { rewrite Ed. apply starts_ok; [exact Hid|]. apply Forall_app. split; [exact HM | apply ends_ok]. }
  assert (length d = (3 * k + L - 3)%nat) as LD by (rewrite Ed, starts_len, app_length, ends_len; lia).
  pose proof (max_message_length_ge coll m ltac:(apply nth_error_In with (n := Z.to_nat id); apply Hm)) as HG.
  rewrite sizeof_bound_spec, <- HL in HG.
  pose proof (er_reached_new c coll) as R0.
  destruct (envelope_append_lemma c coll Hst Hsafe _ _ R0) as (HA & HAp & _).
  assert (er_held (er_init coll) = []) as H0 by (apply (rep_bytes _ _ _ (rep_init cap Hcap))). rewrite H0 in HA, HAp.
  assert (zlen d <= er_available coll (er_init coll)) as HF.
  { rewrite HA. unfold capacity, receive_buffer_size, zlen. cbn [length]. lia. }
  destruct (HAp d HF) as (e & E & Eh & _). exists d, e.
  assert (er_reached c coll false e) as RE by (eapply er_reached_append; eassumption).
  conj; auto. destruct (er_reached_good c coll Hst Hsafe _ _ RE) as (X & R & HX & _).
  rewrite (er_held_rep _ _ _ R) in Eh. cbn [app] in Eh. subst X.
  destruct (c_check_of c coll Hst e d R HB) as (b & e' & _ & -> & _). rewrite Ed.
  apply (starts_read m id L Hm Hid HL k M s HM); [lia | exact Es].
Qed.
End Attained.

Lemma longest_price coll L : static_ok coll = true -> longest coll L ->
  price coll <= match mc_env coll with Basic => 6 | BasicChecksum => L + 5 end.
Proof.
  intros Hst HL. unfold price. destruct (mc_env coll) eqn:E; [lia|].
  destruct (max_message_length_in coll) as (m & Hm & ->).
  { apply static_ok_elim in Hst as ((H & _) & _). intros H0. unfold message_count in H. rewrite H0 in H. cbn in H. lia. }
  rewrite sizeof_bound_spec. specialize (HL m Hm). lia.
Qed.

Lemma same_result_lemma c coll e :
  fst (c_check c coll e) = check c coll e /\ fst (c_pop_message c coll e) = er_pop_message c coll e.
Proof. split; [apply fst_check | apply fst_pop_message]. Qed.

Lemma basic_check_lemma c coll : static_ok coll = true -> index_safe c (capacity coll) -> mc_env coll = Basic ->
  forall ready e b e', er_reached c coll ready e -> check c coll e = Ok (b, e') ->
  accesses (c_check c coll e) <= 6 * (zlen (er_held e) - zlen (er_held e')) + 5.
Proof.
  intros Hst Hs He ready e b e' H E. pose proof (one_check_price c coll Hst Hs ready e b e' H E) as HP.
  unfold price in HP. rewrite He in HP. lia.
Qed.

Lemma checksum_check_lemma c coll L : static_ok coll = true -> index_safe c (capacity coll) -> mc_env coll = BasicChecksum ->
  longest coll L ->
  forall ready e b e', er_reached c coll ready e -> check c coll e = Ok (b, e') ->
  accesses (c_check c coll e) <= (L + 5) * (zlen (er_held e) - zlen (er_held e')) + (L + 4).
Proof.
  intros Hst Hs He HL ready e b e' H E. pose proof (one_check_price c coll Hst Hs ready e b e' H E) as HP.
  pose proof (longest_price coll L Hst HL) as H1. rewrite He in H1.
  assert (0 <= zlen (er_held e) - zlen (er_held e')) by (destruct (envelope_check_lemma c coll Hst Hs _ _ H) as (b1 & e1 & E1 & (d & Ed) & _);
    assert (e1 = e') as -> by congruence; rewrite Ed, zlen_app; pose proof (zlen_nonneg d); lia).
  nia.
Qed.

Lemma total_cost_lemma c coll L : static_ok coll = true -> index_safe c (capacity coll) -> longest coll L ->
  forall n a b ready e, er_cost c coll n a b ready e ->
  a <= match mc_env coll with Basic => 6 | BasicChecksum => L + 5 end * (n + (b - zlen (er_held e))).
Proof.
  intros Hst Hs HL n a b ready e H. pose proof (cost_lemma c coll Hst Hs n a b ready e H) as HC.
  pose proof (longest_price coll L Hst HL) as H1.
  assert (0 <= n /\ zlen (er_held e) <= b) as (Hn & Hb).
  { clear HC. induction H as [|n a b ready e d e' H IH Hd Hl E|n a b ready e x e' H IH Hx Hl E|n a b ready e ad m e' r H IH Ha Hm E
                 |n a b ready e f e' H IH E|n a b e e' H IH E|n a b ready e id H IH Hid].
    - unfold er_held. rewrite (rep_bytes _ _ _ (rep_init (capacity coll) (capacity_ok coll Hst)) : rb_bytes (er_buf (er_init coll)) = []). cbn. lia.
    - destruct (envelope_append_lemma c coll Hst Hs _ _ (cost_reached c coll _ _ _ _ _ H)) as (_ & HA & _).
      destruct (HA d Hl) as (e1 & E1 & H2 & _). assert (e1 = e') as -> by congruence. rewrite H2, zlen_app. lia.
    - destruct (envelope_append_lemma c coll Hst Hs _ _ (cost_reached c coll _ _ _ _ _ H)) as (_ & _ & HA & _).
      destruct (HA x Hl) as (e1 & E1 & H2 & _). assert (e1 = e') as -> by congruence. rewrite H2, zlen_app.
      change (zlen [x]) with 1. lia.
    - destruct (envelope_append_lemma c coll Hst Hs _ _ (cost_reached c coll _ _ _ _ _ H)) as (_ & _ & _ & HA).
      destruct (HA ad m Ha Hm) as (e1 & E1 & H2 & _). rewrite E in E1. injection E1 as <- ->. rewrite H2, zlen_app. lia.
    - destruct (envelope_check_lemma c coll Hst Hs _ _ (cost_reached c coll _ _ _ _ _ H)) as (b1 & e1 & E1 & (d & Ed) & _).
      assert (e1 = e') as -> by congruence. rewrite Ed, zlen_app in IH. pose proof (zlen_nonneg d). lia.
    - destruct (envelope_pop_lemma c coll Hst Hs _ (cost_reached c coll _ _ _ _ _ H)) as (f & m & id & p & e1 & _ & F & Eh & Ep & _).
      assert (e1 = e') as -> by congruence. rewrite Eh, zlen_app in IH. pose proof (zlen_nonneg f). lia.
    - exact IH. }
  nia.
Qed.

Lemma counted_lemma c coll : static_ok coll = true -> index_safe c (capacity coll) ->
  forall ready e, er_reached c coll ready e <-> exists n a b, er_cost c coll n a b ready e.
Proof.
  intros Hst Hs ready e. split; [apply (cost_exists c coll)|].
  intros (n & k & b & H). exact (cost_reached c coll n k b ready e H).
Qed.
