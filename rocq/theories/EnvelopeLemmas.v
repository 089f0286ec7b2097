(** Lemmas on EnvelopeReceiveBuffer and on the depth of checkBufferForMessage's recursion. *)
From Verif Require Export CheckProofs SpecEnvelope ScanLemmas ReceiverLemmas.

Section Envelope.
Context (c : config) (coll : collection).
Hypothesis Hst : static_ok coll = true.
Hypothesis Hsafe : index_safe c (capacity coll).

Local Notation cap := (capacity coll).
Let Hcap : cap_ok cap := capacity_ok coll Hst.

Definition er_good (ready : bool) (e : erb) : Prop :=
  exists X, erep coll e X /\ bytes_ok X
    /\ (ready = true -> exists f m id p s, X = f ++ s /\ is_frame coll f m id p /\ er_id e = Some id).

Lemma er_available_spec e X : erep coll e X -> er_available coll e = cap - zlen X.
Proof.
  intros R. unfold er_available. rewrite (max_size_cap _ Hcap), (rep_size _ Hcap _ _ R).
  pose proof (rep_size_le _ _ _ R). pose proof (zlen_nonneg X). apply (to_sz_small _ Hcap). lia.
Qed.

Lemma er_append_spec e X d : erep coll e X -> zlen d <= er_available coll e ->
  exists e', er_append c coll d e = Ok e' /\ erep coll e' (X ++ d) /\ er_id e' = er_id e.
Proof.
  intros R HL. rewrite (er_available_spec e X R) in HL. unfold er_append.
  destruct (rep_push_range c cap Hcap Hsafe (er_buf e) X d R ltac:(lia)) as (b' & -> & R'). cbn [bind]. eauto.
Qed.

Lemma er_append1_spec e X x : erep coll e X -> 1 <= er_available coll e ->
  exists e', er_append1 c coll x e = Ok e' /\ erep coll e' (X ++ [x]) /\ er_id e' = er_id e.
Proof.
  intros R HL. rewrite (er_available_spec e X R) in HL. unfold er_append1.
  destruct (rep_push_back c cap Hcap Hsafe (er_buf e) X x R ltac:(lia)) as (b' & -> & R'). cbn [bind]. eauto.
Qed.

Lemma er_functor_spec e X a n : erep coll e X -> adapter_ok a -> 0 <= n <= 255 ->
  let d := fst (ad_read a (Z.min n (cap - zlen X))) in
  exists e', er_from_functor c coll (adapter_call a) n e = Ok (e', zlen d)
    /\ erep coll e' (X ++ d) /\ bytes_ok d /\ er_id e' = er_id e.
Proof.
  intros R Ha Hn d. pose proof (rep_size_le _ _ _ R). set (k := Z.min n (cap - zlen X)) in *.
  destruct (Ha k ltac:(lia)) as (A1 & A2 & A3). fold d in A1, A2, A3.
  assert (adapter_call a k = (d, zlen d)) as E.
  { unfold adapter_call. rewrite trunc_small by (change (2 ^ 8) with 256; lia).
    destruct (ad_read a k) as [d0 r] eqn:Er. cbn [fst snd] in *. subst d r. rewrite trunc_small; [reflexivity|].
    pose proof (zlen_nonneg d0). change (2 ^ 8) with 256. lia. }
  unfold er_from_functor.
  destruct (rep_from_functor c cap Hcap Hsafe (er_buf e) X (adapter_call a) n d R) as (b' & -> & R');
    [lia | exact E | exact A2 |]. cbn [bind]. eauto.
Qed.

Lemma er_reached_good ready e : er_reached c coll ready e -> er_good ready e.
Proof.
  induction 1 as [|ready e d e' H IH Hd HL E|ready e x e' H IH Hx HL E|ready e a n e' k H IH Ha Hn E
                 |ready e b e' H IH E|e e' H IH E|ready e id H IH Hid].
  - exists []. split; [apply rep_init, Hcap|]. split; [constructor | discriminate].
  - destruct IH as (X & R & HB & HR). destruct (er_append_spec e X d R HL) as (e1 & E1 & R1 & I1).
    assert (e1 = e') as -> by congruence. exists (X ++ d). split; [assumption|]. split; [apply Forall_app; auto|].
    intros Hr. destruct (HR Hr) as (f & m & id & p & s & -> & Hf & Hi). exists f, m, id, p, (s ++ d).
    rewrite app_assoc. split; [reflexivity|]. split; [assumption | congruence].
  - destruct IH as (X & R & HB & HR). destruct (er_append1_spec e X x R HL) as (e1 & E1 & R1 & I1).
    assert (e1 = e') as -> by congruence. exists (X ++ [x]). split; [assumption|]. split; [apply Forall_app; auto|].
    intros Hr. destruct (HR Hr) as (f & m & id & p & s & -> & Hf & Hi). exists f, m, id, p, (s ++ [x]).
    rewrite app_assoc. split; [reflexivity|]. split; [assumption | congruence].
  - destruct IH as (X & R & HB & HR). destruct (er_functor_spec e X a n R Ha Hn) as (e1 & E1 & R1 & B1 & I1).
    assert (e1 = e') as -> by congruence. eexists. split; [exact R1|]. split; [apply Forall_app; auto|].
    intros Hr. destruct (HR Hr) as (f & m & id & p & s & -> & Hf & Hi). exists f, m, id, p. eexists.
    rewrite <- app_assoc. split; [reflexivity|]. split; [assumption | congruence].
  - destruct IH as (X & R & HB & _). destruct (check_spec c coll Hst e X R HB) as (ok & e1 & Y & E1 & HS & (K & EK) & R1 & HP).
    assert (ok = b /\ e1 = e') as (-> & ->) by (split; congruence).
    exists Y. split; [assumption|]. split; [rewrite EK in HB; apply Forall_app in HB; apply HB|].
    intros ->. exact HP.
  - destruct IH as (X & R & HB & HR). destruct (HR eq_refl) as (f & m & id & p & s & -> & Hf & Hi).
    destruct (pop_message_spec c coll Hst e f m id p s R HB Hf Hi) as (e1 & E1 & R1 & _).
    assert (e1 = e') as -> by congruence. exists s. split; [assumption|].
    split; [apply Forall_app in HB; apply HB | discriminate].
  - destruct IH as (X & R & HB & _). exists X. split; [exact R|]. split; [assumption | discriminate].
Qed.

Lemma er_held_rep e X : erep coll e X -> er_held e = X.
Proof. apply rep_bytes. Qed.

(** Appending. *)
Lemma envelope_append_lemma ready e : er_reached c coll ready e ->
  er_available coll e = cap - zlen (er_held e)
  /\ (forall d, zlen d <= er_available coll e ->
        exists e', er_append c coll d e = Ok e' /\ er_held e' = er_held e ++ d /\ er_id e' = er_id e)
  /\ (forall x, 1 <= er_available coll e ->
        exists e', er_append1 c coll x e = Ok e' /\ er_held e' = er_held e ++ [x] /\ er_id e' = er_id e)
  /\ (forall a n, adapter_ok a -> 0 <= n <= 255 ->
        let d := fst (ad_read a (Z.min n (er_available coll e))) in
        exists e', er_from_functor c coll (adapter_call a) n e = Ok (e', zlen d)
          /\ er_held e' = er_held e ++ d /\ er_id e' = er_id e).
Proof.
  intros H. destruct (er_reached_good _ _ H) as (X & R & HB & _). rewrite (er_held_rep e X R). conj.
  - apply er_available_spec, R.
  - intros d HL. destruct (er_append_spec e X d R HL) as (e' & E & R' & I). exists e'. rewrite (er_held_rep _ _ R'). auto.
  - intros x HL. destruct (er_append1_spec e X x R HL) as (e' & E & R' & I). exists e'. rewrite (er_held_rep _ _ R'). auto.
  - intros a n Ha Hn. cbv zeta. rewrite (er_available_spec e X R).
    destruct (er_functor_spec e X a n R Ha Hn) as (e' & E & R' & _ & I). exists e'. rewrite (er_held_rep _ _ R'). auto.
Qed.

(** ** Checking twice *)

Lemma skip_stays k e Y : erep coll e Y -> Y = [] \/ (exists Y', Y = 1 :: Y') ->
  skip_to_soh (S k) c coll e = Ok e.
Proof.
  intros R HY. cbn [skip_to_soh]. rewrite (rep_empty _ _ _ R). destruct HY as [->|(Y' & ->)]; [reflexivity|].
  rewrite (rep_front c _ Hcap _ _ _ R). reflexivity.
Qed.

Lemma pop_and_retry_inv chk e b X r : erep coll e (b :: X) -> pop_and_retry c coll chk e = Ok r ->
  exists e', erep coll e' X /\ chk e' = Ok r.
Proof.
  intros R. unfold pop_and_retry. rewrite (rep_empty _ _ _ R), assert_true by reflexivity. cbn [bind].
  destruct (er_pop_front_spec c coll Hst e [b] X 1 R eq_refl) as (e1 & -> & R1 & _); [discriminate|]. cbn [bind]. eauto.
Qed.

Lemma check_fix fuel : forall e X b e', erep coll e X -> check_fuel fuel c coll e = Ok (b, e') ->
  forall n, check_fuel (S n) c coll e' = Ok (b, e').
Proof.
  induction fuel as [|fuel IH]; intros e X b e' R HC n; [discriminate|].
  cbn [check_fuel] in HC. rewrite (rep_size _ Hcap _ _ R) in HC.
  destruct (skip_to_soh_spec c coll Hst (Datatypes.S (Z.to_nat (zlen X))) e X R) as (e1 & Y & E & R1 & _ & _ & _ & HY).
  { unfold zlen. lia. }
  rewrite E in HC. cbn [bind] in HC. rewrite (rep_size _ Hcap _ _ R1) in HC.
  destruct (zlen Y <? 2) eqn:L2.
  { assert (b = false /\ e' = e1) as (-> & ->) by (split; congruence).
    cbn [check_fuel]. rewrite (rep_size _ Hcap _ _ R1), (skip_stays _ _ _ R1 HY). cbn [bind].
    rewrite (rep_size _ Hcap _ _ R1), L2. reflexivity. }
  destruct HY as [->|(Y' & ->)]; [discriminate|].
  destruct (er_buffer c coll e1 1) as [b1| | | |] eqn:E1; try discriminate. cbn [bind] in HC.
  assert (erep coll (er_set_id coll b1 e1) (1 :: Y')) as R2 by exact R1.
  destruct (negb (er_id_valid (er_set_id coll b1 e1))) eqn:EV.
  { destruct (pop_and_retry_inv _ _ _ _ _ R2 HC) as (e2 & R3 & HC'). exact (IH _ _ _ _ R3 HC' n). }
  rewrite (rep_size _ Hcap _ _ R2) in HC.
  assert (er_set_id coll b1 (er_set_id coll b1 e1) = er_set_id coll b1 e1) as ES by reflexivity.
  assert (er_buffer c coll (er_set_id coll b1 e1) 1 = Ok b1) as E1' by exact E1.
  remember (er_set_id coll b1 e1) as e2 eqn:Ee2.
  assert (forall r, (if zlen (1 :: Y') <? 3 then Ok (false, e2) else
            do b2 <- er_buffer c coll e2 2;
            if negb (b2 =? STX) then r else
            do len <- er_message_length c coll e2;
            if zlen (1 :: Y') <? len then Ok (false, e2) else
            do ok <- trailer c coll e2 len; if ok then Ok (true, e2) else r) = Ok (b, e2) ->
           check_fuel (S n) c coll e2 = Ok (b, e2)
           \/ r = Ok (b, e2)) as HK.
  { intros r. cbn [check_fuel]. rewrite (rep_size _ Hcap _ _ R2), (skip_stays _ _ _ R2) by eauto. cbn [bind].
    rewrite (rep_size _ Hcap _ _ R2), L2, E1'. cbn [bind]. rewrite ES, EV, (rep_size _ Hcap _ _ R2).
    destruct (zlen (1 :: Y') <? 3); [auto|].
    destruct (er_buffer c coll e2 2) as [b2| | | |]; try discriminate. cbn [bind].
    destruct (negb (b2 =? STX)); [auto|].
    destruct (er_message_length c coll e2) as [len| | | |]; try discriminate. cbn [bind].
    destruct (zlen (1 :: Y') <? len); [auto|].
    destruct (trailer c coll e2 len) as [ok| | | |]; try discriminate. cbn [bind]. destruct ok; auto. }
  (* which return was taken *)
  destruct (zlen (1 :: Y') <? 3) eqn:L3.
  { assert (e' = e2) as -> by congruence. destruct (HK AssertFail HC); [assumption | discriminate]. }
  destruct (er_buffer c coll e2 2) as [b2| | | |] eqn:E2; try discriminate. cbn [bind] in HC, HK.
  destruct (negb (b2 =? STX)) eqn:EX.
  { destruct (pop_and_retry_inv _ _ _ _ _ R2 HC) as (e3 & R3 & HC'). exact (IH _ _ _ _ R3 HC' n). }
  destruct (er_message_length c coll e2) as [len| | | |] eqn:EL; try discriminate. cbn [bind] in HC, HK.
  destruct (zlen (1 :: Y') <? len) eqn:LL.
  { assert (e' = e2) as -> by congruence. destruct (HK AssertFail HC); [assumption | discriminate]. }
  destruct (trailer c coll e2 len) as [ok| | | |] eqn:ET; try discriminate. cbn [bind] in HC, HK.
  destruct ok.
  { assert (e' = e2) as -> by congruence. destruct (HK AssertFail HC); [assumption | discriminate]. }
  destruct (pop_and_retry_inv _ _ _ _ _ R2 HC) as (e3 & R3 & HC'). exact (IH _ _ _ _ R3 HC' n).
Qed.

Lemma envelope_check_lemma ready e : er_reached c coll ready e ->
  exists b e', check c coll e = Ok (b, e')
    /\ (exists dropped, er_held e = dropped ++ er_held e')
    /\ Consumed coll (er_held e) [] (er_held e')
    /\ check c coll e' = Ok (b, e')
    /\ if b then exists f m id p s, er_held e' = f ++ s /\ is_frame coll f m id p
               /\ er_current_id c e' = Ok id /\ er_message_length c coll e' = Ok (zlen f)
       else undecided coll (er_held e').
Proof.
  intros H. destruct (er_reached_good _ _ H) as (X & R & HB & _). rewrite (er_held_rep e X R).
  destruct (check_spec c coll Hst e X R HB) as (b & e' & Y & E & HS & HK & R' & HP).
  exists b, e'. rewrite (er_held_rep e' Y R'). conj; auto.
  - intros T ms r HSc. cbn [app]. apply (skips_scan coll (X ++ T) (Y ++ T)); [|assumption].
    clear - HS. induction HS as [s|b s s' D HS IH]; [constructor|]. constructor; [apply dead_app; assumption | assumption].
  - unfold check in *. exact (check_fix _ _ _ _ _ R E _).
  - destruct b; [|assumption]. destruct HP as (f & m & id & p & s & -> & Hf & Hi). exists f, m, id, p, s. conj; auto.
    + unfold er_current_id. rewrite Hi. reflexivity.
    + unfold er_message_length, er_id_valid, er_current_id. rewrite Hi, plain_true by reflexivity. cbn [bind].
      rewrite (get_message_length_valid coll m id Hst (proj1 Hf)). unfold zlen. rewrite (is_frame_length _ _ _ _ _ Hf). reflexivity.
Qed.

Lemma envelope_pop_lemma e : er_reached c coll true e ->
  exists f m id p e', er_current_id c e = Ok id /\ is_frame coll f m id p /\ er_held e = f ++ er_held e'
    /\ er_pop_message c coll e = Ok e' /\ er_id_valid e' = false.
Proof.
  intros H. destruct (er_reached_good _ _ H) as (X & R & HB & HR). rewrite (er_held_rep e X R).
  destruct (HR eq_refl) as (f & m & id & p & s & -> & Hf & Hi).
  destruct (pop_message_spec c coll Hst e f m id p s R HB Hf Hi) as (e' & E & R' & I').
  exists f, m, id, p, e'. rewrite (er_held_rep e' s R'). conj; auto.
  - unfold er_current_id. rewrite Hi. reflexivity.
  - unfold er_id_valid. rewrite I'. reflexivity.
Qed.

(** With assertions, popMessage without a message fails. *)
Lemma envelope_pop_assert_lemma ready e e' : er_reached c coll ready e -> aborts c = true ->
  check c coll e = Ok (false, e') -> er_pop_message c coll e = AssertFail.
Proof. intros _ Ha E. unfold er_pop_message. rewrite (aborts_mode c Ha), E. reflexivity. Qed.

(** ** Depth of the recursion *)

Lemma retry_ext chk chk' e b X : erep coll e (b :: X) ->
  (forall e', erep coll e' X -> chk e' = chk' e') ->
  pop_and_retry c coll chk e = pop_and_retry c coll chk' e.
Proof.
  intros R H. unfold pop_and_retry. rewrite (rep_empty _ _ _ R), assert_true by reflexivity. cbn [bind].
  destruct (er_pop_front_spec c coll Hst e [b] X 1 R eq_refl) as (e1 & -> & R1 & _); [discriminate|]. cbn [bind]. auto.
Qed.

Definition check_level (chk : erb -> outcome (bool * erb)) (e : erb) : outcome (bool * erb) :=
  do e <- skip_to_soh (S (Z.to_nat (rb_size cap (er_buf e)))) c coll e;
  if rb_size cap (er_buf e) <? 2 then Ok (false, e)
  else
    do b1 <- er_buffer c coll e 1;
    let e := er_set_id coll b1 e in
    if negb (er_id_valid e) then pop_and_retry c coll chk e
    else if rb_size cap (er_buf e) <? 3 then Ok (false, e)
    else
      do b2 <- er_buffer c coll e 2;
      if negb (b2 =? STX) then pop_and_retry c coll chk e
      else
        do len <- er_message_length c coll e;
        if rb_size cap (er_buf e) <? len then Ok (false, e)
        else
          do ok <- trailer c coll e len;
          if ok then Ok (true, e) else pop_and_retry c coll chk e.

Lemma check_fuel_level n e : check_fuel (S n) c coll e = check_level (check_fuel n c coll) e.
Proof. reflexivity. Qed.

Lemma check_fuel_enough : forall n e X, erep coll e X -> (1 <= n)%nat -> (length X <= n)%nat ->
  check_fuel n c coll e = check_fuel (S n) c coll e.
Proof.
  induction n as [|n IH]; intros e X R Hn HL; [lia|].
  rewrite !check_fuel_level. unfold check_level. rewrite (rep_size _ Hcap _ _ R).
  destruct (skip_to_soh_spec c coll Hst (Datatypes.S (Z.to_nat (zlen X))) e X R) as (e1 & Y & -> & R1 & _ & _ & (K & EK) & HY).
  { unfold zlen. lia. }
  cbn [bind]. rewrite (rep_size _ Hcap _ _ R1).
  assert (length Y <= S n)%nat as LY. { rewrite EK, app_length in HL. lia. }
  destruct (zlen Y <? 2) eqn:L2; [reflexivity|].
  destruct (er_buffer c coll e1 1) as [b1| | | |]; cbn [bind]; try reflexivity.
  assert (exists y Y', Y = y :: Y' /\ 1 <= length Y')%nat as (y & Y' & -> & LY').
  { apply Z.ltb_ge in L2. destruct Y as [|y Y']; [change (zlen (@nil Z)) with 0 in L2; lia|].
    exists y, Y'. split; [reflexivity|]. rewrite zlen_cons in L2. unfold zlen in L2. lia. }
  cbn [length] in LY.
  assert (forall e', erep coll e' (y :: Y') ->
    pop_and_retry c coll (check_fuel n c coll) e' = pop_and_retry c coll (check_fuel (S n) c coll) e') as HR.
  { intros e' R'. apply (retry_ext _ _ _ y Y' R'). intros e2 R2. apply (IH _ Y' R2); lia. }
  assert (erep coll (er_set_id coll b1 e1) (y :: Y')) as R2 by exact R1.
  cbv zeta. rewrite (HR _ R2). reflexivity.
Qed.

Lemma check_fuel_more n k e X : erep coll e X -> (1 <= n)%nat -> (length X <= n)%nat ->
  check_fuel (k + n) c coll e = check_fuel n c coll e.
Proof.
  intros R H1 H2. induction k as [|k IH]; [reflexivity|]. cbn [Nat.add]. rewrite <- IH. symmetry.
  apply (check_fuel_enough _ _ X R); lia.
Qed.

(** As many levels as there are bytes, at least one, are enough ... *)
Lemma depth_bound_lemma ready e n : er_reached c coll ready e -> (1 <= n)%nat -> zlen (er_held e) <= Z.of_nat n ->
  check_fuel n c coll e = check c coll e /\ exists b e', check c coll e = Ok (b, e').
Proof.
  intros H H1 H2. destruct (er_reached_good _ _ H) as (X & R & HB & _). rewrite (er_held_rep e X R) in H2. unfold zlen in H2.
  split.
  - unfold check. rewrite (rep_size _ Hcap _ _ R).
    assert (length X <= n)%nat as H2' by lia.
    replace (Z.to_nat (zlen X)) with (length X) by (unfold zlen; lia).
    destruct (Nat.le_exists_sub (S (length X)) (n + S (length X))) as (k & Ek & _); [lia|].
    pose proof (check_fuel_more n (S (length X)) e X R H1 H2') as A.
    pose proof (check_fuel_more (S (length X)) n e X R) as B.
    rewrite <- A, <- B by lia. f_equal. lia.
  - destruct (check_spec c coll Hst e X R HB) as (b & e' & Y & E & _). eauto.
Qed.

(** ... and all are needed for the worst data. *)
Lemma worst_hang : forall n k e, erep coll e (repeat 1 k ++ [255]) -> (n < S k)%nat -> check_fuel n c coll e = Hang.
Proof.
  destruct (static_ok_elim coll Hst) as (Hcount & _).
  assert (is_id_valid coll 255 = false) as Hbad.
  { destruct (is_id_valid coll 255) eqn:E; [|reflexivity]. destruct (valid_has_id coll 255 ltac:(lia) E) as (m & Hm).
    apply has_id_lt in Hm. lia. }
  induction n as [|n IH]; intros k e R Hk; [reflexivity|].
  destruct k as [|k]; [lia|]. cbn [repeat app] in R.
  rewrite check_fuel_level. unfold check_level. rewrite (skip_stays _ _ _ R) by eauto. cbn [bind].
  rewrite (rep_size _ Hcap _ _ R).
  assert (zlen (1 :: repeat 1 k ++ [255]) = Z.of_nat k + 2) as EL.
  { rewrite zlen_cons, zlen_app. unfold zlen. rewrite repeat_length. cbn [length]. lia. }
  rewrite EL. rewrite (proj2 (Z.ltb_ge _ _)) by lia.
  rewrite (er_buffer_spec c coll Hst e _ 1 R) by lia. cbn [bind]. cbv zeta.
  assert (forall id, pop_and_retry c coll (check_fuel n c coll) (er_set_id coll id e) = Hang) as HP.
  { intros id. assert (erep coll (er_set_id coll id e) (1 :: repeat 1 k ++ [255])) as R' by exact R.
    unfold pop_and_retry. rewrite (rep_empty _ _ _ R'), assert_true by reflexivity. cbn [bind].
    destruct (er_pop_front_spec c coll Hst _ [1] _ 1 R' eq_refl) as (e1 & -> & R1 & _); [discriminate|]. cbn [bind].
    apply (IH k); [assumption | lia]. }
  rewrite HP. destruct (negb _) eqn:EV; [reflexivity|].
  destruct k as [|k].
  { exfalso. cbn [repeat app] in EV. change (nth (Z.to_nat 1) [1; 255] 0) with 255 in EV.
    unfold er_set_id, er_id_valid in EV. rewrite Hbad in EV. discriminate. }
  set (id := nth (Z.to_nat 1) _ 0) in *.
  assert (erep coll (er_set_id coll id e) (1 :: repeat 1 (S k) ++ [255])) as R' by exact R.
  rewrite (rep_size _ Hcap _ _ R'), EL. rewrite (proj2 (Z.ltb_ge _ _)) by lia.
  rewrite (er_buffer_spec c coll Hst _ _ 2 R') by lia. cbn [bind].
  assert (nth (Z.to_nat 2) (1 :: repeat 1 (S k) ++ [255]) 0 <> 2) as HN by (destruct k as [|k]; discriminate).
  unfold STX. rewrite (proj2 (Z.eqb_neq _ _) HN). cbn [negb]. reflexivity.
Qed.

Lemma depth_attained_lemma k : (1 <= k)%nat -> Z.of_nat k <= cap ->
  exists e, er_append c coll (repeat 1 (k - 1) ++ [255]) (er_init coll) = Ok e
    /\ er_reached c coll false e /\ zlen (er_held e) = Z.of_nat k
    /\ (forall n, (n < k)%nat -> check_fuel n c coll e = Hang)
    /\ exists b e', check_fuel k c coll e = Ok (b, e').
Proof.
  intros H1 H2. assert (erep coll (er_init coll) []) as R0 by exact (rep_init cap Hcap).
  assert (zlen (repeat 1 (k - 1) ++ [255]) = Z.of_nat k) as EL.
  { rewrite zlen_app. unfold zlen. rewrite repeat_length. cbn [length]. lia. }
  assert (zlen (repeat 1 (k - 1) ++ [255]) <= er_available coll (er_init coll)) as HA.
  { rewrite (er_available_spec _ [] R0). change (zlen (@nil Z)) with 0. lia. }
  destruct (er_append_spec (er_init coll) [] (repeat 1 (k - 1) ++ [255]) R0 HA) as (e & E & R & _). cbn [app] in R.
  assert (er_reached c coll false e) as HR.
  { eapply er_reached_append; [apply er_reached_new | | exact HA | exact E]. apply Forall_app. split.
    - apply Forall_forall. intros x Hx. apply repeat_spec in Hx. lia.
    - constructor; [lia | constructor]. }
  exists e. rewrite (er_held_rep _ _ R). conj; auto.
  - intros n Hn. apply (worst_hang n (k - 1)); [assumption | lia].
  - destruct (depth_bound_lemma false e k HR H1) as (-> & HE); [rewrite (er_held_rep _ _ R); lia | exact HE].
Qed.
End Envelope.

Lemma no_id_lemma c coll e : er_id_valid e = false ->
  let stop {A} : outcome A := if stops (plain c) then AssertFail else UB in
  er_current_id c e = stop /\ er_message_length c coll e = stop
  /\ (mode c = Disabled -> er_pop_message c coll e = stop)
  /\ (mode c = Reporting -> forall e', check c coll e = Ok (false, e') -> er_id_valid e' = false -> er_pop_message c coll e = stop).
Proof.
  intros H. cbv zeta.
  assert (forall x, er_id_valid x = false -> er_current_id c x = (if stops (plain c) then AssertFail else UB)
     /\ er_message_length c coll x = (if stops (plain c) then AssertFail else UB)) as HX.
  { intros x Hx. unfold er_message_length, er_current_id, er_id_valid, assert_plain in *. destruct (er_id x); [discriminate|].
    destruct (stops (plain c)); split; reflexivity. }
  destruct (HX e H) as (H1 & H2). split; [exact H1|]. split; [exact H2|]. unfold er_pop_message. split.
  - intros M. rewrite M in *. cbn [bind]. rewrite H2. destruct (stops (plain c)); reflexivity.
  - intros M e' HC He. destruct (HX e' He) as (_ & H3). rewrite M in *. rewrite HC. cbn [bind]. rewrite H3. destruct (stops (plain c)); reflexivity.
Qed.
