(** The work checkBufferForMessage does over the life of a buffer. *)
From Verif Require Export EnvelopeLemmas.

Section Work.
Context (c : config) (coll : collection).
Hypothesis Hst : static_ok coll = true.
Hypothesis Hsafe : index_safe c (capacity coll).

Local Notation cap := (capacity coll).
Let Hcap : cap_ok cap := capacity_ok coll Hst.

Lemma retry_calls e b X : erep coll e (b :: X) ->
  exists e2, erep coll e2 X /\ forall chk, pop_and_retry c coll chk e = chk e2.
Proof.
  intros R. destruct (er_pop_front_spec c coll Hst e [b] X 1 R eq_refl) as (e1 & E & R1 & _); [discriminate|].
  exists e1. split; [exact R1|]. intros chk. unfold pop_and_retry.
  rewrite (rep_empty _ _ _ R), assert_true by reflexivity. cbn [bind]. rewrite E. reflexivity.
Qed.

(** One level returns, or drops a byte and calls the next. *)
Lemma level_cases e X : erep coll e X ->
  (exists r, (forall chk, check_level c coll chk e = r)
     /\ forall (b : bool) (e' : erb), r = Ok (b, e') -> exists W, erep coll e' W /\ (length W <= length X)%nat)
  \/ exists e2 W, erep coll e2 W /\ (length W < length X)%nat /\ forall chk, check_level c coll chk e = chk e2.
Proof.
  intros R. unfold check_level. rewrite (rep_size _ Hcap _ _ R).
  destruct (skip_to_soh_spec c coll Hst (Datatypes.S (Z.to_nat (zlen X))) e X R) as (e1 & W & E & R1 & _ & _ & (K & EK) & HW).
  { unfold zlen. lia. }
  rewrite E. cbn [bind]. rewrite (rep_size _ Hcap _ _ R1).
  assert (length W <= length X)%nat as LW by (rewrite EK, app_length; lia).
  assert (forall e2 b0, erep coll e2 W ->
    (exists r, (forall chk : erb -> outcome (bool * erb), Ok (b0, e2) = r)
       /\ forall (b : bool) (e' : erb), r = Ok (b, e') -> exists W, erep coll e' W /\ (length W <= length X)%nat)) as HR.
  { intros e2 b0 R2. eexists. split; [reflexivity|]. intros b e' H. exists W. split; [|assumption]. congruence. }
  assert (forall o : outcome (bool * erb), (forall v, o <> Ok v) ->
    (exists r, (forall chk : erb -> outcome (bool * erb), o = r)
       /\ forall (b : bool) (e' : erb), r = Ok (b, e') -> exists W, erep coll e' W /\ (length W <= length X)%nat)) as HE.
  { intros o Ho. exists o. split; [reflexivity|]. intros b e' H. exfalso. exact (Ho _ H). }
  destruct (zlen W <? 2) eqn:L2; [left; apply HR; exact R1|].
  destruct W as [|y W']; [discriminate|].
  destruct (er_buffer c coll e1 1) as [b1| | | |]; cbn [bind]; try (left; apply HE; discriminate).
  cbv zeta. assert (erep coll (er_set_id coll b1 e1) (y :: W')) as R2 by exact R1.
  remember (er_set_id coll b1 e1) as e2 eqn:Ee2.
  destruct (retry_calls e2 y W' R2) as (e3 & R3 & HC).
  assert (exists e4 W, erep coll e4 W /\ (length W < length X)%nat
    /\ forall chk : erb -> outcome (bool * erb), pop_and_retry c coll chk e2 = chk e4) as HD.
  { exists e3, W'. cbn [length] in LW. split; [assumption|]. split; [lia | assumption]. }
  destruct (negb (er_id_valid e2)); [right; exact HD|].
  rewrite (rep_size _ Hcap _ _ R2).
  destruct (zlen (y :: W') <? 3); [left; apply HR; exact R2|].
  destruct (er_buffer c coll e2 2) as [b2| | | |]; cbn [bind]; try (left; apply HE; discriminate).
  destruct (negb (b2 =? STX)); [right; exact HD|].
  destruct (er_message_length c coll e2) as [len| | | |]; cbn [bind]; try (left; apply HE; discriminate).
  destruct (zlen (y :: W') <? len); [left; apply HR; exact R2|].
  destruct (trailer c coll e2 len) as [ok| | | |]; cbn [bind]; try (left; apply HE; discriminate).
  destruct ok; [left; apply HR; exact R2 | right; exact HD].
Qed.

(** One call for every byte dropped, and one more, are enough. *)
Lemma levels_enough fuel : forall e X b e' Y, erep coll e X -> check_fuel fuel c coll e = Ok (b, e') -> erep coll e' Y ->
  (length Y <= length X)%nat /\ forall k, (length X - length Y < k)%nat -> check_fuel k c coll e = Ok (b, e').
Proof.
  induction fuel as [|fuel IH]; intros e X b e' Y R HC RY; [discriminate|]. rewrite check_fuel_level in HC.
  destruct (level_cases e X R) as [(r & Hr & Hok)|(e2 & W & R2 & LW & H2)].
  - rewrite Hr in HC. destruct (Hok _ _ HC) as (W & RW & LW). split.
    + pose proof (rep_bytes _ _ _ RY). pose proof (rep_bytes _ _ _ RW). assert (Y = W) by congruence. subst. assumption.
    + intros k Hk. destruct k as [|k]; [lia|]. rewrite check_fuel_level, Hr. exact HC.
  - rewrite H2 in HC. destruct (IH _ _ _ _ _ R2 HC RY) as (HL & HK). split; [lia|].
    intros k Hk. destruct k as [|k]; [lia|]. rewrite check_fuel_level, H2. apply HK. lia.
Qed.

Lemma hang_below : forall n k e X, erep coll e X -> (n <= k)%nat -> check_fuel k c coll e = Hang -> check_fuel n c coll e = Hang.
Proof.
  induction n as [|n IH]; intros k e X R Hk H; [reflexivity|]. destruct k as [|k]; [lia|].
  rewrite check_fuel_level in *. destruct (level_cases e X R) as [(r & Hr & _)|(e2 & W & R2 & _ & H2)].
  - rewrite Hr in *. exact H.
  - rewrite H2 in *. apply (IH k _ W R2); [lia | exact H].
Qed.

Lemma levels_exist e X : erep coll e X -> bytes_ok X -> exists l, levels c coll e l.
Proof.
  intros R HB. destruct (check_spec c coll Hst e X R HB) as (b & e' & Y & E & _ & _ & RY & _).
  assert (exists n, check_fuel n c coll e <> Hang) as (n & Hn) by (unfold check in E; eexists; rewrite E; discriminate).
  induction n as [|n IHn]; [contradiction Hn; reflexivity|].
  destruct (check_fuel n c coll e) as [v| | | |] eqn:En.
  4:{ exists (S n). split; [|exact Hn]. intros j Hj. apply (hang_below j n e X R); [lia | exact En]. }
  all: apply IHn; discriminate.
Qed.

Lemma levels_bound e X b e' Y l : erep coll e X -> check c coll e = Ok (b, e') -> erep coll e' Y -> levels c coll e l ->
  Z.of_nat l <= zlen X - zlen Y + 1.
Proof.
  intros R E RY (HL & HN). destruct (levels_enough _ _ _ _ _ _ R E RY) as (H1 & H2). unfold zlen.
  destruct (Z.le_gt_cases (Z.of_nat l) (Z.of_nat (length X) - Z.of_nat (length Y) + 1)) as [H|H]; [exact H|].
  exfalso. specialize (HL (S (length X - length Y)) ltac:(lia)). rewrite H2 in HL by lia. discriminate.
Qed.

(** C75: one call. *)
Lemma one_check_lemma ready e b e' l : er_reached c coll ready e -> check c coll e = Ok (b, e') -> levels c coll e l ->
  Z.of_nat l <= zlen (er_held e) - zlen (er_held e') + 1.
Proof.
  intros H E HL. destruct (er_reached_good c coll Hst Hsafe _ _ H) as (X & R & HB & _).
  destruct (er_reached_good c coll Hst Hsafe _ _ (er_reached_check _ _ _ _ _ _ H E)) as (Y & RY & _).
  rewrite (er_held_rep _ _ _ R), (er_held_rep _ _ _ RY). exact (levels_bound _ _ _ _ _ _ R E RY HL).
Qed.

Lemma work_reached n k b ready e : er_work c coll n k b ready e -> er_reached c coll ready e.
Proof. induction 1; econstructor; eassumption. Qed.

Lemma work_exists ready e : er_reached c coll ready e -> exists n k b, er_work c coll n k b ready e.
Proof.
  assert (forall ready e, er_reached c coll ready e -> exists l, levels c coll e l) as HL.
  { intros r x H. destruct (er_reached_good c coll Hst Hsafe _ _ H) as (X & R & HB & _). eapply levels_exist; eassumption. }
  induction 1 as [|ready e d e' H IH Hd Hl E|ready e x e' H IH Hx Hl E|ready e a m e' r H IH Ha Hm E
                 |ready e f e' H IH E|e e' H IH E|ready e id H IH Hid].
  - do 3 eexists. constructor.
  - destruct IH as (n & k & b & W). do 3 eexists. eapply er_work_append; eassumption.
  - destruct IH as (n & k & b & W). do 3 eexists. eapply er_work_append1; eassumption.
  - destruct IH as (n & k & b & W). do 3 eexists. eapply er_work_functor; eassumption.
  - destruct IH as (n & k & b & W). destruct (HL _ _ H) as (l & Hl). do 3 eexists. eapply er_work_check; eassumption.
  - destruct IH as (n & k & b & W). destruct (HL _ _ H) as (l & Hl). do 3 eexists. eapply er_work_pop; eassumption.
  - destruct IH as (n & k & b & W). do 3 eexists. eapply er_work_set_id; eassumption.
Qed.

(** C75: all calls. *)
Lemma work_lemma n k b ready e : er_work c coll n k b ready e -> k + zlen (er_held e) <= n + b.
Proof.
  induction 1 as [|n k b ready e d e' H IH Hd Hl E|n k b ready e x e' H IH Hx Hl E|n k b ready e a m e' r H IH Ha Hm E
                 |n k b ready e f e' l H IH E HL|n k b e e' l H IH E HL|n k b ready e id H IH Hid].
  - unfold er_held. rewrite (rep_bytes _ _ _ (rep_init cap Hcap) : rb_bytes (er_buf (er_init coll)) = []). reflexivity.
  - destruct (envelope_append_lemma c coll Hst Hsafe _ _ (work_reached _ _ _ _ _ H)) as (_ & HA & _).
    destruct (HA d Hl) as (e1 & E1 & H1 & _). assert (e1 = e') as -> by congruence. rewrite H1, zlen_app. lia.
  - destruct (envelope_append_lemma c coll Hst Hsafe _ _ (work_reached _ _ _ _ _ H)) as (_ & _ & HA & _).
    destruct (HA x Hl) as (e1 & E1 & H1 & _). assert (e1 = e') as -> by congruence. rewrite H1, zlen_app.
    change (zlen [x]) with 1. lia.
  - destruct (envelope_append_lemma c coll Hst Hsafe _ _ (work_reached _ _ _ _ _ H)) as (_ & _ & _ & HA).
    destruct (HA a m Ha Hm) as (e1 & E1 & H1 & _). rewrite E in E1. injection E1 as <- ->. rewrite H1, zlen_app. lia.
  - pose proof (one_check_lemma _ _ _ _ _ (work_reached _ _ _ _ _ H) E HL). lia.
  - pose proof (work_reached _ _ _ _ _ H) as HR.
    destruct (envelope_pop_lemma c coll Hst Hsafe _ HR) as (f & m & id & p & e1 & _ & F & Eh & Ep & _).
    assert (e1 = e') as -> by congruence. rewrite Eh, zlen_app in IH. pose proof (zlen_nonneg f).
    destruct (envelope_check_lemma c coll Hst Hsafe _ _ HR) as (b1 & e2 & EC & (dropped & Ed) & _ & _ & HB).
    pose proof (one_check_lemma _ _ _ _ _ HR EC HL) as HO. rewrite Ed, zlen_app in HO.
    assert (dropped = []) as ->.
    { destruct (er_reached_good c coll Hst Hsafe _ _ HR) as (X & R & HBy & _).
      destruct (check_spec c coll Hst e X R HBy) as (b2 & e3 & Y & E3 & HS & _ & RY & _).
      assert (e3 = e2) as -> by congruence. rewrite (er_held_rep _ _ _ R), (er_held_rep _ _ _ RY) in Ed.
      rewrite (er_held_rep _ _ _ R) in Eh. inversion HS as [s0 E0 E1|b0 s0 s' [_ D] HS' E0 E4].
      - rewrite E1 in Ed. apply (f_equal (@length Z)) in Ed. rewrite app_length in Ed.
        destruct dropped; [reflexivity|]. cbn [length] in Ed. lia.
      - exfalso. rewrite <- E0 in Eh. exact (D _ _ _ _ _ F Eh). }
    change (zlen (@nil Z)) with 0 in HO.
    assert (1 <= zlen f) as Hf by (pose proof (is_frame_length _ _ _ _ _ F); pose proof (frame_size_ge5 (mc_env coll) m); unfold zlen; lia).
    destruct (checking c); lia.
  - exact IH.
Qed.
End Work.
