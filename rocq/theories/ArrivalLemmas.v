(** Lemmas about bytes arriving while processMessages is at work. *)
From Verif Require Import SpecArrivals HandlerLemmas DeliveryLemmas.

Section Arriving.
Context (c : config) (coll : collection) (Hst : static_ok coll = true) (Hsafe : index_safe c (capacity coll)).
Local Notation cap := (capacity coll).
Let Hcap : cap_ok cap := capacity_ok coll Hst.
Let K : nat := Z.to_nat cap.

(** ** The buffer *)

(** From [s] to [s'] the bytes [d] arrived. *)
Definition goes (s : fbuf) (d : list Z) (s' : fbuf) : Prop :=
  bytes_ok d /\ fb_arrived s' = fb_arrived s ++ d
  /\ (length d + K * length (fb_coming s') <= K * length (fb_coming s))%nat.

(** [s] holds [X] and what will arrive does no harm. *)
Definition has (s : fbuf) (X : list Z) : Prop :=
  erep coll (fb_recv s) X /\ bytes_ok X /\ Forall fits (fb_coming s) /\ Forall harmless (fb_coming s).

Lemma goes_refl s : goes s [] s.
Proof. split; [constructor|]. split; [rewrite app_nil_r; reflexivity | simpl; lia]. Qed.

Lemma goes_trans s d s' d' s'' : goes s d s' -> goes s' d' s'' -> goes s (d ++ d') s''.
Proof.
  intros (B & A & L) (B' & A' & L'). split; [apply Forall_app; auto|]. split.
  - rewrite A', A, app_assoc. reflexivity.
  - rewrite app_length. lia.
Qed.

Lemma has_room s X : has s X -> er_available coll (fb_recv s) = cap - zlen X.
Proof.
  intros (R & _). unfold er_available.
  rewrite (max_size_cap _ Hcap), (rep_size _ Hcap _ _ R). pose proof (rep_size_le _ _ _ R).
  pose proof (zlen_nonneg X). apply (to_sz_small _ Hcap). lia.
Qed.

Lemma append_nothing e X : erep coll e X -> X <> [] -> er_append c coll [] e = Ok e.
Proof.
  intros R Hne. unfold er_append, rb_push_range, rb_ensure_space. change (zlen (@nil Z)) with 0.
  pose proof (rep_empty _ _ _ R) as HE. destruct (rep_inv _ _ _ R) as (I1 & I2 & I3).
  pose proof R as (A & B & HC & Hb & Hp & Hl). unfold cap_ok in Hcap.
  pose proof (zlen_nonneg A). pose proof (zlen_nonneg X). pose proof (zlen_nonneg B).
  rewrite (to_sz_small _ Hcap) by lia.
  rewrite HE. destruct X as [|x X]; [contradiction|].
  rewrite (promoted_add_exact c cap Hsafe) by lia. rewrite Z.add_0_r, (proj2 (Z.leb_le _ _)) by lia. cbn [bind].
  rewrite Z.add_0_r, (proj2 (Z.leb_le _ _)) by lia. cbn [rb_begin rb_pastEnd rb_contents].
  rewrite (to_sz_small _ Hcap) by lia. unfold arr_write. cbn [length app]. rewrite Nat.add_0_r, firstn_skipn.
  destruct e as [id [b pe l]]. cbn [er_buf er_id rb_begin rb_pastEnd rb_contents] in *.
  unfold erep in R. cbn [er_buf] in R. rewrite (rep_verify c cap _ _ R). reflexivity.
Qed.

Lemma arrive_spec p s X : has s X ->
  exists s' d, arrive c coll p s = Ok s' /\ has s' (X ++ d) /\ goes s d s'
    /\ er_id (fb_recv s') = er_id (fb_recv s)
    /\ (p = Reading -> d = [] /\ (X <> [] -> fb_recv s' = fb_recv s))
    /\ (p = Emptied -> zlen d <= 1 \/ exists d', d = 1 :: d').
Proof.
  intros H. pose proof (has_room _ _ H) as HR. destruct H as (R & HB & HF & HH). unfold arrive.
  destruct s as [e [|f rest] a]; cbn [fb_recv fb_coming fb_arrived] in *.
  - exists (FBuf e [] a), []. rewrite app_nil_r. split; [reflexivity|]. split; [split; auto|].
    split; [apply goes_refl|]. split; [reflexivity|]. split; [auto|]. intros _. left. apply Z.leb_le. reflexivity.
  - rewrite HR. pose proof (rep_size_le _ _ _ R) as Hle.
    pose proof (Forall_inv HF p (cap - zlen X) ltac:(lia)) as (Hb & Hfit).
    pose proof (Forall_inv HH) as (Hr & He).
    destruct (rep_push_range c cap Hcap Hsafe (er_buf e) X (f p (cap - zlen X)) R) as (b' & Eb & R'); [lia|].
    assert (er_append c coll (f p (cap - zlen X)) e = Ok (ERB (er_id e) b')) as EA by (unfold er_append; rewrite Eb; reflexivity).
    rewrite EA. cbn [bind]. eexists. exists (f p (cap - zlen X)). split; [reflexivity|].
    split. { split; [exact R'|]. split; [apply Forall_app; auto|]. split; eapply Forall_inv_tail; eassumption. }
    split. { split; [assumption|]. split; [reflexivity|]. cbn [fb_coming length]. unfold zlen in *. nia. }
    split; [reflexivity|]. split.
    + intros ->. split; [apply Hr|]. intros Hne. rewrite Hr, (append_nothing e X R Hne) in EA. injection EA as EA.
      cbn [fb_recv]. symmetry. exact EA.
    + intros ->. apply He.
Qed.

(** A call that only asks. *)
Lemma ask_spec {A} p (f : erb -> outcome (A * erb)) (g : list Z -> A) s X : has s X ->
  (forall e d, erep coll e (X ++ d) -> er_id e = er_id (fb_recv s) -> bytes_ok (X ++ d) -> f e = Ok (g (X ++ d), e)) ->
  exists s' d, call_after c coll p f s = Ok (g (X ++ d), s') /\ has s' (X ++ d) /\ goes s d s'
    /\ er_id (fb_recv s') = er_id (fb_recv s) /\ (p = Emptied -> zlen d <= 1 \/ exists d', d = 1 :: d').
Proof.
  intros H Hf. unfold call_after. destruct (arrive_spec p s X H) as (s1 & d & -> & H1 & G & Hid & _ & HE). cbn [bind].
  pose proof H1 as (R & HB & _). rewrite (Hf _ _ R Hid HB). cbn [bind]. exists (FBuf (fb_recv s1) (fb_coming s1) (fb_arrived s1)), d.
  split; [reflexivity|]. destruct s1 as [e rest a]. auto.
Qed.

Lemma a_empty_spec s X : has s X ->
  exists s' d, a_empty c coll s = Ok (match X ++ d with [] => true | _ => false end, s')
    /\ has s' (X ++ d) /\ goes s d s' /\ er_id (fb_recv s') = er_id (fb_recv s).
Proof.
  intros H. destruct (ask_spec Between (fun e => Ok (rb_empty (er_buf e), e)) (fun Y => match Y with [] => true | _ => false end) s X H)
    as (s' & d & E & H1 & G & Hid & _).
  - intros e d R _ _. rewrite (rep_empty _ _ _ R). reflexivity.
  - exists s', d. auto.
Qed.

Lemma a_size_spec p s X : has s X ->
  exists s' d, a_size c coll p s = Ok (zlen (X ++ d), s')
    /\ has s' (X ++ d) /\ goes s d s' /\ er_id (fb_recv s') = er_id (fb_recv s) /\ (p = Emptied -> zlen d <= 1 \/ exists d', d = 1 :: d').
Proof.
  intros H. apply (ask_spec p (fun e => Ok (rb_size cap (er_buf e), e)) zlen s X H).
  intros e d R _ _. rewrite (rep_size _ Hcap _ _ R). reflexivity.
Qed.

Lemma a_at_spec i s P x Q : has s (P ++ x :: Q) -> i = zlen P ->
  exists s' d, a_at c coll i s = Ok (x, s')
    /\ has s' (P ++ x :: Q ++ d) /\ goes s d s' /\ er_id (fb_recv s') = er_id (fb_recv s).
Proof.
  intros H Hi. destruct (ask_spec Between (fun e => do y <- er_buffer c coll e i; Ok (y, e)) (fun _ => x) s _ H)
    as (s' & d & E & H1 & G & Hid & _).
  - intros e d R _ _. rewrite <- app_assoc in R. cbn [app] in R.
    rewrite (er_buffer_at c coll Hst e P x (Q ++ d) i R Hi). reflexivity.
  - exists s', d. rewrite <- app_assoc in H1. auto.
Qed.

Lemma a_front_spec s x X : has s (x :: X) ->
  exists s' d, a_front c coll s = Ok (x, s')
    /\ has s' (x :: X ++ d) /\ goes s d s' /\ er_id (fb_recv s') = er_id (fb_recv s).
Proof.
  intros H. destruct (ask_spec Between (fun e => do y <- rb_front c cap (er_buf e); Ok (y, e)) (fun _ => x) s _ H)
    as (s' & d & E & H1 & G & Hid & _).
  - intros e d R _ _. cbn [app] in R. rewrite (rep_front c _ Hcap _ _ _ R). reflexivity.
  - exists s', d. auto.
Qed.

Lemma a_id_valid_spec s X : has s X ->
  exists s' d, a_id_valid c coll s = Ok (match er_id (fb_recv s) with Some _ => true | None => false end, s')
    /\ has s' (X ++ d) /\ goes s d s' /\ er_id (fb_recv s') = er_id (fb_recv s).
Proof.
  intros H. destruct (ask_spec Between (fun e => Ok (er_id_valid e, e))
    (fun _ => match er_id (fb_recv s) with Some _ => true | None => false end) s X H) as (s' & d & E & H1 & G & Hid & _).
  - intros e d _ Hid _. unfold er_id_valid. rewrite Hid. reflexivity.
  - exists s', d. auto.
Qed.

Lemma a_id_spec s X id : has s X -> er_id (fb_recv s) = Some id ->
  exists s' d, a_id c coll s = Ok (id, s')
    /\ has s' (X ++ d) /\ goes s d s' /\ er_id (fb_recv s') = Some id.
Proof.
  intros H Hi. destruct (ask_spec Between (fun e => do id <- er_current_id c e; Ok (id, e)) (fun _ => id) s X H)
    as (s' & d & E & H1 & G & Hid & _).
  - intros e d _ Hid _. unfold er_current_id. rewrite Hid, Hi. reflexivity.
  - exists s', d. rewrite Hid. auto.
Qed.

Lemma a_length_spec s X m id : has s X -> er_id (fb_recv s) = Some id -> has_id coll m id ->
  exists s' d, a_length c coll s = Ok (Z.of_nat (frame_size (mc_env coll) m), s')
    /\ has s' (X ++ d) /\ goes s d s' /\ er_id (fb_recv s') = Some id.
Proof.
  intros H Hi Hm. destruct (ask_spec Between (fun e => do n <- er_message_length c coll e; Ok (n, e))
    (fun _ => Z.of_nat (frame_size (mc_env coll) m)) s X H) as (s' & d & E & H1 & G & Hid & _).
  - intros e d _ Hid _. unfold er_message_length, er_id_valid, er_current_id. rewrite Hid, Hi, plain_true by reflexivity. cbn [bind].
    rewrite (get_message_length_valid coll m id Hst Hm). reflexivity.
  - exists s', d. rewrite Hid. auto.
Qed.

Lemma a_set_id_spec s X id : has s X ->
  exists s' d, a_set_id c coll id s = Ok (tt, s')
    /\ has s' (X ++ d) /\ goes s d s' /\ er_id (fb_recv s') = (if is_id_valid coll id then Some id else None).
Proof.
  intros H. unfold a_set_id, call_after. destruct (arrive_spec Between s X H) as (s1 & d & -> & H1 & G & Hid & _). cbn [bind].
  eexists. exists d. split; [reflexivity|]. destruct H1 as (R & HB & HF & HH). split; [|split; [exact G|reflexivity]].
  split; [exact R|]. auto.
Qed.

Lemma a_pop_spec n s P X : has s (P ++ X) -> n = zlen P -> P <> [] ->
  exists s' d, a_pop c coll n s = Ok (tt, s')
    /\ has s' (X ++ d) /\ goes s d s' /\ er_id (fb_recv s') = er_id (fb_recv s).
Proof.
  intros H Hn HP. unfold a_pop, call_after. destruct (arrive_spec Between s _ H) as (s1 & d & -> & H1 & G & Hid & _). cbn [bind].
  destruct H1 as (R & HB & HF & HH). rewrite <- app_assoc in R, HB.
  destruct (er_pop_front_spec c coll Hst (fb_recv s1) P (X ++ d) n R Hn) as (e & -> & R' & Hid').
  { destruct P; [contradiction|discriminate]. }
  cbn [bind]. eexists. exists d. split; [reflexivity|]. apply Forall_app in HB as [_ HB].
  split; [split; [exact R'|]; auto|]. split; [exact G|]. cbn [fb_recv]. congruence.
Qed.

(** ** checkBufferForMessage *)

Lemma skips_suffix X Y : Skips coll X Y -> exists Z0, X = Z0 ++ Y.
Proof. induction 1 as [s|b s s' D _ (Z0 & ->)]; [exists []; reflexivity | exists (b :: Z0); reflexivity]. Qed.

(** From holding [X] to holding [Y], [d] arriving: arrivals within the capacity, and bytes dropped that no frame begins
    with. *)
Inductive Runs : list Z -> list Z -> list Z -> Prop :=
| runs_refl X : Runs X [] X
| runs_arrive X d g Y : zlen (X ++ d) <= cap -> bytes_ok d -> Runs (X ++ d) g Y -> Runs X (d ++ g) Y
| runs_skip b X g Y : dead coll (b :: X) -> Runs X g Y -> Runs (b :: X) g Y.

Lemma runs_trans X d Y g Z0 : Runs X d Y -> Runs Y g Z0 -> Runs X (d ++ g) Z0.
Proof.
  induction 1 as [X|X d g' Y Hf Hb _ IH|b X g' Y D _ IH]; intros H.
  - assumption.
  - rewrite <- app_assoc. apply runs_arrive; auto.
  - apply runs_skip; auto.
Qed.

Lemma runs_skips X d Y : Runs X d Y -> Skips coll (X ++ d) Y.
Proof.
  induction 1 as [X|X d g' Y Hf Hb _ IH|b X g' Y D _ IH].
  - rewrite app_nil_r. constructor.
  - rewrite app_assoc. exact IH.
  - cbn [app]. constructor; [apply dead_app, D | exact IH].
Qed.

Lemma has_runs s X d s' g Y : goes s d s' -> has s' (X ++ d) -> Runs (X ++ d) g Y -> Runs X (d ++ g) Y.
Proof. intros (Hb & _) (R & _) HR. apply runs_arrive; [exact (rep_size_le _ _ _ R) | assumption | assumption]. Qed.

Definition weight (s : fbuf) (X : list Z) : nat := (length X + K * length (fb_coming s))%nat.

Lemma goes_weight s X d s' : goes s d s' -> (weight s' (X ++ d) <= weight s X)%nat.
Proof. intros (_ & _ & L). unfold weight. rewrite app_length. lia. Qed.

Lemma a_skip_spec fuel : forall s X, has s X -> (weight s X < fuel)%nat ->
  exists p s' d Y, a_skip fuel c coll s = Ok (p, s') /\ has s' Y /\ goes s d s' /\ Runs X d Y
    /\ ((p = Emptied /\ Y = []) \/ exists Y', Y = 1 :: Y').
Proof.
  induction fuel as [|fuel IH]; intros s X H Hf; [lia|]. cbn [a_skip].
  destruct (a_empty_spec s X H) as (s1 & d1 & -> & H1 & G1 & _). cbn [bind].
  pose proof (goes_weight _ X _ _ G1) as W1.
  destruct (X ++ d1) as [|x Y] eqn:EX.
  - exists Emptied, s1, d1, []. split; [reflexivity|]. split; [assumption|]. split; [assumption|]. split; [|auto].
    rewrite <- (app_nil_r d1). eapply has_runs; [exact G1 | rewrite EX; exact H1 | rewrite EX; constructor].
  - destruct (a_front_spec s1 x Y H1) as (s2 & d2 & -> & H2 & G2 & _). cbn [bind]. unfold SOH.
    destruct (Z.eqb_spec x 1) as [->|Hx].
    + exists Between, s2, (d1 ++ d2), (1 :: Y ++ d2). split; [reflexivity|]. split; [assumption|].
      split; [eapply goes_trans; eassumption|]. split; [|eauto].
      eapply has_runs; [exact G1 | rewrite EX; exact H1 |]. rewrite EX, <- (app_nil_r d2).
      eapply has_runs; [exact G2 | cbn [app]; exact H2 | cbn [app]; rewrite app_nil_r; constructor].
    + destruct (a_pop_spec 1 s2 [x] (Y ++ d2) H2 eq_refl) as (s3 & d3 & -> & H3 & G3 & _); [discriminate|]. cbn [bind].
      pose proof (goes_weight _ (x :: Y) _ _ G2) as W2. pose proof (goes_weight _ (x :: Y ++ d2) _ _ G3) as W3.
      destruct (IH s3 ((Y ++ d2) ++ d3) H3) as (p & s4 & d4 & Y4 & -> & H4 & G4 & HS & HY).
      { unfold weight in *. cbn [length app] in *. lia. }
      exists p, s4, (d1 ++ d2 ++ d3 ++ d4), Y4. split; [reflexivity|]. split; [assumption|].
      split; [repeat (eapply goes_trans; [eassumption|]); assumption|]. split; [|assumption].
      eapply has_runs; [exact G1 | rewrite EX; exact H1 |]. rewrite EX.
      eapply has_runs; [exact G2 | exact H2 |]. cbn [app]. apply runs_skip; [apply not_soh_dead; assumption|].
      eapply has_runs; [exact G3 | exact H3 | exact HS].
Qed.

Lemma a_checksum_spec : forall L P Q ck s, has s (P ++ L ++ Q) -> 0 <= ck < 256 ->
  exists s' d, a_checksum_loop (length L) c coll (zlen P) ck s = Ok ((ck + zsum L) mod 256, s')
    /\ has s' (P ++ L ++ Q ++ d) /\ goes s d s' /\ er_id (fb_recv s') = er_id (fb_recv s).
Proof.
  induction L as [|x L IH]; intros P Q ck s H Hck; cbn [a_checksum_loop length zsum fold_right].
  - exists s, []. rewrite Z.add_0_r, Z.mod_small by lia. rewrite app_nil_r. split; [reflexivity|]. split; [assumption|]. split; [apply goes_refl | reflexivity].
  - cbn [app] in H. destruct (a_at_spec (zlen P) s P x (L ++ Q) H eq_refl) as (s1 & d1 & -> & H1 & G1 & I1).
    cbn [bind tx_byte checksum_tx checksum_byte].
    replace (zlen P + 1) with (zlen (P ++ [x])) by (rewrite zlen_app; reflexivity).
    destruct (IH (P ++ [x]) (Q ++ d1) (trunc 8 (ck + x)) s1) as (s2 & d2 & E & H2 & G2 & I2).
    { rewrite <- !app_assoc in *. exact H1. }
    { unfold trunc. change (2 ^ 8) with 256. apply Z.mod_pos_bound. lia. }
    rewrite E. exists s2, (d1 ++ d2). split.
    + do 2 f_equal. unfold trunc. change (2 ^ 8) with 256. rewrite Zplus_mod_idemp_l. f_equal. unfold zsum. simpl. lia.
    + split; [rewrite <- !app_assoc in *; exact H2|]. split; [eapply goes_trans; eassumption | congruence].
Qed.

Lemma a_trailer_spec s m id p t r :
  has_id coll m id -> length p = payload_size m ->
  length ([1; id; 2] ++ p ++ t) = frame_size (mc_env coll) m ->
  has s ([1; id; 2] ++ p ++ t ++ r) ->
  exists ok s' d, a_trailer c coll (Z.of_nat (frame_size (mc_env coll) m)) s = Ok (ok, s')
    /\ has s' ([1; id; 2] ++ p ++ t ++ r ++ d) /\ goes s d s' /\ er_id (fb_recv s') = er_id (fb_recv s)
    /\ (ok = true <-> [1; id; 2] ++ p ++ t = spec_frame (mc_env coll) id p).
Proof.
  intros Hm Hp HL R. unfold a_trailer, spec_frame, frame_size in *. cbv zeta.
  rewrite !app_length in HL. simpl length in HL.
  destruct (mc_env coll).
  - assert (exists t1 t2, t = [t1; t2]) as (t1 & t2 & ->).
    { destruct t as [|t1 [|t2 [|]]]; simpl in HL; try lia. eauto. }
    destruct (a_at_spec (Z.of_nat (payload_size m + 5) - 2) s ([1; id; 2] ++ p) t1 (t2 :: r)) as (s1 & d1 & -> & H1 & G1 & I1).
    { rewrite <- app_assoc. exact R. }
    { rewrite zlen_app. unfold zlen. simpl length. lia. }
    cbn [bind]. unfold ETX, EOT. destruct (Z.eqb_spec t1 3) as [->|Ht1]; cbn [negb].
    + destruct (a_at_spec (Z.of_nat (payload_size m + 5) - 1) s1 ([1; id; 2] ++ p ++ [3]) t2 (r ++ d1)) as (s2 & d2 & -> & H2 & G2 & I2).
      { rewrite <- !app_assoc in *. exact H1. }
      { rewrite !zlen_app. unfold zlen. simpl length. lia. }
      cbn [bind]. eexists. exists s2, (d1 ++ d2). split; [reflexivity|].
      split; [rewrite <- !app_assoc in *; exact H2|]. split; [eapply goes_trans; eassumption|]. split; [congruence|].
      rewrite Z.eqb_eq. split.
      * intros ->. reflexivity.
      * intros H. apply app_inv_head, app_inv_head in H. congruence.
    + eexists. exists s1, d1. split; [reflexivity|]. split; [rewrite <- !app_assoc in *; exact H1|]. split; [assumption|].
      split; [assumption|]. split; [discriminate|]. intros H. apply app_inv_head, app_inv_head in H. congruence.
  - assert (exists t1 t2 t3, t = [t1; t2; t3]) as (t1 & t2 & t3 & ->).
    { destruct t as [|t1 [|t2 [|t3 [|]]]]; simpl in HL; try lia. eauto. }
    destruct (a_at_spec (Z.of_nat (payload_size m + 6) - 3) s ([1; id; 2] ++ p) t1 (t2 :: t3 :: r)) as (s1 & d1 & -> & H1 & G1 & I1).
    { rewrite <- app_assoc. exact R. }
    { rewrite zlen_app. unfold zlen. simpl length. lia. }
    cbn [bind]. unfold ETX, EOT. destruct (Z.eqb_spec t1 3) as [->|Ht1]; cbn [negb].
    2:{ eexists. exists s1, d1. split; [reflexivity|]. split; [rewrite <- !app_assoc in *; exact H1|]. split; [assumption|].
        split; [assumption|]. split; [discriminate|].
        rewrite <- !app_assoc. intros H. apply app_inv_head, app_inv_head in H. simpl in H. congruence. }
    destruct (a_at_spec (Z.of_nat (payload_size m + 6) - 1) s1 ([1; id; 2] ++ p ++ [3; t2]) t3 (r ++ d1)) as (s2 & d2 & -> & H2 & G2 & I2).
    { rewrite <- !app_assoc in *. exact H1. }
    { rewrite !zlen_app. unfold zlen. simpl length. lia. }
    cbn [bind]. destruct (Z.eqb_spec t3 4) as [->|Ht3]; cbn [negb].
    2:{ eexists. exists s2, (d1 ++ d2). split; [reflexivity|]. split; [rewrite <- !app_assoc in *; exact H2|].
        split; [eapply goes_trans; eassumption|]. split; [congruence|]. split; [discriminate|].
        rewrite <- !app_assoc. intros H. apply app_inv_head, app_inv_head in H. simpl in H. congruence. }
    replace (Z.to_nat (Z.of_nat (payload_size m + 6) - 2)) with (length ([1; id; 2] ++ p ++ [3]))
      by (rewrite !app_length; simpl length; lia).
    change 0 with (zlen (@nil Z)) at 1.
    destruct (a_checksum_spec ([1; id; 2] ++ p ++ [3]) [] (t2 :: 4 :: (r ++ d1) ++ d2) checksum_init s2) as (s3 & d3 & -> & H3 & G3 & I3).
    { cbn [app] in *. rewrite <- !app_assoc in *. exact H2. }
    { unfold checksum_init. lia. }
    cbn [bind].
    destruct (a_at_spec (Z.of_nat (payload_size m + 6) - 2) s3 ([1; id; 2] ++ p ++ [3]) t2 (4 :: ((r ++ d1) ++ d2) ++ d3)) as (s4 & d4 & -> & H4 & G4 & I4).
    { cbn [app] in *. rewrite <- !app_assoc in *. exact H3. }
    { rewrite !zlen_app. unfold zlen. simpl length. lia. }
    cbn [bind]. eexists. exists s4, (d1 ++ d2 ++ d3 ++ d4). split; [reflexivity|].
    split; [cbn [app] in *; rewrite <- !app_assoc in *; exact H4|].
    split; [repeat (eapply goes_trans; [eassumption|]); assumption|]. split; [congruence|].
    unfold checksum_init. rewrite Z.add_0_l, Z.eqb_eq. split.
    * intros <-. rewrite <- !app_assoc. reflexivity.
    * rewrite <- !app_assoc. intros H. apply app_inv_head, app_inv_head in H. exact (eq_sym (f_equal (fun l => nth 1 l 0) H)).
Qed.

(** What a check establishes. *)
Definition checked (s : fbuf) (X : list Z) (res : outcome (bool * fbuf)) : Prop :=
  exists ok s' d g Y, res = Ok (ok, s') /\ has s' (Y ++ g) /\ goes s (d ++ g) s' /\ Runs X d Y
    /\ if ok then g = [] /\ exists f m id p r, Y = f ++ r /\ is_frame coll f m id p /\ er_id (fb_recv s') = Some id
       else undecided coll Y.

Lemma checked_runs s d s' X Y res : goes s d s' -> Runs X d Y -> checked s' Y res -> checked s X res.
Proof.
  intros G HR (ok & s2 & d2 & g & Y2 & E & H & G2 & HS & HY). exists ok, s2, (d ++ d2), g, Y2. split; [assumption|]. split; [assumption|].
  split; [rewrite <- app_assoc; eapply goes_trans; eassumption|]. split; [|assumption]. eapply runs_trans; eassumption.
Qed.

Lemma has_runs1 s X d s' : goes s d s' -> has s' (X ++ d) -> Runs X d (X ++ d).
Proof. intros G H. rewrite <- (app_nil_r d) at 1. eapply has_runs; [exact G | exact H | constructor]. Qed.

Lemma checked_after s d s' X res : goes s d s' -> has s' (X ++ d) -> checked s' (X ++ d) res -> checked s X res.
Proof. intros G H. apply (checked_runs s d s'); [assumption | eapply has_runs1; eassumption]. Qed.

Lemma a_retry_spec chk s b X : has s (b :: X) -> dead coll (b :: X) ->
  (forall s' d, has s' (X ++ d) -> (weight s' (X ++ d) < weight s (b :: X))%nat -> checked s' (X ++ d) (chk s')) ->
  checked s (b :: X) (a_pop_and_retry c coll chk s).
Proof.
  intros H D IH. unfold a_pop_and_retry.
  assert (exists s1 d1, match mode c with
          | Disabled => Ok s
          | _ => do (empty, s) <- a_empty c coll s; do _ <- assert_ c (negb empty); Ok s
          end = Ok s1 /\ has s1 (b :: X ++ d1) /\ goes s d1 s1) as (s1 & d1 & -> & H1 & G1).
  { destruct (a_empty_spec s (b :: X) H) as (s1 & d1 & E & H1 & G1 & _). cbn [app] in *. rewrite E. cbn [bind negb].
    rewrite assert_true by reflexivity. cbn [bind].
    destruct (mode c); [exists s, []; rewrite app_nil_r; split; [reflexivity|]; split; [assumption|apply goes_refl] | eauto | eauto]. }
  cbn [bind]. destruct (a_empty_spec s1 (b :: X ++ d1) H1) as (s2 & d2 & -> & H2 & G2 & _). cbn [app bind] in *.
  destruct (a_pop_spec 1 s2 [b] ((X ++ d1) ++ d2) H2 eq_refl) as (s3 & d3 & -> & H3 & G3 & _); [discriminate|]. cbn [bind].
  assert (goes s (d1 ++ d2 ++ d3) s3) as G by (repeat (eapply goes_trans; [eassumption|]); assumption).
  pose proof (goes_weight _ (b :: X) _ _ G) as W. rewrite <- !app_assoc in H3.
  eapply checked_runs with (Y := X ++ d1 ++ d2 ++ d3); [exact G| |].
  - eapply has_runs; [exact G1 | exact H1|]. eapply has_runs; [exact G2 | exact H2|]. cbn [app].
    apply runs_skip; [rewrite <- app_assoc; apply dead_app, D|]. rewrite <- (app_nil_r d3) at 1.
    eapply has_runs; [exact G3 | |]; rewrite <- !app_assoc; [exact H3 | constructor].
  - apply IH.
    + exact H3.
    + unfold weight in *. cbn [length app] in *. lia.
Qed.

Lemma a_check_spec fuel : forall s X, has s X -> (weight s X < fuel)%nat -> checked s X (a_check fuel c coll s).
Proof.
  induction fuel as [|fuel IH]; intros s X H Hf; [lia|]. cbn [a_check].
  destruct (a_skip_spec (S fuel) s X H Hf) as (p & s0 & d0 & Y & -> & H0 & G0 & HS & HY). cbn [bind].
  eapply checked_runs; [exact G0 | exact HS |]. pose proof (goes_weight _ X _ _ G0) as W0.
  assert (weight s0 Y < S fuel)%nat as W.
  { destruct (skips_suffix _ _ (runs_skips _ _ _ HS)) as (Z0 & EZ). rewrite EZ in W0. unfold weight in *. rewrite app_length in W0. lia. }
  clear HS G0 W0 Hf H X d0 s. rename s0 into s, H0 into H.
  destruct (a_size_spec p s Y H) as (s1 & d1 & -> & H1 & G1 & _ & HE). cbn [bind].
  assert ((Y = [] /\ zlen (Y ++ d1) <= 1) \/ exists Y', Y ++ d1 = 1 :: Y') as HY1.
  { destruct HY as [(Hp & ->)|(Y' & ->)]; [|right; exists (Y' ++ d1); reflexivity].
    destruct (HE Hp) as [Hd|(d' & ->)]; [left; auto | right; exists d'; reflexivity]. }
  destruct HY1 as [(-> & Hd)|HY1].
  { rewrite (proj2 (Z.ltb_lt _ _)) by lia. exists false, s1, [], d1, []. split; [reflexivity|]. split; [assumption|].
    split; [assumption|]. split; [constructor | exact I]. }
  eapply checked_after; [exact G1 | exact H1 |]. pose proof (goes_weight _ Y _ _ G1) as W1.
  assert (weight s1 (Y ++ d1) < S fuel)%nat as W2 by lia. revert HY1 H1 W2. generalize (Y ++ d1).
  clear - IH Hst Hsafe Hcap. rename s1 into s. intros Y HY H W.
  assert (forall d Y', s = s -> undecided coll d -> d = Y' -> Y' = Y -> checked s Y (Ok (false, s))) as Hstop.
  { intros d Y' _ U -> ->. exists false, s, [], [], Y. rewrite app_nil_r. split; [reflexivity|]. split; [assumption|].
    split; [apply goes_refl|]. split; [constructor | assumption]. }
  destruct HY as (Y' & ->).
  destruct Y' as [|id Y']; [cbn; eapply Hstop; eauto; reflexivity|].
  clear Hstop. rewrite (proj2 (Z.ltb_ge _ _)) by (rewrite !zlen_cons; pose proof (zlen_nonneg Y'); lia).
  assert (0 <= id) as Hid0. { destruct H as (_ & HB & _). apply Forall_inv_tail, Forall_inv in HB. lia. }
  destruct (a_at_spec 1 s [1] id Y' H eq_refl) as (s1 & d1 & -> & H1 & G1 & I1). cbn [bind app] in *.
  destruct (a_set_id_spec s1 _ id H1) as (s2 & d2 & -> & H2 & G2 & I2). cbn [bind app] in *.
  destruct (a_id_valid_spec s2 _ H2) as (s3 & d3 & -> & H3 & G3 & I3). rewrite I2 in *. cbn [bind app] in *.
  assert (goes s (d1 ++ d2 ++ d3) s3) as G by (repeat (eapply goes_trans; [eassumption|]); assumption).
  rewrite <- !app_assoc in H3.
  eapply checked_after; [exact G | exact H3 |]. pose proof (goes_weight _ (1 :: id :: Y') _ _ G) as W1. cbn [app] in *. assert (weight s3 (1%Z :: id :: Y' ++ d1 ++ d2 ++ d3) < S fuel)%nat as W2 by lia.
  revert H3 W2. generalize (Y' ++ d1 ++ d2 ++ d3). clear Y' s H W s1 d1 H1 G1 I1 s2 d2 H2 G2 I2 G W1 d3 G3.
  rename s3 into s. intros Y' H W.
  assert (forall s' Y', (weight s' (1%Z :: id :: Y') < S fuel)%nat -> forall s2 d, has s2 ((id :: Y') ++ d) ->
          (weight s2 ((id :: Y') ++ d) < weight s' (1%Z :: id :: Y'))%nat -> checked s2 ((id :: Y') ++ d) (a_check fuel c coll s2)) as IH'.
  { intros s' Z0 Hlt s2 d Hs2 Hw. apply IH; [assumption|]. lia. }
  destruct (is_id_valid coll id) eqn:Ev; cbn [negb].
  2:{ apply a_retry_spec; [exact H| |apply IH', W]. apply bad_id_dead. intros m Hm. apply has_id_valid in Hm. congruence. }
  destruct (valid_has_id coll id Hid0 Ev) as (m & Hm).
  destruct (a_size_spec Between s _ H) as (s1 & d1 & -> & H1 & G1 & I1 & _). cbn [bind app] in *.
  eapply checked_after; [exact G1 | exact H1 |]. pose proof (goes_weight _ (1 :: id :: Y') _ _ G1) as W1. cbn [app] in *.
  rewrite I3 in I1.
  assert (weight s1 (1%Z :: id :: Y' ++ d1) < S fuel)%nat as W2 by lia.
  revert H1 W2. generalize (Y' ++ d1). clear Y' s H W d1 G1 W1 I3. rename s1 into s. intros Y' H W.
  destruct Y' as [|x Y'].
  { cbn. exists false, s, [], [], [1; id]. rewrite app_nil_r. split; [reflexivity|]. split; [assumption|]. split; [apply goes_refl|].
    split; [constructor|]. split; eauto. }
  rewrite (proj2 (Z.ltb_ge _ _)) by (rewrite !zlen_cons; pose proof (zlen_nonneg Y'); lia).
  destruct (a_at_spec 2 s [1; id] x Y' H eq_refl) as (s1 & d1 & -> & H1 & G1 & J1). cbn [bind app] in *. unfold STX.
  eapply checked_after; [exact G1 | exact H1 |]. pose proof (goes_weight _ (1 :: id :: x :: Y') _ _ G1) as W1. cbn [app] in *.
  assert (weight s1 (1%Z :: id :: x :: Y' ++ d1) < S fuel)%nat as W2 by lia. rewrite I1 in J1.
  revert H1 W2. generalize (Y' ++ d1). clear Y' s H W d1 G1 W1 I1. rename s1 into s. intros Y' H W.
  destruct (Z.eqb_spec x 2) as [->|Hx]; cbn [negb].
  2:{ apply a_retry_spec; [exact H| |apply IH', W]. apply bad_stx_dead. assumption. }
  destruct (a_length_spec s _ m id H J1 Hm) as (s1 & d1 & -> & H1 & G1 & J2). cbn [bind app] in *.
  destruct (a_size_spec Between s1 _ H1) as (s2 & d2 & -> & H2 & G2 & J3 & _). cbn [bind app] in *. rewrite J2 in J3.
  assert (goes s (d1 ++ d2) s2) as G by (repeat (eapply goes_trans; [eassumption|]); assumption).
  rewrite <- !app_assoc in H2. rewrite <- app_assoc.
  eapply checked_after; [exact G | exact H2 |]. pose proof (goes_weight _ (1 :: id :: 2 :: Y') _ _ G) as W1. cbn [app] in *. assert (weight s2 (1%Z :: id :: 2%Z :: Y' ++ d1 ++ d2) < S fuel)%nat as W2 by lia.
  revert H2 W2. generalize (Y' ++ d1 ++ d2). clear Y' s H W s1 d1 H1 G1 J1 J2 d2 G2 G W1.
  rename s2 into s. intros Y' H W.
  destruct (Z.ltb_spec (zlen (1 :: id :: 2 :: Y')) (Z.of_nat (frame_size (mc_env coll) m))) as [Hlt|Hge].
  { exists false, s, [], [], (1 :: id :: 2 :: Y'). rewrite app_nil_r. split; [reflexivity|]. split; [assumption|].
    split; [apply goes_refl|]. split; [constructor|]. split; [reflexivity|]. split; [reflexivity|].
    exists m. split; [assumption|]. unfold zlen in Hlt. cbn [length] in Hlt |- *. lia. }
  assert (exists p t r, Y' = p ++ t ++ r /\ length p = payload_size m
                        /\ length ([1; id; 2] ++ p ++ t) = frame_size (mc_env coll) m) as (p & t & r & -> & Hp & HL).
  { exists (firstn (payload_size m) Y'),
      (firstn (frame_size (mc_env coll) m - 3 - payload_size m) (skipn (payload_size m) Y')),
      (skipn (frame_size (mc_env coll) m - 3 - payload_size m) (skipn (payload_size m) Y')).
    rewrite !firstn_skipn. unfold zlen in Hge. cbn [length] in Hge.
    rewrite !app_length, !firstn_length, !skipn_length. cbn [length].
    unfold frame_size in *. destruct (mc_env coll); repeat split; lia. }
  destruct (a_trailer_spec s m id p t r Hm Hp HL H) as (ok & s1 & d1 & -> & H1 & G1 & J1 & Hok). cbn [bind].
  eapply checked_after; [exact G1 | cbn [app] in *; rewrite <- !app_assoc; exact H1 |]. pose proof (goes_weight _ ([1; id; 2] ++ p ++ t ++ r) _ _ G1) as W1. cbn [app] in *.
  rewrite <- !app_assoc in *.
  destruct ok.
  - exists true, s1, [], [], (1 :: id :: 2 :: p ++ t ++ r ++ d1). rewrite app_nil_r. split; [reflexivity|]. split; [exact H1|].
    split; [apply goes_refl|]. split; [constructor|]. split; [reflexivity|].
    exists ([1; id; 2] ++ p ++ t), m, id, p, (r ++ d1). split; [cbn [app]; rewrite <- ?app_assoc; reflexivity|].
    split; [|congruence]. split; [assumption|]. split; [assumption|]. apply Hok. reflexivity.
  - apply a_retry_spec; [exact H1| |apply IH'; lia].
    apply (bad_frame_dead coll m id p t (r ++ d1) Hm Hp HL). intros E. apply Hok in E. discriminate.
Qed.

(** popMessage removes the frame. *)
Lemma a_pop_message_spec fuel s f m id p r : has s (f ++ r) -> (weight s (f ++ r) < fuel)%nat ->
  is_frame coll f m id p -> er_id (fb_recv s) = Some id ->
  exists s' d, a_pop_message fuel c coll s = Ok s' /\ has s' (r ++ d) /\ goes s d s'.
Proof.
  intros H W F Hid. unfold a_pop_message.
  assert (exists s1 d1, match mode c with
          | Disabled => Ok s
          | Aborting => do (found, s) <- a_check fuel c coll s; if found : bool then Ok s else AssertFail
          | Reporting => do (_, s) <- a_check fuel c coll s; Ok s
          end = Ok s1 /\ has s1 (f ++ r ++ d1) /\ goes s d1 s1 /\ er_id (fb_recv s1) = Some id) as (s1 & d1 & -> & H1 & G1 & J1).
  { assert (exists s1 d1, a_check fuel c coll s = Ok (true, s1) /\ has s1 (f ++ r ++ d1) /\ goes s d1 s1
            /\ er_id (fb_recv s1) = Some id) as (s1 & d1 & EC & H1 & G1 & J1).
    { destruct (a_check_spec fuel s _ H W) as (ok & s1 & d1 & g & Y & -> & H1 & G1 & HS & HP).
      apply runs_skips in HS. rewrite <- app_assoc in HS.
      assert (Y = f ++ r ++ d1) as ->.
      { inversion HS as [? | b s0 s' [_ D] HS' E]; [reflexivity|]. exfalso. exact (D _ _ _ _ _ F E). }
      destruct ok.
      - destruct HP as (-> & HP). rewrite !app_nil_r in *.
        exists s1, d1. split; [reflexivity|]. split; [assumption|]. split; [assumption|].
        destruct HP as (f' & m' & id' & p' & s' & E & F' & J).
        destruct (is_frame_unique _ _ _ _ _ _ _ _ _ _ _ F F' E) as (_ & _ & -> & _). assumption.
      - exfalso. exact (frame_not_undecided _ _ _ _ _ _ F HP). }
    destruct (mode c); [exists s, []; rewrite app_nil_r; split; [reflexivity|]; split; [assumption|]; split; [apply goes_refl | assumption] | |];
      rewrite EC; cbn [bind]; exists s1, d1; auto. }
  cbn [bind]. pose proof F as (Hm & Hp & Ef).
  destruct (a_length_spec s1 _ m id H1 J1 Hm) as (s2 & d2 & -> & H2 & G2 & _). cbn [bind]. rewrite <- !app_assoc in H2.
  destruct (a_pop_spec (Z.of_nat (frame_size (mc_env coll) m)) s2 f (r ++ d1 ++ d2) H2) as (s3 & d3 & -> & H3 & G3 & _).
  { unfold zlen. f_equal. rewrite Ef. symmetry. apply spec_frame_length, Hp. }
  { rewrite Ef. unfold spec_frame. destruct (mc_env coll); discriminate. }
  cbn [bind]. eexists. exists (d1 ++ d2 ++ d3). split; [reflexivity|]. rewrite <- !app_assoc in H3.
  split; [exact H3|]. exact (goes_trans _ _ _ _ _ G1 (goes_trans _ _ _ _ _ G2 G3)).
Qed.

(** Reading the fields: nothing moves. *)
Lemma a_fields_spec : forall ts pos acc s X, has s X -> X <> [] ->
  exists s', a_fields c coll ts pos acc s
    = (do vs <- deserialize c cap (rb_contents (er_buf (fb_recv s))) ts pos acc; Ok (vs, s'))
    /\ has s' X /\ goes s [] s' /\ fb_recv s' = fb_recv s.
Proof.
  induction ts as [|t ts IH]; intros pos acc s X H Hne; cbn [a_fields deserialize bind].
  - exists s. split; [reflexivity|]. split; [assumption|]. split; [apply goes_refl | reflexivity].
  - destruct (arrive_spec Reading s X H) as (s1 & d & E & H1 & G1 & _ & HR & _).
    destruct (HR eq_refl) as (-> & HR'). specialize (HR' Hne). rewrite app_nil_r in H1. unfold call_after. rewrite E. cbn [bind].
    destruct (IH (pos + Z.of_nat (fsize t)) [] s1 X H1 Hne) as (s0 & _ & _).
    destruct (unbuffer c cap (rb_contents (er_buf (fb_recv s1))) t pos) as [v| | | |] eqn:EU; cbn [bind];
      rewrite HR' in EU; rewrite EU; cbn [bind];
      try (exists s1; split; [reflexivity|]; split; [assumption|]; split; [assumption | assumption]).
    destruct s1 as [e1 co1 ar1]. cbn [fb_recv fb_coming fb_arrived] in *.
    destruct (IH (pos + Z.of_nat (fsize t)) (acc ++ [v]) (FBuf e1 co1 ar1) X H1 Hne) as (s2 & E2 & H2 & G2 & R2).
    exists s2. rewrite E2. cbn [fb_recv] in *. subst e1. split; [reflexivity|]. split; [assumption|].
    split; [|assumption]. change (@nil Z) with (@nil Z ++ []). eapply goes_trans; eassumption.
Qed.

Lemma a_deserialize_spec s f m id p r vs : has s (f ++ r) -> is_frame coll f m id p ->
  encodes (little c) (mt_fields m) vs p -> er_id (fb_recv s) = Some id ->
  exists s' d, a_deserialize c coll id s = Ok (Some (m, vs), s') /\ has s' (f ++ r ++ d) /\ goes s d s'
    /\ er_id (fb_recv s') = Some id.
Proof.
  intros H F E Hid. unfold a_deserialize, call_after.
  destruct (arrive_spec Between s _ H) as (s1 & d & -> & H1 & G1 & J1 & _ & _). cbn [bind]. rewrite <- app_assoc in H1.
  pose proof H1 as (R & _).
  pose proof (deserialize_message_complete c coll Hst _ _ _ _ _ _ _ R F E) as HD.
  assert (f ++ r ++ d <> []) as Hne.
  { destruct (is_frame_head _ _ _ _ _ F) as (t & Ef). rewrite Ef. discriminate. }
  destruct s1 as [e1 co1 ar1]. cbn [fb_recv fb_coming fb_arrived] in *.
  unfold deserialize_message in HD. destruct (cap <? rb_begin (er_buf e1) + data_offset (mc_env coll)); [discriminate|].
  pose proof F as (Hm & _).
  assert (message_count coll <= 255) as Hn by (destruct (static_ok_elim _ Hst) as (Hn & _); lia). unfold message_count in Hn.
  rewrite (apply_at_spec _ id _ _ m) in HD; try (apply Hm); try lia.
  rewrite (apply_at_spec _ id _ _ m); try (apply Hm); try lia.
  destruct (a_fields_spec (mt_fields m) (rb_begin (er_buf e1) + data_offset (mc_env coll)) [] (FBuf e1 co1 ar1) _ H1 Hne)
    as (s2 & E2 & H2 & G2 & R2). cbn [fb_recv] in *. rewrite E2.
  destruct (deserialize c cap _ _ _ _) as [vs'| | | |]; try discriminate. cbn [bind] in HD |- *. injection HD as ->.
  exists s2, d. split; [reflexivity|]. split; [assumption|]. split; [|congruence].
  rewrite <- (app_nil_r d). eapply goes_trans; eassumption.
Qed.
End Arriving.
