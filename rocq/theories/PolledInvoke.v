(** A message read and removed while bytes come that fit behind the contents. *)
From Verif Require Import ReceiverProofs.
From Verif Require Export TornCheckLemmas.

Section Invoke.
Context (c : config) (coll : collection) (Hst : static_ok coll = true) (Hsafe : index_safe c (capacity coll)) (o : bool).
Local Notation cap := (capacity coll).
Let Hcap : cap_ok cap := capacity_ok coll Hst.
Local Notation thas := (thas coll).
Local Notation place s := (rb_begin (er_buf (ts_recv s))).

Lemma tc_interrupt_spec s X : thas s X -> X <> [] ->
  exists s' u, tc_interrupt c coll s = Ok s' /\ thas s' (X ++ concat u) /\ went s u s' /\ place s' = place s.
Proof.
  intros H HX. destruct (interrupt_grown c cap Hcap Hsafe _ _ _ (thas_tinv coll s X H HX)) as (b' & u & E & G).
  unfold tc_interrupt. rewrite E. cbn [bind]. destruct G as (EC & EB & R' & _ & Hr').
  destruct (thas_next coll s X b' u _ H EC R' Hr') as (H1 & H2). eexists. exists u. split; [reflexivity|]. auto.
Qed.

Lemma tc_bytes_spec : forall L P Q s pos, thas s (P ++ L ++ Q) -> pos = place s + zlen P ->
  exists s' u, tc_bytes (length L) c coll pos s = Ok (L, s') /\ thas s' ((P ++ L ++ Q) ++ concat u) /\ went s u s' /\ place s' = place s.
Proof.
  induction L as [|x L IH]; intros P Q s pos H Hp; cbn [tc_bytes length].
  - exists s, []. cbn [concat]. rewrite app_nil_r. split; [reflexivity|]. split; [exact H|]. split; [split; reflexivity | reflexivity].
  - destruct (tc_interrupt_spec s _ H ltac:(destruct P; discriminate)) as (s1 & u1 & -> & H1 & W1 & B1). cbn [bind].
    assert (arr_get (rb_contents (er_buf (ts_recv s1))) pos = x) as ->.
    { destruct H1 as ((A & B & HC & HA & _) & _). rewrite HC. unfold arr_get. rewrite Hp, <- B1, HA, <- zlen_app.
      replace (A ++ ((P ++ (x :: L) ++ Q) ++ concat u1) ++ B) with ((A ++ P) ++ x :: L ++ Q ++ concat u1 ++ B)
        by (rewrite <- !app_assoc; reflexivity).
      unfold zlen. rewrite Nat2Z.id. apply nth_app_at. reflexivity. }
    destruct (IH (P ++ [x]) (Q ++ concat u1) s1 (pos + 1)) as (s2 & u2 & -> & H2 & W2 & B2).
    { same_as H1. }
    { rewrite zlen_app. change (zlen [x]) with 1. lia. }
    cbn [bind]. exists s2, (u1 ++ u2). split; [reflexivity|]. split; [same_as H2|]. split; [eapply went_trans; eassumption | congruence].
Qed.

Lemma tc_fields_spec ts : Forall fty_ok ts -> forall vs P L Q acc s pos, encodes (little c) ts vs L -> thas s (P ++ L ++ Q) ->
  pos = place s + zlen P ->
  exists s' u, tc_fields c coll ts pos acc s = Ok (acc ++ vs, s') /\ thas s' ((P ++ L ++ Q) ++ concat u) /\ went s u s'.
Proof.
  induction 1 as [|t ts Ht Hts IH]; intros [|v vs] P L Q acc s pos [H E] HT Hp; simpl in H; try discriminate.
  - exists s, []. cbn [tc_fields concat]. rewrite !app_nil_r. split; [reflexivity|]. split; [exact HT | split; reflexivity].
  - apply andb_true_iff in H as [H1 H2]. cbn [tc_fields].
    rewrite spec_payload_cons, <- encode_spec in E. subst L. pose proof (encode_length c t v H1) as HL.
    assert (range_ok cap pos (pos + Z.of_nat (fsize t)) = true) as ->.
    { destruct HT as ((A & B & HC & HA & HE & HS) & _). rewrite !zlen_app in HS. apply range_ok_true; rewrite ?Hp, ?HA;
      pose proof (zlen_nonneg A); pose proof (zlen_nonneg P); pose proof (zlen_nonneg B); pose proof (zlen_nonneg Q);
      pose proof (zlen_nonneg (spec_payload (little c) ts vs)); unfold zlen in *; lia. }
    rewrite <- HL. destruct (tc_bytes_spec (encode c t v) P (spec_payload (little c) ts vs ++ Q) s pos) as (s1 & u1 & -> & HT1 & W1 & B1).
    { same_as HT. }
    { exact Hp. }
    cbn [bind]. rewrite decode_encode by assumption.
    destruct (IH vs (P ++ encode c t v) (spec_payload (little c) ts vs) (Q ++ concat u1) (acc ++ [v]) s1 (pos + Z.of_nat (length (encode c t v))))
      as (s2 & u2 & -> & HT2 & W2).
    { split; [assumption | reflexivity]. }
    { same_as HT1. }
    { rewrite zlen_app, Hp, B1. unfold zlen. lia. }
    exists s2, (u1 ++ u2). rewrite <- app_assoc. split; [reflexivity|]. split; [same_as HT2 | eapply went_trans; eassumption].
Qed.

Lemma tc_deserialize_spec s f m id p r vs : thas s (f ++ r) -> is_frame coll f m id p -> encodes (little c) (mt_fields m) vs p ->
  exists s' u, tc_deserialize c coll id s = Ok (Some (m, vs), s') /\ thas s' (f ++ r ++ concat u) /\ went s u s'.
Proof.
  intros H F E. destruct (frame_split coll _ _ _ _ F) as (t & ->). pose proof F as (Hm & _). unfold tc_deserialize.
  destruct (tc_interrupt_spec s _ H ltac:(discriminate)) as (s1 & u1 & -> & H1 & W1 & B1). cbn [bind].
  assert (data_offset (mc_env coll) = zlen [1; id; 2]) as Eo by (unfold data_offset; destruct (mc_env coll); reflexivity).
  rewrite Eo. rewrite (proj2 (Z.ltb_ge _ _)).
  2:{ destruct H1 as ((A & B & HC & HA & HE & HS) & _). rewrite !zlen_app in HS. rewrite HA.
      pose proof (zlen_nonneg B). pose proof (zlen_nonneg p). pose proof (zlen_nonneg t). pose proof (zlen_nonneg r).
      pose proof (zlen_nonneg (concat u1)). lia. }
  assert (message_count coll <= 255) as Hn by (destruct (static_ok_elim _ Hst) as (Hn & _); lia). unfold message_count in Hn.
  rewrite (apply_at_spec _ id _ _ m); try (apply Hm); try lia.
  destruct (tc_fields_spec (mt_fields m) (static_fields_ok coll m Hst (has_id_in coll m id Hm)) vs [1; id; 2] p (t ++ r ++ concat u1) [] s1
    (place s1 + zlen [1; id; 2]) E) as (s2 & u2 & -> & H2 & W2).
  { same_as H1. }
  { reflexivity. }
  cbn [bind app]. exists s2, (u1 ++ u2). split; [reflexivity|]. split; [same_as H2 | eapply went_trans; eassumption].
Qed.

Lemma increments_thas P : forall A (k : micro A) b X coming, P <> [] -> tinv cap b (P ++ X) coming ->
  exists b' u rest, t_run c cap (t_times (length P) (t_increment_begin o c cap) k) coming b = t_run c cap k rest b'
    /\ coming = u ++ rest /\ rep cap b' (X ++ concat u) /\ rb_pastEnd b' + zlen (concat rest) <= cap.
Proof.
  induction P as [|p P IH]; intros A k b X coming HP H; [contradiction|]. cbn [length t_times].
  destruct (increment_room c cap Hcap Hsafe o (t_times (length P) (t_increment_begin o c cap) k) b p (P ++ X) coming H)
    as (b1 & u & r & E & EC & R & Hr). rewrite E. clear HP.
  destruct P as [|q P].
  - exists b1, u, r. split; [reflexivity|]. auto.
  - destruct (IH A k b1 (X ++ concat u) r) as (b2 & v & r2 & E2 & EC2 & R2 & Hr2).
    + discriminate.
    + split; [rewrite app_assoc; exact R|]. split; [discriminate | exact Hr].
    + exists b2, (u ++ v), r2. rewrite E2. split; [reflexivity|]. split; [rewrite EC, EC2; apply app_assoc|].
      split; [|exact Hr2]. rewrite concat_app, app_assoc. exact R2.
Qed.

Lemma tc_pops_spec s P X n : thas s (P ++ X) -> P <> [] -> n = zlen P ->
  exists y s' u, tc_pop o c coll n s = Ok (y, s') /\ thas s' (X ++ concat u) /\ went s u s'.
Proof.
  intros H HP ->. unfold tc_pop, t_call.
  assert (zlen (P ++ X) <= cap) as Hle by (destruct H as (R & _); exact (rep_size_le _ _ _ R)). rewrite zlen_app in Hle.
  pose proof (zlen_nonneg X). pose proof (zlen_nonneg P).
  assert (0 < zlen P) as Hpos by (destruct P; [contradiction|]; rewrite zlen_cons; pose proof (zlen_nonneg P); lia).
  rewrite (to_sz_small _ Hcap) by lia. unfold t_pop_front.
  pose proof (thas_tinv coll s _ H ltac:(destruct P; [contradiction | discriminate])) as HT.
  edestruct (index_room c cap Hcap Hsafe o 0
    (fun ret => t_times (Z.to_nat (zlen P)) (t_increment_begin o c cap) (MReturn ret)) _ _ _ HT) as (b1 & u & r & E & EC & _ & HT1).
  { rewrite zlen_app. lia. }
  rewrite E. unfold zlen. rewrite Nat2Z.id. rewrite <- app_assoc in HT1.
  match goal with |- context [t_times _ _ (MReturn ?y)] =>
    destruct (increments_thas P Z (MReturn y) b1 (X ++ concat u) r HP HT1) as (b2 & v & r2 & E2 & EC2 & R2 & Hr2) end.
  rewrite E2. cbn [t_run bind]. eexists. eexists. exists (u ++ v). split; [reflexivity|]. rewrite concat_app, app_assoc.
  destruct H as (R & Hr & HB & HC). apply Forall_app in HB as [_ HB]. rewrite EC, EC2, !concat_app in HC.
  apply Forall_app in HC as [HC1 HC]. apply Forall_app in HC as [HC2 HC3].
  split; [|split; [cbn [ts_coming]; rewrite EC, EC2; apply app_assoc | reflexivity]].
  split; [exact R2|]. split; [exact Hr2|]. split; [|exact HC3]. apply Forall_app. split; [apply Forall_app; auto | exact HC2].
Qed.

Lemma tc_pop_message_spec fuel s f m id p r : (0 < fuel)%nat -> thas s (f ++ r) -> is_frame coll f m id p -> er_id (ts_recv s) = Some id ->
  exists s' u, tc_pop_message fuel o c coll s = Ok s' /\ thas s' (r ++ concat u) /\ ts_coming s = u ++ ts_coming s'.
Proof.
  intros Hf H F Hid. unfold tc_pop_message.
  assert (exists s1 u, tc_check fuel o c coll s = Ok (true, s1) /\ thas s1 (f ++ r ++ concat u) /\ ts_coming s = u ++ ts_coming s1
          /\ er_id (ts_recv s1) = Some id) as HC.
  { destruct (tc_check_found c coll Hst Hsafe o f m id p F fuel s [] r) as (s1 & u & E & H1 & EC & I1).
    { split; [exact H | constructor]. }
    { exact Hf. }
    exists s1, u. auto. }
  assert (exists s1 u, match mode c with
          | Disabled => Ok s
          | Aborting => do (found, s0) <- tc_check fuel o c coll s; if found : bool then Ok s0 else AssertFail
          | Reporting => do (_, s0) <- tc_check fuel o c coll s; Ok s0
          end = Ok s1 /\ thas s1 (f ++ r ++ concat u) /\ ts_coming s = u ++ ts_coming s1
          /\ er_id (ts_recv s1) = Some id) as (s1 & u & -> & H1 & EC & I1).
  { destruct HC as (s1 & u & E & HC). destruct (mode c).
    - exists s, []. cbn [concat]. rewrite app_nil_r. auto.
    - rewrite E. cbn [bind]. exists s1, u. auto.
    - rewrite E. cbn [bind]. exists s1, u. auto. }
  cbn [bind]. unfold er_message_length, er_id_valid, er_current_id. rewrite I1, plain_true by reflexivity. cbn [bind].
  pose proof F as (Hm & Hp & Ef). rewrite (get_message_length_valid coll m id Hst Hm). cbn [bind].
  destruct (tc_pops_spec s1 f (r ++ concat u) (Z.of_nat (frame_size (mc_env coll) m)) H1) as (y & s2 & v & -> & H2 & (W2 & _)).
  { destruct (is_frame_head _ _ _ _ _ F) as (t & ->). discriminate. }
  { unfold zlen. rewrite (is_frame_length _ _ _ _ _ F). reflexivity. }
  cbn [bind]. eexists. exists (u ++ v). split; [reflexivity|]. rewrite concat_app, app_assoc.
  split; [exact H2|]. cbn [ts_coming]. rewrite EC, W2. apply app_assoc.
Qed.
End Invoke.
