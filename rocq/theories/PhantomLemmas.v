(** Messages that get lost because the receiver is in the middle of something else, and how often that
    can be. *)
From Verif Require Export NoiseLemmas InterruptLemmas.
From Verif Require Import Protocol.

Lemma split_at {A} (a b c d : list A) : a ++ b = c ++ d -> (length a <= length c)%nat ->
  exists u, c = a ++ u /\ b = u ++ d.
Proof.
  revert c. induction a as [|x a IH]; intros [|y c] E L; cbn [app length] in *; [exists []; auto | exists (y :: c); auto | lia|].
  injection E as -> E. destruct (IH c E ltac:(lia)) as (u & -> & ->). exists u. auto.
Qed.

(** A frame in a scanned string is found, or begins inside another found frame or inside what is kept. *)
Lemma lost_scan coll f m id p post : is_frame coll f m id p ->
  forall s ms r, Scan coll s ms r -> forall pre, s = pre ++ f ++ post ->
  (exists ms1 ms2, ms = ms1 ++ Found m id p :: ms2 /\ Scan coll post ms2 r)
  \/ (exists pre1 u g m' id' p' rest ms1 ms2, pre = pre1 ++ u /\ u <> [] /\ u ++ f ++ post = g ++ rest
        /\ is_frame coll g m' id' p' /\ (length u < length g)%nat
        /\ ms = ms1 ++ Found m' id' p' :: ms2 /\ Scan coll rest ms2 r)
  \/ (exists pre1 u, pre = pre1 ++ u /\ u <> [] /\ r = u ++ f ++ post).
Proof.
  intros F s ms r H. induction H as [s U|g m' id' p' s ms r G H IH|b s ms r HU HD H IH]; intros pre E.
  - destruct pre as [|x pre]; [exfalso; cbn in E; subst; eapply frame_not_undecided; eassumption|].
    right. right. exists [], (x :: pre). split; [reflexivity|]. split; [discriminate|]. exact E.
  - destruct pre as [|x pre].
    + cbn [app] in E. destruct (is_frame_unique _ _ _ _ _ _ _ _ _ _ _ G F E) as (-> & -> & -> & -> & ->).
      left. exists [], ms. split; [reflexivity|assumption].
    + destruct (le_lt_dec (length g) (length (x :: pre))) as [L|L].
      * apply (split_at _ _ _ _ E) in L as (q & E2 & E3). rewrite E2. destruct (IH _ E3) as [(ms1 & ms2 & -> & H1)|[(pre1 & u & g' & m2 & i2 & p2 & rest & ms1 & ms2 & H1 & H2 & H3 & H4 & H5 & -> & H6)|(pre1 & u & H1 & H2 & H3)]].
        -- left. exists (Found m' id' p' :: ms1), ms2. split; [reflexivity|assumption].
        -- right. left. exists (g ++ pre1), u, g', m2, i2, p2, rest, (Found m' id' p' :: ms1), ms2.
           rewrite <- app_assoc, <- H1. auto 8.
        -- right. right. exists (g ++ pre1), u. rewrite <- app_assoc, <- H1. auto.
      * right. left. exists [], (x :: pre), g, m', id', p', s, [], ms. split; [reflexivity|]. split; [discriminate|].
        split; [congruence|]. auto 8.
  - destruct pre as [|x pre]; [exfalso; eapply HD; [exact F | exact E]|]. cbn [app] in E. injection E as <- E.
    destruct (IH _ E) as [H1|[(pre1 & u & g' & m2 & i2 & p2 & rest & ms1 & ms2 & -> & H2)|(pre1 & u & -> & H2)]].
    + left. assumption.
    + right. left. exists (b :: pre1), u, g', m2, i2, p2, rest, ms1, ms2. split; [reflexivity|assumption].
    + right. right. exists (b :: pre1), u. split; [reflexivity|assumption].
Qed.

(** A beginning of the concatenation of blocks of at least [L] elements: the blocks it reaches into. *)
Lemma reach {A} (L : nat) (F : list (list A)) : (1 <= L)%nat -> Forall (fun f => (L <= length f)%nat) F ->
  forall a s, a ++ s = concat F -> a <> [] ->
  exists F1 F2 v, F = F1 ++ F2 /\ s = v ++ concat F2 /\ (L * length F1 + 1 <= length a + L)%nat.
Proof.
  intros HL H. induction H as [|f F Hf H IH]; intros a s E Ha.
  - cbn in E. apply app_eq_nil in E as (-> & _). contradiction.
  - cbn [concat] in E. destruct (le_lt_dec (length a) (length f)) as [L1|L1].
    + apply (split_at _ _ _ _ E) in L1 as (q & -> & ->). exists [a ++ q], F, q. split; [reflexivity|]. split; [reflexivity|].
      cbn [length]. destruct a; [contradiction|]. cbn [length]. lia.
    + pose proof L1 as L2. apply Nat.lt_le_incl in L1. symmetry in E. apply (split_at _ _ _ _ E) in L1 as (q & E2 & E3).
      symmetry in E3. destruct (IH _ _ E3) as (F1 & F2 & v & -> & -> & H3).
      { intros ->. rewrite app_nil_r in E2. subst. lia. }
      exists (f :: F1), F2, v. split; [reflexivity|]. split; [reflexivity|].
      rewrite E2, app_length. cbn [length]. lia.
Qed.

Lemma never_silent_scan coll L : static_ok coll = true ->
  (1 <= L)%nat -> (forall m, In m (mc_types coll) -> (L <= frame_size (mc_env coll) m)%nat) ->
  forall s ms r, Scan coll s ms r -> forall pre F, s = pre ++ concat F ->
  Forall (fun f => exists m id p, is_frame coll f m id p) F ->
  Z.of_nat L * zlen F <= zlen ms * (max_message_length coll + Z.of_nat L - 2) + (max_message_length coll - 2).
Proof.
  intros Hst HL HM. pose proof (max_ge5 _ Hst) as H5.
  assert (forall f m id p, is_frame coll f m id p -> (L <= length f)%nat /\ zlen f <= max_message_length coll) as HF.
  { intros f m id p H. pose proof (is_frame_length _ _ _ _ _ H) as E. destruct H as (Hid & _). apply has_id_in in Hid.
    split; [rewrite E; auto|]. unfold zlen. rewrite E. apply frame_size_le_max, Hid. }
  assert (forall F, Forall (fun f => exists m id p, is_frame coll f m id p) F -> Forall (fun f => (L <= length f)%nat) F) as HFL.
  { intros F. apply Forall_impl. intros f (m & id & p & Hf). apply (HF _ _ _ _ Hf). }
  intros s ms r H. induction H as [s U|g m id p s ms r G H IH|b s ms r HU HD H IH]; intros pre F E HFr.
  - change (zlen (@nil found)) with 0. destruct F as [|f F]; [unfold zlen; cbn; lia|].
    destruct pre as [|x pre].
    { exfalso. inversion HFr as [|? ? (m & id & p & Hf)]; subst. cbn [concat app] in U. eapply frame_not_undecided; eassumption. }
    apply (undecided_lt_max _ _ Hst) in U. rewrite E in U.
    assert (Z.of_nat L * zlen (f :: F) <= zlen (concat (f :: F))) as HC.
    { specialize (HFL _ HFr). clear -HFL. induction HFL as [|g G Hg _ IH]; [unfold zlen; cbn; lia|].
      cbn [concat]. unfold zlen in *. rewrite app_length. cbn [length]. nia. }
    unfold zlen in *. rewrite app_length in U. cbn [length] in U. cbn [length] in *. lia.
  - rewrite zlen_cons. destruct (HF _ _ _ _ G) as (G1 & G2).
    destruct (le_lt_dec (length g) (length pre)) as [L1|L1].
    + apply (split_at _ _ _ _ E) in L1 as (q & _ & E2). specialize (IH _ _ E2 HFr). nia.
    + destruct pre as [|x pre].
      * destruct F as [|f F]; [unfold zlen; cbn [length]; nia|].
        inversion HFr as [|? ? (m2 & id2 & p2 & Hf) HFr']; subst. cbn [concat app] in E.
        destruct (is_frame_unique _ _ _ _ _ _ _ _ _ _ _ G Hf E) as (-> & _ & _ & _ & ->).
        specialize (IH [] F eq_refl HFr'). rewrite zlen_cons. nia.
      * pose proof L1 as L2. apply Nat.lt_le_incl in L1. symmetry in E. apply (split_at _ _ _ _ E) in L1 as (q & E2 & E3).
        symmetry in E3. destruct (reach L F HL (HFL _ HFr) _ _ E3) as (F1 & F2 & v & -> & -> & HR).
        { intros ->. rewrite app_nil_r in E2. rewrite E2 in L2. lia. }
        apply Forall_app in HFr as (_ & HFr). specialize (IH _ _ eq_refl HFr).
        assert (length g = length (x :: pre) + length q)%nat as EL by (rewrite E2; apply app_length).
        unfold zlen in *. rewrite app_length. cbn [length] in EL, HR. nia.
  - destruct pre as [|x pre].
    + destruct F as [|f F].
      { unfold zlen. cbn [length]. nia. }
      exfalso. inversion HFr as [|? ? (m2 & id2 & p2 & Hf) HFr']; subst. eapply HD; [exact Hf | exact E].
    + injection E as <- E. apply (IH _ _ E HFr).
Qed.

Section Phantom.
Context (c : config) (coll : collection).
Hypothesis Hst : static_ok coll = true.
Hypothesis Hsafe : index_safe c (capacity coll).

Lemma forall2_split {A B} (R : A -> B -> Prop) l1 x l2 l : Forall2 R (l1 ++ x :: l2) l ->
  exists k1 y k2, l = k1 ++ y :: k2 /\ R x y /\ Forall2 R l2 k2.
Proof.
  intros H. apply Forall2_app_inv_l in H as (k1 & k & _ & H & ->). inversion H; subst. eauto 6.
Qed.

(** C85 *)
Lemma lost_lemma cs beh h0 pre f post m vs w : tame beh -> little cs = little c ->
  sendable coll (m, vs) -> is_message_frame cs coll m vs f ->
  processed c coll beh h0 (pre ++ f ++ post) w ->
  (exists l1 d l2 ms2, completed beh [] (w_log w) = l1 ++ d :: l2 /\ content d = (m, vs)
      /\ Scan coll post ms2 (held w) /\ Forall2 (delivers (little c)) ms2 l2)
  \/ (exists pre1 u g m' id p rest l1 d l2 ms2, pre = pre1 ++ u /\ u <> [] /\ u ++ f ++ post = g ++ rest
      /\ is_frame coll g m' id p /\ (length u < length g)%nat
      /\ completed beh [] (w_log w) = l1 ++ d :: l2 /\ delivers (little c) (Found m' id p) d
      /\ Scan coll rest ms2 (held w) /\ Forall2 (delivers (little c)) ms2 l2)
  \/ (exists pre1 u, pre = pre1 ++ u /\ u <> [] /\ held w = u ++ f ++ post).
Proof.
  intros Ht HE (Hin & Hty) HF Hw. cbn [fst snd] in *. destruct (stream_lemma c coll Hst Hsafe beh Ht _ _ _ Hw) as (ms & HS & HD).
  destruct (message_frame_is_frame cs coll m vs f Hty HF) as (id & F).
  destruct (lost_scan _ _ _ _ _ post F _ _ _ HS pre eq_refl)
    as [(ms1 & ms2 & -> & H1)|[(pre1 & u & g & m' & id' & p' & rest & ms1 & ms2 & H1 & H2 & H3 & H4 & H5 & -> & H6)|H1]].
  - left. apply forall2_split in HD as (l1 & d & l2 & E & (D1 & D2) & D3). exists l1, d, l2, ms2. split; [assumption|].
    split; [|auto]. cbn [f_message f_payload] in *. unfold content. rewrite D1. f_equal.
    rewrite HE in D2. apply (encodes_unique c (mt_fields m) _ _ (spec_payload (little c) (mt_fields m) vs)); auto.
    + apply (static_fields_ok coll); auto.
    + split; [assumption|reflexivity].
  - right. left. apply forall2_split in HD as (l1 & d & l2 & E & D & D3).
    exists pre1, u, g, m', id', p', rest, l1, d, l2, ms2. auto 12.
  - right. right. exact H1.
Qed.

Lemma never_silent_lemma cs beh h0 L pre msgs S w : tame beh ->
  (1 <= L)%nat -> (forall m, In m (mc_types coll) -> (L <= frame_size (mc_env coll) m)%nat) ->
  Forall (sendable coll) msgs -> send_all cs coll vector_tx msgs [] = Ok S ->
  processed c coll beh h0 (pre ++ S) w ->
  Z.of_nat L * zlen msgs
  <= zlen (completed beh [] (w_log w)) * (max_message_length coll + Z.of_nat L - 2) + (max_message_length coll - 2).
Proof.
  intros Ht HL HM HS H Hw. destruct (stream_lemma c coll Hst Hsafe beh Ht _ _ _ Hw) as (ms & HSc & HD).
  destruct (send_all_vector cs coll msgs Hst HS []) as (fs & HF & H').
  rewrite H' in H. assert (S = concat fs) as -> by (cbn in H; congruence).
  assert (Forall (fun f => exists m id p, is_frame coll f m id p) fs) as HFr.
  { clear -HS HF. induction HF as [|[m vs] f msgs fs H _ IH]; constructor; inversion HS as [|? ? (Hin & Hty) HS']; subst; [|auto].
    destruct (message_frame_is_frame cs coll m vs f Hty H) as (id & F). eauto. }
  pose proof (never_silent_scan coll L Hst HL HM _ _ _ HSc pre fs eq_refl HFr) as HB.
  apply forall2_length in HD. apply forall2_length in HF. unfold zlen in *. rewrite <- HD, HF. exact HB.
Qed.

Lemma repeat_sent cs m vs f n : sendable coll (m, vs) -> is_message_frame cs coll m vs f ->
  send_all cs coll vector_tx (repeat (m, vs) n) [] = Ok (concat (repeat f n)).
Proof.
  intros HS HF. assert (Forall (sendable coll) (repeat (m, vs) n)) as HA by (apply Forall_forall; intros x Hx; apply repeat_spec in Hx as ->; assumption).
  destruct (send_all_vector cs coll _ Hst HA []) as (fs & H & ->). cbn [app]. f_equal. f_equal.
  remember (repeat (m, vs) n) as l eqn:E. revert n E. clear HA. induction H as [|x g l fs Hx H IH]; intros [|n] E; try discriminate; [reflexivity|].
  cbn [repeat] in *. injection E as -> ->. f_equal; [|apply IH; reflexivity].
  cbn [fst snd] in Hx. eapply message_frame_unique; eassumption.
Qed.

Lemma rotate {A} (a b : list A) n : concat (repeat (a ++ b) (S n)) = a ++ concat (repeat (b ++ a) n) ++ b.
Proof.
  induction n as [|n IH]; [cbn; rewrite app_nil_r; reflexivity|].
  replace (concat (repeat (a ++ b) (S (S n)))) with ((a ++ b) ++ concat (repeat (a ++ b) (S n))) by reflexivity. rewrite IH.
  cbn [repeat concat]. rewrite <- !app_assoc. reflexivity.
Qed.

(** Two messages whose frames are the same two halves in different order. *)
Lemma out_of_step_lemma m m' vs vs' a b : sendable coll (m, vs) -> sendable coll (m', vs') -> a <> [] ->
  is_message_frame c coll m vs (a ++ b) -> is_message_frame c coll m' vs' (b ++ a) ->
  forall beh h0 n W w, tame beh ->
  send_all c coll vector_tx (repeat (m, vs) (S n)) [] = Ok W ->
  processed c coll beh h0 (skipn (length a) W) w ->
  map content (completed beh [] (w_log w)) = repeat (m', vs') n /\ held w = b.
Proof.
  intros HS HS' Ha HF HF' beh h0 n W w Ht H Hw. rewrite (repeat_sent c m vs _ (S n) HS HF) in H.
  assert (W = concat (repeat (a ++ b) (S n))) as -> by congruence. clear H.
  rewrite rotate, skipn_app, skipn_all, Nat.sub_diag in Hw. cbn [app skipn] in Hw.
  assert (b = firstn (length b) (b ++ a)) as Eb by (rewrite firstn_app, firstn_all, Nat.sub_diag, app_nil_r; reflexivity).
  rewrite Eb at 1.
  apply (prompt_lemma c coll Hst Hsafe c beh h0 _ (concat (repeat (b ++ a) n)) m' vs'); try assumption; [reflexivity|..].
  - apply Forall_forall. intros x Hx. apply repeat_spec in Hx as ->. assumption.
  - apply repeat_sent; assumption.
  - rewrite app_length. destruct a; [contradiction|]. cbn [length]. lia.
  - rewrite <- Eb. exact Hw.
Qed.

End Phantom.

Lemma half_lemma c coll : static_ok coll = true -> index_safe c (capacity coll) ->
  forall cs beh h0 M pre msgs S w, tame beh -> (forall m, In m (mc_types coll) -> frame_size (mc_env coll) m = M) ->
  Forall (sendable coll) msgs -> send_all cs coll vector_tx msgs [] = Ok S ->
  processed c coll beh h0 (pre ++ S) w ->
  zlen msgs <= 2 * zlen (completed beh [] (w_log w)).
Proof.
  intros Hst Hsafe cs beh h0 M pre msgs S w Ht HM HS H Hw.
  pose proof (max_ge5 _ Hst) as H5.
  assert (max_message_length coll = Z.of_nat M) as EM.
  { destruct (max_message_length_in coll (static_ok_nonempty _ Hst)) as (m & Hm & ->). rewrite sizeof_bound_spec, HM by assumption. reflexivity. }
  pose proof (never_silent_lemma c coll Hst Hsafe cs beh h0 M pre msgs S w Ht ltac:(lia)
    ltac:(intros m Hm; rewrite (HM m Hm); lia) HS H Hw) as HB.
  rewrite EM in *. pose proof (Zle_0_nat (length (completed beh [] (w_log w)))). unfold zlen in *. nia.
Qed.

(** The witnesses: two halves that are each other's continuation. *)
Definition halves (e : envelope) : list Z * list Z :=
  match e with
  | Basic => ([1;0;2;10;3;4], [1;0;2;20;3;4])
  | BasicChecksum => ([1;0;2;100;3;7;4], [1;0;2;140;3;7;4])
  end.
Definition half_message (e : envelope) : mtype :=
  MType 0 (repeat (TInt false 1) (match e with Basic => 7 | BasicChecksum => 8 end)).
Definition half_values (e : envelope) (turned : bool) : list value :=
  map VInt match e, turned with
           | Basic, false => [10;3;4;1;0;2;20]
           | Basic, true => [20;3;4;1;0;2;10]
           | BasicChecksum, false => [100;3;7;4;1;0;2;140]
           | BasicChecksum, true => [140;3;7;4;1;0;2;100]
           end.

Lemma halves_frames c e :
  is_message_frame c (Collection [half_message e] e) (half_message e) (half_values e false) (fst (halves e) ++ snd (halves e))
  /\ is_message_frame c (Collection [half_message e] e) (half_message e) (half_values e true) (snd (halves e) ++ fst (halves e)).
Proof.
  split; exists 0; (split; [split; [lia | reflexivity]|]); (split; [intros j (Hj & _); exact Hj|]);
    destruct e, c as [ib [|] a]; vm_compute; reflexivity.
Qed.

Lemma never_in_step_refuted_lemma e :
  exists coll m vs vs' k, mc_env coll = e /\ static_ok coll = true /\ sendable coll (m, vs) /\ vs' <> vs
    /\ (forall c beh h0 n W w, index_safe c (capacity coll) -> tame beh ->
        send_all c coll vector_tx (repeat (m, vs) (S n)) [] = Ok W -> processed c coll beh h0 (skipn k W) w ->
        map content (completed beh [] (w_log w)) = repeat (m, vs') n)
    /\ (forall n, exists W w, send_all (desktop true) coll vector_tx (repeat (m, vs) (S n)) [] = Ok W
        /\ processed (desktop true) coll quiet (Some (Handler 1 1)) (skipn k W) w).
Proof.
  exists (Collection [half_message e] e), (half_message e), (half_values e false), (half_values e true), (length (fst (halves e))).
  split; [reflexivity|]. split; [destruct e; reflexivity|].
  assert (forall t, sendable (Collection [half_message e] e) (half_message e, half_values e t)) as HS
    by (intros t; split; [left; reflexivity | destruct e, t; vm_compute; reflexivity]).
  split; [apply HS|]. split; [destruct e; discriminate|]. split.
  - intros c beh h0 n W w Hsafe Ht HW Hw.
    assert (static_ok (Collection [half_message e] e) = true) as Hst by (destruct e; reflexivity).
    assert (fst (halves e) <> []) as Hne by (destruct e; discriminate).
    apply (out_of_step_lemma c (Collection [half_message e] e) Hst Hsafe (half_message e) (half_message e) (half_values e false)
      (half_values e true) (fst (halves e)) (snd (halves e))
      (HS false) (HS true) Hne (proj1 (halves_frames c e)) (proj2 (halves_frames c e)) beh h0 n W w Ht HW Hw).
  - intros n. exists (concat (repeat (fst (halves e) ++ snd (halves e)) (S n))).
    exists (fed 100 (desktop true) (Collection [half_message e] e) quiet (Handler 1 1)
      (skipn (length (fst (halves e))) (concat (repeat (fst (halves e) ++ snd (halves e)) (S n))))).
    split; [apply repeat_sent; [destruct e; reflexivity | exact (HS false) | apply halves_frames]|].
    apply fed_processed.
    + destruct e; reflexivity.
    + left. destruct e; reflexivity.
    + intros log a [].
    + reflexivity.
    + intros m t [<-|[]] Hx. cbn in Hx. apply repeat_spec in Hx as ->. discriminate.
    + destruct e; vm_compute; lia.
    + rewrite rotate, skipn_app, skipn_all, Nat.sub_diag. cbn [app skipn].
      assert (bytes_ok (fst (halves e)) /\ bytes_ok (snd (halves e))) as (B1 & B2)
        by (split; destruct e; repeat constructor; discriminate).
      apply Forall_app. split; [|assumption]. apply Forall_forall. intros x Hx. apply in_concat in Hx as (l & Hl & Hx).
      apply repeat_spec in Hl as ->. apply in_app_or in Hx as [Hx|Hx]; [revert x Hx; apply Forall_forall, B2 | revert x Hx; apply Forall_forall, B1].
    + rewrite rotate, skipn_app, skipn_all, Nat.sub_diag. cbn [app skipn]. intros E. apply app_eq_nil in E as (_ & E). destruct e; discriminate.
Qed.
