(** Lemmas on links between machines of different byte order. *)
From Verif Require Export PollLemmas.

Lemma map_rev_index {A} (g : nat -> A) n :
  map (fun i => g (n - 1 - i)%nat) (seq 0 n) = map g (rev (seq 0 n)).
Proof.
  induction n as [|n IH]; [reflexivity|].
  rewrite seq_S at 2. cbn [Nat.add]. rewrite rev_app_distr. cbn [rev app map].
  rewrite <- IH. cbn [seq map]. f_equal; [f_equal; lia|]. rewrite <- seq_shift, map_map. apply map_ext_in.
  intros i Hi. f_equal. lia.
Qed.

Lemma swap_int l s n z : (0 < n)%nat -> int_in_range s n z = true ->
  exists z', int_in_range s n z' = true /\ (forall i, (i < n)%nat -> spec_byte z' i = spec_byte z (n - 1 - i))
    /\ map (spec_byte z') (if negb l then seq 0 n else rev (seq 0 n)) = map (spec_byte z) (if l : bool then seq 0 n else rev (seq 0 n)).
Proof.
  intros Hok Hty.
  destruct (byte_order_lemma (Config 32 true Aborting Aborting Aborting) (Config 32 false Aborting Aborting Aborting) IStd s n z) as (bs & z' & _ & _ & H1 & H2);
    [discriminate | exact Hok | exact Hty |].
  exists z'. split; [assumption|]. split; [assumption|].
  assert (map (spec_byte z') (seq 0 n) = map (spec_byte z) (rev (seq 0 n))) as E.
  { rewrite <- map_rev_index. apply map_ext_in. intros i Hi. apply in_seq in Hi. apply H2. lia. }
  destruct l; cbn [negb]; [|exact E].
  rewrite map_rev, E, <- map_rev, rev_involutive. reflexivity.
Qed.

Lemma swap_field l t v : fty_ok t -> has_type v t = true ->
  exists v', swapped t v v' /\ spec_rep (negb l) t v' = spec_rep l t v.
Proof.
  intros Hok Hty. destruct t as [k s n| |w|k n]; destruct v as [z|b|w' z|bs]; cbn [has_type] in Hty; try discriminate.
  - destruct (swap_int l s n z Hok Hty) as (z' & H1 & H2 & H3). exists (VInt z'). split; [split|]; assumption.
  - exists (VBool b). split; [split; reflexivity | reflexivity].
  - apply andb_true_iff in Hty as (HW & Hty). apply eqb_prop in HW as <-.
    destruct (swap_int l false (float_bytes w) z Hok Hty) as (z' & H1 & H2 & H3). exists (VFloat w z').
    split; [split|]; [|assumption..]. cbn [has_type]. rewrite eqb_reflx. exact H1.
  - exists (VRaw bs). split; [split; [exact Hty | reflexivity] | reflexivity].
Qed.

Lemma swap_payload l ts : forall vs, Forall fty_ok ts -> has_types vs ts = true ->
  exists vs', swapped_all ts vs vs' /\ has_types vs' ts = true /\ spec_payload (negb l) ts vs' = spec_payload l ts vs.
Proof.
  induction ts as [|t ts IH]; intros [|v vs] HF HT; cbn [has_types] in HT; try discriminate.
  - exists []. repeat split. constructor.
  - apply andb_true_iff in HT as [T1 T2]. inversion HF as [|? ? F1 F2]; subst.
    destruct (IH vs F2 T2) as (vs' & W & H1 & H2). destruct (swap_field l t v F1 T1) as (v' & W1 & E1).
    exists (v' :: vs'). split; [constructor; assumption|]. split.
    + cbn [has_types]. rewrite H1. destruct W1 as [-> _]. reflexivity.
    + unfold spec_payload in *. cbn [combine map concat fst snd]. rewrite E1, H2. reflexivity.
Qed.

Lemma int_bytes_inj s n z z' : (0 < n)%nat -> has_type (VInt z) (TInt s n) = true -> has_type (VInt z') (TInt s n) = true ->
  (forall i, (i < n)%nat -> spec_byte z i = spec_byte z' i) -> z = z'.
Proof.
  intros Hn H1 H2 HB.
  assert (VInt z = VInt z') as E; [|congruence].
  assert ([VInt z] = [VInt z']) as E; [|congruence].
  apply (encodes_unique (Config 32 true Aborting Aborting Aborting) [TInt s n] _ _ (spec_payload true [TInt s n] [VInt z])).
  - constructor; [exact Hn | constructor].
  - split; [cbn [has_types]; rewrite H1; reflexivity | reflexivity].
  - split; [cbn [has_types]; rewrite H2; reflexivity|].
    unfold spec_payload. cbn [combine map concat fst snd spec_rep little]. f_equal. apply map_ext_in.
    intros i Hi. apply in_seq in Hi. symmetry. apply HB. lia.
Qed.

Lemma swapped_fun ts vs vs1 : Forall fty_ok ts -> swapped_all ts vs vs1 -> forall vs2, swapped_all ts vs vs2 -> vs1 = vs2.
Proof.
  intros HF H. revert HF. induction H as [|t v v' ts vs vs' W H IH]; intros HF vs2 H2; inversion H2 as [|? ? v2 ? ? vs2' W2 H2']; subst; [reflexivity|].
  inversion HF; subst. f_equal; [|auto]. destruct W as (T1 & W). destruct W2 as (T2 & W2).
  destruct t as [k s n| |w|k n]; [|congruence| |congruence].
  - destruct v as [z|?|? ?|?]; try contradiction. destruct v' as [z1|?|? ?|?]; try contradiction.
    destruct v2 as [z2|?|? ?|?]; try contradiction.
    f_equal. apply (int_bytes_inj s n); auto. intros i Hi. rewrite W, W2 by assumption. reflexivity.
  - destruct v as [?|?|w0 z|?]; try contradiction. destruct v' as [?|?|w1 z1|?]; try contradiction.
    destruct v2 as [?|?|w2 z2|?]; try contradiction. cbn [has_type] in T1, T2.
    apply andb_true_iff in T1 as (E1 & T1). apply andb_true_iff in T2 as (E2 & T2). apply eqb_prop in E1 as <-. apply eqb_prop in E2 as <-.
    f_equal. apply (int_bytes_inj false (float_bytes w)); auto. intros i Hi. cbn [fsize] in W, W2.
    rewrite W, W2 by assumption. reflexivity.
Qed.

(** Fields of one byte are unaffected. *)
Lemma swapped_single ts vs vs' : Forall fty_ok ts ->
  (forall k s n, In (TIntN k s n) ts -> n = 1%nat) -> (forall w, ~ In (TFloat w) ts) ->
  has_types vs ts = true -> swapped_all ts vs vs' -> vs' = vs.
Proof.
  intros HF H1 HN HT H. revert HF H1 HN HT. induction H as [|t v v' ts vs vs' W H IH]; intros HF H1 HN HT; [reflexivity|].
  inversion HF; subst. cbn [has_types] in HT. apply andb_true_iff in HT as [T1 T2].
  f_equal; [|apply IH; auto; [intros k s n Hi; apply (H1 k s n) | intros w Hi; apply (HN w)]; right; assumption].
  destruct W as (T & W). destruct t as [k s n| |w|k n]; [|assumption|destruct (HN w); left; reflexivity|assumption].
  destruct v as [z|?|? ?|?]; try contradiction. destruct v' as [z1|?|? ?|?]; try contradiction.
  assert (n = 1%nat) as -> by (apply (H1 k s); left; reflexivity).
  f_equal. apply (int_bytes_inj s 1); auto. intros i Hi. rewrite W by assumption. f_equal. lia.
Qed.

Section Endian.
Context (c : config) (coll : collection).
Hypothesis Hst : static_ok coll = true.
Hypothesis Hsafe : index_safe c (capacity coll).

Lemma cross_endian_lemma cs beh h0 msgs S w : tame beh -> little cs = negb (little c) -> Forall (sendable coll) msgs ->
  send_all cs coll vector_tx msgs [] = Ok S -> processed c coll beh h0 S w ->
  Forall2 (fun mv d => d_message d = fst mv /\ swapped_all (mt_fields (fst mv)) (snd mv) (d_values d))
    msgs (completed beh [] (w_log w))
  /\ held w = [].
Proof.
  intros Ht HE HM HS HP. destruct (send_all_frames cs coll msgs S Hst HM HS) as (fds & HSc & HF).
  destruct (stream_lemma c coll Hst Hsafe beh Ht _ _ _ HP) as (ms & HSc' & HD).
  destruct (scan_det _ _ _ _ HSc _ _ HSc') as (<- & <-). split; [|reflexivity].
  clear HSc HSc' HP HS. revert fds HF HD. generalize (completed beh [] (w_log w)) as l.
  induction HM as [|[m vs] msgs (M1 & M2) HM IH]; intros l fds HF HD; inversion HF as [|? fd ? fds' (F1 & F2) HF']; subst;
    inversion HD as [|? d ? l' (D1 & D2) HD']; subst; constructor; [|eapply IH; eassumption].
  cbn [fst snd] in *. rewrite F1 in *. split; [assumption|].
  pose proof (static_fields_ok coll m Hst M1) as HFo.
  destruct F2 as (_ & F2). destruct (swap_payload (little cs) (mt_fields m) vs HFo M2) as (vs' & W & T & E).
  assert (d_values d = vs') as ->; [|assumption].
  apply (encodes_unique c (mt_fields m) _ _ (f_payload fd)); [assumption | assumption |].
  split; [assumption|]. rewrite HE, negb_involutive in E. rewrite E, <- F2, HE. reflexivity.
Qed.

Lemma cross_single_lemma cs beh h0 msgs S w : tame beh -> little cs = negb (little c) -> Forall (sendable coll) msgs ->
  (forall m k s n, In m (mc_types coll) -> In (TIntN k s n) (mt_fields m) -> n = 1%nat) ->
  (forall m x, In m (mc_types coll) -> ~ In (TFloat x) (mt_fields m)) ->
  send_all cs coll vector_tx msgs [] = Ok S -> processed c coll beh h0 S w ->
  map content (completed beh [] (w_log w)) = msgs /\ held w = [].
Proof.
  intros Ht HE HM H1 HN HS HP. destruct (cross_endian_lemma cs beh h0 msgs S w Ht HE HM HS HP) as (HF & HH).
  split; [|assumption]. clear - HF HM H1 HN Hst. induction HF as [|[m vs] d msgs l (F1 & F2) HF IH]; [reflexivity|].
  inversion HM as [|? ? (M1 & M2) HM']; subst. cbn [map fst snd] in *. f_equal; [|auto].
  unfold content. f_equal; [assumption|]. apply (swapped_single (mt_fields m)); auto.
  - apply (static_fields_ok coll m Hst M1).
  - intros k s n. apply H1. assumption.
Qed.
End Endian.
