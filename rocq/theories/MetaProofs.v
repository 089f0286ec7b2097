(** Lemmas about the metaprograms. *)
From Verif Require Export Meta Spec Lists BufferProofs Receive.

Lemma ikind_eqb_eq a b : ikind_eqb a b = true <-> a = b.
Proof.
  destruct a, b; simpl; rewrite ?Z.eqb_eq; split; intros H; try discriminate; try reflexivity; congruence.
Qed.

Lemma fty_eqb_eq a b : fty_eqb a b = true <-> a = b.
Proof.
  destruct a as [k s n| |w|k n], b as [k' s' n'| |w'|k' n']; simpl; split; intros H; try discriminate; try reflexivity.
  - apply andb_true_iff in H as [H1 H2]. apply andb_true_iff in H1 as [H0 H1]. apply ikind_eqb_eq in H0.
    apply eqb_prop in H1. apply Nat.eqb_eq in H2. congruence.
  - injection H as <- <- <-. rewrite (proj2 (ikind_eqb_eq k k) eq_refl), eqb_reflx, Nat.eqb_refl. reflexivity.
  - apply eqb_prop in H. congruence.
  - injection H as <-. apply eqb_reflx.
  - apply andb_true_iff in H as [H1 H2]. apply Z.eqb_eq in H1. apply Nat.eqb_eq in H2. congruence.
  - injection H as <- <-. rewrite Z.eqb_refl. apply Nat.eqb_refl.
Qed.

Lemma ftys_eqb_eq a : forall b, ftys_eqb a b = true <-> a = b.
Proof.
  induction a as [|x a IH]; intros [|y b]; simpl; split; intros H; try discriminate; try reflexivity.
  - apply andb_true_iff in H as [H1 H2]. apply fty_eqb_eq in H1. apply IH in H2. congruence.
  - injection H as <- <-. apply andb_true_iff. split; [apply fty_eqb_eq | apply IH]; reflexivity.
Qed.

Lemma mtype_eqb_eq a b : mtype_eqb a b = true <-> a = b.
Proof.
  unfold mtype_eqb. destruct a as [n f], b as [n' f']; simpl. rewrite andb_true_iff, Z.eqb_eq, ftys_eqb_eq.
  split; [intros [-> ->]; reflexivity | intros H; injection H; auto].
Qed.

Lemma sizeof_fields_sum ts : sizeof_fields ts = Z.of_nat (list_sum (map fsize ts)).
Proof.
  unfold sizeof_fields.
  assert (forall ts acc, fold_left (fun acc t => acc + Z.of_nat (fsize t)) ts acc
                         = acc + Z.of_nat (list_sum (map fsize ts))) as H.
  { clear ts. induction ts as [|t ts IH]; intros acc; cbn [fold_left map]; [simpl; lia|].
    rewrite IH. change (list_sum (fsize t :: map fsize ts)) with (fsize t + list_sum (map fsize ts))%nat. lia. }
  rewrite H. lia.
Qed.

Lemma sizeof_bound_spec coll m : sizeof_bound coll m = Z.of_nat (frame_size (mc_env coll) m).
Proof.
  unfold sizeof_bound. rewrite sizeof_fields_sum. unfold frame_size, overhead_size, payload_size.
  destruct (mc_env coll); lia.
Qed.

Lemma sizeof_bound_ge coll m : 5 <= sizeof_bound coll m.
Proof. rewrite sizeof_bound_spec. unfold frame_size. destruct (mc_env coll); lia. Qed.

Lemma max_message_from_spec coll rest : forall best,
  In (max_message_from coll best rest) (best :: rest)
  /\ (forall m, In m (best :: rest) -> sizeof_bound coll m <= sizeof_bound coll (max_message_from coll best rest)).
Proof.
  unfold max_message_from.
  induction rest as [|x rest IH]; intros best; cbn [fold_left].
  - split; [left; reflexivity|]. intros m [<-|[]]. lia.
  - destruct (Z.ltb_spec (sizeof_bound coll best) (sizeof_bound coll x)) as [H|H].
    + destruct (IH x) as [H1 H2]. split.
      * right. exact H1.
      * intros m [<-|Hm].
        -- specialize (H2 x (or_introl eq_refl)). lia.
        -- apply H2, Hm.
    + destruct (IH best) as [H1 H2]. split.
      * destruct H1 as [H1|H1]; [left; exact H1 | right; right; exact H1].
      * intros m [<-|[<-|Hm]].
        -- apply H2. left. reflexivity.
        -- specialize (H2 best (or_introl eq_refl)). lia.
        -- apply H2. right. exact Hm.
Qed.

Lemma max_message_length_ge coll m : In m (mc_types coll) ->
  sizeof_bound coll m <= max_message_length coll.
Proof.
  unfold max_message_length. destruct (mc_types coll) as [|x rest]; [contradiction|].
  intros H. apply max_message_from_spec, H.
Qed.

Lemma max_message_length_in coll : mc_types coll <> [] ->
  exists m, In m (mc_types coll) /\ max_message_length coll = sizeof_bound coll m.
Proof.
  unfold max_message_length. destruct (mc_types coll) as [|x rest]; [contradiction|].
  intros _. exists (max_message_from coll x rest). split; [apply max_message_from_spec | reflexivity].
Qed.

Lemma static_ok_elim coll : static_ok coll = true ->
  1 <= message_count coll <= 255 /\ receive_buffer_size coll < 2 ^ 64.
Proof.
  unfold static_ok. rewrite !andb_true_iff, !Z.leb_le, Z.ltb_lt. lia.
Qed.

Lemma static_ok_nonempty coll : static_ok coll = true -> mc_types coll <> [].
Proof.
  intros H E. apply static_ok_elim in H. unfold message_count in H. rewrite E in H.
  change (zlen (@nil mtype)) with 0 in H. lia.
Qed.

Lemma max_ge5 coll : static_ok coll = true -> 5 <= max_message_length coll.
Proof.
  intros H. destruct (max_message_length_in coll (static_ok_nonempty _ H)) as (m & _ & ->).
  apply sizeof_bound_ge.
Qed.

Lemma capacity_ok coll : static_ok coll = true -> cap_ok (capacity coll).
Proof.
  intros H. pose proof (max_ge5 _ H). apply static_ok_elim in H.
  unfold cap_ok, capacity, receive_buffer_size in *. lia.
Qed.

Lemma apply_at_from_spec {A S} (op : A -> S -> S) s : forall seq pos i,
  apply_at_from pos seq i op s =
  match (if i <? pos then None else nth_error seq (Z.to_nat (i - pos))) with
  | Some a => op a s
  | None => s
  end.
Proof.
  induction seq as [|a seq IH]; intros pos i; cbn [apply_at_from].
  - destruct (i <? pos); [reflexivity|]. destruct (Z.to_nat (i - pos)); reflexivity.
  - destruct (Z.eqb_spec pos i) as [<-|Hne].
    + rewrite Z.ltb_irrefl, Z.sub_diag. reflexivity.
    + rewrite IH. destruct (Z.ltb_spec i pos) as [H|H].
      * rewrite (proj2 (Z.ltb_lt i (pos + 1))) by lia. reflexivity.
      * rewrite (proj2 (Z.ltb_ge i (pos + 1))) by lia.
        replace (Z.to_nat (i - pos)) with (Datatypes.S (Z.to_nat (i - (pos + 1)))) by lia. reflexivity.
Qed.

Lemma apply_at_spec {A S} (seq : list A) i (op : A -> S -> S) s a :
  zlen seq < 2 ^ 64 -> 0 <= i -> nth_error seq (Z.to_nat i) = Some a ->
  apply_at seq i op s = op a s.
Proof.
  intros Hl Hi Hn. unfold apply_at.
  assert (i < zlen seq) as Hlt.
  { assert (nth_error seq (Z.to_nat i) <> None) as H by congruence.
    apply nth_error_Some in H. unfold zlen. lia. }
  pose proof (zlen_nonneg seq). pose proof (uint_least_bits_bound (zlen seq)).
  rewrite trunc_small by lia. rewrite apply_at_from_spec.
  rewrite (proj2 (Z.ltb_ge i 0)) by lia. rewrite Z.sub_0_r, Hn. reflexivity.
Qed.

Lemma has_id_lt coll m id : has_id coll m id -> 0 <= id < message_count coll.
Proof.
  intros [H1 H2]. assert (nth_error (mc_types coll) (Z.to_nat id) <> None) as H by congruence.
  apply nth_error_Some in H. unfold message_count, zlen. lia.
Qed.

Lemma has_id_valid coll m id : has_id coll m id -> is_id_valid coll id = true.
Proof. intros H. apply has_id_lt in H. apply Z.ltb_lt. lia. Qed.

Lemma valid_has_id coll id : 0 <= id -> is_id_valid coll id = true -> exists m, has_id coll m id.
Proof.
  unfold is_id_valid, message_count, zlen. intros H0 H. apply Z.ltb_lt in H.
  destruct (nth_error (mc_types coll) (Z.to_nat id)) as [m|] eqn:E.
  - exists m. split; assumption.
  - apply nth_error_None in E. lia.
Qed.

Lemma has_id_fun coll m m' id : has_id coll m id -> has_id coll m' id -> m = m'.
Proof. intros [_ H1] [_ H2]. congruence. Qed.

Lemma has_id_in coll m id : has_id coll m id -> In m (mc_types coll).
Proof. intros [_ H]. eapply nth_error_In; eassumption. Qed.

Lemma frame_size_le_max coll m : In m (mc_types coll) ->
  Z.of_nat (frame_size (mc_env coll) m) <= max_message_length coll.
Proof. intros H. rewrite <- sizeof_bound_spec. apply max_message_length_ge, H. Qed.

Lemma get_message_length_valid coll m id : static_ok coll = true -> has_id coll m id ->
  get_message_length coll id = Ok (Z.of_nat (frame_size (mc_env coll) m)).
Proof.
  intros Hs Hid. unfold get_message_length. rewrite (has_id_valid _ _ _ Hid). cbn [negb].
  pose proof (has_id_in _ _ _ Hid) as Hin.
  pose proof (frame_size_le_max _ _ Hin) as Hmax.
  pose proof (static_ok_elim _ Hs) as [Hc Hb]. pose proof (max_ge5 _ Hs).
  rewrite (apply_at_spec _ id _ _ m).
  - unfold message_size_bits. rewrite sizeof_bound_spec.
    pose proof (uint_least_bits_bound (max_message_length coll)).
    unfold receive_buffer_size in Hb.
    rewrite trunc_small by lia. reflexivity.
  - unfold message_count in Hc. lia.
  - apply Hid.
  - apply Hid.
Qed.

Lemma get_message_length_invalid coll id : is_id_valid coll id = false ->
  get_message_length coll id = Ok 0.
Proof. intros H. unfold get_message_length. rewrite H. reflexivity. Qed.

(** find_index *)
Lemma find_index_from_spec m : forall seq pos,
  match find_index_from pos seq m with
  | Some i => exists pre post, seq = pre ++ m :: post /\ ~ In m pre /\ i = pos + zlen pre
  | None => ~ In m seq
  end.
Proof.
  induction seq as [|x seq IH]; intros pos; cbn [find_index_from].
  - intros [].
  - destruct (mtype_eqb x m) eqn:E.
    + apply mtype_eqb_eq in E. subst x. exists [], seq.
      split; [reflexivity|]. split; [intros []|]. change (zlen (@nil mtype)) with 0. lia.
    + assert (x <> m) as Hx. { intros ->. rewrite (proj2 (mtype_eqb_eq m m) eq_refl) in E. discriminate. }
      specialize (IH (pos + 1)). destruct (find_index_from (pos + 1) seq m) as [i|].
      * destruct IH as (pre & post & -> & Hni & ->). exists (x :: pre), post.
        split; [reflexivity|]. split; [intros [?|?]; contradiction|]. rewrite zlen_cons. lia.
      * intros [?|?]; contradiction.
Qed.

Lemma find_index_some seq m i : find_index seq m = Some i ->
  0 <= i /\ nth_error seq (Z.to_nat i) = Some m.
Proof.
  unfold find_index. intros H. pose proof (find_index_from_spec m seq 0) as S. rewrite H in S.
  destruct S as (pre & post & -> & _ & ->). pose proof (zlen_nonneg pre). split; [lia|].
  replace (Z.to_nat (0 + zlen pre)) with (length pre) by (unfold zlen; lia).
  rewrite nth_error_app2, Nat.sub_diag by lia. reflexivity.
Qed.

Lemma find_index_in seq m : In m seq -> exists i, find_index seq m = Some i.
Proof.
  unfold find_index. intros H. pose proof (find_index_from_spec m seq 0) as S.
  destruct (find_index_from 0 seq m) as [i|]; [eauto | contradiction].
Qed.

Lemma find_index_notin seq m : ~ In m seq -> find_index seq m = None.
Proof.
  unfold find_index. intros H. pose proof (find_index_from_spec m seq 0) as S.
  destruct (find_index_from 0 seq m) as [i|]; [|reflexivity].
  destruct S as (pre & post & -> & _ & _). exfalso. apply H. apply in_elt.
Qed.

Lemma find_index_has_id coll m i : find_index (mc_types coll) m = Some i -> has_id coll m i.
Proof. intros H. apply find_index_some in H. exact H. Qed.

Lemma find_index_first coll m i j : find_index (mc_types coll) m = Some i -> has_id coll m j -> i <= j.
Proof.
  unfold find_index. intros H [Hj Hn]. pose proof (find_index_from_spec m (mc_types coll) 0) as S. rewrite H in S.
  destruct S as (pre & post & E & Hni & ->). rewrite E in Hn.
  destruct (Z_lt_ge_dec j (zlen pre)) as [Hlt|]; [|lia]. exfalso. apply Hni.
  rewrite nth_error_app1 in Hn by (unfold zlen in Hlt; lia). eapply nth_error_In, Hn.
Qed.
