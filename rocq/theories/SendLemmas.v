(** Consequences for the shipped transmitters and sequences of sends. *)
From Verif Require Export SendProofs ConvertLemmas.

(** ** What send does, with any transmitter *)
Lemma send_spec c coll m vs : static_ok coll = true -> In m (mc_types coll) ->
  has_types vs (mt_fields m) = true ->
  exists calls, is_message_frame c coll m vs (calls_bytes calls)
    /\ forall S (t : transmitter S) s,
         send c coll m t (combine (mt_fields m) vs) s
         = do s' <- run_calls t calls s; tx_finished t s'.
Proof.
  intros Hst Hin Hty. destruct (find_index_in (mc_types coll) m Hin) as (id & Hid).
  exists (frame_calls c (mc_env coll) id (combine (mt_fields m) vs)). split.
  - exists id. split; [apply find_index_has_id, Hid|]. split; [intros j; apply find_index_first, Hid|].
    apply frame_calls_bytes, Hty.
  - intros S t s. destruct (send_calls c coll m t vs s Hst Hin Hty) as (id' & Hid' & _ & H).
    assert (id' = id) as -> by congruence. exact H.
Qed.

Lemma message_frame_unique c coll m vs f f' :
  is_message_frame c coll m vs f -> is_message_frame c coll m vs f' -> f = f'.
Proof.
  intros (i & H1 & H2 & ->) (j & H3 & H4 & ->). specialize (H2 j H3). specialize (H4 i H1).
  replace j with i by lia. reflexivity.
Qed.

Lemma message_frame_length c coll m vs f : has_types vs (mt_fields m) = true ->
  is_message_frame c coll m vs f -> length f = frame_size (mc_env coll) m.
Proof.
  intros Hty (i & _ & _ & ->). apply spec_frame_length. unfold payload_size.
  apply spec_payload_length, Hty.
Qed.

Lemma message_frame_is_frame c coll m vs f : has_types vs (mt_fields m) = true ->
  is_message_frame c coll m vs f ->
  exists id, is_frame coll f m id (spec_payload (little c) (mt_fields m) vs).
Proof.
  intros Hty (i & H1 & _ & ->). exists i. split; [assumption|]. split; [|reflexivity].
  apply spec_payload_length, Hty.
Qed.

Lemma zsum_app2 a b : zsum (a ++ b) = zsum a + zsum b.
Proof. apply zsum_app. Qed.

Lemma message_frame_bytes c coll m vs f : static_ok coll = true -> has_types vs (mt_fields m) = true ->
  is_message_frame c coll m vs f -> bytes_ok f.
Proof.
  intros Hst Hty (i & H1 & _ & ->). apply has_id_lt in H1. apply static_ok_elim in Hst as (Hn & _).
  pose proof (spec_payload_ok c _ _ Hty) as HP.
  assert (bytes_ok ([1; i; 2] ++ spec_payload (little c) (mt_fields m) vs)) as HH.
  { apply Forall_app. split; [|assumption]. repeat constructor; lia. }
  unfold spec_frame. destruct (mc_env coll).
  - rewrite app_assoc. apply Forall_app. split; [assumption|]. repeat constructor; lia.
  - cbv zeta. apply Forall_app. split.
    + rewrite app_assoc. apply Forall_app. split; [assumption|]. repeat constructor; lia.
    + constructor; [apply Z.mod_pos_bound; lia|]. repeat constructor; lia.
Qed.

(** A collection rejects sending what it does not contain, or values of other types. *)
Lemma send_rejects {S} c coll m (t : transmitter S) contents s :
  ~ In m (mc_types coll) \/ map fst contents <> mt_fields m \/ 255 < zlen (mc_types coll) ->
  send c coll m t contents s = Rejected.
Proof.
  intros H. unfold send. destruct (static_ok coll) eqn:Hst; [|reflexivity].
  destruct (contents_ok m contents) eqn:E; [|reflexivity]. cbn [andb negb].
  destruct H as [H|[H|H]].
  - rewrite find_index_notin by assumption. reflexivity.
  - exfalso. apply H. unfold contents_ok in E. apply orb_true_iff in E as [E|E].
    + apply ftys_eqb_eq in E. auto.
    + destruct (mt_fields m), contents; try discriminate. reflexivity.
  - exfalso. unfold static_ok, message_count in Hst. repeat (apply andb_true_iff in Hst as [Hst ?]). lia.
Qed.

(** ** Vector buffer *)
Lemma vector_calls l : forall s, run_calls vector_tx l s = Ok (s ++ calls_bytes l).
Proof.
  induction l as [|x l IH]; intros s; cbn [run_calls].
  - unfold calls_bytes. cbn. rewrite app_nil_r. reflexivity.
  - replace (run_call vector_tx x s) with (@Ok (list Z) (s ++ call_bytes x)) by (destruct x; reflexivity).
    cbn [bind]. rewrite IH. unfold calls_bytes. cbn [map concat]. rewrite app_assoc. reflexivity.
Qed.

Lemma vector_send c coll m vs s : static_ok coll = true -> In m (mc_types coll) ->
  has_types vs (mt_fields m) = true ->
  exists f, is_message_frame c coll m vs f
    /\ send c coll m vector_tx (combine (mt_fields m) vs) s = Ok (s ++ f).
Proof.
  intros Hst Hin Hty. destruct (send_spec c coll m vs Hst Hin Hty) as (calls & HF & H).
  exists (calls_bytes calls). split; [assumption|]. rewrite H, vector_calls. reflexivity.
Qed.

Lemma serial_calls l : forall s, run_calls serial_tx l s = Ok (s ++ map call_bytes l).
Proof.
  induction l as [|x l IH]; intros s; cbn [run_calls].
  - cbn. rewrite app_nil_r. reflexivity.
  - replace (run_call serial_tx x s) with (@Ok (list (list Z)) (s ++ [call_bytes x])) by (destruct x; reflexivity).
    cbn [bind map]. rewrite IH, <- app_assoc. reflexivity.
Qed.

Lemma send_all_vector c coll msgs : static_ok coll = true -> Forall (sendable coll) msgs -> forall s,
  exists fs, Forall2 (fun mv f => is_message_frame c coll (fst mv) (snd mv) f) msgs fs
    /\ send_all c coll vector_tx msgs s = Ok (s ++ concat fs).
Proof.
  intros Hst H. induction H as [|[m vs] msgs [Hin Hty] HF IH]; intros s.
  - exists []. split; [constructor|]. cbn. rewrite app_nil_r. reflexivity.
  - cbn [fst snd] in *. destruct (vector_send c coll m vs s Hst Hin Hty) as (f & Hf & Hs).
    destruct (IH (s ++ f)) as (fs & Hfs & Hss). exists (f :: fs). split; [constructor; assumption|].
    cbn [send_all]. rewrite Hs. cbn [bind]. rewrite Hss. cbn [concat]. rewrite app_assoc. reflexivity.
Qed.

Lemma send_all_serial c coll msgs : static_ok coll = true -> Forall (sendable coll) msgs -> forall s,
  exists fs blocks, Forall2 (fun mv f => is_message_frame c coll (fst mv) (snd mv) f) msgs fs
    /\ send_all c coll serial_tx msgs s = Ok (s ++ blocks) /\ concat blocks = concat fs.
Proof.
  intros Hst H. induction H as [|[m vs] msgs [Hin Hty] HF IH]; intros s.
  - exists [], []. split; [constructor|]. cbn. rewrite app_nil_r. auto.
  - cbn [fst snd] in *. destruct (send_spec c coll m vs Hst Hin Hty) as (calls & Hf & Hs).
    destruct (IH (s ++ map call_bytes calls)) as (fs & blocks & Hfs & Hss & Hc).
    exists (calls_bytes calls :: fs), (map call_bytes calls ++ blocks). split; [constructor; assumption|].
    cbn [send_all]. rewrite Hs, serial_calls. cbn [bind tx_finished serial_tx]. unfold finished_fallback. cbn [bind].
    rewrite Hss. cbn [concat]. rewrite <- app_assoc, concat_app, Hc. split; reflexivity.
Qed.

(** ** Array buffers *)

Lemma abuf_write_ok size s d : abuf_ok size s -> ab_it s + zlen d <= size ->
  exists s', abuf_write size d s = Ok s' /\ abuf_ok size s' /\ ab_it s' = ab_it s + zlen d
    /\ abuf_content s' = abuf_content s ++ d
    /\ skipn (Z.to_nat (ab_it s')) (ab_buffer s') = skipn (Z.to_nat (ab_it s')) (ab_buffer s).
Proof.
  intros (HL & HI) Hfit. unfold abuf_write. rewrite (proj2 (Z.leb_le _ _) Hfit).
  eexists. split; [reflexivity|]. unfold abuf_ok, abuf_content. cbn [ab_buffer ab_it].
  pose proof (zlen_nonneg d).
  assert (length (firstn (Z.to_nat (ab_it s)) (ab_buffer s)) = Z.to_nat (ab_it s)) as HF.
  { rewrite firstn_length. unfold zlen in HL. lia. }
  replace (Z.to_nat (ab_it s + zlen d)) with (Z.to_nat (ab_it s) + length d)%nat by (unfold zlen in *; lia).
  split; [split|].
  - unfold zlen. rewrite !app_length, HF, skipn_length. unfold zlen in *. lia.
  - lia.
  - split; [reflexivity|]. split.
    + rewrite app_assoc. apply firstn_app_exact. rewrite app_length. lia.
    + rewrite app_assoc. apply skipn_app_exact. rewrite app_length. lia.
Qed.

Lemma abuf_write_ub size s d : size < ab_it s + zlen d -> abuf_write size d s = UB.
Proof. intros H. unfold abuf_write. rewrite (proj2 (Z.leb_gt _ _)) by lia. reflexivity. Qed.

Lemma abuf_call size x s : run_call (abuf_tx size) x s = abuf_write size (call_bytes x) s.
Proof. destruct x; reflexivity. Qed.

Lemma abuf_calls_ok size l : forall s, abuf_ok size s -> ab_it s + zlen (calls_bytes l) <= size ->
  exists s', run_calls (abuf_tx size) l s = Ok s' /\ abuf_ok size s'
    /\ ab_it s' = ab_it s + zlen (calls_bytes l)
    /\ abuf_content s' = abuf_content s ++ calls_bytes l.
Proof.
  induction l as [|x l IH]; intros s Hok Hfit; cbn [run_calls].
  - exists s. unfold calls_bytes, zlen. cbn. rewrite app_nil_r, Z.add_0_r. auto.
  - unfold calls_bytes in *. cbn [map concat] in *. rewrite zlen_app in *. fold (calls_bytes l) in *.
    pose proof (zlen_nonneg (calls_bytes l)). pose proof (zlen_nonneg (call_bytes x)).
    rewrite abuf_call. destruct (abuf_write_ok size s (call_bytes x) Hok) as (s1 & -> & H1 & H2 & H3 & _); [lia|].
    cbn [bind]. destruct (IH s1 H1) as (s2 & -> & H4 & H5 & H6); [lia|].
    exists s2. split; [reflexivity|]. split; [assumption|]. split; [lia|]. rewrite H6, H3, <- app_assoc. reflexivity.
Qed.

Lemma abuf_calls_ub size l : forall s, abuf_ok size s -> size < ab_it s + zlen (calls_bytes l) ->
  run_calls (abuf_tx size) l s = UB.
Proof.
  induction l as [|x l IH]; intros s Hok Hfit; cbn [run_calls].
  - unfold calls_bytes, zlen in Hfit. cbn in Hfit. destruct Hok. lia.
  - unfold calls_bytes in *. cbn [map concat] in *. rewrite zlen_app in *. fold (calls_bytes l) in *.
    rewrite abuf_call. destruct (Z_le_gt_dec (ab_it s + zlen (call_bytes x)) size).
    + destruct (abuf_write_ok size s (call_bytes x) Hok) as (s1 & -> & H1 & H2 & H3 & _); [lia|].
      cbn [bind]. apply IH; [assumption | lia].
    + rewrite abuf_write_ub by lia. reflexivity.
Qed.

Lemma abuf_init_ok size : 0 <= size -> abuf_ok size (abuf_init size).
Proof. intros H. split; [|simpl; lia]. simpl. rewrite zlen_repeat. lia. Qed.

Lemma abuf_reset_ok size s : abuf_ok size s -> abuf_ok size (abuf_reset s).
Proof. intros (H1 & H2). split; [exact H1 | simpl; lia]. Qed.

(** Sending into an array buffer holding [abuf_content s]. *)
Lemma abuf_send size c coll m vs s : static_ok coll = true -> In m (mc_types coll) ->
  has_types vs (mt_fields m) = true -> abuf_ok size s ->
  ab_it s + sizeof_bound coll m <= size ->
  exists f s', is_message_frame c coll m vs f
    /\ send c coll m (abuf_tx size) (combine (mt_fields m) vs) s = Ok s' /\ abuf_ok size s'
    /\ ab_it s' = ab_it s + sizeof_bound coll m /\ abuf_content s' = abuf_content s ++ f.
Proof.
  intros Hst Hin Hty Hok Hfit. destruct (send_spec c coll m vs Hst Hin Hty) as (calls & HF & H).
  pose proof (message_frame_length c coll m vs _ Hty HF) as HL. rewrite sizeof_bound_spec in *.
  destruct (abuf_calls_ok size calls s Hok) as (s' & H1 & H2 & H3 & H4); [unfold zlen; lia|].
  exists (calls_bytes calls), s'. split; [assumption|]. rewrite H, H1. cbn [bind]. repeat split; auto; try apply H2.
  rewrite H3. unfold zlen. lia.
Qed.

Lemma abuf_send_ub size c coll m vs s : static_ok coll = true -> In m (mc_types coll) ->
  has_types vs (mt_fields m) = true -> abuf_ok size s ->
  size < ab_it s + sizeof_bound coll m ->
  send c coll m (abuf_tx size) (combine (mt_fields m) vs) s = UB.
Proof.
  intros Hst Hin Hty Hok Hfit. destruct (send_spec c coll m vs Hst Hin Hty) as (calls & HF & H).
  pose proof (message_frame_length c coll m vs _ Hty HF) as HL. rewrite sizeof_bound_spec in *.
  rewrite H, abuf_calls_ub; auto. unfold zlen. lia.
Qed.

Lemma abuf_content_full size s : abuf_ok size s -> ab_it s = size -> ab_buffer s = abuf_content s.
Proof.
  intros (HL & _) H. unfold abuf_content. rewrite H, firstn_all2; [reflexivity|]. unfold zlen in HL. lia.
Qed.

Lemma abuf_content_start s : ab_it s = 0 -> abuf_content s = [].
Proof. intros H. unfold abuf_content. rewrite H. reflexivity. Qed.

(** ** I2C *)
Lemma i2c_calls_ok l : forall s, abuf_ok i2c_bufsize (i2c_buf s) ->
  ab_it (i2c_buf s) + zlen (calls_bytes l) <= i2c_bufsize ->
  exists s', run_calls i2c_tx l s = Ok s' /\ abuf_ok i2c_bufsize (i2c_buf s')
    /\ ab_it (i2c_buf s') = ab_it (i2c_buf s) + zlen (calls_bytes l)
    /\ abuf_content (i2c_buf s') = abuf_content (i2c_buf s) ++ calls_bytes l
    /\ i2c_bus s' = i2c_bus s.
Proof.
  induction l as [|x l IH]; intros s Hok Hfit; cbn [run_calls].
  - exists s. unfold calls_bytes, zlen. cbn. rewrite app_nil_r, Z.add_0_r. auto.
  - unfold calls_bytes in *. cbn [map concat] in *. rewrite zlen_app in *. fold (calls_bytes l) in *.
    pose proof (zlen_nonneg (calls_bytes l)). pose proof (zlen_nonneg (call_bytes x)).
    replace (run_call i2c_tx x s) with (do b <- abuf_write i2c_bufsize (call_bytes x) (i2c_buf s); Ok (I2C b (i2c_bus s)))
      by (destruct x; reflexivity).
    destruct (abuf_write_ok i2c_bufsize (i2c_buf s) (call_bytes x) Hok) as (s1 & -> & H1 & H2 & H3 & _); [lia|].
    cbn [bind]. destruct (IH (I2C s1 (i2c_bus s)) H1) as (s2 & -> & H4 & H5 & H6 & H7); [cbn [i2c_buf]; lia|].
    cbn [i2c_buf i2c_bus] in *.
    exists s2. split; [reflexivity|]. split; [assumption|]. split; [lia|]. rewrite H6, H3, <- app_assoc. auto.
Qed.

Lemma i2c_calls_ub l : forall s, abuf_ok i2c_bufsize (i2c_buf s) ->
  i2c_bufsize < ab_it (i2c_buf s) + zlen (calls_bytes l) -> run_calls i2c_tx l s = UB.
Proof.
  induction l as [|x l IH]; intros s Hok Hfit; cbn [run_calls].
  - unfold calls_bytes, zlen in Hfit. cbn in Hfit. destruct Hok as [_ Hok]. change i2c_bufsize with 255 in *. lia.
  - unfold calls_bytes in *. cbn [map concat] in *. rewrite zlen_app in *. fold (calls_bytes l) in *.
    replace (run_call i2c_tx x s) with (do b <- abuf_write i2c_bufsize (call_bytes x) (i2c_buf s); Ok (I2C b (i2c_bus s)))
      by (destruct x; reflexivity).
    destruct (Z_le_gt_dec (ab_it (i2c_buf s) + zlen (call_bytes x)) i2c_bufsize).
    + destruct (abuf_write_ok i2c_bufsize (i2c_buf s) (call_bytes x) Hok) as (s1 & -> & H1 & H2 & H3 & _); [lia|].
      cbn [bind]. apply IH; cbn [i2c_buf]; [assumption | lia].
    + rewrite abuf_write_ub by lia. reflexivity.
Qed.

(** The transmitter between messages: nothing buffered. *)

Lemma i2c_idle_it s : i2c_idle s -> ab_it (i2c_buf s) = 0.
Proof.
  intros ((HL & HI) & HC). unfold abuf_content in HC.
  assert (length (firstn (Z.to_nat (ab_it (i2c_buf s))) (ab_buffer (i2c_buf s))) = 0%nat) as H by (rewrite HC; reflexivity).
  rewrite firstn_length in H. unfold zlen in HL. lia.
Qed.

Lemma i2c_init_idle : i2c_idle i2c_init.
Proof. split; [apply abuf_init_ok; discriminate | reflexivity]. Qed.

Lemma i2c_send c coll m vs s : static_ok coll = true -> In m (mc_types coll) ->
  has_types vs (mt_fields m) = true -> i2c_idle s -> sizeof_bound coll m <= 255 ->
  exists f s', is_message_frame c coll m vs f
    /\ send c coll m i2c_tx (combine (mt_fields m) vs) s = Ok s' /\ i2c_idle s'
    /\ i2c_bus s' = i2c_bus s ++ [f].
Proof.
  intros Hst Hin Hty Hid Hfit. destruct (send_spec c coll m vs Hst Hin Hty) as (calls & HF & H).
  pose proof (message_frame_length c coll m vs _ Hty HF) as HL. rewrite sizeof_bound_spec in *.
  pose proof (i2c_idle_it s Hid) as H0. destruct Hid as (Hok & HC).
  destruct (i2c_calls_ok calls s Hok) as (s' & H1 & H2 & H3 & H4 & H5).
  { change i2c_bufsize with 255. unfold zlen. lia. }
  exists (calls_bytes calls). eexists. split; [assumption|]. rewrite H, H1. cbn [bind tx_finished i2c_tx].
  split; [reflexivity|]. rewrite HC in H4. cbn [app] in H4. split.
  - split; [apply abuf_reset_ok, H2 | apply abuf_content_start; reflexivity].
  - cbn [i2c_bus]. rewrite H5, H4. reflexivity.
Qed.

Lemma i2c_send_ub c coll m vs s : static_ok coll = true -> In m (mc_types coll) ->
  has_types vs (mt_fields m) = true -> i2c_idle s -> 255 < sizeof_bound coll m ->
  send c coll m i2c_tx (combine (mt_fields m) vs) s = UB.
Proof.
  intros Hst Hin Hty Hid Hfit. destruct (send_spec c coll m vs Hst Hin Hty) as (calls & HF & H).
  pose proof (message_frame_length c coll m vs _ Hty HF) as HL. rewrite sizeof_bound_spec in *.
  pose proof (i2c_idle_it s Hid) as H0. destruct Hid as (Hok & HC).
  rewrite H, i2c_calls_ub; [reflexivity | assumption|]. change i2c_bufsize with 255. unfold zlen. lia.
Qed.

Lemma i2c_send_all c coll msgs : static_ok coll = true ->
  Forall (fun mv => sendable coll mv /\ sizeof_bound coll (fst mv) <= 255) msgs -> forall s, i2c_idle s ->
  exists fs s', Forall2 (fun mv f => is_message_frame c coll (fst mv) (snd mv) f) msgs fs
    /\ send_all c coll i2c_tx msgs s = Ok s' /\ i2c_idle s' /\ i2c_bus s' = i2c_bus s ++ fs.
Proof.
  intros Hst H. induction H as [|[m vs] msgs [[Hin Hty] Hsz] HF IH]; intros s Hid.
  - exists [], s. split; [constructor|]. cbn. rewrite app_nil_r. auto.
  - cbn [fst snd] in *. destruct (i2c_send c coll m vs s Hst Hin Hty Hid Hsz) as (f & s1 & Hf & Hs & Hid1 & Hb).
    destruct (IH s1 Hid1) as (fs & s2 & Hfs & Hss & Hid2 & Hb2). exists (f :: fs), s2. split; [constructor; assumption|].
    cbn [send_all]. rewrite Hs. cbn [bind]. rewrite Hb in Hb2. rewrite <- app_assoc in Hb2. auto.
Qed.

(** ** Composition *)
Lemma compose_calls_ok {A B} (t1 : transmitter A) (t2 : transmitter B) l : forall a b a' b',
  run_calls (compose_tx t1 t2) l (a, b) = Ok (a', b')
  <-> run_calls t1 l a = Ok a' /\ run_calls t2 l b = Ok b'.
Proof.
  induction l as [|x l IH]; intros a b a' b'; cbn [run_calls].
  - split; [intros H; injection H as <- <-; auto | intros [H1 H2]; congruence].
  - rewrite compose_call. destruct (run_call t1 x a) as [a1| | | |]; cbn [bind];
      try (split; [discriminate | intros [? ?]; discriminate]).
    destruct (run_call t2 x b) as [b1| | | |]; cbn [bind];
      try (split; [discriminate | intros [? ?]; discriminate]).
    apply IH.
Qed.

Lemma compose_send {A B} c coll m (t1 : transmitter A) (t2 : transmitter B) vs :
  static_ok coll = true -> In m (mc_types coll) -> has_types vs (mt_fields m) = true ->
  exists calls, is_message_frame c coll m vs (calls_bytes calls)
    /\ (forall a b a' b', send c coll m (compose_tx t1 t2) (combine (mt_fields m) vs) (a, b) = Ok (a', b')
          <-> run_calls t1 calls a = Ok a' /\ run_calls t2 calls b = Ok b')
    /\ (forall a, send c coll m t1 (combine (mt_fields m) vs) a = do a' <- run_calls t1 calls a; tx_finished t1 a')
    /\ (forall b, send c coll m t2 (combine (mt_fields m) vs) b = do b' <- run_calls t2 calls b; tx_finished t2 b').
Proof.
  intros Hst Hin Hty. destruct (send_spec c coll m vs Hst Hin Hty) as (calls & HF & H).
  exists calls. split; [assumption|]. split; [|split; intros; apply H].
  intros a b a' b'. rewrite H. cbn [tx_finished compose_tx]. unfold finished_fallback. rewrite bind_ret.
  apply compose_calls_ok.
Qed.

Lemma compose_outcome {A B} (t1 : transmitter A) (t2 : transmitter B) :
  (forall l a, exists a', run_calls t1 l a = Ok a') ->
  forall l a b, run_calls t2 l b = UB -> run_calls (compose_tx t1 t2) l (a, b) = UB.
Proof.
  intros Htot. induction l as [|x l IH]; intros a b H; cbn [run_calls] in *; [discriminate|].
  rewrite compose_call. destruct (Htot [x] a) as (a1 & Ha). cbn [run_calls] in Ha. rewrite bind_ret in Ha. rewrite Ha.
  cbn [bind]. destruct (run_call t2 x b) as [b1| | | |]; cbn [bind] in *; try discriminate; auto.
Qed.

(** Composed I2C: nothing reaches the bus, the buffer fills up. *)
Lemma composed_i2c_send_all c coll msgs : static_ok coll = true -> Forall (sendable coll) msgs ->
  forall v s, abuf_ok i2c_bufsize (i2c_buf s) ->
  let total := fold_right Z.add 0 (map (fun mv => sizeof_bound coll (fst mv)) msgs) in
  if ab_it (i2c_buf s) + total <=? 255
  then exists v' s', send_all c coll (compose_tx vector_tx i2c_tx) msgs (v, s) = Ok (v', s')
         /\ i2c_bus s' = i2c_bus s /\ abuf_ok i2c_bufsize (i2c_buf s')
         /\ ab_it (i2c_buf s') = ab_it (i2c_buf s) + total
  else send_all c coll (compose_tx vector_tx i2c_tx) msgs (v, s) = UB.
Proof.
  intros Hst H. induction H as [|[m vs] msgs [Hin Hty] HF IH]; intros v s Hok total.
  - subst total. cbn [map fold_right]. destruct Hok as (H1 & H2). change i2c_bufsize with 255 in *.
    rewrite (proj2 (Z.leb_le _ _)) by lia. exists v, s. cbn. repeat split; auto; lia.
  - cbn [fst snd] in *. subst total. cbn [map fold_right fst].
    set (total := fold_right Z.add 0 (map (fun mv => sizeof_bound coll (fst mv)) msgs)) in *.
    assert (0 <= total) as Htot.
    { subst total. clear. induction msgs as [|mv msgs IH]; cbn [map fold_right]; [lia|].
      rewrite sizeof_bound_spec. lia. }
    destruct (send_spec c coll m vs Hst Hin Hty) as (calls & HFr & Hs).
    pose proof (message_frame_length c coll m vs _ Hty HFr) as HL.
    cbn [send_all]. rewrite Hs. cbn [tx_finished compose_tx]. unfold finished_fallback. rewrite bind_ret.
    rewrite sizeof_bound_spec.
    destruct (Z_le_gt_dec (ab_it (i2c_buf s) + zlen (calls_bytes calls)) 255) as [Hle|Hgt].
    + destruct (i2c_calls_ok calls s Hok Hle) as (s1 & H1 & H2 & H3 & H4 & H5).
      rewrite (proj2 (compose_calls_ok vector_tx i2c_tx calls v s _ _) (conj (vector_calls calls v) H1)).
      cbn [bind]. specialize (IH (v ++ calls_bytes calls) s1 H2). cbv zeta in IH. fold total in IH.
      rewrite H3 in IH. replace (zlen (calls_bytes calls)) with (Z.of_nat (frame_size (mc_env coll) m)) in * by (unfold zlen; lia).
      rewrite Z.add_assoc.
      destruct (_ <=? 255).
      * destruct IH as (v' & s' & I1 & I2 & I3 & I4). exists v', s'. rewrite H5 in I2. repeat split; auto; try apply I3; lia.
      * assumption.
    + unfold zlen in Hgt. rewrite (proj2 (Z.leb_gt _ _)) by lia.
      rewrite compose_outcome; [reflexivity | | ].
      * intros l a. rewrite vector_calls. eauto.
      * apply i2c_calls_ub; [assumption|]. change i2c_bufsize with 255. unfold zlen. lia.
Qed.

(** ** Block and byte-wise output *)

Lemma calls_bytes_map_byte d : calls_bytes (map CByte d) = d.
Proof. unfold calls_bytes. induction d as [|b d IH]; cbn; [reflexivity|]. rewrite IH. reflexivity. Qed.
Lemma calls_bytes_block d : calls_bytes [CBlock d] = d.
Proof. unfold calls_bytes. cbn. apply app_nil_r. Qed.

Lemma fallback_agrees {S} (byte : Z -> S -> outcome S) fin :
  block_agrees (Transmitter byte (write_fallback byte) fin).
Proof.
  intros d s. cbn [run_calls run_call tx_block]. rewrite bind_ret. revert s.
  induction d as [|b d IH]; intros s; cbn [write_fallback map run_calls run_call tx_byte]; [reflexivity|].
  apply bind_ext. intros s'. apply IH.
Qed.

Lemma vector_agrees : block_agrees vector_tx.
Proof. intros d s. rewrite !vector_calls, calls_bytes_map_byte, calls_bytes_block. reflexivity. Qed.

Lemma write_state_eq s1 s2 :
  ab_it s1 = ab_it s2 -> abuf_content s1 = abuf_content s2 ->
  skipn (Z.to_nat (ab_it s1)) (ab_buffer s1) = skipn (Z.to_nat (ab_it s2)) (ab_buffer s2) -> s1 = s2.
Proof.
  intros H1 H2 H3. destruct s1 as [b1 i1], s2 as [b2 i2]. unfold abuf_content in *. cbn [ab_buffer ab_it] in *.
  subst i2. f_equal. rewrite <- (firstn_skipn (Z.to_nat i1) b1), <- (firstn_skipn (Z.to_nat i1) b2). congruence.
Qed.

Lemma abuf_calls_tail size l : forall s s', abuf_ok size s -> run_calls (abuf_tx size) l s = Ok s' ->
  skipn (Z.to_nat (ab_it s')) (ab_buffer s') = skipn (Z.to_nat (ab_it s')) (ab_buffer s) /\ ab_it s <= ab_it s'.
Proof.
  induction l as [|x l IH]; intros s s' Hok H; cbn [run_calls] in H.
  - injection H as <-. split; [reflexivity | lia].
  - rewrite abuf_call in H. destruct (Z_le_gt_dec (ab_it s + zlen (call_bytes x)) size) as [Hle|Hgt].
    + destruct (abuf_write_ok size s (call_bytes x) Hok Hle) as (s1 & E & H1 & H2 & H3 & H4). rewrite E in H. cbn [bind] in H.
      destruct (IH s1 s' H1 H) as (H5 & H6). pose proof (zlen_nonneg (call_bytes x)). split; [|lia].
      rewrite H5.
      destruct Hok as (_ & Hit).
      replace (Z.to_nat (ab_it s')) with (Z.to_nat (ab_it s1) + (Z.to_nat (ab_it s') - Z.to_nat (ab_it s1)))%nat by lia.
      rewrite <- !skipn_skipn, H4. reflexivity.
    + rewrite abuf_write_ub in H by lia. discriminate.
Qed.

Lemma abuf_calls_same size l1 l2 s : abuf_ok size s -> calls_bytes l1 = calls_bytes l2 ->
  run_calls (abuf_tx size) l1 s = run_calls (abuf_tx size) l2 s.
Proof.
  intros Hok HE. destruct (Z_le_gt_dec (ab_it s + zlen (calls_bytes l1)) size) as [Hle|Hgt].
  - destruct (abuf_calls_ok size l1 s Hok Hle) as (s1 & E1 & A1 & A2 & A3).
    rewrite HE in Hle. destruct (abuf_calls_ok size l2 s Hok Hle) as (s2 & E2 & B1 & B2 & B3).
    rewrite E1, E2. f_equal. destruct (abuf_calls_tail _ _ _ _ Hok E1) as (T1 & _).
    destruct (abuf_calls_tail _ _ _ _ Hok E2) as (T2 & _).
    apply write_state_eq; auto; rewrite HE in *; try congruence.
  - rewrite !abuf_calls_ub; auto; try lia. rewrite <- HE. lia.
Qed.

Lemma i2c_calls_abuf l : forall s, run_calls i2c_tx l s
  = do b <- run_calls (abuf_tx i2c_bufsize) l (i2c_buf s); Ok (I2C b (i2c_bus s)).
Proof.
  induction l as [|x l IH]; intros s; cbn [run_calls].
  - destruct s; reflexivity.
  - replace (run_call i2c_tx x s) with (do b <- run_call (abuf_tx i2c_bufsize) x (i2c_buf s); Ok (I2C b (i2c_bus s)))
      by (destruct x; reflexivity).
    rewrite !bind_assoc. apply bind_ext. intros b. cbn [bind]. rewrite IH. reflexivity.
Qed.

(** ** Statements used by the property files *)
Lemma frame_length_lemma c coll m vs : static_ok coll = true -> In m (mc_types coll) ->
  has_types vs (mt_fields m) = true ->
  exists f, send c coll m vector_tx (combine (mt_fields m) vs) [] = Ok f
    /\ zlen f = sizeof_bound coll m
    /\ length f = (list_sum (map fsize (mt_fields m))
                   + match mc_env coll with Basic => 5 | BasicChecksum => 6 end)%nat.
Proof.
  intros Hst Hin Hty. destruct (vector_send c coll m vs [] Hst Hin Hty) as (f & HF & H).
  exists f. split; [exact H|]. pose proof (message_frame_length _ _ _ _ _ Hty HF) as HL. rewrite sizeof_bound_spec.
  split; [unfold zlen; lia|]. rewrite HL. unfold frame_size, payload_size. destruct (mc_env coll); reflexivity.
Qed.

Lemma frame_id_byte c coll m vs f id : is_message_frame c coll m vs f -> has_id coll m id ->
  (forall j, has_id coll m j -> id <= j) -> nth_error f 1 = Some id.
Proof.
  intros (i & H1 & H2 & ->) H3 H4. specialize (H2 id H3). specialize (H4 i H1). replace id with i by lia.
  unfold spec_frame. destruct (mc_env coll); reflexivity.
Qed.

Lemma ids_lemma c coll m vs : static_ok coll = true -> In m (mc_types coll) ->
  has_types vs (mt_fields m) = true ->
  exists id f, send c coll m vector_tx (combine (mt_fields m) vs) [] = Ok f
    /\ nth_error f 1 = Some id
    /\ has_id coll m id /\ (forall j, has_id coll m j -> id <= j)
    /\ 0 <= id < 255 /\ is_id_valid coll id = true
    /\ apply_at (mc_types coll) id (fun m' _ => Some m') None = Some m.
Proof.
  intros Hst Hin Hty. destruct (vector_send c coll m vs [] Hst Hin Hty) as (f & HF & H).
  pose proof HF as (id & H1 & H2 & _). exists id, f. split; [exact H|].
  split; [eapply frame_id_byte; eassumption|]. split; [assumption|]. split; [assumption|].
  pose proof (has_id_lt _ _ _ H1). pose proof (has_id_valid _ _ _ H1). destruct (static_ok_elim _ Hst) as (Hn & _).
  split; [lia|]. split; [assumption|]. rewrite (apply_at_spec _ id _ _ m); [reflexivity | unfold message_count in Hn; lia | apply H1 | apply H1].
Qed.

Lemma ids_distinct_lemma c coll m m' vs vs' f f' id id' : static_ok coll = true ->
  In m (mc_types coll) -> In m' (mc_types coll) ->
  has_types vs (mt_fields m) = true -> has_types vs' (mt_fields m') = true ->
  send c coll m vector_tx (combine (mt_fields m) vs) [] = Ok f ->
  send c coll m' vector_tx (combine (mt_fields m') vs') [] = Ok f' ->
  nth_error f 1 = Some id -> nth_error f' 1 = Some id' -> id = id' -> m = m'.
Proof.
  intros Hst Hin Hin' Hty Hty' H H' N N' <-.
  destruct (ids_lemma c coll m vs Hst Hin Hty) as (i & g & Hg & N1 & Hi & _).
  destruct (ids_lemma c coll m' vs' Hst Hin' Hty') as (i' & g' & Hg' & N1' & Hi' & _).
  assert (g = f) as -> by congruence. assert (g' = f') as -> by congruence.
  assert (i = id) as -> by congruence. assert (i' = id) as -> by congruence. eapply has_id_fun; eassumption.
Qed.

Lemma id_valid_lemma coll id : 0 <= id -> is_id_valid coll id = true <-> exists m, has_id coll m id.
Proof.
  intros H. split; [apply valid_has_id, H|]. intros (m & Hm). eapply has_id_valid, Hm.
Qed.

Lemma checksum_byte_lemma c coll m vs : static_ok coll = true -> mc_env coll = BasicChecksum ->
  In m (mc_types coll) -> has_types vs (mt_fields m) = true ->
  exists body ck, send c coll m vector_tx (combine (mt_fields m) vs) [] = Ok (body ++ [ck; 4])
    /\ ck = fold_right Z.add 0 body mod 256
    /\ (exists rest, body = 1 :: rest) /\ (exists rest, body = rest ++ [3]).
Proof.
  intros Hst He Hin Hty. destruct (vector_send c coll m vs [] Hst Hin Hty) as (f & (id & _ & _ & ->) & H).
  unfold spec_frame in H. rewrite He in H. cbv zeta in H. eexists. eexists. split; [exact H|].
  split; [reflexivity|]. split; [eexists; reflexivity|].
  exists ([1; id; 2] ++ spec_payload (little c) (mt_fields m) vs). rewrite <- app_assoc. reflexivity.
Qed.

(** ** Codec statements *)
Lemma field_codec_lemma c t v pre : fty_ok t -> has_type v t = true ->
  exists bs, buffer_field c vector_tx (t, v) pre = Ok (pre ++ bs) /\ length bs = fsize t
    /\ forall rest, unbuffer c (zlen (pre ++ bs ++ rest)) (pre ++ bs ++ rest) t (zlen pre) = Ok v.
Proof.
  intros Ht Hv. exists (encode c t v). split.
  - rewrite buffer_field_calls by assumption.
    change (run_call vector_tx (field_call c (t, v)) pre) with
      (match field_call c (t, v) with CByte b => @Ok (list Z) (pre ++ [b]) | CBlock d => Ok (pre ++ d) end).
    rewrite encode_spec, <- (field_call_bytes c t v Hv). destruct (field_call c (t, v)); reflexivity.
  - pose proof (encode_length c t v Hv). split; [assumption|]. intros rest.
    rewrite unbuffer_at; [rewrite decode_encode by assumption; reflexivity | | assumption].
    rewrite !zlen_app. lia.
Qed.

Lemma field_codec_inj c t v v' bs : fty_ok t -> has_type v t = true -> has_type v' t = true ->
  buffer_field c vector_tx (t, v) [] = Ok bs -> buffer_field c vector_tx (t, v') [] = Ok bs -> v = v'.
Proof.
  intros Ht Hv Hv' H H'.
  destruct (field_codec_lemma c t v [] Ht Hv) as (b1 & E1 & _ & D1).
  destruct (field_codec_lemma c t v' [] Ht Hv') as (b2 & E2 & _ & D2).
  cbn [app] in *. assert (b1 = b2) as -> by congruence.
  specialize (D1 []). specialize (D2 []). congruence.
Qed.

Lemma tuple_codec_lemma c ts vs pre : Forall fty_ok ts -> has_types vs ts = true ->
  exists bs, buffer_tuple c vector_tx (combine ts vs) pre = Ok (pre ++ bs)
    /\ length bs = list_sum (map fsize ts)
    /\ forall rest, deserialize c (zlen (pre ++ bs ++ rest)) (pre ++ bs ++ rest) ts (zlen pre) [] = Ok vs.
Proof.
  intros Ht Hv. exists (spec_payload (little c) ts vs). split.
  - rewrite buffer_tuple_calls, vector_calls, tuple_calls_bytes by assumption. reflexivity.
  - split; [apply spec_payload_length, Hv|]. intros rest.
    rewrite (deserialize_encodes c _ ts Ht vs); [reflexivity | split; auto | rewrite !zlen_app; lia].
Qed.

(** Byte order. *)
Lemma order_other c c' bs : little c <> little c' -> order c' (order c bs) = rev bs.
Proof.
  unfold order. destruct (little c), (little c'); intros H; try congruence.
Qed.

Lemma spec_byte_signed n u i : (i < n)%nat -> spec_byte (u - 2 ^ (8 * Z.of_nat n)) i = spec_byte u i.
Proof.
  intros Hi. unfold spec_byte.
  replace (2 ^ (8 * Z.of_nat n)) with (2 ^ (8 * Z.of_nat (n - i - 1)) * 256 * 2 ^ (8 * Z.of_nat i)).
  2:{ change 256 with (2 ^ 8). rewrite <- !Z.pow_add_r by lia. f_equal. lia. }
  set (k := 2 ^ (8 * Z.of_nat (n - i - 1))). assert (0 < 2 ^ (8 * Z.of_nat i)) by (apply Z.pow_pos_nonneg; lia).
  replace (u - k * 256 * 2 ^ (8 * Z.of_nat i)) with (u + - (k * 256) * 2 ^ (8 * Z.of_nat i)) by lia.
  rewrite Z.div_add by lia. replace (- (k * 256)) with (- k * 256) by lia. apply Z.mod_add. lia.
Qed.

Lemma nth_spec_bytes n z i : (i < n)%nat -> nth i (bytes_le n z) 0 = spec_byte z i.
Proof.
  intros H. rewrite bytes_le_spec.
  rewrite (nth_indep _ 0 (spec_byte z 0)) by (rewrite map_length, seq_length; assumption).
  rewrite map_nth, seq_nth by assumption. reflexivity.
Qed.

Lemma byte_order_lemma c c' k s n z : little c <> little c' -> (0 < n)%nat ->
  has_type (VInt z) (TIntN k s n) = true ->
  exists bs z', buffer_field c vector_tx (TIntN k s n, VInt z) [] = Ok bs
    /\ unbuffer c' (zlen bs) bs (TIntN k s n) 0 = Ok (VInt z')
    /\ has_type (VInt z') (TIntN k s n) = true
    /\ forall i, (i < n)%nat -> spec_byte z' i = spec_byte z (n - 1 - i).
Proof.
  intros HE Hn Hv. assert (fty_ok (TIntN k s n)) as Ht by exact Hn.
  destruct (field_codec_lemma c (TIntN k s n) (VInt z) [] Ht Hv) as (bs & E1 & HL & _). cbn [app] in E1.
  exists bs. assert (bs = encode c (TIntN k s n) (VInt z)) as Hbs.
  { rewrite buffer_field_calls in E1 by assumption. rewrite encode_spec, <- (field_call_bytes c _ _ Hv).
    destruct (field_call c (TIntN k s n, VInt z)); cbn in E1; injection E1 as <-; reflexivity. }
  pose proof (unbuffer_at c' (zlen bs) [] bs [] (TIntN k s n)) as HU. change (zlen (@nil Z)) with 0 in HU.
  specialize (HU ltac:(lia) HL). cbn [app] in HU. rewrite app_nil_r in HU.
  destruct (decode_total c' (TIntN k s n) bs ltac:(discriminate)) as (v' & Hd). rewrite Hd in HU.
  assert (exists z', v' = VInt z') as (z' & ->).
  { cbn [decode] in Hd. match type of Hd with Some ?x = _ => assert (x = v') as <- by congruence end. eauto. }
  exists z'. split; [assumption|]. split; [assumption|].
  assert (bytes_ok bs) as HB by (rewrite Hbs; apply encode_ok, Hv).
  destruct (encode_decode c' (TIntN k s n) bs (VInt z') Ht HB HL Hd) as (Hv' & He'). split; [assumption|].
  intros i Hi. cbn [encode] in He', Hbs.
  assert (bytes_le n z' = rev (bytes_le n z)) as HR.
  { rewrite <- (order_order c' (bytes_le n z')), He', Hbs. apply order_other, HE. }
  rewrite <- (nth_spec_bytes n z' i Hi), HR, rev_nth; rewrite bytes_le_length; [|assumption].
  replace (n - Datatypes.S i)%nat with (n - 1 - i)%nat by lia. apply nth_spec_bytes. lia.
Qed.

Lemma spec_byte_one i : spec_byte 1 i = if Nat.eqb i 0 then 1 else 0.
Proof.
  unfold spec_byte. destruct i as [|i]; [reflexivity|]. cbn [Nat.eqb].
  rewrite Z.div_small; [reflexivity|]. split; [lia|]. apply Z.pow_gt_1; lia.
Qed.

Lemma byte_order_refuted_lemma c c' k s n : little c <> little c' -> (2 <= n)%nat ->
  exists z bs z', has_type (VInt z) (TIntN k s n) = true
    /\ buffer_field c vector_tx (TIntN k s n, VInt z) [] = Ok bs
    /\ unbuffer c' (zlen bs) bs (TIntN k s n) 0 = Ok (VInt z') /\ z' <> z.
Proof.
  intros HE Hn. exists 1.
  assert (has_type (VInt 1) (TIntN k s n) = true) as Hv.
  { cbn [has_type]. unfold int_in_range.
    assert (2 ^ 8 <= 2 ^ (8 * Z.of_nat n - 1)) by (apply Z.pow_le_mono_r; lia).
    assert (2 ^ 8 <= 2 ^ (8 * Z.of_nat n)) by (apply Z.pow_le_mono_r; lia). change (2 ^ 8) with 256 in *.
    destruct s; apply andb_true_iff; rewrite Z.leb_le, Z.ltb_lt; lia. }
  destruct (byte_order_lemma c c' k s n 1 HE ltac:(lia) Hv) as (bs & z' & H1 & H2 & _ & H3).
  exists bs, z'. repeat split; auto. intros ->. specialize (H3 0%nat ltac:(lia)).
  rewrite !spec_byte_one in H3. destruct n as [|[|n]]; simpl in H3; lia.
Qed.

(** ** Separate arguments *)
Lemma send_args_lemma {S} c coll m (t : transmitter S) args vs s : static_ok coll = true ->
  In m (mc_types coll) -> (length (mt_fields m) <= 9)%nat -> converted_all (mt_fields m) (map snd args) vs ->
  Forall2 accepted (map fst args) (mt_fields m) -> (length (mt_fields m) = 1%nat -> map fst args = mt_fields m) ->
  send_args c coll m t args s = send c coll m t (combine (mt_fields m) vs) s
  /\ send_bound_args c (Bound coll m) t args s = send c coll m t (combine (mt_fields m) vs) s
  /\ send_bound c (Bound coll m) t (combine (mt_fields m) vs) s = send c coll m t (combine (mt_fields m) vs) s
  /\ has_types vs (mt_fields m) = true.
Proof.
  intros Hst Hin HL HC HA H1. pose proof (static_fields_ok coll m Hst Hin) as HF.
  destruct (convert_args_converted _ _ _ HF HC) as (E1 & E2 & E3 & E4). rewrite map_length in E3.
  assert (send_args c coll m t args s = send c coll m t (combine (mt_fields m) vs) s) as E.
  { unfold send_args. rewrite E3, Nat.eqb_refl, (proj2 (Nat.leb_le _ _) HL), E1. cbn [andb].
    destruct (Nat.eqb_spec (length (mt_fields m)) 1) as [He|He]; cbn [negb orb andb];
      [rewrite (proj2 (ftys_eqb_eq _ _) (eq_sym (H1 He))); cbn [andb]|];
      rewrite (proj2 (convertible_list _ _ (accepted_length _ _ HA)) HA); reflexivity. }
  repeat split; assumption.
Qed.
Lemma send_single_lemma {S} c coll m (t : transmitter S) ty a f s : mt_fields m = [f] -> ty <> f ->
  send_args c coll m t [(ty, a)] s = Rejected /\ send_bound_args c (Bound coll m) t [(ty, a)] s = Rejected.
Proof.
  intros HM HT. assert (send_args c coll m t [(ty, a)] s = Rejected) as E; [|split; exact E].
  unfold send_args. rewrite HM. cbn [length Nat.leb Nat.eqb andb negb orb map fst].
  destruct (ftys_eqb [f] [ty]) eqn:E; [|reflexivity]. apply ftys_eqb_eq in E. congruence.
Qed.
Lemma send_foreign_lemma {S} c coll m (t : transmitter S) args s : ~ Forall2 accepted (map fst args) (mt_fields m) ->
  send_args c coll m t args s = Rejected /\ send_bound_args c (Bound coll m) t args s = Rejected.
Proof.
  intros HN. assert (send_args c coll m t args s = Rejected) as E; [|split; exact E].
  unfold send_args. destruct (Nat.eqb_spec (length args) (length (mt_fields m))) as [HL|HL]; [|rewrite andb_false_r; reflexivity].
  destruct (forallb (fun p => convertible (fst p) (snd p)) (combine (map fst args) (mt_fields m))) eqn:E; [|rewrite andb_false_r; reflexivity].
  destruct HN. apply convertible_list; [rewrite map_length; assumption | exact E].
Qed.
(** Numbers for floating point fields. *)
Lemma send_ints_lemma {S} c coll m (t : transmitter S) (l : list (bool * Z)) tys s : static_ok coll = true ->
  In m (mc_types coll) -> (length l <= 9)%nat -> length l <> 1%nat -> length tys = length l -> Forall (fun ty => arithmetic ty \/ enumeration ty) tys ->
  mt_fields m = map (fun x => TFloat (fst x)) l ->
  Forall (fun x : bool * Z => Z.abs (snd x) <= if fst x then 2 ^ 53 else 2 ^ 24) l ->
  exists vs, Forall2 (fun x v => exists bits, v = VFloat (fst x) bits
                        /\ stands_for (fst x) bits (snd x <? 0) (Z.abs (snd x) * 2 ^ 1074)) l vs
    /\ send_args c coll m t (combine tys (map (fun x => VInt (snd x)) l)) s = send c coll m t (combine (mt_fields m) vs) s.
Proof.
  intros Hst Hin HL HL1 Hty HA HM HB.
  assert (exists vs, converted_all (mt_fields m) (map VInt (map snd l)) vs) as (vs & HV).
  { apply converted_exists_int.
    - apply (static_fields_ok coll m Hst Hin).
    - rewrite HM. apply Forall_forall. intros n H. apply in_map_iff in H as (x & <- & _). exact I.
    - rewrite HM, !map_length. reflexivity. }
  exists vs. split.
  - clear HL HL1 Hty HA Hin. rewrite HM in HV. clear HM. revert vs HV. induction HB as [|[w z] l B HB IH]; intros vs HV; inversion HV; subst; constructor; auto.
    apply int_exact; [|assumption]. cbn [fst snd] in *. destruct w; assumption.
  - rewrite map_map in HV. apply send_args_lemma; auto; rewrite ?HM, ?map_length; try assumption; [| |lia].
    + rewrite map_snd_combine, <- HM by (rewrite map_length; lia). assumption.
    + rewrite map_fst_combine by (rewrite map_length; lia). clear - Hty HA. revert l Hty.
      induction HA; intros [|y l'] Hty; try discriminate Hty; constructor; [right; split; [assumption | exact I] | auto].
Qed.

Lemma send_doubles_lemma {S} c coll m (t : transmitter S) ds fs s : static_ok coll = true ->
  In m (mc_types coll) -> (length ds <= 9)%nat -> length ds <> 1%nat -> Forall2 same_number ds fs ->
  (mt_fields m = map (fun _ => TFloat false) ds ->
   send_args c coll m t (map (fun d => (TFloat true, VFloat true d)) ds) s = send c coll m t (combine (mt_fields m) (map (VFloat false) fs)) s)
  /\ (mt_fields m = map (fun _ => TFloat true) ds ->
   send_args c coll m t (map (fun f => (TFloat false, VFloat false f)) fs) s = send c coll m t (combine (mt_fields m) (map (VFloat true) ds)) s).
Proof.
  intros Hst Hin HL HL1 HF. split; intros HM; (apply send_args_lemma; auto; rewrite HM, ?map_length; [assumption| | |lia]);
    rewrite map_map; cbn [fst snd]; clear - HF; induction HF as [|d f ds fs H HF IH]; cbn [map]; constructor; auto; solve [apply (same_exact d f H) | right; split; [left|]; exact I].
Qed.

(** ** Array buffers *)
Lemma autosized_lemma c coll m vs : static_ok coll = true -> In m (mc_types coll) ->
  has_types vs (mt_fields m) = true ->
  exists f s', is_message_frame c coll m vs f
    /\ send c coll m (autosized_tx coll m) (combine (mt_fields m) vs) (autosized_init coll m) = Ok s'
    /\ ab_buffer s' = f /\ abuf_content s' = f.
Proof.
  intros Hst Hin Hty.
  pose proof (sizeof_bound_spec coll m) as HS.
  assert (abuf_ok (sizeof_bound coll m) (autosized_init coll m)) as Hok by (apply abuf_init_ok; lia).
  destruct (abuf_send (sizeof_bound coll m) c coll m vs (autosized_init coll m) Hst Hin Hty Hok) as (f & s' & HF & H & Hok' & HI & HC).
  { cbn. lia. }
  exists f, s'. cbn [autosized_init abuf_init ab_it] in HI.
  change (abuf_content (autosized_init coll m)) with (@nil Z) in HC. cbn [app] in HC.
  repeat split; auto. rewrite (abuf_content_full _ _ Hok'); auto; lia.
Qed.

Lemma coll_autosized_lemma c coll m vs s : static_ok coll = true -> In m (mc_types coll) ->
  has_types vs (mt_fields m) = true -> abuf_ok (max_message_length coll) s ->
  exists f s', is_message_frame c coll m vs f
    /\ send c coll m (coll_autosized_tx coll) (combine (mt_fields m) vs) (abuf_reset s) = Ok s'
    /\ abuf_ok (max_message_length coll) s' /\ abuf_content s' = f.
Proof.
  intros Hst Hin Hty Hok. pose proof (abuf_reset_ok _ _ Hok) as Hok'.
  pose proof (max_message_length_ge coll m Hin) as HM.
  destruct (abuf_send (max_message_length coll) c coll m vs (abuf_reset s) Hst Hin Hty Hok') as (f & s' & HF & H & Hok2 & HI & HC).
  { cbn. rewrite ?sizeof_bound_spec in *. lia. }
  exists f, s'. repeat split; try assumption. apply Hok2. apply Hok2. apply Hok2.
Qed.

Lemma autosized_twice_lemma c coll m vs vs' : static_ok coll = true -> In m (mc_types coll) ->
  has_types vs (mt_fields m) = true -> has_types vs' (mt_fields m) = true ->
  send_all c coll (autosized_tx coll m) [(m, vs); (m, vs')] (autosized_init coll m) = UB.
Proof.
  intros Hst Hin Hty Hty'. pose proof (sizeof_bound_spec coll m) as HS.
  assert (abuf_ok (sizeof_bound coll m) (autosized_init coll m)) as Hok by (apply abuf_init_ok; lia).
  destruct (abuf_send (sizeof_bound coll m) c coll m vs (autosized_init coll m) Hst Hin Hty Hok) as (f & s' & HF & H & Hok' & HI & HC).
  { cbn. lia. }
  cbn [send_all]. unfold autosized_tx at 1. rewrite H. cbn [bind].
  unfold autosized_tx. rewrite abuf_send_ub; [reflexivity | auto..]. cbn in HI. rewrite HI.
  assert (0 < frame_size (mc_env coll) m)%nat by (unfold frame_size; destruct (mc_env coll); lia). lia.
Qed.

Lemma composed_i2c_lemma c coll m vs : static_ok coll = true -> In m (mc_types coll) ->
  has_types vs (mt_fields m) = true -> sizeof_bound coll m <= 255 ->
  exists f v s' s'', is_message_frame c coll m vs f
    /\ send c coll m (compose_tx vector_tx i2c_tx) (combine (mt_fields m) vs) ([], i2c_init) = Ok (v, s')
    /\ v = f /\ i2c_bus s' = []
    /\ send c coll m i2c_tx (combine (mt_fields m) vs) i2c_init = Ok s'' /\ i2c_bus s'' = [f].
Proof.
  intros Hst Hin Hty Hsz.
  destruct (compose_send c coll m vector_tx i2c_tx vs Hst Hin Hty) as (calls & HF & H1 & H2 & H3).
  destruct (i2c_send c coll m vs i2c_init Hst Hin Hty i2c_init_idle Hsz) as (f & s'' & Hf & Hs & _ & Hb).
  assert (f = calls_bytes calls) as -> by (eapply message_frame_unique; eassumption).
  pose proof (message_frame_length c coll m vs _ Hty HF) as HL. rewrite sizeof_bound_spec in Hsz.
  destruct (i2c_calls_ok calls i2c_init) as (s' & Hs' & _ & _ & _ & Hb').
  { apply abuf_init_ok. discriminate. }
  { change i2c_bufsize with 255. change (ab_it (i2c_buf i2c_init)) with 0. unfold zlen. lia. }
  exists (calls_bytes calls), (calls_bytes calls), s', s''. repeat split; auto.
  apply H1. split; [apply (vector_calls calls []) | assumption].
Qed.

Lemma block_lemma : block_agrees vector_tx /\ block_agrees checksum_tx
  /\ (forall size d s, abuf_ok size s ->
        run_calls (abuf_tx size) [CBlock d] s = run_calls (abuf_tx size) (map CByte d) s)
  /\ (forall d s, abuf_ok i2c_bufsize (i2c_buf s) ->
        run_calls i2c_tx [CBlock d] s = run_calls i2c_tx (map CByte d) s)
  /\ (forall d s, exists s1 s2, run_calls serial_tx [CBlock d] s = Ok s1
        /\ run_calls serial_tx (map CByte d) s = Ok s2 /\ concat s1 = concat s2).
Proof.
  split; [apply vector_agrees|]. split; [apply fallback_agrees|]. split; [|split].
  - intros size d s H. apply abuf_calls_same; [assumption|]. rewrite calls_bytes_map_byte, calls_bytes_block. reflexivity.
  - intros d s H. rewrite !i2c_calls_abuf. rewrite (abuf_calls_same i2c_bufsize [CBlock d] (map CByte d)); auto.
    rewrite calls_bytes_map_byte, calls_bytes_block. reflexivity.
  - intros d s. do 2 eexists. rewrite !serial_calls. split; [reflexivity|]. split; [reflexivity|].
    rewrite !concat_app. f_equal. fold (calls_bytes [CBlock d]). fold (calls_bytes (map CByte d)).
    rewrite calls_bytes_map_byte, calls_bytes_block. reflexivity.
Qed.

(** ** Lengths *)
Lemma max_length_lemma coll : static_ok coll = true ->
  (forall m, In m (mc_types coll) ->
     Z.of_nat (frame_size (mc_env coll) m) <= max_message_length coll)
  /\ (exists m, In m (mc_types coll) /\ max_message_length coll = Z.of_nat (frame_size (mc_env coll) m))
  /\ receive_buffer_size coll = 3 * max_message_length coll
  /\ capacity coll = 3 * max_message_length coll.
Proof.
  intros Hst. split; [intros m; apply frame_size_le_max|]. split.
  - destruct (max_message_length_in coll (static_ok_nonempty _ Hst)) as (m & Hm & E).
    exists m. rewrite E, sizeof_bound_spec. auto.
  - unfold capacity, receive_buffer_size. lia.
Qed.

Lemma length_lookup_lemma coll id : static_ok coll = true -> 0 <= id < 256 ->
  (forall m, has_id coll m id ->
     get_message_length coll id = Ok (Z.of_nat (frame_size (mc_env coll) m))
     /\ message_length_static coll (Z.to_nat id) = Some (Z.of_nat (frame_size (mc_env coll) m)))
  /\ ((forall m, ~ has_id coll m id) -> get_message_length coll id = Ok 0
        /\ message_length_static coll (Z.to_nat id) = None).
Proof.
  intros Hst Hid. split.
  - intros m Hm. split; [apply get_message_length_valid; assumption|]. unfold message_length_static.
    rewrite (proj2 Hm). cbn [option_map]. f_equal. apply sizeof_bound_spec.
  - intros Hn. split.
    + apply get_message_length_invalid. destruct (is_id_valid coll id) eqn:E; [|reflexivity].
      apply valid_has_id in E as (m & Hm); [|lia]. destruct (Hn m Hm).
    + unfold message_length_static. destruct (nth_error (mc_types coll) (Z.to_nat id)) as [m|] eqn:E; [|reflexivity].
      destruct (Hn m). split; [lia | assumption].
Qed.

(** ** The calls, exactly *)
Lemma spec_field_call_eq c ty v : has_type v ty = true -> field_call c (ty, v) = spec_field_call (little c) (ty, v).
Proof.
  intros H. pose proof (field_call_bytes c ty v H) as HB. unfold field_call in *. unfold spec_field_call. cbn [fst snd].
  destruct (fty_eqb ty u8) eqn:E.
  - apply fty_eqb_eq in E. subst ty. cbn [call_bytes] in HB. change (TInt false 1) with u8. cbv beta iota delta [u8]. fold u8. rewrite <- HB. reflexivity.
  - cbn [call_bytes] in HB. rewrite HB. destruct ty as [[| |] [|] [|[|n]]| | |]; try reflexivity.
    exfalso. cbn in E. congruence.
Qed.

Lemma exact_calls_lemma c coll m vs : static_ok coll = true -> In m (mc_types coll) ->
  has_types vs (mt_fields m) = true ->
  exists id tail, is_message_frame c coll m vs ([1; id; 2] ++ spec_payload (little c) (mt_fields m) vs ++ tail)
    /\ length tail = (match mc_env coll with Basic => 2 | BasicChecksum => 3 end)%nat
    /\ forall S (t : transmitter S) s,
         send c coll m t (combine (mt_fields m) vs) s
         = do s' <- run_calls t (map CByte [1; id; 2] ++ map (spec_field_call (little c)) (combine (mt_fields m) vs)
                                 ++ map CByte tail) s;
           tx_finished t s'.
Proof.
  intros Hst Hin Hty. destruct (find_index_in (mc_types coll) m Hin) as (id & Hid).
  set (body := [1; id; 2] ++ spec_payload (little c) (mt_fields m) vs ++ [3]).
  exists id, (match mc_env coll with Basic => [3; 4] | BasicChecksum => [3; zsum body mod 256; 4] end).
  assert (frame_calls c (mc_env coll) id (combine (mt_fields m) vs)
    = map CByte [1; id; 2] ++ map (spec_field_call (little c)) (combine (mt_fields m) vs)
      ++ map CByte (match mc_env coll with Basic => [3; 4] | BasicChecksum => [3; zsum body mod 256; 4] end)) as HF.
  { unfold frame_calls. assert (tuple_calls c (combine (mt_fields m) vs)
      = map (spec_field_call (little c)) (combine (mt_fields m) vs)) as HT.
    { unfold tuple_calls. clear - Hty. revert vs Hty. induction (mt_fields m) as [|ty ts IH]; intros [|v vs] H; simpl in H; try discriminate; [reflexivity|].
      apply andb_true_iff in H as [H1 H2]. cbn [combine map]. rewrite spec_field_call_eq, IH by assumption. reflexivity. }
    assert (calls_bytes ([CByte 1; CByte id; CByte 2] ++ tuple_calls c (combine (mt_fields m) vs) ++ [CByte 3]) = body) as HB.
    { rewrite !calls_bytes_app, tuple_calls_bytes by assumption. reflexivity. }
    rewrite HB, HT. destruct (mc_env coll); rewrite <- !app_assoc; reflexivity. }
  split.
  - exists id. split; [apply find_index_has_id, Hid|]. split; [intros j; apply find_index_first, Hid|].
    rewrite <- (frame_calls_bytes c) by exact Hty. rewrite HF. rewrite !calls_bytes_app, !calls_bytes_map_byte. do 2 f_equal.
    rewrite <- (tuple_calls_bytes c) by exact Hty. f_equal. unfold tuple_calls. clear - Hty. revert vs Hty.
    induction (mt_fields m) as [|ty ts IH]; intros [|v vs] H; simpl in H; try discriminate; [reflexivity|].
    apply andb_true_iff in H as [H1 H2]. cbn [combine map]. rewrite spec_field_call_eq, IH by assumption. reflexivity.
  - split; [destruct (mc_env coll); reflexivity|].
    intros S t s. destruct (send_calls c coll m t vs s Hst Hin Hty) as (id' & Hid' & _ & H).
    assert (id' = id) as -> by congruence. rewrite H, HF. reflexivity.
Qed.

Lemma byte_only_lemma S (byte : Z -> S -> outcome S) fin c coll m vs : static_ok coll = true -> In m (mc_types coll) ->
  has_types vs (mt_fields m) = true ->
  exists f, is_message_frame c coll m vs f
    /\ forall s, send c coll m (Transmitter byte (write_fallback byte) fin) (combine (mt_fields m) vs) s
        = do s' <- run_calls (Transmitter byte (write_fallback byte) fin) (map CByte f) s; fin s'.
Proof.
  intros Hst Hin Hty. destruct (send_spec c coll m vs Hst Hin Hty) as (calls & HF & H).
  exists (calls_bytes calls). split; [exact HF|]. intros s. rewrite H. cbn [tx_finished]. f_equal. clear.
  set (t := Transmitter byte (write_fallback byte) fin).
  revert s. induction calls as [|x l IH]; intros s; [reflexivity|].
  change (calls_bytes (x :: l)) with (call_bytes x ++ calls_bytes l). rewrite map_app, run_calls_app. cbn [run_calls].
  assert (run_call t x s = run_calls t (map CByte (call_bytes x)) s) as <-; [|apply bind_ext; exact IH].
  destruct x as [b|bs]; cbn [run_call call_bytes map run_calls].
  - destruct (tx_byte t b s); reflexivity.
  - exact (eq_trans (eq_sym (bind_ret _)) (fallback_agrees byte fin bs s)).
Qed.

Lemma serial_blocks_lemma c coll m vs s : static_ok coll = true -> In m (mc_types coll) ->
  has_types vs (mt_fields m) = true ->
  exists id tail, is_message_frame c coll m vs ([1; id; 2] ++ spec_payload (little c) (mt_fields m) vs ++ tail)
    /\ send c coll m serial_tx (combine (mt_fields m) vs) s
       = Ok (s ++ map (fun b => [b]) [1; id; 2] ++ map (fun tv => spec_rep (little c) (fst tv) (snd tv)) (combine (mt_fields m) vs)
             ++ map (fun b => [b]) tail).
Proof.
  intros Hst Hin Hty. destruct (exact_calls_lemma c coll m vs Hst Hin Hty) as (id & tail & HF & _ & H).
  exists id, tail. split; [exact HF|]. rewrite H, serial_calls. cbn [bind tx_finished serial_tx]. unfold finished_fallback.
  f_equal. f_equal. rewrite !map_app, !map_map. cbn [call_bytes]. do 2 f_equal.
  clear - Hty. revert vs Hty. induction (mt_fields m) as [|ty ts IH]; intros [|v vs] HT; simpl in HT; try discriminate; [reflexivity|].
  apply andb_true_iff in HT as [H1 H2]. cbn [combine map]. rewrite <- spec_field_call_eq, IH by assumption.
  rewrite field_call_bytes by assumption. reflexivity.
Qed.
