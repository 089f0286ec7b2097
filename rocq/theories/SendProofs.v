(** Sending: the calls made on a transmitter. *)
From Verif Require Export CodecProofs SpecSend.

Lemma calls_bytes_app l1 l2 : calls_bytes (l1 ++ l2) = calls_bytes l1 ++ calls_bytes l2.
Proof. unfold calls_bytes. rewrite map_app, concat_app. reflexivity. Qed.

Lemma bind_assoc {A B C} (m : outcome A) (f : A -> outcome B) (g : B -> outcome C) :
  bind (bind m f) g = bind m (fun a => bind (f a) g).
Proof. destruct m; reflexivity. Qed.

Lemma bind_ext {A B} (m : outcome A) (f g : A -> outcome B) :
  (forall a, f a = g a) -> bind m f = bind m g.
Proof. intros H. destruct m; simpl; auto. Qed.

Lemma bind_ret {A} (m : outcome A) : bind m (fun a => Ok a) = m.
Proof. destruct m; reflexivity. Qed.

Lemma run_calls_app {S} (t : transmitter S) l1 : forall l2 s,
  run_calls t (l1 ++ l2) s = do s' <- run_calls t l1 s; run_calls t l2 s'.
Proof.
  induction l1 as [|x l1 IH]; intros l2 s; [reflexivity|].
  cbn [app run_calls]. rewrite bind_assoc. apply bind_ext. intros a. apply IH.
Qed.

(** Calls made for a tuple. *)
Definition field_call (c : config) (f : fty * value) : call :=
  let '(ty, v) := f in
  if fty_eqb ty u8 then CByte (match v with VInt z => trunc 8 z | _ => 0 end)
  else CBlock (encode c ty v).
Definition tuple_calls (c : config) (contents : list (fty * value)) : list call :=
  map (field_call c) contents.

Lemma buffer_field_calls {S} c (t : transmitter S) ty v s : has_type v ty = true ->
  buffer_field c t (ty, v) s = run_call t (field_call c (ty, v)) s.
Proof.
  intros H. unfold buffer_field, field_call. destruct (fty_eqb ty u8) eqn:E; [|reflexivity].
  apply fty_eqb_eq in E. subst ty. destruct v; simpl in H; try discriminate. reflexivity.
Qed.

Lemma buffer_tuple_calls {S} c (t : transmitter S) : forall ts vs s, has_types vs ts = true ->
  buffer_tuple c t (combine ts vs) s = run_calls t (tuple_calls c (combine ts vs)) s.
Proof.
  induction ts as [|ty ts IH]; intros [|v vs] s H; simpl in H; try discriminate; [reflexivity|].
  apply andb_true_iff in H as [H1 H2]. cbn [combine buffer_tuple tuple_calls map run_calls].
  rewrite buffer_field_calls by assumption. apply bind_ext. intros a. apply IH, H2.
Qed.

Lemma field_call_bytes c ty v : has_type v ty = true ->
  call_bytes (field_call c (ty, v)) = spec_rep (little c) ty v.
Proof.
  intros H. unfold field_call. destruct (fty_eqb ty u8) eqn:E; [|apply encode_spec].
  apply fty_eqb_eq in E. subst ty. destruct v; simpl in H; try discriminate.
  cbn [call_bytes]. unfold spec_rep, u8, spec_byte. cbn [seq rev app map].
  destruct (little c); cbn [map]; change (8 * Z.of_nat 0) with 0; rewrite Z.pow_0_r, Z.div_1_r; reflexivity.
Qed.

Lemma tuple_calls_bytes c : forall ts vs, has_types vs ts = true ->
  calls_bytes (tuple_calls c (combine ts vs)) = spec_payload (little c) ts vs.
Proof.
  induction ts as [|ty ts IH]; intros [|v vs] H; simpl in H; try discriminate; [reflexivity|].
  apply andb_true_iff in H as [H1 H2]. cbn [combine tuple_calls map].
  unfold calls_bytes. cbn [map concat]. rewrite field_call_bytes by assumption.
  rewrite spec_payload_cons. f_equal. apply IH, H2.
Qed.

(** The checksum computer alone. *)
Lemma checksum_block d : forall ck, 0 <= ck < 256 ->
  write_fallback checksum_byte d ck = Ok ((ck + zsum d) mod 256).
Proof.
  induction d as [|b d IH]; intros ck H; cbn [write_fallback].
  - unfold zsum. simpl. rewrite Z.add_0_r, Z.mod_small by lia. reflexivity.
  - unfold checksum_byte at 1. cbn [bind]. rewrite IH.
    + unfold trunc, zsum. change (2 ^ 8) with 256. cbn [fold_right].
      rewrite Zplus_mod_idemp_l. do 2 f_equal. lia.
    + unfold trunc. change (2 ^ 8) with 256. apply Z.mod_pos_bound. lia.
Qed.

Lemma zsum_app a b : zsum (a ++ b) = zsum a + zsum b.
Proof. unfold zsum. induction a as [|x a IH]; simpl; lia. Qed.

Lemma checksum_call x ck : 0 <= ck < 256 ->
  run_call checksum_tx x ck = Ok ((ck + zsum (call_bytes x)) mod 256).
Proof.
  intros H. destruct x as [b|bs]; cbn [run_call checksum_tx tx_byte tx_block call_bytes].
  - unfold checksum_byte, trunc, zsum. simpl. rewrite Z.add_0_r. reflexivity.
  - apply checksum_block, H.
Qed.

Lemma checksum_calls l : forall ck, 0 <= ck < 256 ->
  run_calls checksum_tx l ck = Ok ((ck + zsum (calls_bytes l)) mod 256).
Proof.
  induction l as [|x l IH]; intros ck H; cbn [run_calls].
  - unfold calls_bytes, zsum. simpl. rewrite Z.add_0_r, Z.mod_small by lia. reflexivity.
  - rewrite checksum_call by assumption. cbn [bind]. rewrite IH by (apply Z.mod_pos_bound; lia).
    rewrite Zplus_mod_idemp_l. unfold calls_bytes. cbn [map concat]. rewrite zsum_app. do 2 f_equal. lia.
Qed.

(** A composition runs the calls on both members. *)
Lemma compose_call {A B} (t1 : transmitter A) (t2 : transmitter B) x a b :
  run_call (compose_tx t1 t2) x (a, b)
  = do a' <- run_call t1 x a; do b' <- run_call t2 x b; Ok (a', b').
Proof. destruct x; reflexivity. Qed.

Lemma compose_checksum_calls {S} (t : transmitter S) l : forall ck s, 0 <= ck < 256 ->
  run_calls (compose_tx checksum_tx t) l (ck, s)
  = do s' <- run_calls t l s; Ok ((ck + zsum (calls_bytes l)) mod 256, s').
Proof.
  induction l as [|x l IH]; intros ck s H; cbn [run_calls].
  - unfold calls_bytes, zsum. simpl. rewrite Z.add_0_r, Z.mod_small by lia. reflexivity.
  - rewrite compose_call, checksum_call by assumption. cbn [bind]. rewrite !bind_assoc.
    apply bind_ext. intros s1. cbn [bind]. rewrite IH by (apply Z.mod_pos_bound; lia).
    apply bind_ext. intros s2. rewrite Zplus_mod_idemp_l. unfold calls_bytes. cbn [map concat].
    rewrite zsum_app. do 3 f_equal. lia.
Qed.

(** The calls for a whole message. *)
Definition frame_calls (c : config) (e : envelope) (id : Z) (contents : list (fty * value)) : list call :=
  let head := [CByte 1; CByte id; CByte 2] ++ tuple_calls c contents ++ [CByte 3] in
  match e with
  | Basic => head ++ [CByte 4]
  | BasicChecksum => head ++ [CByte (zsum (calls_bytes head) mod 256); CByte 4]
  end.

Lemma frame_calls_bytes c e id ts vs : has_types vs ts = true ->
  calls_bytes (frame_calls c e id (combine ts vs)) = spec_frame e id (spec_payload (little c) ts vs).
Proof.
  intros H. unfold frame_calls, spec_frame. pose proof (tuple_calls_bytes c ts vs H) as HT.
  destruct e; rewrite !calls_bytes_app, HT; unfold calls_bytes at 1 2; cbn [map concat call_bytes app].
  - rewrite <- ?app_assoc. reflexivity.
  - unfold calls_bytes. cbn [map concat call_bytes app]. rewrite <- ?app_assoc. reflexivity.
Qed.

Lemma envelope_send_calls {S} c e (t : transmitter S) id ts vs s : has_types vs ts = true ->
  envelope_send e c t (combine ts vs) id s = run_calls t (frame_calls c e id (combine ts vs)) s.
Proof.
  intros H. destruct e; cbn [envelope_send].
  - unfold basic_send, frame_calls. rewrite !run_calls_app. cbn [run_calls run_call].
    repeat (rewrite ?bind_assoc; cbn [bind]).
    unfold SOH, STX, ETX, EOT.
    apply bind_ext; intros s1. rewrite ?bind_assoc. apply bind_ext; intros s2. rewrite ?bind_assoc.
    apply bind_ext; intros s3. cbn [bind app]. rewrite ?run_calls_app. rewrite (buffer_tuple_calls c t ts vs s3 H), ?bind_assoc.
    apply bind_ext; intros s4. cbn [run_calls run_call]. rewrite ?bind_assoc. apply bind_ext; intros s5. cbn [bind].
    rewrite bind_ret. reflexivity.
  - unfold basic_checksum_send, frame_calls.
    set (head := [CByte 1; CByte id; CByte 2] ++ tuple_calls c (combine ts vs) ++ [CByte 3]).
    rewrite run_calls_app.
    transitivity (do cs <- run_calls (compose_tx checksum_tx t) head (checksum_init, s);
                  do s <- tx_byte t (fst cs) (snd cs); tx_byte t EOT s).
    + unfold head. rewrite !run_calls_app. cbn [run_calls run_call].
      rewrite ?bind_assoc. unfold SOH, STX, ETX.
      apply bind_ext; intros s1. rewrite ?bind_assoc. apply bind_ext; intros s2. rewrite ?bind_assoc.
      apply bind_ext; intros s3. cbn [bind app]. rewrite ?run_calls_app.
      rewrite (buffer_tuple_calls c (compose_tx checksum_tx t) ts vs s3 H), ?bind_assoc.
      apply bind_ext; intros s4. cbn [run_calls run_call]. rewrite ?bind_assoc. apply bind_ext; intros s5. reflexivity.
    + rewrite compose_checksum_calls by (unfold checksum_init; lia). rewrite bind_assoc.
      apply bind_ext; intros s1. cbn [bind fst snd run_calls run_call]. unfold checksum_init, EOT.
      rewrite Z.add_0_l. apply bind_ext; intros s2. rewrite bind_ret. reflexivity.
Qed.

Lemma contents_ok_combine m vs : has_types vs (mt_fields m) = true ->
  contents_ok m (combine (mt_fields m) vs) = true.
Proof.
  intros H. unfold contents_ok. apply orb_true_iff. left. apply ftys_eqb_eq.
  apply has_types_length in H. revert vs H. induction (mt_fields m) as [|t ts IH]; intros [|v vs] H; simpl in *; try discriminate; [reflexivity|].
  f_equal. apply IH. congruence.
Qed.

Lemma send_calls {S} c coll m (t : transmitter S) vs s :
  static_ok coll = true -> In m (mc_types coll) -> has_types vs (mt_fields m) = true ->
  exists id, find_index (mc_types coll) m = Some id /\ has_id coll m id
    /\ send c coll m t (combine (mt_fields m) vs) s
       = do s' <- run_calls t (frame_calls c (mc_env coll) id (combine (mt_fields m) vs)) s;
         tx_finished t s'.
Proof.
  intros Hst Hin Hty. destruct (find_index_in (mc_types coll) m Hin) as (id & Hid).
  exists id. split; [assumption|]. pose proof (find_index_has_id _ _ _ Hid) as Hh. split; [assumption|].
  unfold send. rewrite Hst, (contents_ok_combine m vs Hty), Hid. cbn [andb negb].
  apply has_id_lt in Hh. apply static_ok_elim in Hst. rewrite trunc_small by (change (2 ^ 8) with 256; lia).
  rewrite envelope_send_calls by assumption. reflexivity.
Qed.
