(** The shipped envelopes as envelopes of an application. *)
From Verif Require Export OwnPolicyLemmas EnvelopeLemmas.

Section Shipped.
Context (c : config) (coll : collection).
Local Notation oc := (as_own coll).

Lemma as_own_capacity : own_capacity oc = capacity coll.
Proof. destruct coll as [types []]; reflexivity. Qed.
Lemma as_own_sizeof m : own_sizeof oc m = sizeof_bound coll m.
Proof. destruct coll as [types []]; reflexivity. Qed.
Lemma as_own_max : own_max_length oc = max_message_length coll.
Proof. destruct coll as [types []]; reflexivity. Qed.
Lemma as_own_types : oc_types oc = mc_types coll.
Proof. reflexivity. Qed.

Lemma as_own_static : own_static_ok oc = static_ok coll.
Proof.
  destruct (static_ok coll) eqn:E.
  - pose proof (max_ge5 _ E) as H5. pose proof (static_ok_elim _ E) as HE.
    unfold static_ok in E. rewrite !andb_true_iff in E. destruct E as (((E1 & E2) & E3) & E4).
    unfold own_static_ok. rewrite as_own_max, as_own_capacity. rewrite !andb_true_iff. repeat split; auto.
    + apply forallb_forall. intros m _. apply Z.leb_le. rewrite as_own_sizeof. unfold sizeof_bound.
      assert (0 <= sizeof_fields (mt_fields m)).
      { rewrite sizeof_fields_sum. lia. }
      destruct (mc_env coll); cbn [overhead_size]; lia.
    + apply Z.leb_le. lia.
  - apply not_true_iff_false. intros H. apply not_true_iff_false in E. apply E.
    unfold own_static_ok in H. rewrite as_own_capacity in H. rewrite !andb_true_iff in H.
    destruct H as (((((H1 & H2) & H3) & H4) & H5) & H6).
    unfold static_ok. rewrite !andb_true_iff. auto.
Qed.

(** ** The check *)
Lemma run_at i k e : run_check c oc (KAt i k) e = do x <- er_buffer c coll e i; run_check c oc (k x) e.
Proof. cbn [run_check]. rewrite as_own_capacity. reflexivity. Qed.
Lemma run_size k e : run_check c oc (KSize k) e = run_check c oc (k (rb_size (capacity coll) (er_buf e))) e.
Proof. cbn [run_check]. rewrite as_own_capacity. reflexivity. Qed.
Lemma run_front k e : run_check c oc (KFront k) e = do x <- rb_front c (capacity coll) (er_buf e); run_check c oc (k x) e.
Proof. cbn [run_check]. rewrite as_own_capacity. reflexivity. Qed.
Lemma run_length k e : run_check c oc (KLength k) e = do n <- er_message_length c coll e; run_check c oc (k n) e.
Proof.
  cbn [run_check]. unfold own_message_length, er_message_length, own_get_length, get_message_length, message_size_bits.
  rewrite as_own_max. destruct coll as [types []]; reflexivity.
Qed.
Lemma run_pop k e : run_check c oc (KPop 1 (fun _ => k)) e = do e' <- er_pop_front c coll 1 e; run_check c oc k e'.
Proof.
  cbn [run_check]. unfold own_pop_front, er_pop_front. rewrite as_own_capacity, !bind_assoc.
  apply bind_ext. intros (b, x). reflexivity.
Qed.

Context (Hst : static_ok coll = true).
Local Notation cap := (capacity coll).
Let Hcap : cap_ok cap := capacity_ok coll Hst.

Lemma run_skip k : forall n e X, erep coll e X -> (length X < n)%nat ->
  run_check c oc (skip_code n k) e = do e' <- skip_to_soh n c coll e; run_check c oc k e'.
Proof.
  induction n as [|n IH]; intros e X R Hn; [lia|]. cbn [skip_code skip_to_soh].
  cbn [run_check]. rewrite (rep_empty _ _ _ R). destruct X as [|x X]; [reflexivity|].
  rewrite run_front, (rep_front c _ Hcap _ _ _ R). cbn [bind]. unfold SOH at 1 2.
  destruct (x =? 1); [reflexivity|]. rewrite run_pop.
  destruct (er_pop_front_spec c coll Hst e [x] X 1 R eq_refl ltac:(discriminate)) as (e1 & -> & R1 & _).
  cbn [bind]. apply (IH e1 X R1). cbn [length] in Hn. lia.
Qed.

Lemma run_sum k e : forall n i ck,
  run_check c oc (sum_code n i ck k) e = do x <- checksum_loop n c coll e i ck; run_check c oc (k x) e.
Proof.
  induction n as [|n IH]; intros i ck; [reflexivity|]. cbn [sum_code checksum_loop]. rewrite run_at, bind_assoc.
  apply bind_ext. intros x. rewrite IH. reflexivity.
Qed.

Definition shipped_end : Z -> check_code -> check_code -> check_code :=
  match mc_env coll with Basic => basic_end_code | BasicChecksum => checksum_end_code end.

Lemma run_end len good bad e :
  run_check c oc (shipped_end len good bad) e
  = do ok <- trailer c coll e len; if ok then run_check c oc good e else run_check c oc bad e.
Proof.
  unfold shipped_end, trailer. destruct (mc_env coll).
  - unfold basic_end_code, basic_trailer. rewrite run_at, bind_assoc. apply bind_ext. intros x.
    destruct (negb (x =? ETX)); [reflexivity|]. rewrite run_at, bind_assoc. apply bind_ext. intros y. cbn [bind].
    destruct (y =? EOT); reflexivity.
  - unfold checksum_end_code, checksum_trailer. rewrite run_at, bind_assoc. apply bind_ext. intros x.
    destruct (negb (x =? ETX)); [reflexivity|]. rewrite run_at, bind_assoc. apply bind_ext. intros y.
    destruct (negb (y =? EOT)); [reflexivity|]. rewrite run_sum, bind_assoc. apply bind_ext. intros ck.
    rewrite run_at, bind_assoc. apply bind_ext. intros z. cbn [bind]. destruct (ck =? z); reflexivity.
Qed.

Lemma run_retry k (chk : erb -> outcome (bool * erb)) e x X : erep coll e (x :: X) ->
  (forall e', erep coll e' X -> run_check c oc k e' = chk e') ->
  run_check c oc (retry_code k) e = pop_and_retry c coll chk e.
Proof.
  intros R H. unfold retry_code, pop_and_retry. cbn [run_check]. rewrite (rep_empty _ _ _ R).
  apply bind_ext. intros _. rewrite run_pop.
  destruct (er_pop_front_spec c coll Hst e [x] X 1 R eq_refl ltac:(discriminate)) as (e1 & -> & R1 & _).
  cbn [bind]. apply H, R1.
Qed.

Lemma run_shipped : forall fuel e X, erep coll e X -> bytes_ok X -> (length X < fuel)%nat ->
  run_check c oc (shipped_code_fuel shipped_end fuel) e = check_fuel fuel c coll e.
Proof.
  induction fuel as [|fuel IH]; intros e X R HB Hf; [lia|].
  cbn [shipped_code_fuel check_fuel]. rewrite run_size.
  set (again := retry_code (shipped_code_fuel shipped_end fuel)).
  rewrite (rep_size _ Hcap _ _ R). unfold zlen. rewrite Nat2Z.id.
  rewrite (run_skip _ _ e X R) by lia.
  destruct (skip_to_soh_spec c coll Hst (S (length X)) e X R ltac:(lia)) as (e1 & Y & -> & R1 & _ & _ & (K & EK) & HY).
  cbn [bind]. rewrite run_size.
  assert (bytes_ok Y) as HBY by (rewrite EK in HB; apply Forall_app in HB; apply HB).
  assert (length Y <= length X)%nat as HLY by (rewrite EK, app_length; lia).
  rewrite (rep_size _ Hcap _ _ R1).
  destruct (Z.ltb_spec (zlen Y) 2) as [H2|H2]; [reflexivity|].
  destruct Y as [|y0 [|y1 Y]]; [change (zlen (@nil Z)) with 0 in H2; lia | change (zlen [y0]) with 1 in H2; lia |].
  rewrite run_at. destruct (er_buffer c coll e1 1) as [b1| | | |] eqn:E1; try reflexivity. cbn [bind].
  rewrite (er_buffer_at c coll Hst e1 [y0] y1 Y 1 R1 eq_refl) in E1. injection E1 as <-.
  assert (0 <= y1 < 256) as Hy1 by (inversion HBY as [|? ? _ HB']; inversion HB'; assumption).
  assert (run_check c oc (KSetId y1 (KIdValid (fun valid => if negb valid then again else
      KSize (fun n => if n <? 3 then KReturn false else
      KAt 2 (fun b2 => if negb (b2 =? STX) then again else
      KLength (fun len =>
      KSize (fun n => if n <? len then KReturn false else
      shipped_end len (KReturn true) again))))))) e1
    = run_check c oc (KIdValid (fun valid => if negb valid then again else
      KSize (fun n => if n <? 3 then KReturn false else
      KAt 2 (fun b2 => if negb (b2 =? STX) then again else
      KLength (fun len =>
      KSize (fun n => if n <? len then KReturn false else
      shipped_end len (KReturn true) again)))))) (er_set_id coll y1 e1)) as ->.
  { cbn [run_check]. unfold own_set_id. rewrite trunc_small by (change (2 ^ 8) with 256; lia). reflexivity. }
  set (e2 := er_set_id coll y1 e1). assert (erep coll e2 (y0 :: y1 :: Y)) as R2 by (exact R1).
  assert (run_check c oc again e2 = pop_and_retry c coll (check_fuel fuel c coll) e2) as Hag.
  { apply (run_retry _ _ e2 y0 (y1 :: Y) R2). intros e' R'. apply (IH e' (y1 :: Y) R').
    - inversion HBY; assumption.
    - cbn [length] in *. lia. }
  change (run_check c oc (KIdValid ?k) e2) with (run_check c oc (k (er_id_valid e2)) e2). cbv beta.
  destruct (negb (er_id_valid e2)); [exact Hag|]. rewrite run_size.
  destruct (rb_size cap (er_buf e2) <? 3); [reflexivity|]. rewrite run_at. apply bind_ext. intros b2.
  destruct (negb (b2 =? STX)); [exact Hag|]. rewrite run_length. apply bind_ext. intros len. rewrite run_size.
  destruct (rb_size cap (er_buf e2) <? len); [reflexivity|]. rewrite run_end. apply bind_ext. intros ok.
  destruct ok; [reflexivity | exact Hag].
Qed.

Lemma own_check_shipped e X : erep coll e X -> bytes_ok X -> own_check c oc e = check c coll e.
Proof.
  intros R HB. unfold own_check, check.
  assert (oe_check (oc_env oc) = shipped_code shipped_end) as ->.
  { unfold shipped_end, as_own. cbn [oc_env]. destruct (mc_env coll); reflexivity. }
  unfold shipped_code. rewrite run_size, (rep_size _ Hcap _ _ R). unfold zlen. rewrite Nat2Z.id.
  apply (run_shipped _ e X R HB). lia.
Qed.

(** ** The receiver *)
Lemma own_pop_shipped e X : erep coll e X -> bytes_ok X -> own_pop_message c oc e = er_pop_message c coll e.
Proof.
  intros R HB. unfold own_pop_message, er_pop_message. rewrite (own_check_shipped e X R HB).
  apply bind_ext. intros e1.
  assert (own_message_length c oc e1 = er_message_length c coll e1) as ->.
  { unfold own_message_length, er_message_length, own_get_length, get_message_length, message_size_bits.
    rewrite as_own_max. destruct coll as [types []]; reflexivity. }
  apply bind_ext. intros len. unfold own_pop_front, er_pop_front. rewrite as_own_capacity, !bind_assoc.
  apply bind_ext. intros (b, x). reflexivity.
Qed.

Lemma own_fields_shipped contents : zlen contents = cap -> forall ts pos acc, 0 <= pos -> Forall fty_ok ts ->
  own_fields c oc contents ts pos acc = deserialize c cap contents ts pos acc.
Proof.
  intros HC. induction ts as [|t ts IH]; intros pos acc Hp Hts; cbn [own_fields deserialize]; [reflexivity|].
  apply Forall_cons_iff in Hts as (Ht & Hts). rewrite as_own_capacity.
  assert (oe_policy (oc_env oc) = bitwise) as -> by (unfold as_own; cbn [oc_env]; destruct (mc_env coll); reflexivity).
  rewrite bitwise_read by assumption. rewrite bind_assoc. apply bind_ext. intros v. cbn [bind]. apply IH; [lia | assumption].
Qed.

Lemma own_deserialize_shipped e X m id : erep coll e X -> has_id coll m id ->
  own_deserialize c oc e id = deserialize_message c coll e id.
Proof.
  intros R Hm. pose proof R as (A & B & HC & Hb & _ & HL). unfold own_deserialize, deserialize_message. rewrite as_own_capacity.
  assert (oe_offset (oc_env oc) = data_offset (mc_env coll)) as -> by (unfold as_own; cbn [oc_env]; destruct (mc_env coll); reflexivity).
  pose proof (zlen_nonneg A).
  assert (0 <= rb_begin (er_buf e) + data_offset (mc_env coll)) as HP by (destruct (mc_env coll); cbn [data_offset]; lia).
  rewrite (proj2 (Z.ltb_ge _ 0) HP). cbn [orb].
  destruct (cap <? rb_begin (er_buf e) + data_offset (mc_env coll)); [reflexivity|].
  destruct Hm as (Hi & Hm). pose proof (static_ok_elim _ Hst) as HE.
  unfold message_count in HE. rewrite as_own_types, !(apply_at_spec _ _ _ _ m) by (assumption || lia).
  rewrite own_fields_shipped; [reflexivity | | assumption |].
  - rewrite HC, !zlen_app. unfold zlen in *. lia.
  - apply (static_fields_ok coll m Hst). eapply nth_error_In, Hm.
Qed.

Lemma own_acts_shipped proc proc' : forall acts w,
  (forall a, In a acts -> match a with AProcess => False | AAppend d => bytes_ok d | _ => True end) ->
  own_acts c oc proc acts w = run_acts c coll proc' acts w.
Proof.
  induction acts as [|a acts IH]; intros w Ht; [reflexivity|]. cbn [own_acts run_acts].
  pose proof (Ht a (or_introl eq_refl)) as Ha.
  destruct a as [h| |d|]; try contradiction; cbn [bind].
  1,2: apply IH; intros a' H'; apply Ht; right; assumption.
  unfold own_append, rx_append, er_append. rewrite as_own_capacity, !bind_assoc. apply bind_ext. intros b. cbn [bind].
  apply IH. intros a' H'. apply Ht. right. assumption.
Qed.

Lemma own_loop_shipped beh : tame beh -> forall fuel n w s, sim coll w s ->
  own_loop fuel c oc beh n w = process_loop fuel c coll beh n w.
Proof.
  intros Ht. induction fuel as [|fuel IH]; intros n w s Hs; [reflexivity|]. cbn [own_loop process_loop].
  pose proof Hs as (R0 & HB0 & _). rewrite (own_check_shipped _ _ R0 HB0).
  destruct (check_sim c coll Hst w s Hs) as (ok & e & Y & HC & HS & Hs1 & HY). rewrite HC. cbn [bind].
  destruct ok; cbn [negb]; [|reflexivity].
  destruct s as [X h last log]. cbn [s_bytes s_handler s_last s_log] in *.
  destruct HY as (f & m & id & pl & s0 & -> & F & Hid).
  unfold er_current_id. rewrite Hid. cbn [bind].
  set (w1 := w_set_last id (w_set_recv e w)).
  assert (sim coll w1 (SState (f ++ s0) h (Some id) log)) as Hs2.
  { destruct Hs1 as (A1 & A2 & A3 & A4 & A5 & A6). repeat split; auto. }
  assert (rx_recv (w_rx w1) = e) as He by reflexivity.
  unfold own_invoke, invoke.
  pose proof Hs2 as (R & HB & Hf & Hi & Hl & Hlog). cbn [s_bytes s_handler s_last s_log] in *.
  rewrite Hf, Hi. destruct h as [h|]; cbn [option_map]; [|reflexivity].
  rewrite Z.eqb_refl. cbn [negb]. rewrite (own_deserialize_shipped _ _ m id R (proj1 F)).
  destruct (deserialize_message c coll (rx_recv (w_rx w1)) id) as [x| | | |] eqn:D; try reflexivity.
  cbn [bind]. destruct (deserialize_message_sound c coll Hst _ _ _ _ _ _ _ R F HB D) as (vs & -> & E).
  rewrite Hlog. set (log1 := log ++ [Delivery h m vs]) in *.
  rewrite (own_acts_shipped _ (fun w => if rx_has_handler (w_rx w) then process_loop fuel c coll beh 0 w
                                        else Ok (w, Returned 0)) (hr_acts (beh log1)) _ (Ht log1)).
  destruct (run_acts c coll _ (hr_acts (beh log1)) (World (w_rx w1) log1)) as [[w2 t]| | | |] eqn:RA;
    try reflexivity. cbn [bind].
  eapply (run_acts_sound c coll Hst _ _ (Ht log1)) with (X := f ++ s0) (h := Some h) (last := Some id) (log := log1) in RA.
  2:{ repeat split; auto. }
  destruct RA as (-> & Hs3 & Hid2). cbn [orb]. cbn [w_rx] in Hid2. rewrite He, Hid in Hid2.
  rewrite <- app_assoc in Hs3. destruct (hr_throws (beh log1)) eqn:HT; [reflexivity|].
  pose proof Hs3 as (R3 & HB3 & Hf3 & Hi3 & Hl3 & Hlog3). cbn [s_bytes s_handler s_last s_log] in *.
  rewrite (own_pop_shipped _ _ R3 HB3).
  destruct (pop_message_spec c coll Hst (rx_recv (w_rx w2)) f m id pl (s0 ++ appended (hr_acts (beh log1))))
      as (e3 & HP & R4 & _); auto.
  rewrite HP. cbn [bind]. apply Forall_app in HB3 as (_ & HB3).
  apply (IH _ _ (SState (s0 ++ appended (hr_acts (beh log1))) (handler_after (hr_acts (beh log1)) (Some h)) (Some id) log1)).
  split; [exact R4|]. split; [exact HB3|]. repeat split; assumption.
Qed.

Lemma own_step_shipped beh fuel o w : tame beh -> sim coll w (view w) ->
  own_step fuel c oc beh o w = step fuel c coll beh o w.
Proof.
  intros Ht Hs. destruct o as [h| |d|a|]; cbn [own_step step]; try reflexivity.
  - unfold own_append, rx_append, er_append. rewrite as_own_capacity, !bind_assoc. reflexivity.
  - unfold own_receive_from, rx_receive_from, er_from_functor. rewrite as_own_capacity, !bind_assoc.
    apply bind_ext. intros (b, n). reflexivity.
  - unfold own_process, process_messages. rewrite (own_loop_shipped beh Ht _ _ _ _ Hs). reflexivity.
Qed.

Lemma own_start_shipped h : own_start oc h = start coll h.
Proof. unfold own_start, start, rx_init, rx_init_handler, er_init. rewrite as_own_capacity. destruct h; reflexivity. Qed.

Lemma own_shipped_lemma beh h0 ops S rs w fuel o : tame beh -> index_safe c cap ->
  history c coll beh (start coll h0) ops S rs w ->
  own_step fuel c oc beh o w = step fuel c coll beh o w.
Proof. intros Ht Hsafe H. apply own_step_shipped; [assumption|]. exact (history_sim c coll Hst Hsafe beh Ht _ _ _ _ _ H). Qed.

(** ** Sending *)
Lemma fold_add L : forall a, fold_left Z.add L a = a + zsum L.
Proof. induction L as [|x L IH]; intros a; cbn [fold_left zsum fold_right]; [lia|]. rewrite IH. unfold zsum. lia. Qed.

Lemma own_send_shipped {T} m (t : transmitter T) vs s : has_types vs (mt_fields m) = true ->
  own_send c oc m t (combine (mt_fields m) vs) s = send c coll m t (combine (mt_fields m) vs) s.
Proof.
  intros Hv. unfold own_send, send. rewrite as_own_static, Hst, contents_ok_combine by assumption. cbn [andb negb].
  rewrite as_own_types. destruct (find_index (mc_types coll) m) as [i|] eqn:Ei; [|reflexivity].
  pose proof (find_index_has_id _ _ _ Ei) as Hi. apply has_id_lt in Hi. pose proof (static_ok_elim _ Hst) as HE.
  rewrite trunc_small by (change (2 ^ 8) with 256; lia). f_equal.
  rewrite envelope_send_calls by assumption. unfold as_own, frame_calls. cbn [oc_env]. destruct (mc_env coll).
  - unfold own_basic. cbn [oe_send run_send]. rewrite !run_calls_app. cbn [run_calls run_call]. rewrite ?bind_assoc.
    change (trunc 8 SOH) with 1. change (trunc 8 STX) with 2. change (trunc 8 ETX) with 3. change (trunc 8 EOT) with 4.
    rewrite (trunc_small 8 i) by (change (2 ^ 8) with 256; lia).
    apply bind_ext. intros s1. rewrite ?bind_assoc. apply bind_ext. intros s2. rewrite ?bind_assoc.
    apply bind_ext. intros s3. cbn [bind]. unfold own_tuple. rewrite bitwise_run, run_calls_app, buffer_tuple_calls, compose_vector_calls, !bind_assoc by assumption.
    apply bind_ext. intros s4. cbn [bind fst snd run_calls run_call]. rewrite ?bind_assoc. apply bind_ext. intros s5. cbn [bind]. reflexivity.
  - unfold own_checksum. cbn [oe_send run_send]. rewrite !run_calls_app. cbn [run_calls run_call]. rewrite ?bind_assoc.
    change (trunc 8 SOH) with 1. change (trunc 8 STX) with 2. change (trunc 8 ETX) with 3. change (trunc 8 EOT) with 4.
    rewrite (trunc_small 8 i) by (change (2 ^ 8) with 256; lia).
    apply bind_ext. intros s1. rewrite ?bind_assoc. apply bind_ext. intros s2. rewrite ?bind_assoc.
    apply bind_ext. intros s3. cbn [bind]. unfold own_tuple. rewrite bitwise_run, run_calls_app, buffer_tuple_calls, compose_vector_calls, !bind_assoc by assumption.
    apply bind_ext. intros s4. cbn [bind fst snd run_calls run_call]. rewrite ?bind_assoc. apply bind_ext. intros s5. cbn [bind].
    rewrite !calls_bytes_app. unfold vector_init. cbn [app].
    rewrite fold_add, !zsum_app2. cbn [calls_bytes map concat call_bytes app zsum fold_right].
    unfold trunc. change (2 ^ 8) with 256. change SOH with 1. change STX with 2. change ETX with 3.
    match goal with |- bind (tx_byte t (?a mod 256) _) _ = bind (tx_byte t (?b mod 256) _) _ => replace a with b by (fold (zsum []); lia) end.
    reflexivity.
Qed.
End Shipped.
