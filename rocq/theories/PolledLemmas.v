(** Lemmas about processMessages interrupted in the midst of its calls on the buffer. *)
From Verif Require Import ReceiverProofs ReceiverLemmas.
From Verif Require Export TornCheckLemmas Runs.

(** Without interrupts: the functions of Receive.v. *)
Section Quiet.
Context (c : config) (coll : collection) (Hst : static_ok coll = true) (o : bool).
Local Notation cap := (capacity coll).
Let Hcap : cap_ok cap := capacity_ok coll Hst.

Lemma erb_eta e : ERB (er_id e) (er_buf e) = e.
Proof. destruct e. reflexivity. Qed.

Lemma q_empty e : tc_empty o c coll (TState e []) = Ok (rb_empty (er_buf e), TState e []).
Proof. unfold tc_empty, t_call. cbn [ts_recv ts_coming]. rewrite quiet_empty. cbn [bind]. rewrite erb_eta. reflexivity. Qed.

Lemma q_size e : tc_size o c coll (TState e []) = Ok (rb_size cap (er_buf e), TState e []).
Proof. unfold tc_size, t_call. cbn [ts_recv ts_coming]. rewrite run_size. cbn [t_run bind]. rewrite erb_eta. reflexivity. Qed.

Lemma q_at i e : tc_at o c coll i (TState e []) = (do x <- er_buffer c coll e i; Ok (x, TState e [])).
Proof.
  unfold tc_at, t_call. cbn [ts_recv ts_coming]. rewrite run_index. unfold er_buffer.
  destruct (rb_index _ _ _ _); try reflexivity. cbn [t_run bind]. rewrite erb_eta. reflexivity.
Qed.

Lemma q_pop e x X : erep coll e (x :: X) ->
  exists y e', tc_pop o c coll 1 (TState e []) = Ok (y, TState e' []) /\ er_pop_front c coll 1 e = Ok e' /\ erep coll e' X
    /\ er_id e' = er_id e.
Proof.
  intros R. destruct (er_pop_front_spec c coll Hst e [x] X 1 R eq_refl) as (e' & E & R' & I); [discriminate|].
  unfold tc_pop, t_call. cbn [ts_recv ts_coming]. rewrite quiet_pop_front. unfold er_pop_front in E |- *.
  destruct (rb_pop_front c cap (to_sz cap 1) (er_buf e)) as [[b y]| | | |]; try discriminate. cbn [bind] in E |- *. injection E as <-.
  exists y, (ERB (er_id e) b). auto.
Qed.

Lemma q_skip : forall X e f1 f2, erep coll e X -> (length X < f1)%nat -> (length X < f2)%nat ->
  tc_skip f1 o c coll (TState e []) = (do e' <- skip_to_soh f2 c coll e; Ok (TState e' [])).
Proof.
  induction X as [|x X IH]; intros e [|f1] [|f2] R H1 H2; try lia; cbn [tc_skip skip_to_soh]; rewrite q_empty; cbn [bind];
    rewrite (rep_empty _ _ _ R); [reflexivity|].
  rewrite q_at. unfold er_buffer. assert (to_sz cap 0 = 0) as ->.
  { apply (to_sz_small _ Hcap). unfold cap_ok in Hcap. lia. }
  change (rb_index c cap (er_buf e) 0) with (rb_front c cap (er_buf e)).
  rewrite (rep_front c _ Hcap _ _ _ R). cbn [bind]. destruct (x =? SOH); [reflexivity|].
  destruct (q_pop e x X R) as (y & e' & -> & -> & R' & _). cbn [bind]. cbn [length] in *. apply IH; [assumption | lia | lia].
Qed.

Lemma q_checksum n : forall e i ck,
  tc_checksum_loop n o c coll i ck (TState e []) = (do r <- checksum_loop n c coll e i ck; Ok (r, TState e [])).
Proof.
  induction n as [|n IH]; intros e i ck; cbn [tc_checksum_loop checksum_loop]; [reflexivity|].
  rewrite q_at. destruct (er_buffer c coll e i); try reflexivity. cbn [bind].
  destruct (tx_byte checksum_tx a ck); try reflexivity. cbn [bind]. apply IH.
Qed.

Lemma q_trailer len e : tc_trailer o c coll len (TState e []) = (do ok <- trailer c coll e len; Ok (ok, TState e [])).
Proof.
  unfold tc_trailer, trailer. destruct (mc_env coll).
  - unfold basic_trailer. rewrite q_at. destruct (er_buffer c coll e (len - 2)); try reflexivity. cbn [bind].
    destruct (negb (a =? ETX)); [reflexivity|]. rewrite q_at. destruct (er_buffer c coll e (len - 1)); reflexivity.
  - unfold checksum_trailer. rewrite q_at. destruct (er_buffer c coll e (len - 3)); try reflexivity. cbn [bind].
    destruct (negb (a =? ETX)); [reflexivity|]. rewrite q_at. destruct (er_buffer c coll e (len - 1)); try reflexivity. cbn [bind].
    destruct (negb (a0 =? EOT)); [reflexivity|]. rewrite q_checksum. destruct (checksum_loop _ _ _ _ _ _); try reflexivity. cbn [bind].
    rewrite q_at. destruct (er_buffer c coll e (len - 2)); reflexivity.
Qed.

Lemma q_retry chk1 chk2 e X : erep coll e X ->
  (forall e' x X', X = x :: X' -> erep coll e' X' ->
     chk1 (TState e' []) = (do (ok, e2) <- chk2 e'; Ok (ok, TState e2 []))) ->
  tc_pop_and_retry o c coll chk1 (TState e []) = (do (ok, e2) <- pop_and_retry c coll chk2 e; Ok (ok, TState e2 [])).
Proof.
  intros R H. unfold tc_pop_and_retry, pop_and_retry. rewrite q_empty. cbn [bind].
  assert (match mode c with
          | Disabled => Ok (TState e [])
          | _ => do _ <- assert_ c (negb (rb_empty (er_buf e))); Ok (TState e [])
          end = (do _ <- assert_ c (negb (rb_empty (er_buf e))); Ok (TState e []))) as ->.
  { unfold assert_, aborts. destruct (mode c); reflexivity. }
  destruct (assert_ c (negb (rb_empty (er_buf e)))); try reflexivity. cbn [bind]. rewrite q_empty. cbn [bind].
  rewrite (rep_empty _ _ _ R). destruct X as [|x X]; [reflexivity|].
  destruct (q_pop e x X R) as (y & e' & -> & -> & R' & _). cbn [bind]. exact (H e' x X eq_refl R').
Qed.

Lemma q_check f1 : forall f2 e X, erep coll e X -> (length X < f1)%nat -> (length X < f2)%nat ->
  tc_check f1 o c coll (TState e []) = (do (ok, e') <- check_fuel f2 c coll e; Ok (ok, TState e' [])).
Proof.
  induction f1 as [|f1 IH]; intros [|f2] e X R H1 H2; try lia. cbn [tc_check check_fuel]. cbv zeta.
  assert (S (Z.to_nat (rb_size cap (er_buf e))) = S (length X)) as ->.
  { rewrite (rep_size _ Hcap _ _ R). unfold zlen. rewrite Nat2Z.id. reflexivity. }
  rewrite (q_skip X e (S f1) (S (length X)) R) by lia.
  destruct (skip_to_soh_spec c coll Hst (S (length X)) e X R) as (e1 & Y & -> & R1 & _ & _ & (K & EK) & _); [lia|]. cbn [bind].
  rewrite q_size. cbn [bind]. destruct (rb_size cap (er_buf e1) <? 2); [reflexivity|].
  rewrite q_at. destruct (er_buffer c coll e1 1) as [b1| | | |]; try reflexivity. cbn [bind ts_recv ts_coming].
  assert (forall e2, er_buf e2 = er_buf e1 ->
    tc_pop_and_retry o c coll (tc_check f1 o c coll) (TState e2 [])
    = (do (ok, e3) <- pop_and_retry c coll (check_fuel f2 c coll) e2; Ok (ok, TState e3 []))) as HR.
  { intros e2 EB. apply q_retry with (X := Y); [unfold erep; rewrite EB; exact R1|].
    intros e' x X' EX R'. apply IH with (X := X'); [exact R'| |]; subst Y; rewrite EK, app_length in H1, H2; cbn [length] in H1, H2; lia. }
  destruct (negb (er_id_valid (er_set_id coll b1 e1))); [apply HR; reflexivity|].
  rewrite q_size. cbn [bind]. destruct (rb_size cap (er_buf (er_set_id coll b1 e1)) <? 3); [reflexivity|].
  rewrite q_at. destruct (er_buffer c coll (er_set_id coll b1 e1) 2) as [b2| | | |]; try reflexivity. cbn [bind ts_recv ts_coming].
  destruct (negb (b2 =? STX)); [apply HR; reflexivity|].
  destruct (er_message_length c coll (er_set_id coll b1 e1)) as [len| | | |]; try reflexivity. cbn [bind].
  rewrite q_size. cbn [bind]. destruct (rb_size cap (er_buf (er_set_id coll b1 e1)) <? len); [reflexivity|].
  rewrite q_trailer. destruct (trailer c coll (er_set_id coll b1 e1) len) as [ok| | | |]; try reflexivity. cbn [bind].
  destruct ok; [reflexivity|]. apply HR. reflexivity.
Qed.

Lemma q_check_all steps e X : erep coll e X -> (Z.to_nat cap < steps)%nat ->
  tc_check steps o c coll (TState e []) = (do (ok, e') <- check c coll e; Ok (ok, TState e' [])).
Proof.
  intros R Hs. pose proof (rep_size_le _ _ _ R) as Hle. unfold check.
  rewrite (rep_size _ Hcap _ _ R). apply q_check with (X := X); [exact R | unfold zlen in *; lia | unfold zlen; lia].
Qed.

Lemma q_interrupt e : tc_interrupt c coll (TState e []) = Ok (TState e []).
Proof. unfold tc_interrupt. cbn [ts_coming ts_recv hd tl t_interrupt bind]. rewrite erb_eta. reflexivity. Qed.

Lemma q_bytes e n : forall pos, 0 <= pos -> pos + Z.of_nat n <= zlen (rb_contents (er_buf e)) ->
  tc_bytes n c coll pos (TState e []) = Ok (arr_slice (rb_contents (er_buf e)) pos (pos + Z.of_nat n), TState e []).
Proof.
  set (l := rb_contents (er_buf e)). induction n as [|n IH]; intros pos Hp Hn; cbn [tc_bytes].
  - unfold arr_slice. replace (pos + Z.of_nat 0 - pos) with 0 by lia. reflexivity.
  - rewrite q_interrupt. cbn [bind ts_recv]. fold l. rewrite IH by lia. cbn [bind]. do 2 f_equal. unfold arr_slice, arr_get.
    replace (Z.to_nat (pos + Z.of_nat (S n) - pos)) with (S n) by lia.
    replace (Z.to_nat (pos + 1 + Z.of_nat n - (pos + 1))) with n by lia.
    replace (Z.to_nat (pos + 1)) with (S (Z.to_nat pos)) by lia.
    assert (Z.to_nat pos < length l)%nat as Hlt by (unfold zlen in Hn; lia). clear IH Hp Hn. revert Hlt. generalize (Z.to_nat pos).
    induction l as [|x l IHl]; intros k Hk; cbn [length] in Hk; [lia|]. destruct k as [|k]; [reflexivity|]. cbn [skipn nth]. apply IHl. lia.
Qed.

Lemma q_fields e : zlen (rb_contents (er_buf e)) = cap -> forall ts pos acc,
  tc_fields c coll ts pos acc (TState e []) = (do vs <- deserialize c cap (rb_contents (er_buf e)) ts pos acc; Ok (vs, TState e [])).
Proof.
  intros HL. induction ts as [|t ts IH]; intros pos acc; cbn [tc_fields deserialize]; [reflexivity|]. unfold unbuffer. cbv zeta.
  destruct (range_ok cap pos (pos + Z.of_nat (fsize t))) eqn:E; [|reflexivity].
  unfold range_ok in E. apply andb_true_iff in E as (E & E3). apply andb_true_iff in E as (E1 & E2). apply Z.leb_le in E1, E3.
  rewrite q_bytes by lia. cbn [bind]. destruct (decode c t _); [|reflexivity]. cbn [bind]. apply IH.
Qed.

Lemma q_deserialize e X id m : erep coll e X -> has_id coll m id ->
  tc_deserialize c coll id (TState e []) = (do x <- deserialize_message c coll e id; Ok (x, TState e [])).
Proof.
  intros R Hm. unfold tc_deserialize, deserialize_message. rewrite q_interrupt. cbn [bind ts_recv].
  destruct (cap <? rb_begin (er_buf e) + data_offset (mc_env coll)); [reflexivity|].
  assert (zlen (mc_types coll) < 2 ^ 64) as Hn by (destruct (static_ok_elim _ Hst) as (Hn & _); unfold message_count in Hn; lia).
  rewrite !(apply_at_spec _ id _ _ m) by (try exact Hn; apply Hm).
  rewrite q_fields.
  - destruct (deserialize _ _ _ _ _ _); reflexivity.
  - destruct R as (A & B & -> & HA & HE & HL). rewrite !zlen_app. lia.
Qed.

Lemma q_pop_message steps e X : (Z.to_nat cap < steps)%nat -> erep coll e X ->
  tc_pop_message steps o c coll (TState e []) = (do e' <- er_pop_message c coll e; Ok (TState e' [])).
Proof.
  intros Hk R. unfold tc_pop_message, er_pop_message.
  assert (forall e1,
    (do len <- er_message_length c coll (ts_recv (TState e1 [])); do (_, s0) <- tc_pop o c coll len (TState e1 []);
     Ok (TState (ERB None (er_buf (ts_recv s0))) (ts_coming s0)))
    = (do e' <- (do len <- er_message_length c coll e1; do e2 <- er_pop_front c coll len e1; Ok (ERB None (er_buf e2))); Ok (TState e' []))) as HP.
  { intros e1. cbn [ts_recv]. destruct (er_message_length c coll e1) as [len| | | |]; try reflexivity. cbn [bind].
    unfold tc_pop, t_call. cbn [ts_recv ts_coming]. rewrite quiet_pop_front. unfold er_pop_front.
    destruct (rb_pop_front c cap (to_sz cap len) (er_buf e1)) as [[b y]| | | |]; reflexivity. }
  destruct (mode c).
  - cbn [bind]. apply HP.
  - rewrite (q_check_all steps _ _ R Hk). destruct (check c coll e) as [[[|] e1]| | | |]; try reflexivity. cbn [bind]. apply HP.
  - rewrite (q_check_all steps _ _ R Hk). destruct (check c coll e) as [[ok e1]| | | |]; try reflexivity. cbn [bind]. apply HP.
Qed.

Lemma q_loop beh steps : tame beh -> (Z.to_nat cap < steps)%nat -> forall fuel n w s, sim coll w s ->
  t_loop fuel steps o c coll beh n w [] = (do (w', p) <- process_loop fuel c coll beh n w; Ok (w', p, [])).
Proof.
  intros Ht Hk. induction fuel as [|fuel IH]; intros n w s Hs; [reflexivity|]. cbn [t_loop process_loop].
  pose proof Hs as (R0 & _). rewrite (q_check_all steps _ _ R0 Hk).
  destruct (check_sim c coll Hst w s Hs) as (ok & e & Y & -> & HS & Hs1 & HY). cbn [bind ts_recv ts_coming].
  destruct s as [X h last log]. cbn [s_bytes s_handler s_last s_log] in *.
  destruct ok; cbn [negb]; [|reflexivity].
  destruct HY as (f & m & id & pl & s0 & -> & F & Hid).
  unfold er_current_id. rewrite Hid. cbn [bind].
  set (w1 := w_set_last id (w_set_recv e w)).
  assert (sim coll w1 (SState (f ++ s0) h (Some id) log)) as Hs2.
  { destruct Hs1 as (A1 & A2 & A3 & A4 & A5 & A6). repeat split; auto. }
  assert (rx_recv (w_rx w1) = e) as He by reflexivity.
  unfold t_invoke, invoke.
  pose proof Hs2 as (R & HB & Hf & Hi & Hl & Hlog). cbn [s_bytes s_handler s_last s_log] in *.
  rewrite Hf, Hi. destruct h as [h|]; cbn [option_map]; [|reflexivity].
  rewrite Z.eqb_refl. cbn [negb].
  rewrite (q_deserialize _ _ id m R (proj1 F)).
  destruct (deserialize_message c coll (rx_recv (w_rx w1)) id) as [x| | | |] eqn:D; try reflexivity.
  cbn [bind].
  destruct (deserialize_message_sound c coll Hst _ _ _ _ _ _ _ R F HB D) as (vs & -> & E).
  cbn [ts_recv ts_coming]. change (w_set_recv (rx_recv (w_rx w1)) w1) with w1.
  rewrite Hlog. set (log1 := log ++ [Delivery h m vs]) in *.
  destruct (run_acts c coll _ (hr_acts (beh log1)) (World (w_rx w1) log1)) as [[w2 t]| | | |] eqn:RA;
    try reflexivity. cbn [bind].
  eapply (run_acts_sound c coll Hst _ _ (Ht log1)) with (X := f ++ s0) (h := Some h) (last := Some id) (log := log1) in RA.
  2:{ repeat split; auto. }
  destruct RA as (-> & Hs3 & Hid2). cbn [orb]. cbn [w_rx] in Hid2. rewrite He, Hid in Hid2.
  rewrite <- app_assoc in Hs3.
  destruct (hr_throws (beh log1)) eqn:HT; [reflexivity|].
  pose proof Hs3 as (R3 & HB3 & Hf3 & Hi3 & Hl3 & Hlog3). cbn [s_bytes s_handler s_last s_log] in *.
  rewrite (q_pop_message steps _ _ Hk R3).
  destruct (pop_message_spec c coll Hst (rx_recv (w_rx w2)) f m id pl (s0 ++ appended (hr_acts (beh log1))))
    as (e3 & -> & R4 & _); auto.
  cbn [bind ts_recv ts_coming]. eapply IH with (s := SState (s0 ++ appended (hr_acts (beh log1))) (handler_after (hr_acts (beh log1)) (Some h)) (Some id) log1).
  split; [exact R4|]. apply Forall_app in HB3 as [_ HB3]. repeat split; auto.
Qed.
End Quiet.

Lemma quiet_process c coll : static_ok coll = true -> index_safe c (capacity coll) ->
  forall beh h0 ops S rs w o fuel steps, tame beh -> history c coll beh (start coll h0) ops S rs w ->
  (Z.to_nat (capacity coll) < steps)%nat ->
  t_process fuel steps o c coll beh w [] = (do (w', p) <- process_messages fuel c coll beh w; Ok (w', p, [])).
Proof.
  intros Hst Hsafe beh h0 ops S rs w o fuel steps Ht H Hk. unfold t_process, process_messages.
  destruct (negb (rx_has_handler (w_rx w))); [reflexivity|].
  apply q_loop with (s := view w); try assumption. exact (history_sim c coll Hst Hsafe beh Ht _ _ _ _ _ H).
Qed.

(** What the uninterrupted check finds, the interrupted one does. *)
Lemma found_lemma c coll : static_ok coll = true -> index_safe c (capacity coll) ->
  forall beh h0 ops S rs w o steps e coming, tame beh -> history c coll beh (start coll h0) ops S rs w ->
  check c coll (rx_recv (w_rx w)) = Ok (true, e) ->
  bytes_ok (concat coming) -> rb_pastEnd (er_buf (rx_recv (w_rx w))) + zlen (concat coming) <= capacity coll ->
  (Z.to_nat (capacity coll) < steps)%nat ->
  exists e' used rest,
    tc_check steps o c coll (TState (rx_recv (w_rx w)) coming) = Ok (true, TState e' rest)
    /\ coming = used ++ rest /\ er_id e' = er_id e
    /\ held (w_set_recv e' w) = held (w_set_recv e w) ++ concat used.
Proof.
  intros Hst Hsafe beh h0 ops S rs w o steps e coming Ht H HC HB Hr Hk.
  pose proof (history_sim c coll Hst Hsafe beh Ht _ _ _ _ _ H) as Hs.
  destruct (check_sim c coll Hst w _ Hs) as (ok & e1 & Y & HC1 & HS & Hs1 & HY).
  assert (ok = true /\ e1 = e) as (-> & ->) by (split; congruence).
  destruct HY as (f & m & id & p & r & -> & F & Hid).
  pose proof Hs as (R & HBX & _).
  assert (exists K, s_bytes (view w) = K ++ f ++ r) as (K & EK).
  { clear - HS. induction HS as [s|b s s' D _ (K & ->)]; [exists []; reflexivity|exists (b :: K); reflexivity]. }
  destruct (tc_check_found c coll Hst Hsafe o f m id p F steps (TState (rx_recv (w_rx w)) coming) K r) as ([e' rest] & u & -> & HT & EC & I').
  { rewrite EK in *. split; [|exact HS]. split; [exact R|]. split; [exact Hr|]. split; [exact HBX | exact HB]. }
  { pose proof (rep_size_le _ _ _ R) as Hle. rewrite EK, zlen_app in Hle. unfold zlen in Hle. lia. }
  cbn [ts_recv ts_coming] in *. exists e', u, rest. split; [reflexivity|]. split; [exact EC|]. split; [congruence|].
  destruct HT as (R' & _). destruct Hs1 as (R1 & _). cbn [s_bytes] in R1.
  rewrite (rep_bytes _ _ _ R' : held (w_set_recv e' w) = _), (rep_bytes _ _ _ R1 : held (w_set_recv e w) = _), <- app_assoc. reflexivity.
Qed.

(** One byte that comes while size() of an empty buffer is asked for. *)
Section One.
Context (c : config) (coll : collection) (Hst : static_ok coll = true) (Hsafe : index_safe c (capacity coll)) (o : bool).
Local Notation cap := (capacity coll).
Let Hcap : cap_ok cap := capacity_ok coll Hst.

Lemma push_empty b x : rep cap b [] ->
  exists b', rb_push_range c cap [x] b = Ok b' /\ rep cap b' [x] /\ rb_begin b' = 0 /\ rb_pastEnd b' = 1
    /\ arr_get (rb_contents b') 1 = arr_get (rb_contents b) 1.
Proof.
  intros R. pose proof Hcap as Hc. unfold cap_ok in Hc. pose proof (rep_clear cap b [] R) as R0.
  unfold rb_push_range, rb_ensure_space. rewrite (rep_empty cap b [] R). change (zlen [x]) with 1. cbn [rb_pastEnd].
  rewrite (to_sz_small cap Hcap) by lia. rewrite (promoted_add_exact c cap Hsafe) by lia.
  rewrite (proj2 (Z.leb_le _ _)) by lia. cbn [bind rb_pastEnd rb_begin rb_contents].
  rewrite (proj2 (Z.leb_le _ _)) by lia. rewrite (to_sz_small cap Hcap) by lia.
  pose proof (rep_write_end cap (rb_clear b) [] [x] R0) as R2. unfold rb_clear in R2. cbn [rb_pastEnd rb_begin rb_contents] in R2.
  change (zlen [x]) with 1 in R2. specialize (R2 ltac:(lia)).
  rewrite (rep_verify c cap _ _ R2). cbn [bind]. eexists. split; [reflexivity|]. split; [exact R2|].
  split; [reflexivity|]. split; [reflexivity|]. cbn [rb_contents]. unfold arr_write, arr_get. cbn [Z.to_nat firstn app].
  destruct (rb_contents b); reflexivity.
Qed.

Lemma to_sz_negative k : 2 <= k <= cap -> 2 <= to_sz cap (1 - k).
Proof.
  intros Hk. unfold to_sz, trunc, size_bits. pose proof (uint_least_bits_bound cap) as B. unfold cap_ok in Hcap.
  rewrite <- (Z.mod_unique (1 - k) (2 ^ uint_least_bits cap) (-1) (2 ^ uint_least_bits cap + 1 - k)); lia.
Qed.

(** The first rounds: what size() says then. *)
Lemma one_size steps e x : erep coll e [] -> 2 <= rb_begin (er_buf e) ->
  exists n b', (do s <- tc_skip (S steps) o c coll (TState e [[]; []; []; [x]]); tc_size o c coll s) = Ok (n, TState (ERB (er_id e) b') [])
    /\ 2 <= n /\ rep cap b' [x] /\ rb_begin b' = 0 /\ rb_pastEnd b' = 1
    /\ arr_get (rb_contents b') 1 = arr_get (rb_contents (er_buf e)) 1.
Proof.
  intros R Hb. destruct (push_empty (er_buf e) x R) as (b' & E & R' & B1 & B2 & B3).
  pose proof R as (A & B & _ & HA & HE & HL). change (zlen (@nil Z)) with 0 in *. pose proof (zlen_nonneg B).
  assert (rb_pastEnd (er_buf e) = rb_begin (er_buf e)) as EE by lia.
  cbn [tc_skip]. unfold tc_empty, tc_size, t_call, t_empty, t_size, t_both. cbn [ts_recv ts_coming].
  destruct o; cbn [Bool.eqb t_run hd tl t_interrupt bind ts_recv ts_coming er_buf er_id]; rewrite EE, Z.eqb_refl;
    cbn [t_run hd tl t_interrupt bind ts_recv ts_coming er_buf er_id]; rewrite E;
    cbn [t_run hd tl t_interrupt bind ts_recv ts_coming er_buf er_id]; rewrite ?B1, ?B2, ?EE;
    (eexists; eexists; split; [reflexivity|]; split; [|auto]).
  - rewrite Z.sub_0_r, (to_sz_small cap Hcap) by lia. lia.
  - apply to_sz_negative. lia.
Qed.

Lemma one_abort steps e x : mode c = Aborting -> erep coll e [] -> 2 <= rb_begin (er_buf e) ->
  tc_check (S steps) o c coll (TState e [[]; []; []; [x]]) = AssertFail.
Proof.
  intros Hm R Hb. destruct (one_size steps e x R Hb) as (n & b' & E & Hn & R' & B1 & B2 & _). unfold tc_check; fold tc_check.
  destruct (tc_skip (S steps) o c coll (TState e [[]; []; []; [x]])) as [s| | | |]; try discriminate. cbn [bind] in E |- *.
  rewrite E. cbn [bind]. rewrite (proj2 (Z.ltb_ge _ _)) by lia. rewrite q_at. unfold er_buffer, rb_index. cbn [er_buf].
  pose proof (rep_size cap Hcap _ _ R') as HS. unfold cap_ok in Hcap.
  pose proof R as (A & B & _ & HA & HE & HL). change (zlen (@nil Z)) with 0 in *. pose proof (zlen_nonneg B).
  rewrite (to_sz_small cap Hcap) by lia. unfold rb_ref. rewrite HS. change (1 <? zlen [x]) with false. unfold assert_, aborts. rewrite Hm. reflexivity.
Qed.

Lemma one_lost steps e x : mode c = Disabled -> erep coll e [] -> 2 <= rb_begin (er_buf e) ->
  zlen (mc_types coll) <= arr_get (rb_contents (er_buf e)) 1 ->
  exists e', tc_check (S (S steps)) o c coll (TState e [[]; []; []; [x]]) = Ok (false, TState e' []) /\ erep coll e' [].
Proof.
  intros Hm R Hb Hid. remember (S steps) as k eqn:Ek.
  destruct (one_size k e x R Hb) as (n & b' & E & Hn & R' & B1 & B2 & B3). cbn [tc_check].
  destruct (tc_skip (S k) o c coll (TState e [[]; []; []; [x]])) as [s| | | |]; try discriminate. cbn [bind] in E |- *.
  rewrite E. cbn [bind]. rewrite (proj2 (Z.ltb_ge _ _)) by lia.
  assert (2 <= cap) as H2.
  { pose proof R as (A & B & _ & HA & HE & HL). change (zlen (@nil Z)) with 0 in *. pose proof (zlen_nonneg B). lia. }
  assert (tc_at o c coll 1 (TState (ERB (er_id e) b') []) = Ok (arr_get (rb_contents (er_buf e)) 1, TState (ERB (er_id e) b') [])) as ->.
  { rewrite q_at. unfold er_buffer, rb_index. cbn [er_buf]. rewrite (to_sz_small cap Hcap) by lia.
    unfold rb_ref, rb_adjusted_index, assert_, aborts. rewrite Hm, B1. cbn [bind stops]. rewrite (to_sz_small cap Hcap) by lia.
    unfold array_check. rewrite (proj2 (Z.leb_le _ _)), (proj2 (Z.ltb_lt _ _)) by lia. cbn [andb bind]. change (0 + 1) with 1. rewrite B3. reflexivity. }
  cbn [bind ts_recv ts_coming]. set (id := arr_get (rb_contents (er_buf e)) 1) in *.
  assert (is_id_valid coll id = false) as Hv by (unfold is_id_valid; apply Z.ltb_ge; exact Hid).
  unfold er_set_id. rewrite Hv. cbn [er_id_valid er_id negb er_buf].
  unfold tc_pop_and_retry. rewrite Hm. cbn [bind]. rewrite q_empty. cbn [bind er_buf]. rewrite (rep_empty _ _ _ R').
  destruct (q_pop c coll Hst o (ERB None b') x [] R') as (y & e' & -> & _ & R2 & _). cbn [bind].
  exists e'. split; [|exact R2]. rewrite (q_check c coll Hst o k 1 e' [] R2) by (cbn [length]; lia).
  cbn [check_fuel]. cbv zeta. rewrite (rep_size cap Hcap _ _ R2). change (Z.to_nat (zlen (@nil Z))) with 0%nat.
  cbn [skip_to_soh]. rewrite (rep_empty _ _ _ R2). cbn [bind]. rewrite (rep_size cap Hcap _ _ R2). reflexivity.
Qed.
End One.

Lemma abort_lemma c coll : static_ok coll = true -> index_safe c (capacity coll) -> mode c = Aborting ->
  forall beh h0 ops S1 rs w o fuel steps x, tame beh -> history c coll beh (start coll h0) ops S1 rs w ->
  rx_has_handler (w_rx w) = true -> held w = [] -> 2 <= rb_begin (er_buf (rx_recv (w_rx w))) ->
  t_process (S fuel) (S steps) o c coll beh w [[]; []; []; [x]] = AssertFail.
Proof.
  intros Hst Hsafe Hm beh h0 ops S1 rs w o fuel steps x Ht H Hh He Hb.
  pose proof (history_sim c coll Hst Hsafe beh Ht _ _ _ _ _ H) as (R & _). cbn [view s_bytes] in R. rewrite He in R.
  unfold t_process. rewrite Hh. cbn [negb t_loop]. rewrite (one_abort c coll Hst Hsafe o steps _ x Hm R Hb). reflexivity.
Qed.

Lemma lost_lemma c coll : static_ok coll = true -> index_safe c (capacity coll) -> mode c = Disabled ->
  forall beh h0 ops S1 rs w o fuel steps x, tame beh -> history c coll beh (start coll h0) ops S1 rs w ->
  rx_has_handler (w_rx w) = true -> held w = [] -> 2 <= rb_begin (er_buf (rx_recv (w_rx w))) ->
  zlen (mc_types coll) <= nth 1 (rb_contents (er_buf (rx_recv (w_rx w)))) 0 ->
  exists w', t_process (S fuel) (S (S steps)) o c coll beh w [[]; []; []; [x]] = Ok (w', Returned 0, [])
    /\ held w' = [] /\ w_log w' = w_log w.
Proof.
  intros Hst Hsafe Hm beh h0 ops S1 rs w o fuel steps x Ht H Hh He Hb Hid.
  pose proof (history_sim c coll Hst Hsafe beh Ht _ _ _ _ _ H) as (R & _). cbn [view s_bytes] in R. rewrite He in R.
  destruct (one_lost c coll Hst Hsafe o steps _ x Hm R Hb Hid) as (e' & E & R').
  unfold t_process. rewrite Hh. cbn [negb t_loop]. rewrite E. cbn [bind ts_recv ts_coming negb].
  eexists. split; [reflexivity|]. split; [exact (rep_bytes _ _ _ R') | reflexivity].
Qed.

(** On the messages of the tests. *)
Lemma abort_witness o : exists rs w,
  history (desktop true) test_basic quiet (start test_basic (Some hd1)) [OpAppend [9; 9]; OpProcess] [9; 9] rs w
  /\ held w = [] /\ t_process 10 100 o (desktop true) test_basic quiet w [[]; []; []; [1]] = AssertFail.
Proof.
  do 2 eexists. split; [apply (checked_history 60); vm_compute; reflexivity|]. split; [vm_compute; reflexivity|].
  destruct o; vm_compute; reflexivity.
Qed.

Lemma lost_witness o : exists rs w w1 S2 rs2 w2 v,
  history (desktop false) test_basic quiet (start test_basic (Some hd1)) [OpAppend [9; 9]; OpProcess] [9; 9] rs w
  /\ t_process 10 100 o (desktop false) test_basic quiet w [[]; []; []; [1]] = Ok (w1, Returned 0, [])
  /\ history (desktop false) test_basic quiet w1 [OpAppend [1; 2; 10; 20; 30; 3; 4]; OpProcess] S2 rs2 w2
  /\ w_log w2 = []
  /\ processed (desktop false) test_basic quiet (Some hd1) [9; 9; 1; 1; 2; 10; 20; 30; 3; 4] v
  /\ map content (w_log v) = [(MessageB, map VInt [10; 20; 30])].
Proof.
  do 7 eexists. split; [apply (checked_history 60); vm_compute; reflexivity|].
  split; [destruct o; vm_compute; reflexivity|].
  split; [apply (checked_history 60); vm_compute; reflexivity|]. split; [vm_compute; reflexivity|].
  split; [|].
  - apply (outcome_processed 60) with (ops := [OpAppend [9; 9; 1; 1; 2; 10; 20; 30; 3; 4]]) (n := 1). vm_compute. reflexivity.
  - vm_compute. reflexivity.
Qed.

(** An interrupt while a byte is removed, for whose bytes the contents have to be moved. *)
Lemma moved_witness o : exists n rs w w1 v,
  history (desktop false) test_basic quiet (start test_basic (Some hd1))
    [OpAppend (repeat 9 20 ++ [1; 5; 2]); OpProcess; OpAppend (repeat 9 11 ++ [1; 1; 2; 10; 20; 30; 3; 4])]
    (repeat 9 20 ++ [1; 5; 2] ++ repeat 9 11 ++ [1; 1; 2; 10; 20; 30; 3; 4]) rs w
  /\ zlen (held w) + 10 <= capacity test_basic
  /\ t_process 10 100 o (desktop false) test_basic quiet w (repeat [] n ++ [repeat 9 10]) = Ok (w1, Returned 0, [])
  /\ w_log w1 = [] /\ held w1 = []
  /\ processed (desktop false) test_basic quiet (Some hd1)
       (repeat 9 20 ++ [1; 5; 2] ++ repeat 9 11 ++ [1; 1; 2; 10; 20; 30; 3; 4] ++ repeat 9 10) v
  /\ map content (w_log v) = [(MessageB, map VInt [10; 20; 30])].
Proof.
  exists 21%nat. do 4 eexists. split; [apply (checked_history 60); vm_compute; reflexivity|].
  split; [apply Z.leb_le; vm_compute; reflexivity|].
  split; [destruct o; vm_compute; reflexivity|]. split; [vm_compute; reflexivity|]. split; [vm_compute; reflexivity|].
  split.
  - apply (outcome_processed 60) with
      (ops := [OpAppend (repeat 9 20 ++ [1; 5; 2]); OpProcess; OpAppend (repeat 9 11 ++ [1; 1; 2; 10; 20; 30; 3; 4]);
               OpAppend (repeat 9 10)]) (n := 1). vm_compute. reflexivity.
  - vm_compute. reflexivity.
Qed.
