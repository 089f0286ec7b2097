(** Lemmas about single operations, handlers, counts, ids and copies. *)
From Verif Require Export DeliveryLemmas.

Section Ops.
Context (c : config) (coll : collection).
Hypothesis Hst : static_ok coll = true.
Hypothesis Hsafe : index_safe c (capacity coll).

(** C19 *)
Lemma space_lemma beh h0 ops S rs w : tame beh -> history c coll beh (start coll h0) ops S rs w ->
  rx_available coll (w_rx w) = capacity coll - zlen (held w)
  /\ 0 <= rx_available coll (w_rx w)
  /\ (forall d, bytes_ok d -> zlen d <= rx_available coll (w_rx w) ->
        forall fuel, exists w', step fuel c coll beh (OpAppend d) w = Ok (w', RetUnit)
          /\ held w' = held w ++ d /\ w_log w' = w_log w
          /\ rx_available coll (w_rx w') = rx_available coll (w_rx w) - zlen d)
  /\ (forall d, rx_available coll (w_rx w) < zlen d ->
        forall fuel w' r, step fuel c coll beh (OpAppend d) w <> Ok (w', r)).
Proof.
  intros Ht H. pose proof (history_sim c coll Hst Hsafe beh Ht _ _ _ _ _ H) as Hs.
  pose proof (sim_available coll Hst _ _ Hs) as HA. cbn [view s_bytes] in HA.
  assert (zlen (held w) <= capacity coll) as Hle. { destruct Hs as (R & _). exact (rep_size_le _ _ _ R). }
  split; [assumption|]. split; [lia|]. split.
  - intros d Hd Hfit fuel.
    assert (allowed coll (OpAppend d) w) as Hal by (split; assumption).
    assert (Step coll (little c) beh (OpAppend d) (view w) d
              (SState (held w ++ d) (rx_functor (w_rx w)) (rx_last_id (w_rx w)) (w_log w)) RetUnit) as HS.
    { apply step_append. lia. }
    destruct (step_complete c coll Hst beh (Datatypes.S O) (OpAppend d) w _ _ _ _ Ht Hsafe Hs Hal HS) as (w' & E & Hs').
    { cbn [view s_log]. lia. }
    exists w'. split; [exact E|]. pose proof (sim_held _ _ _ Hs') as E1. pose proof (sim_log _ _ _ Hs') as E2.
    cbn [s_bytes s_log] in *. pose proof (sim_available coll Hst _ _ Hs') as HA'. cbn [s_bytes] in HA'.
    rewrite zlen_app in HA'. conj; [congruence | congruence | lia].
  - intros d Hfit fuel w' r E. cbn [step] in E. unfold rx_append, er_append in E.
    destruct (rb_push_range c (capacity coll) d (er_buf (rx_recv (w_rx w)))) as [b'| | | |] eqn:Ep; try discriminate.
    destruct Hs as (R & _).
    destruct (push_range_sound c _ (capacity_ok coll Hst) _ (held w) _ _ R Ep) as (Hx & _). lia.
Qed.

(** C23 *)
Lemma receive_lemma beh h0 ops S rs w a fuel : tame beh -> history c coll beh (start coll h0) ops S rs w ->
  let n := Z.min (ad_available a mod 256) (rx_available coll (w_rx w)) in
  let d := fst (ad_read a n) in
  0 <= n <= 255 /\ n <= rx_available coll (w_rx w)
  /\ (adapter_ok_at a n ->
      exists w', step fuel c coll beh (OpReceive a) w = Ok (w', RetCount (zlen d))
        /\ held w' = held w ++ d /\ w_log w' = w_log w /\ rx_last_id (w_rx w') = rx_last_id (w_rx w)
        /\ rx_functor (w_rx w') = rx_functor (w_rx w)).
Proof.
  intros Ht H n d. pose proof (history_sim c coll Hst Hsafe beh Ht _ _ _ _ _ H) as Hs.
  pose proof (sim_available coll Hst _ _ Hs) as HA. cbn [view s_bytes] in HA.
  assert (zlen (held w) <= capacity coll) as Hle. { destruct Hs as (R & _). exact (rep_size_le _ _ _ R). }
  pose proof (Z.mod_pos_bound (ad_available a) 256 eq_refl).
  split; [subst n; lia|]. split; [subst n; lia|]. intros Ha.
  assert (n = Z.min (ad_available a mod 256) (capacity coll - zlen (s_bytes (view w)))) as En.
  { subst n. rewrite HA. reflexivity. }
  rewrite En in Ha. destruct (receive_sim_at c coll Hst a w (view w) Hsafe Hs Ha) as (r & E & Hs').
  cbn [step]. rewrite E. rewrite <- En in *. fold d in Hs'. cbn [bind]. eexists. split; [reflexivity|].
  pose proof (sim_held _ _ _ Hs') as E1. pose proof (sim_log _ _ _ Hs') as E2.
  pose proof (sim_last _ _ _ Hs') as E3. pose proof (sim_functor _ _ _ Hs') as E4.
  cbn [s_bytes s_log s_last s_handler view] in *. conj; congruence.
Qed.

(** C35 *)
Lemma count_lemma beh h0 ops S rs w w' k : tame beh -> history c coll beh (start coll h0) ops S rs w ->
  returns c coll beh OpProcess w w' (RetProcess (Returned k)) ->
  k = zlen (new_calls w w') mod 256.
Proof.
  intros Ht H Hr. pose proof (history_sim c coll Hst Hsafe beh Ht _ _ _ _ _ H) as Hs.
  destruct (process_cases c coll Hst Hsafe beh Ht _ _ _ Hs Hr) as [(_ & -> & E)|(_ & n & HP & E & _)].
  - rewrite new_calls_self. injection E as ->. reflexivity.
  - destruct n as [n|]; [|discriminate]. cbn [spec_result] in E.
    assert (k = Z.of_nat n mod 256) as -> by congruence. f_equal.
    pose proof (Proc_count _ _ _ _ _ _ HP) as HC. cbn beta iota in HC. cbn [view s_log] in HC.
    pose proof (process_new_calls _ _ _ _ _ _ HP) as Hn. rewrite Hn, app_length in HC. unfold zlen. lia.
Qed.

Lemma count_exact_lemma beh h0 ops S rs w w' k q : tame beh ->
  (forall log, appended (hr_acts (beh log)) = []) ->
  (forall m, In m (mc_types coll) -> q <= Z.of_nat (frame_size (mc_env coll) m)) ->
  capacity coll < 256 * q ->
  history c coll beh (start coll h0) ops S rs w ->
  returns c coll beh OpProcess w w' (RetProcess (Returned k)) ->
  k = zlen (new_calls w w').
Proof.
  intros Ht Ha Hq Hcap H Hr. rewrite (count_lemma beh h0 ops S rs w w' k Ht H Hr).
  apply Z.mod_small. split; [apply zlen_nonneg|].
  pose proof (history_sim c coll Hst Hsafe beh Ht _ _ _ _ _ H) as Hs.
  assert (zlen (held w) <= capacity coll) as Hle. { destruct Hs as (R & _). exact (rep_size_le _ _ _ R). }
  destruct (process_cases c coll Hst Hsafe beh Ht _ _ _ Hs Hr) as [(_ & -> & E)|(_ & n & HP & E & _)].
  - rewrite new_calls_self. reflexivity.
  - destruct n as [n|]; [|discriminate].
    pose proof (Proc_count _ _ _ _ _ _ HP) as HC. cbn beta iota in HC. cbn [view s_log] in HC.
    pose proof (process_new_calls _ _ _ _ _ _ HP) as Hn. rewrite Hn, app_length in HC.
    pose proof (zlen_nonneg (held w)).
    assert (0 <= q) by lia.
    pose proof (Proc_bytes coll (little c) beh q _ _ _ Hq Ha H1 HP) as HB. cbn beta iota in HB. cbn [view s_bytes] in HB.
    unfold zlen at 1. assert (length (new_calls w w') = n) as -> by lia. nia.
Qed.

Lemma count_small_lemma beh h0 ops S rs w w' k : tame beh ->
  (forall log, appended (hr_acts (beh log)) = []) ->
  max_message_length coll <= 426 ->
  history c coll beh (start coll h0) ops S rs w ->
  returns c coll beh OpProcess w w' (RetProcess (Returned k)) ->
  k = zlen (new_calls w w').
Proof.
  intros Ht Ha Hm. apply count_exact_lemma with (q := 5); auto.
  - intros m _. pose proof (frame_size_ge5 (mc_env coll) m). lia.
  - unfold capacity, receive_buffer_size. lia.
Qed.

(** C36 *)
Lemma last_id_lemma beh h0 ops S rs w : tame beh -> history c coll beh (start coll h0) ops S rs w ->
  (w_log w = [] /\ rx_last_id (w_rx w) = None)
  \/ exists l d pre f fd post, w_log w = l ++ [d] /\ rx_last_id (w_rx w) = Some (f_id fd)
       /\ S = pre ++ f ++ post /\ is_frame coll f (f_message fd) (f_id fd) (f_payload fd)
       /\ delivers (little c) fd d.
Proof.
  intros Ht H. remember (start coll h0) as w0 eqn:E0.
  induction H as [w|w ops S rs w1 o r w2 H IH Ha Hr].
  - subst w. left. destruct h0; auto.
  - specialize (IH E0). subst w. pose proof (history_sim c coll Hst Hsafe beh Ht _ _ _ _ _ H) as Hs.
    assert (o = OpProcess \/ o <> OpProcess) as [->|Ho] by (destruct o; auto; right; discriminate).
    + destruct (process_cases c coll Hst Hsafe beh Ht _ _ _ Hs Hr) as [(_ & -> & _)|(_ & k & HP & _)].
      { cbn [received]. rewrite new_calls_self. cbn [appended_by]. rewrite app_nil_r. exact IH. }
      pose proof (process_new_calls _ _ _ _ _ _ HP) as Hn.
      destruct (Proc_last_frame _ _ _ _ _ _ HP _ Hn) as [(E1 & E2)|(l & d & pre & f & fd & post & E1 & E2 & E3 & E4 & E5)].
      * cbn [received]. rewrite E1 in *. cbn [appended_by view s_last] in *. rewrite Hn, E2, !app_nil_r. exact IH.
      * right. destruct (history_suffix c coll Hst Hsafe beh Ht _ _ _ _ _ H) as (K & ->).
        cbn [view s_last s_bytes s_log received] in *.
        exists (w_log w1 ++ l), d, (K ++ pre), f, fd, post. rewrite Hn, E1 at 1. rewrite <- !app_assoc.
        split; [reflexivity|]. split; [assumption|]. rewrite E3. auto.
    + destruct (other_step c coll Hst Hsafe beh Ht o w1 w2 r Hs Ha Hr Ho) as (_ & -> & -> & _).
      destruct IH as [IH|(l & d & pre & f & fd & post & E1 & E2 & -> & E4 & E5)]; [left; exact IH|]. right.
      exists l, d, pre, f, fd, (post ++ received coll beh o w1 w2). rewrite <- !app_assoc. auto.
Qed.

(** C37 *)
Lemma handler_lemma beh h0 ops S rs w o w' r : tame beh -> history c coll beh (start coll h0) ops S rs w ->
  allowed coll o w -> returns c coll beh o w w' r ->
  w_log w' = w_log w ++ new_calls w w'
  /\ served beh (w_log w) (rx_functor (w_rx w)) (new_calls w w')
            (match o with OpProcess => rx_functor (w_rx w') | _ => rx_functor (w_rx w) end)
  /\ match o with
     | OpSetHandler h => rx_functor (w_rx w') = Some h
     | OpClearHandler => rx_functor (w_rx w') = None
     | OpProcess => True
     | _ => rx_functor (w_rx w') = rx_functor (w_rx w)
     end
  /\ (o <> OpProcess -> new_calls w w' = [] /\ rx_last_id (w_rx w') = rx_last_id (w_rx w)
        /\ held w' = held w ++ received coll beh o w w').
Proof.
  intros Ht H Ha Hr. pose proof (history_sim c coll Hst Hsafe beh Ht _ _ _ _ _ H) as Hs.
  assert (o = OpProcess \/ o <> OpProcess) as [->|Ho] by (destruct o; auto; right; discriminate).
  - split; [|split; [|split; [exact I | congruence]]];
    destruct (process_cases c coll Hst Hsafe beh Ht _ _ _ Hs Hr) as [(_ & -> & _)|(_ & k & HP & _)].
    + rewrite new_calls_self, app_nil_r. reflexivity.
    + exact (process_new_calls _ _ _ _ _ _ HP).
    + rewrite new_calls_self. reflexivity.
    + exact (Proc_served _ _ _ _ _ _ HP _ (process_new_calls _ _ _ _ _ _ HP)).
  - destruct (other_step c coll Hst Hsafe beh Ht o w w' r Hs Ha Hr Ho) as (E1 & E2 & E3 & _ & E5 & E6).
    assert (new_calls w w' = []) as En.
    { apply new_calls_app. rewrite app_nil_r. exact E2. }
    rewrite En. cbn [served]. rewrite app_nil_r. conj; auto.
    + destruct o; auto; congruence.
    + destruct o; auto; congruence.
Qed.

(** C38 *)
Lemma throw_lemma beh h0 ops S rs w w1 : tame beh -> history c coll beh (start coll h0) ops S rs w ->
  returns c coll beh OpProcess w w1 (RetProcess Threw) ->
  exists ms f fd rest l d,
    held w1 = f ++ rest /\ is_frame coll f (f_message fd) (f_id fd) (f_payload fd)
    /\ w_log w1 = w_log w ++ l ++ [d] /\ delivers (little c) fd d
    /\ hr_throws (beh (w_log w1)) = true
    /\ rx_last_id (w_rx w1) = Some (f_id fd)
    /\ Forall2 (delivers (little c)) ms l
    /\ Consumed coll (held w ++ appended_by beh (w_log w) (l ++ [d])) ms (held w1)
    /\ forall w2 r, rx_has_handler (w_rx w1) = true -> returns c coll beh OpProcess w1 w2 r ->
         exists d' new, w_log w2 = w_log w1 ++ d' :: new /\ content d' = content d
           /\ rx_functor (w_rx w1) = Some (d_handler d').
Proof.
  intros Ht H Hr. pose proof (history_sim c coll Hst Hsafe beh Ht _ _ _ _ _ H) as Hs.
  destruct (process_cases c coll Hst Hsafe beh Ht _ _ _ Hs Hr) as [(_ & _ & E)|(_ & k & HP & E & Hs1)]; [discriminate|].
  destruct k as [k|]; [discriminate|].
  destruct (Proc_consumed _ _ _ _ _ _ HP (held w) []) as (new & ms & Hn & HC & HF).
  { intros T ms' r' HS. exact HS. }
  destruct (Proc_completed _ _ _ _ _ _ HP _ Hn) as (l & d & E1 & E2 & E3).
  destruct (Proc_threw _ _ _ _ _ HP) as (f & m & id & p & rest & d2 & pre & B1 & B2 & B3 & B4 & B5 & B6).
  cbn [view s_bytes s_log s_last] in *.
  assert (d2 = d) as ->.
  { rewrite E1, app_assoc in Hn. rewrite Hn in B3. apply app_inj_tail in B3. symmetry. apply B3. }
  subst new. cbn [app] in HC. rewrite E2 in HF. exists ms, f, (Found m id p), rest, l, d. cbn [f_message f_id f_payload].
  assert (delivers (little c) (Found m id p) d) as HD by (split; assumption).
  conj; auto; try congruence.
  intros w2 r Hh Hr2. destruct (returns_process c coll Hst Hsafe beh Ht _ _ _ Hs1 Hh Hr2) as (k2 & HP2 & _ & _).
  unfold rx_has_handler in Hh. destruct (rx_functor (w_rx w1)) as [h|] eqn:Eh; [|discriminate].
  unfold view in HP2 at 1. rewrite Eh, B1 in HP2.
  assert (Forall fty_ok (mt_fields m)) as Hty. { apply (static_fields_ok coll); [assumption|]. eapply has_id_in, B2. }
  destruct (Proc_front_frame _ _ _ _ _ _ _ _ _ _ _ _ _ _ Hty B2 B5 HP2) as (new2 & E5). cbn [view s_log] in E5.
  exists (Delivery h m (d_values d)), new2. split; [exact E5|]. split; [|reflexivity].
  unfold content. cbn [d_message d_values]. congruence.
Qed.

(** The first frame the scanner finds. *)
Lemma scan_first s fd ms r : Scan coll s (fd :: ms) r ->
  exists f s', Skips coll s (f ++ s') /\ is_frame coll f (f_message fd) (f_id fd) (f_payload fd) /\ Scan coll s' ms r.
Proof.
  intros H. remember (fd :: ms) as l eqn:El. revert fd ms El.
  induction H as [s U | f m id p s ms0 r F HS IH | b s ms0 r HU HF HS IH]; intros fd ms El; [discriminate| |].
  - assert (Found m id p = fd /\ ms0 = ms) as (<- & <-) by (split; congruence).
    exists f, s. conj; auto. constructor.
  - destruct (IH fd ms El) as (f & s' & H1 & H2 & H3). exists f, s'. conj; auto.
    apply skips_cons; [split; assumption|assumption].
Qed.

Lemma skips_frames X Y : Skips coll X Y -> forall Y', Skips coll X Y' ->
  forall f m id p s f' m' id' p' s', is_frame coll f m id p -> is_frame coll f' m' id' p' ->
  Y = f ++ s -> Y' = f' ++ s' -> Y = Y'.
Proof.
  induction 1 as [X|b X Y D HK IH]; intros Y' HK' f m id p s f' m' id' p' s' F F' E E'.
  - destruct HK' as [X|b X Y' D' HK']; [reflexivity|]. destruct D' as [_ D']. exfalso. exact (D' _ _ _ _ _ F E).
  - inversion HK' as [X' EX|b' X' Y2 D' HK2 EX]; subst.
    + destruct D as [_ D]. exfalso. eapply D; [exact F'|]. eassumption.
    + eapply IH; eauto.
Qed.

(** Finding a frame: the state when the invoker is called. *)
Lemma check_frame w s f m id p s0 : sim coll w s -> Skips coll (s_bytes s) (f ++ s0) -> is_frame coll f m id p ->
  exists e, check c coll (rx_recv (w_rx w)) = Ok (true, e) /\ er_id e = Some id
    /\ sim coll (w_set_last id (w_set_recv e w)) (SState (f ++ s0) (s_handler s) (Some id) (s_log s)).
Proof.
  intros Hs HK F. destruct (check_sim c coll Hst w s Hs) as (ok & e & Y & HC & HS & Hs1 & HY).
  assert (ok = true /\ Y = f ++ s0 /\ er_id e = Some id) as (-> & -> & He).
  { destruct (scan_total coll s0) as (ms & r & HS0).
    pose proof (skips_scan _ _ _ _ _ HK (scan_frame _ _ _ _ _ _ _ _ F HS0)) as HA.
    destruct ok.
    - destruct HY as (f' & m' & id' & p' & s1 & -> & F' & He).
      assert (f' ++ s1 = f ++ s0) as EY.
      { exact (skips_frames _ _ HS _ HK _ _ _ _ _ _ _ _ _ _ F' F eq_refl eq_refl). }
      destruct (is_frame_unique _ _ _ _ _ _ _ _ _ _ _ F' F EY) as (-> & -> & -> & -> & ->). auto.
    - exfalso. pose proof (skips_scan _ _ _ _ _ HS (scan_wait _ _ HY)) as HB.
      destruct (scan_det _ _ _ _ HA _ _ HB) as (E & _). discriminate. }
  exists e. conj; auto. destruct Hs1 as (A1 & A2 & A3 & A4 & A5 & A6). unfold sim. conj; auto.
Qed.
End Ops.

(** C23: the shipped adapters. *)
Lemma shipped_adapters_lemma read :
  (forall n, 0 <= n <= 255 -> bytes_ok (fst (read n)) /\ zlen (fst (read n)) <= n
                   /\ snd (read n) = zlen (fst (read n))) ->
  adapter_ok (vrpn_adapter read) /\ forall av, adapter_ok (arduino_adapter av read).
Proof.
  intros H.
  assert (forall n, 0 <= n <= 255 -> forall av,
            adapter_ok_at (Adapter av (fun n => let '(d, r) := read n in (d, trunc 8 r))) n) as K.
  { intros n Hn av. destruct (H n Hn) as (H1 & H2 & H3). unfold adapter_ok_at. cbn [ad_read].
    destruct (read n) as [d r]. cbn [fst snd] in *. conj; auto. subst r. apply trunc_small.
    pose proof (zlen_nonneg d). change (2 ^ 8) with 256. lia. }
  split; [|intros av]; intros n Hn; apply K, Hn.
Qed.

(** C25: the scanner is a total function. *)
Lemma scan_function_lemma coll s :
  exists ms r, Scan coll s ms r /\ forall ms' r', Scan coll s ms' r' -> ms = ms' /\ r = r'.
Proof.
  destruct (scan_total coll s) as (ms & r & H). exists ms, r. split; [exact H|].
  intros ms' r' H'. exact (scan_det _ _ _ _ H _ _ H').
Qed.
