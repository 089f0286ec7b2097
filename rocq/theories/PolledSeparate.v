(** processMessages interrupted in the midst of looking for a message does what separate calls do, when the buffer does not run
    empty while bytes are to come. *)
From Verif Require Import ReceiverProofs FeedLemmas.
From Verif Require Export PolledAlive PolledInvoke ArrivalHistory PolledLemmas.

Section Acts.
Context (c : config) (coll : collection).

Lemma acts_recv proc acts : (forall a, In a acts -> exists h, a = ASetHandler h) -> forall w,
  exists w', run_acts c coll proc acts w = Ok (w', false) /\ rx_recv (w_rx w') = rx_recv (w_rx w).
Proof.
  induction acts as [|a acts IH]; intros Ha w; [exists w; auto|]. destruct (Ha a (or_introl eq_refl)) as (h & ->). cbn [run_acts bind].
  destruct (IH (fun a Hin => Ha a (or_intror Hin)) (World (rx_set_handler h (w_rx w)) (w_log w))) as (w' & -> & E).
  exists w'. split; [reflexivity | rewrite E; reflexivity].
Qed.
End Acts.

Section Separate.
Context (c : config) (coll : collection) (Hst : static_ok coll = true) (Hsafe : index_safe c (capacity coll)).
Local Notation cap := (capacity coll).
Context (beh : hbehav) (Hb : steady beh) (Hbf : bool_free coll) (o : bool).

(** While bytes are to come, those that have come leave some over. *)
Definition some_over (X : list Z) (coming : list (list Z)) : Prop :=
  forall u v ms r, coming = u ++ v -> concat v <> [] -> Scan coll (X ++ concat u) ms r -> r <> [].

Definition roomy (w : world) (coming : list (list Z)) : Prop :=
  rb_pastEnd (er_buf (rx_recv (w_rx w))) + zlen (concat coming) <= cap /\ bytes_ok (concat coming).

Lemma some_over_alive w X h last log coming : sim coll w (SState X h last log) -> roomy w coming -> some_over X coming ->
  alive coll (TState (rx_recv (w_rx w)) coming) X.
Proof.
  intros (R & HB & _) (Hr & HC) H. split; [split; [exact R|]; auto|]. intros u v Y E Hv HS ->.
  apply (H u v [] [] E Hv); [|reflexivity]. apply (skips_scan coll _ _ _ _ HS). apply scan_wait. exact I.
Qed.

Lemma some_over_after X u rest Y : some_over X (u ++ rest) -> Skips coll (X ++ concat u) Y -> some_over Y rest.
Proof.
  intros H HS v v' ms r E Hv HSc. apply (H (u ++ v) v' ms r); [rewrite E; apply app_assoc | exact Hv |].
  rewrite concat_app, app_assoc. eapply skips_scan; [apply skips_more, HS | exact HSc].
Qed.

Lemma some_over_frame f m id p s coming : is_frame coll f m id p -> some_over (f ++ s) coming -> some_over s coming.
Proof.
  intros F H u v ms r E Hv HSc. eapply (H u v _ r E Hv). rewrite <- app_assoc. eapply scan_frame; eassumption.
Qed.

Lemma t_loop_spec steps : (Z.to_nat cap < steps)%nat -> forall fuel n w X h last log coming,
  sim coll w (SState X (Some h) last log) -> roomy w coming -> some_over X coming ->
  (length X + length (concat coming) < fuel)%nat -> 0 <= n < 256 ->
  exists w' p u rest s' r, t_loop fuel steps o c coll beh n w coming = Ok (w', p, rest) /\ coming = u ++ rest /\ sim coll w' s'
    /\ Lin c coll beh (SState X (Some h) last log) (concat u) s' r
    /\ p = match r with Some k => Returned ((n + Z.of_nat k) mod 256) | None => Threw end.
Proof.
  intros Hk. induction fuel as [|fuel IH]; intros n w X h last log coming Hs Hr Ho Hf Hn; [lia|]. cbn [t_loop].
  pose proof (some_over_alive _ _ _ _ _ _ Hs Hr Ho) as A.
  assert (zlen X + zlen (concat coming) <= cap) as Hfit.
  { destruct Hs as (R & _). destruct Hr as (Hr & _). cbn [s_bytes] in R. pose proof R as (P & Q & _ & HP & HE & _).
    pose proof (zlen_nonneg P). lia. }
  destruct (tc_check_alive c coll Hst Hsafe o steps _ _ A) as (ok & s1 & u & Y & -> & EC & HT & HY).
  { unfold total. cbn [ts_coming]. unfold zlen in Hfit. lia. }
  cbn [bind ts_coming] in *.
  pose proof HT as (R1 & Hr1 & HB1 & HC1).
  assert (forall v v', u = v ++ v' -> zlen (X ++ concat v) <= cap /\ bytes_ok (concat v)) as Hv.
  { intros v v' ->. rewrite EC, !concat_app, !zlen_app in Hfit. rewrite zlen_app.
    pose proof (zlen_nonneg (concat v')). pose proof (zlen_nonneg (concat (ts_coming s1))). split; [lia|].
    destruct Hr as (_ & Hr). rewrite EC, !concat_app in Hr. apply Forall_app in Hr as [Hr _]. apply Forall_app in Hr as [Hr _]. exact Hr. }
  assert (sim coll (w_set_recv (ts_recv s1) w) (SState Y (Some h) last log)) as Hs1.
  { destruct Hs as (R & HB & A3 & A4 & A5 & A6). repeat split; auto. }
  destruct ok; cbn [negb].
  2:{ destruct HY as (u1 & u2 & Y1 & Eu & HS & U & EY). subst Y.
      exists (w_set_recv (ts_recv s1) w), (Returned n), u, (ts_coming s1), (SState (Y1 ++ concat u2) (Some h) last log), (Some O).
      split; [reflexivity|]. split; [exact EC|]. split; [exact Hs1|]. split.
      - destruct (Hv u1 u2 Eu) as (Hv1 & Hv2). rewrite Eu, concat_app. apply lin_append; [exact Hb | exact Hv1 | exact Hv2|].
        eapply lin_skips; [exact HS|]. apply lin_wait; [exact U | exact (rep_size_le _ _ _ R1) |].
        apply Forall_app in HB1 as [_ HB1]. exact HB1.
      - rewrite Z.add_0_r, Z.mod_small by lia. reflexivity. }
  destruct HY as (HS & f & m & id & pl & t & -> & F & Hid).
  destruct (Hv u [] (eq_sym (app_nil_r u))) as (Hv1 & Hv2).
  assert (forall s' r g, Lin c coll beh (SState (f ++ t) (Some h) last log) g s' r ->
            Lin c coll beh (SState X (Some h) last log) (concat u ++ g) s' r) as Hlin.
  { intros s' r g HL. apply lin_append; [exact Hb | exact Hv1 | exact Hv2|]. eapply lin_skips; [exact HS | exact HL]. }
  unfold er_current_id. rewrite Hid. cbn [bind].
  set (w1 := w_set_last id (w_set_recv (ts_recv s1) w)).
  assert (sim coll w1 (SState (f ++ t) (Some h) (Some id) log)) as Hs2.
  { destruct Hs1 as (A1 & A2 & A3 & A4 & A5 & A6). repeat split; auto. }
  unfold t_invoke. pose proof Hs2 as (R & HB & Hfn & Hi & Hl & Hlog). cbn [s_bytes s_handler s_last s_log] in *.
  rewrite Hfn, Hi. cbn [option_map]. rewrite Z.eqb_refl. cbn [negb].
  assert (exists vs, encodes (little c) (mt_fields m) vs pl) as (vs & E).
  { destruct (scan_total coll t) as (ms & r0 & HSc).
    pose proof (bool_free_decodable c coll Hst (f ++ t) Hbf HB _ _ (scan_frame _ _ _ _ _ _ _ _ F HSc)) as HD.
    exact (Forall_inv HD). }
  change (rx_recv (w_rx w1)) with (ts_recv s1). replace (TState (ts_recv s1) (ts_coming s1)) with s1 by (destruct s1; reflexivity).
  destruct (tc_deserialize_spec c coll Hst Hsafe s1 f m id pl t vs HT F E) as (s2 & u2 & -> & HT2 & (W2 & I2)). cbn [bind]. cbv zeta.
  change (w_log (w_set_recv (ts_recv s2) w1)) with (w_log w1). rewrite Hlog.
  set (log1 := log ++ [Delivery h m vs]) in *.
  match goal with |- context [run_acts c coll ?pr (hr_acts (beh log1)) ?w3] =>
    destruct (acts_recv c coll pr (hr_acts (beh log1)) (Hb log1) w3) as (w2 & RA & Erecv) end.
  rewrite RA. cbn [bind orb].
  assert (appended (hr_acts (beh log1)) = []) as HA by (apply steady_appended, Hb).
  pose proof HT2 as (R2 & Hr2 & HB2 & HC2).
  eapply (run_acts_sound c coll Hst _ _ (steady_tame _ Hb log1)) with (X := f ++ t ++ concat u2) (h := Some h) (last := Some id) (log := log1) in RA.
  2:{ repeat split; auto. }
  destruct RA as (_ & Hs3 & Hid2). rewrite HA, app_nil_r in Hs3. cbn [w_rx] in Hid2, Erecv.
  change (rx_recv (w_rx (w_set_recv (ts_recv s2) w1))) with (ts_recv s2) in Hid2, Erecv. rewrite I2, Hid in Hid2.
  destruct (hr_throws (beh log1)) eqn:HTh.
  - exists w2, Threw, (u ++ u2), (ts_coming s2). eexists. exists None. split; [reflexivity|].
    split; [rewrite EC, W2; apply app_assoc|]. split; [exact Hs3|].
    split; [|reflexivity]. rewrite concat_app. apply Hlin.
    apply (lin_throw c coll beh Hb f m id pl vs t h last log (concat u2) F E HTh); [exact (rep_size_le _ _ _ R2)|].
    apply Forall_app in HB2 as [_ HB2]. apply Forall_app in HB2 as [_ HB2]. exact HB2.
  - pose proof Hs3 as (R3 & HB3 & Hf3 & Hi3 & Hl3 & Hlog3). cbn [s_bytes s_handler s_last s_log] in *.
    rewrite Erecv. replace (TState (ts_recv s2) (ts_coming s2)) with s2 by (destruct s2; reflexivity).
    destruct (tc_pop_message_spec c coll Hst Hsafe o steps s2 f m id pl (t ++ concat u2)) as (s3 & u3 & -> & HT3 & W3).
    { lia. }
    { exact HT2. }
    { exact F. }
    { rewrite <- Erecv. exact Hid2. }
    cbn [bind]. pose proof HT3 as (R4 & Hr4 & HB4 & HC4).
    assert (ts_coming s1 = (u2 ++ u3) ++ ts_coming s3) as W23 by (rewrite W2, W3; apply app_assoc).
    assert ((t ++ concat u2) ++ concat u3 = t ++ concat (u2 ++ u3)) as ET by (rewrite concat_app, app_assoc; reflexivity).
    rewrite ET in *.
    destruct (steady_handler beh log1 h Hb) as (h' & Eh).
    pose proof (is_frame_length _ _ _ _ _ F) as HL. pose proof (frame_size_ge5 (mc_env coll) m) as H5.
    destruct (IH (trunc 8 (n + 1)) (w_set_recv (ts_recv s3) w2) (t ++ concat (u2 ++ u3)) h' (Some id) log1 (ts_coming s3))
      as (w6 & p6 & u6 & rest & s6 & r6 & E6 & EC6 & Hs6 & HL6 & Hp6).
    { rewrite <- Eh. split; [exact R4|]. repeat split; auto. }
    { split; [exact Hr4 | exact HC4]. }
    { rewrite EC in Ho. pose proof (some_over_after _ _ _ _ Ho HS) as Ho1. apply (some_over_frame _ _ _ _ _ _ F) in Ho1.
      rewrite W23 in Ho1. eapply some_over_after; [exact Ho1 | constructor]. }
    { destruct (skips_suffix coll _ _ HS) as (Z0 & EZ). apply (f_equal (@length Z)) in EZ.
      rewrite EC, W23, !concat_app in Hf. rewrite !app_length in *. rewrite concat_app, app_length. lia. }
    { unfold trunc. apply Z.mod_pos_bound. reflexivity. }
    exists w6, p6, (u ++ (u2 ++ u3) ++ u6), rest, s6, (option_map S r6). split; [exact E6|].
    split; [rewrite EC, W23, EC6, <- !app_assoc; reflexivity|].
    split; [exact Hs6|]. split.
    + rewrite concat_app. apply Hlin. eapply lin_frame; [exact Hb | exact F | exact E | exact HTh | exact (rep_size_le _ _ _ R1)|].
      fold log1. rewrite Eh. rewrite (concat_app (u2 ++ u3)). apply lin_append; [exact Hb | exact (rep_size_le _ _ _ R4) | | exact HL6].
      apply Forall_app in HB4 as [_ HB4]. exact HB4.
    + subst p6. destruct r6 as [k|]; [|reflexivity]. cbn [option_map]. f_equal.
      unfold trunc. change (2 ^ 8) with 256. rewrite Zplus_mod_idemp_l. f_equal. lia.
Qed.
End Separate.

Lemma separate_lemma c coll : static_ok coll = true -> index_safe c (capacity coll) ->
  forall beh h0 ops S rs w o coming fuel steps, steady beh -> bool_free coll ->
  history c coll beh (start coll h0) ops S rs w ->
  bytes_ok (concat coming) -> rb_pastEnd (er_buf (rx_recv (w_rx w))) + zlen (concat coming) <= capacity coll ->
  (forall u v ms r, coming = u ++ v -> concat v <> [] -> Scan coll (held w ++ concat u) ms r -> r <> []) ->
  (Z.to_nat (capacity coll) < fuel)%nat -> (Z.to_nat (capacity coll) < steps)%nat ->
  exists w' p used rest, t_process fuel steps o c coll beh w coming = Ok (w', p, rest) /\ coming = used ++ rest
    /\ exists ops' rs' v, separate ops' /\ history c coll beh w ops' (concat used) rs' v
         /\ same_view coll w' v /\ p = ends_with rs' w v
         /\ (forall ops2 S2 rs2 w2, history c coll beh w' ops2 S2 rs2 w2 ->
               exists v2, history c coll beh v ops2 S2 rs2 v2 /\ same_view coll w2 v2)
         /\ (forall ops2 S2 rs2 v2, history c coll beh v ops2 S2 rs2 v2 ->
               exists w2, history c coll beh w' ops2 S2 rs2 w2 /\ same_view coll w2 v2).
Proof.
  intros Hst Hsafe beh h0 ops S rs w o coming fuel steps Hb Hbf H HB Hr Ho Hfu Hk.
  pose proof (steady_tame _ Hb) as Ht.
  pose proof (history_sim c coll Hst Hsafe beh Ht _ _ _ _ _ H) as Hs.
  assert (forall w1 v1 s, sim coll w1 s -> sim coll v1 s -> same_view coll w1 v1) as Hsame.
  { intros w1 v1 s H1 H2. pose proof (view_of coll w1 s H1) as E. apply (same_view_sim coll Hst); rewrite E; assumption. }
  assert (forall w1 v1 s, sim coll w1 s -> sim coll v1 s -> forall ops2 S2 rs2 w2, history c coll beh w1 ops2 S2 rs2 w2 ->
     exists v2, history c coll beh v1 ops2 S2 rs2 v2 /\ same_view coll w2 v2) as Hfut.
  { intros w1 v1 s H1 H2 ops2 S2 rs2 w2 H3.
    destruct (history_transfer c coll Hst Hsafe c beh Ht eq_refl Hsafe _ _ _ _ _ _ _ H1 H2 H3) as (v2 & s2 & Hv2 & Q1 & Q2).
    exists v2. split; [assumption|]. eapply Hsame; eassumption. }
  assert (forall w1 v1, same_view coll w1 v1 -> same_view coll v1 w1) as Hsym.
  { unfold same_view. intros w1 v1 (A & B & C & D & E). auto. }
  unfold t_process.
  destruct (rx_has_handler (w_rx w)) eqn:EH; cbn [negb].
  - unfold rx_has_handler in EH. unfold view in Hs.
    assert (exists h, rx_functor (w_rx w) = Some h) as (h & Eh).
    { destruct (rx_functor (w_rx w)); [eauto|discriminate]. }
    rewrite Eh in Hs.
    destruct (t_loop_spec c coll Hst Hsafe beh Hb Hbf o steps Hk fuel 0 w (held w) h (rx_last_id (w_rx w)) (w_log w) coming Hs)
      as (w' & p & u & rest & s' & r & E & EC & L & HL & Hp).
    { split; assumption. }
    { exact Ho. }
    { destruct Hs as (R & _). cbn [s_bytes] in R. pose proof R as (P & Q & _ & HP & HE & _). pose proof (zlen_nonneg P).
      unfold zlen in *. lia. }
    { lia. }
    rewrite E. exists w', p, u, rest. split; [reflexivity|]. split; [exact EC|].
    destruct (lin_history c coll Hst Hsafe beh Hb _ _ _ _ HL w Hs) as (ops' & rs' & v & H1 & H2 & H3 & new & H4 & H5).
    { discriminate. }
    exists ops', rs', v. split; [assumption|]. split; [assumption|]. split; [eapply Hsame; eassumption|].
    split; [|split; [eapply Hfut; eassumption|]].
    + rewrite Hp. unfold ends_with. destruct r as [k|].
      * destruct H5 as (H5 & ->). rewrite (new_calls_app w v new).
        { unfold zlen. rewrite H5. reflexivity. }
        destruct H3 as (_ & _ & _ & _ & _ & Hlog). rewrite Hlog, H4. reflexivity.
      * destruct (throws rs'); [contradiction | reflexivity].
    + intros ops2 S2 rs2 v2 Q. destruct (Hfut _ _ _ H3 L _ _ _ _ Q) as (w2 & Q1 & Q2). exists w2. auto.
  - exists w, (Returned 0), [], coming. split; [reflexivity|]. split; [reflexivity|]. cbn [concat].
    exists [], [], w. split; [constructor|]. split; [constructor|].
    split; [eapply Hsame; eassumption|]. split; [unfold ends_with, new_calls; cbn [throws filter]; rewrite skipn_all; reflexivity|].
    split; [eapply Hfut; eassumption|]. intros ops2 S2 rs2 v2 Q. exists v2. split; [assumption|].
    destruct (Hfut _ _ _ Hs Hs _ _ _ _ Q) as (w2 & _ & Q2). unfold same_view. auto.
Qed.

(** Noise and most of a message; of the rest, each piece before another access. *)
Definition pieces : list (list Z) := [[]; []; [10]; []; []; [20; 30]; []; [3]; []; []; []; [4; 1; 1]; []; []].

Lemma pieces_over : forall u v ms r, pieces = u ++ v -> concat v <> [] ->
  Scan test_basic ([9; 1; 1; 2] ++ concat u) ms r -> r <> [].
Proof.
  assert (forall t ms r, (length t < 5)%nat -> Scan test_basic ([9; 1; 1; 2] ++ t) ms r -> r <> []) as H.
  { intros t ms r Ht HS.
    assert (Scan test_basic (9 :: 1 :: 1 :: 2 :: t) [] (1 :: 1 :: 2 :: t)) as Q.
    { apply (skips_scan test_basic _ (1 :: 1 :: 2 :: t)); [constructor; [apply not_soh_dead; discriminate | constructor]|]. apply scan_wait. split; [reflexivity|]. split; [reflexivity|].
      exists MessageB. split; [split; [lia | reflexivity]|]. change (frame_size (mc_env test_basic) MessageB) with 8%nat. cbn [length]. lia. }
    destruct (scan_det _ _ _ _ Q _ _ HS) as (_ & <-). discriminate. }
  intros u v ms r E Hv HS. apply (H (concat u) ms r); [|exact HS].
  assert (u = firstn (length u) pieces /\ v = skipn (length u) pieces) as (Eu & Ev).
  { rewrite E, firstn_app, skipn_app, Nat.sub_diag, firstn_all, skipn_all. cbn [firstn skipn app]. rewrite app_nil_r. auto. }
  revert Eu Ev. generalize (length u). intros n -> ->. clear E HS H ms r.
  do 12 (destruct n as [|n]; [cbn; lia|]). exfalso. apply Hv.
  destruct n as [|[|n]]; [reflexivity | reflexivity |]. destruct n; reflexivity.
Qed.

(** A message and the first byte of another; of the rest, four bytes before the accesses that read the fields of the first message,
    and three before those that remove it. *)
Definition reading_pieces : list (list Z) := repeat [] 28 ++ [[1]; [2]; [11]; [21]] ++ repeat [] 35 ++ [[31]; [3]; [4]].

Lemma reading_over : forall u v ms r, reading_pieces = u ++ v -> concat v <> [] ->
  Scan test_basic ([1; 1; 2; 10; 20; 30; 3; 4; 1] ++ concat u) ms r -> r <> [].
Proof.
  assert (is_frame test_basic [1; 1; 2; 10; 20; 30; 3; 4] MessageB 1 [10; 20; 30]) as F.
  { split; [split; [lia | reflexivity]|]. split; reflexivity. }
  intros u v ms r E Hv HS.
  assert (undecided test_basic (1 :: concat u)) as U.
  { assert (u = firstn (length u) reading_pieces /\ v = skipn (length u) reading_pieces) as (Eu & Ev).
    { rewrite E, firstn_app, skipn_app, Nat.sub_diag, firstn_all, skipn_all. cbn [firstn skipn app]. rewrite app_nil_r. auto. }
    revert Eu Ev. generalize (length u). intros n -> ->. clear E HS F ms r. revert n Hv.
    assert (exists m, has_id test_basic m 1 /\ frame_size (mc_env test_basic) m = 8%nat) as (m & Hm & Hf).
    { exists MessageB. split; [split; [lia | reflexivity] | reflexivity]. }
    assert (undecided test_basic [1] /\ undecided test_basic [1; 1] /\ undecided test_basic [1; 1; 2] /\ undecided test_basic [1; 1; 2; 11]
            /\ undecided test_basic [1; 1; 2; 11; 21] /\ undecided test_basic [1; 1; 2; 11; 21; 31]
            /\ undecided test_basic [1; 1; 2; 11; 21; 31; 3]) as (U1 & U2 & U3 & U4 & U5 & U6 & U7).
    { repeat split; try reflexivity; try (exists m); try (split; [exact Hm|]); try exact Hm; rewrite ?Hf; cbn [length]; lia. }
    intros n Hv.
    do 70 (destruct n as [|n]; [first [exact U1 | exact U2 | exact U3 | exact U4 | exact U5 | exact U6 | exact U7]|]).
    exfalso. apply Hv. destruct n as [|n]; [reflexivity|]. destruct n; reflexivity. }
  assert (Scan test_basic ([1; 1; 2; 10; 20; 30; 3; 4] ++ 1 :: concat u) [Found MessageB 1 [10; 20; 30]] (1 :: concat u)) as Q.
  { eapply scan_frame; [exact F|]. apply scan_wait, U. }
  destruct (scan_det _ _ _ _ Q _ _ HS) as (_ & <-). discriminate.
Qed.
