(** Lemmas on polling loops. *)
From Verif Require Export FeedLemmas SpecLink.

Lemma forall2_length {A B} (R : A -> B -> Prop) l l' : Forall2 R l l' -> length l = length l'.
Proof. induction 1; cbn; congruence. Qed.

Lemma fifo_eager P : bytes_ok P ->
  eager (vrpn_adapter (fifo_read P)) P /\ eager (arduino_adapter (zlen P) (fifo_read P)) P.
Proof.
  intros HP.
  assert (forall n, 0 <= n <= 255 -> bytes_ok (fst (fifo_read P n)) /\ zlen (fst (fifo_read P n)) <= n
            /\ snd (fifo_read P n) = zlen (fst (fifo_read P n))) as H.
  { intros n Hn. unfold fifo_read. cbn [fst snd]. conj.
    - unfold bytes_ok in *. rewrite <- (firstn_skipn (Z.to_nat n) P) in HP. apply Forall_app in HP. apply HP.
    - unfold zlen. rewrite firstn_length. lia.
    - unfold zlen. rewrite firstn_length. lia. }
  destruct (shipped_adapters_lemma _ H) as (K1 & K2).
  assert (forall n, exists P', P = firstn (Z.to_nat n) P ++ P') as HS.
  { intros n. exists (skipn (Z.to_nat n) P). symmetry. apply firstn_skipn. }
  assert (P <> [] -> forall n, 0 < n -> firstn (Z.to_nat n) P <> []) as HN.
  { intros Hne n Hn. destruct P as [|b P]; [congruence|]. destruct (Z.to_nat n) eqn:E; [lia|]. discriminate. }
  assert (P <> [] -> 0 < zlen P) as HL.
  { intros Hne. destruct P; [congruence|]. rewrite zlen_cons. pose proof (zlen_nonneg P). lia. }
  split; (split; [split; [auto|intros n Hn; cbn [ad_read vrpn_adapter arduino_adapter]; unfold fifo_read; cbn [fst]; apply HS]
                 | intros Hne; split;
                   [cbn [ad_available vrpn_adapter arduino_adapter]
                   | intros n Hn; cbn [ad_read vrpn_adapter arduino_adapter]; unfold fifo_read; cbn [fst]; apply HN; [assumption|lia]]]).
  - reflexivity.
  - specialize (HL Hne). rewrite trunc_small by (change (2 ^ 8) with 256; lia). rewrite Z.mod_small by lia. lia.
Qed.

Section Poll.
Context (c : config) (coll : collection).
Hypothesis Hst : static_ok coll = true.
Hypothesis Hsafe : index_safe c (capacity coll).
Context (beh : hbehav).
Hypothesis Hb : steady beh.
Hypothesis Hnt : forall log, hr_throws (beh log) = false.
Context (fuel : nat).
Hypothesis Hfuel : (Z.to_nat (capacity coll) < fuel)%nat.

(** State between turns. *)
Definition polled_to (h : handler) (got : list Z) (w : world) : Prop :=
  exists ops rs, history c coll beh (start coll (Some h)) ops got rs w
    /\ rx_has_handler (w_rx w) = true
    /\ 2 * max_message_length coll <= rx_available coll (w_rx w)
    /\ (got <> [] -> processed c coll beh (Some h) got w)
    /\ (got = [] -> w_log w = [] /\ held w = []).

Lemma start_between h : polled_to h [] (start coll (Some h)).
Proof.
  exists [], []. conj; auto; try reflexivity; try congruence.
  - constructor.
  - rewrite (sim_available coll Hst _ _ (start_sim coll Hst (Some h))). cbn [s_bytes]. change (zlen []) with 0.
    pose proof (max_ge5 _ Hst). unfold capacity, receive_buffer_size. lia.
Qed.

Lemma poll_turn h got w a P T : polled_to h got w -> serves a P -> bytes_ok P ->
  decodable coll (little c) (got ++ P ++ T) ->
  exists d P' w1 w2 r, P = d ++ P'
    /\ step fuel c coll beh (OpReceive a) w = Ok (w1, RetCount (zlen d))
    /\ step fuel c coll beh OpProcess w1 = Ok (w2, RetProcess r)
    /\ polled_to h (got ++ d) w2
    /\ (eager a P -> P <> [] -> d <> [])
    /\ (exists n, r = Returned n)
    /\ exists new, w_log w2 = w_log w ++ new.
Proof.
  intros (ops & rs & H & Hh & Hav & Hpr & Hem) (Ha & Hserv) HB HD. pose proof (steady_tame _ Hb) as Ht.
  destruct (receive_lemma c coll Hst Hsafe beh _ _ _ _ _ a fuel Ht H) as (N1 & N2 & HR).
  set (n := Z.min (ad_available a mod 256) (rx_available coll (w_rx w))) in *.
  destruct (HR (Ha n N1)) as (w1 & E1 & Hh1 & Hl1 & _ & Hf1).
  set (d := fst (ad_read a n)) in *. destruct (Hserv n N1) as (P' & EP). fold d in EP.
  assert (returns c coll beh (OpReceive a) w w1 (RetCount (zlen d))) as Hr1 by (exists fuel; assumption).
  pose proof (hist_snoc c coll beh _ _ _ _ w (OpReceive a) _ w1 H Ha Hr1) as H1.
  change (received coll beh (OpReceive a) w w1) with d in H1.
  assert (rx_has_handler (w_rx w1) = true) as Hhh.
  { unfold rx_has_handler in *. rewrite Hf1. assumption. }
  pose proof (history_sim c coll Hst Hsafe beh Ht _ _ _ _ _ H1) as Hs1.
  assert (decodable coll (little c) ((got ++ d) ++ P' ++ T)) as HD'.
  { rewrite EP, <- app_assoc in HD. rewrite <- app_assoc. exact HD. }
  pose proof (prefix_decodable c coll Hst Hsafe beh Hb _ _ _ _ _ _ H1 HD') as HD1.
  destruct (step_progress c coll Hst Hsafe beh OpProcess w1 (view w1) fuel Hb Hs1 I HD1 Hfuel) as (w2 & r & E2).
  assert (returns c coll beh OpProcess w1 w2 r) as Hr by (exists fuel; assumption).
  destruct (returns_process c coll Hst Hsafe beh Ht _ _ _ Hs1 Hhh Hr) as (k & HP & -> & _).
  assert (received coll beh OpProcess w1 w2 = []) as Er by (apply appended_by_steady; assumption).
  pose proof (hist_snoc c coll beh _ _ _ _ w1 OpProcess _ w2 H1 I Hr) as H2. rewrite Er, app_nil_r in H2.
  assert (processed c coll beh (Some h) (got ++ d) w2) as HPr.
  { destruct k as [k|]; [|exfalso; exact (Proc_no_throw _ _ _ _ _ _ Hnt HP eq_refl)].
    exists (ops ++ [OpReceive a]), (got ++ d), (rs ++ [RetCount (zlen d)]), w1, (Z.of_nat k mod 256).
    rewrite Er, app_nil_r. auto. }
  exists d, P', w1, w2, (spec_result k). conj; auto.
  - exists ((ops ++ [OpReceive a]) ++ [OpProcess]), ((rs ++ [RetCount (zlen d)]) ++ [RetProcess (spec_result k)]). conj; auto.
    + pose proof (Proc_steady_handler _ _ _ _ _ _ Hb HP (has_handler_some w1 Hhh)) as Hn.
      unfold rx_has_handler. cbn [view s_handler] in Hn. destruct (rx_functor (w_rx w2)); congruence.
    + destruct (never_full_lemma c coll Hst Hsafe beh _ _ _ Ht HPr) as (_ & _ & HN & _). lia.
    + intros E. destruct (stream_lemma c coll Hst Hsafe beh Ht _ _ _ HPr) as (ms & HSc & HF).
      rewrite E in HSc. destruct (scan_det _ _ _ _ HSc _ _ (scan_nil coll)) as (-> & EH).
      rewrite completed_all in HF by assumption. inversion HF. auto.
  - intros (_ & He) Hne. destruct (He Hne) as (A1 & A2). subst d. apply A2.
    pose proof (max_ge5 _ Hst). subst n. lia.
  - destruct k as [k|]; [eexists; reflexivity | exfalso; exact (Proc_no_throw _ _ _ _ _ _ Hnt HP eq_refl)].
  - destruct (Proc_log_prefix _ _ _ _ _ _ HP) as (new & En). exists new. rewrite <- Hl1. exact En.
Qed.

Lemma polls_between (ok : adapter -> list Z -> Prop) h P n w P' T : (forall a Q, ok a Q -> serves a Q) -> bytes_ok P ->
  decodable coll (little c) (P ++ T) ->
  Polls ok fuel c coll beh n (start coll (Some h)) P w P' ->
  exists got, P = got ++ P' /\ polled_to h got w.
Proof.
  intros Hok HB HD H. remember (start coll (Some h)) as w0 eqn:E0.
  induction H as [w P|n w P w1 P1 a w2 k w3 r P2 H IH Ha E1 E2 ->]; subst w.
  - exists []. split; [reflexivity|]. apply start_between.
  - destruct (IH HB HD eq_refl) as (got & -> & HBt).
    unfold bytes_ok in HB. apply Forall_app in HB as (_ & HB1).
    rewrite <- app_assoc in HD.
    destruct (poll_turn _ _ _ _ _ T HBt (Hok _ _ Ha) HB1 HD) as (d & P' & w1' & w2' & r' & -> & E1' & E2' & HBt' & _).
    rewrite E1 in E1'. injection E1' as <- ->. rewrite E2 in E2'. injection E2' as <- <-.
    exists (got ++ d). split; [|assumption].
    replace (Z.to_nat (zlen d)) with (length d) by (unfold zlen; lia). rewrite skipn_app, skipn_all, Nat.sub_diag.
    cbn [skipn app]. rewrite <- app_assoc. reflexivity.
Qed.

(** A turn is always possible. *)
Lemma polls_progress h P n w P' a : bytes_ok P -> decodable coll (little c) P ->
  Polls serves fuel c coll beh n (start coll (Some h)) P w P' -> serves a P' ->
  exists w1 k w2 r, step fuel c coll beh (OpReceive a) w = Ok (w1, RetCount k)
    /\ step fuel c coll beh OpProcess w1 = Ok (w2, RetProcess (Returned r))
    /\ Polls serves fuel c coll beh (S n) (start coll (Some h)) P w2 (skipn (Z.to_nat k) P').
Proof.
  intros HB HD H Ha. destruct (polls_between serves h P n w P' [] (fun _ _ x => x) HB) as (got & -> & HBt);
    [rewrite app_nil_r; assumption | assumption |].
  pose proof HB as HB'. unfold bytes_ok in HB'. apply Forall_app in HB' as (_ & HB1).
  destruct (poll_turn h got w a P' [] HBt Ha HB1) as (d & P'' & w1 & w2 & r & -> & E1 & E2 & HBt' & _ & (rn & ->) & _);
    [rewrite app_nil_r; assumption |].
  exists w1, (zlen d), w2, rn. conj; auto.
  apply (polls_turn serves fuel c coll beh n _ _ w (d ++ P'') a w1 (zlen d) w2 (Returned rn)); auto.
Qed.

(** Eager adapters leave less each time. *)
Lemma polls_eager h P n w P' : bytes_ok P -> decodable coll (little c) P ->
  Polls eager fuel c coll beh n (start coll (Some h)) P w P' ->
  zlen P' <= Z.max 0 (zlen P - Z.of_nat n).
Proof.
  intros HB HD H. remember (start coll (Some h)) as w0 eqn:E0.
  induction H as [w P|n w P w1 P1 a w2 k w3 r P2 H IH Ha E1 E2 ->]; subst w.
  - pose proof (zlen_nonneg P). lia.
  - specialize (IH HB HD eq_refl).
    destruct (polls_between eager h P n w1 P1 [] (fun _ _ x => proj1 x) HB) as (got & -> & HBt);
      [rewrite app_nil_r; assumption | assumption |].
    pose proof HB as HB'. unfold bytes_ok in HB'. apply Forall_app in HB' as (_ & HB1).
    destruct (poll_turn h got w1 a P1 [] HBt (proj1 Ha) HB1) as (d & P'' & w1' & w2' & r' & EP & E1' & E2' & HBt' & Hd & _);
      [rewrite app_nil_r; assumption |].
    rewrite E1 in E1'. injection E1' as <- ->. rewrite EP.
    replace (Z.to_nat (zlen d)) with (length d) by (unfold zlen; lia). rewrite skipn_app, skipn_all, Nat.sub_diag.
    cbn [skipn app]. rewrite EP, !zlen_app in IH. rewrite !zlen_app.
    pose proof (zlen_nonneg P''). pose proof (zlen_nonneg d). pose proof (zlen_nonneg got).
    destruct (Z.eq_dec (zlen d) 0) as [E|E]; [|lia].
    assert (d = []) as -> by (destruct d; [reflexivity | rewrite zlen_cons in E; pose proof (zlen_nonneg d); lia]).
    destruct P1 as [|b P1]; [|exfalso; apply (Hd Ha); [discriminate | reflexivity]].
    cbn [app] in EP. subst P''. change (zlen (@nil Z)) with 0 in *. lia.
Qed.

Lemma between_sent cs msgs S h got w P' : little cs = little c -> Forall (sendable coll) msgs ->
  send_all cs coll vector_tx msgs [] = Ok S -> S = got ++ P' -> polled_to h got w ->
  (exists k, map content (w_log w) = firstn k msgs)
  /\ zlen (held w) < max_message_length coll
  /\ (P' = [] -> map content (w_log w) = msgs /\ held w = []).
Proof.
  intros HE HM HS ES HBt. pose proof (steady_tame _ Hb) as Ht.
  destruct HBt as (ops & rs & Hh & _ & _ & Hpr & Hem).
  destruct got as [|g got].
  - destruct (Hem eq_refl) as (El & Eh). rewrite El, Eh. cbn [map]. conj.
    + exists O. reflexivity.
    + pose proof (max_ge5 _ Hst). change (zlen []) with 0. lia.
    + intros ->. cbn [app] in ES. subst S.
      destruct (send_all_vector cs coll msgs Hst HM []) as (fs & HF & E). rewrite HS in E. cbn [app] in E.
      injection E as E. destruct HF as [|mv f msgs fs Hf HF]; [auto|]. exfalso.
      destruct Hf as (id & _ & _ & ->). cbn [concat] in E. destruct (mc_env coll); discriminate.
  - specialize (Hpr ltac:(discriminate)).
    destruct (never_full_lemma c coll Hst Hsafe beh _ _ _ Ht Hpr) as (HN & _).
    destruct (stream_lemma c coll Hst Hsafe beh Ht _ _ _ Hpr) as (ms & HSc & HF).
    rewrite completed_all in HF by assumption.
    destruct (send_all_frames cs coll msgs S Hst HM HS) as (fds & HScS & HFS). rewrite HE in HFS.
    assert (map content (w_log w) = firstn (length ms) msgs) as EL.
    { rewrite ES in HScS. destruct (scan_prefix _ _ _ _ _ _ _ HSc HScS) as (ms' & ->).
      apply Forall2_app_inv_r in HFS as (l1 & l2 & F1 & F2 & ->).
      rewrite <- (forall2_length _ _ _ F1), firstn_app, firstn_all, Nat.sub_diag. cbn [firstn]. rewrite app_nil_r.
      apply (delivered_content c coll l1 ms (w_log w) Hst); auto. apply Forall_app in HM. apply HM. }
    conj; [eauto | assumption |]. intros ->. rewrite app_nil_r in ES. rewrite <- ES in Hpr.
    pose proof (lossless_lemma c coll Hst Hsafe cs beh _ _ _ _ Ht HE HM HS Hpr) as (H4 & H5).
    rewrite completed_all in H4 by assumption. auto.
Qed.

Lemma polls_sent cs msgs S h n w P' : little cs = little c -> Forall (sendable coll) msgs ->
  send_all cs coll vector_tx msgs [] = Ok S ->
  Polls serves fuel c coll beh n (start coll (Some h)) S w P' ->
  (exists k, map content (w_log w) = firstn k msgs)
  /\ zlen (held w) < max_message_length coll
  /\ (P' = [] -> map content (w_log w) = msgs /\ held w = []).
Proof.
  intros HE HM HS H. pose proof (steady_tame _ Hb) as Ht.
  pose proof (send_all_bytes cs coll msgs S Hst HM HS) as HB.
  pose proof (sent_decodable c coll Hst cs msgs S HE HM HS) as HD.
  destruct (polls_between serves h S n w P' [] (fun _ _ x => x) HB) as (got & ES & HBt);
    [rewrite app_nil_r; assumption | assumption |].
  exact (between_sent cs msgs S h got w P' HE HM HS ES HBt).
Qed.

Lemma polls_possible cs msgs S h n w P' a : little cs = little c -> Forall (sendable coll) msgs ->
  send_all cs coll vector_tx msgs [] = Ok S ->
  Polls serves fuel c coll beh n (start coll (Some h)) S w P' -> serves a P' ->
  exists w1 k w2 r, step fuel c coll beh (OpReceive a) w = Ok (w1, RetCount k)
    /\ step fuel c coll beh OpProcess w1 = Ok (w2, RetProcess (Returned r))
    /\ Polls serves fuel c coll beh (Datatypes.S n) (start coll (Some h)) S w2 (skipn (Z.to_nat k) P').
Proof.
  intros HE HM HS. apply polls_progress.
  - exact (send_all_bytes cs coll msgs S Hst HM HS).
  - exact (sent_decodable c coll Hst cs msgs S HE HM HS).
Qed.

Lemma polls_weaken (ok ok' : adapter -> list Z -> Prop) n w P w' P' : (forall a Q, ok a Q -> ok' a Q) ->
  Polls ok fuel c coll beh n w P w' P' -> Polls ok' fuel c coll beh n w P w' P'.
Proof. intros H. induction 1; econstructor; eauto. Qed.

Lemma polls_bound cs msgs S h n w P' : little cs = little c -> Forall (sendable coll) msgs ->
  send_all cs coll vector_tx msgs [] = Ok S ->
  Polls eager fuel c coll beh n (start coll (Some h)) S w P' ->
  zlen S - Z.of_nat n >= zlen P' \/ (P' = [] /\ map content (w_log w) = msgs /\ held w = []).
Proof.
  intros HE HM HS H.
  pose proof (polls_eager h S n w P' (send_all_bytes cs coll msgs S Hst HM HS)
                (sent_decodable c coll Hst cs msgs S HE HM HS) H) as HL.
  destruct (Z_le_gt_dec 1 (zlen P')) as [L|L]; [left; lia|]. right.
  assert (P' = []) as -> by (destruct P'; [reflexivity | rewrite zlen_cons in L; pose proof (zlen_nonneg P'); lia]).
  split; [reflexivity|].
  apply (polls_sent cs msgs S h n w [] HE HM HS); [|reflexivity]. eapply polls_weaken; [|exact H]. intros a Q Ha. apply Ha.
Qed.
(** Reading a port turn by turn through the adapters [port], everything is delivered after at
    most as many turns as there are bytes. *)
Lemma polls_drain cs msgs S h (port : list Z -> adapter) : little cs = little c -> Forall (sendable coll) msgs ->
  send_all cs coll vector_tx msgs [] = Ok S -> (forall P, bytes_ok P -> eager (port P) P) ->
  exists n w, Z.of_nat n <= zlen S
    /\ Polls (fun a P => a = port P) fuel c coll beh n (start coll (Some h)) S w []
    /\ map content (w_log w) = msgs /\ held w = [].
Proof.
  intros HE HM HS Hport. pose proof (send_all_bytes cs coll msgs S Hst HM HS) as HB.
  set (via := fun (a : adapter) (P : list Z) => a = port P).
  set (via' := fun (a : adapter) (P : list Z) => a = port P /\ bytes_ok P).
  assert (forall a P, via' a P -> eager a P) as HV by (intros a P (-> & HP); apply Hport, HP).
  assert (forall n, (exists k w, Z.of_nat k <= Z.of_nat n /\ Polls via' fuel c coll beh k (start coll (Some h)) S w [])
            \/ (exists w P', bytes_ok P' /\ Polls via' fuel c coll beh n (start coll (Some h)) S w P')) as HN.
  { induction n as [|n IH]; [right; exists (start coll (Some h)), S; split; [assumption | constructor]|].
    destruct IH as [(k & w & Hk & H)|(w & P' & HP & H)]; [left; exists k, w; split; [lia | assumption]|].
    assert (Polls serves fuel c coll beh n (start coll (Some h)) S w P') as H'.
    { eapply polls_weaken; [|exact H]. intros a Q Ha. apply HV, Ha. }
    destruct (polls_possible cs msgs S h n w P' (port P') HE HM HS H') as (w1 & k & w2 & r & E1 & E2 & _);
      [apply Hport, HP|].
    right. exists w2, (skipn (Z.to_nat k) P'). split.
    - unfold bytes_ok in *. rewrite <- (firstn_skipn (Z.to_nat k) P') in HP. apply Forall_app in HP. apply HP.
    - eapply polls_turn; [exact H | split; [reflexivity | assumption] | exact E1 | exact E2 | reflexivity]. }
  assert (exists k w, Z.of_nat k <= zlen S /\ Polls via' fuel c coll beh k (start coll (Some h)) S w []) as (k & w & Hk & H).
  { destruct (HN (length S)) as [(k & w & Hk & H)|(w & P' & HP & H)]; [exists k, w; split; [unfold zlen; lia | assumption]|].
    assert (Polls eager fuel c coll beh (length S) (start coll (Some h)) S w P') as H'
      by (eapply polls_weaken; [|exact H]; exact HV).
    exists (length S), w. split; [unfold zlen; lia|].
    assert (P' = []) as ->; [|assumption].
    destruct (polls_bound cs msgs S h _ w P' HE HM HS H') as [L|(-> & _)]; [|reflexivity].
    destruct P'; [reflexivity|]. rewrite zlen_cons in L. pose proof (zlen_nonneg P'). unfold zlen in L at 1. lia. }
  exists k, w. split; [assumption|]. split.
  - eapply polls_weaken; [|exact H]. intros a P Ha. apply Ha.
  - apply (polls_sent cs msgs S h k w [] HE HM HS); [|reflexivity].
    eapply polls_weaken; [|exact H]. intros a Q Ha. apply HV, Ha.
Qed.
End Poll.

Lemma shipped_ports_lemma P : bytes_ok P ->
  eager (vrpn_adapter (fifo_read P)) P /\ eager (arduino_adapter (zlen P) (fifo_read P)) P
  /\ ad_available (vrpn_adapter (fifo_read P)) = 255
  /\ ad_available (arduino_adapter (zlen P) (fifo_read P)) = Z.min 255 (zlen P).
Proof.
  intros H. destruct (fifo_eager P H) as (A & B). split; [exact A|]. split; [exact B|]. split; [reflexivity|].
  cbn [ad_available arduino_adapter]. apply trunc_small. pose proof (zlen_nonneg P). change (2 ^ 8) with 256. lia.
Qed.
