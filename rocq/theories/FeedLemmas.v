(** Receiving a stream chunk by chunk: every call returns. *)
From Verif Require Export HandlerLemmas.

(** Appending a chunk and processing, for each chunk. *)
Definition feed (chunks : list (list Z)) : list op :=
  concat (map (fun ch => [OpAppend ch; OpProcess]) chunks).

Lemma run_app fuel c coll beh ops1 : forall ops2 w,
  run fuel c coll beh (ops1 ++ ops2) w
  = do (w1, rs1) <- run fuel c coll beh ops1 w;
    do (w2, rs2) <- run fuel c coll beh ops2 w1; Ok (w2, rs1 ++ rs2).
Proof.
  induction ops1 as [|o ops1 IH]; intros ops2 w; cbn [run app bind].
  - destruct (run fuel c coll beh ops2 w) as [[w2 rs2]| | | |]; reflexivity.
  - destruct (step fuel c coll beh o w) as [[w1 r]| | | |]; cbn [bind]; try reflexivity. rewrite IH.
    destruct (run fuel c coll beh ops1 w1) as [[w2 rs2]| | | |]; cbn [bind]; try reflexivity.
    destruct (run fuel c coll beh ops2 w2) as [[w3 rs3]| | | |]; reflexivity.
Qed.

Lemma appended_by_steady beh : steady beh -> forall new log, appended_by beh log new = [].
Proof.
  intros H. induction new as [|d new IH]; intros log; cbn [appended_by]; [reflexivity|].
  rewrite steady_appended by assumption. apply IH.
Qed.

Lemma Proc_steady_handler coll little beh s s' r : steady beh -> Proc coll little beh s s' r ->
  s_handler s <> None -> s_handler s' <> None.
Proof.
  intros Hb. induction 1 as [X h last log U | b X h last log s' r D HP IH
                 | f m id p vs s h last log s' r F E log1 acts HT Hfit HP IH
                 | f m id p vs s h last log F E log1 acts HT Hfit]; cbn [s_handler] in *; auto.
  - intros _. apply IH. destruct (steady_handler beh log1 h Hb) as (h' & Eh). fold acts in Eh. rewrite Eh. discriminate.
  - intros _. destruct (steady_handler beh log1 h Hb) as (h' & Eh). fold acts in Eh. rewrite Eh. discriminate.
Qed.

Lemma Proc_no_throw coll little beh s s' r : (forall log, hr_throws (beh log) = false) ->
  Proc coll little beh s s' r -> r <> None.
Proof.
  intros Hb. induction 1 as [X h last log U | b X h last log s' r D HP IH
                 | f m id p vs s h last log s' r F E log1 acts HT Hfit HP IH
                 | f m id p vs s h last log F E log1 acts HT Hfit]; auto; try discriminate.
  - destruct r; [discriminate | congruence].
  - exfalso. unfold log1 in HT. rewrite Hb in HT. discriminate.
Qed.

Section Feed.
Context (c : config) (coll : collection).
Hypothesis Hst : static_ok coll = true.
Hypothesis Hsafe : index_safe c (capacity coll).
Context (beh : hbehav).
Hypothesis Hb : steady beh.
Hypothesis Hnt : forall log, hr_throws (beh log) = false.
Context (fuel : nat).
Hypothesis Hfuel : (Z.to_nat (capacity coll) < fuel)%nat.

Lemma prefix_decodable h0 ops P rs w T : history c coll beh (start coll h0) ops P rs w ->
  decodable coll (little c) (P ++ T) -> decodable coll (little c) (held w).
Proof.
  intros H HD ms r HS. destruct (history_consumed c coll Hst Hsafe beh (steady_tame _ Hb) _ _ _ _ _ H) as (ms0 & HC & _).
  specialize (HC [] ms r). rewrite !app_nil_r in HC. specialize (HC HS).
  destruct (scan_total coll (P ++ T)) as (MS & R & HT). destruct (scan_prefix _ _ _ _ _ _ _ HC HT) as (ms' & ->).
  specialize (HD _ _ HT). rewrite !Forall_app in HD. apply HD.
Qed.

Lemma feed_step h0 ops P rs w ch T : history c coll beh (start coll h0) ops P rs w ->
  rx_has_handler (w_rx w) = true -> bytes_ok ch -> zlen ch <= rx_available coll (w_rx w) ->
  decodable coll (little c) ((P ++ ch) ++ T) ->
  exists w' rs', run fuel c coll beh [OpAppend ch; OpProcess] w = Ok (w', rs')
    /\ history c coll beh (start coll h0) (ops ++ [OpAppend ch; OpProcess]) (P ++ ch) (rs ++ rs') w'
    /\ processed c coll beh h0 (P ++ ch) w' /\ rx_has_handler (w_rx w') = true.
Proof.
  intros H Hh Hch Hfit HD. pose proof (steady_tame _ Hb) as Ht.
  destruct (space_lemma c coll Hst Hsafe beh h0 ops P rs w Ht H) as (_ & _ & HA & _).
  destruct (HA ch Hch Hfit fuel) as (w1 & E1 & Hh1 & Hl1 & _).
  assert (history c coll beh (start coll h0) (ops ++ [OpAppend ch]) (P ++ ch) (rs ++ [RetUnit]) w1) as H1.
  { apply (hist_snoc c coll beh _ _ _ _ w (OpAppend ch)); [assumption | split; assumption | exists fuel; assumption]. }
  assert (rx_has_handler (w_rx w1) = true) as Hhh.
  { pose proof (history_sim c coll Hst Hsafe beh Ht _ _ _ _ _ H) as Hs.
    destruct (other_step c coll Hst Hsafe beh Ht (OpAppend ch) w w1 RetUnit Hs) as (_ & _ & _ & _ & E & _);
      [split; assumption | exists fuel; assumption | discriminate |].
    unfold rx_has_handler in *. rewrite E. assumption. }
  pose proof (history_sim c coll Hst Hsafe beh Ht _ _ _ _ _ H1) as Hs1.
  pose proof (prefix_decodable _ _ _ _ _ _ H1 HD) as HD1.
  destruct (step_progress c coll Hst Hsafe beh OpProcess w1 (view w1) fuel Hb Hs1 I HD1 Hfuel) as (w2 & r & E2).
  assert (returns c coll beh OpProcess w1 w2 r) as Hr by (exists fuel; assumption).
  destruct (returns_process c coll Hst Hsafe beh Ht _ _ _ Hs1 Hhh Hr) as (k & HP & -> & _).
  assert (received coll beh OpProcess w1 w2 = []) as Er by (apply appended_by_steady; assumption).
  exists w2. eexists. split; [|split; [|split]].
  - cbn [run]. rewrite E1. cbn [bind]. rewrite E2. reflexivity.
  - pose proof (hist_snoc c coll beh _ _ _ _ w1 OpProcess _ w2 H1 I Hr) as H2. rewrite Er, app_nil_r, <- !app_assoc in H2. exact H2.
  - destruct k as [k|]; [|exfalso; exact (Proc_no_throw _ _ _ _ _ _ Hnt HP eq_refl)].
    exists (ops ++ [OpAppend ch]), (P ++ ch), (rs ++ [RetUnit]), w1, (Z.of_nat k mod 256).
    rewrite Er, app_nil_r. auto.
  - pose proof (Proc_steady_handler _ _ _ _ _ _ Hb HP (has_handler_some w1 Hhh)) as Hn.
    unfold rx_has_handler. cbn [view s_handler] in Hn. destruct (rx_functor (w_rx w2)); congruence.
Qed.

(** The whole stream. *)
Lemma feed_lemma h chunks : Forall (fun ch => bytes_ok ch /\ zlen ch <= 2 * max_message_length coll) chunks ->
  decodable coll (little c) (concat chunks) ->
  exists w rs, run fuel c coll beh (feed chunks) (start coll (Some h)) = Ok (w, rs)
    /\ history c coll beh (start coll (Some h)) (feed chunks) (concat chunks) rs w
    /\ (chunks <> [] -> processed c coll beh (Some h) (concat chunks) w).
Proof.
  intros HF HD.
  assert (exists w rs, run fuel c coll beh (feed chunks) (start coll (Some h)) = Ok (w, rs)
    /\ history c coll beh (start coll (Some h)) (feed chunks) (concat chunks) rs w
    /\ rx_has_handler (w_rx w) = true
    /\ 2 * max_message_length coll <= rx_available coll (w_rx w)
    /\ (chunks <> [] -> processed c coll beh (Some h) (concat chunks) w)) as (w & rs & H1 & H2 & _ & _ & H3).
  2:{ eauto. }
  assert (forall T, decodable coll (little c) (concat chunks ++ T) ->
    exists w rs, run fuel c coll beh (feed chunks) (start coll (Some h)) = Ok (w, rs)
    /\ history c coll beh (start coll (Some h)) (feed chunks) (concat chunks) rs w
    /\ rx_has_handler (w_rx w) = true
    /\ 2 * max_message_length coll <= rx_available coll (w_rx w)
    /\ (chunks <> [] -> processed c coll beh (Some h) (concat chunks) w)) as HH.
  2:{ apply (HH []). rewrite app_nil_r. exact HD. }
  clear HD. induction chunks as [|ch chunks IH] using rev_ind; intros T HD.
  - exists (start coll (Some h)), []. conj; auto; try reflexivity; try congruence.
    + constructor.
    + rewrite (sim_available coll Hst _ _ (start_sim coll Hst (Some h))). cbn [s_bytes]. change (zlen []) with 0.
      pose proof (max_ge5 _ Hst). unfold capacity, receive_buffer_size. lia.
  - rewrite Forall_app in HF. destruct HF as (HF & HF'). inversion HF' as [|? ? (B1 & B2) _]; subst.
    rewrite concat_app in HD. cbn [concat] in HD. rewrite app_nil_r in HD.
    destruct (IH HF (ch ++ T)) as (w & rs & H1 & H2 & H3 & H4 & _).
    { rewrite app_assoc. exact HD. }
    destruct (feed_step _ _ _ _ _ ch T H2 H3 B1 ltac:(lia) HD) as (w' & rs' & E & HH & HP & Hh).
    exists w', (rs ++ rs'). unfold feed. rewrite map_app, !concat_app. cbn [map concat]. rewrite !app_nil_r.
    conj; auto.
    + rewrite run_app. fold (feed chunks). rewrite H1. cbn [bind]. rewrite E. reflexivity.
    + destruct (never_full_lemma c coll Hst Hsafe beh _ _ _ (steady_tame _ Hb) HP) as (_ & _ & HN & _). lia.
Qed.

Lemma sent_decodable cs msgs S : little cs = little c -> Forall (sendable coll) msgs ->
  send_all cs coll vector_tx msgs [] = Ok S -> decodable coll (little c) S.
Proof.
  intros HE HM HS. destruct (send_all_frames cs coll msgs S Hst HM HS) as (fds & HSc & HF).
  intros ms r HS2. destruct (scan_det _ _ _ _ HSc _ _ HS2) as (<- & _). rewrite HE in HF.
  clear - HF. induction HF as [|[m vs] fd msgs fds (H1 & H2) HF IH]; constructor; auto.
  cbn [fst snd] in *. rewrite H1. eauto.
Qed.

Lemma feed_sent_lemma cs msgs S h chunks : little cs = little c -> Forall (sendable coll) msgs ->
  send_all cs coll vector_tx msgs [] = Ok S -> S = concat chunks -> chunks <> [] ->
  Forall (fun ch => zlen ch <= 2 * max_message_length coll) chunks ->
  exists w rs, run fuel c coll beh (feed chunks) (start coll (Some h)) = Ok (w, rs)
    /\ map content (w_log w) = msgs /\ held w = [].
Proof.
  intros HE HM HS E Hne HC.
  pose proof (send_all_bytes cs coll msgs S Hst HM HS) as HB.
  destruct (feed_lemma h chunks) as (w & rs & H1 & H2 & H3).
  - rewrite E in HB. clear - HB HC. induction chunks as [|ch chunks IH]; constructor; cbn [concat] in HB;
      apply Forall_app in HB as (HB1 & HB2); inversion HC; subst; auto.
  - rewrite <- E. eapply sent_decodable; eauto.
  - exists w, rs. split; [assumption|]. specialize (H3 Hne). rewrite <- E in H3.
    pose proof (lossless_lemma c coll Hst Hsafe cs beh _ _ _ _ (steady_tame _ Hb) HE HM HS H3) as (H4 & H5).
    rewrite completed_all in H4 by assumption. auto.
Qed.
End Feed.
