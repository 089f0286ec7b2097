(** A handler that calls processMessages once, guarded against calling it again. *)
From Verif Require Export AppendLemmas.

(** ** The log only grows, and only later behaviour matters *)
Lemma run_acts_log c coll proc :
  (forall w w' p, proc w = Ok (w', p) -> (length (w_log w) <= length (w_log w'))%nat) ->
  forall acts w w' t, run_acts c coll proc acts w = Ok (w', t) -> (length (w_log w) <= length (w_log w'))%nat.
Proof.
  intros Hp. induction acts as [|a acts IH]; intros w w' t H; cbn [run_acts] in H.
  - assert (w = w') as <- by congruence. lia.
  - destruct a as [h| |d|]; cbn [bind] in H.
    + apply IH in H. exact H.
    + apply IH in H. exact H.
    + destruct (rx_append c coll d (w_rx w)) as [r| | | |]; try discriminate. cbn [bind] in H. apply IH in H. exact H.
    + destruct (proc w) as [[w1 p]| | | |] eqn:E; try discriminate. cbn [bind] in H. apply Hp in E.
      destruct p; [apply IH in H; lia|]. assert (w1 = w') as <- by congruence. exact E.
Qed.

Lemma process_loop_log c coll beh : forall fuel n w w' p, process_loop fuel c coll beh n w = Ok (w', p) ->
  (length (w_log w) <= length (w_log w'))%nat.
Proof.
  induction fuel as [|fuel IH]; intros n w w' p H; [discriminate|]. cbn [process_loop] in H.
  destruct (check c coll (rx_recv (w_rx w))) as [[found e]| | | |]; try discriminate. cbn [bind] in H.
  destruct found; cbn [negb] in H; [|injection H as <- <-; cbn; lia].
  destruct (er_current_id c e) as [id| | | |]; try discriminate. cbn [bind] in H.
  match type of H with context [invoke ?a ?b ?d ?q ?i ?v] => destruct (invoke a b d q i v) as [[w2 threw]| | | |] eqn:E end;
    try discriminate. cbn [bind] in H.
  assert (length (w_log w) <= length (w_log w2))%nat as H2.
  { unfold invoke in E. destruct (rx_invoker _); [|discriminate]. destruct (rx_functor _); [|discriminate].
    destruct (negb _); [discriminate|].
    destruct (deserialize_message _ _ _ _) as [[[m vs]|]| | | |]; try discriminate; cbn [bind] in E.
    - match type of E with context [run_acts ?a ?b ?q ?i ?v] => destruct (run_acts a b q i v) as [[w3 t3]| | | |] eqn:E3 end;
        try discriminate. cbn [bind] in E. assert (w3 = w2) as -> by congruence.
      apply run_acts_log in E3.
      + cbn [w_log w_set_last w_set_recv] in E3. rewrite app_length in E3. lia.
      + intros v v' q Hq. destruct (rx_has_handler _); [eapply IH; exact Hq|]. assert (v = v') as <- by congruence. lia.
    - injection E as <- <-. cbn. lia. }
  destruct threw; [injection H as <- <-; exact H2|].
  destruct (er_pop_message c coll _) as [e3| | | |]; try discriminate. cbn [bind] in H. apply IH in H. cbn [w_log w_set_recv] in H. lia.
Qed.

Lemma run_acts_ext c coll p q k :
  (forall w, (k <= length (w_log w))%nat -> p w = q w) ->
  (forall w w' r, p w = Ok (w', r) -> (length (w_log w) <= length (w_log w'))%nat) ->
  forall acts w, (k <= length (w_log w))%nat -> run_acts c coll p acts w = run_acts c coll q acts w.
Proof.
  intros Hpq Hl. induction acts as [|a acts IH]; intros w Hk; [reflexivity|]. cbn [run_acts].
  destruct a as [h| |d|]; cbn [bind]; try (apply IH; exact Hk).
  - destruct (rx_append c coll d (w_rx w)) as [r| | | |]; try reflexivity. cbn [bind]. apply IH. exact Hk.
  - rewrite <- (Hpq w Hk). destruct (p w) as [[w1 r]| | | |] eqn:E; try reflexivity. cbn [bind].
    destruct r; [|reflexivity]. apply IH. apply Hl in E. lia.
Qed.

Lemma process_loop_ext c coll beh beh' k : (forall log, (k < length log)%nat -> beh log = beh' log) ->
  forall fuel n w, (k <= length (w_log w))%nat ->
  process_loop fuel c coll beh n w = process_loop fuel c coll beh' n w.
Proof.
  intros Hb. induction fuel as [|fuel IH]; intros n w Hk; [reflexivity|]. cbn [process_loop].
  destruct (check c coll (rx_recv (w_rx w))) as [[found e]| | | |]; try reflexivity. cbn [bind].
  destruct found; cbn [negb]; [|reflexivity].
  destruct (er_current_id c e) as [id| | | |]; try reflexivity. cbn [bind].
  set (w1 := w_set_last id (w_set_recv e w)).
  set (pf := fun b v => if rx_has_handler (w_rx v) then process_loop fuel c coll b 0 v else Ok (v, Returned 0)).
  change (fun w0 => if rx_has_handler (w_rx w0) then process_loop fuel c coll beh 0 w0 else Ok (w0, Returned 0)) with (pf beh).
  change (fun w0 => if rx_has_handler (w_rx w0) then process_loop fuel c coll beh' 0 w0 else Ok (w0, Returned 0)) with (pf beh').
  assert (forall v v' r, pf beh v = Ok (v', r) -> (length (w_log v) <= length (w_log v'))%nat) as Hl.
  { intros v v' r H. unfold pf in H. destruct (rx_has_handler (w_rx v)); [eapply process_loop_log; exact H|].
    assert (v = v') as <- by congruence. lia. }
  assert (invoke c coll beh (pf beh) id w1 = invoke c coll beh' (pf beh') id w1) as Ei.
  { unfold invoke. destruct (rx_invoker (w_rx w1)); [|reflexivity]. destruct (rx_functor (w_rx w1)) as [h|]; [|reflexivity].
    destruct (negb _); [reflexivity|].
    destruct (deserialize_message c coll (rx_recv (w_rx w1)) id) as [[[m vs]|]| | | |]; try reflexivity. cbn [bind].
    rewrite <- Hb by (cbn; rewrite app_length; cbn; lia).
    rewrite (run_acts_ext c coll (pf beh) (pf beh') k); [reflexivity | | assumption | cbn; rewrite app_length; lia].
    intros v Hv. unfold pf. destruct (rx_has_handler (w_rx v)); [apply IH; assumption | reflexivity]. }
  rewrite <- Ei.
  destruct (invoke c coll beh (pf beh) id w1) as [[w2 threw]| | | |] eqn:E; try reflexivity. cbn [bind].
  destruct threw; [reflexivity|].
  destruct (er_pop_message c coll (rx_recv (w_rx w2))) as [e3| | | |]; try reflexivity. cbn [bind]. apply IH.
  cbn [w_log w_set_recv]. enough (length (w_log w) <= length (w_log w2))%nat by lia.
  clear - E Hl. unfold invoke in E. destruct (rx_invoker (w_rx w1)); [|discriminate]. destruct (rx_functor (w_rx w1)); [|discriminate].
  destruct (negb _); [discriminate|].
  destruct (deserialize_message _ _ _ _) as [[[m vs]|]| | | |]; try discriminate; cbn [bind] in E.
  - match type of E with context [run_acts ?a ?b ?q ?i ?v] => destruct (run_acts a b q i v) as [[w3 t3]| | | |] eqn:E3 end;
      try discriminate. cbn [bind] in E. assert (w3 = w2) as -> by congruence.
    apply run_acts_log in E3; [|exact Hl]. cbn in E3. rewrite app_length in E3. lia.
  - assert (w1 = w2) as <- by congruence. cbn. lia.
Qed.

(** The behaviour from call [k + 1] on; earlier calls do nothing. *)
Definition later (k : nat) (beh : hbehav) : hbehav :=
  fun log => if Nat.leb (length log) k then HResult [] false else beh log.

Section Reentry.
Context (c : config) (coll : collection).
Hypothesis Hst : static_ok coll = true.
Hypothesis Hsafe : index_safe c (capacity coll).

Lemma reentry_lemma beh beh0 h0 ops S rs w h fd ms r vs fuel : tame beh0 -> aborts c = true ->
  history c coll beh0 (start coll h0) ops S rs w ->
  rx_functor (w_rx w) = Some h -> Scan coll (held w) (fd :: ms) r -> decodable coll (little c) (held w) ->
  encodes (little c) (mt_fields (f_message fd)) vs (f_payload fd) ->
  let log1 := w_log w ++ [Delivery h (f_message fd) vs] in
  beh log1 = HResult [AProcess] false ->
  (forall log, (length log1 < length log)%nat -> hr_acts (beh log) = [] /\ hr_throws (beh log) = false) ->
  (Z.to_nat (capacity coll) + 1 < fuel)%nat ->
  step fuel c coll beh OpProcess w = AssertFail.
Proof.
  intros Ht Has H Hh HS HD HE log1 Hb Hl Hf. pose proof (history_sim c coll Hst Hsafe beh0 Ht _ _ _ _ _ H) as Hs.
  destruct (scan_first coll _ _ _ _ HS) as (f & s0 & HK & F & HS').
  destruct fuel as [|fuel]; [lia|].
  rewrite step_process by (unfold rx_has_handler; rewrite Hh; reflexivity). cbn [process_loop].
  destruct (check_frame c coll Hst w _ f _ _ _ s0 Hs HK F) as (e & -> & He & Hs1). cbn [bind negb].
  unfold er_current_id. rewrite He. cbn [bind]. set (w1 := w_set_last (f_id fd) (w_set_recv e w)) in *.
  unfold invoke. pose proof Hs1 as (R & HB & Hfu & Hi & Hla & Hlog). cbn [s_bytes s_handler s_last s_log view] in *.
  rewrite Hfu, Hi, Hh. cbn [option_map]. rewrite Z.eqb_refl. cbn [negb].
  rewrite (deserialize_message_complete c coll Hst _ _ _ _ _ _ _ R F HE). cbn [bind].
  rewrite Hlog. fold log1. rewrite Hb. cbn [hr_acts hr_throws run_acts w_rx].
  unfold rx_has_handler. rewrite Hfu, Hh.
  set (w2 := World (w_rx w1) log1).
  assert (sim coll w2 (SState (f ++ s0) (Some h) (Some (f_id fd)) log1)) as Hs2.
  { unfold sim. conj; auto; cbn [s_handler w_rx w2]; congruence. }
  rewrite (process_loop_ext c coll beh (later (length log1) beh) (length log1)).
  2:{ intros log Hlt. unfold later. rewrite (proj2 (Nat.leb_gt _ _) Hlt). reflexivity. }
  2:{ cbn [w2 w_log]. lia. }
  assert (steady (later (length log1) beh)) as Hst2.
  { intros log a Ha. unfold later in Ha. destruct (Nat.leb (length log) (length log1)) eqn:El; [destruct Ha|].
    apply Nat.leb_gt in El. rewrite (proj1 (Hl log El)) in Ha. destruct Ha. }
  assert (forall log, hr_throws (later (length log1) beh log) = false) as Hnt.
  { intros log. unfold later. destruct (Nat.leb (length log) (length log1)) eqn:El; [reflexivity|].
    apply Nat.leb_gt in El. exact (proj2 (Hl log El)). }
  destruct (skips_suffix coll _ _ HK) as (K & EK).
  assert (zlen (f ++ s0) <= capacity coll) as Hfit.
  { destruct Hs2 as (R2 & _). exact (rep_size_le _ _ _ R2). }
  destruct (Proc_steady_exists coll (little c) _ Hst2 (length (f ++ s0)) (f ++ s0) h (Some (f_id fd)) log1)
    as (s' & k & HP & HLL); [lia | assumption | |].
  { intros ms' r' HS2. apply (HD ms' r'). eapply skips_scan; eassumption. }
  destruct (process_complete c coll Hst _ (steady_tame _ Hst2) Hsafe fuel 0 w2 _ _ _ Hs2 HP) as (w3 & -> & Hs3).
  { cbn [s_log]. unfold zlen in Hfit. lia. }
  { lia. }
  cbn [bind]. destruct k as [k|]; [|exfalso; exact (Proc_no_throw _ _ _ _ _ _ Hnt HP eq_refl)].
  cbn [bind orb]. unfold er_pop_message. rewrite (aborts_mode c Has).
  pose proof (Proc_returned_undecided _ _ _ _ _ _ HP) as U.
  destruct (check_sim c coll Hst w3 s' Hs3) as (ok & e3 & Y & HC & HSk & _ & HY). rewrite HC. cbn [bind].
  destruct ok; [|reflexivity]. exfalso. destruct HY as (f' & m' & id' & p' & s1 & -> & F' & _).
  inversion HSk as [Y0 E0 E1|b X Y0 D HSk' E0 E1].
  - rewrite E1 in U. eapply frame_not_undecided; eassumption.
  - destruct D as [D _]. apply D. rewrite E0. assumption.
Qed.
End Reentry.
