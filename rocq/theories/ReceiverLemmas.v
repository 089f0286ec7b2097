(** Lemmas about histories of calls on a receiver, behind the property theorems. *)
From Verif Require Export ScanLemmas BufferLemmas.

Ltac conj := repeat match goal with |- _ /\ _ => split end.

(** ** Facts about specification processing *)
Section Proc.
Context (coll : collection) (little : bool) (beh : hbehav).

(** Every call is for a frame in the bytes given. *)
Lemma Proc_frames s s' r : Proc coll little beh s s' r ->
  forall new, s_log s' = s_log s ++ new ->
  Forall (fun d => exists pre f fd post, s_bytes s ++ appended_by beh (s_log s) new = pre ++ f ++ post
            /\ is_frame coll f (f_message fd) (f_id fd) (f_payload fd) /\ delivers little fd d) new.
Proof.
  induction 1 as [X h last log U | b X h last log s' r D HP IH
                 | f m id p vs s h last log s' r F E log1 acts HT Hfit HP IH
                 | f m id p vs s h last log F E log1 acts HT Hfit]; intros new Hn; cbn [s_log s_bytes] in *.
  - rewrite <- (app_nil_r log) in Hn at 1. apply app_inv_head in Hn. subst new. constructor.
  - specialize (IH new Hn). eapply Forall_impl; [|exact IH]. cbn beta.
    intros d (pre & f & fd & post & H1 & H2 & H3). exists (b :: pre), f, fd, post. cbn [app]. rewrite H1. auto.
  - destruct (Proc_log_prefix _ _ _ _ _ _ HP) as (new' & Hn'). cbn [s_log] in Hn'. rewrite Hn' in Hn.
    unfold log1 in Hn at 1. rewrite <- app_assoc in Hn. apply app_inv_head in Hn. subst new.
    cbn [app appended_by]. specialize (IH new' Hn'). constructor.
    + exists [], f, (Found m id p), (s ++ appended (hr_acts (beh log1)) ++ appended_by beh log1 new').
      cbn [app f_message f_id f_payload]. split; [rewrite <- app_assoc; reflexivity|]. split; [assumption|]. split; auto.
    + eapply Forall_impl; [|exact IH]. cbn beta.
      intros d (pre & f' & fd & post & H1 & H2 & H3). exists (f ++ pre), f', fd, post.
      fold log1 acts. rewrite <- !app_assoc in *. rewrite H1. auto.
  - unfold log1 in Hn at 1. apply app_inv_head in Hn. subst new. constructor; [|constructor].
    exists [], f, (Found m id p), (s ++ appended (hr_acts (beh log1)) ++ []).
    cbn [app f_message f_id f_payload appended_by]. split; [rewrite <- app_assoc; reflexivity|]. split; [assumption|]. split; auto.
Qed.

(** The last id is that of the frame of the last call. *)
Lemma Proc_last_frame s s' r : Proc coll little beh s s' r ->
  forall new, s_log s' = s_log s ++ new ->
  (new = [] /\ s_last s' = s_last s)
  \/ exists l d pre f fd post, new = l ++ [d] /\ s_last s' = Some (f_id fd)
       /\ s_bytes s ++ appended_by beh (s_log s) new = pre ++ f ++ post
       /\ is_frame coll f (f_message fd) (f_id fd) (f_payload fd) /\ delivers little fd d.
Proof.
  induction 1 as [X h last log U | b X h last log s' r D HP IH
                 | f m id p vs s h last log s' r F E log1 acts HT Hfit HP IH
                 | f m id p vs s h last log F E log1 acts HT Hfit]; intros new Hn; cbn [s_log s_bytes s_last] in *.
  - rewrite <- (app_nil_r log) in Hn at 1. apply app_inv_head in Hn. subst new. auto.
  - destruct (IH new Hn) as [H|(l & d & pre & f & fd & post & H0 & H1 & H2 & H3 & H4)]; [auto|]. right.
    exists l, d, (b :: pre), f, fd, post. cbn [app]. rewrite H2. auto.
  - destruct (Proc_log_prefix _ _ _ _ _ _ HP) as (new' & Hn'). cbn [s_log] in Hn'. rewrite Hn' in Hn.
    unfold log1 in Hn at 1. rewrite <- app_assoc in Hn. apply app_inv_head in Hn. subst new.
    cbn [app appended_by]. right. destruct (IH new' Hn') as [[-> Hl]|(l & d & pre & f' & fd & post & H0 & H1 & H2 & H3 & H4)].
    + exists [], (Delivery h m vs), [], f, (Found m id p), (s ++ appended (hr_acts (beh log1)) ++ []).
      cbn [app f_message f_id f_payload appended_by]. split; [reflexivity|]. split; [assumption|].
      split; [rewrite <- app_assoc; reflexivity|]. split; [assumption|]. split; auto.
    + exists (Delivery h m vs :: l), d, (f ++ pre), f', fd, post. rewrite H0. split; [reflexivity|].
      split; [assumption|]. fold log1 acts. rewrite <- H0. rewrite <- !app_assoc in *. rewrite H2. auto.
  - unfold log1 in Hn at 1. apply app_inv_head in Hn. subst new. right.
    exists [], (Delivery h m vs), [], f, (Found m id p), (s ++ appended (hr_acts (beh log1)) ++ []).
    cbn [app f_message f_id f_payload appended_by]. split; [reflexivity|]. split; [reflexivity|].
    split; [rewrite <- app_assoc; reflexivity|]. split; [assumption|]. split; auto.
Qed.

(** Every delivered message took at least [q] bytes. *)
Lemma Proc_bytes q s s' r : (forall m, In m (mc_types coll) -> q <= Z.of_nat (frame_size (mc_env coll) m)) ->
  (forall log, appended (hr_acts (beh log)) = []) -> 0 <= q ->
  Proc coll little beh s s' r ->
  match r with Some n => q * Z.of_nat n <= zlen (s_bytes s) | None => True end.
Proof.
  intros Hq Ha Hq0.
  induction 1 as [X h last log U | b X h last log s' r D HP IH
                 | f m id p vs s h last log s' r F E log1 acts HT Hfit HP IH
                 | f m id p vs s h last log F E log1 acts HT Hfit]; cbn [s_bytes] in *; auto.
  - rewrite Z.mul_0_r. apply zlen_nonneg.
  - destruct r; [|exact I]. rewrite zlen_cons. lia.
  - destruct r; [|exact I]. cbn [option_map]. unfold acts in IH. rewrite Ha, app_nil_r in IH.
    rewrite zlen_app. pose proof (is_frame_length _ _ _ _ _ F) as HL.
    assert (In m (mc_types coll)) as Hin by (eapply has_id_in, F). specialize (Hq m Hin). rewrite <- HL in Hq.
    unfold zlen at 1. rewrite Nat2Z.inj_succ. lia.
Qed.

End Proc.

(** ** Histories *)
Section History.
Context (c : config) (coll : collection).
Hypothesis Hst : static_ok coll = true.
Hypothesis Hsafe : index_safe c (capacity coll).
Context (beh : hbehav).
Hypothesis Ht : tame beh.

Let cap := capacity coll.

(** Everything known about a receiver after a history. *)
Definition reached (S : list Z) (w : world) (s : sstate) (ms : list found) : Prop :=
  sim coll w s /\ Consumed coll S ms (s_bytes s)
  /\ Forall2 (delivers (little c)) ms (completed beh [] (s_log s)).

Lemma reach h0 ops S rs w : history c coll beh (start coll h0) ops S rs w ->
  exists s ms, reached S w s ms.
Proof.
  intros H. apply (history_inv c coll Hst Hsafe beh Ht _ _ _ _ _ _ (start_sim coll Hst h0)) in H; auto.
Qed.

Lemma sim_held w s : sim coll w s -> s_bytes s = held w.
Proof. intros H. symmetry. apply (held_sim coll), H. Qed.

Lemma sim_log w s : sim coll w s -> s_log s = w_log w.
Proof. intros (_ & _ & _ & _ & _ & H). symmetry. exact H. Qed.

Lemma sim_functor w s : sim coll w s -> s_handler s = rx_functor (w_rx w).
Proof. intros (_ & _ & H & _). symmetry. exact H. Qed.

Lemma sim_last w s : sim coll w s -> s_last s = rx_last_id (w_rx w).
Proof. intros (_ & _ & _ & _ & H & _). symmetry. exact H. Qed.

Lemma sim_bytes_ok w s : sim coll w s -> bytes_ok (s_bytes s).
Proof. intros (_ & H & _). exact H. Qed.

Lemma sim_eta w s : sim coll w s ->
  s = SState (held w) (rx_functor (w_rx w)) (rx_last_id (w_rx w)) (w_log w).
Proof.
  intros H. destruct s as [X h last log].
  pose proof (sim_held _ _ H). pose proof (sim_log _ _ H). pose proof (sim_functor _ _ H). pose proof (sim_last _ _ H).
  cbn [s_bytes s_handler s_last s_log] in *. subst. reflexivity.
Qed.

(** The state of a receiver after any history, as a specification state. *)
Definition view (w : world) : sstate :=
  SState (held w) (rx_functor (w_rx w)) (rx_last_id (w_rx w)) (w_log w).

Lemma history_sim h0 ops S rs w : history c coll beh (start coll h0) ops S rs w -> sim coll w (view w).
Proof. intros H. destruct (reach _ _ _ _ _ H) as (s & ms & Hs & _). pose proof (sim_eta _ _ Hs) as E. unfold view. rewrite <- E. exact Hs. Qed.

Lemma history_consumed h0 ops S rs w : history c coll beh (start coll h0) ops S rs w ->
  exists ms, Consumed coll S ms (held w) /\ Forall2 (delivers (little c)) ms (completed beh [] (w_log w)).
Proof.
  intros H. destruct (reach _ _ _ _ _ H) as (s & ms & Hs & HC & HF). exists ms.
  rewrite <- (sim_held _ _ Hs), <- (sim_log _ _ Hs). auto.
Qed.

Lemma returns_step o w w' r : sim coll w (view w) -> allowed coll o w -> returns c coll beh o w w' r ->
  exists d, Step coll (little c) beh o (view w) d (view w') r /\ sim coll w' (view w').
Proof.
  intros Hs Ha (fuel & H). destruct (step_sound c coll Hst beh fuel o w _ w' r Ht Hsafe Hs Ha H) as (d & s' & HS & Hs').
  exists d. pose proof (sim_eta _ _ Hs') as E. unfold view. rewrite <- E. auto.
Qed.

Lemma returns_process w w' r : sim coll w (view w) -> rx_has_handler (w_rx w) = true ->
  returns c coll beh OpProcess w w' r ->
  exists k, Proc coll (little c) beh (view w) (view w') k /\ r = RetProcess (spec_result k) /\ sim coll w' (view w').
Proof.
  intros Hs Hh H. destruct (returns_step OpProcess w w' r Hs I H) as (d & HS & Hs').
  inversion HS as [| | | |X last log E1 E2 E3|X h last log s' k HP E1 E2 E3].
  - unfold rx_has_handler in Hh. destruct (rx_functor (w_rx w)); congruence.
  - exists k. split; [|auto]. unfold view at 1. rewrite <- H0. exact HP.
Qed.

Lemma process_new_calls w w' k : Proc coll (little c) beh (view w) (view w') k ->
  w_log w' = w_log w ++ new_calls w w'.
Proof.
  intros HP. destruct (Proc_log_prefix _ _ _ _ _ _ HP) as (new & Hn). cbn [s_log view] in Hn.
  rewrite (new_calls_app _ _ _ Hn). exact Hn.
Qed.

Lemma process_none fuel w : rx_has_handler (w_rx w) = false ->
  step fuel c coll beh OpProcess w = Ok (w, RetProcess (Returned 0)).
Proof. intros H. unfold step, process_messages. rewrite H. reflexivity. Qed.

Lemma process_cases w w' r : sim coll w (view w) -> returns c coll beh OpProcess w w' r ->
  (rx_has_handler (w_rx w) = false /\ w' = w /\ r = RetProcess (Returned 0))
  \/ (rx_has_handler (w_rx w) = true /\ exists k, Proc coll (little c) beh (view w) (view w') k
        /\ r = RetProcess (spec_result k) /\ sim coll w' (view w')).
Proof.
  intros Hs H. destruct (rx_has_handler (w_rx w)) eqn:E.
  - right. split; [reflexivity|]. apply returns_process; assumption.
  - left. destruct H as (fuel & H). rewrite process_none in H by assumption.
    injection H as <- <-. auto.
Qed.

Lemma new_calls_self w : new_calls w w = [].
Proof. unfold new_calls. apply skipn_all. Qed.

(** What the other operations do to the view. *)
Lemma other_step o w w' r : sim coll w (view w) -> allowed coll o w -> returns c coll beh o w w' r ->
  o <> OpProcess ->
  held w' = held w ++ received coll beh o w w' /\ w_log w' = w_log w /\ rx_last_id (w_rx w') = rx_last_id (w_rx w)
  /\ sim coll w' (view w')
  /\ rx_functor (w_rx w') = match o with OpSetHandler h => Some h | OpClearHandler => None | _ => rx_functor (w_rx w) end
  /\ r = match o with OpReceive _ => RetCount (zlen (received coll beh o w w')) | _ => RetUnit end.
Proof.
  intros Hs Ha Hr Ho. destruct (returns_step o w w' r Hs Ha Hr) as (d & HS & Hs').
  pose proof (sim_available coll Hst w _ Hs) as Hav.
  destruct o as [h'| |data|a|]; [| | | |congruence]; inversion HS; subst; cbn [received] in *; rewrite ?app_nil_r;
    try rewrite Hav; cbn [view s_bytes] in *; conj; auto; congruence.
Qed.

Lemma history_suffix h0 ops S rs w : history c coll beh (start coll h0) ops S rs w -> exists K, S = K ++ held w.
Proof.
  intros H. remember (start coll h0) as w0 eqn:E0.
  induction H as [w|w ops S rs w1 o r w2 H IH Ha Hr].
  - subst w. exists []. rewrite <- (sim_held _ _ (start_sim coll Hst h0)). reflexivity.
  - destruct (IH E0) as (K & HK). subst w. pose proof (history_sim _ _ _ _ _ H) as Hs.
    assert (o = OpProcess \/ o <> OpProcess) as [->|Ho] by (destruct o; auto; right; discriminate).
    + cbn [received]. destruct (process_cases _ _ _ Hs Hr) as [(_ & -> & _)|(_ & k & HP & _)].
      * rewrite new_calls_self. cbn. rewrite app_nil_r. eauto.
      * destruct (Proc_suffix _ _ _ _ _ _ HP _ (process_new_calls _ _ _ HP)) as (K2 & HK2).
        cbn [view s_bytes s_log] in HK2. exists (K ++ K2). rewrite HK, <- !app_assoc, HK2. reflexivity.
    + destruct (other_step o w1 w2 r Hs Ha Hr Ho) as (-> & _). exists K. rewrite HK, app_assoc. reflexivity.
Qed.

(** ** Stream theorems *)
Lemma processed_history h0 S w : processed c coll beh h0 S w ->
  exists ops rs, history c coll beh (start coll h0) ops S rs w.
Proof.
  intros (ops & S1 & rs & w1 & n & H & _ & Hr & ->). eexists. eexists.
  eapply hist_snoc; [exact H | exact I | exact Hr].
Qed.

Lemma processed_undecided h0 S w : processed c coll beh h0 S w -> undecided coll (held w).
Proof.
  intros (ops & S1 & rs & w1 & n & H & Hh & Hr & ->).
  pose proof (history_sim _ _ _ _ _ H) as Hs.
  destruct (returns_process _ _ _ Hs Hh Hr) as (k & HP & E & _).
  destruct k as [k|]; [|discriminate]. exact (Proc_returned_undecided _ _ _ _ _ _ HP).
Qed.

Lemma stream_lemma h0 S w : processed c coll beh h0 S w ->
  exists ms, Scan coll S ms (held w) /\ Forall2 (delivers (little c)) ms (completed beh [] (w_log w)).
Proof.
  intros H. destruct (processed_history _ _ _ H) as (ops & rs & HH).
  destruct (history_consumed _ _ _ _ _ HH) as (ms & HC & HF). exists ms. split; [|assumption].
  apply consumed_scan; [assumption|]. eapply processed_undecided; eassumption.
Qed.

End History.
