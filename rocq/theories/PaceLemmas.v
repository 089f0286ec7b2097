(** Ports whose own buffer is limited. *)
From Verif Require Export SpecPace PollLemmas InterruptLemmas Runs Protocol.

Section Port.
Context (c : config) (coll : collection).
Hypothesis Hst : static_ok coll = true.
Hypothesis Hsafe : index_safe c (capacity coll).
Context (beh : hbehav).
Hypothesis Hb : steady beh.
Hypothesis Hnt : forall log, hr_throws (beh log) = false.
Context (fuel : nat).
Hypothesis Hfuel : (Z.to_nat (capacity coll) < fuel)%nat.

Notation polled_to := (polled_to c coll beh).

Lemma polled_available h got w : polled_to h got w -> 2 * max_message_length coll + 1 <= rx_available coll (w_rx w).
Proof.
  intros (ops & rs & H & _ & _ & Hpr & Hem). pose proof (steady_tame _ Hb) as Ht. destruct got as [|g got].
  - pose proof (history_sim c coll Hst Hsafe beh Ht _ _ _ _ _ H) as Hs.
    pose proof (sim_available coll Hst _ _ Hs) as HA. cbn [view s_bytes] in HA. rewrite HA.
    destruct (Hem eq_refl) as (_ & E). rewrite E. change (zlen []) with 0.
    pose proof (max_ge5 _ Hst). unfold capacity, receive_buffer_size. lia.
  - destruct (never_full_lemma c coll Hst Hsafe beh _ _ _ Ht (Hpr ltac:(discriminate))) as (_ & _ & HN & _). lia.
Qed.

Lemma loop_turn_spec vrpn F h got s d T : polled_to h got (lp_world s) -> zlen (lp_port s) + zlen d <= F ->
  bytes_ok (lp_port s ++ d) -> decodable coll (little c) (got ++ (lp_port s ++ d) ++ T) ->
  exists taken P w', lp_port s ++ d = taken ++ P
    /\ loop_turn vrpn F fuel c coll beh d s = Ok (Looping w' P (lp_lost s))
    /\ polled_to h (got ++ taken) w'
    /\ zlen P <= Z.max 0 (zlen (lp_port s) + zlen d - turn_rate coll).
Proof.
  intros HP HF HB HD. unfold loop_turn, port_keeps, port_loses.
  assert (length (lp_port s ++ d) <= Z.to_nat F)%nat as HL by (rewrite app_length; unfold zlen in HF; lia).
  rewrite (firstn_all2 _ HL), (skipn_all2 _ HL), app_nil_r. set (Q := lp_port s ++ d) in *.
  set (a := if vrpn then vrpn_adapter (fifo_read Q) else arduino_adapter (zlen Q) (fifo_read Q)).
  destruct (shipped_ports_lemma Q HB) as (S1 & S2 & A1 & A2).
  assert (serves a Q) as Ha by (unfold a; destruct vrpn; [exact (proj1 S1) | exact (proj1 S2)]).
  assert (Z.min 255 (zlen Q) <= ad_available a mod 256) as HA.
  { pose proof (zlen_nonneg Q). unfold a. destruct vrpn; [rewrite A1 | rewrite A2]; rewrite Z.mod_small by lia; lia. }
  assert (forall n, fst (ad_read a n) = firstn (Z.to_nat n) Q) as HR by (intros n; unfold a; destruct vrpn; reflexivity).
  destruct (poll_turn c coll Hst Hsafe beh Hb Hnt fuel Hfuel h got (lp_world s) a Q T HP Ha HB HD)
    as (tk & P & w1 & w2 & r & EQ & E1 & E2 & HP' & _ & (rn & ->) & _).
  rewrite E1. cbn [bind]. rewrite E2. cbn [bind]. exists tk, P, w2. split; [exact EQ|].
  split.
  { f_equal. f_equal. rewrite EQ. unfold zlen. rewrite Nat2Z.id. apply skipn_app_exact. reflexivity. }
  split; [exact HP'|].
  destruct HP as (ops & rs & H & HP). pose proof (steady_tame _ Hb) as Ht.
  destruct (receive_lemma c coll Hst Hsafe beh _ _ _ _ _ a fuel Ht H) as (N1 & N2 & HRc).
  set (n := Z.min (ad_available a mod 256) (rx_available coll (w_rx (lp_world s)))) in *.
  destruct (HRc (proj1 Ha n N1)) as (w1' & E1' & _). rewrite E1 in E1'. injection E1' as _ EL. rewrite HR in EL.
  assert (2 * max_message_length coll + 1 <= rx_available coll (w_rx (lp_world s))) as HAv
    by (apply (polled_available h got); exists ops, rs; split; assumption).
  assert (zlen Q = zlen (lp_port s) + zlen d) as EZ by apply zlen_app. rewrite <- EZ.
  assert (zlen Q = zlen tk + zlen P) as EQ2 by (rewrite EQ; apply zlen_app).
  unfold zlen in EL at 2. rewrite firstn_length in EL. unfold turn_rate. pose proof (zlen_nonneg P). pose proof (zlen_nonneg Q).
  unfold zlen in *. lia.
Qed.

Lemma loop_turns_spec vrpn F h bursts : forall got s T, polled_to h got (lp_world s) ->
  within (turn_rate coll) F (zlen (lp_port s)) bursts -> bytes_ok (lp_port s ++ concat bursts) ->
  decodable coll (little c) (got ++ (lp_port s ++ concat bursts) ++ T) ->
  exists more P w', lp_port s ++ concat bursts = more ++ P
    /\ loop_turns vrpn F fuel c coll beh bursts s = Ok (Looping w' P (lp_lost s))
    /\ polled_to h (got ++ more) w'
    /\ zlen P <= waiting (turn_rate coll) (zlen (lp_port s)) bursts.
Proof.
  induction bursts as [|d bursts IH]; intros got s T HP HW HB HD.
  - exists [], (lp_port s), (lp_world s). cbn [concat]. rewrite !app_nil_r. split; [reflexivity|].
    split; [destruct s; reflexivity|]. split; [exact HP | cbn; lia].
  - cbn [within] in HW. destruct HW as (HF & HW). cbn [concat] in *. rewrite (app_assoc (lp_port s) d) in HB, HD.
    pose proof HB as HB'. unfold bytes_ok in HB. apply Forall_app in HB as (HB1 & HB2).
    destruct (loop_turn_spec vrpn F h got s d (concat bursts ++ T) HP HF HB1) as (tk & P & w1 & EQ & E & HP1 & HL).
    { rewrite <- (app_assoc (lp_port s ++ d)) in HD. exact HD. }
    assert (forall q q', q <= q' -> forall l, within (turn_rate coll) F q' l -> within (turn_rate coll) F q l) as HM.
    { intros q q' Hq l. revert q q' Hq. induction l as [|x l IHl]; intros q q' Hq Hw; [exact I|]. destruct Hw as (W1 & W2).
      split; [lia|]. eapply IHl; [|exact W2]. lia. }
    assert (forall l q q', q <= q' -> waiting (turn_rate coll) q l
                            <= waiting (turn_rate coll) q' l) as HMF.
    { induction l as [|x l IHl]; intros q q' Hq; [exact Hq|]. cbn [waiting]. apply IHl. lia. }
    destruct (IH (got ++ tk) (Looping w1 P (lp_lost s)) T HP1) as (more & P2 & w2 & EQ2 & E2 & HP2 & HL2).
    + cbn [lp_port]. eapply HM; [exact HL | exact HW].
    + cbn [lp_port]. rewrite EQ in HB1. apply Forall_app in HB1 as (_ & HB1). apply Forall_app. split; assumption.
    + cbn [lp_port]. rewrite EQ in HD. rewrite <- !app_assoc in *. exact HD.
    + cbn [lp_port lp_lost] in *. exists (tk ++ more), P2, w2. split; [rewrite app_assoc, EQ, <- !app_assoc, EQ2; reflexivity|].
      cbn [loop_turns]. rewrite E. cbn [bind]. split; [exact E2|]. split; [rewrite app_assoc; exact HP2|].
      cbn [waiting]. eapply Z.le_trans; [exact HL2|]. apply HMF. exact HL.
Qed.

(** C96. *)
Lemma port_bucket vrpn F cs msgs S h bursts rest : little cs = little c -> Forall (sendable coll) msgs ->
  send_all cs coll vector_tx msgs [] = Ok S -> S = concat bursts ++ rest -> within (turn_rate coll) F 0 bursts ->
  exists w P, loop_turns vrpn F fuel c coll beh bursts (Looping (start coll (Some h)) [] []) = Ok (Looping w P [])
    /\ zlen P <= waiting (turn_rate coll) 0 bursts
    /\ (exists k, map content (w_log w) = firstn k msgs)
    /\ zlen (held w) < max_message_length coll
    /\ (P = [] -> rest = [] -> map content (w_log w) = msgs /\ held w = []).
Proof.
  intros HE HM HS ES HW. pose proof (send_all_bytes cs coll msgs S Hst HM HS) as HB.
  pose proof (sent_decodable c coll Hst cs msgs S HE HM HS) as HD. rewrite ES in HB, HD.
  unfold bytes_ok in HB. apply Forall_app in HB as (HB & _).
  destruct (loop_turns_spec vrpn F h bursts [] (Looping (start coll (Some h)) [] []) rest (start_between c coll Hst beh fuel Hfuel h) HW HB HD)
    as (more & P & w & EQ & E & HP & HL).
  cbn [lp_port lp_lost app] in *. exists w, P. split; [exact E|]. split; [exact HL|].
  destruct (between_sent c coll Hst Hsafe beh Hb Hnt fuel Hfuel cs msgs S h more w (P ++ rest) HE HM HS) as (K1 & K2 & K3); [rewrite ES, EQ, app_assoc; reflexivity | exact HP|].
  split; [exact K1|]. split; [exact K2|]. intros -> ->. apply K3. reflexivity.
Qed.

Lemma port_prompt vrpn F cs msgs S h bursts m vs f j : little cs = little c -> Forall (sendable coll) msgs ->
  send_all cs coll vector_tx msgs [] = Ok S -> sendable coll (m, vs) -> is_message_frame cs coll m vs f -> (j < length f)%nat ->
  concat bursts = S ++ firstn j f -> Forall (fun d => zlen d <= Z.min F (turn_rate coll)) bursts ->
  exists w, loop_turns vrpn F fuel c coll beh bursts (Looping (start coll (Some h)) [] []) = Ok (Looping w [] [])
    /\ map content (w_log w) = msgs /\ held w = firstn j f.
Proof.
  intros HE HM HS Hmv HF Hj EC HW. pose proof (steady_tame _ Hb) as Ht.
  assert (exists S2, send_all cs coll vector_tx (msgs ++ [(m, vs)]) [] = Ok S2 /\ S2 = S ++ f) as (S2 & HS2 & E2).
  { destruct (send_all_vector cs coll (msgs ++ [(m, vs)]) Hst) with (s := @nil Z) as (fs & HFs & E).
    { apply Forall_app. split; [exact HM | constructor; [exact Hmv | constructor]]. }
    destruct (send_all_vector cs coll msgs Hst HM []) as (fs1 & HF1 & E1). rewrite HS in E1. injection E1 as E1.
    exists (concat fs). split; [exact E|]. apply Forall2_app_inv_l in HFs as (l1 & l2 & G1 & G2 & ->).
    inversion G2 as [|? f2 ? l2' G3 G4]; subst. inversion G4; subst.
    rewrite concat_app. cbn [concat]. rewrite app_nil_r. f_equal.
    - f_equal. clear - G1 HF1. revert fs1 HF1. induction G1 as [|mv f msgs fs Hf G1 IH]; intros fs1 HF1; inversion HF1; subst; [reflexivity|].
      f_equal; [eapply message_frame_unique; eassumption | apply IH; assumption].
    - exact (message_frame_unique cs coll m vs _ _ G3 HF). }
  assert (Forall (sendable coll) (msgs ++ [(m, vs)])) as HM2 by (apply Forall_app; split; [exact HM | constructor; [exact Hmv | constructor]]).
  pose proof (send_all_bytes cs coll _ S2 Hst HM2 HS2) as HB2.
  pose proof (sent_decodable c coll Hst cs _ S2 HE HM2 HS2) as HD.
  assert (S2 = concat bursts ++ skipn j f) as ES by (rewrite E2, EC, <- app_assoc, firstn_skipn; reflexivity).
  rewrite ES in HB2, HD. unfold bytes_ok in HB2. apply Forall_app in HB2 as (HB2 & _).
  assert (turn_rate coll > 0) as HR0 by (unfold turn_rate; pose proof (max_ge5 _ Hst); lia).
  assert (forall l, Forall (fun d : list Z => zlen d <= Z.min F (turn_rate coll)) l -> within (turn_rate coll) F 0 l
            /\ waiting (turn_rate coll) 0 l = 0) as HW0.
  { induction 1 as [|d l Hd _ IH]; [split; [exact I | reflexivity]|]. cbn [within waiting].
    replace (Z.max 0 (0 + zlen d - turn_rate coll)) with 0 by lia. split; [split; [lia | apply IH] | apply IH]. }
  destruct (HW0 _ HW) as (HW1 & HW2).
  destruct (loop_turns_spec vrpn F h bursts [] (Looping (start coll (Some h)) [] []) (skipn j f) (start_between c coll Hst beh fuel Hfuel h) HW1 HB2 HD)
    as (more & P & w & EQ & E & HP & HL).
  cbn [lp_port lp_lost app] in *. change (zlen []) with 0 in HL. rewrite HW2 in HL.
  assert (P = []) as -> by (destruct P; [reflexivity | rewrite zlen_cons in HL; pose proof (zlen_nonneg P); lia]).
  rewrite app_nil_r in EQ. subst more. exists w. split; [exact E|].
  destruct HP as (ops & rs & _ & _ & _ & Hpr & Hem).
  destruct (concat bursts) as [|b t] eqn:ECB.
  - destruct (Hem eq_refl) as (-> & ->). destruct S as [|? ?]; [|discriminate]. cbn [app] in EC. rewrite <- EC. split; [|reflexivity].
    destruct (send_all_vector cs coll msgs Hst HM []) as (fs & HFs & E3). rewrite HS in E3. cbn [app] in E3. injection E3 as E3.
    destruct HFs as [|mv f2 msgs fs Hf HFs]; [reflexivity|]. exfalso.
    destruct Hf as (id & _ & _ & ->). cbn [concat] in E3. destruct (mc_env coll); discriminate.
  - specialize (Hpr ltac:(discriminate)). rewrite EC in Hpr.
    destruct (prompt_lemma c coll Hst Hsafe cs beh _ msgs S m vs f j w Ht HE HM HS Hmv HF Hj Hpr) as (K1 & K2).
    rewrite completed_all in K1 by exact Hnt. auto.
Qed.
End Port.

(** Messages of which a receiver of the test collection keeps 16 bytes after every turn. *)
Definition keeping : list (mtype * list value) :=
  let B := (MessageB, map VInt [5; 6; 7]) in
  let C := (MessageC, repeat (VFloat false 1084227584) 3) in
  let E := (MessageEmpty, []) in
  [E; E; E; E] ++ concat (repeat [C; B; E; E] 40).
Fixpoint bursts_of (n : nat) (k : nat) (l : list Z) : list (list Z) :=
  match n with O => [] | S n => firstn k l :: bursts_of n k (skipn k l) end.
Lemma losing_witness :
  exists msgs S bursts rest w P lost,
  static_ok test_basic = true /\ Forall (sendable test_basic) msgs
  /\ send_all (desktop true) test_basic vector_tx msgs [] = Ok S /\ S = concat bursts ++ rest
  /\ Forall (fun d => zlen d = turn_rate test_basic + 1) bursts
  /\ loop_turns false 64 60 (desktop true) test_basic quiet bursts (Looping (start test_basic (Some hd1)) [] []) = Ok (Looping w P lost)
  /\ lost <> [].
Proof.
  set (S0 := match send_all (desktop true) test_basic vector_tx keeping [] with Ok s => s | _ => [] end).
  exists keeping, S0, (bursts_of 31 36 S0), (skipn (31 * 36) S0).
  assert (match loop_turns false 64 60 (desktop true) test_basic quiet (bursts_of 31 36 S0) (Looping (start test_basic (Some hd1)) [] [])
          with Ok s => 0 <? zlen (lp_lost s) | _ => false end = true) as HL by (vm_compute; reflexivity).
  destruct (loop_turns false 64 60 (desktop true) test_basic quiet (bursts_of 31 36 S0) (Looping (start test_basic (Some hd1)) [] []))
    as [[w P lost]| | | |]; try discriminate HL. cbn [lp_lost] in HL.
  exists w, P, lost. split; [reflexivity|]. split.
  { unfold keeping. cbn [app repeat concat]. repeat (apply Forall_cons; [split; [cbn; auto 10 | reflexivity]|]). apply Forall_nil. }
  split; [vm_compute; reflexivity|]. split; [vm_compute; reflexivity|].
  split; [vm_compute; repeat constructor|].
  split; [reflexivity|]. intros ->. discriminate HL.
Qed.
