(** Exceptions thrown while a message is sent. *)
From Verif Require Export SpecThrowing GapLemmas NestedLemmas MixLemmas Runs.

Lemma escaped_calls {S} (t : thrower S) l s : run_calls (escaping t) l (s, true) = Ok (s, true).
Proof. induction l as [|x l IH]; [reflexivity|]. cbn [run_calls]. destruct x; cbn; exact IH. Qed.

Lemma escaping_call {S} (t : thrower S) x s : run_call (escaping t) x (s, false) = th_call t x s.
Proof. destruct x; reflexivity. Qed.

Lemma throwing_calls {S} (t : thrower S) out : writes_some t out -> forall l s,
  exists s' thrown n, run_calls (escaping t) l (s, false) = Ok (s', thrown)
    /\ (thrown = false -> n = length (calls_bytes l)) /\ out s' = out s ++ firstn n (calls_bytes l)
    /\ (n <= length (calls_bytes l))%nat
    /\ (not_all t out -> thrown = true -> (n < length (calls_bytes l))%nat).
Proof.
  intros (HW & _). induction l as [|x l IH]; intros s.
  - exists s, false, 0%nat. split; [reflexivity|]. split; [reflexivity|]. split; [symmetry; apply app_nil_r|]. split; [constructor | discriminate].
  - cbn [run_calls]. rewrite escaping_call. destruct (HW x s) as (s1 & e & n & E & Hn & HO). rewrite E. cbn [bind].
    assert (calls_bytes (x :: l) = call_bytes x ++ calls_bytes l) as EB by reflexivity. rewrite EB.
    destruct e.
    + rewrite escaped_calls. exists s1, true, (Nat.min n (length (call_bytes x))).
      split; [reflexivity|]. split; [discriminate|]. split; [|split].
      * rewrite HO. f_equal. rewrite firstn_app. replace (Nat.min n (length (call_bytes x)) - length (call_bytes x))%nat with 0%nat by lia.
        cbn [firstn]. rewrite app_nil_r. destruct (Nat.le_gt_cases n (length (call_bytes x))).
        -- rewrite Nat.min_l by assumption. reflexivity.
        -- rewrite Nat.min_r, firstn_all, firstn_all2 by lia. reflexivity.
      * rewrite app_length. lia.
      * intros (HN & _) _. specialize (HN x s s1 E). rewrite HO, zlen_app in HN. unfold zlen in HN. rewrite firstn_length in HN.
        rewrite app_length. lia.
    + specialize (Hn eq_refl). subst n. rewrite firstn_all in HO. destruct (IH s1) as (s2 & e & n & E2 & Hn & HO2 & HL & HS).
      exists s2, e, (length (call_bytes x) + n)%nat. split; [exact E2|]. rewrite app_length. split; [intros He; rewrite (Hn He); reflexivity|].
      split; [rewrite firstn_app_2, HO2, HO, app_assoc; reflexivity|]. split; [lia|]. intros H He. specialize (HS H He). lia.
Qed.

(** C95: what one send writes. *)
Lemma throwing_send {S} (t : thrower S) out c coll m vs f s : writes_some t out ->
  static_ok coll = true -> sendable coll (m, vs) -> is_message_frame c coll m vs f ->
  exists s' thrown n, try_send c coll m t (combine (mt_fields m) vs) s = Ok (s', thrown)
    /\ out s' = out s ++ firstn n f /\ (n <= length f)%nat /\ (thrown = false -> n = length f)
    /\ (not_all t out -> thrown = true -> (n < length f)%nat).
Proof.
  intros HW Hst (Hin & Hty) HF. destruct (send_spec c coll m vs Hst Hin Hty) as (calls & HF' & H).
  pose proof (message_frame_unique c coll m vs _ _ HF HF') as ->. unfold try_send. rewrite H.
  destruct (throwing_calls t out HW calls s) as (s1 & e & n & E & Hn & HO & HL & HS). rewrite E. cbn [bind].
  destruct e.
  - exists s1, true, n. cbn. split; [reflexivity|]. split; [exact HO|]. split; [exact HL|]. split; [discriminate | exact HS].
  - destruct HW as (_ & HF2). destruct (HF2 s1) as (s2 & e & E2 & HO2). cbn. unfold unless_thrown. cbn [fst snd]. rewrite E2.
    exists s2, e, n. split; [reflexivity|]. split; [rewrite HO2; exact HO|]. split; [exact HL|]. split; [auto|].
    intros (_ & HN) ->. destruct (HN _ _ E2).
Qed.

Lemma idle_calls {S} (t : thrower S) out l s s' : writes_some t out ->
  run_calls (escaping t) (map CByte l) (s, false) = Ok (s', false) -> out s' = out s ++ l.
Proof.
  intros HW E. destruct (throwing_calls t out HW (map CByte l) s) as (s1 & e & n & E1 & Hn & HO & _).
  rewrite E in E1. injection E1 as <- <-. rewrite HO, (Hn eq_refl), firstn_all. f_equal.
  unfold calls_bytes. rewrite map_call_byte. clear. induction l as [|b l IH]; [reflexivity|]. cbn. f_equal. exact IH.
Qed.

(** The shipped transmitters. *)
Lemma vec_push_writes {M} (grow : M -> list Z -> M * bool) v s : exists s' e, vec_push grow v s = Ok (s', e)
  /\ snd s' = snd s ++ (if e then [] else [v]).
Proof.
  unfold vec_push. destruct (grow (fst s) (snd s)) as [m [|]]; eexists; eexists; (split; [reflexivity|]); cbn; [symmetry; apply app_nil_r | reflexivity].
Qed.

Lemma vec_write_writes {M} (grow : M -> list Z -> M * bool) d : forall s, exists s' e n, vec_write grow d s = Ok (s', e)
  /\ (e = false -> n = length d) /\ (e = true -> n < length d)%nat /\ snd s' = snd s ++ firstn n d.
Proof.
  induction d as [|v d IH]; intros s; cbn [vec_write].
  - exists s, false, 0%nat. repeat split; [discriminate | symmetry; apply app_nil_r].
  - destruct (vec_push_writes grow v s) as (s1 & e & -> & HO). cbn [bind fst snd]. destruct e; cbn [snd].
    + exists s1, true, 0%nat. cbn [firstn length]. repeat split; [discriminate | intros _; lia | exact HO].
    + destruct (IH s1) as (s2 & e & n & E & H1 & H2 & H3). exists s2, e, (S n). split; [exact E|]. cbn [length firstn].
      split; [intros He; rewrite (H1 He); reflexivity|]. split; [intros He; specialize (H2 He); lia|].
      rewrite H3, HO, <- app_assoc. reflexivity.
Qed.

Lemma vector_writes_some {M} (grow : M -> list Z -> M * bool) : writes_some (vector_th grow) snd /\ not_all (vector_th grow) snd.
Proof.
  split.
  - split; [|intros s; exists s, false; split; reflexivity]. intros [b|d] s; cbn [th_call vector_th th_byte th_block call_bytes].
    + destruct (vec_push_writes grow b s) as (s' & e & E & HO). exists s', e, (if e then 0%nat else 1%nat).
      split; [exact E|]. split; [intros ->; reflexivity|]. rewrite HO. destruct e; reflexivity.
    + destruct (vec_write_writes grow d s) as (s' & e & n & E & H1 & H2 & H3). exists s', e, n. auto.
  - split; [|intros s s'; cbn; discriminate]. intros [b|d] s s' E; cbn [th_call vector_th th_byte th_block call_bytes] in *.
    + destruct (vec_push_writes grow b s) as (s2 & e & E2 & HO). rewrite E in E2. injection E2 as <- <-. rewrite HO, zlen_app.
      unfold zlen. cbn [length]. lia.
    + destruct (vec_write_writes grow d s) as (s2 & e & n & E2 & H1 & H2 & H3). rewrite E in E2. injection E2 as <- <-.
      rewrite H3, zlen_app. specialize (H2 eq_refl). unfold zlen. rewrite firstn_length. lia.
Qed.

Lemma vrpn_writes_some {P} (port : P -> list Z -> P * option nat) : writes_some (vrpn_th port) snd.
Proof.
  split; [|intros s; exists s, false; split; reflexivity].
  assert (forall d s, exists s' e n, vrpn_write port d s = Ok (s', e) /\ (e = false -> n = length d) /\ snd s' = snd s ++ firstn n d) as H.
  { intros d s. unfold vrpn_write. destruct (port (fst s) d) as [p [n|]].
    - exists (p, snd s ++ firstn n d), true, n. repeat split. discriminate.
    - exists (p, snd s ++ d), false, (length d). rewrite firstn_all. auto. }
  intros [b|d] s; [exact (H [b] s) | exact (H d s)].
Qed.

(** Both members of a composition. *)
Lemma both_called_cases {A B} (t1 : thrower A) (t2 : thrower B) x s :
  th_call (compose_th t1 t2) x s = both_called (th_call t1 x) (th_call t2 x) s.
Proof. destruct x; reflexivity. Qed.

Lemma compose_calls {A B} (t1 : thrower A) (t2 : thrower B) out1 out2 : writes_some t1 out1 -> writes_some t2 out2 ->
  forall l s, exists s' thrown n k, run_calls (escaping (compose_th t1 t2)) l (s, false) = Ok (s', thrown)
    /\ (thrown = false -> n = length (calls_bytes l) /\ k = n) /\ (k <= n <= length (calls_bytes l))%nat
    /\ out1 (fst s') = out1 (fst s) ++ firstn n (calls_bytes l)
    /\ out2 (snd s') = out2 (snd s) ++ firstn k (calls_bytes l).
Proof.
  intros (H1 & _) (H2 & _). induction l as [|x l IH]; intros s.
  - exists s, false, 0%nat, 0%nat. cbn. rewrite !app_nil_r. auto.
  - cbn [run_calls]. rewrite escaping_call, both_called_cases. unfold both_called.
    assert (calls_bytes (x :: l) = call_bytes x ++ calls_bytes l) as EB by reflexivity. rewrite EB.
    destruct (H1 x (fst s)) as (a & e1 & n1 & E1 & Hn1 & O1). rewrite E1. cbn [bind fst snd].
    assert (forall n, firstn n (call_bytes x) = firstn (Nat.min n (length (call_bytes x))) (call_bytes x ++ calls_bytes l)) as HM.
    { intros n. rewrite firstn_app. replace (Nat.min n (length (call_bytes x)) - length (call_bytes x))%nat with 0%nat by lia.
      cbn [firstn]. rewrite app_nil_r. destruct (Nat.le_gt_cases n (length (call_bytes x))).
      - rewrite Nat.min_l by assumption. reflexivity.
      - rewrite Nat.min_r, firstn_all, firstn_all2 by lia. reflexivity. }
    destruct e1; cbn [bind].
    + rewrite escaped_calls. exists (a, snd s), true, (Nat.min n1 (length (call_bytes x))), 0%nat. cbn [fst snd firstn].
      split; [reflexivity|]. split; [discriminate|]. rewrite app_length, app_nil_r. split; [lia|]. split; [rewrite O1; f_equal; apply HM | reflexivity].
    + rewrite (Hn1 eq_refl), firstn_all in O1. destruct (H2 x (snd s)) as (b & e2 & n2 & E2 & Hn2 & O2). rewrite E2. cbn [bind fst snd].
      destruct e2.
      * rewrite escaped_calls. exists (a, b), true, (length (call_bytes x)), (Nat.min n2 (length (call_bytes x))). cbn [fst snd].
        split; [reflexivity|]. split; [discriminate|]. rewrite app_length. split; [lia|].
        split; [rewrite O1, firstn_app_exact; reflexivity | rewrite O2; f_equal; apply HM].
      * rewrite (Hn2 eq_refl), firstn_all in O2. destruct (IH (a, b)) as (s' & e & n & k & E & Hnk & HL & O3 & O4).
        exists s', e, (length (call_bytes x) + n)%nat, (length (call_bytes x) + k)%nat. split; [exact E|]. rewrite app_length.
        split; [intros He; destruct (Hnk He); lia|]. split; [lia|]. cbn [fst snd] in *.
        rewrite !firstn_app_2, O3, O4, O1, O2, <- !app_assoc. auto.
Qed.

Lemma composed_send {A B} (t1 : thrower A) (t2 : thrower B) out1 out2 c coll m vs f s : writes_some t1 out1 -> writes_some t2 out2 ->
  static_ok coll = true -> sendable coll (m, vs) -> is_message_frame c coll m vs f ->
  exists s' thrown n k, try_send c coll m (compose_th t1 t2) (combine (mt_fields m) vs) s = Ok (s', thrown)
    /\ out1 (fst s') = out1 (fst s) ++ firstn n f /\ out2 (snd s') = out2 (snd s) ++ firstn k f
    /\ (k <= n <= length f)%nat /\ (thrown = false -> k = length f).
Proof.
  intros HW1 HW2 Hst (Hin & Hty) HF. destruct (send_spec c coll m vs Hst Hin Hty) as (calls & HF' & H).
  pose proof (message_frame_unique c coll m vs _ _ HF HF') as ->. unfold try_send. rewrite H.
  destruct (compose_calls t1 t2 out1 out2 HW1 HW2 calls s) as (s1 & e & n & k & E & Hnk & HL & O1 & O2). rewrite E. cbn [bind].
  exists s1, e, n, k. split; [destruct e; reflexivity|]. split; [exact O1|]. split; [exact O2|]. split; [exact HL|].
  intros He. destruct (Hnk He). congruence.
Qed.

Lemma compose_writes_some {A B} (t1 : thrower A) (t2 : thrower B) out1 out2 : writes_some t1 out1 -> writes_some t2 out2 ->
  writes_some (compose_th t1 t2) (fun s => out1 (fst s)) /\ writes_some (compose_th t1 t2) (fun s => out2 (snd s)).
Proof.
  intros (H1 & _) (H2 & _). split; (split; [|intros s; exists s, false; split; reflexivity]); intros x s; rewrite both_called_cases;
    unfold both_called; destruct (H1 x (fst s)) as (a & e1 & n1 & E1 & Hn1 & O1); rewrite E1; cbn [bind fst snd];
    (destruct e1; [|destruct (H2 x (snd s)) as (b & e2 & n2 & E2 & Hn2 & O2); rewrite E2; cbn [bind fst snd]]).
  - exists (a, snd s), true, n1. repeat split; [discriminate | exact O1].
  - exists (a, b), e2, n1. repeat split; [intros _; apply Hn1; reflexivity | exact O1].
  - exists (a, snd s), true, 0%nat. repeat split; [discriminate | cbn; symmetry; apply app_nil_r].
  - exists (a, b), e2, n2. repeat split; [exact Hn2 | exact O2].
Qed.

Lemma split_at (l : list Z) : forall k, (k < length l)%nat -> l = firstn k l ++ nth k l 0 :: skipn (S k) l.
Proof.
  induction l as [|x l IH]; intros k Hk; [cbn in Hk; lia|]. destruct k as [|k]; [reflexivity|].
  cbn [firstn nth app]. rewrite (IH k) at 1 by (cbn in Hk; lia). reflexivity.
Qed.

(** What the receiver makes of a frame cut off and a gap. *)
Lemma scan_cut coll f m id p n idle : static_ok coll = true -> is_frame coll f m id p -> (n < length f)%nat -> ~ In 1 (tl f) ->
  is_gap coll idle -> ~ In 4 idle -> Scan coll (firstn n f ++ idle) [] [].
Proof.
  intros Hst F Hn HC (G1 & G2 & G3) H4. pose proof (max_ge5 coll Hst) as H5.
  pose proof (is_frame_length _ _ _ _ _ F) as HL. destruct (is_frame_head _ _ _ _ _ F) as (t & E).
  assert (Z.of_nat (length f) <= max_message_length coll) as HM.
  { rewrite HL. apply frame_size_le_max. eapply has_id_in, (proj1 F). }
  assert (forall l, ~ In 1 l -> Scan coll (l ++ idle) [] []) as HN.
  { intros l Hl. rewrite <- (app_nil_r (l ++ idle)). apply scan_noise; [|apply scan_nil]. rewrite in_app_iff. intuition. }
  destruct n as [|n]; [apply HN; intros []|].
  assert (firstn (S n) f = 1 :: firstn n (tl f)) as E1 by (rewrite E; reflexivity). rewrite E1. cbn [app].
  assert (~ In 1 (firstn n (tl f))) as HC' by (intros HI; apply HC; rewrite <- (firstn_skipn n (tl f)); apply in_or_app; left; exact HI).
  apply dead_scan; [|apply HN, HC']. unfold zlen in G3.
  destruct idle as [|i0 [|i1 idle]]; [cbn in G3; lia | cbn in G3; lia|].
  destruct n as [|[|n]].
  - cbn [firstn app]. apply stx_dead. intros ->. apply G2. cbn. auto.
  - rewrite E. cbn [tl firstn app]. apply stx_dead. intros ->. apply G2. cbn. auto.
  - set (idl := i0 :: i1 :: idle) in *. rewrite E. cbn [tl firstn app].
    set (u := firstn (S n) (2 :: t)). assert (length u = S n) as HU.
    { unfold u. rewrite firstn_length. rewrite E in Hn. cbn [length] in *. lia. }
    set (k := (length f - (3 + n) - 1)%nat).
    assert (k < length idl)%nat as Hk by (unfold k; lia).
    assert (idl = firstn k idl ++ nth k idl 0 :: skipn (S k) idl) as EI.
    { apply split_at, Hk. }
    rewrite EI, app_assoc. change (2 :: (firstn n t ++ firstn k idl) ++ nth k idl 0 :: skipn (S k) idl)
      with ((u ++ firstn k idl) ++ nth k idl 0 :: skipn (S k) idl). apply tail_dead with (m := m).
    + exact (proj1 F).
    + rewrite <- HL. cbn [length]. rewrite !app_length, HU, firstn_length, Nat.min_l by lia. cbn [length]. unfold k. cbn in Hn. lia.
    + intros E4. apply H4. rewrite <- E4. apply nth_In, Hk.
Qed.

(** C95: the messages that arrive. *)
Section Program.
Context (c : config) (coll : collection).
Hypothesis Hst : static_ok coll = true.
Hypothesis Hsafe : index_safe c (capacity coll).

Definition arrives {S} (t : thrower S) (out : S -> list Z) (a : attempt) (part : list (mtype * list value)) : Prop :=
  (at_thrown a = false /\ part = [at_message a])
  \/ (at_thrown a = true /\ (part = [] \/ part = [at_message a] /\ ~ not_all t out)).

Lemma attempts_scan {S} (t : thrower S) out cs s log s' : writes_some t out ->
  attempts cs coll t s log s' -> Forall (fun a => sendable coll (at_message a)) log -> Forall (careful cs coll) log ->
  exists bytes parts fds, out s' = out s ++ bytes /\ Scan coll bytes fds []
    /\ Forall2 (arrives t out) log parts
    /\ Forall2 (fun mv fd => f_message fd = fst mv
                 /\ encodes (little cs) (mt_fields (fst mv)) (snd mv) (f_payload fd)) (concat parts) fds
    /\ Forall (sendable coll) (concat parts).
Proof.
  intros HW H. induction H as [s|s m vs s1 thrown idle s2 log s3 H1 H2 H3 IH]; intros HM HC.
  - exists [], [], []. rewrite app_nil_r. repeat split; try constructor. exact I.
  - destruct (IH (Forall_inv_tail HM) (Forall_inv_tail HC)) as (bytes & parts & fds & G1 & G2 & G3 & G4 & G5).
    pose proof (Forall_inv HM) as Hmv. pose proof (Forall_inv HC) as (C1 & C2). cbn [at_message at_thrown at_idle] in *.
    assert (exists f, is_message_frame cs coll m vs f) as (f & HF).
    { destruct Hmv as (Hin & Hty). destruct (send_spec cs coll m vs Hst Hin Hty) as (calls & HF & _). eauto. }
    destruct (throwing_send t out cs coll m vs f s HW Hst Hmv HF) as (s1' & e & n & E & HO & HL & Hfull & Hcut).
    rewrite H1 in E. injection E as <- <-. pose proof (idle_calls t out idle s1 s2 HW H2) as HI.
    destruct (sent_frames cs coll [(m, vs)] [f]) as (fds1 & F1 & F2); [constructor; [exact Hmv | constructor] | constructor; [exact HF | constructor]|].
    assert (Scan coll (firstn n f ++ idle) [] [] /\ thrown = true
            \/ Scan coll (firstn n f ++ idle) fds1 [] /\ (thrown = true -> ~ not_all t out)) as [(HS & ->)|(HS & HE)].
    { destruct (Nat.eq_dec n (length f)) as [->|Hn].
      - right. split.
        + rewrite firstn_all, <- (app_nil_r fds1), <- (app_nil_r idle). apply scan_app.
          * pose proof (scan_frames _ _ _ F1) as HS. cbn [concat] in HS. rewrite app_nil_r in HS. exact HS.
          * apply scan_noise; [exact C1 | apply scan_nil].
        + intros He HN. specialize (Hcut HN He). lia.
      - left. destruct thrown; [|exfalso; apply Hn, Hfull; reflexivity]. split; [|reflexivity].
        destruct (C2 eq_refl) as (HG & H4 & HCl).
        inversion F1 as [|fd ? ? ? FF FN]; subst. eapply scan_cut; [exact Hst | exact FF | lia | apply HCl; exact HF | exact HG | exact H4]. }
    + exists ((firstn n f ++ idle) ++ bytes), ([] :: parts), fds.
      split; [rewrite G1, HI, HO, !app_assoc; reflexivity|].
      split; [apply (scan_app _ _ _ _ _ _ HS G2)|]. split; [constructor; [right; split; [reflexivity | left; reflexivity] | exact G3]|].
      split; [exact G4 | exact G5].
    + exists ((firstn n f ++ idle) ++ bytes), ([(m, vs)] :: parts), (fds1 ++ fds).
      split; [rewrite G1, HI, HO, !app_assoc; reflexivity|].
      split; [apply (scan_app _ _ _ _ _ _ HS G2)|].
      split.
      { constructor; [|exact G3]. destruct thrown; [right | left]; (split; [reflexivity|]); [right; split; [reflexivity | auto] | reflexivity]. }
      cbn [concat]. split; [apply Forall2_app; assumption|]. apply Forall_app. split; [constructor; [exact Hmv | constructor] | exact G5].
Qed.

Lemma attempts_delivered {S} (t : thrower S) out cs beh h0 s log s' wire w : writes_some t out ->
  little cs = little c -> tame beh -> attempts cs coll t s log s' ->
  Forall (fun a => sendable coll (at_message a)) log -> Forall (careful cs coll) log ->
  out s' = out s ++ wire -> processed c coll beh h0 wire w ->
  held w = [] /\ exists parts, map content (completed beh [] (w_log w)) = concat parts /\ Forall2 (arrives t out) log parts.
Proof.
  intros HW HE Ht HA HM HC HO Hw. destruct (attempts_scan t out cs s log s' HW HA HM HC) as (bytes & parts & fds & G1 & G2 & G3 & G4 & G5).
  assert (wire = bytes) as -> by (rewrite HO in G1; apply app_inv_head in G1; exact G1).
  destruct (stream_lemma c coll Hst Hsafe beh Ht _ _ _ Hw) as (ms & HS & HD).
  destruct (scan_det _ _ _ _ HS _ _ G2) as (-> & E). split; [exact E|]. exists parts. split; [|exact G3].
  rewrite HE in G4. eapply delivered_content; eassumption.
Qed.

Lemma retry_lemma {S} (t : thrower S) out cs beh h0 s log s' wire w : writes_some t out ->
  little cs = little c -> tame beh -> attempts cs coll t s log s' ->
  Forall (fun a => sendable coll (at_message a)) log -> Forall (careful cs coll) log ->
  out s' = out s ++ wire -> processed c coll beh h0 wire w ->
  held w = [] /\ exists parts, map content (completed beh [] (w_log w)) = concat parts
    /\ Forall2 (fun a part => part = [at_message a] \/ part = [] /\ at_thrown a = true) log parts.
Proof.
  intros HW HE Ht HA HM HC HO Hw. destruct (attempts_delivered t out cs beh h0 s log s' wire w HW HE Ht HA HM HC HO Hw) as (H1 & parts & H2 & H3).
  split; [exact H1|]. exists parts. split; [exact H2|]. clear - H3. induction H3 as [|a part log parts HA _ IH]; constructor; [|exact IH].
  destruct HA as [(_ & ->)|(E & [->|(-> & _)])]; auto.
Qed.

Lemma once_lemma {S} (t : thrower S) out cs beh h0 s log s' wire w : writes_some t out -> not_all t out ->
  little cs = little c -> tame beh -> attempts cs coll t s log s' ->
  Forall (fun a => sendable coll (at_message a)) log -> Forall (careful cs coll) log ->
  out s' = out s ++ wire -> processed c coll beh h0 wire w ->
  held w = [] /\ map content (completed beh [] (w_log w)) = map at_message (filter (fun a => negb (at_thrown a)) log).
Proof.
  intros HW HN HE Ht HA HM HC HO Hw. destruct (attempts_delivered t out cs beh h0 s log s' wire w HW HE Ht HA HM HC HO Hw) as (H1 & parts & H2 & H3).
  split; [exact H1|]. rewrite H2. clear - H3 HN. induction H3 as [|a part log parts HA _ IH]; [reflexivity|]. cbn [concat filter].
  destruct HA as [(-> & ->)|(-> & [->|(_ & HNN)])]; cbn [negb map app]; [f_equal; exact IH | exact IH | contradiction].
Qed.
End Program.

(** A composition of two vectors of which the second is refused the last byte of the first message. *)
Definition always (m : nat) (l : list Z) : nat * bool := (m, false).
Definition refuse_once (k : nat) (m : nat) (l : list Z) : nat * bool :=
  if Nat.eqb m 0 && Nat.eqb (length l) k then (1%nat, true) else (m, false).

Lemma twice_witness : forall e, exists coll (grow1 grow2 : nat -> list Z -> nat * bool) s' log w,
  mc_env coll = e /\ static_ok coll = true
  /\ attempts (desktop true) coll (compose_th (vector_th grow1) (vector_th grow2)) ((0%nat, []), (0%nat, [])) log s'
  /\ Forall (careful (desktop true) coll) log
  /\ map at_message log = [(MessageEmpty, []); (MessageEmpty, [])] /\ map at_thrown log = [true; false]
  /\ processed (desktop true) coll quiet (Some hd1) (snd (fst s')) w
  /\ map content (w_log w) = [(MessageEmpty, []); (MessageEmpty, [])].
Proof.
  intros [|].
  - exists test_basic, always, (refuse_once 4). eexists. exists [Attempt (MessageEmpty, []) true (repeat 0 14); Attempt (MessageEmpty, []) false []].
    eexists. split; [reflexivity|]. split; [reflexivity|]. split; [|split; [|split; [reflexivity | split; [reflexivity | split]]]].
    + eapply tried; [vm_compute; reflexivity | vm_compute; reflexivity|]. eapply tried; [vm_compute; reflexivity | vm_compute; reflexivity|]. apply tried_all.
    + assert (clean (desktop true) test_basic (MessageEmpty, [])) as HC by (apply (clean_at _ _ _ _ 4); reflexivity).
      repeat (apply Forall_cons || apply Forall_nil); (split; [apply no_code; reflexivity|]); [|discriminate].
      intros _. split; [|split; [apply no_code; reflexivity | exact HC]].
      split; [apply no_code; reflexivity|]. split; [apply no_code; reflexivity | apply Z.leb_le; reflexivity].
    + apply (outcome_processed 60) with (n := 2) (ops := [OpAppend ([1;4;2;3;4] ++ repeat 0 14 ++ [1;4;2;3;4])]). vm_compute. reflexivity.
    + vm_compute. reflexivity.
  - exists test_checksum, always, (refuse_once 5). eexists. exists [Attempt (MessageEmpty, []) true (repeat 0 15); Attempt (MessageEmpty, []) false []].
    eexists. split; [reflexivity|]. split; [reflexivity|]. split; [|split; [|split; [reflexivity | split; [reflexivity | split]]]].
    + eapply tried; [vm_compute; reflexivity | vm_compute; reflexivity|]. eapply tried; [vm_compute; reflexivity | vm_compute; reflexivity|]. apply tried_all.
    + assert (clean (desktop true) test_checksum (MessageEmpty, [])) as HC by (apply (clean_at _ _ _ _ 4); reflexivity).
      repeat (apply Forall_cons || apply Forall_nil); (split; [apply no_code; reflexivity|]); [|discriminate].
      intros _. split; [|split; [apply no_code; reflexivity | exact HC]].
      split; [apply no_code; reflexivity|]. split; [apply no_code; reflexivity | apply Z.leb_le; reflexivity].
    + apply (outcome_processed 60) with (n := 2) (ops := [OpAppend ([1;4;2;3;10;4] ++ repeat 0 15 ++ [1;4;2;3;10;4])]). vm_compute. reflexivity.
    + vm_compute. reflexivity.
Qed.
