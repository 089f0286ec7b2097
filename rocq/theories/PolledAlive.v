(** checkBufferForMessage interrupted in its midst, when the buffer does not run empty while bytes are to come. *)
From Verif Require Import ReceiverProofs.
From Verif Require Export TornCheckLemmas.

Section Alive.
Context (c : config) (coll : collection) (Hst : static_ok coll = true) (Hsafe : index_safe c (capacity coll)) (o : bool).
Local Notation cap := (capacity coll).
Let Hcap : cap_ok cap := capacity_ok coll Hst.
Local Notation thas := (thas coll).

(** Nothing comes. *)
Lemma silent_both {A} l (k : Z -> Z -> micro A) coming b : concat coming = [] ->
  exists u rest, coming = u ++ rest /\ concat u = [] /\ t_run c cap (t_both o l k) coming b = t_run c cap (k (rb_begin b) (rb_pastEnd b)) rest b.
Proof.
  intros E. assert (hd [] coming = [] /\ hd [] (tl coming) = []) as (E1 & E2).
  { destruct coming as [|x [|y r]]; cbn [concat hd tl] in *; auto; apply app_eq_nil in E as (E1 & E2); [auto|].
    apply app_eq_nil in E2 as (E2 & _). auto. }
  exists (firstn 2 coming), (tl (tl coming)). split; [destruct coming as [|x [|y r]]; reflexivity|]. split.
  { destruct coming as [|x [|y r]]; cbn [firstn concat hd tl] in *; try assumption. rewrite E1, E2. reflexivity. }
  unfold t_both. destruct (Bool.eqb o l); cbn [t_run]; rewrite E1; cbn [t_interrupt bind]; rewrite E2; reflexivity.
Qed.

Lemma silent_state s u rest X : thas s X -> ts_coming s = u ++ rest -> concat u = [] ->
  let s' := TState (ERB (er_id (ts_recv s)) (er_buf (ts_recv s))) rest in thas s' X /\ went s u s'.
Proof.
  intros (R & Hr & HB & HC) E Eu s'. subst s'. rewrite E, concat_app, Eu in Hr, HC. cbn [app] in Hr, HC.
  split; [|split; [exact E | reflexivity]]. split; [exact R|]. auto.
Qed.

Lemma tc_empty_silent s : thas s [] -> concat (ts_coming s) = [] ->
  exists s' u, tc_empty o c coll s = Ok (true, s') /\ thas s' [] /\ went s u s' /\ concat u = [] /\ concat (ts_coming s') = [].
Proof.
  intros H E. destruct (silent_both true (fun b e => MReturn (b =? e)) _ (er_buf (ts_recv s)) E) as (u & rest & EC & Eu & ER).
  destruct (silent_state s u rest [] H EC Eu) as (H1 & W1). unfold tc_empty, t_call, t_empty. rewrite ER. cbn [t_run bind].
  destruct H as (R & _). pose proof (rep_empty _ _ _ R) as Q. unfold rb_empty in Q. rewrite Q.
  eexists. exists u. split; [reflexivity|]. split; [exact H1|]. split; [exact W1|]. split; [exact Eu|].
  rewrite EC, concat_app, Eu in E. exact E.
Qed.

Lemma tc_size_silent s : thas s [] -> concat (ts_coming s) = [] ->
  exists s' u, tc_size o c coll s = Ok (0, s') /\ thas s' [] /\ went s u s' /\ concat u = [].
Proof.
  intros H E.
  destruct (silent_both false (fun b e => MReturn (to_sz cap (e - b))) _ (er_buf (ts_recv s)) E) as (u & rest & EC & Eu & ER).
  destruct (silent_state s u rest [] H EC Eu) as (H1 & W1). unfold tc_size, t_call, t_size. rewrite ER. cbn [t_run bind].
  destruct H as (R & _). pose proof (rep_size _ Hcap _ _ R) as Q. unfold rb_size in Q. rewrite Q.
  eexists. exists u. split; [reflexivity|]. split; [exact H1|]. split; [exact W1 | exact Eu].
Qed.

(** [s] holds [X]; whatever of the bytes to come has come, but not all of them, the scan for a message does not end with nothing
    left. *)
Definition alive (s : tstate) (X : list Z) : Prop :=
  thas s X /\ forall u v Y, ts_coming s = u ++ v -> concat v <> [] -> Skips coll (X ++ concat u) Y -> Y <> [].

Definition total (s : tstate) (X : list Z) : nat := length X + length (concat (ts_coming s)).

Lemma alive_ne s X : alive s X -> X = [] -> concat (ts_coming s) = [].
Proof.
  intros (_ & H) E. destruct (concat (ts_coming s)) eqn:EC; [reflexivity|]. exfalso.
  apply (H [] (ts_coming s) [] eq_refl); [rewrite EC; discriminate | cbn [concat]; rewrite app_nil_r, E; constructor | reflexivity].
Qed.

Lemma alive_more s X u s' : alive s X -> ts_coming s = u ++ ts_coming s' -> thas s' (X ++ concat u) -> alive s' (X ++ concat u).
Proof.
  intros (_ & H) E HT. split; [exact HT|]. intros v w Y Ev Hw HS. apply (H (u ++ v) w); [rewrite E, Ev; apply app_assoc | exact Hw |].
  rewrite concat_app, app_assoc. exact HS.
Qed.

Lemma alive_pop s b X u s' : alive s (b :: X) -> dead coll (b :: X) -> ts_coming s = u ++ ts_coming s' -> thas s' (X ++ concat u) ->
  alive s' (X ++ concat u).
Proof.
  intros (_ & H) D E HT. split; [exact HT|]. intros v w Y Ev Hw HS. apply (H (u ++ v) w); [rewrite E, Ev; apply app_assoc | exact Hw |].
  rewrite concat_app. cbn [app]. constructor; [exact (dead_app coll b X (concat u ++ concat v) D)|].
  rewrite app_assoc. exact HS.
Qed.

Lemma total_more s X u s' : ts_coming s = u ++ ts_coming s' -> total s' (X ++ concat u) = total s X.
Proof. intros E. unfold total. rewrite E, concat_app, !app_length. lia. Qed.

Lemma total_pop s b X u s' : ts_coming s = u ++ ts_coming s' -> S (total s' (X ++ concat u)) = total s (b :: X).
Proof. intros E. unfold total. rewrite E, concat_app, !app_length. cbn [length]. lia. Qed.

(** What an interrupted check establishes. *)
Definition lin (s : tstate) (X : list Z) (res : outcome (bool * tstate)) : Prop :=
  exists ok s' u Y, res = Ok (ok, s') /\ ts_coming s = u ++ ts_coming s' /\ thas s' Y /\
    if ok : bool
    then Skips coll (X ++ concat u) Y /\ exists f m id p r, Y = f ++ r /\ is_frame coll f m id p /\ er_id (ts_recv s') = Some id
    else exists u1 u2 Y1, u = u1 ++ u2 /\ Skips coll (X ++ concat u1) Y1 /\ undecided coll Y1 /\ Y = Y1 ++ concat u2.

Lemma lin_after s X u0 s0 X0 res : ts_coming s = u0 ++ ts_coming s0 -> Skips coll (X ++ concat u0) X0 -> lin s0 X0 res -> lin s X res.
Proof.
  intros E HS (ok & s' & u & Y & ER & EC & HT & HY). exists ok, s', (u0 ++ u), Y. split; [exact ER|].
  split; [rewrite E, EC; apply app_assoc|]. split; [exact HT|].
  assert (forall v, Skips coll (X ++ concat (u0 ++ v)) (X0 ++ concat v)) as HM.
  { intros v. rewrite concat_app, app_assoc. apply skips_more, HS. }
  destruct ok.
  - destruct HY as (HY & HF). split; [|exact HF]. eapply skips_trans; [apply HM | exact HY].
  - destruct HY as (u1 & u2 & Y1 & -> & HY & U & EY). exists (u0 ++ u1), u2, Y1. split; [apply app_assoc|].
    split; [|auto]. eapply skips_trans; [apply HM | exact HY].
Qed.

Lemma lin_more s X u s' res : ts_coming s = u ++ ts_coming s' -> lin s' (X ++ concat u) res -> lin s X res.
Proof. intros E. apply lin_after with (u0 := u); [exact E | constructor]. Qed.

Lemma tc_skip_alive fuel : forall s X, alive s X -> (total s X < fuel)%nat ->
  exists s' u Y, tc_skip fuel o c coll s = Ok s' /\ alive s' Y /\ ts_coming s = u ++ ts_coming s' /\ Skips coll (X ++ concat u) Y
    /\ (total s' Y <= total s X)%nat /\ ((exists Z0, Y = 1 :: Z0) \/ Y = [] /\ concat (ts_coming s') = []).
Proof.
  induction fuel as [|fuel IH]; intros s X A Hf; [lia|]. cbn [tc_skip].
  assert (X = [] \/ X <> []) as [->|HX] by (destruct X; [left; reflexivity | right; discriminate]).
  { destruct (tc_empty_silent s (proj1 A) (alive_ne _ _ A eq_refl)) as (s1 & u1 & -> & H1 & (W1 & _) & Eu & E1). cbn [bind].
    exists s1, u1, []. split; [reflexivity|].
    pose proof (alive_more s [] u1 s1 A W1) as A1. cbn [app] in A1. rewrite Eu in A1. pose proof (total_more s [] u1 s1 W1) as T1.
    cbn [app] in T1. rewrite Eu in T1. split; [exact (A1 H1)|]. split; [exact W1|]. rewrite Eu. split; [constructor|]. split; [lia | right; auto]. }
  destruct (tc_empty_spec c coll Hst Hsafe o s _ (proj1 A) HX) as (s1 & u1 & -> & H1 & (W1 & _)). cbn [bind].
  pose proof (alive_more _ _ _ _ A W1 H1) as A1. pose proof (total_more s X u1 s1 W1) as T1.
  destruct (X ++ concat u1) as [|x Y] eqn:EX; [apply app_eq_nil in EX as (EX & _); contradiction|].
  destruct (tc_at_spec c coll Hst Hsafe o 0 s1 [] x Y H1 eq_refl) as (s2 & u2 & -> & H2 & (W2 & _)). cbn [bind]. unfold SOH. cbn [app] in H2.
  pose proof (alive_more s1 (x :: Y) _ _ A1 W2 H2) as A2. pose proof (total_more s1 (x :: Y) u2 s2 W2) as T2. cbn [app] in T2, A2.
  assert (X ++ concat (u1 ++ u2) = x :: Y ++ concat u2) as E12 by (rewrite concat_app, app_assoc, EX; reflexivity).
  destruct (Z.eqb_spec x 1) as [->|Hx].
  - exists s2, (u1 ++ u2), (1 :: Y ++ concat u2). split; [reflexivity|]. split; [exact A2|].
    split; [rewrite W1, W2; apply app_assoc|]. split; [rewrite E12; constructor|]. split; [lia | left; eauto].
  - assert (dead coll (x :: Y ++ concat u2)) as D by (apply not_soh_dead; assumption).
    destruct (tc_pop_spec c coll Hst Hsafe o s2 x _ H2) as (s3 & u3 & -> & H3 & (W3 & _)). cbn [bind].
    pose proof (alive_pop _ _ _ _ _ A2 D W3 H3) as A3. pose proof (total_pop s2 x (Y ++ concat u2) u3 s3 W3) as T3.
    destruct (IH s3 _ A3) as (s4 & u4 & Y4 & -> & A4 & W4 & HS4 & L4 & HZ); [lia|].
    exists s4, (((u1 ++ u2) ++ u3) ++ u4), Y4. split; [reflexivity|]. split; [exact A4|].
    split; [rewrite W1, W2, W3, W4, <- !app_assoc; reflexivity|]. split; [|split; [lia | exact HZ]].
    rewrite (concat_app _ u4), (concat_app _ u3), !app_assoc, E12. cbn [app]. constructor.
    + rewrite <- app_assoc. exact (dead_app coll x _ (concat u3 ++ concat u4) D).
    + exact HS4.
Qed.

Lemma tc_retry_alive chk s b X : alive s (b :: X) -> dead coll (b :: X) ->
  (forall s' X', alive s' X' -> (total s' X' < total s (b :: X))%nat -> lin s' X' (chk s')) ->
  lin s (b :: X) (tc_pop_and_retry o c coll chk s).
Proof.
  intros A D IH. unfold tc_pop_and_retry.
  assert (exists s1 u1, match mode c with
          | Disabled => Ok s
          | _ => do (empty, s) <- tc_empty o c coll s; do _ <- assert_ c (negb empty); Ok s
          end = Ok s1 /\ alive s1 (b :: X ++ concat u1) /\ ts_coming s = u1 ++ ts_coming s1) as (s1 & u1 & -> & A1 & W1).
  { destruct (tc_empty_spec c coll Hst Hsafe o s _ (proj1 A) ltac:(discriminate)) as (s1 & u1 & -> & H1 & (W1 & _)). cbn [bind negb].
    rewrite assert_true by reflexivity. cbn [bind]. pose proof (alive_more _ _ _ _ A W1 H1) as A1. cbn [app] in A1.
    destruct (mode c); [exists s, []; cbn [concat]; rewrite app_nil_r; auto | eauto | eauto]. }
  cbn [bind]. destruct (tc_empty_spec c coll Hst Hsafe o s1 _ (proj1 A1) ltac:(discriminate)) as (s2 & u2 & -> & H2 & (W2 & _)). cbn [bind].
  pose proof (alive_more s1 (b :: X ++ concat u1) _ _ A1 W2 H2) as A2. cbn [app] in A2, H2.
  destruct (tc_pop_spec c coll Hst Hsafe o s2 b _ H2) as (s3 & u3 & -> & H3 & (W3 & _)). cbn [bind].
  assert (dead coll (b :: (X ++ concat u1) ++ concat u2)) as D2.
  { rewrite <- app_assoc. exact (dead_app coll b X (concat u1 ++ concat u2) D). }
  pose proof (alive_pop _ _ _ _ _ A2 D2 W3 H3) as A3.
  apply lin_after with (u0 := (u1 ++ u2) ++ u3) (s0 := s3) (X0 := ((X ++ concat u1) ++ concat u2) ++ concat u3).
  - rewrite W1, W2, W3, <- !app_assoc. reflexivity.
  - rewrite !concat_app. cbn [app]. rewrite !app_assoc. constructor; [|constructor].
    rewrite <- app_assoc. rewrite <- app_assoc. exact (dead_app coll b X _ D).
  - apply IH; [exact A3|]. pose proof (total_pop s2 b ((X ++ concat u1) ++ concat u2) u3 s3 W3) as T3.
    pose proof (total_more s1 (b :: X ++ concat u1) u2 s2 W2) as T2. pose proof (total_more s (b :: X) u1 s1 W1) as T1. cbn [app] in T1, T2. lia.
Qed.

Lemma tc_check_alive fuel : forall s X, alive s X -> (total s X < fuel)%nat -> lin s X (tc_check fuel o c coll s).
Proof.
  induction fuel as [|fuel IH]; intros s X A Hf; [lia|]. cbn [tc_check].
  destruct (tc_skip_alive (S fuel) s X A Hf) as (s0 & u0 & Y & -> & A0 & W0 & HS & L0 & [(Z0 & ->)|(-> & E0)]); cbn [bind].
  2:{ apply (lin_after s X u0 s0 [] _ W0 HS).
      destruct (tc_size_silent s0 (proj1 A0) E0) as (s1 & u1 & -> & H1 & (W1 & _) & Eu). cbn [bind]. change (0 <? 2) with true. cbv iota.
      exists false, s1, u1, []. split; [reflexivity|]. split; [exact W1|]. split; [exact H1|].
      exists u1, [], []. split; [rewrite app_nil_r; reflexivity|]. rewrite Eu. split; [constructor|]. split; [exact I | reflexivity]. }
  apply (lin_after s X u0 s0 (1 :: Z0) _ W0 HS). assert (total s0 (1 :: Z0)%Z < S fuel)%nat as Hf0 by lia.
  clear s X A Hf u0 W0 HS L0. rename s0 into s, A0 into A, Z0 into X.
  destruct (tc_size_spec c coll Hst Hsafe o s _ (proj1 A) ltac:(discriminate)) as (s1 & u & v & -> & H1 & (W1 & _)). cbn [bind].
  destruct (Z.ltb_spec (zlen ((1 :: X) ++ concat u)) 2) as [Hlt|Hge].
  { exists false, s1, (u ++ v), ((1 :: X) ++ concat (u ++ v)). split; [reflexivity|]. split; [exact W1|]. split; [exact H1|].
    exists u, v, ((1 :: X) ++ concat u). split; [reflexivity|]. split; [constructor|]. split; [|rewrite concat_app, app_assoc; reflexivity].
    cbn [app] in Hlt |- *. destruct (X ++ concat u); [reflexivity|]. rewrite !zlen_cons in Hlt. pose proof (zlen_nonneg l). lia. }
  pose proof (alive_more _ _ _ _ A W1 H1) as A1. pose proof (total_more s (1 :: X) (u ++ v) s1 W1) as T1. apply (lin_more s _ _ s1 _ W1).
  assert (exists id Y, (1 :: X) ++ concat (u ++ v) = 1 :: id :: Y) as (id & Y & EY).
  { rewrite concat_app, app_assoc. cbn [app] in *. destruct (X ++ concat u) as [|id Y]; [discriminate Hge || (rewrite zlen_cons in Hge; change (zlen (@nil Z)) with 0 in Hge; lia)|].
    exists id, (Y ++ concat v). reflexivity. }
  rewrite EY in *. clear Hge EY u v W1 A. assert (total s1 (1 :: id :: Y)%Z < S fuel)%nat as Hf1 by lia. clear T1 Hf0 X s. rename s1 into s, A1 into A.
  assert (0 <= id) as Hid0.
  { destruct H1 as (_ & _ & HB & _). apply Forall_inv_tail, Forall_inv in HB. lia. }
  destruct (tc_at_spec c coll Hst Hsafe o 1 s [1] id Y H1 eq_refl) as (s1 & u1 & -> & H2 & (W1 & _)). cbn [bind]. cbn [app] in H2.
  set (s2 := TState (er_set_id coll id (ts_recv s1)) (ts_coming s1)).
  assert (thas s2 (1 :: id :: Y ++ concat u1)) as H2' by exact H2.
  assert (ts_coming s = u1 ++ ts_coming s2) as W2 by exact W1.
  assert (er_id (ts_recv s2) = if is_id_valid coll id then Some id else None) as I2 by reflexivity.
  pose proof (alive_more s (1 :: id :: Y) u1 s2 A W2 H2') as A2. pose proof (total_more s (1 :: id :: Y) u1 s2 W2) as T2.
  apply (lin_more s (1 :: id :: Y) u1 s2 _ W2). clearbody s2. cbn [app] in *. clear H2 W1 s1 W2 A H1.
  revert A2 H2' T2. generalize (Y ++ concat u1). clear u1. intros X A H1 T2.
  assert (total s2 (1 :: id :: X)%Z < S fuel)%nat as Hf2 by lia. clear T2 Hf1 Y s. rename s2 into s.
  assert (forall b X0, (total s (b :: X0) < S fuel)%nat -> forall s' X', alive s' X' -> (total s' X' < total s (b :: X0))%nat ->
     lin s' X' (tc_check fuel o c coll s')) as IH'.
  { intros b X0 H0 s' X' A' H'. apply IH; [exact A' | lia]. }
  unfold er_id_valid. rewrite I2. destruct (is_id_valid coll id) eqn:Ev; cbn [negb].
  2:{ apply tc_retry_alive; [exact A | | apply IH', Hf2].
      apply bad_id_dead. intros m' Hm. apply has_id_valid in Hm. congruence. }
  destruct (valid_has_id coll id Hid0 Ev) as (m & Hm).
  destruct (tc_size_spec c coll Hst Hsafe o s _ (proj1 A) ltac:(discriminate)) as (s1 & u & v & -> & H2 & (W1 & J1)). cbn [bind].
  destruct (Z.ltb_spec (zlen ((1 :: id :: X) ++ concat u)) 3) as [Hlt|Hge].
  { exists false, s1, (u ++ v), ((1 :: id :: X) ++ concat (u ++ v)). split; [reflexivity|]. split; [exact W1|]. split; [exact H2|].
    exists u, v, ((1 :: id :: X) ++ concat u). split; [reflexivity|]. split; [constructor|]. split; [|rewrite concat_app, app_assoc; reflexivity].
    cbn [app] in Hlt |- *. destruct (X ++ concat u); [split; [reflexivity | eauto]|]. rewrite !zlen_cons in Hlt. pose proof (zlen_nonneg l). lia. }
  pose proof (alive_more _ _ _ _ A W1 H2) as A1. pose proof (total_more s (1 :: id :: X) (u ++ v) s1 W1) as T1. apply (lin_more s _ _ s1 _ W1).
  assert (exists x Y, (1 :: id :: X) ++ concat (u ++ v) = 1 :: id :: x :: Y) as (x & Y & EY).
  { rewrite concat_app, app_assoc. cbn [app] in *. destruct (X ++ concat u) as [|x Y]; [rewrite !zlen_cons in Hge; change (zlen (@nil Z)) with 0 in Hge; lia|].
    exists x, (Y ++ concat v). reflexivity. }
  rewrite EY in *. clear Hge EY u v W1 A H1. assert (total s1 (1 :: id :: x :: Y)%Z < S fuel)%nat as Hf1 by lia. clear T1 Hf2 X IH'.
  rewrite I2 in J1. clear I2 s. rename s1 into s, A1 into A, H2 into H1.
  destruct (tc_at_spec c coll Hst Hsafe o 2 s [1; id] x Y H1 eq_refl) as (s1 & u1 & -> & H2 & (W1 & J2)). cbn [bind]. cbn [app] in H2.
  pose proof (alive_more s (1 :: id :: x :: Y) u1 s1 A W1 H2) as A2. pose proof (total_more s (1 :: id :: x :: Y) u1 s1 W1) as T2.
  apply (lin_more s (1 :: id :: x :: Y) u1 s1 _ W1). cbn [app] in *. clear W1 A H1. rewrite J1 in J2. clear J1.
  revert A2 H2 T2. generalize (Y ++ concat u1). clear u1. intros X A H1 T2.
  assert (total s1 (1 :: id :: x :: X)%Z < S fuel)%nat as Hf2 by lia. clear T2 Hf1 Y s. rename s1 into s.
  assert (forall s b X0, (total s (b :: X0) < S fuel)%nat -> forall s' X', alive s' X' -> (total s' X' < total s (b :: X0))%nat ->
     lin s' X' (tc_check fuel o c coll s')) as IH'.
  { intros s' b X0 H0 s'' X' A' H'. apply IH; [exact A' | lia]. }
  unfold STX. destruct (Z.eqb_spec x 2) as [->|Hx]; cbn [negb].
  2:{ apply tc_retry_alive; [exact A | | apply IH', Hf2]. apply bad_stx_dead. assumption. }
  unfold er_message_length, er_id_valid, er_current_id. rewrite J2, plain_true by reflexivity. cbn [bind].
  rewrite (get_message_length_valid coll m id Hst Hm). cbn [bind].
  destruct (tc_size_spec c coll Hst Hsafe o s _ (proj1 A) ltac:(discriminate)) as (s1 & u & v & -> & H2 & (W1 & J1)). cbn [bind].
  destruct (Z.ltb_spec (zlen ((1 :: id :: 2 :: X) ++ concat u)) (Z.of_nat (frame_size (mc_env coll) m))) as [Hlt|Hge].
  { exists false, s1, (u ++ v), ((1 :: id :: 2 :: X) ++ concat (u ++ v)). split; [reflexivity|]. split; [exact W1|]. split; [exact H2|].
    exists u, v, ((1 :: id :: 2 :: X) ++ concat u). split; [reflexivity|]. split; [constructor|]. split; [|rewrite concat_app, app_assoc; reflexivity].
    cbn [app] in *. split; [reflexivity|]. split; [reflexivity|]. exists m. split; [assumption|]. unfold zlen in Hlt. cbn [length] in Hlt |- *. lia. }
  pose proof (alive_more _ _ _ _ A W1 H2) as A1. pose proof (total_more s (1 :: id :: 2 :: X) (u ++ v) s1 W1) as T1. apply (lin_more s _ _ s1 _ W1).
  assert (Z.of_nat (frame_size (mc_env coll) m) <= zlen ((1 :: id :: 2 :: X) ++ concat (u ++ v))) as Hge1.
  { rewrite concat_app, app_assoc, zlen_app. pose proof (zlen_nonneg (concat v)). lia. }
  cbn [app] in *. rewrite J2 in J1. clear Hge J2 A H1 W1. revert A1 H2 T1 Hge1. generalize (X ++ concat (u ++ v)). clear u v. intros Y A H1 T1 Hge.
  assert (total s1 (1 :: id :: 2 :: Y)%Z < S fuel)%nat as Hf1 by lia. clear T1 Hf2 X s. rename s1 into s.
  assert (exists p t r, Y = p ++ t ++ r /\ length p = payload_size m
                        /\ length ([1; id; 2] ++ p ++ t) = frame_size (mc_env coll) m) as (p & t & r & -> & Hp & HL).
  { exists (firstn (payload_size m) Y),
      (firstn (frame_size (mc_env coll) m - 3 - payload_size m) (skipn (payload_size m) Y)),
      (skipn (frame_size (mc_env coll) m - 3 - payload_size m) (skipn (payload_size m) Y)).
    rewrite !firstn_skipn. unfold zlen in Hge. cbn [length] in Hge.
    rewrite !app_length, !firstn_length, !skipn_length. cbn [length].
    unfold frame_size in *. destruct (mc_env coll); repeat split; lia. }
  destruct (tc_trailer_spec c coll Hst Hsafe o s m id p t r Hm Hp HL H1) as (ok & s1 & u & -> & H2 & (W1 & J2) & Hok). cbn [bind].
  pose proof (alive_more s _ u s1 A W1 H2) as A1. pose proof (total_more s (1 :: id :: 2 :: p ++ t ++ r) u s1 W1) as T1.
  apply (lin_more s _ u s1 _ W1). rewrite J1 in J2.
  assert ((1 :: id :: 2 :: p ++ t ++ r) ++ concat u = ([1; id; 2] ++ p ++ t) ++ r ++ concat u) as EY.
  { cbn [app]. rewrite <- !app_assoc. reflexivity. }
  destruct ok.
  - exists true, s1, [], ((1 :: id :: 2 :: p ++ t ++ r) ++ concat u). split; [reflexivity|]. split; [reflexivity|]. split; [exact H2|].
    cbn [concat]. rewrite app_nil_r. split; [constructor|]. exists ([1; id; 2] ++ p ++ t), m, id, p, (r ++ concat u).
    split; [exact EY|]. split; [|exact J2]. split; [assumption|]. split; [assumption|]. apply Hok. reflexivity.
  - rewrite EY. cbn [app]. rewrite <- app_assoc. apply tc_retry_alive.
    + cbn [app] in A1. rewrite <- !app_assoc in A1. exact A1.
    + apply (bad_frame_dead coll m id p t (r ++ concat u) Hm Hp HL). intros E. apply Hok in E. discriminate.
    + apply IH'. cbn [app] in T1. rewrite <- !app_assoc in T1. lia.
Qed.
End Alive.
