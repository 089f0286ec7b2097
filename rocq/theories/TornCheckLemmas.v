(** Lemmas about interrupts in the midst of checkBufferForMessage. *)
From Verif Require Import ReceiverProofs.
From Verif Require Export TornCheck TornLemmas CheckProofs.

(** The contents of a state, grouped in another way. *)
Ltac same_as H :=
  match type of H with
  | ?P ?A => match goal with |- P ?B => replace B with A; [exact H | repeat first [rewrite <- app_assoc | rewrite concat_app | progress (cbn [app])]; reflexivity] end
  end.

Section Found.
Context (c : config) (coll : collection) (Hst : static_ok coll = true) (Hsafe : index_safe c (capacity coll)) (o : bool).
Local Notation cap := (capacity coll).
Let Hcap : cap_ok cap := capacity_ok coll Hst.

(** [s] holds [X], and what is to come fits behind it. *)
Definition thas (s : tstate) (X : list Z) : Prop :=
  erep coll (ts_recv s) X /\ rb_pastEnd (er_buf (ts_recv s)) + zlen (concat (ts_coming s)) <= cap
  /\ bytes_ok X /\ bytes_ok (concat (ts_coming s)).

(** From [s] to [s'], [u] has come. *)
Definition went (s : tstate) (u : list (list Z)) (s' : tstate) : Prop :=
  ts_coming s = u ++ ts_coming s' /\ er_id (ts_recv s') = er_id (ts_recv s).

Lemma went_trans s u s' v s'' : went s u s' -> went s' v s'' -> went s (u ++ v) s''.
Proof. intros (E & I) (E' & I'). split; [rewrite E, E', app_assoc; reflexivity | congruence]. Qed.

Lemma thas_next s X b' u rest :
  thas s X -> ts_coming s = u ++ rest -> rep cap b' (X ++ concat u) -> rb_pastEnd b' + zlen (concat rest) <= cap ->
  thas (TState (ERB (er_id (ts_recv s)) b') rest) (X ++ concat u) /\ went s u (TState (ERB (er_id (ts_recv s)) b') rest).
Proof.
  intros (R & Hr & HB & HC) E R' Hr'. rewrite E, concat_app in HC. apply Forall_app in HC as [HC1 HC2].
  split; [|split; [exact E | reflexivity]]. split; [exact R'|]. split; [exact Hr'|]. split; [apply Forall_app; auto | exact HC2].
Qed.

Lemma thas_tinv s X : thas s X -> X <> [] -> tinv cap (er_buf (ts_recv s)) X (ts_coming s).
Proof. intros (R & Hr & _) HX. split; [exact R|]. split; assumption. Qed.

Lemma tc_empty_spec s X : thas s X -> X <> [] ->
  exists s' u, tc_empty o c coll s = Ok (false, s') /\ thas s' (X ++ concat u) /\ went s u s'.
Proof.
  intros H HX. unfold tc_empty, t_call, t_empty.
  destruct (both_room c cap Hcap Hsafe o true (fun b e => MReturn (b =? e)) _ _ _ (thas_tinv s X H HX)) as (b' & u & v & rest & E & G).
  rewrite E. cbn [t_run bind]. destruct G as (EC & _ & R' & _ & Hr').
  destruct (thas_next s X b' (u ++ v) rest H EC R' Hr') as (H1 & H2).
  eexists. exists (u ++ v). split; [|split; [exact H1 | exact H2]]. f_equal. f_equal. apply Z.eqb_neq.
  destruct X as [|x X]; [contradiction|]. cbn [app]. rewrite zlen_cons. pose proof (zlen_nonneg (X ++ concat u)). lia.
Qed.

Lemma tc_size_spec s X : thas s X -> X <> [] ->
  exists s' u v, tc_size o c coll s = Ok (zlen (X ++ concat u), s') /\ thas s' (X ++ concat (u ++ v)) /\ went s (u ++ v) s'.
Proof.
  intros H HX. unfold tc_size, t_call.
  destruct (size_room c cap Hcap Hsafe o MReturn _ _ _ (thas_tinv s X H HX)) as (b' & u & v & rest & E & G).
  rewrite E. cbn [t_run bind]. destruct G as (EC & _ & R' & _ & Hr').
  destruct (thas_next s X b' (u ++ v) rest H EC R' Hr') as (H1 & H2).
  eexists. exists u, v. split; [reflexivity|]. split; [exact H1 | exact H2].
Qed.

Lemma tc_at_spec i s P x Q : thas s (P ++ x :: Q) -> i = zlen P ->
  exists s' u, tc_at o c coll i s = Ok (x, s') /\ thas s' ((P ++ x :: Q) ++ concat u) /\ went s u s'.
Proof.
  intros H ->. unfold tc_at, t_call.
  assert (0 <= zlen P < zlen (P ++ x :: Q)) as Hi.
  { rewrite zlen_app, zlen_cons. pose proof (zlen_nonneg P). pose proof (zlen_nonneg Q). lia. }
  assert (zlen (P ++ x :: Q) <= cap) as Hle by (destruct H as (R & _); exact (rep_size_le _ _ _ R)).
  rewrite (to_sz_small _ Hcap) by lia.
  destruct (index_room c cap Hcap Hsafe o (zlen P) MReturn _ _ _ (thas_tinv s _ H ltac:(destruct P; discriminate)) Hi)
    as (b' & u & rest & E & G).
  rewrite E. cbn [t_run bind]. destruct G as (EC & _ & R' & _ & Hr').
  destruct (thas_next s _ b' u rest H EC R' Hr') as (H1 & H2).
  eexists. exists u. split; [|split; [exact H1 | exact H2]]. unfold zlen. rewrite Nat2Z.id, nth_app_at by reflexivity. reflexivity.
Qed.

Lemma tc_pop_spec s x X : thas s (x :: X) ->
  exists s' u, tc_pop o c coll 1 s = Ok (x, s') /\ thas s' (X ++ concat u) /\ went s u s'.
Proof.
  intros H. unfold tc_pop, t_call. assert (to_sz cap 1 = 1) as ->.
  { apply (to_sz_small _ Hcap). destruct H as (R & _). pose proof (rep_size_le _ _ _ R) as Hle. rewrite zlen_cons in Hle.
    pose proof (zlen_nonneg X). lia. }
  unfold t_pop_front. cbn [Z.to_nat Pos.to_nat Pos.iter_op t_times].
  pose proof (thas_tinv s (x :: X) H ltac:(discriminate)) as HT.
  edestruct (index_room c cap Hcap Hsafe o 0
    (fun ret => t_times (Pos.to_nat 1) (t_increment_begin o c cap) (MReturn ret)) _ _ _ HT) as (b1 & u & r & E & EC & _ & H1).
  { rewrite zlen_cons. pose proof (zlen_nonneg X). lia. }
  rewrite E. change (Pos.to_nat 1) with 1%nat. cbn [t_times nth].
  destruct (increment_room c cap Hcap Hsafe o (MReturn x) b1 x (X ++ concat u) r H1) as (b2 & v & r2 & E2 & EC2 & R2 & Hr2).
  change (Z.to_nat 0) with O. cbn [nth]. rewrite E2. cbn [t_run bind].
  eexists. exists (u ++ v). split; [reflexivity|]. rewrite concat_app, app_assoc.
  destruct H as (R & Hr & HB & HC). apply Forall_inv_tail in HB. rewrite EC, EC2, !concat_app in HC.
  apply Forall_app in HC as [HC1 HC]. apply Forall_app in HC as [HC2 HC3].
  split; [|split; [cbn [ts_coming]; rewrite EC, EC2; apply app_assoc | reflexivity]].
  split; [exact R2|]. split; [exact Hr2|]. split; [|exact HC3]. apply Forall_app. split; [apply Forall_app; auto | exact HC2].
Qed.

Lemma tc_checksum_spec : forall L P Q ck s, thas s (P ++ L ++ Q) -> 0 <= ck < 256 ->
  exists s' u, tc_checksum_loop (length L) o c coll (zlen P) ck s = Ok ((ck + zsum L) mod 256, s')
    /\ thas s' ((P ++ L ++ Q) ++ concat u) /\ went s u s'.
Proof.
  induction L as [|x L IH]; intros P Q ck s H Hck; cbn [tc_checksum_loop length].
  - exists s, []. unfold zsum. cbn [fold_right concat]. rewrite Z.add_0_r, Z.mod_small, app_nil_r by lia.
    split; [reflexivity|]. split; [exact H|]. split; reflexivity.
  - cbn [app] in H. destruct (tc_at_spec (zlen P) s P x (L ++ Q) H eq_refl) as (s1 & u1 & -> & H1 & W1).
    cbn [bind tx_byte checksum_tx checksum_byte].
    replace (zlen P + 1) with (zlen (P ++ [x])) by (rewrite zlen_app; reflexivity).
    destruct (IH (P ++ [x]) (Q ++ concat u1) (trunc 8 (ck + x)) s1) as (s2 & u2 & E & H2 & W2).
    { same_as H1. }
    { unfold trunc. change (2 ^ 8) with 256. apply Z.mod_pos_bound. lia. }
    rewrite E. exists s2, (u1 ++ u2). split.
    + do 2 f_equal. unfold trunc. change (2 ^ 8) with 256. rewrite Zplus_mod_idemp_l. f_equal. unfold zsum. simpl. lia.
    + split; [|eapply went_trans; eassumption]. same_as H2.
Qed.

Lemma tc_trailer_spec s m id p t r :
  has_id coll m id -> length p = payload_size m ->
  length ([1; id; 2] ++ p ++ t) = frame_size (mc_env coll) m ->
  thas s ([1; id; 2] ++ p ++ t ++ r) ->
  exists ok s' u, tc_trailer o c coll (Z.of_nat (frame_size (mc_env coll) m)) s = Ok (ok, s')
    /\ thas s' (([1; id; 2] ++ p ++ t ++ r) ++ concat u) /\ went s u s'
    /\ (ok = true <-> [1; id; 2] ++ p ++ t = spec_frame (mc_env coll) id p).
Proof.
  intros Hm Hp HL R. unfold tc_trailer, spec_frame, frame_size in *. cbv zeta.
  rewrite !app_length in HL. simpl length in HL.
  destruct (mc_env coll).
  - assert (exists t1 t2, t = [t1; t2]) as (t1 & t2 & ->).
    { destruct t as [|t1 [|t2 [|]]]; simpl in HL; try lia. eauto. }
    destruct (tc_at_spec (Z.of_nat (payload_size m + 5) - 2) s ([1; id; 2] ++ p) t1 (t2 :: r)) as (s1 & d1 & -> & H1 & G1).
    { rewrite <- app_assoc. exact R. }
    { rewrite zlen_app. unfold zlen. simpl length. lia. }
    cbn [bind]. unfold ETX, EOT. destruct (Z.eqb_spec t1 3) as [->|Ht1]; cbn [negb].
    + destruct (tc_at_spec (Z.of_nat (payload_size m + 5) - 1) s1 ([1; id; 2] ++ p ++ [3]) t2 (r ++ concat d1)) as (s2 & d2 & -> & H2 & G2).
      { same_as H1. }
      { rewrite !zlen_app. unfold zlen. simpl length. lia. }
      cbn [bind]. eexists. exists s2, (d1 ++ d2). split; [reflexivity|].
      split; [same_as H2|].
      split; [eapply went_trans; eassumption|].
      rewrite Z.eqb_eq. split.
      * intros ->. reflexivity.
      * intros H. apply app_inv_head, app_inv_head in H. congruence.
    + eexists. exists s1, d1. split; [reflexivity|]. split; [same_as H1|]. split; [assumption|].
      split; [discriminate|]. intros H. apply app_inv_head, app_inv_head in H. congruence.
  - assert (exists t1 t2 t3, t = [t1; t2; t3]) as (t1 & t2 & t3 & ->).
    { destruct t as [|t1 [|t2 [|t3 [|]]]]; simpl in HL; try lia. eauto. }
    destruct (tc_at_spec (Z.of_nat (payload_size m + 6) - 3) s ([1; id; 2] ++ p) t1 (t2 :: t3 :: r)) as (s1 & d1 & -> & H1 & G1).
    { rewrite <- app_assoc. exact R. }
    { rewrite zlen_app. unfold zlen. simpl length. lia. }
    cbn [bind]. unfold ETX, EOT. destruct (Z.eqb_spec t1 3) as [->|Ht1]; cbn [negb].
    2:{ eexists. exists s1, d1. split; [reflexivity|]. split; [same_as H1|]. split; [assumption|].
        split; [discriminate|].
        rewrite <- !app_assoc. intros H. apply app_inv_head, app_inv_head in H. simpl in H. congruence. }
    destruct (tc_at_spec (Z.of_nat (payload_size m + 6) - 1) s1 ([1; id; 2] ++ p ++ [3; t2]) t3 (r ++ concat d1)) as (s2 & d2 & -> & H2 & G2).
    { same_as H1. }
    { rewrite !zlen_app. unfold zlen. simpl length. lia. }
    cbn [bind]. destruct (Z.eqb_spec t3 4) as [->|Ht3]; cbn [negb].
    2:{ eexists. exists s2, (d1 ++ d2). split; [reflexivity|].
        split; [same_as H2|].
        split; [eapply went_trans; eassumption|]. split; [discriminate|].
        rewrite <- !app_assoc. intros H. apply app_inv_head, app_inv_head in H. simpl in H. congruence. }
    replace (Z.to_nat (Z.of_nat (payload_size m + 6) - 2)) with (length ([1; id; 2] ++ p ++ [3]))
      by (rewrite !app_length; simpl length; lia).
    change 0 with (zlen (@nil Z)) at 1.
    destruct (tc_checksum_spec ([1; id; 2] ++ p ++ [3]) [] (t2 :: 4 :: (r ++ concat d1) ++ concat d2) checksum_init s2) as (s3 & d3 & -> & H3 & G3).
    { same_as H2. }
    { unfold checksum_init. lia. }
    cbn [bind].
    destruct (tc_at_spec (Z.of_nat (payload_size m + 6) - 2) s3 ([1; id; 2] ++ p ++ [3]) t2 (4 :: ((r ++ concat d1) ++ concat d2) ++ concat d3)) as (s4 & d4 & -> & H4 & G4).
    { same_as H3. }
    { rewrite !zlen_app. unfold zlen. simpl length. lia. }
    cbn [bind]. eexists. exists s4, (d1 ++ d2 ++ d3 ++ d4). split; [reflexivity|].
    split; [same_as H4|].
    split; [repeat (eapply went_trans; [eassumption|]); assumption|].
    unfold checksum_init. rewrite Z.add_0_l, Z.eqb_eq. split.
    * intros <-. rewrite <- !app_assoc. reflexivity.
    * rewrite <- !app_assoc. intros H. apply app_inv_head, app_inv_head in H. exact (eq_sym (f_equal (fun l => nth 1 l 0) H)).
Qed.

Lemma skips_more X Y d : Skips coll X Y -> Skips coll (X ++ d) (Y ++ d).
Proof.
  induction 1 as [s|b s s' D _ IH]; [constructor|]. cbn [app]. constructor; [apply dead_app, D | exact IH].
Qed.

Section Frame.
Context (f : list Z) (m : mtype) (id : Z) (p : list Z) (F : is_frame coll f m id p).

(** [s] holds the frame, after bytes that no message begins with. *)
Definition good (s : tstate) (K r : list Z) : Prop := thas s (K ++ f ++ r) /\ Skips coll (K ++ f ++ r) (f ++ r).

Lemma good_more s K r u s' : good s K r -> thas s' ((K ++ f ++ r) ++ concat u) -> good s' K (r ++ concat u).
Proof.
  intros (_ & HS) H. rewrite <- !app_assoc in H. split; [exact H|].
  apply (skips_more _ _ (concat u)) in HS. rewrite <- !app_assoc in HS. exact HS.
Qed.

Lemma frame_ne : f <> [].
Proof. destruct (is_frame_head _ _ _ _ _ F) as (t & ->). discriminate. Qed.

Lemma good_ne K r : K ++ f ++ r <> [].
Proof.
  pose proof frame_ne as HF. intros E. apply app_eq_nil in E as [_ E]. apply app_eq_nil in E as [E _]. contradiction.
Qed.

(** The front is the frame, or a byte that no message begins with. *)
Lemma skips_cases K r : Skips coll (K ++ f ++ r) (f ++ r) ->
  K = [] \/ exists b K', K = b :: K' /\ dead coll (b :: K' ++ f ++ r) /\ Skips coll (K' ++ f ++ r) (f ++ r).
Proof.
  intros HS. destruct K as [|b K]; [left; reflexivity|]. right. exists b, K. split; [reflexivity|].
  inversion HS as [s E1 E2 | b' s s' D HS' E1 E2]; subst.
  - exfalso. apply (f_equal (@length Z)) in E2. cbn [length app] in E2. rewrite !app_length in E2. lia.
  - auto.
Qed.

Lemma not_waiting K r : Skips coll (K ++ f ++ r) (f ++ r) -> ~ undecided coll (K ++ f ++ r).
Proof.
  intros HS U. destruct (skips_cases K r HS) as [->|(b & K' & -> & (D & _) & _)].
  - exact (frame_not_undecided _ _ _ _ _ _ F U).
  - contradiction.
Qed.

Lemma dead_front K r b s : Skips coll (K ++ f ++ r) (f ++ r) -> K ++ f ++ r = b :: s -> dead coll (b :: s) -> exists K', K = b :: K' /\ s = K' ++ f ++ r.
Proof.
  intros HS E D. destruct K as [|b' K'].
  - exfalso. destruct D as (_ & D). cbn [app] in E. exact (D _ _ _ _ r F (eq_sym E)).
  - exists K'. cbn [app] in E. injection E as -> <-. auto.
Qed.

(** The check finds the frame. *)
Definition finds (s : tstate) (r : list Z) (res : outcome (bool * tstate)) : Prop :=
  exists s' u, res = Ok (true, s') /\ thas s' (f ++ r ++ concat u) /\ ts_coming s = u ++ ts_coming s' /\ er_id (ts_recv s') = Some id.

Lemma finds_after s u s' r res : ts_coming s = u ++ ts_coming s' -> finds s' (r ++ concat u) res -> finds s r res.
Proof.
  intros E (s2 & v & E2 & H & EC & I). exists s2, (u ++ v). split; [exact E2|].
  rewrite <- app_assoc, <- concat_app in H. split; [exact H|]. split; [rewrite E, EC, app_assoc; reflexivity | exact I].
Qed.

Lemma tc_skip_found fuel : forall s K r, good s K r -> (length K < fuel)%nat ->
  exists s' u K', tc_skip fuel o c coll s = Ok s' /\ good s' K' (r ++ concat u) /\ ts_coming s = u ++ ts_coming s'
    /\ (length K' <= length K)%nat /\ exists Z0, K' ++ f ++ r ++ concat u = 1 :: Z0.
Proof.
  induction fuel as [|fuel IH]; intros s K r G Hf; [lia|]. cbn [tc_skip].
  destruct (tc_empty_spec s _ (proj1 G) (good_ne K r)) as (s1 & u1 & -> & H1 & W1). cbn [bind].
  pose proof (good_more _ _ _ _ _ G H1) as G1.
  destruct (K ++ f ++ r ++ concat u1) as [|x Y] eqn:EX; [exfalso; exact (good_ne _ _ EX)|].
  pose proof G1 as (H1' & HS1). rewrite EX in H1', HS1.
  destruct (tc_at_spec 0 s1 [] x Y H1' eq_refl) as (s2 & u2 & -> & H2 & W2). cbn [bind]. unfold SOH.
  cbn [app] in H2. rewrite app_comm_cons, <- EX in H2. pose proof (good_more _ _ _ _ _ G1 H2) as G2. rewrite <- app_assoc, <- concat_app in G2.
  destruct (went_trans _ _ _ _ _ W1 W2) as (W12 & _).
  destruct (Z.eqb_spec x 1) as [->|Hx].
  - exists s2, (u1 ++ u2), K. split; [reflexivity|]. split; [exact G2|]. split; [exact W12|]. split; [lia|].
    exists (Y ++ concat u2). rewrite concat_app.
    rewrite (app_assoc r), (app_assoc f), (app_assoc K), EX. reflexivity.
  - destruct (dead_front K (r ++ concat u1) x Y) as (K' & -> & EY); [rewrite EX; exact HS1 | exact EX | apply not_soh_dead; assumption |].
    pose proof G2 as (H2' & HS2). cbn [app] in H2', HS2.
    destruct (tc_pop_spec s2 x _ H2') as (s3 & u3 & -> & H3 & W3). cbn [bind].
    assert (good s3 K' (r ++ concat ((u1 ++ u2) ++ u3))) as G3.
    { assert (good (TState (ts_recv s3) (ts_coming s3)) K' ((r ++ concat (u1 ++ u2)) ++ concat u3)) as Q.
      { rewrite <- !app_assoc in H3. split; [rewrite <- !app_assoc; destruct s3; exact H3|].
        inversion HS2 as [s0 E1 E2 | b' s0 s' D HS' E1 E2]; subst.
        - exfalso. apply (f_equal (@length Z)) in E2. cbn [length app] in E2. rewrite !app_length in E2. lia.
        - apply (skips_more _ _ (concat u3)) in HS'. rewrite <- !app_assoc in *. exact HS'. }
      rewrite (concat_app (u1 ++ u2)), app_assoc. destruct s3. exact Q. }
    destruct (IH s3 K' _ G3) as (s4 & u4 & K4 & -> & G4 & W4 & L4 & HZ); [cbn [length] in Hf; lia|].
    exists s4, (((u1 ++ u2) ++ u3) ++ u4), K4. split; [reflexivity|].
    rewrite <- app_assoc, <- concat_app in G4, HZ. split; [exact G4|].
    split; [rewrite W12; destruct W3 as (-> & _); rewrite W4, <- !app_assoc; reflexivity|].
    split; [cbn [length]; lia | exact HZ].
Qed.

Lemma tc_retry_found chk s K r b s0 : good s K r -> K ++ f ++ r = b :: s0 -> dead coll (b :: s0) ->
  (forall s' K' r', good s' K' r' -> (length K' < length K)%nat -> finds s' r' (chk s')) ->
  finds s r (tc_pop_and_retry o c coll chk s).
Proof.
  intros G E D IH. destruct (dead_front K r b s0 (proj2 G) E D) as (K' & -> & _). unfold tc_pop_and_retry.
  assert (exists s1 u1, match mode c with
          | Disabled => Ok s
          | _ => do (empty, s) <- tc_empty o c coll s; do _ <- assert_ c (negb empty); Ok s
          end = Ok s1 /\ good s1 (b :: K') (r ++ concat u1) /\ ts_coming s = u1 ++ ts_coming s1) as (s1 & u1 & -> & G1 & W1).
  { destruct (tc_empty_spec s _ (proj1 G) (good_ne _ r)) as (s1 & u1 & -> & H1 & (W1 & _)). cbn [bind negb].
    rewrite assert_true by reflexivity. cbn [bind]. pose proof (good_more _ _ _ _ _ G H1) as G1.
    destruct (mode c); [exists s, []; cbn [concat]; rewrite app_nil_r; auto | eauto | eauto]. }
  cbn [bind]. destruct (tc_empty_spec s1 _ (proj1 G1) (good_ne _ _)) as (s2 & u2 & -> & H2 & (W2 & _)). cbn [bind].
  pose proof (good_more _ _ _ _ _ G1 H2) as (H2' & HS2). cbn [app] in H2', HS2.
  destruct (tc_pop_spec s2 b _ H2') as (s3 & u3 & -> & H3 & (W3 & _)). cbn [bind].
  apply (finds_after s ((u1 ++ u2) ++ u3) s3); [rewrite W1, W2, W3, <- !app_assoc; reflexivity|].
  apply IH with (K' := K'); [|cbn [length]; lia]. rewrite !concat_app, !app_assoc. rewrite <- !app_assoc in *. split; [exact H3|].
  inversion HS2 as [s4 E1 E2 | b' s4 s' D' HS' E1 E2]; subst.
  - exfalso. apply (f_equal (@length Z)) in E2. cbn [length app] in E2. rewrite !app_length in E2. lia.
  - apply (skips_more _ _ (concat u3)) in HS'. rewrite <- !app_assoc in HS'. exact HS'.
Qed.

Lemma tc_check_found fuel : forall s K r, good s K r -> (length K < fuel)%nat -> finds s r (tc_check fuel o c coll s).
Proof.
  induction fuel as [|fuel IH]; intros s K r G Hf; [lia|]. cbn [tc_check].
  destruct (tc_skip_found (S fuel) s K r G Hf) as (s0 & u0 & K0 & -> & G0 & W0 & L0 & HZ). cbn [bind].
  apply (finds_after s u0 s0 r _ W0). assert (length K0 < S fuel)%nat as Hf0 by lia.
  revert G0 HZ. generalize (r ++ concat u0). clear s K r G Hf u0 W0 L0. rename s0 into s, K0 into K. intros r G (Z0 & EZ).
  assert (Hlen : (5 <= length (K ++ f ++ r))%nat).
  { pose proof (is_frame_length _ _ _ _ _ F) as HL. pose proof (frame_size_ge5 (mc_env coll) m). rewrite !app_length. lia. }
  destruct (tc_size_spec s _ (proj1 G) (good_ne K r)) as (s1 & u & v & -> & H1 & (W1 & _)). cbn [bind].
  rewrite (proj2 (Z.ltb_ge _ _)) by (unfold zlen; rewrite (app_length (K ++ f ++ r)); lia).
  pose proof (good_more _ _ _ _ _ G H1) as G1. apply (finds_after s _ s1 r _ W1).
  assert (exists Z1, K ++ f ++ r ++ concat (u ++ v) = 1 :: Z1) as HZ1.
  { exists (Z0 ++ concat (u ++ v)). rewrite (app_assoc f), (app_assoc K), EZ. reflexivity. }
  assert (5 <= length (K ++ f ++ r ++ concat (u ++ v)))%nat as Hlen1 by (rewrite !app_length in *; lia).
  revert G1 HZ1 Hlen1. generalize (r ++ concat (u ++ v)). clear s r G H1 u v W1 Z0 EZ Hlen. rename s1 into s.
  intros r G (Y & EY) Hlen.
  destruct Y as [|id' [|x Y]]; try (rewrite EY in Hlen; cbn [length] in Hlen; lia).
  assert (0 <= id') as Hid0.
  { destruct G as ((_ & _ & HB & _) & _). rewrite EY in HB. apply Forall_inv_tail, Forall_inv in HB. lia. }
  pose proof (proj1 G) as HT. rewrite EY in HT.
  destruct (tc_at_spec 1 s [1] id' (x :: Y) HT eq_refl) as (s1 & u1 & -> & H1 & (W1 & _)). cbn [bind].
  cbn [app] in H1. rewrite <- (app_nil_l (concat u1)) in H1. cbn [app] in H1.
  assert (K ++ f ++ r ++ concat u1 = 1 :: id' :: x :: Y ++ concat u1) as EY1.
  { rewrite (app_assoc f), (app_assoc K), EY. reflexivity. }
  set (s2 := TState (er_set_id coll id' (ts_recv s1)) (ts_coming s1)).
  assert (good s2 K (r ++ concat u1)) as G2.
  { pose proof G as (_ & HS). apply (skips_more _ _ (concat u1)) in HS. rewrite <- !app_assoc in HS.
    split; [|exact HS]. rewrite EY1. exact H1. }
  assert (er_id (ts_recv s2) = if is_id_valid coll id' then Some id' else None) as I2 by reflexivity.
  apply (finds_after s u1 s2 r); [exact W1|]. clearbody s2.
  revert G2 EY1. generalize (r ++ concat u1) (Y ++ concat u1). clear s r G Y EY Hlen HT s1 u1 H1 W1. rename s2 into s.
  intros r Y G EY.
  assert (forall s' K' r', good s' K' r' -> (length K' < length K)%nat -> finds s' r' (tc_check fuel o c coll s')) as IH'.
  { intros s' K' r' G' HK. apply (IH s' K' r' G'). lia. }
  unfold er_id_valid. rewrite I2. destruct (is_id_valid coll id') eqn:Ev; cbn [negb].
  2:{ eapply tc_retry_found; [exact G | exact EY | | exact IH'].
      apply bad_id_dead. intros m' Hm. apply has_id_valid in Hm. congruence. }
  destruct (valid_has_id coll id' Hid0 Ev) as (m' & Hm).
  destruct (tc_size_spec s _ (proj1 G) (good_ne K r)) as (s1 & u & v & -> & H1 & W1). cbn [bind].
  rewrite (proj2 (Z.ltb_ge _ _)) by (rewrite EY, zlen_app, !zlen_cons; pose proof (zlen_nonneg Y); pose proof (zlen_nonneg (concat u)); lia).
  pose proof (good_more _ _ _ _ _ G H1) as G1. apply (finds_after s _ s1 r _ (proj1 W1)).
  assert (K ++ f ++ r ++ concat (u ++ v) = 1 :: id' :: x :: Y ++ concat (u ++ v)) as EY1.
  { rewrite (app_assoc f), (app_assoc K), EY. reflexivity. }
  assert (er_id (ts_recv s1) = Some id') as I1 by (destruct W1 as (_ & ->); exact I2).
  revert G1 EY1. generalize (r ++ concat (u ++ v)) (Y ++ concat (u ++ v)). clear s I2 G r Y EY u v H1 W1. rename s1 into s.
  intros r Y G EY. pose proof (proj1 G) as HT. rewrite EY in HT.
  destruct (tc_at_spec 2 s [1; id'] x Y HT eq_refl) as (s1 & u1 & -> & H1 & W1). cbn [bind]. cbn [app] in H1.
  assert (K ++ f ++ r ++ concat u1 = 1 :: id' :: x :: Y ++ concat u1) as EY1.
  { rewrite (app_assoc f), (app_assoc K), EY. reflexivity. }
  assert (good s1 K (r ++ concat u1)) as G1.
  { apply (good_more _ _ _ _ _ G). rewrite EY. exact H1. }
  assert (er_id (ts_recv s1) = Some id') as I2 by (destruct W1 as (_ & ->); exact I1).
  apply (finds_after s u1 s1 r _ (proj1 W1)).
  revert G1 EY1. generalize (r ++ concat u1) (Y ++ concat u1). clear s I1 G r Y EY HT H1 W1 u1. rename s1 into s.
  intros r Y G EY. unfold STX.
  destruct (Z.eqb_spec x 2) as [->|Hx]; cbn [negb].
  2:{ eapply tc_retry_found; [exact G | exact EY | | exact IH']. apply bad_stx_dead. assumption. }
  unfold er_message_length, er_id_valid, er_current_id. rewrite I2, plain_true by reflexivity. cbn [bind].
  rewrite (get_message_length_valid coll m' id' Hst Hm). cbn [bind].
  destruct (tc_size_spec s _ (proj1 G) (good_ne K r)) as (s1 & u & v & -> & H1 & W1). cbn [bind].
  destruct (Z.ltb_spec (zlen ((K ++ f ++ r) ++ concat u)) (Z.of_nat (frame_size (mc_env coll) m'))) as [Hlt|Hge].
  { exfalso. apply (not_waiting K (r ++ concat u)).
    - pose proof G as (_ & HS). apply (skips_more _ _ (concat u)) in HS. rewrite <- !app_assoc in HS. exact HS.
    - rewrite EY in Hlt. rewrite (app_assoc f), (app_assoc K), EY. cbn [app] in *. split; [reflexivity|]. split; [reflexivity|].
      exists m'. split; [assumption|]. unfold zlen in Hlt. cbn [length] in Hlt |- *. lia. }
  pose proof (good_more _ _ _ _ _ G H1) as G1. apply (finds_after s _ s1 r _ (proj1 W1)).
  assert (K ++ f ++ r ++ concat (u ++ v) = 1 :: id' :: 2 :: Y ++ concat (u ++ v)) as EY1.
  { rewrite (app_assoc f), (app_assoc K), EY. reflexivity. }
  assert (Z.of_nat (frame_size (mc_env coll) m') <= zlen (1 :: id' :: 2 :: Y ++ concat (u ++ v))) as Hge1.
  { rewrite <- EY1. rewrite (app_assoc f), (app_assoc K). rewrite concat_app, (app_assoc (K ++ f ++ r)), zlen_app.
    pose proof (zlen_nonneg (concat v)). rewrite <- !app_assoc in *. lia. }
  assert (er_id (ts_recv s1) = Some id') as I1 by (destruct W1 as (_ & ->); exact I2).
  revert G1 EY1 Hge1. generalize (r ++ concat (u ++ v)) (Y ++ concat (u ++ v)). clear s I2 G r Y EY u v H1 W1 Hge. rename s1 into s.
  intros r Y G EY Hge.
  assert (exists p' t r', Y = p' ++ t ++ r' /\ length p' = payload_size m'
                        /\ length ([1; id'; 2] ++ p' ++ t) = frame_size (mc_env coll) m') as (p' & t & r' & -> & Hp & HL).
  { exists (firstn (payload_size m') Y),
      (firstn (frame_size (mc_env coll) m' - 3 - payload_size m') (skipn (payload_size m') Y)),
      (skipn (frame_size (mc_env coll) m' - 3 - payload_size m') (skipn (payload_size m') Y)).
    rewrite !firstn_skipn. unfold zlen in Hge. cbn [length] in Hge.
    rewrite !app_length, !firstn_length, !skipn_length. cbn [length].
    unfold frame_size in *. destruct (mc_env coll); repeat split; lia. }
  pose proof (proj1 G) as HT. rewrite EY in HT.
  destruct (tc_trailer_spec s m' id' p' t r' Hm Hp HL HT) as (ok & s1 & u & -> & H1 & W1 & Hok). cbn [bind].
  apply (finds_after s u s1 r _ (proj1 W1)).
  assert (good s1 K (r ++ concat u)) as G1 by (apply (good_more _ _ _ _ _ G); rewrite EY; exact H1).
  assert (K ++ f ++ r ++ concat u = 1 :: id' :: 2 :: p' ++ t ++ r' ++ concat u) as EY1.
  { rewrite (app_assoc f), (app_assoc K), EY. cbn [app]. rewrite <- !app_assoc. reflexivity. }
  destruct ok.
  - assert (is_frame coll ([1; id'; 2] ++ p' ++ t) m' id' p') as F'.
    { split; [assumption|]. split; [assumption|]. apply Hok. reflexivity. }
    assert (K ++ f ++ r ++ concat u = ([1; id'; 2] ++ p' ++ t) ++ r' ++ concat u) as EF.
    { rewrite EY1. cbn [app]. rewrite <- !app_assoc. reflexivity. }
    destruct (skips_cases K (r ++ concat u) (proj2 G1)) as [->|(b & K' & -> & (_ & D) & _)].
    + destruct (is_frame_unique _ _ _ _ _ _ _ _ _ _ _ F F' EF) as (_ & _ & EI & _).
      exists s1, []. split; [reflexivity|]. cbn [concat]. rewrite app_nil_r. split; [exact (proj1 G1)|]. split; [reflexivity|].
      destruct W1 as (_ & EW). rewrite EW, I1. congruence.
    + exfalso. exact (D _ _ _ _ _ F' EF).
  - eapply tc_retry_found; [exact G1 | exact EY1 | | exact IH'].
    apply (bad_frame_dead coll m' id' p' t (r' ++ concat u) Hm Hp HL). intros E. apply Hok in E. discriminate.
Qed.
End Frame.
End Found.
