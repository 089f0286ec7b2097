(** appendReceived interrupted by processMessages does what separate calls do. *)
From Verif Require Import ReceiverProofs FeedLemmas PolledSeparate.
From Verif Require Export TornAppend ArrayLemmas.

Definition procs (ps : list presult) : list op := map (fun _ => OpProcess) ps.
Definition rets (ps : list presult) : list opret := map RetProcess ps.

Lemma count_hd (coming : list bool) : count_occ Bool.bool_dec coming true = O ->
  hd false coming = false /\ count_occ Bool.bool_dec (tl coming) true = O.
Proof. destruct coming as [|[] t]; cbn; [auto | discriminate | auto]. Qed.

Lemma rep_set_beyond cap b X i x : rep cap b X -> rb_pastEnd b <= i < cap ->
  rep cap (RBuf (rb_begin b) (rb_pastEnd b) (arr_set (rb_contents b) i x)) X.
Proof.
  intros (A & B & HC & Hb & Hp & Hl) Hi. pose proof (zlen_nonneg A). pose proof (zlen_nonneg X).
  destruct (split_at B (i - rb_pastEnd b)) as (P & Q & -> & HP); [lia|].
  rewrite zlen_app in Hl. destruct Q as [|q Q]; [change (zlen (@nil Z)) with 0 in Hl; lia|].
  exists A, (P ++ x :: Q). cbn [rb_contents rb_begin rb_pastEnd]. rewrite HC.
  replace (A ++ X ++ P ++ q :: Q) with ((A ++ X ++ P) ++ q :: Q) by (rewrite <- !app_assoc; reflexivity).
  rewrite arr_set_mid by (rewrite !zlen_app; lia).
  rewrite zlen_app, zlen_cons in *. split; [rewrite <- !app_assoc; reflexivity|]. repeat split; lia.
Qed.

(** The indices of a receiver that holds [s]. *)
Lemma sim_indices coll w s : sim coll w s -> 0 <= front_of w /\ front_of w + zlen (s_bytes s) = end_of w
  /\ end_of w <= capacity coll /\ zlen (array_of w) = capacity coll.
Proof.
  intros ((A & B & HC & HB & HE & HL) & _). unfold front_of, end_of, array_of. rewrite HC, !zlen_app.
  pose proof (zlen_nonneg A). pose proof (zlen_nonneg B). lia.
Qed.

Section TornAppend.
Context (c : config) (coll : collection) (Hst : static_ok coll = true) (Hsafe : index_safe c (capacity coll)).
Local Notation cap := (capacity coll).
Context (beh : hbehav) (Hb : steady beh) (Hbf : bool_free coll) (o : bool) (fuel : nat) (Hfuel : (Z.to_nat cap < fuel)%nat).
Let Hcap : cap_ok cap := capacity_ok coll Hst.
Let Ht : tame beh := steady_tame _ Hb.
Local Notation run := (w_run fuel c coll beh).

(** What an interrupt does to the bytes held. *)
Definition eats (X Y : list Z) : Prop :=
  zlen Y <= zlen X /\ forall ms r, Scan coll Y ms r -> exists ms', Scan coll X ms' r.

Lemma eats_refl X : eats X X.
Proof. split; [lia|]. eauto. Qed.

Lemma interrupt_spec now w s : sim coll w s ->
  exists w2 ps s2, w_interrupt fuel c coll beh now w = Ok (w2, ps) /\ sim coll w2 s2
    /\ end_of w2 = end_of w /\ array_of w2 = array_of w /\ eats (s_bytes s) (s_bytes s2)
    /\ (now = false -> w2 = w /\ s2 = s)
    /\ forall v, sim coll v s -> exists v', history c coll beh v (procs ps) [] (rets ps) v' /\ sim coll v' s2.
Proof.
  intros Hs. destruct now; cbn [w_interrupt].
  2:{ exists w, [], s. repeat (split; [try reflexivity; try assumption; auto using eats_refl|]).
      intros v Hv. exists v. split; [constructor | assumption]. }
  destruct (step_progress c coll Hst Hsafe beh OpProcess w s fuel Hb Hs I) as (w2 & r & E).
  { apply (bool_free_decodable c coll Hst); [assumption | apply (sim_bytes_ok coll _ _ Hs)]. } { assumption. }
  destruct (step_sound c coll Hst beh fuel OpProcess w s w2 r Ht Hsafe Hs I E) as (d & s2 & HS & Hs2).
  pose proof E as E'. cbn [step] in E.
  destruct (process_messages fuel c coll beh w) as [[w3 p]| | | |] eqn:EP; try discriminate. cbn [bind] in E.
  assert (w3 = w2) as -> by congruence. assert (r = RetProcess p) as -> by congruence. cbn [bind].
  exists w2, [p], s2. split; [reflexivity|]. split; [assumption|].
  assert (end_of w2 = end_of w /\ array_of w2 = array_of w) as [E1 E2].
  { unfold process_messages in EP. destruct (negb _).
    - assert (w2 = w) as -> by congruence. auto.
    - split; [exact (process_loop_end c coll beh Hb _ _ _ _ _ EP) | exact (process_loop_kept c coll beh Hb _ _ _ _ _ EP)]. }
  split; [assumption|]. split; [assumption|].
  assert (received coll beh OpProcess w w2 = []) as HR by apply (no_appended_by beh Hb).
  split; [|split; [discriminate|]].
  - inversion HS; subst; [apply eats_refl|]. cbn [s_bytes].
    match goal with HP : Proc _ _ _ _ _ _ |- _ => rename HP into HP' end.
    destruct (Proc_consumed _ _ _ _ _ _ HP' X [] (fun T ms r H => H)) as (new & ms' & Hn & HC & _). cbn [s_log] in Hn, HC.
    rewrite (no_appended_by beh Hb), app_nil_r in HC. cbn [app] in HC. split.
    + destruct (Proc_suffix _ _ _ _ _ _ HP' new Hn) as (K & HK). cbn [s_bytes s_log] in HK.
      rewrite (no_appended_by beh Hb), app_nil_r in HK. rewrite HK, zlen_app. pose proof (zlen_nonneg K). lia.
    + intros ms r0 Hsc. exists (ms' ++ ms). specialize (HC [] ms r0). rewrite !app_nil_r in HC. auto.
  - intros v Hv. destruct (step_history c coll Hst Hsafe beh Hb v s OpProcess d s2 (RetProcess p) Hv I HS) as (v' & Hr & Hv').
    exists v'. split; [|assumption]. change (procs [p]) with ([] ++ [OpProcess]).
    replace (@nil Z) with ([] ++ received coll beh OpProcess v v') by apply (no_appended_by beh Hb).
    change (rets [p]) with ([] ++ [RetProcess p]). eapply hist_snoc; [constructor | exact I | exact Hr].
Qed.

(** An access, after the routine. *)
Definition accesses (p : wmicro) (f : world -> wmicro) (g : world -> world) : Prop :=
  forall coming w, run p coming w =
    (do (w1, ps) <- w_interrupt fuel c coll beh (hd false coming) w;
     do (w2, qs) <- run (f w1) (tl coming) (g w1); Ok (w2, ps ++ qs)).

Lemma acc_begin k : accesses (WBegin k) (fun w => k (front_of w)) (fun w => w).
Proof. intros coming w. reflexivity. Qed.
Lemma acc_pastEnd k : accesses (WPastEnd k) (fun w => k (end_of w)) (fun w => w).
Proof. intros coming w. reflexivity. Qed.
Lemma acc_set_begin x k : accesses (WSetBegin x k) (fun _ => k) (fun w => w_set_buf (RBuf x (end_of w) (array_of w)) w).
Proof. intros coming w. reflexivity. Qed.
Lemma acc_set_pastEnd x k : accesses (WSetPastEnd x k) (fun _ => k) (fun w => w_set_buf (RBuf (front_of w) x (array_of w)) w).
Proof. intros coming w. reflexivity. Qed.
Lemma acc_set_element i x k :
  accesses (WSetElement i x k) (fun _ => k) (fun w => w_set_buf (RBuf (front_of w) (end_of w) (arr_set (array_of w) i x)) w).
Proof. intros coming w. reflexivity. Qed.

(** From here on: only interrupts are to come. *)
Definition after (p : wmicro) (coming : list bool) (w : world) (s : sstate) : Prop :=
  exists w' ps s', run p coming w = Ok (w', ps) /\ sim coll w' s'
    /\ forall v, sim coll v s -> exists v', history c coll beh v (procs ps) [] (rets ps) v' /\ sim coll v' s'.

(** From here on: interrupts, the bytes, interrupts.  [main] is the call interrupted, [ret] what it returns, [m] the number of bytes
    it makes room for. *)
Context (d : list Z) (Hd : bytes_ok d) (m : Z) (Hm : zlen d <= m) (main : op) (ret : opret).
Context (Hmain : forall v s, sim coll v s -> zlen (s_bytes s) + m <= cap ->
           exists v2, history c coll beh v [main] d [ret] v2 /\ sim coll v2 (with_more d s)).
Definition before (p : wmicro) (coming : list bool) (w : world) (s : sstate) : Prop :=
  exists w' ps qs s', run p coming w = Ok (w', ps ++ qs) /\ sim coll w' s'
    /\ forall v, sim coll v s -> exists v',
         history c coll beh v (procs ps ++ main :: procs qs) d (rets ps ++ ret :: rets qs) v' /\ sim coll v' s'.

Definition came (coming : list bool) (w : world) (s : sstate) (w2 : world) (s2 : sstate) : Prop :=
  sim coll w2 s2 /\ end_of w2 = end_of w /\ array_of w2 = array_of w /\ eats (s_bytes s) (s_bytes s2)
  /\ (hd false coming = false -> w2 = w /\ s2 = s).

Lemma after_access p f g coming w s : accesses p f g -> sim coll w s ->
  (forall w2 s2, came coming w s w2 s2 -> sim coll (g w2) s2 /\ after (f w2) (tl coming) (g w2) s2) -> after p coming w s.
Proof.
  intros HA Hs H. destruct (interrupt_spec (hd false coming) w s Hs) as (w2 & ps & s2 & E & Hs2 & H1 & H2 & H3 & H4 & H5).
  assert (came coming w s w2 s2) as HC by (unfold came; auto).
  destruct (H w2 s2 HC) as (_ & w' & qs & s' & ER & Hs' & HH).
  exists w', (ps ++ qs), s'. rewrite (HA coming w), E. cbn [bind]. rewrite ER. split; [reflexivity|]. split; [assumption|].
  intros v Hv. destruct (H5 v Hv) as (v1 & K1 & K2). destruct (HH v1 K2) as (v2 & K3 & K4). exists v2. split; [|assumption].
  unfold procs, rets in *. rewrite !map_app. exact (history_app c coll beh _ _ _ _ _ _ _ _ _ K1 K3).
Qed.

Lemma before_access p f g coming w s : accesses p f g -> sim coll w s ->
  (forall w2 s2, came coming w s w2 s2 -> before (f w2) (tl coming) (g w2) s2) -> before p coming w s.
Proof.
  intros HA Hs H. destruct (interrupt_spec (hd false coming) w s Hs) as (w2 & ps & s2 & E & Hs2 & H1 & H2 & H3 & H4 & H5).
  assert (came coming w s w2 s2) as HC by (unfold came; auto).
  destruct (H w2 s2 HC) as (w' & qs & qs' & s' & ER & Hs' & HH).
  exists w', (ps ++ qs), qs', s'. rewrite (HA coming w), E. cbn [bind]. rewrite ER. split; [cbn [bind]; rewrite app_assoc; reflexivity|].
  split; [assumption|].
  intros v Hv. destruct (H5 v Hv) as (v1 & K1 & K2). destruct (HH v1 K2) as (v2 & K3 & K4). exists v2. split; [|assumption].
  unfold procs, rets in *. rewrite !map_app, <- !app_assoc. exact (history_app c coll beh _ _ _ _ _ _ _ _ _ K1 K3).
Qed.

(** The write that makes the bytes part of the contents. *)
Lemma after_before p f g coming w s : accesses p f g -> sim coll w s -> zlen (s_bytes s) + m <= cap ->
  (forall w2 s2, came coming w s w2 s2 -> after (f w2) (tl coming) (g w2) (with_more d s2)) -> before p coming w s.
Proof.
  intros HA Hs Hfit H. destruct (interrupt_spec (hd false coming) w s Hs) as (w2 & ps & s2 & E & Hs2 & H1 & H2 & H3 & H4 & H5).
  assert (came coming w s w2 s2) as HC by (unfold came; auto).
  destruct (H w2 s2 HC) as (w' & qs & s' & ER & Hs' & HH).
  exists w', ps, qs, s'. rewrite (HA coming w), E. cbn [bind]. rewrite ER. split; [reflexivity|]. split; [assumption|].
  intros v Hv. destruct (H5 v Hv) as (v1 & K1 & K2).
  destruct (Hmain v1 s2 K2) as (v2 & K8 & K5); [destruct H3; lia|].
  destruct (HH v2 K5) as (v3 & K6 & K7). exists v3. split; [|assumption].
  pose proof (history_app c coll beh _ _ _ _ _ _ _ _ _ K1 (history_app c coll beh _ _ _ _ _ _ _ _ _ K8 K6)) as K9.
  cbn [app] in K9. rewrite app_nil_r in K9. exact K9.
Qed.

Lemma sim_set w s b X : sim coll w s -> rep cap b X -> bytes_ok X ->
  sim coll (w_set_buf b w) (SState X (s_handler s) (s_last s) (s_log s)).
Proof. intros (_ & _ & H1 & H2 & H3 & H4) R HB. repeat split; assumption. Qed.

Lemma sstate_eta s : SState (s_bytes s) (s_handler s) (s_last s) (s_log s) = s.
Proof. destruct s; reflexivity. Qed.

(** ** The checks at the end *)
Lemma after_done coming w s : sim coll w s -> after WDone coming w s.
Proof. intros Hs. exists w, [], s. split; [reflexivity|]. split; [assumption|]. intros v Hv. exists v. split; [constructor | assumption]. Qed.

Lemma after_assert coming w s k : after k coming w s -> after (WAssert true k) coming w s.
Proof.
  intros (w' & ps & s' & E & H). exists w', ps, s'. cbn [w_run]. rewrite (assert_true c) by reflexivity. exact (conj E H).
Qed.

Lemma after_both left k coming w s : sim coll w s ->
  (forall coming' w2 s2, sim coll w2 s2 -> after k coming' w2 s2) ->
  after (w_both o left (fun b e => WAssert (b <=? e) k)) coming w s.
Proof.
  intros Hs Hk. unfold w_both. destruct (Bool.eqb o left).
  - eapply after_access; [apply acc_begin | exact Hs |]. intros w2 s2 (Q1 & Q2 & Q3 & (Q4 & _) & _). split; [assumption|].
    eapply after_access; [apply acc_pastEnd | exact Q1 |]. intros w3 s3 (P1 & P2 & P3 & (P4 & _) & _). split; [assumption|].
    destruct (sim_indices _ _ _ Q1) as (I1 & I2 & _). pose proof (zlen_nonneg (s_bytes s2)).
    rewrite (proj2 (Z.leb_le (front_of w2) (end_of w3))) by lia. apply after_assert, Hk, P1.
  - eapply after_access; [apply acc_pastEnd | exact Hs |]. intros w2 s2 (Q1 & Q2 & Q3 & (Q4 & _) & _). split; [assumption|].
    eapply after_access; [apply acc_begin | exact Q1 |]. intros w3 s3 (P1 & P2 & P3 & (P4 & _) & _). split; [assumption|].
    destruct (sim_indices _ _ _ P1) as (I1 & I2 & _). pose proof (zlen_nonneg (s_bytes s3)).
    rewrite (proj2 (Z.leb_le (front_of w3) (end_of w2))) by lia. apply after_assert, Hk, P1.
Qed.

Lemma after_verify coming w s : sim coll w s -> after (w_verify o c cap WDone) coming w s.
Proof.
  intros Hs. unfold w_verify, w_assert. destruct (mode c); [apply after_done; assumption| |].
  all: apply after_both; [assumption|]; intros cm w2 s2 H2; eapply after_access; [apply acc_pastEnd | exact H2 |];
    intros w3 s3 (Q1 & Q2 & _); (split; [assumption|]);
    destruct (sim_indices _ _ _ Q1) as (_ & _ & I3 & _); rewrite (proj2 (Z.leb_le _ _) I3); apply after_assert, after_done, Q1.
Qed.

(** ** The copy and the new end *)
Definition stored (w : world) (x : list Z) : Prop :=
  exists pre post, array_of w = pre ++ x ++ post /\ zlen pre = end_of w.

Lemma before_end coming w s : sim coll w s -> stored w d -> end_of w + m <= cap ->
  before (WPastEnd (fun p => WSetPastEnd (to_sz cap (p + zlen d)) (w_verify o c cap WDone))) coming w s.
Proof.
  intros Hs Hd' Hfit. eapply before_access; [apply acc_pastEnd | exact Hs |]. intros w2 s2 (Q1 & Q2 & Q3 & Q4 & _).
  destruct (sim_indices _ _ _ Q1) as (I1 & I2 & I3 & I4). pose proof (zlen_nonneg d). pose proof (zlen_nonneg (s_bytes s2)).
  eapply after_before; [apply acc_set_pastEnd | exact Q1 | lia |]. intros w3 s3 (P1 & P2 & P3 & P4 & _).
  apply after_verify. rewrite (to_sz_small cap Hcap) by lia.
  unfold with_more. apply sim_set; [assumption| |apply Forall_app; split; [apply (sim_bytes_ok coll _ _ P1) | assumption]].
  destruct Hd' as (pre & post & EA & EP). pose proof P1 as ((A & B & HC & HB & HE & HL) & _).
  fold (array_of w3) in HC. fold (end_of w3) in HE. fold (front_of w3) in HB.
  assert (A ++ s_bytes s3 = pre /\ B = d ++ post) as [E1 E2].
  { rewrite P3, Q3, EA, (app_assoc A) in HC.
    assert (length pre = length (A ++ s_bytes s3)) as HLn by (rewrite app_length; unfold zlen in *; lia).
    split.
    - apply (f_equal (firstn (length pre))) in HC. rewrite firstn_app_exact in HC by reflexivity.
      rewrite firstn_app_exact in HC by exact HLn. congruence.
    - apply (f_equal (skipn (length pre))) in HC. rewrite Lists.skipn_app_exact in HC by reflexivity.
      rewrite Lists.skipn_app_exact in HC by exact HLn. congruence. }
  exists A, post. cbn [rb_contents rb_begin rb_pastEnd]. subst B. rewrite HC. rewrite !zlen_app in *.
  split; [rewrite <- !app_assoc; reflexivity|]. repeat split; lia.
Qed.

Lemma before_store rest : forall x coming w s, d = x ++ rest -> sim coll w s -> stored w x -> end_of w + m <= cap ->
  before (w_store (end_of w + zlen x) rest
            (WPastEnd (fun p => WSetPastEnd (to_sz cap (p + zlen d)) (w_verify o c cap WDone)))) coming w s.
Proof.
  induction rest as [|y rest IH]; intros x coming w s Ed Hs Hx Hfit; cbn [w_store].
  { rewrite app_nil_r in Ed. apply before_end; [assumption| rewrite Ed; assumption | assumption]. }
  eapply before_access; [apply acc_set_element | exact Hs |]. intros w2 s2 (Q1 & Q2 & Q3 & Q4 & _).
  set (w3 := w_set_buf _ w2).
  destruct (sim_indices _ _ _ Q1) as (I1 & I2 & I3 & I4).
  assert (zlen d = zlen x + 1 + zlen rest) as El by (rewrite Ed, zlen_app, zlen_cons; lia).
  pose proof (zlen_nonneg rest). pose proof (zlen_nonneg x).
  assert (end_of w3 = end_of w) as E3 by exact Q2.
  assert (sim coll w3 s2) as Hs3.
  { rewrite <- (sstate_eta s2). apply sim_set; [assumption| |apply (sim_bytes_ok coll _ _ Q1)].
    apply (rep_set_beyond cap (er_buf (rx_recv (w_rx w2)))); [exact (proj1 Q1)|]. fold (end_of w2). lia. }
  assert (stored w3 (x ++ [y])) as Hst3.
  { destruct Hx as (pre & post & EA & EP). exists pre.
    assert (zlen (array_of w2) = zlen pre + zlen x + zlen post) as HL by (rewrite Q3, EA, !zlen_app; lia).
    destruct post as [|z post]; [change (zlen (@nil Z)) with 0 in HL; lia|].
    exists post. split; [|congruence].
    change (array_of w3) with (arr_set (array_of w2) (end_of w + zlen x) y).
    rewrite Q3, EA. rewrite app_assoc, arr_set_mid by (rewrite zlen_app; lia). rewrite <- !app_assoc. reflexivity. }
  specialize (IH (x ++ [y]) (tl coming) w3 s2). rewrite E3 in IH.
  replace (end_of w + zlen x + 1) with (end_of w + zlen (x ++ [y])) by (rewrite zlen_app; unfold zlen; cbn [length]; lia).
  apply IH; [rewrite Ed, <- app_assoc; reflexivity | assumption | assumption | assumption].
Qed.

Lemma before_copy coming w s : sim coll w s -> end_of w + m <= cap ->
  before (WPastEnd (fun pos =>
       if pos + zlen d <=? cap
       then w_store pos d
              (WPastEnd (fun p => WSetPastEnd (to_sz cap (p + zlen d)) (w_verify o c cap WDone)))
       else WUndefined)) coming w s.
Proof.
  intros Hs Hfit. eapply before_access; [apply acc_pastEnd | exact Hs |]. intros w2 s2 (Q1 & Q2 & Q3 & Q4 & _).
  rewrite (proj2 (Z.leb_le _ _)) by lia.
  replace (end_of w2) with (end_of w2 + zlen (@nil Z)) by (change (zlen (@nil Z)) with 0; lia).
  apply before_store; [reflexivity | assumption | | lia].
  destruct (sim_indices _ _ _ Q1) as (I1 & I2 & I3 & I4). pose proof (zlen_nonneg (s_bytes s2)).
  destruct (split_at (array_of w2) (end_of w2)) as (P & Q & EQ & HP); [lia|]. exists P, Q. split; [exact EQ | exact HP].
Qed.

(** ** Making room *)

(** When the routine may come. *)
Definition good (X : list Z) (coming : list bool) : Prop :=
  (forall ms r, Scan coll X ms r -> r <> [])
  \/ (X <> [] /\ (count_occ Bool.bool_dec coming true <= 1)%nat)
  \/ count_occ Bool.bool_dec coming true = O.

Lemma good_came coming w s w2 s2 : good (s_bytes s) coming -> came coming w s w2 s2 -> good (s_bytes s2) (tl coming).
Proof.
  clear Hmain Hm Hfuel. intros [H|[(H & Hc)|H]] (_ & _ & _ & (_ & He) & Hn).
  - left. intros ms r Hsc. destruct (He ms r Hsc) as (ms' & Hsc'). exact (H _ _ Hsc').
  - destruct coming as [|[] t]; cbn [hd tl count_occ] in *.
    + right. right. reflexivity.
    + right. right. destruct (Bool.bool_dec true true); [lia | contradiction].
    + destruct (Hn eq_refl) as (_ & ->). right. left. destruct (Bool.bool_dec false true); [discriminate|]. auto.
  - right. right. apply (proj2 (count_hd _ H)).
Qed.

Lemma good_nothing coming : good [] coming -> count_occ Bool.bool_dec coming true = O.
Proof.
  intros [H|[(H & _)|H]]; [|contradiction|assumption]. exfalso. apply (H [] []); [|reflexivity]. apply scan_wait. exact I.
Qed.

Lemma before_empty k coming w s : sim coll w s -> good (s_bytes s) coming ->
  (forall e coming' w2 s2, sim coll w2 s2 -> end_of w2 = end_of w ->
     (e = true -> s_bytes s2 = [] /\ count_occ Bool.bool_dec coming' true = O) -> before (k e) coming' w2 s2) ->
  before (w_empty o k) coming w s.
Proof.
  intros Hs HG Hk. unfold w_empty, w_both. destruct (Bool.eqb o true).
  - eapply before_access; [apply acc_begin | exact Hs |]. intros w2 s2 C2. pose proof (good_came _ _ _ _ _ HG C2) as G2.
    destruct C2 as (Q1 & Q2 & Q3 & (Q4 & _) & _).
    eapply before_access; [apply acc_pastEnd | exact Q1 |]. intros w3 s3 C3. destruct C3 as (P1 & P2 & P3 & (P4 & _) & P5).
    apply Hk; [assumption | congruence |]. intros E. apply Z.eqb_eq in E.
    destruct (sim_indices _ _ _ Q1) as (_ & I2 & _).
    assert (s_bytes s2 = []) as E2 by (apply length_zero_iff_nil; unfold zlen in *; lia).
    rewrite E2 in G2. apply good_nothing, count_hd in G2. destruct G2 as [G2 G3]. destruct (P5 G2) as (_ & ->). auto.
  - eapply before_access; [apply acc_pastEnd | exact Hs |]. intros w2 s2 C2. pose proof (good_came _ _ _ _ _ HG C2) as G2.
    destruct C2 as (Q1 & Q2 & Q3 & (Q4 & _) & _).
    eapply before_access; [apply acc_begin | exact Q1 |]. intros w3 s3 C3. pose proof (good_came _ _ _ _ _ G2 C3) as G3.
    destruct C3 as (P1 & P2 & P3 & (P4 & _) & P5).
    apply Hk; [assumption | congruence |]. intros E. apply Z.eqb_eq in E.
    destruct (sim_indices _ _ _ P1) as (_ & I2 & _).
    assert (s_bytes s3 = []) as E2 by (apply length_zero_iff_nil; unfold zlen in *; lia).
    split; [exact E2|]. rewrite E2 in G3. apply good_nothing, G3.
Qed.

Lemma before_append coming w s : sim coll w s -> end_of w + m <= cap -> good (s_bytes s) coming \/ end_of w = 0 ->
  before (w_ensure_space o c cap m
    (WPastEnd (fun pos =>
       if pos + zlen d <=? cap
       then w_store pos d
              (WPastEnd (fun p => WSetPastEnd (to_sz cap (p + zlen d)) (w_verify o c cap WDone)))
       else WUndefined))) coming w s.
Proof.
  intros Hs Hfit HG. unfold w_ensure_space. pose proof (zlen_nonneg d).
  destruct (sim_indices _ _ _ Hs) as (I1 & I2 & I3 & I4). pose proof (zlen_nonneg (s_bytes s)).
  set (copy := WPastEnd (fun pos => if pos + zlen d <=? cap then _ else WUndefined)).
  set (rest := WPastEnd _).
  assert (forall cm w2 s2, sim coll w2 s2 -> end_of w2 + m <= cap -> before rest cm w2 s2) as Hrest.
  { intros cm w2 s2 H2 Hf2. unfold rest. eapply before_access; [apply acc_pastEnd | exact H2 |].
    intros w3 s3 (Q1 & Q2 & _). destruct (sim_indices _ _ _ Q1) as (J1 & J2 & J3 & _). pose proof (zlen_nonneg (s_bytes s3)).
    rewrite (promoted_add_exact c cap Hsafe) by (destruct Hcap; lia).
    rewrite (proj2 (Z.leb_le _ _)) by lia. apply before_copy; [assumption | lia]. }
  destruct HG as [HG | HZ].
  2:{ unfold w_empty, w_both.
      assert (forall (e : bool) cm w2 s2, sim coll w2 s2 -> end_of w2 = 0 ->
        before (if e then WSetBegin 0 (WSetPastEnd 0 rest) else rest) cm w2 s2) as Hreset.
      { intros e cm w2 s2 H2 E2. destruct e; [|apply Hrest; [assumption | lia]].
        assert (forall w3 s3, sim coll w3 s3 -> end_of w3 = 0 -> front_of w3 = 0) as Hzero.
        { intros w3 s3 H3 E3. destruct (sim_indices _ _ _ H3) as (J1 & J2 & _). pose proof (zlen_nonneg (s_bytes s3)). lia. }
        assert (forall w3 s3, sim coll w3 s3 -> end_of w3 = 0 -> sim coll (w_set_buf (RBuf 0 0 (array_of w3)) w3) s3) as Hsame.
        { intros w3 s3 H3 E3. rewrite <- (sstate_eta s3). apply sim_set; [assumption| |apply (sim_bytes_ok coll _ _ H3)].
          rewrite <- (Hzero _ _ H3 E3) at 1. rewrite <- E3. destruct H3 as (R & _). exact R. }
        eapply before_access; [apply acc_set_begin | exact H2 |]. intros w3 s3 (Q1 & Q2 & _).
        rewrite Q2, E2. eapply before_access; [apply acc_set_pastEnd | apply Hsame; [exact Q1 | congruence] |].
        intros w4 s4 (P1 & P2 & _). assert (end_of w4 = 0) as E4 by (rewrite P2; reflexivity).
        rewrite (Hzero _ _ P1 E4). apply Hrest; [apply Hsame; assumption|]. change (end_of (w_set_buf (RBuf 0 0 (array_of w4)) w4)) with 0. lia. }
      destruct (Bool.eqb o true).
      - eapply before_access; [apply acc_begin | exact Hs |]. intros w2 s2 (Q1 & Q2 & _).
        eapply before_access; [apply acc_pastEnd | exact Q1 |]. intros w3 s3 (P1 & P2 & _). apply Hreset; [assumption | congruence].
      - eapply before_access; [apply acc_pastEnd | exact Hs |]. intros w2 s2 (Q1 & Q2 & _).
        eapply before_access; [apply acc_begin | exact Q1 |]. intros w3 s3 (P1 & P2 & _). apply Hreset; [assumption | congruence]. }
  apply before_empty; [assumption | assumption |]. intros e cm w2 s2 H2 E2 He.
  destruct e; [|apply Hrest; [assumption | lia]].
  destruct (He eq_refl) as (EX & EC). destruct (count_hd _ EC) as [C1 C2]. destruct (count_hd _ C2) as [C3 C4].
  set (w3 := w_set_buf (RBuf 0 0 (array_of w2)) w2).
  assert (sim coll w3 s2) as H3.
  { rewrite <- (sstate_eta s2). apply sim_set; [assumption| |apply (sim_bytes_ok coll _ _ H2)].
    rewrite EX. exact (rep_clear cap _ _ (proj1 H2)). }
  destruct (Hrest (tl (tl cm)) w3 s2 H3) as (w' & ps & qs & s' & ER & K).
  { change (end_of w3) with 0. lia. }
  exists w', ps, qs, s'. split; [|exact K].
  rewrite (acc_set_begin 0 _ cm w2), C1. cbn [w_interrupt bind]. rewrite (acc_set_pastEnd 0 _ _ _), C3. cbn [w_interrupt bind].
  change (w_set_buf _ _) with w3. rewrite ER. reflexivity.
Qed.
End TornAppend.

Lemma torn_append_lemma c coll : static_ok coll = true -> index_safe c (capacity coll) ->
  forall beh h0 ops S rs w o d coming fuel, steady beh -> bool_free coll ->
  history c coll beh (start coll h0) ops S rs w ->
  bytes_ok d -> rb_pastEnd (er_buf (rx_recv (w_rx w))) + zlen d <= capacity coll ->
  (forall ms r, Scan coll (held w) ms r -> r <> [])
    \/ (held w <> [] /\ (count_occ Bool.bool_dec coming true <= 1)%nat)
    \/ rb_pastEnd (er_buf (rx_recv (w_rx w))) = 0 ->
  (Z.to_nat (capacity coll) < fuel)%nat ->
  exists w' ps qs v, w_append fuel o c coll beh d coming w = Ok (w', ps ++ qs)
    /\ history c coll beh w (map (fun _ => OpProcess) ps ++ OpAppend d :: map (fun _ => OpProcess) qs) d
         (map RetProcess ps ++ RetUnit :: map RetProcess qs) v
    /\ same_view coll w' v
    /\ (forall ops2 S2 rs2 w2, history c coll beh w' ops2 S2 rs2 w2 ->
          exists v2, history c coll beh v ops2 S2 rs2 v2 /\ same_view coll w2 v2)
    /\ (forall ops2 S2 rs2 v2, history c coll beh v ops2 S2 rs2 v2 ->
          exists w2, history c coll beh w' ops2 S2 rs2 w2 /\ same_view coll w2 v2).
Proof.
  intros Hst Hsafe beh h0 ops S rs w o d coming fuel Hb Hbf H HB Hr Ho Hfu.
  pose proof (steady_tame _ Hb) as Ht.
  pose proof (history_sim c coll Hst Hsafe beh Ht _ _ _ _ _ H) as Hs.
  assert (forall w1 v1 s, sim coll w1 s -> sim coll v1 s -> same_view coll w1 v1) as Hsame.
  { intros w1 v1 s H1 H2. pose proof (view_of coll w1 s H1) as E. apply (same_view_sim coll Hst); rewrite E; assumption. }
  assert (forall w1 v1 s, sim coll w1 s -> sim coll v1 s -> forall ops2 S2 rs2 w2, history c coll beh w1 ops2 S2 rs2 w2 ->
     exists v2, history c coll beh v1 ops2 S2 rs2 v2 /\ same_view coll w2 v2) as Hfut.
  { intros w1 v1 s H1 H2 ops2 S2 rs2 w2 H3.
    destruct (history_transfer c coll Hst Hsafe c beh Ht eq_refl Hsafe _ _ _ _ _ _ _ H1 H2 H3) as (v2 & s2 & Hv2 & Q1 & Q2).
    exists v2. split; [assumption|]. eapply Hsame; eassumption. }
  assert (forall w1 v1, same_view coll w1 v1 -> same_view coll v1 w1) as Hsym.
  { unfold same_view. intros w1 v1 (A & B & C & D & E). auto. }
  destruct (before_append c coll Hst Hsafe beh Hb Hbf o fuel Hfu d HB (zlen d) (Z.le_refl _) (OpAppend d) RetUnit) with (coming := coming) (w := w) (s := view w)
    as (w' & ps & qs & s' & E & Hs' & HV).
  { intros v s Hv Hf. destruct (history_append c coll Hst Hsafe beh Hb v s d Hv) as (v2 & K3 & K4 & K5).
    { rewrite zlen_app. exact Hf. } { assumption. }
    exists v2. split; [|assumption]. change [OpAppend d] with ([] ++ [OpAppend d]). change [RetUnit] with ([] ++ [RetUnit]).
    change d with ([] ++ received coll beh (OpAppend d) v v2) at 2. eapply hist_snoc; [constructor | exact K4 | exact K3]. }
  { exact Hs. } { exact Hr. }
  { unfold good. cbn [view s_bytes]. unfold end_of. tauto. }
  assert (w_append fuel o c coll beh d coming w = Ok (w', ps ++ qs)) as E0.
  { unfold w_append, w_push_range. pose proof (zlen_nonneg d).
    pose proof Hs as ((A & B & _ & _ & I2 & _) & _). pose proof (zlen_nonneg A). pose proof (zlen_nonneg (s_bytes (view w))).
    rewrite (to_sz_small _ (capacity_ok coll Hst) (zlen d)) by lia. exact E. }
  destruct (HV w Hs) as (v & Hv & Hsv). exists w', ps, qs, v. split; [exact E0|]. split; [exact Hv|].
  split; [eapply Hsame; eassumption|]. split; [eapply Hfut; eassumption|].
  intros ops2 S2 rs2 v2 Q. destruct (Hfut _ _ _ Hsv Hs' _ _ _ _ Q) as (w2 & Q1 & Q2). exists w2. auto.
Qed.

(** ** Without interrupts *)
Lemma skipn_middle (P Q : list Z) x n m : n = (S (length P) + m)%nat -> skipn n (P ++ x :: Q) = skipn m Q.
Proof. intros ->. induction P as [|p P IH]; cbn [length app plus skipn]; [reflexivity | exact IH]. Qed.

Lemma write_later (P Q data : list Z) x y k : k = zlen P ->
  arr_write (P ++ x :: Q) (k + 1) data = arr_write (P ++ y :: Q) k (x :: data).
Proof.
  intros ->. unfold arr_write.
  assert (Z.to_nat (zlen P + 1) = S (length P)) as -> by (unfold zlen; lia).
  assert (Z.to_nat (zlen P) = length P) as -> by (unfold zlen; lia).
  rewrite (firstn_app_exact P _ (length P)) by reflexivity.
  rewrite (skipn_middle P Q x _ (length data)) by lia. rewrite (skipn_middle P Q y _ (length data)) by (cbn [length]; lia).
  replace (P ++ x :: Q) with ((P ++ [x]) ++ Q) by (rewrite <- app_assoc; reflexivity).
  rewrite firstn_app_exact by (rewrite app_length; cbn [length]; lia).
  rewrite <- app_assoc. reflexivity.
Qed.

Section Quiet.
Context (c : config) (coll : collection) (Hst : static_ok coll = true).
Local Notation cap := (capacity coll).
Context (beh : hbehav) (o : bool) (fuel : nat).
Local Notation run := (w_run fuel c coll beh).
Local Notation acc := (accesses c coll beh fuel).

Lemma quiet_access p f g w : acc p f g -> run p [] w = run (f w) [] (g w).
Proof.
  intros H. rewrite (H [] w). cbn [hd tl w_interrupt bind]. destruct (run (f w) [] (g w)) as [[w' ps]| | | |]; reflexivity.
Qed.

Lemma quiet_both left k w : run (w_both o left k) [] w = run (k (front_of w) (end_of w)) [] w.
Proof.
  unfold w_both. destruct (Bool.eqb o left).
  - rewrite (quiet_access _ _ _ w (acc_begin c coll beh fuel _)). rewrite (quiet_access _ _ _ w (acc_pastEnd c coll beh fuel _)); reflexivity.
  - rewrite (quiet_access _ _ _ w (acc_pastEnd c coll beh fuel _)). rewrite (quiet_access _ _ _ w (acc_begin c coll beh fuel _)); reflexivity.
Qed.

Lemma quiet_assert e k w x : (forall kt, run (e kt) [] w = run (kt x) [] w) ->
  run (w_assert c e k) [] w = (do _ <- assert_ c x; run k [] w).
Proof.
  intros H. unfold w_assert, assert_, aborts. destruct (mode c) eqn:E; [reflexivity| |]; rewrite H; cbn [w_run];
    unfold assert_, aborts; rewrite E; reflexivity.
Qed.

Definition with_array (l : list Z) (w : world) : world := w_set_buf (RBuf (front_of w) (end_of w) l) w.

Lemma acc_element i k : acc (WElement i k) (fun w => k (arr_get (array_of w) i)) (fun w => w).
Proof. intros coming w. reflexivity. Qed.

Lemma with_array_same w : with_array (array_of w) w = w.
Proof. destruct w as [[[id [b e l]] inv fn last] log]. reflexivity. Qed.

Lemma quiet_store data : forall pos k w, 0 <= pos -> pos + zlen data <= zlen (array_of w) ->
  run (w_store pos data k) [] w = run k [] (with_array (arr_write (array_of w) pos data) w).
Proof.
  induction data as [|x data IH]; intros pos k w Hp Hl; cbn [w_store].
  { unfold arr_write. cbn [length app]. rewrite Nat.add_0_r, firstn_skipn, with_array_same. reflexivity. }
  rewrite zlen_cons in Hl. pose proof (zlen_nonneg data).
  rewrite (quiet_access _ _ _ w (acc_set_element c coll beh fuel _ _ _)).
  destruct (split_at (array_of w) pos) as (P & Q & EQ & HP); [lia|].
  assert (zlen (array_of w) = pos + zlen Q) as HL by (rewrite EQ, zlen_app; lia).
  destruct Q as [|q Q]; [change (zlen (@nil Z)) with 0 in HL; lia|]. rewrite zlen_cons in HL.
  rewrite EQ, arr_set_mid by lia.
  set (w2 := w_set_buf _ w). assert (array_of w2 = P ++ x :: Q) as E2 by reflexivity.
  rewrite IH by (rewrite ?E2, ?zlen_app, ?zlen_cons; lia). rewrite E2.
  unfold with_array at 1. change (front_of w2) with (front_of w). change (end_of w2) with (end_of w).
  assert (arr_write (P ++ x :: Q) (pos + 1) data = arr_write (P ++ q :: Q) pos (x :: data)) as -> by (apply write_later; lia).
  reflexivity.
Qed.

Lemma quiet_move X : forall P G B from to k w, array_of w = P ++ G ++ X ++ B -> to = zlen P -> from = zlen P + zlen G ->
  G <> [] \/ X = [] ->
  run (w_move (length X) from to k) [] w = run k [] (with_array (arr_write (array_of w) to X) w).
Proof.
  induction X as [|x X IH]; intros P G B from to k w EA Et Ef HG; cbn [length w_move].
  { unfold arr_write. cbn [length app]. rewrite Nat.add_0_r, firstn_skipn, with_array_same. reflexivity. }
  destruct G as [|g G]; [destruct HG; [contradiction | discriminate]|].
  rewrite (quiet_access _ _ _ w (acc_element _ _)).
  assert (arr_get (array_of w) from = x) as ->.
  { rewrite EA. replace (P ++ (g :: G) ++ (x :: X) ++ B) with ((P ++ g :: G) ++ x :: X ++ B) by (rewrite <- !app_assoc; reflexivity).
    unfold arr_get. rewrite app_nth2; rewrite app_length; unfold zlen in *; [|lia].
    replace (Z.to_nat from - _)%nat with O by lia. reflexivity. }
  rewrite (quiet_access _ _ _ w (acc_set_element c coll beh fuel _ _ _)).
  set (w2 := w_set_buf _ w).
  assert (array_of w2 = (P ++ [x]) ++ (G ++ [x]) ++ X ++ B) as E2.
  { change (array_of w2) with (arr_set (array_of w) to x). rewrite EA. cbn [app]. rewrite arr_set_mid by assumption.
    rewrite <- !app_assoc. reflexivity. }
  rewrite (IH (P ++ [x]) (G ++ [x]) B _ _ k w2 E2);
    [| rewrite zlen_app; unfold zlen in *; cbn [length]; lia
     | rewrite !zlen_app; unfold zlen in *; cbn [length] in *; lia
     | left; intros EN; apply app_eq_nil in EN; destruct EN; discriminate].
  unfold with_array at 1. change (front_of w2) with (front_of w). change (end_of w2) with (end_of w).
  assert (arr_write (array_of w2) (to + 1) X = arr_write (array_of w) to (x :: X)) as ->; [|reflexivity].
  rewrite E2, EA. cbn [app]. rewrite <- !app_assoc. cbn [app]. apply (write_later P (G ++ x :: X ++ B)). assumption.
Qed.

Lemma quiet_slide k w X : rep cap (er_buf (rx_recv (w_rx w))) X ->
  run (w_slide o cap k) [] w = (do b <- rb_slide cap (er_buf (rx_recv (w_rx w))); run k [] (w_set_buf b w)).
Proof.
  intros R. unfold w_slide. rewrite quiet_both. unfold rb_slide, rb_empty.
  fold (front_of w). fold (end_of w). destruct (rep_inv _ _ _ R) as (H1 & H2 & _). fold (front_of w) (end_of w) in H1, H2.
  assert (range_ok cap (front_of w) (end_of w) = true) as HR by (apply range_ok_true; lia).
  rewrite HR. cbn [negb orb]. destruct ((front_of w =? 0) && negb (front_of w =? end_of w)) eqn:E; [reflexivity|].
  unfold rb_ideal_copy. fold (front_of w) (end_of w) (array_of w). rewrite HR. cbn [bind].
  destruct R as (A & B & HC & HB & HE & HL). fold (array_of w) in HC. fold (front_of w) in HB. fold (end_of w) in HE.
  assert (Z.to_nat (end_of w - front_of w) = length X) as -> by (unfold zlen in *; lia).
  rewrite (quiet_move X [] A B); [| exact HC | reflexivity | change (zlen (@nil Z)) with 0; lia |].
  2:{ apply andb_false_iff in E. destruct E as [E|E].
      - left. intros ->. apply Z.eqb_neq in E. apply E. exact HB.
      - right. apply negb_false_iff, Z.eqb_eq in E. apply length_zero_iff_nil. unfold zlen in *. lia. }
  unfold w_size. rewrite quiet_both.
  rewrite (quiet_access _ _ _ _ (acc_set_pastEnd c coll beh fuel _ _)).
  rewrite (quiet_access _ _ _ _ (acc_set_begin c coll beh fuel _ _)).
  assert (arr_slice (array_of w) (front_of w) (end_of w) = X) as -> by (rewrite HC; apply arr_slice_mid; lia).
  reflexivity.
Qed.

Lemma quiet_ensure n k w X : rep cap (er_buf (rx_recv (w_rx w))) X ->
  run (w_ensure_space o c cap n k) [] w
  = (do b <- rb_ensure_space c cap n (er_buf (rx_recv (w_rx w))); run k [] (w_set_buf b w)).
Proof.
  intros R. unfold w_ensure_space, w_empty. set (rest := WPastEnd _). rewrite quiet_both. unfold rb_ensure_space.
  assert (forall w1, rep cap (er_buf (rx_recv (w_rx w1))) X -> run rest [] w1 =
    (do b <- (if promoted_add c (size_bits cap) (end_of w1) n <=? cap then Ok (er_buf (rx_recv (w_rx w1)))
              else do _ <- assert_ c (promoted_add c (size_bits cap) (rb_size cap (er_buf (rx_recv (w_rx w1)))) n <=? cap);
                   rb_slide cap (er_buf (rx_recv (w_rx w1)))); run k [] (w_set_buf b w1))) as Hrest.
  { intros w1 R1. unfold rest. rewrite (quiet_access _ _ _ w1 (acc_pastEnd c coll beh fuel _)).
    destruct (_ <=? cap); cbn [bind].
    - f_equal. destruct w1 as [[[id b] inv fn last] log]. reflexivity.
    - rewrite (quiet_assert _ _ w1 (promoted_add c (size_bits cap) (rb_size cap (er_buf (rx_recv (w_rx w1)))) n <=? cap)).
      + destruct (assert_ _ _) as [[]| | | |]; cbn [bind]; try reflexivity. exact (quiet_slide k w1 X R1).
      + intros kt. unfold w_size. rewrite quiet_both. reflexivity. }
  unfold rb_empty. fold (front_of w) (end_of w). destruct (front_of w =? end_of w) eqn:E.
  - rewrite (quiet_access _ _ _ _ (acc_set_begin c coll beh fuel _ _)).
    rewrite (quiet_access _ _ _ _ (acc_set_pastEnd c coll beh fuel _ _)).
    apply (Hrest (w_set_buf (RBuf 0 0 (array_of w)) w)).
    assert (X = []) as ->.
    { apply Z.eqb_eq in E. destruct R as (A & B & _ & HB & HE & _). fold (front_of w) in HB. fold (end_of w) in HE.
      apply length_zero_iff_nil. unfold zlen in *. lia. }
    exact (rep_clear cap _ _ R).
  - exact (Hrest w R).
Qed.
End Quiet.

Lemma slide_rep cap b X b' : cap_ok cap -> rep cap b X -> rb_slide cap b = Ok b' -> rep cap b' X.
Proof.
  intros Hc R E. unfold rb_slide in E. destruct (_ && _); [discriminate|].
  destruct (rep_ideal_copy cap Hc b b X X R R) as (b1 & E1 & R1 & _). congruence.
Qed.

Lemma ensure_rep c cap n b X b' : cap_ok cap -> rep cap b X -> rb_ensure_space c cap n b = Ok b' -> rep cap b' X.
Proof.
  intros Hc R E. unfold rb_ensure_space in E.
  assert (rep cap (if rb_empty b then RBuf 0 0 (rb_contents b) else b) X) as R1.
  { rewrite (rep_empty cap b X R). destruct X; [exact (rep_clear cap _ _ R) | assumption]. }
  set (b1 := if rb_empty b then _ else b) in *. destruct (_ <=? cap); [congruence|].
  destruct (assert_ _ _); try discriminate. cbn [bind] in E. exact (slide_rep _ _ _ _ Hc R1 E).
Qed.

Lemma quiet_append_lemma c coll : static_ok coll = true -> index_safe c (capacity coll) ->
  forall beh h0 ops S rs w o d fuel, tame beh -> history c coll beh (start coll h0) ops S rs w ->
  w_append fuel o c coll beh d [] w = (do r <- rx_append c coll d (w_rx w); Ok (World r (w_log w), [])).
Proof.
  intros Hst Hsafe beh h0 ops S rs w o d fuel Ht H.
  pose proof (history_sim c coll Hst Hsafe beh Ht _ _ _ _ _ H) as (R & _). set (X := s_bytes (view w)) in R.
  pose proof (capacity_ok coll Hst) as Hcap.
  unfold w_append, w_push_range. rewrite (quiet_ensure c coll beh o fuel _ _ w X R).
  unfold rx_append, er_append, rb_push_range.
  destruct (rb_ensure_space c (capacity coll) _ _) as [b1| | | |] eqn:E; cbn [bind]; try reflexivity.
  pose proof (ensure_rep c (capacity coll) _ _ X b1 Hcap R E) as R1.
  rewrite (quiet_access c coll beh fuel _ _ _ _ (acc_pastEnd c coll beh fuel _)).
  set (w1 := w_set_buf b1 w). change (end_of w1) with (rb_pastEnd b1).
  destruct (rb_pastEnd b1 + zlen d <=? capacity coll) eqn:EF; [|reflexivity]. apply Z.leb_le in EF.
  destruct (rep_inv _ _ _ R1) as (I1 & I2 & I3).
  rewrite quiet_store by (change (array_of w1) with (rb_contents b1); lia).
  rewrite (quiet_access c coll beh fuel _ _ _ _ (acc_pastEnd c coll beh fuel _)).
  rewrite (quiet_access c coll beh fuel _ _ _ _ (acc_set_pastEnd c coll beh fuel _ _)).
  unfold w_verify, rb_verify.
  change (array_of w1) with (rb_contents b1). change (end_of (with_array _ w1)) with (rb_pastEnd b1).
  set (b2 := RBuf (rb_begin b1) (to_sz (capacity coll) (rb_pastEnd b1 + zlen d)) (arr_write (rb_contents b1) (rb_pastEnd b1) d)).
  set (w2 := w_set_buf _ _).
  rewrite (quiet_assert c coll beh fuel _ _ w2 (rb_begin b2 <=? rb_pastEnd b2)).
  2:{ intros kt. rewrite quiet_both. reflexivity. }
  destruct (assert_ c (rb_begin b2 <=? rb_pastEnd b2)) as [[]| | | |]; cbn [bind]; try reflexivity.
  rewrite (quiet_assert c coll beh fuel _ _ w2 (rb_pastEnd b2 <=? capacity coll)).
  2:{ intros kt. rewrite (quiet_access c coll beh fuel _ _ _ _ (acc_pastEnd c coll beh fuel _)). reflexivity. }
  destruct (assert_ c (rb_pastEnd b2 <=? capacity coll)) as [[]| | | |]; cbn [bind]; reflexivity.
Qed.
