(** Lemmas about lifetimes of handlers. *)
From Verif Require Export SpecLifetimes ReentryLemmas.

Lemma exists_no_more_in gone x : exists_no_more gone x = true <-> In x gone.
Proof.
  unfold exists_no_more. rewrite existsb_exists. split.
  - intros (y & Hy & E). apply Z.eqb_eq in E. subst y. exact Hy.
  - intros H. exists x. split; [exact H|apply Z.eqb_refl].
Qed.

Definition same_set (A B : list Z) : Prop := forall x, In x A <-> In x B.

Lemma living_same beh : forall new A B log, same_set A B -> to_the_living beh A log new -> to_the_living beh B log new.
Proof.
  induction new as [|d new IH]; intros A B log HAB H; [exact I|]. destruct H as (H1 & H2). split.
  - intros Hd. apply H1. apply HAB. exact Hd.
  - eapply IH; [|exact H2]. intros x. rewrite !in_app_iff. specialize (HAB x). tauto.
Qed.

Lemma gone_same beh : forall new A B log, same_set A B -> same_set (gone_after beh A log new) (gone_after beh B log new).
Proof.
  induction new as [|d new IH]; intros A B log HAB; [exact HAB|]. cbn [gone_after]. apply IH.
  intros x. rewrite !in_app_iff. specialize (HAB x). tauto.
Qed.

(** Handlers that do not call processMessages. *)
Lemma l_acts_tame c coll lproc proc acts :
  (forall a, In a (acts_of acts) -> a <> AProcess) ->
  forall w gone,
  match run_acts c coll proc (acts_of acts) w with
  | Ok (w', t) => exists gone', l_run_acts c coll lproc acts (LWorld w gone) = Ok (LWorld w' gone', t)
      /\ same_set gone' (ended acts ++ gone) /\ w_log w' = w_log w /\ t = false
  | AssertFail => l_run_acts c coll lproc acts (LWorld w gone) = AssertFail
  | UB => l_run_acts c coll lproc acts (LWorld w gone) = UB
  | Hang => l_run_acts c coll lproc acts (LWorld w gone) = Hang
  | Rejected => l_run_acts c coll lproc acts (LWorld w gone) = Rejected
  end.
Proof.
  induction acts as [|a acts IH]; intros Hn w gone.
  - cbn. exists gone. repeat split; auto.
  - destruct a as [a|x].
    + assert (forall b, In b (acts_of acts) -> b <> AProcess) as Hn' by (intros b Hb; apply Hn; cbn; right; exact Hb).
      assert (a <> AProcess) as Ha by (apply Hn; cbn; left; reflexivity).
      change (acts_of (LAct a :: acts)) with (a :: acts_of acts). change (ended (LAct a :: acts)) with (ended acts).
      cbn [run_acts l_run_acts lw_world lw_gone].
      destruct a as [h| |d|]; [| | |congruence]; cbn [bind].
      * exact (IH Hn' (World (rx_set_handler h (w_rx w)) (w_log w)) gone).
      * exact (IH Hn' (World (rx_clear_handler (w_rx w)) (w_log w)) gone).
      * destruct (rx_append c coll d (w_rx w)) as [r| | | |]; cbn [bind]; try reflexivity.
        exact (IH Hn' (World r (w_log w)) gone).
    + change (acts_of (LEnd x :: acts)) with (acts_of acts). change (ended (LEnd x :: acts)) with (x :: ended acts).
      cbn [l_run_acts lw_world lw_gone]. specialize (IH Hn w (x :: gone)).
      destruct (run_acts c coll proc (acts_of acts) w) as [[w' t]| | | |]; try exact IH.
      destruct IH as (g & E & Hg & Hl & Ht). exists g. split; [exact E|]. split; [|auto].
      intros y. rewrite (Hg y). cbn [app]. rewrite !in_app_iff. cbn [In]. rewrite in_app_iff. tauto.
Qed.

Lemma l_loop_tame c coll beh : (forall log a, In a (acts_of (lr_acts (beh log))) -> a <> AProcess) ->
  forall fuel n w gone,
  match process_loop fuel c coll (immortal beh) n w with
  | Ok (w', p) => exists new, w_log w' = w_log w ++ new
      /\ ((to_the_living beh gone (w_log w) new
           /\ exists gone', l_process_loop fuel c coll beh n (LWorld w gone) = Ok (LWorld w' gone', p)
              /\ same_set gone' (gone_after beh gone (w_log w) new))
          \/ (~ to_the_living beh gone (w_log w) new /\ l_process_loop fuel c coll beh n (LWorld w gone) = UB))
  | _ => True
  end.
Proof.
  intros Hn. induction fuel as [|fuel IH]; intros n w gone; [exact I|]. cbn [process_loop l_process_loop lw_world lw_gone].
  destruct (check c coll (rx_recv (w_rx w))) as [[found e]| | | |]; try exact I. cbn [bind].
  destruct found; cbn [negb].
  2: { exists []. split; [cbn; symmetry; apply app_nil_r|]. left. split; [exact I|]. exists gone. split; [reflexivity|]. intros x. reflexivity. }
  destruct (er_current_id c e) as [id| | | |]; try exact I. cbn [bind].
  set (w1 := w_set_last id (w_set_recv e w)).
  assert (w_log w1 = w_log w) as Hl1 by reflexivity.
  unfold invoke, l_invoke. cbn [lw_world lw_gone].
  destruct (rx_invoker (w_rx w1)) as [ty|]; [|exact I]. destruct (rx_functor (w_rx w1)) as [h|]; [|exact I].
  destruct (negb (ty =? h_type h)); [exact I|].
  destruct (deserialize_message c coll (rx_recv (w_rx w1)) id) as [[[m vs]|]| | | |]; try exact I; cbn [bind].
  2: { cbn [lw_world lw_gone]. destruct (er_pop_message c coll (rx_recv (w_rx w1))) as [e2| | | |]; try exact I. cbn [bind].
       exact (IH (trunc 8 (n + 1)) (w_set_recv e2 w1) gone). }
  rewrite Hl1. set (d := Delivery h m vs). set (log1 := w_log w ++ [d]).
  match goal with |- context [run_acts c coll ?p _ _] => set (pr := p) end.
  match goal with |- context [l_run_acts c coll ?p _ _] => set (lpr := p) end.
  change (hr_acts (immortal beh log1)) with (acts_of (lr_acts (beh log1))).
  change (hr_throws (immortal beh log1)) with (lr_throws (beh log1)).
  pose proof (l_acts_tame c coll lpr pr (lr_acts (beh log1)) (Hn log1) (World (w_rx w1) log1) gone) as HA.
  destruct (run_acts c coll pr (acts_of (lr_acts (beh log1))) (World (w_rx w1) log1)) as [[w2 t]| | | |]; try exact I.
  destruct HA as (g2 & EA & Hg2 & Hl2 & ->). cbn [bind orb]. cbn [w_log] in Hl2.
  destruct (exists_no_more gone (h_obj h)) eqn:Dead.
  { apply exists_no_more_in in Dead.
    destruct (lr_throws (beh log1)).
    - exists [d]. split; [exact Hl2|]. right. split; [|reflexivity]. intros (H & _). exact (H Dead).
    - destruct (er_pop_message c coll (rx_recv (w_rx w2))) as [e2| | | |]; try exact I. cbn [bind].
      specialize (IH (trunc 8 (n + 1)) (w_set_recv e2 w2) gone).
      destruct (process_loop fuel c coll (immortal beh) (trunc 8 (n + 1)) (w_set_recv e2 w2)) as [[w' p]| | | |]; try exact I.
      destruct IH as (new & Hl & _). exists (d :: new). split.
      + rewrite Hl. cbn [w_log w_set_recv]. rewrite Hl2. unfold log1. rewrite <- app_assoc. reflexivity.
      + right. split; [|reflexivity]. intros (H & _). exact (H Dead). }
  assert (~ In (h_obj h) gone) as Live by (rewrite <- exists_no_more_in, Dead; discriminate).
  rewrite EA. cbn [bind orb].
  destruct (lr_throws (beh log1)).
  { exists [d]. split; [exact Hl2|]. left. split; [split; [exact Live|exact I]|]. exists g2. split; [reflexivity|]. exact Hg2. }
  cbn [lw_world]. destruct (er_pop_message c coll (rx_recv (w_rx w2))) as [e2| | | |]; try exact I. cbn [bind lw_gone].
  specialize (IH (trunc 8 (n + 1)) (w_set_recv e2 w2) g2).
  destruct (process_loop fuel c coll (immortal beh) (trunc 8 (n + 1)) (w_set_recv e2 w2)) as [[w' p]| | | |]; try exact I.
  assert (w_log (w_set_recv e2 w2) = log1) as Hl3 by exact Hl2. rewrite Hl3 in IH.
  destruct IH as (new & Hl & IH). exists (d :: new). split.
  { rewrite Hl. unfold log1. rewrite <- app_assoc. reflexivity. }
  destruct IH as [(HL & g3 & E3 & Hg3)|(HL & E3)].
  - left. split.
    + split; [exact Live|]. eapply living_same; [exact Hg2|exact HL].
    + exists g3. split; [exact E3|]. intros x. rewrite (Hg3 x). exact (gone_same beh new _ _ log1 Hg2 x).
  - right. split; [|exact E3]. intros (_ & HL2). apply HL. eapply living_same; [|exact HL2]. intros x. symmetry. apply Hg2.
Qed.

Lemma skipn_app_exact {A} (l m : list A) : skipn (List.length l) (l ++ m) = m.
Proof. induction l; [reflexivity|exact IHl]. Qed.

Lemma tame_no_process beh : tame (immortal beh) -> forall log a, In a (acts_of (lr_acts (beh log))) -> a <> AProcess.
Proof. intros Ht log a Ha ->. exact (Ht log AProcess Ha). Qed.

Lemma lifetime_process_lemma fuel c coll beh w gone w' r : tame (immortal beh) ->
  step fuel c coll (immortal beh) OpProcess w = Ok (w', r) ->
  (to_the_living beh gone (w_log w) (new_calls w w') ->
     exists gone', l_step fuel c coll beh (LOp OpProcess) (LWorld w gone) = Ok (LWorld w' gone', r)
       /\ forall x, In x gone' <-> In x (gone_after beh gone (w_log w) (new_calls w w')))
  /\ (~ to_the_living beh gone (w_log w) (new_calls w w') ->
     l_step fuel c coll beh (LOp OpProcess) (LWorld w gone) = UB).
Proof.
  intros Ht H. cbn [step l_step lw_world lw_gone] in *. unfold process_messages, l_process_messages in *. cbn [lw_world].
  destruct (rx_has_handler (w_rx w)); cbn [negb] in *.
  - pose proof (l_loop_tame c coll beh (tame_no_process beh Ht) fuel 0 w gone) as HL.
    destruct (process_loop fuel c coll (immortal beh) 0 w) as [[w1 p]| | | |]; try discriminate. cbn [bind] in H.
    assert (w1 = w') as -> by congruence. assert (r = RetProcess p) as -> by congruence.
    destruct HL as (new & Hl & HL).
    assert (new_calls w w' = new) as -> by (unfold new_calls; rewrite Hl; apply skipn_app_exact).
    destruct HL as [(HA & g & E & Hg)|(HA & E)]; rewrite E; cbn [bind].
    + split; [|intros HN; destruct (HN HA)]. intros _. exists g. split; [reflexivity|exact Hg].
    + split; [intros HN; destruct (HA HN)|]. reflexivity.
  - cbn [bind] in H. assert (w = w') as <- by congruence. assert (r = RetProcess (Returned 0)) as -> by congruence.
    assert (new_calls w w = []) as -> by (unfold new_calls; apply skipn_all).
    split; [|intros HN; destruct (HN I)]. intros _. exists gone. split; [reflexivity|]. intros x. reflexivity.
Qed.

(** Objects that are never installed may be destroyed at any time. *)
Section Outlives.
Context (c : config) (coll : collection) (beh : lbehav) (K : Z -> Prop).
Hypothesis Hends : forall log x, In (LEnd x) (lr_acts (beh log)) -> K x.
Hypothesis Hsets : forall log h, In (LAct (ASetHandler h)) (lr_acts (beh log)) -> ~ K (h_obj h).

Definition sound (l : lworld) : Prop :=
  (forall x, In x (lw_gone l) -> K x) /\ (forall h, rx_functor (w_rx (lw_world l)) = Some h -> ~ K (h_obj h)).
(** [o] is what [p] is, with the objects gone added. *)
Definition mirrors {A} (o : outcome (lworld * A)) (p : outcome (world * A)) : Prop :=
  match p with
  | Ok (w, a) => exists g, o = Ok (LWorld w g, a) /\ sound (LWorld w g)
  | AssertFail => o = AssertFail | UB => o = UB | Hang => o = Hang | Rejected => o = Rejected
  end.

Lemma mirrors_acts lproc proc : (forall w g, sound (LWorld w g) -> mirrors (lproc (LWorld w g)) (proc w)) ->
  forall acts, (forall x, In (LEnd x) acts -> K x) -> (forall h, In (LAct (ASetHandler h)) acts -> ~ K (h_obj h)) ->
  forall w g, sound (LWorld w g) -> mirrors (l_run_acts c coll lproc acts (LWorld w g)) (run_acts c coll proc (acts_of acts) w).
Proof.
  intros Hp. induction acts as [|a acts IH]; intros He Hs w g Hw; [exists g; split; [reflexivity|exact Hw]|].
  assert (forall x, In (LEnd x) acts -> K x) as He' by (intros x Hx; apply He; right; exact Hx).
  assert (forall h, In (LAct (ASetHandler h)) acts -> ~ K (h_obj h)) as Hs' by (intros h Hh; apply Hs; right; exact Hh).
  specialize (IH He' Hs'). destruct Hw as (Hg & Hf). cbn [lw_gone lw_world] in *.
  destruct a as [a|x].
  - change (acts_of (LAct a :: acts)) with (a :: acts_of acts). cbn [run_acts l_run_acts lw_world lw_gone].
    destruct a as [h| |d|]; cbn [bind].
    + apply IH. split; [exact Hg|]. cbn. intros h' [= <-]. apply Hs. left. reflexivity.
    + apply IH. split; [exact Hg|]. cbn. discriminate.
    + unfold rx_append. destruct (er_append c coll d (rx_recv (w_rx w))) as [e| | | |]; cbn [bind]; try reflexivity.
      apply IH. split; [exact Hg|]. exact Hf.
    + pose proof (Hp w g (conj Hg Hf)) as HP. unfold mirrors in HP.
      destruct (proc w) as [[w1 p]| | | |]; try (rewrite HP; reflexivity).
      destruct HP as (g1 & -> & Hw1). cbn [bind]. destruct p; [exact (IH w1 g1 Hw1)|]. exists g1. split; [reflexivity|exact Hw1].
  - change (acts_of (LEnd x :: acts)) with (acts_of acts). cbn [l_run_acts lw_world lw_gone]. apply IH. split; [|exact Hf].
    cbn [lw_gone]. intros y [->|Hy]; [apply He; left; reflexivity|apply Hg; exact Hy].
Qed.

Lemma mirrors_loop : forall fuel n w g, sound (LWorld w g) ->
  mirrors (l_process_loop fuel c coll beh n (LWorld w g)) (process_loop fuel c coll (immortal beh) n w).
Proof.
  induction fuel as [|fuel IH]; intros n w g Hw; [reflexivity|]. cbn [process_loop l_process_loop lw_world lw_gone].
  destruct (check c coll (rx_recv (w_rx w))) as [[found e]| | | |]; try reflexivity. cbn [bind].
  destruct Hw as (Hg & Hf). cbn [lw_gone lw_world] in *.
  destruct found; cbn [negb]; [|exists g; split; [reflexivity|split; assumption]].
  destruct (er_current_id c e) as [id| | | |]; try reflexivity. cbn [bind].
  set (w1 := w_set_last id (w_set_recv e w)).
  unfold invoke, l_invoke. cbn [lw_world lw_gone].
  destruct (rx_invoker (w_rx w1)) as [ty|]; [|reflexivity].
  change (rx_functor (w_rx w1)) with (rx_functor (w_rx w)). destruct (rx_functor (w_rx w)) as [h|] eqn:Eh; [|reflexivity].
  destruct (negb (ty =? h_type h)); [reflexivity|].
  destruct (deserialize_message c coll (rx_recv (w_rx w1)) id) as [[[m vs]|]| | | |]; try reflexivity; cbn [bind].
  - destruct (exists_no_more g (h_obj h)) eqn:Dead.
    { apply exists_no_more_in in Dead. exfalso. exact (Hf h eq_refl (Hg _ Dead)). }
    set (log1 := w_log w1 ++ [Delivery h m vs]).
    match goal with |- context [run_acts c coll ?p _ _] => set (pr := p) end.
    match goal with |- context [l_run_acts c coll ?p _ _] => set (lpr := p) end.
    change (hr_acts (immortal beh log1)) with (acts_of (lr_acts (beh log1))).
    change (hr_throws (immortal beh log1)) with (lr_throws (beh log1)).
    assert (mirrors (l_run_acts c coll lpr (lr_acts (beh log1)) (LWorld (World (w_rx w1) log1) g))
                    (run_acts c coll pr (acts_of (lr_acts (beh log1))) (World (w_rx w1) log1))) as HA.
    { apply mirrors_acts.
      - intros v gv Hv. unfold pr, lpr. cbn [lw_world]. destruct (rx_has_handler (w_rx v)); [apply IH; exact Hv|].
        exists gv. split; [reflexivity|exact Hv].
      - apply Hends.
      - apply Hsets.
      - split; [exact Hg|]. cbn [lw_world w_rx]. unfold w1. cbn. rewrite Eh. exact Hf. }
    unfold mirrors in HA.
    destruct (run_acts c coll pr (acts_of (lr_acts (beh log1))) (World (w_rx w1) log1)) as [[w2 t]| | | |];
      try (rewrite HA; reflexivity).
    destruct HA as (g2 & -> & Hw2). cbn [bind]. destruct (t || lr_throws (beh log1)).
    { exists g2. split; [reflexivity|exact Hw2]. }
    cbn [lw_world]. destruct (er_pop_message c coll (rx_recv (w_rx w2))) as [e2| | | |]; try reflexivity. cbn [bind lw_gone].
    apply IH. exact Hw2.
  - cbn [lw_world]. destruct (er_pop_message c coll (rx_recv (w_rx w1))) as [e2| | | |]; try reflexivity. cbn [bind lw_gone].
    apply IH. split; [exact Hg|]. cbn. rewrite Eh. exact Hf.
Qed.

Lemma mirrors_step fuel o w g : (forall h, o = OpSetHandler h -> ~ K (h_obj h)) -> sound (LWorld w g) ->
  mirrors (l_step fuel c coll beh (LOp o) (LWorld w g)) (step fuel c coll (immortal beh) o w).
Proof.
  intros Ho (Hg & Hf). cbn [lw_gone lw_world] in *.
  destruct o as [h| |d|a|]; cbn [l_step step lw_world lw_gone].
  - exists g. split; [reflexivity|]. split; [exact Hg|]. cbn. intros h' [= <-]. apply Ho. reflexivity.
  - exists g. split; [reflexivity|]. split; [exact Hg|]. cbn. discriminate.
  - unfold rx_append. destruct (er_append c coll d (rx_recv (w_rx w))) as [e| | | |]; cbn [bind]; try reflexivity.
    exists g. split; [reflexivity|]. split; [exact Hg|exact Hf].
  - unfold rx_receive_from. destruct (er_from_functor c coll _ _ (rx_recv (w_rx w))) as [[e k]| | | |]; cbn [bind]; try reflexivity.
    exists g. split; [reflexivity|]. split; [exact Hg|exact Hf].
  - unfold process_messages, l_process_messages. cbn [lw_world]. destruct (rx_has_handler (w_rx w)); cbn [negb].
    + pose proof (mirrors_loop fuel 0 w g (conj Hg Hf)) as HL. unfold mirrors in HL.
      destruct (process_loop fuel c coll (immortal beh) 0 w) as [[w1 p]| | | |]; try (rewrite HL; reflexivity).
      destruct HL as (g1 & -> & Hw1). cbn [bind]. exists g1. split; [reflexivity|exact Hw1].
    + cbn [bind]. exists g. split; [reflexivity|]. split; [exact Hg|exact Hf].
Qed.

Lemma mirrors_run fuel : forall ops w g w' rs,
  (forall x, In (LDestroy x) ops -> K x) -> (forall h, In (LOp (OpSetHandler h)) ops -> ~ K (h_obj h)) ->
  sound (LWorld w g) -> run fuel c coll (immortal beh) (ops_of ops) w = Ok (w', rs) ->
  exists g' rs', l_run fuel c coll beh ops (LWorld w g) = Ok (LWorld w' g', rs') /\ rets_of ops rs' = rs.
Proof.
  induction ops as [|o ops IH]; intros w g w' rs HD HS Hw H.
  - cbn in H. injection H as <- <-. exists g, []. split; reflexivity.
  - assert (forall x, In (LDestroy x) ops -> K x) as HD' by (intros x Hx; apply HD; right; exact Hx).
    assert (forall h, In (LOp (OpSetHandler h)) ops -> ~ K (h_obj h)) as HS' by (intros h Hh; apply HS; right; exact Hh).
    destruct o as [o|x].
    + change (ops_of (LOp o :: ops)) with (o :: ops_of ops) in H. cbn [run] in H.
      pose proof (mirrors_step fuel o w g) as HM.
      assert (forall h, o = OpSetHandler h -> ~ K (h_obj h)) as Ho by (intros h ->; apply HS; left; reflexivity).
      specialize (HM Ho Hw). unfold mirrors in HM.
      destruct (step fuel c coll (immortal beh) o w) as [[w1 r]| | | |]; try discriminate. cbn [bind] in H.
      destruct (run fuel c coll (immortal beh) (ops_of ops) w1) as [[w2 rs2]| | | |] eqn:ER; try discriminate. cbn [bind] in H.
      injection H as <- <-. destruct HM as (g1 & E1 & Hw1).
      destruct (IH w1 g1 w2 rs2 HD' HS' Hw1 ER) as (g' & rs' & E & Hr).
      exists g', (r :: rs'). split; [cbn [l_run]; rewrite E1; cbn [bind]; rewrite E; reflexivity|].
      unfold rets_of. cbn [combine flat_map fst snd app]. f_equal. exact Hr.
    + change (ops_of (LDestroy x :: ops)) with (ops_of ops) in H.
      assert (sound (LWorld w (x :: g))) as Hw1.
      { destruct Hw as (Hg & Hf). split; [|exact Hf]. cbn [lw_gone] in *. intros y [->|Hy]; [apply HD; left; reflexivity|auto]. }
      destruct (IH w (x :: g) w' rs HD' HS' Hw1 H) as (g' & rs' & E & Hr).
      exists g', (RetUnit :: rs'). split; [cbn [l_run l_step lw_world lw_gone bind]; rewrite E; reflexivity|].
      unfold rets_of. cbn [combine flat_map fst snd app]. exact Hr.
Qed.
End Outlives.

Section Lifetimes.
Context (c : config) (coll : collection).
Hypothesis Hst : static_ok coll = true.
Hypothesis Hsafe : index_safe c (capacity coll).

Lemma dangling_lemma beh h0 ops S rs w gone h fd ms r fuel : tame (immortal beh) ->
  history c coll (immortal beh) (start coll h0) ops S rs w ->
  rx_functor (w_rx w) = Some h -> In (h_obj h) gone -> Scan coll (held w) (fd :: ms) r -> (0 < fuel)%nat ->
  rx_has_handler (w_rx w) = true /\ l_step fuel c coll beh (LOp OpProcess) (LWorld w gone) = UB.
Proof.
  intros Ht H Eh Hin HS Hf. pose proof (history_sim c coll Hst Hsafe (immortal beh) Ht _ _ _ _ _ H) as Hs.
  assert (rx_has_handler (w_rx w) = true) as Hh by (unfold rx_has_handler; rewrite Eh; reflexivity).
  split; [exact Hh|].
  destruct (scan_first coll _ _ _ _ HS) as (f & s' & HK & F & _).
  destruct fuel as [|fuel]; [lia|]. cbn [l_step lw_world]. unfold l_process_messages. cbn [lw_world]. rewrite Hh. cbn [negb].
  cbn [l_process_loop lw_world lw_gone].
  destruct (check_frame c coll Hst w _ f _ _ _ s' Hs HK F) as (e & -> & He & Hs1). cbn [bind negb].
  unfold er_current_id. rewrite He. cbn [bind]. set (w1 := w_set_last (f_id fd) (w_set_recv e w)) in *.
  unfold l_invoke. cbn [lw_world lw_gone]. pose proof Hs1 as (R & HB & Ef & Ei & _). cbn [s_bytes s_handler view] in *. rewrite Ef, Ei, Eh.
  cbn [option_map]. rewrite Z.eqb_refl. cbn [negb].
  destruct (deserialize_frame c coll Hst _ f _ _ _ s' R F) as (A & B & HL & E). rewrite E.
  destruct (deserialize_outcome c (capacity coll) (A ++ f_payload fd ++ B) (mt_fields (f_message fd)) (zlen A) []) as [(vs & E2)|E2];
    rewrite E2; cbn [bind]; [|reflexivity].
  apply exists_no_more_in in Hin. rewrite Hin. reflexivity.
Qed.

Lemma idle_process_lemma beh h0 ops S rs w gone r fuel : tame (immortal beh) ->
  history c coll (immortal beh) (start coll h0) ops S rs w ->
  Scan coll (held w) [] r -> (0 < fuel)%nat ->
  exists w', l_step fuel c coll beh (LOp OpProcess) (LWorld w gone) = Ok (LWorld w' gone, RetProcess (Returned 0))
    /\ step fuel c coll (immortal beh) OpProcess w = Ok (w', RetProcess (Returned 0)) /\ w_log w' = w_log w.
Proof.
  intros Ht H HS Hf. pose proof (history_sim c coll Hst Hsafe (immortal beh) Ht _ _ _ _ _ H) as Hs.
  cbn [l_step step lw_world]. unfold l_process_messages, process_messages. cbn [lw_world].
  destruct (rx_has_handler (w_rx w)); cbn [negb].
  2: { exists w. repeat split. }
  destruct fuel as [|fuel]; [lia|]. cbn [l_process_loop process_loop lw_world lw_gone].
  destruct (check_sim c coll Hst w _ Hs) as (ok & e & Y & -> & HK & Hs1 & HY). cbn [bind].
  destruct ok; cbn [negb bind].
  - exfalso. destruct HY as (f & m & id & p & s1 & -> & F & He).
    destruct (scan_total coll s1) as (ms & r0 & HS0).
    pose proof (skips_scan _ _ _ _ _ HK (scan_frame _ _ _ _ _ _ _ _ F HS0)) as HA. cbn [view s_bytes] in HA.
    destruct (scan_det _ _ _ _ HA _ _ HS) as (E & _). discriminate.
  - exists (w_set_recv e w). repeat split.
Qed.

Lemma served_living beh gone :
  (forall log x, ~ In (LEnd x) (lr_acts (beh log))) ->
  (forall log h, In (LAct (ASetHandler h)) (lr_acts (beh log)) -> ~ In (h_obj h) gone) ->
  forall new log h h', (forall k, h = Some k -> ~ In (h_obj k) gone) -> served (immortal beh) log h new h' ->
  to_the_living beh gone log new.
Proof.
  intros HE HS. induction new as [|d new IH]; intros log h h' Hh H; [exact I|]. destruct H as (H1 & H2).
  split; [exact (Hh _ H1)|].
  assert (ended (lr_acts (beh (log ++ [d]))) = []) as ->.
  { specialize (HE (log ++ [d])). induction (lr_acts (beh (log ++ [d]))) as [|[a|x] l IHl]; [reflexivity| |].
    - apply IHl. intros x Hx. apply (HE x). right. exact Hx.
    - exfalso. apply (HE x). left. reflexivity. }
  cbn [app]. eapply IH; [|exact H2]. intros k Hk. cbn [immortal hr_acts] in Hk.
  specialize (HS (log ++ [d])). clear H1 H2. revert h Hh Hk. induction (lr_acts (beh (log ++ [d]))) as [|a l IHl]; intros h Hh Hk.
  - exact (Hh _ Hk).
  - assert (forall h0, In (LAct (ASetHandler h0)) l -> ~ In (h_obj h0) gone) as HS' by (intros h0 H0; apply HS; right; exact H0).
    destruct a as [a|x]; [|eapply IHl; eauto]. destruct a as [h2| |dd|].
    + refine (IHl HS' (Some h2) _ Hk). intros k2 [= <-]. apply HS. left. reflexivity.
    + refine (IHl HS' None _ Hk). discriminate.
    + exact (IHl HS' h Hh Hk).
    + exact (IHl HS' h Hh Hk).
Qed.

Lemma replaced_lemma beh h0 ops S rs w gone w' r fuel : tame (immortal beh) ->
  history c coll (immortal beh) (start coll h0) ops S rs w ->
  (forall h, rx_functor (w_rx w) = Some h -> ~ In (h_obj h) gone) ->
  (forall log x, ~ In (LEnd x) (lr_acts (beh log))) ->
  (forall log h, In (LAct (ASetHandler h)) (lr_acts (beh log)) -> ~ In (h_obj h) gone) ->
  step fuel c coll (immortal beh) OpProcess w = Ok (w', r) ->
  exists gone', l_step fuel c coll beh (LOp OpProcess) (LWorld w gone) = Ok (LWorld w' gone', r).
Proof.
  intros Ht H Hh HE HS Hr.
  destruct (handler_lemma c coll Hst Hsafe (immortal beh) h0 ops S rs w OpProcess w' r Ht H I (ex_intro _ fuel Hr)) as (_ & Hsv & _).
  pose proof (served_living beh gone HE HS _ _ _ _ Hh Hsv) as HL.
  destruct (proj1 (lifetime_process_lemma fuel c coll beh w gone w' r Ht Hr) HL) as (g & E & _). exists g. exact E.
Qed.
End Lifetimes.

Lemma other_calls_lemma fuel c coll beh o w gone : o <> OpProcess ->
  l_step fuel c coll beh (LOp o) (LWorld w gone) = do (w', r) <- step fuel c coll (immortal beh) o w; Ok (LWorld w' gone, r).
Proof.
  intros Ho. destruct o as [h| |d|a|]; [| | | |congruence]; cbn [l_step step lw_world lw_gone bind]; try reflexivity.
  - destruct (rx_append c coll d (w_rx w)); reflexivity.
  - destruct (rx_receive_from c coll a (w_rx w)) as [[r n]| | | |]; reflexivity.
Qed.

Lemma outlives_lemma fuel c coll beh (destroyed : Z -> Prop) ops h0 w' rs :
  (forall x, In (LDestroy x) ops -> destroyed x) ->
  (forall log x, In (LEnd x) (lr_acts (beh log)) -> destroyed x) ->
  (forall h, h0 = Some h -> ~ destroyed (h_obj h)) ->
  (forall h, In (LOp (OpSetHandler h)) ops -> ~ destroyed (h_obj h)) ->
  (forall log h, In (LAct (ASetHandler h)) (lr_acts (beh log)) -> ~ destroyed (h_obj h)) ->
  run fuel c coll (immortal beh) (ops_of ops) (start coll h0) = Ok (w', rs) ->
  exists gone rs', l_run fuel c coll beh ops (LWorld (start coll h0) []) = Ok (LWorld w' gone, rs') /\ rets_of ops rs' = rs.
Proof.
  intros H1 H2 H3 H4 H5 H6. eapply (mirrors_run c coll beh destroyed H2 H5); eauto.
  split; [intros x []|]. cbn [lw_world start w_rx]. destruct h0 as [k|]; cbn; [|discriminate].
  intros h [= <-]. apply H3. reflexivity.
Qed.
