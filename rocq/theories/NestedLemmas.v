(** Messages sent while others are being sent. *)
From Verif Require Export SpecNested InterruptLemmas.

Lemma sending_rec' (P : sending -> Prop) :
  (forall m vs during, Forall (Forall P) during -> P (Sending m vs during)) -> forall x, P x.
Proof.
  intros H. fix IH 1. intros [m vs during]. apply H. revert during. fix IH2 1. intros [|l during]; [constructor|].
  constructor; [|apply IH2]. revert l. fix IH3 1. intros [|y l]; constructor; [apply IH | apply IH3].
Qed.

Lemma all_sendable_eq coll m vs during : all_sendable coll (Sending m vs during) <->
  sendable coll (m, vs) /\ Forall (Forall (all_sendable coll)) during.
Proof.
  cbn [all_sendable]. split; intros (H1 & H2); (split; [exact H1|]); clear H1.
  - induction during as [|l during IH]; [constructor|]. destruct H2 as (H2 & H3). constructor; [|auto].
    clear - H2. induction l as [|y l IH]; [constructor|]. destruct H2 as (H2 & H3). constructor; auto.
  - induction H2 as [|l during H2 H3 IH]; [exact I|]. cbn [fold_right]. split; [|exact IH].
    clear - H2. induction H2 as [|y l H2 H3 IH]; [exact I|]. cbn [fold_right]. auto.
Qed.

(** ** The frame and its pieces *)
Lemma id_of_index l m : forall pos, In m l -> find_index_from pos l m = Some (pos + id_of m l).
Proof.
  induction l as [|x l IH]; intros pos H; [contradiction|]. cbn [find_index_from id_of].
  destruct (mtype_eqb x m) eqn:E; [f_equal; lia|]. destruct H as [->|H].
  - rewrite (proj2 (mtype_eqb_eq m m) eq_refl) in E. discriminate.
  - rewrite IH by exact H. f_equal. lia.
Qed.

Lemma frame_of_spec c coll m vs : In m (mc_types coll) -> is_message_frame c coll m vs (frame_of (little c) coll m vs).
Proof.
  intros H. assert (find_index (mc_types coll) m = Some (id_of m (mc_types coll))) as E.
  { unfold find_index. rewrite id_of_index by exact H. f_equal. }
  exists (id_of m (mc_types coll)). split; [apply find_index_has_id, E|]. split; [intros j; apply find_index_first, E | reflexivity].
Qed.

Lemma map_single_concat (l : list Z) : concat (map (fun b => [b]) l) = l.
Proof. induction l as [|b l IH]; [reflexivity|]. cbn [map concat]. rewrite IH. reflexivity. Qed.

Lemma map_call_byte l : map call_bytes (map CByte l) = map (fun b => [b]) l.
Proof. rewrite map_map. reflexivity. Qed.

Lemma cuts_head fine c coll m vs : exists ps, cuts fine (little c) coll m vs = [1] :: [id_of m (mc_types coll)] :: ps.
Proof.
  unfold cuts, frame_of, spec_frame. destruct fine, (mc_env coll); eexists; reflexivity.
Qed.

Lemma cuts_concat fine c coll m vs : has_types vs (mt_fields m) = true ->
  concat (cuts fine (little c) coll m vs) = frame_of (little c) coll m vs.
Proof.
  intros Hty. unfold cuts. destruct fine; [apply map_single_concat|].
  rewrite !concat_app, !map_single_concat. change (concat (map (fun tv => spec_rep (little c) (fst tv) (snd tv)) (combine (mt_fields m) vs)))
    with (spec_payload (little c) (mt_fields m) vs).
  pose proof (spec_payload_length c _ _ Hty) as HL. fold (payload_size m) in HL. unfold frame_of, spec_frame.
  set (p := spec_payload (little c) (mt_fields m) vs) in *. rewrite <- HL.
  destruct (mc_env coll); cbn [app firstn skipn plus]; rewrite <- ?app_assoc, skipn_app, skipn_all, Nat.sub_diag; reflexivity.
Qed.

Lemma spec_field_call_bytes c tv : has_type (snd tv) (fst tv) = true ->
  call_bytes (spec_field_call (little c) tv) = spec_rep (little c) (fst tv) (snd tv).
Proof.
  destruct tv as [ty v]. cbn [fst snd]. intros H. rewrite <- spec_field_call_eq by exact H. apply field_call_bytes, H.
Qed.

Lemma fields_call_bytes c ts : forall vs, has_types vs ts = true ->
  map call_bytes (map (spec_field_call (little c)) (combine ts vs))
  = map (fun tv => spec_rep (little c) (fst tv) (snd tv)) (combine ts vs).
Proof.
  induction ts as [|t ts IH]; intros [|v vs] H; simpl in H; try discriminate; [reflexivity|].
  apply andb_true_iff in H as [H1 H2]. cbn [combine map]. rewrite IH by exact H2. f_equal. apply (spec_field_call_bytes c (t, v)), H1.
Qed.

(** The calls made on an interruptible transmitter. *)
Lemma nested_calls {S} fine c coll m vs (t : transmitter S) : static_ok coll = true -> sendable coll (m, vs) ->
  exists calls, map call_bytes calls = cuts fine (little c) coll m vs
    /\ (fine = true -> Forall (fun x => exists b, x = CByte b) calls)
    /\ forall s, send c coll m (interruptible fine t) (combine (mt_fields m) vs) s
         = do s' <- run_calls (interruptible fine t) calls s; tx_finished (interruptible fine t) s'.
Proof.
  intros Hst (Hin & Hty). cbn [fst snd] in *. pose proof (frame_of_spec c coll m vs Hin) as HF. destruct fine.
  - destruct (byte_only_lemma _ (tx_byte (interruptible true t)) (tx_finished (interruptible true t)) c coll m vs Hst Hin Hty)
      as (f & Hf & E). rewrite (message_frame_unique _ _ _ _ _ _ Hf HF) in E.
    exists (map CByte (frame_of (little c) coll m vs)). split; [apply map_call_byte|]. split; [|exact E].
    intros _. apply Forall_forall. intros x Hx. apply in_map_iff in Hx as (b & <- & _). eauto.
  - destruct (exact_calls_lemma c coll m vs Hst Hin Hty) as (id & tail & Hf & HT & E).
    pose proof (message_frame_unique _ _ _ _ _ _ Hf HF) as EF. eexists. split; [|split; [discriminate | exact (E _ (interruptible false t))]].
    rewrite !map_app, !map_call_byte, fields_call_bytes by exact Hty. unfold cuts. rewrite <- EF. cbn [app firstn map].
    pose proof (spec_payload_length c _ _ Hty) as HL. fold (payload_size m) in HL. rewrite <- HL. cbn [skipn plus].
    rewrite skipn_app, skipn_all, Nat.sub_diag. reflexivity.
Qed.

(** ** Bytes written *)
Section Out.
Context {S : Type} (t : transmitter S) (inv : S -> Prop) (out : S -> list Z).
Hypothesis Hout : forall x s s', inv s -> run_call t x s = Ok s' -> inv s' /\ out s' = out s ++ call_bytes x.
Hypothesis Hfin : forall s s', inv s -> tx_finished t s = Ok s' -> inv s' /\ out s' = out s.

Definition writes (h : S -> outcome S) (o : list Z) : Prop := forall s s', inv s -> h s = Ok s' -> inv s' /\ out s' = out s ++ o.

Lemma interrupt_writes hooks outs s r : Forall2 writes hooks outs -> inv s -> interrupt (s, hooks) = Ok r ->
  inv (fst r) /\ out (fst r) = out s ++ hd [] outs /\ Forall2 writes (snd r) (tl outs).
Proof.
  intros HW Hi. unfold interrupt. cbn [fst snd]. destruct HW as [|h o hooks outs HH HW]; cbn [hd tl].
  - intros [= <-]. rewrite app_nil_r. split; [exact Hi|]. split; [reflexivity | constructor].
  - destruct (h s) as [s'| | | |] eqn:E; try discriminate. intros [= <-]. destruct (HH _ _ Hi E) as (H1 & H2). auto.
Qed.

Lemma interruptible_call fine x : (fine = true -> exists b, x = CByte b) ->
  forall r, run_call (interruptible fine t) x r = after_interrupt (run_call t x) r.
Proof. intros H r. destruct x as [b|d]; [reflexivity|]. destruct fine; [destruct (H eq_refl); discriminate | reflexivity]. Qed.

Lemma calls_writes fine calls : (fine = true -> Forall (fun x => exists b, x = CByte b) calls) ->
  forall s hooks outs r, Forall2 writes hooks outs -> inv s ->
  (do r <- run_calls (interruptible fine t) calls (s, hooks); tx_finished (interruptible fine t) r) = Ok r ->
  inv (fst r) /\ out (fst r) = out s ++ weave (map call_bytes calls) outs.
Proof.
  induction calls as [|x calls IH]; intros HB s hooks outs r HW Hi H.
  - cbn [run_calls bind] in H. change (tx_finished (interruptible fine t) (s, hooks)) with (after_interrupt (tx_finished t) (s, hooks)) in H.
    unfold after_interrupt in H. destruct (interrupt (s, hooks)) as [r1| | | |] eqn:E; try discriminate. cbn [bind] in H.
    destruct (interrupt_writes _ _ _ _ HW Hi E) as (Hi1 & H1 & _).
    destruct (tx_finished t (fst r1)) as [s2| | | |] eqn:E2; try discriminate. injection H as <-. cbn [fst map weave].
    destruct (Hfin _ _ Hi1 E2) as (Hi2 & ->). auto.
  - cbn [run_calls bind] in H. rewrite interruptible_call in H by (intros Hf; apply Forall_inv in HB; assumption).
    unfold after_interrupt in H. destruct (interrupt (s, hooks)) as [[s1 hooks1]| | | |] eqn:E; try discriminate. cbn [bind fst snd] in H.
    destruct (interrupt_writes _ _ _ _ HW Hi E) as (Hi1 & H1 & HW1). cbn [fst snd] in *.
    destruct (run_call t x s1) as [s2| | | |] eqn:E2; try discriminate. cbn [bind] in H.
    destruct (Hout _ _ _ Hi1 E2) as (Hi2 & H2).
    cbn [map weave]. apply IH with (outs := tl outs) in H; [|intros Hf; apply Forall_inv_tail in HB; assumption | exact HW1 | exact Hi2].
    destruct H as (Hi3 & H3). split; [exact Hi3|]. rewrite H3, H2, H1, <- !app_assoc. reflexivity.
Qed.

Lemma nested_bytes_lemma fine c coll : static_ok coll = true ->
  forall x s s', all_sendable coll x -> inv s -> send_during fine c coll t x s = Ok s' ->
  inv s' /\ out s' = out s ++ wire fine (little c) coll x.
Proof.
  intros Hst x. induction x as [m vs during IH] using sending_rec'. intros s s' Hs Hi H. apply all_sendable_eq in Hs as (Hmv & Hd).
  cbn [send_during] in H. cbn [wire]. destruct (nested_calls fine c coll m vs t Hst Hmv) as (calls & HC & HB & E).
  rewrite E in H. match type of H with bind ?M _ = _ => destruct M as [r| | | |] eqn:ER; try discriminate end.
  injection H as <-. rewrite <- HC. eapply calls_writes; [exact HB | | exact Hi | exact ER].
  clear - IH Hd. induction during as [|l during IHd]; [constructor|]. cbn [map].
  pose proof (Forall_inv IH) as IHl. pose proof (Forall_inv_tail IH) as IHr.
  pose proof (Forall_inv Hd) as Hl. pose proof (Forall_inv_tail Hd) as Hr. constructor; [|exact (IHd IHr Hr)].
  clear - IHl Hl. induction l as [|y l IHy]; intros s s' Hi H.
  - injection H as <-. cbn [flat_map]. rewrite app_nil_r. auto.
  - destruct (send_during fine c coll t y s) as [s1| | | |] eqn:E; try discriminate. cbn [bind] in H. cbn [flat_map].
    destruct (Forall_inv IHl _ _ (Forall_inv Hl) Hi E) as (Hi1 & H1).
    apply (IHy (Forall_inv_tail IHl) (Forall_inv_tail Hl)) in H as (Hi2 & H2); [|exact Hi1]. split; [exact Hi2|]. rewrite H2, H1, <- app_assoc. reflexivity.
Qed.

Lemma nested_bytes_all fine c coll : static_ok coll = true ->
  forall xs s s', Forall (all_sendable coll) xs -> inv s -> send_during_all fine c coll t xs s = Ok s' ->
  inv s' /\ out s' = out s ++ flat_map (wire fine (little c) coll) xs.
Proof.
  intros Hst xs. induction xs as [|x xs IH]; intros s s' Hs Hi H; cbn [send_during_all flat_map] in *.
  - injection H as <-. rewrite app_nil_r. auto.
  - destruct (send_during fine c coll t x s) as [s1| | | |] eqn:E; try discriminate. cbn [bind] in H.
    destruct (nested_bytes_lemma fine c coll Hst x _ _ (Forall_inv Hs) Hi E) as (Hi1 & H1).
    destruct (IH _ _ (Forall_inv_tail Hs) Hi1 H) as (Hi2 & H2). split; [exact Hi2|]. rewrite H2, H1, <- app_assoc. reflexivity.
Qed.
End Out.

(** A transmitter that never fails. *)
Section Never.
Context {S : Type} (t : transmitter S).
Hypothesis Hok : forall x s, exists s', run_call t x s = Ok s'.
Hypothesis Hfin : forall s, exists s', tx_finished t s = Ok s'.
Definition returns_ok (h : S -> outcome S) : Prop := forall s, exists s', h s = Ok s'.

Lemma interrupt_ok s hooks : Forall returns_ok hooks -> exists r, interrupt (s, hooks) = Ok r /\ Forall returns_ok (snd r).
Proof.
  intros H. unfold interrupt. cbn [fst snd]. destruct H as [|h hooks Hh H]; [exists (s, []); split; [reflexivity | constructor]|].
  destruct (Hh s) as (s' & ->). exists (s', hooks). auto.
Qed.

Lemma calls_ok fine calls : (fine = true -> Forall (fun x => exists b, x = CByte b) calls) ->
  forall s hooks, Forall returns_ok hooks -> exists r,
  (do r <- run_calls (interruptible fine t) calls (s, hooks); tx_finished (interruptible fine t) r) = Ok r.
Proof.
  induction calls as [|x calls IH]; intros HB s hooks HW; destruct (interrupt_ok s hooks HW) as ([s1 hooks1] & E & HW1).
  - cbn [run_calls bind]. change (tx_finished (interruptible fine t) (s, hooks)) with (after_interrupt (tx_finished t) (s, hooks)).
    unfold after_interrupt. rewrite E. cbn [bind fst]. destruct (Hfin s1) as (s2 & ->). eexists. reflexivity.
  - cbn [run_calls bind]. rewrite (interruptible_call t) by (intros Hf; apply Forall_inv in HB; assumption).
    unfold after_interrupt. rewrite E. cbn [bind fst snd]. destruct (Hok x s1) as (s2 & ->). cbn [bind].
    apply IH; [intros Hf; apply Forall_inv_tail in HB; assumption | exact HW1].
Qed.

Lemma nested_returns_lemma fine c coll : static_ok coll = true ->
  forall x s, all_sendable coll x -> exists s', send_during fine c coll t x s = Ok s'.
Proof.
  intros Hst x. induction x as [m vs during IH] using sending_rec'. intros s Hs. apply all_sendable_eq in Hs as (Hmv & Hd).
  cbn [send_during]. destruct (nested_calls fine c coll m vs t Hst Hmv) as (calls & HC & HB & E). rewrite E.
  match goal with |- context [run_calls _ _ (s, ?h)] => destruct (calls_ok fine calls HB s h) as (r & ->) end; [|eexists; reflexivity].
  clear - IH Hd. induction during as [|l during IHd]; [constructor|]. cbn [map].
  constructor; [|exact (IHd (Forall_inv_tail IH) (Forall_inv_tail Hd))].
  pose proof (Forall_inv IH) as IHl. pose proof (Forall_inv Hd) as Hl.
  clear - IHl Hl. induction l as [|y l IHy]; intros s; [eauto|].
  destruct (Forall_inv IHl s (Forall_inv Hl)) as (s1 & ->). cbn [bind].
  apply (IHy (Forall_inv_tail IHl) (Forall_inv_tail Hl)).
Qed.
Lemma nested_returns_all fine c coll : static_ok coll = true ->
  forall xs s, Forall (all_sendable coll) xs -> exists s', send_during_all fine c coll t xs s = Ok s'.
Proof.
  intros Hst xs. induction xs as [|x xs IH]; intros s Hs; cbn [send_during_all]; [eauto|].
  destruct (nested_returns_lemma fine c coll Hst x s (Forall_inv Hs)) as (s1 & ->). cbn [bind]. exact (IH s1 (Forall_inv_tail Hs)).
Qed.
End Never.

(** ** What a receiver makes of the bytes *)
Definition encoded (c : config) (mv : mtype * list value) (fd : found) : Prop :=
  f_message fd = fst mv /\ encodes (little c) (mt_fields (fst mv)) (snd mv) (f_payload fd).

(** The bytes [W] are taken for the messages [fds], whatever follows. *)
Definition passes (coll : collection) (W : list Z) (fds : list found) : Prop :=
  forall rest ms r, Scan coll rest ms r -> Scan coll (W ++ rest) (fds ++ ms) r.

Lemma passes_nil coll : passes coll [] [].
Proof. intros rest ms r H. exact H. Qed.

Lemma passes_app coll A B a b : passes coll A a -> passes coll B b -> passes coll (A ++ B) (a ++ b).
Proof. intros HA HB rest ms r H. rewrite <- !app_assoc. apply HA, HB, H. Qed.

Lemma passes_noise coll W : ~ In 1 W -> passes coll W [].
Proof. intros H rest ms r HS. apply scan_noise; assumption. Qed.

Lemma passes_frame coll f m id p : is_frame coll f m id p -> passes coll f [Found m id p].
Proof. intros F rest ms r HS. apply scan_frame; assumption. Qed.

Lemma passes_dead coll b W fds : (forall rest, dead coll (b :: W ++ rest)) -> passes coll W fds -> passes coll (b :: W) fds.
Proof. intros HD HW rest ms r HS. destruct (HD rest) as (H1 & H2). apply scan_skip; [exact H1 | exact H2 | apply HW, HS]. Qed.

Lemma passes_weave coll ps : Forall (fun p => ~ In 1 p) ps -> forall outs fdss, Forall2 (passes coll) outs fdss ->
  passes coll (weave ps outs) (concat (firstn (S (length ps)) fdss)).
Proof.
  induction ps as [|p ps IH]; intros Hp outs fdss HF.
  - destruct HF as [|o fds outs fdss HO HF]; cbn; [apply passes_nil|]. rewrite app_nil_r. exact HO.
  - pose proof (passes_noise coll p (Forall_inv Hp)) as HN. specialize (IH (Forall_inv_tail Hp)).
    destruct HF as [|o fds outs fdss HO HF]; cbn [weave hd tl app].
    + specialize (IH [] [] (Forall2_nil _)). rewrite firstn_nil in *. apply (passes_app coll _ _ [] []); assumption.
    + change (firstn (S (length (p :: ps))) (fds :: fdss)) with (fds :: firstn (S (length ps)) fdss). cbn [concat].
      apply passes_app; [exact HO|]. apply (passes_app coll _ _ []); [exact HN | exact (IH _ _ HF)].
Qed.

Definition blank {A} (l : list A) : bool := match l with [] => false | _ => true end.

(** Nothing in between: the pieces stay together. *)
Lemma weave_together p ps : forall outs, existsb blank (firstn (length ps) (tl outs)) = false ->
  weave (p :: ps) outs = hd [] outs ++ concat (p :: ps) ++ nth (S (length ps)) outs [].
Proof.
  intros outs. cbn [weave concat]. intros H. f_equal. rewrite <- app_assoc. f_equal. destruct outs as [|o outs]; cbn [tl nth] in *.
  - clear H. induction ps as [|q ps IH]; cbn [weave hd tl app concat length nth]; [reflexivity|]. rewrite IH.
    rewrite <- app_assoc. reflexivity.
  - revert outs H. induction ps as [|q ps IH]; intros outs H; cbn [weave concat app length].
    + destruct outs; reflexivity.
    + destruct outs as [|o1 outs].
      * cbn [hd tl app nth]. rewrite IH by (cbn; destruct (length ps); reflexivity). rewrite <- app_assoc. destruct (length ps); reflexivity.
      * cbn [length firstn existsb] in H. apply orb_false_iff in H as (H1 & H2). destruct o1 as [|z o1]; [|discriminate H1].
        cbn [hd tl app nth]. rewrite (IH _ H2), <- app_assoc. reflexivity.
Qed.

Lemma concat_blank {A} (n : nat) : forall (l : list (list A)), existsb blank (firstn n l) = false -> concat (firstn (S n) l) = nth n l [].
Proof.
  induction n as [|n IH]; intros l H.
  - destruct l as [|x l]; [reflexivity|]. cbn. apply app_nil_r.
  - destruct l as [|x l]; [reflexivity|]. cbn [firstn existsb] in H. apply orb_false_iff in H as (H1 & H2).
    destruct x as [|z x]; [|discriminate H1]. change (firstn (S (S n)) ([] :: l)) with ((@nil A) :: firstn (S n) l). cbn [concat nth app].
    apply IH, H2.
Qed.

Lemma blank_map {A B} (f : list A -> list B) (Hf : f [] = []) n : forall l,
  existsb blank (firstn n l) = false -> existsb blank (firstn n (map f l)) = false.
Proof.
  induction n as [|n IH]; intros l H; [reflexivity|]. destruct l as [|x l]; [reflexivity|].
  cbn [firstn existsb map] in *. apply orb_false_iff in H as (H1 & H2). destruct x; [|discriminate]. rewrite Hf. cbn [blank orb]. apply IH, H2.
Qed.

Lemma weave_length ps : forall outs, (length (concat ps) <= length (weave ps outs))%nat.
Proof.
  induction ps as [|p ps IH]; intros outs; cbn [concat weave length]; [lia|]. rewrite !app_length. specialize (IH (tl outs)). lia.
Qed.

(** A start code whose STX is not there. *)
Lemma stx_dead coll x y s : y <> 2 -> dead coll (1 :: x :: y :: s).
Proof.
  intros H. split.
  - intros U. apply undecided_long in U as (_ & U & _). exact (H U).
  - intros f m id p s' F E. destruct (is_frame_head _ _ _ _ _ F) as (u & ->). cbn [app] in E. congruence.
Qed.

Lemma nth_two (A : list Z) (k : nat) (z : Z) : (k < length A)%nat -> nth k A 0 = z -> exists l1 l2, A = l1 ++ z :: l2 /\ length l1 = k.
Proof.
  intros HL E. assert (nth_error A k = Some z) as HN.
  { rewrite <- E. apply nth_error_nth'. exact HL. }
  apply nth_error_split in HN. exact HN.
Qed.

Lemma Forall2_concat {A B} (R : A -> B -> Prop) ls ms : Forall2 (Forall2 R) ls ms -> Forall2 R (concat ls) (concat ms).
Proof. induction 1 as [|l m ls ms H H2 IH]; cbn [concat]; [constructor | apply Forall2_app; assumption]. Qed.
Lemma Forall2_firstn {A B} (R : A -> B -> Prop) n : forall l m, Forall2 R l m -> Forall2 R (firstn n l) (firstn n m).
Proof. induction n as [|n IH]; intros l m H; [constructor|]. destruct H; cbn [firstn]; constructor; auto. Qed.
Lemma hd_nth {A} (l : list (list A)) : hd [] l = nth 0 l [].
Proof. destruct l; reflexivity. Qed.

Lemma app_inj_l {A} (a b x y : list A) : length a = length b -> a ++ x = b ++ y -> a = b.
Proof.
  revert b. induction a as [|z a IH]; intros [|w b] HL E; cbn in *; try discriminate; [reflexivity|].
  injection E as -> E. f_equal. apply IH; [lia | exact E].
Qed.

Section Through.
Context (fine : bool) (c : config) (coll : collection).
Hypothesis Hst : static_ok coll = true.

Definition gets (x : sending) : Prop :=
  exists fds, Forall2 (encoded c) (survivors fine (little c) coll x) fds /\ passes coll (wire fine (little c) coll x) fds.

Lemma gets_list l : Forall gets l -> exists fds,
  Forall2 (encoded c) (flat_map (survivors fine (little c) coll) l) fds /\ passes coll (flat_map (wire fine (little c) coll) l) fds.
Proof.
  induction 1 as [|x l (fds & H1 & H2) _ (fdss & H3 & H4)]; cbn [flat_map].
  - exists []. split; [constructor | apply passes_nil].
  - exists (fds ++ fdss). split; [apply Forall2_app; assumption | apply passes_app; assumption].
Qed.

Lemma gets_lists during : Forall (Forall gets) during -> exists fdss,
  Forall2 (Forall2 (encoded c)) (map (fun l => flat_map (survivors fine (little c) coll) l) during) fdss
  /\ Forall2 (passes coll) (map (fun l => flat_map (wire fine (little c) coll) l) during) fdss.
Proof.
  induction 1 as [|l during H _ (fdss & H3 & H4)]; cbn [map].
  - exists []. split; constructor.
  - destruct (gets_list l H) as (fds & H1 & H2). exists (fds :: fdss). split; constructor; assumption.
Qed.

Lemma nested_gets x : all_sendable coll x -> benign fine (little c) coll x = true -> gets x.
Proof.
  induction x as [m vs during IH] using sending_rec'. intros Hs Hb. apply all_sendable_eq in Hs as ((Hin & Hty) & Hd). cbn [fst snd] in *.
  cbn [benign] in Hb. apply andb_true_iff in Hb as (Hbd & Hbx).
  assert (Forall (Forall gets) during) as HG.
  { clear Hbx. induction during as [|l during IHd]; [constructor|]. cbn [forallb] in Hbd. apply andb_true_iff in Hbd as (Hb1 & Hb2).
    constructor; [|exact (IHd (Forall_inv_tail IH) (Forall_inv_tail Hd) Hb2)].
    pose proof (Forall_inv IH) as IHl. pose proof (Forall_inv Hd) as Hl. clear - IHl Hl Hb1.
    induction l as [|y l IHy]; [constructor|]. cbn [forallb] in Hb1. apply andb_true_iff in Hb1 as (Hb1 & Hb2).
    constructor; [exact (Forall_inv IHl (Forall_inv Hl) Hb1) | exact (IHy Hb2 (Forall_inv_tail IHl) (Forall_inv_tail Hl))]. }
  destruct (gets_lists during HG) as (fdss & HE & HP). clear IH Hd Hbd HG.
  destruct (cuts_head fine c coll m vs) as (ps & EC). pose proof (cuts_concat fine c coll m vs Hty) as ECC.
  pose proof (frame_of_spec c coll m vs Hin) as HF. destruct (message_frame_is_frame c coll m vs _ Hty HF) as (id & F).
  unfold gets. cbn [survivors]. destruct (disturbed fine (little c) coll (Sending m vs during)) eqn:ED.
  - (* disturbed *)
    rewrite orb_false_l in Hbx. unfold falls_apart in Hbx. apply andb_true_iff in Hbx as (Hc & Hpl).
    exists (concat (firstn (S (length (cuts fine (little c) coll m vs))) fdss)). split; [apply Forall2_concat, Forall2_firstn, HE|].
    cbn [wire] in *. set (outs := map (fun l => flat_map (wire fine (little c) coll) l) during) in *.
    rewrite EC in *. cbn [weave] in *. rewrite skipn_app, skipn_all, Nat.sub_diag in Hpl. cbn [skipn app] in Hpl.
    assert (frame_of (little c) coll m vs = 1 :: id_of m (mc_types coll) :: concat ps) as EF by (rewrite <- ECC; reflexivity).
    assert (~ In 1 (id_of m (mc_types coll) :: concat ps)) as HN.
    { intros HI. rewrite forallb_forall in Hc. rewrite EF in Hc. specialize (Hc 1 HI). discriminate Hc. }
    assert (Forall (fun p => ~ In 1 p) ([id_of m (mc_types coll)] :: ps)) as HNP.
    { apply Forall_forall. intros p Hp HI. apply HN. change (In 1 (concat ([id_of m (mc_types coll)] :: ps))).
      apply in_concat. eauto. }
    set (Y := hd [] (tl outs) ++ id_of m (mc_types coll) :: weave ps (tl (tl outs))) in *.
    assert (passes coll (1 :: Y) (concat (firstn (S (length ([id_of m (mc_types coll)] :: ps))) (tl fdss)))) as HY.
    { apply passes_dead.
      - intros rest. pose proof (weave_length ps (tl (tl outs))) as HLW.
        assert (frame_size (mc_env coll) m = S (S (length (concat ps)))) as HL.
        { rewrite <- (is_frame_length _ _ _ _ _ F), EF. reflexivity. }
        pose proof (frame_size_ge5 (mc_env coll) m) as H5.
        assert (length (weave ps (tl (tl outs))) + 1 <= length Y)%nat as HLY by (unfold Y; rewrite app_length; cbn [length]; lia).
        apply orb_true_iff in Hpl as [Hpl|Hpl].
        + destruct Y as [|y1 [|y2 Y]]; [cbn [length] in HLY; lia | cbn [length] in HLY; lia|].
          cbn [app]. apply stx_dead. intros ->. cbn in Hpl. discriminate.
        + apply andb_true_iff in Hpl as (Hn1 & Hpl).
          assert (hd [] (tl outs) = []) as E1.
          { destruct outs as [|o0 [|o1 outs']]; [reflexivity | reflexivity|]. cbn [nth] in Hn1. cbn [tl hd]. destruct o1; [reflexivity | discriminate]. }
          unfold Y in *. rewrite E1 in *. cbn [app] in *.
          destruct (nth_two (weave ps (tl (tl outs))) (length (concat ps) - 1) _ ltac:(lia) eq_refl) as (l1 & l2 & EW & Hl1).
          assert (nth (length (concat ps) - 1) (weave ps (tl (tl outs))) 0 <> 4) as Hz.
          { intros E4. rewrite HL in Hpl. replace (S (S (length (concat ps))) - 1)%nat with (S (S (length (concat ps) - 1))) in Hpl by lia.
            cbn [nth] in Hpl. rewrite E4 in Hpl. discriminate Hpl. }
          rewrite EW, <- app_assoc. cbn [app].
          assert (id = id_of m (mc_types coll)) as Eid.
          { destruct (is_frame_head _ _ _ _ _ F) as (tt & Et). rewrite EF in Et. congruence. }
          apply (tail_dead coll m); [rewrite <- Eid; apply F | | exact Hz].
          cbn [length]. rewrite app_length. cbn [length]. lia.
      - change Y with (weave ([id_of m (mc_types coll)] :: ps) (tl outs)). apply passes_weave; [exact HNP|].
        destruct HP; [constructor | assumption]. }
    destruct HP as [|o fds0 outs0 fdss0 HO HP].
    + cbn [tl hd app] in *. rewrite firstn_nil in *. exact HY.
    + change (firstn (S (length ([1] :: [id_of m (mc_types coll)] :: ps))) (fds0 :: fdss0))
        with (fds0 :: firstn (S (length ([id_of m (mc_types coll)] :: ps))) fdss0).
      cbn [concat hd tl] in *. apply passes_app; [exact HO | exact HY].
  - (* undisturbed *)
    unfold disturbed in ED. rewrite EC in *. cbn [length Nat.sub] in ED. change (S (length ps) - 0)%nat with (S (length ps)) in ED.
    set (inner := map (fun l => flat_map (survivors fine (little c) coll) l) during) in *.
    cbn [wire]. rewrite EC. set (outs := map (fun l => flat_map (wire fine (little c) coll) l) during) in *.
    assert (existsb blank (firstn (S (length ps)) (tl outs)) = false) as HB1.
    { unfold outs. destruct during; [reflexivity|]. apply (blank_map (fun l => flat_map (wire fine (little c) coll) l)); [reflexivity | exact ED]. }
    assert (existsb blank (firstn (S (length ps)) (tl inner)) = false) as HB2.
    { unfold inner. destruct during; [reflexivity|]. apply (blank_map (fun l => flat_map (survivors fine (little c) coll) l)); [reflexivity | exact ED]. }
    rewrite weave_together by exact HB1. rewrite ECC.
    set (n := length ([1] :: [id_of m (mc_types coll)] :: ps)) in *.
    exists (hd [] fdss ++ Found m id (spec_payload (little c) (mt_fields m) vs) :: nth n fdss []). split.
    + assert (concat (tl (firstn (S n) inner)) = nth n inner []) as ->.
      { destruct inner as [|i0 inner']; [reflexivity|]. cbn [firstn tl]. cbn [tl] in HB2. unfold n. cbn [length nth].
        apply (concat_blank (S (length ps))), HB2. }
      assert (hd [] (firstn (S n) inner) = hd [] inner) as -> by (destruct inner; reflexivity).
      apply Forall2_app; [destruct HE; [constructor | assumption]|]. constructor.
      * split; [reflexivity|]. cbn [fst snd f_payload].
        destruct (sent_frames c coll [(m, vs)] [frame_of (little c) coll m vs]) as (fds1 & G1 & G2);
          [constructor; [split; assumption | constructor] | constructor; [exact HF | constructor]|].
        inversion G2 as [|? fd1 ? ? (G3 & G4) G5]; subst. inversion G5; subst. inversion G1 as [|? ? ? ? (_ & GL & GF) _]; subst.
        cbn [fst snd] in *. rewrite G3 in GL. destruct F as (FI & FL & FF). rewrite FF in GF.
        assert (f_payload fd1 = spec_payload (little c) (mt_fields m) vs) as <-; [|exact G4].
        clear - GF GL FL. unfold spec_frame in GF.
        destruct (mc_env coll); cbn [app] in GF; injection GF as _ GF; rewrite <- ?app_assoc in GF;
          (symmetry; eapply app_inj_l; [|exact GF]; congruence).
      * clearbody n. clear - HE. revert n. induction HE as [|a b la lb H HE IH]; intros [|n]; cbn [nth]; try constructor; auto.
    + apply passes_app; [destruct HP; [apply passes_nil | assumption]|].
      apply (passes_app coll _ _ [Found m id (spec_payload (little c) (mt_fields m) vs)]); [apply passes_frame, F|].
      change (S (length ([id_of m (mc_types coll)] :: ps))) with n.
      clearbody n. clear - HP. revert n. induction HP as [|a b la lb H HP IH]; intros [|n]; cbn [nth]; try apply passes_nil; auto.
Qed.
End Through.

(** C93 *)
Lemma sent_nested_lemma S (t : transmitter S) (out : S -> list Z) fine c coll xs s s' :
  (forall x s s', run_call t x s = Ok s' -> out s' = out s ++ call_bytes x) ->
  (forall s s', tx_finished t s = Ok s' -> out s' = out s) ->
  static_ok coll = true -> Forall (all_sendable coll) xs -> send_during_all fine c coll t xs s = Ok s' ->
  out s' = out s ++ flat_map (wire fine (little c) coll) xs.
Proof.
  intros Hout Hfin Hst Hs H.
  exact (proj2 (nested_bytes_all t (fun _ => True) out (fun x s s' _ E => conj I (Hout x s s' E))
    (fun s s' _ E => conj I (Hfin s s' E)) fine c coll Hst xs s s' Hs I H)).
Qed.

Lemma vector_nested_lemma fine c coll xs s : static_ok coll = true -> Forall (all_sendable coll) xs ->
  send_during_all fine c coll vector_tx xs s = Ok (s ++ flat_map (wire fine (little c) coll) xs).
Proof.
  intros Hst Hs. destruct (nested_returns_all vector_tx) with (fine := fine) (c := c) (coll := coll) (xs := xs) (s := s) as (s' & E);
    [intros [b|d] s0; eexists; reflexivity | intros s0; eexists; reflexivity | exact Hst | exact Hs|].
  rewrite E. f_equal. apply (sent_nested_lemma _ vector_tx (fun s => s) fine c coll xs s s'); [| |exact Hst | exact Hs | exact E].
  - intros [b|d] s0 s1 [= <-]; reflexivity.
  - intros s0 s1 [= <-]. reflexivity.
Qed.

Lemma nested_finished {S} (t : transmitter S) fine c coll : static_ok coll = true -> forall xs s s', Forall (all_sendable coll) xs ->
  send_during_all fine c coll t xs s = Ok s' -> s' = s \/ exists s0, tx_finished t s0 = Ok s'.
Proof.
  intros Hst xs. induction xs as [|x xs IH]; intros s s' Hs H; cbn [send_during_all] in H; [injection H as <-; auto|].
  destruct (send_during fine c coll t x s) as [s1| | | |] eqn:E; try discriminate. cbn [bind] in H.
  destruct (IH _ _ (Forall_inv_tail Hs) H) as [->|HF]; [|right; exact HF]. right. clear IH H.
  destruct x as [m vs during]. cbn [send_during] in E. apply Forall_inv, all_sendable_eq in Hs as (Hmv & _).
  destruct (nested_calls fine c coll m vs t Hst Hmv) as (calls & _ & _ & EC). rewrite EC in E. clear EC.
  match type of E with context [run_calls ?T ?C ?A] => destruct (run_calls T C A) as [r1| | | |]; try discriminate end.
  cbn [bind] in E. change (tx_finished (interruptible fine t) r1) with (after_interrupt (tx_finished t) r1) in E. unfold after_interrupt in E.
  destruct (interrupt r1) as [r2| | | |]; try discriminate. cbn [bind] in E.
  destruct (tx_finished t (fst r2)) as [s3| | | |] eqn:E3; try discriminate. cbn [bind fst] in E. injection E as <-. eauto.
Qed.

Lemma i2c_nested_lemma fine c coll xs s s' : static_ok coll = true -> Forall (all_sendable coll) xs -> i2c_idle s ->
  send_during_all fine c coll i2c_tx xs s = Ok s' ->
  concat (i2c_bus s') = concat (i2c_bus s) ++ flat_map (wire fine (little c) coll) xs /\ i2c_idle s'.
Proof.
  intros Hst Hs (Hok & Hid) H.
  destruct (nested_bytes_all i2c_tx (fun s => abuf_ok i2c_bufsize (i2c_buf s)) (fun s => concat (i2c_bus s) ++ abuf_content (i2c_buf s)))
    with (fine := fine) (c := c) (coll := coll) (xs := xs) (s := s) (s' := s') as (Hok' & E); [| |exact Hst | exact Hs | exact Hok | exact H|].
  - intros x s0 s1 Hi E. replace (run_call i2c_tx x s0) with (do b <- abuf_write i2c_bufsize (call_bytes x) (i2c_buf s0); Ok (I2C b (i2c_bus s0))) in E
      by (destruct x; reflexivity).
    destruct (Z_le_gt_dec (ab_it (i2c_buf s0) + zlen (call_bytes x)) i2c_bufsize) as [Hf|Hf].
    + destruct (abuf_write_ok i2c_bufsize (i2c_buf s0) (call_bytes x) Hi Hf) as (b & Eb & H1 & _ & H3 & _). rewrite Eb in E.
      injection E as <-. cbn [i2c_buf i2c_bus]. rewrite H3, app_assoc. auto.
    + rewrite abuf_write_ub in E by lia. discriminate.
  - intros s0 s1 Hi [= <-]. cbn [i2c_buf i2c_bus]. split; [apply abuf_reset_ok, Hi|].
    rewrite (abuf_content_start (abuf_reset (i2c_buf s0))) by reflexivity. rewrite concat_app. cbn [concat]. rewrite !app_nil_r. reflexivity.
  - assert (i2c_idle s') as Hid'.
    { split; [exact Hok'|]. destruct (nested_finished i2c_tx fine c coll Hst xs s s' Hs H) as [->|(s0 & E0)]; [exact Hid|].
      injection E0 as <-. cbn [i2c_buf]. apply abuf_content_start. reflexivity. }
    split; [|exact Hid']. destruct Hid' as (_ & E1). cbv beta in E. rewrite E1, Hid, !app_nil_r in E. exact E.
Qed.

Lemma Forall_firstn' {A} (P : A -> Prop) n : forall l, Forall P l -> Forall P (firstn n l).
Proof. induction n as [|n IH]; intros l H; [constructor|]. destruct H; cbn [firstn]; constructor; auto. Qed.

Lemma survivors_sendable fine little coll x : all_sendable coll x -> Forall (sendable coll) (survivors fine little coll x).
Proof.
  induction x as [m vs during IH] using sending_rec'. intros Hs. apply all_sendable_eq in Hs as (Hmv & Hd). cbn [survivors].
  set (inner := firstn _ _). assert (Forall (Forall (sendable coll)) inner) as HI.
  { unfold inner. apply Forall_firstn'. clear inner. induction during as [|l during IHd]; [constructor|]. cbn [map].
    constructor; [|exact (IHd (Forall_inv_tail IH) (Forall_inv_tail Hd))].
    pose proof (Forall_inv IH) as IHl. pose proof (Forall_inv Hd) as Hl. clear - IHl Hl.
    induction l as [|y l IHy]; [constructor|]. cbn [flat_map]. apply Forall_app.
    split; [exact (Forall_inv IHl (Forall_inv Hl)) | exact (IHy (Forall_inv_tail IHl) (Forall_inv_tail Hl))]. }
  assert (forall ls : list (list (mtype * list value)), Forall (Forall (sendable coll)) ls -> Forall (sendable coll) (concat ls)) as HC.
  { intros ls. induction 1; cbn [concat]; [constructor | apply Forall_app; auto]. }
  destruct (disturbed fine little coll (Sending m vs during)); [apply HC, HI|].
  apply Forall_app. split; [destruct HI; [constructor | assumption]|]. constructor; [exact Hmv|].
  apply HC. destruct HI; [constructor | assumption].
Qed.

Lemma woven_lemma fine c coll cs beh h0 xs w : static_ok coll = true -> index_safe c (capacity coll) -> tame beh -> little cs = little c ->
  Forall (all_sendable coll) xs -> Forall (fun x => benign fine (little cs) coll x = true) xs ->
  processed c coll beh h0 (flat_map (wire fine (little cs) coll) xs) w ->
  map content (completed beh [] (w_log w)) = flat_map (survivors fine (little cs) coll) xs /\ held w = [].
Proof.
  intros Hst Hsafe Ht HE Hs Hb Hw. destruct (gets_list fine cs coll xs) as (fds & H1 & H2).
  { apply Forall_forall. intros x Hx. rewrite Forall_forall in Hs, Hb. apply nested_gets; auto. }
  destruct (stream_lemma c coll Hst Hsafe beh Ht _ _ _ Hw) as (ms & HS & HD).
  pose proof (H2 [] [] [] (scan_nil coll)) as HS2. rewrite !app_nil_r in HS2.
  destruct (scan_det _ _ _ _ HS _ _ HS2) as (-> & E). split; [|exact E].
  unfold encoded in H1. rewrite HE in H1. rewrite HE in *. eapply (delivered_content c coll); [exact Hst | | exact H1 | exact HD].
  clear - Hs. induction Hs as [|x xs Hx Hs IH]; cbn [flat_map]; [constructor|]. apply Forall_app. split; [apply survivors_sendable, Hx | exact IH].
Qed.

(** Nothing is lost when nothing is sent in the middle of a message. *)
Lemma calm_lemma fine little coll x : calm fine little coll x = true ->
  benign fine little coll x = true /\ Permutation (survivors fine little coll x) (everything fine little coll x).
Proof.
  induction x as [m vs during IH] using sending_rec'. intros H. cbn [calm] in H. apply andb_true_iff in H as (Hd & Hx).
  apply negb_true_iff in Hx. cbn [benign survivors everything]. rewrite Hx. cbn [negb orb]. rewrite andb_true_r.
  assert (Forall (Forall (fun x => benign fine little coll x = true /\ Permutation (survivors fine little coll x) (everything fine little coll x))) during) as HP.
  { clear Hx. induction during as [|l during IHd]; [constructor|]. cbn [forallb] in Hd. apply andb_true_iff in Hd as (Hl & Hd).
    constructor; [|exact (IHd (Forall_inv_tail IH) Hd)]. pose proof (Forall_inv IH) as IHl. clear - IHl Hl.
    induction l as [|y l IHy]; [constructor|]. cbn [forallb] in Hl. apply andb_true_iff in Hl as (Hy & Hl).
    constructor; [exact (Forall_inv IHl Hy) | exact (IHy Hl (Forall_inv_tail IHl))]. }
  split.
  - clear - HP. induction HP as [|l during H HP IHd]; [reflexivity|]. cbn [forallb]. rewrite IHd, andb_true_r. clear - H.
    induction H as [|y l (Hy & _) H IHl]; [reflexivity|]. cbn [forallb]. rewrite Hy. exact IHl.
  - generalize (S (length (cuts fine little coll m vs))). intros n.
    assert (Permutation (concat (firstn n (map (fun l => flat_map (survivors fine little coll) l) during)))
              (concat (firstn n (map (fun l => flat_map (everything fine little coll) l) during)))) as HC.
    { clear - HP. revert n. induction HP as [|l during H HP IHd]; intros n; cbn [map]; [rewrite !firstn_nil; constructor|].
      destruct n as [|n]; [constructor|]. cbn [firstn concat]. apply Permutation_app; [|apply IHd]. clear - H.
      induction H as [|y l (_ & Hy) H IHl]; cbn [flat_map]; [constructor | apply Permutation_app; assumption]. }
    rewrite <- HC. set (inner := firstn n _). destruct inner as [|i inner]; cbn [hd tl concat app]; [constructor; constructor|].
    symmetry. apply Permutation_middle.
Qed.

Lemma between_lemma fine c coll cs beh h0 xs w : static_ok coll = true -> index_safe c (capacity coll) -> tame beh -> little cs = little c ->
  Forall (all_sendable coll) xs -> Forall (fun x => calm fine (little cs) coll x = true) xs ->
  processed c coll beh h0 (flat_map (wire fine (little cs) coll) xs) w ->
  Permutation (map content (completed beh [] (w_log w))) (flat_map (everything fine (little cs) coll) xs) /\ held w = [].
Proof.
  intros Hst Hsafe Ht HE Hs Hc Hw. destruct (woven_lemma fine c coll cs beh h0 xs w Hst Hsafe Ht HE Hs) as (H1 & H2); [|exact Hw|].
  - apply Forall_forall. intros x Hx. rewrite Forall_forall in Hc. apply calm_lemma, Hc, Hx.
  - split; [|exact H2]. rewrite H1. clear - Hc. induction Hc as [|x xs Hx Hc IH]; cbn [flat_map]; [constructor|].
    apply Permutation_app; [apply calm_lemma, Hx | exact IH].
Qed.

Lemma cuts_frame_lemma fine c coll m vs : sendable coll (m, vs) ->
  is_message_frame c coll m vs (concat (cuts fine (little c) coll m vs)).
Proof. intros (Hin & Hty). rewrite cuts_concat by exact Hty. apply frame_of_spec, Hin. Qed.
