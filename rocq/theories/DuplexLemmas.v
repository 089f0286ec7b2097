(** Proofs about two programs that send messages to each other. *)
From Verif Require Import PollLemmas CopyLemmas SendLemmas.
From Verif Require Export SpecDuplex.

Lemma send_all_concat {S} c coll (t : transmitter S) l1 l2 s :
  send_all c coll t (l1 ++ l2) s = do s' <- send_all c coll t l1 s; send_all c coll t l2 s'.
Proof.
  revert s. induction l1 as [|(m, vs) l1 IH]; intros s; cbn [app send_all]; [reflexivity|].
  destruct (send c coll m t (combine (mt_fields m) vs) s) as [s'| | | |]; cbn [bind]; [apply IH | reflexivity..].
Qed.

Lemma send_grows c coll sent msgs S wire wire' : static_ok coll = true -> Forall (sendable coll) msgs ->
  send_all c coll vector_tx sent [] = Ok S -> send_all c coll vector_tx msgs wire = Ok wire' ->
  exists F, wire' = wire ++ F /\ send_all c coll vector_tx (sent ++ msgs) [] = Ok (S ++ F).
Proof.
  intros Hst HM HS HW. destruct (send_all_vector c coll msgs Hst HM wire) as (fs & HF & E).
  destruct (send_all_vector c coll msgs Hst HM S) as (fs' & HF' & E').
  rewrite (frames_unique c coll msgs fs' fs HF' HF) in E'. rewrite E in HW. injection HW as <-.
  exists (concat fs). split; [reflexivity|]. rewrite send_all_concat, HS. cbn [bind]. exact E'.
Qed.

Lemma replies_sendable (coll : collection) f log new : (forall l, Forall (sendable coll) (f l)) ->
  Forall (sendable coll) (replies_to f log new).
Proof.
  intros H. revert log. induction new as [|d new IH]; intros log; cbn [replies_to]; [constructor|].
  apply Forall_app. split; [apply H | apply IH].
Qed.
Lemma replies_app f log n1 n2 : replies_to f log (n1 ++ n2) = replies_to f log n1 ++ replies_to f (log ++ n1) n2.
Proof.
  revert log. induction n1 as [|d n1 IH]; intros log; cbn [app replies_to]; [rewrite app_nil_r; reflexivity|].
  rewrite IH, <- !app_assoc. reflexivity.
Qed.

(** The direction from [p] (at [s]) to [q] (at [t]). *)
Definition direction (p q : party) (hq : handler) (s t : side) : Prop :=
  Forall (sendable (py_coll q)) (sd_sent s)
  /\ exists S got, send_all (py_config p) (py_coll q) vector_tx (sd_sent s) [] = Ok S
      /\ S = got ++ sd_wire s /\ polled_to (py_config q) (py_coll q) (py_beh q) hq got (sd_world t).

Section Duplex.
Context (fuel : nat) (p q : party) (hp hq : handler).
Hypothesis Hp : party_ok p q.
Hypothesis Hq : party_ok q p.
Hypothesis Hl : little (py_config p) = little (py_config q).
Hypothesis Fp : (Z.to_nat (capacity (py_coll p)) < fuel)%nat.

Lemma grows s t msgs w' wire' : direction p q hq s t -> Forall (sendable (py_coll q)) msgs ->
  send_all (py_config p) (py_coll q) vector_tx msgs (sd_wire s) = Ok wire' ->
  direction p q hq (Side w' (sd_sent s ++ msgs) wire') t.
Proof.
  intros (H1 & S & got & HS & ES & HB) HM HW. destruct Hq as (Hst & _).
  destruct (send_grows _ _ _ _ _ _ _ Hst HM HS HW) as (F & -> & HS'). split.
  - apply Forall_app. auto.
  - exists (S ++ F), got. split; [exact HS'|]. split; [|exact HB]. cbn [sd_wire]. rewrite ES, app_assoc. reflexivity.
Qed.

(** A turn of [p]. *)
Lemma turn_possible s t a : direction p q hq s t -> direction q p hp t s -> serves a (sd_wire t) ->
  exists s' t', Turn fuel p q a s t s' t'
    /\ (eager a (sd_wire t) -> sd_wire t <> [] -> (length (sd_wire t') < length (sd_wire t))%nat).
Proof.
  intros (H1 & _) (H2 & S & got & HS & ES & HB) Ha. destruct Hp as (Hst & Hi & Hs & Hn & _ & Hr). destruct Hq as (Hstq & _).
  assert (bytes_ok S) as HBy by exact (send_all_bytes _ _ _ _ Hst H2 HS).
  pose proof (sent_decodable (py_config p) _ Hst (py_config q) _ S (eq_sym Hl) H2 HS) as HD.
  rewrite ES in HD, HBy. apply Forall_app in HBy as (_ & HBy).
  destruct (poll_turn _ _ Hst Hi _ Hs Hn fuel Fp hp got (sd_world s) a (sd_wire t) [] HB Ha HBy)
    as (d & P' & w1 & w2 & r & EP & E1 & E2 & HB' & He & (n & ->) & _); [rewrite app_nil_r; exact HD|].
  destruct (send_all_vector (py_config p) (py_coll q) (replies_to (py_replies p) (w_log (sd_world s)) (new_calls (sd_world s) w2)) Hstq
             (replies_sendable _ _ _ _ Hr) (sd_wire s)) as (fs & _ & EW).
  destruct s as (w, sent, wire), t as (wq, sentq, wireq). cbn [sd_world sd_wire sd_sent] in *.
  eexists. eexists. split; [exact (turn fuel p q a w sent wire wq sentq wireq w1 (zlen d) w2 n _ E1 E2 EW)|].
  cbn [sd_wire]. intros Hea Hne. specialize (He Hea Hne). rewrite skipn_length, EP, app_length. unfold zlen.
  rewrite Nat2Z.id. destruct d; [congruence|]. cbn [length]. lia.
Qed.

Lemma turn_keeps s t a s' t' : direction p q hq s t -> direction q p hp t s -> serves a (sd_wire t) ->
  Turn fuel p q a s t s' t' ->
  direction p q hq s' t' /\ direction q p hp t' s'
  /\ (exists new, w_log (sd_world s') = w_log (sd_world s) ++ new
        /\ sd_sent s' = sd_sent s ++ replies_to (py_replies p) (w_log (sd_world s)) new)
  /\ sd_world t' = sd_world t /\ sd_sent t' = sd_sent t.
Proof.
  intros D1 D2 Ha HT. pose proof D2 as (H2 & S & got & HS & ES & HB). pose proof Hp as (Hst & Hi & Hs & Hn & _ & Hr).
  assert (bytes_ok S) as HBy by exact (send_all_bytes _ _ _ _ Hst H2 HS).
  pose proof (sent_decodable (py_config p) _ Hst (py_config q) _ S (eq_sym Hl) H2 HS) as HD.
  rewrite ES in HD, HBy. apply Forall_app in HBy as (_ & HBy).
  destruct (poll_turn _ _ Hst Hi _ Hs Hn fuel Fp hp got (sd_world s) a (sd_wire t) [] HB Ha HBy)
    as (d & P' & w1' & w2' & r' & EP & E1' & E2' & HB' & _ & _ & l & El); [rewrite app_nil_r; exact HD|].
  destruct HT as [w sent wire wq sentq wireq w1 k w2 r wire' E1 E2 EW]. cbn [sd_world sd_wire sd_sent] in *.
  rewrite E1 in E1'. injection E1' as <- ->. rewrite E2 in E2'. injection E2' as <- _.
  split; [|split; [|split; [|auto]]].
  - exact (grows (Side w sent wire) (Side wq sentq wireq) _ w2 wire' D1 (replies_sendable _ _ _ _ Hr) EW).
  - split; [exact H2|]. exists S, (got ++ d). split; [exact HS|]. cbn [sd_wire sd_world]. split; [|exact HB'].
    rewrite ES, EP. unfold zlen. rewrite Nat2Z.id, skipn_app, skipn_all, Nat.sub_diag. cbn [app skipn].
    rewrite app_assoc. reflexivity.
  - exists (new_calls w w2). split; [|reflexivity]. unfold new_calls.
    rewrite El, skipn_app, skipn_all, Nat.sub_diag. reflexivity.
Qed.
End Duplex.

Section Talk.
Context (fuel : nat) (p q : party) (hp hq : handler).
Hypothesis Hp : party_ok p q.
Hypothesis Hq : party_ok q p.
Hypothesis Hl : little (py_config p) = little (py_config q).
Hypothesis Fp : (Z.to_nat (capacity (py_coll p)) < fuel)%nat.
Hypothesis Fq : (Z.to_nat (capacity (py_coll q)) < fuel)%nat.

Lemma direction_start (a b : party) hb h' : party_ok b a -> direction a b hb (side_start a h') (side_start b hb).
Proof.
  intros (Hst & _). split; [constructor|]. exists [], []. split; [reflexivity|]. split; [reflexivity|].
  apply (start_between _ _ Hst _ (Datatypes.S (Z.to_nat (capacity (py_coll b)))) (Nat.lt_succ_diag_r _)).
Qed.

Lemma direction_world a b hb s t w sent wire : direction a b hb s t -> w = sd_world t ->
  direction a b hb s (Side w sent wire).
Proof. intros (H & S & got & H1 & H2 & H3) ->. split; [exact H|]. exists S, got. auto. Qed.

Lemma talk_directions s t : Talk fuel p q hp hq s t -> direction p q hq s t /\ direction q p hp t s.
Proof.
  induction 1 as [|s t s' H (D1 & D2) HS|s t t' H (D1 & D2) HS|s t a s' t' H (D1 & D2) Ha HT|s t a s' t' H (D1 & D2) Ha HT].
  - split; apply direction_start; assumption.
  - destruct HS as [w sent wire msgs wire' HM HW]. split.
    + apply (grows p q hq Hq (Side w sent wire) t msgs w wire' D1); [|exact HW].
      eapply Forall_impl; [|exact HM]. apply Hp.
    + exact (direction_world _ _ _ _ _ w _ _ D2 eq_refl).
  - destruct HS as [w sent wire msgs wire' HM HW]. split.
    + exact (direction_world _ _ _ _ _ w _ _ D1 eq_refl).
    + apply (grows q p hp Hp (Side w sent wire) s msgs w wire' D2); [|exact HW].
      eapply Forall_impl; [|exact HM]. apply Hq.
  - destruct (turn_keeps fuel p q hp hq Hp Hq Hl Fp s t a s' t' D1 D2 Ha HT) as (D1' & D2' & _). auto.
  - destruct (turn_keeps fuel q p hq hp Hq Hp (eq_sym Hl) Fq t s a t' s' D2 D1 Ha HT) as (D1' & D2' & _). auto.
Qed.

Lemma direction_order (a b : party) hb s t : party_ok b a -> little (py_config a) = little (py_config b) ->
  direction a b hb s t ->
  (exists k, map content (w_log (sd_world t)) = firstn k (sd_sent s))
  /\ zlen (held (sd_world t)) < max_message_length (py_coll b)
  /\ (sd_wire s = [] -> map content (w_log (sd_world t)) = sd_sent s /\ held (sd_world t) = []).
Proof.
  intros (Hst & Hi & Hs & Hn & _) HE (HM & S & got & HS & ES & HB).
  exact (between_sent _ _ Hst Hi _ Hs Hn (Datatypes.S (Z.to_nat (capacity (py_coll b)))) (Nat.lt_succ_diag_r _) _ _ S hb got _ _ HE HM HS ES HB).
Qed.

Lemma talk_order s t : Talk fuel p q hp hq s t ->
  (exists k, map content (w_log (sd_world t)) = firstn k (sd_sent s))
  /\ (exists k, map content (w_log (sd_world s)) = firstn k (sd_sent t))
  /\ (sd_wire s = [] -> map content (w_log (sd_world t)) = sd_sent s /\ held (sd_world t) = [])
  /\ (sd_wire t = [] -> map content (w_log (sd_world s)) = sd_sent t /\ held (sd_world s) = []).
Proof.
  intros H. destruct (talk_directions s t H) as (D1 & D2).
  destruct (direction_order p q hq s t Hq Hl D1) as (A1 & _ & A2).
  destruct (direction_order q p hp t s Hp (eq_sym Hl) D2) as (B1 & _ & B2). auto.
Qed.

Lemma talk_turn s t a : Talk fuel p q hp hq s t -> serves a (sd_wire t) ->
  exists s' t', Turn fuel p q a s t s' t'.
Proof.
  intros H Ha. destruct (talk_directions s t H) as (D1 & D2).
  destruct (turn_possible fuel p q hp hq Hp Hq Hl Fp s t a D1 D2 Ha) as (s' & t' & HT & _). eauto.
Qed.

(** What a program that only answers has sent. *)
Lemma talk_answers s t : Talk fuel p q hp hq s t -> (forall mv, ~ py_main q mv) ->
  sd_sent t = replies_to (py_replies q) [] (w_log (sd_world t)).
Proof.
  intros H Hm. induction H as [|s t s' H IH HS|s t t' H IH HS|s t a s' t' H IH Ha HT|s t a s' t' H IH Ha HT].
  - reflexivity.
  - exact IH.
  - destruct HS as [w sent wire msgs wire' HM HW]. cbn [sd_sent sd_world] in *. rewrite <- IH.
    destruct HM as [|mv msgs Hmv _]; [apply app_nil_r | exfalso; exact (Hm mv Hmv)].
  - destruct (talk_directions s t H) as (D1 & D2).
    destruct (turn_keeps fuel p q hp hq Hp Hq Hl Fp s t a s' t' D1 D2 Ha HT) as (_ & _ & _ & -> & ->). exact IH.
  - destruct (talk_directions s t H) as (D1 & D2).
    destruct (turn_keeps fuel q p hq hp Hq Hp (eq_sym Hl) Fq t s a t' s' D2 D1 Ha HT) as (_ & _ & (new & -> & ->) & _).
    rewrite replies_app, <- IH. reflexivity.
Qed.

Lemma replies_by_content (f : mtype * list value -> list (mtype * list value)) (r : party) :
  (forall log d, py_replies r (log ++ [d]) = f (content d)) -> forall new log,
  replies_to (py_replies r) log new = flat_map f (map content new).
Proof.
  intros H. induction new as [|d new IH]; intros log; cbn [replies_to map flat_map]; [reflexivity|]. rewrite H, IH. reflexivity.
Qed.

Lemma firstn_prefix {A} k (l : list A) : exists r, l = firstn k l ++ r.
Proof. exists (skipn k l). rewrite firstn_skipn. reflexivity. Qed.

Lemma request_response s t f : Talk fuel p q hp hq s t -> (forall mv, ~ py_main q mv) ->
  (forall log d, py_replies q (log ++ [d]) = f (content d)) ->
  (exists k, map content (w_log (sd_world s)) = firstn k (flat_map f (sd_sent s)))
  /\ (sd_wire s = [] -> sd_wire t = [] -> map content (w_log (sd_world s)) = flat_map f (sd_sent s)).
Proof.
  intros H Hm Hf. pose proof (talk_answers s t H Hm) as ES. rewrite (replies_by_content f q Hf) in ES.
  destruct (talk_order s t H) as ((j & E1) & (k & E2) & A & B). split.
  - rewrite E2, ES, E1. destruct (firstn_prefix j (sd_sent s)) as (r & Er).
    set (X := flat_map f (firstn j (sd_sent s))). exists (Nat.min k (length X)).
    assert (flat_map f (sd_sent s) = X ++ flat_map f r) as -> by (unfold X; rewrite Er at 1; apply flat_map_app).
    rewrite firstn_app. replace (Nat.min k (length X) - length X)%nat with O by lia. cbn [firstn]. rewrite app_nil_r.
    destruct (Nat.min_spec k (length X)) as [(L & ->)|(L & ->)]; [reflexivity|].
    rewrite firstn_all, firstn_all2 by lia. reflexivity.
  - intros W1 W2. destruct (A W1) as (EA & _). destruct (B W2) as (EB & _). rewrite EB, ES, EA. reflexivity.
Qed.

(** Two programs that answer everything. *)
Lemma replies_count (r : party) : (forall log d, py_replies r (log ++ [d]) <> []) -> forall new log,
  (length new <= length (replies_to (py_replies r) log new))%nat.
Proof.
  intros H. induction new as [|d new IH]; intros log; cbn [replies_to length]; [lia|]. rewrite app_length.
  specialize (IH (log ++ [d])). specialize (H log d). destruct (py_replies r (log ++ [d])); [congruence|]. cbn [length]. lia.
Qed.

Lemma talk_counts s t : Talk fuel p q hp hq s t ->
  (forall log d, py_replies p (log ++ [d]) <> []) -> (forall log d, py_replies q (log ++ [d]) <> []) ->
  (length (sd_sent s) + length (sd_sent t) = 0
   \/ length (w_log (sd_world s)) + length (w_log (sd_world t)) < length (sd_sent s) + length (sd_sent t))%nat.
Proof.
  intros H Rp Rq. induction H as [|s t s' H IH HS|s t t' H IH HS|s t a s' t' H IH Ha HT|s t a s' t' H IH Ha HT].
  - left. reflexivity.
  - assert (HO : Talk fuel p q hp hq s t) by exact H. apply talk_order in HO as ((j & E1) & (k & E2) & _).
    destruct HS as [w sent wire msgs wire' HM HW]. cbn [sd_sent sd_world] in *. rewrite app_length.
    assert (length (w_log w) <= length (sd_sent t))%nat
      by (rewrite <- (map_length content), E2, firstn_length; lia).
    assert (length (w_log (sd_world t)) <= length sent)%nat by (rewrite <- (map_length content), E1, firstn_length; lia).
    lia.
  - assert (HO : Talk fuel p q hp hq s t) by exact H. apply talk_order in HO as ((j & E1) & (k & E2) & _).
    destruct HS as [w sent wire msgs wire' HM HW]. cbn [sd_sent sd_world] in *. rewrite app_length.
    assert (length (w_log (sd_world s)) <= length sent)%nat
      by (rewrite <- (map_length content), E2, firstn_length; lia).
    assert (length (w_log w) <= length (sd_sent s))%nat by (rewrite <- (map_length content), E1, firstn_length; lia).
    lia.
  - destruct (talk_directions s t H) as (D1 & D2).
    destruct (turn_keeps fuel p q hp hq Hp Hq Hl Fp s t a s' t' D1 D2 Ha HT) as (_ & D2' & (new & El & Es) & Ew & Et).
    destruct (direction_order q p hp t' s' Hp (eq_sym Hl) D2') as ((k & E) & _).
    apply (f_equal (@length _)) in E. rewrite map_length, firstn_length, Et, El, app_length in E.
    pose proof (replies_count p Rp new (w_log (sd_world s))). rewrite El, Es, Ew, Et, !app_length.
    destruct IH as [IH|IH]; [|lia]. left.
    assert (length new = 0)%nat as E0 by lia. destruct new; [cbn [replies_to length]; lia | discriminate].
  - destruct (talk_directions s t H) as (D1 & D2).
    destruct (turn_keeps fuel q p hq hp Hq Hp (eq_sym Hl) Fq t s a t' s' D2 D1 Ha HT) as (_ & D2' & (new & El & Es) & Ew & Et).
    destruct (direction_order p q hq s' t' Hq Hl D2') as ((k & E) & _).
    apply (f_equal (@length _)) in E. rewrite map_length, firstn_length, Et, El, app_length in E.
    pose proof (replies_count q Rq new (w_log (sd_world t))). rewrite El, Es, Ew, Et, !app_length.
    destruct IH as [IH|IH]; [|lia]. left.
    assert (length new = 0)%nat as E0 by lia. destruct new; [cbn [replies_to length]; lia | discriminate].
Qed.

Lemma never_silent s t : Talk fuel p q hp hq s t ->
  (forall log d, py_replies p (log ++ [d]) <> []) -> (forall log d, py_replies q (log ++ [d]) <> []) ->
  sd_sent s <> [] \/ sd_sent t <> [] -> sd_wire s <> [] \/ sd_wire t <> [].
Proof.
  intros H Rp Rq Hne. destruct (talk_order s t H) as (_ & _ & A & B).
  destruct (sd_wire s) eqn:W1; [|left; discriminate]. destruct (sd_wire t) eqn:W2; [|right; discriminate]. exfalso.
  destruct (A eq_refl) as (EA & _). destruct (B eq_refl) as (EB & _).
  apply (f_equal (@length _)) in EA, EB. rewrite map_length in EA, EB.
  destruct (talk_counts s t H Rp Rq) as [C|C]; [|lia].
  destruct (sd_sent s), (sd_sent t); cbn [length] in C; try lia. destruct Hne; congruence.
Qed.
End Talk.

(** ** Draining the wires *)
Section Drain.
Context (fuel : nat) (p q : party) (hp hq : handler).
Hypothesis Hp : party_ok p q.
Hypothesis Hq : party_ok q p.
Hypothesis Hl : little (py_config p) = little (py_config q).
Hypothesis Fp : (Z.to_nat (capacity (py_coll p)) < fuel)%nat.
Hypothesis Fq : (Z.to_nat (capacity (py_coll q)) < fuel)%nat.
Context (port : list Z -> adapter).
Hypothesis Hport : forall P, bytes_ok P -> eager (port P) P.

Lemma direction_wire (a b : party) hb s t : party_ok b a -> direction a b hb s t -> bytes_ok (sd_wire s).
Proof.
  intros (Hst & _) (HM & S & got & HS & ES & _). pose proof (send_all_bytes _ _ _ _ Hst HM HS) as HB.
  rewrite ES in HB. apply Forall_app in HB. apply HB.
Qed.

Lemma turns_trans s t s1 t1 s2 t2 : Turns fuel p q port s t s1 t1 -> Turns fuel p q port s1 t1 s2 t2 ->
  Turns fuel p q port s t s2 t2.
Proof.
  intros H1 H2. induction H2 as [|s1 t1 sa ta sb tb H2 IH HT|s1 t1 sa ta sb tb H2 IH HT]; [exact H1| |].
  - exact (turns_l _ _ _ _ _ _ _ _ _ _ (IH H1) HT).
  - exact (turns_r _ _ _ _ _ _ _ _ _ _ (IH H1) HT).
Qed.

Lemma turns_talk s t s' t' : Talk fuel p q hp hq s t -> Turns fuel p q port s t s' t' -> Talk fuel p q hp hq s' t'.
Proof.
  intros H HT. induction HT as [|s t s1 t1 s2 t2 HT IH HU|s t s1 t1 s2 t2 HT IH HU]; [exact H| |]; specialize (IH H).
  - destruct (talk_directions fuel p q hp hq Hp Hq Hl Fp Fq s1 t1 IH) as (_ & D).
    apply (talk_turn_l fuel p q hp hq s1 t1 (port (sd_wire t1)) s2 t2 IH); [|exact HU].
    apply Hport. exact (direction_wire _ _ _ _ _ Hp D).
  - destruct (talk_directions fuel p q hp hq Hp Hq Hl Fp Fq s1 t1 IH) as (D & _).
    apply (talk_turn_r fuel p q hp hq s1 t1 (port (sd_wire s1)) s2 t2 IH); [|exact HU].
    apply Hport. exact (direction_wire _ _ _ _ _ Hq D).
Qed.

(** [q] reads until nothing is left. *)
Lemma drain_r n : forall s t, (length (sd_wire s) <= n)%nat -> Talk fuel p q hp hq s t ->
  exists s' t', Turns fuel p q port s t s' t' /\ sd_wire s' = [] /\ sd_sent s' = sd_sent s.
Proof.
  induction n as [|n IH]; intros s t Hn H.
  - exists s, t. split; [constructor|]. destruct (sd_wire s); [auto | cbn [length] in Hn; lia].
  - destruct (sd_wire s) as [|b l] eqn:EW; [exists s, t; split; [constructor | auto]|]. rewrite <- EW in *.
    destruct (talk_directions fuel p q hp hq Hp Hq Hl Fp Fq s t H) as (D1 & D2).
    pose proof (Hport _ (direction_wire _ _ _ _ _ Hq D1)) as He.
    destruct (turn_possible fuel q p hq hp Hq Hp (eq_sym Hl) Fq t s _ D2 D1 (proj1 He)) as (t1 & s1 & HT & Hlt).
    specialize (Hlt He). rewrite EW in Hlt at 1. specialize (Hlt ltac:(discriminate)).
    assert (Turns fuel p q port s t s1 t1) as HU by exact (turns_r _ _ _ _ _ _ _ _ _ _ (turns_none _ _ _ _ s t) HT).
    destruct (turn_keeps fuel q p hq hp Hq Hp (eq_sym Hl) Fq t s _ t1 s1 D2 D1 (proj1 He) HT) as (_ & _ & _ & _ & Es).
    destruct (IH s1 t1) as (s2 & t2 & HU2 & EW2 & Es2); [lia | exact (turns_talk _ _ _ _ H HU)|].
    exists s2, t2. split; [exact (turns_trans _ _ _ _ _ _ HU HU2) | split; congruence].
Qed.

Lemma drain_l n : (forall log, py_replies p log = []) ->
  forall s t, (length (sd_wire t) <= n)%nat -> sd_wire s = [] -> Talk fuel p q hp hq s t ->
  exists s' t', Turns fuel p q port s t s' t' /\ sd_wire s' = [] /\ sd_wire t' = [] /\ sd_sent s' = sd_sent s.
Proof.
  intros Hr. induction n as [|n IH]; intros s t Hn HW H.
  - exists s, t. split; [constructor|]. destruct (sd_wire t); [auto | cbn [length] in Hn; lia].
  - destruct (sd_wire t) as [|b l] eqn:EW; [exists s, t; split; [constructor | auto]|]. rewrite <- EW in *.
    destruct (talk_directions fuel p q hp hq Hp Hq Hl Fp Fq s t H) as (D1 & D2).
    pose proof (Hport _ (direction_wire _ _ _ _ _ Hp D2)) as He.
    destruct (turn_possible fuel p q hp hq Hp Hq Hl Fp s t _ D1 D2 (proj1 He)) as (s1 & t1 & HT & Hlt).
    specialize (Hlt He). rewrite EW in Hlt at 1. specialize (Hlt ltac:(discriminate)).
    assert (Turns fuel p q port s t s1 t1) as HU by exact (turns_l _ _ _ _ _ _ _ _ _ _ (turns_none _ _ _ _ s t) HT).
    assert (forall log new, replies_to (py_replies p) log new = []) as Hr'.
    { intros log new. revert log. induction new as [|d new IHn]; intros log; cbn [replies_to]; [reflexivity|].
      rewrite Hr, IHn. reflexivity. }
    assert (sd_wire s1 = [] /\ sd_sent s1 = sd_sent s) as (EW1 & Es1).
    { clear - HT Hr' HW. destruct HT as [w sent wire wq sentq wireq w1 k w2 r wire' E1 E2 EWr]. cbn [sd_wire sd_sent] in *.
      rewrite Hr' in *. cbn [send_all] in EWr. injection EWr as <-. split; [exact HW | apply app_nil_r]. }
    destruct (IH s1 t1) as (s2 & t2 & HU2 & EW2 & EW2' & Es2); [lia | exact EW1 | exact (turns_talk _ _ _ _ H HU)|].
    exists s2, t2. split; [exact (turns_trans _ _ _ _ _ _ HU HU2) |]. split; [exact EW2|]. split; [exact EW2'|congruence].
Qed.

Lemma completes s t : (forall log, py_replies p log = []) -> Talk fuel p q hp hq s t ->
  exists s' t', Turns fuel p q port s t s' t' /\ Talk fuel p q hp hq s' t'
    /\ sd_wire s' = [] /\ sd_wire t' = [] /\ sd_sent s' = sd_sent s
    /\ map content (w_log (sd_world t')) = sd_sent s /\ map content (w_log (sd_world s')) = sd_sent t'.
Proof.
  intros Hr H. destruct (drain_r _ s t (Nat.le_refl _) H) as (s1 & t1 & T1 & W1 & S1).
  pose proof (turns_talk _ _ _ _ H T1) as H1.
  destruct (drain_l _ Hr s1 t1 (Nat.le_refl _) W1 H1) as (s2 & t2 & T2 & W2 & W2' & S2).
  pose proof (turns_talk _ _ _ _ H1 T2) as H2.
  destruct (talk_order fuel p q hp hq Hp Hq Hl Fp Fq s2 t2 H2) as (_ & _ & A & B).
  exists s2, t2. split; [exact (turns_trans _ _ _ _ _ _ T1 T2)|]. split; [exact H2|].
  destruct (A W2) as (EA & _). destruct (B W2') as (EB & _). rewrite EA. repeat split; congruence.
Qed.
End Drain.
