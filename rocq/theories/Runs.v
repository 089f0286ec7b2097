(** Executable histories: used to exhibit concrete runs in examples. *)
From Verif Require Export PartialLemmas FeedLemmas ReentryLemmas AdapterLemmas CorruptionLemmas Protocol SpecLink.

Definition allowedb (coll : collection) (o : op) (w : world) : bool :=
  match o with
  | OpAppend d => forallb is_byte d && (zlen d <=? rx_available coll (w_rx w))
  | OpReceive _ => false
  | _ => true
  end.

Lemma allowedb_ok coll o w : allowedb coll o w = true -> allowed coll o w.
Proof.
  destruct o; cbn; try discriminate; auto. rewrite andb_true_iff, Z.leb_le. intros [H1 H2].
  split; [apply forallb_bytes; assumption | assumption].
Qed.

Fixpoint checked (fuel : nat) (c : config) (coll : collection) (beh : hbehav) (ops : list op) (w : world)
  : option (world * list Z * list opret) :=
  match ops with
  | [] => Some (w, [], [])
  | o :: rest =>
      if allowedb coll o w then
        match step fuel c coll beh o w with
        | Ok (w1, r) =>
            match checked fuel c coll beh rest w1 with
            | Some (w2, s, rs) => Some (w2, received coll beh o w w1 ++ s, r :: rs)
            | None => None
            end
        | _ => None
        end
      else None
  end.

Lemma checked_history fuel c coll beh : forall ops w w' s rs,
  checked fuel c coll beh ops w = Some (w', s, rs) -> history c coll beh w ops s rs w'.
Proof.
  induction ops as [|o ops IH]; intros w w' s rs H; cbn [checked] in H.
  - assert (w = w' /\ s = [] /\ rs = []) as (<- & -> & ->) by (conj; congruence). constructor.
  - destruct (allowedb coll o w) eqn:Ea; [|discriminate]. apply allowedb_ok in Ea.
    destruct (step fuel c coll beh o w) as [[w1 r]| | | |] eqn:Es; try discriminate.
    destruct (checked fuel c coll beh ops w1) as [[[w2 s2] rs2]|] eqn:Ec; [|discriminate].
    assert (w2 = w' /\ s = received coll beh o w w1 ++ s2 /\ rs = r :: rs2) as (<- & -> & ->) by (conj; congruence).
    pose proof (hist_snoc c coll beh w [] [] [] w o r w1 (hist_nil _ _ _ w) Ea (ex_intro _ fuel Es)) as H1.
    cbn [app] in H1. pose proof (history_app c coll beh _ _ _ _ _ _ _ _ _ H1 (IH _ _ _ _ Ec)) as H2. exact H2.
Qed.

(** A receiver given [ops] from the start, and processMessages at the end. *)
Definition outcome_of (fuel : nat) (c : config) (coll : collection) (beh : hbehav) (h0 : option handler) (ops : list op)
  : option (list Z * world * Z) :=
  match checked fuel c coll beh ops (start coll h0) with
  | Some (w1, s, rs) =>
      if rx_has_handler (w_rx w1) then
        match step fuel c coll beh OpProcess w1 with
        | Ok (w, RetProcess (Returned n)) => Some (s ++ received coll beh OpProcess w1 w, w, n)
        | _ => None
        end
      else None
  | None => None
  end.

Lemma outcome_processed fuel c coll beh h0 ops s w n :
  outcome_of fuel c coll beh h0 ops = Some (s, w, n) -> processed c coll beh h0 s w.
Proof.
  unfold outcome_of. intros H.
  destruct (checked fuel c coll beh ops (start coll h0)) as [[[w1 s1] rs]|] eqn:Ec; [|discriminate].
  destruct (rx_has_handler (w_rx w1)) eqn:Eh; [|discriminate].
  destruct (step fuel c coll beh OpProcess w1) as [[w2 [|k|[k|]]]| | | |] eqn:Es; try discriminate.
  assert (s1 ++ received coll beh OpProcess w1 w2 = s /\ w2 = w) as (<- & <-) by (split; congruence).
  exists ops, s1, rs, w1, k. conj; auto. - apply (checked_history fuel), Ec. - exists fuel. exact Es.
Qed.

Lemma quiet_tame : tame quiet.
Proof. intros log a H. destruct H. Qed.
Lemma quiet_steady : steady quiet.
Proof. intros log a H. destruct H. Qed.
Definition hd1 : handler := Handler 1 1.
Definition hd2 : handler := Handler 2 7.

(** Messages without a start code inside their frame, by computation. *)
Lemma clean_at c coll m vs i : nth_error (mc_types coll) i = Some m ->
  existsb (mtype_eqb m) (firstn i (mc_types coll)) = false ->
  existsb (Z.eqb 1) (tl (spec_frame (mc_env coll) (Z.of_nat i) (spec_payload (little c) (mt_fields m) vs))) = false ->
  clean c coll (m, vs).
Proof.
  intros H1 H2 H3 f (id & Hid & Hmin & ->). cbn [fst snd] in *.
  assert (id = Z.of_nat i) as ->.
  - assert (has_id coll m (Z.of_nat i)) as Hi by (split; [lia | rewrite Nat2Z.id; exact H1]).
    specialize (Hmin _ Hi). destruct Hid as (I1 & I2).
    destruct (Z.eq_dec id (Z.of_nat i)) as [E|E]; [exact E|]. exfalso.
    assert (existsb (mtype_eqb m) (firstn i (mc_types coll)) = true) as H; [|congruence].
    apply existsb_exists. exists m. split; [|apply mtype_eqb_eq; reflexivity].
    apply (nth_error_In _ (Z.to_nat id)). rewrite <- I2.
    rewrite <- (firstn_skipn i (mc_types coll)) at 2. rewrite nth_error_app1; [reflexivity|].
    rewrite firstn_length. assert (i < length (mc_types coll))%nat by (apply nth_error_Some; congruence). lia.
  - intros HI. assert (existsb (Z.eqb 1) (tl (spec_frame (mc_env coll) (Z.of_nat i) (spec_payload (little c) (mt_fields m) vs))) = true)
      as H; [|congruence]. apply existsb_exists. exists 1. split; [exact HI | reflexivity].
Qed.
