(** The arities of the checked-in headers and those of the model. *)
From Coq Require Import Lia.
From Verif Require Export GenerateHeaders.
From Verif Require Import Transmit Handlers.
From Coq Require Import List.
Local Open Scope string_scope.

Lemma send_args_arities {S} secs limit d2 d3 n c coll m (t : transmitter S) args s :
  read_send_header send_overloads_h = Some (n, secs) ->
  read_config_header arity_config_h = Some (("FUSION_MAX_LIST_SIZE", limit), d2, d3) ->
  ~ (exists sec, In sec secs /\ (sec_guard sec <= limit)%nat /\ sec_guard sec = length args) ->
  send_args c coll m t args s = Rejected.
Proof.
  intros H1 H2 H3. destruct checked_in_sends as (secs' & E1 & E2 & _). rewrite E1 in H1. injection H1 as <- <-.
  rewrite checked_in_limits in H2. injection H2 as <- <- <-.
  unfold send_args. destruct (Nat.leb_spec (length args) 9) as [Hl|Hl]; [|reflexivity]. exfalso. apply H3.
  assert (In (length args) (map sec_guard secs')) as Hin by (rewrite E2; apply in_seq; lia).
  apply in_map_iff in Hin as (sec & Hg & Hin). exists sec. repeat split; [exact Hin | lia | exact Hg].
Qed.

Lemma default_handler_arities fs m :
  read_partial_header partial_handler_base_h = Some fs ->
  (partial_dispatch [] m = Ok None <-> exists f, In f fs /\ length (hf_values f) = length (mt_fields m)).
Proof.
  intros H. destruct checked_in_handlers as (fs' & E & HF). rewrite E in H. injection H as <-.
  unfold partial_dispatch, invocable. split.
  - intros Hd. destruct (Nat.leb_spec (length (mt_fields m)) 9) as [Hl|Hl]; [|rewrite Bool.andb_false_r in Hd; discriminate].
    assert (In (length (mt_fields m)) (seq 0 10)) as Hin by (apply in_seq; lia). clear - HF Hin.
    induction HF as [|k f ks fs Hf _ IH]; [contradiction|]. destruct Hin as [->|Hin].
    + exists f. split; [left; reflexivity | apply Hf].
    + destruct (IH Hin) as (g & G1 & G2). exists g. split; [right; exact G1 | exact G2].
  - intros (f & Hin & Hlen).
    assert (length (mt_fields m) < 10)%nat as Hl.
    { assert (exists k, In k (seq 0 10) /\ accepts_any k f) as (k & Hk & Ha).
      { clear - HF Hin. induction HF as [|k g ks fs Hf _ IH]; [contradiction|]. destruct Hin as [->|Hin].
        - exists k. split; [left; reflexivity | exact Hf].
        - destruct (IH Hin) as (j & J1 & J2). exists j. split; [right; exact J1 | exact J2]. }
      apply in_seq in Hk. destruct Ha as (Ha & _). lia. }
    replace (Nat.leb (length (mt_fields m)) 9) with true by (symmetry; apply Nat.leb_le; lia).
    replace (Nat.leb (Datatypes.S (length (mt_fields m))) 10) with true by (symmetry; apply Nat.leb_le; lia). reflexivity.
Qed.

Lemma invoke_arities d1 limit d3 c fns m :
  read_config_header arity_config_h = Some (d1, ("BOOST_FUSION_INVOKE_PROCEDURE_MAX_ARITY", limit), d3) ->
  (limit < 1 + length (mt_fields m))%nat ->
  parameter_dispatch c fns m = Rejected /\ partial_dispatch fns m = Rejected.
Proof.
  rewrite checked_in_limits. intros H. injection H as <- <- <-. intros Hl.
  unfold parameter_dispatch, partial_dispatch, invocable.
  destruct (Nat.leb_spec (Datatypes.S (length (mt_fields m))) 10); [lia | split; reflexivity].
Qed.
