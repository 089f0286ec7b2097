(** Property C81: serialization policies written by an application.

    [policy_matched cs c oc]: what the serializer writes for a message on machine [cs] is as long as its fields,
    and the deserializer makes the same values of it on machine [c]; this is what C80 asks of a
    policy for messages to arrive.  [policy_reads]: the deserializer reads no more than the bytes of the
    fields; [policy_total]: and makes values of any bytes. *)
From Verif Require Import OwnClaims Protocol Runs.

(** C81: it is enough to look at the fields one by one: the serializer writes sizeof(T) bytes for a field,
    whatever its state, and the deserializer makes the same value of them and stops behind them ... *)
Theorem C81_field_by_field :
  forall oc cs c,
  (forall m t v st rest, In m (oc_types oc) -> In t (mt_fields m) -> has_type v t = true -> bytes_ok rest ->
     let bs := concat (map write_bytes (fst (po_buffer (oe_policy (oc_env oc)) cs st (t, v)))) in
     length bs = fsize t /\ takes (po_read (oe_policy (oc_env oc)) c t) (bs ++ rest) = Some (Some (v, rest))) ->
  policy_matched cs c oc.
Proof. exact field_policy_matched. Qed.
Print Assumptions C81_field_by_field.

(** ... BitwiseCopy, written as such a policy, is matched between machines of the same byte order, reads
    only the fields and, bool fields aside, makes values of any bytes; it writes the values as
    in memory ... *)
Theorem C81_bitwise :
  forall oc, own_static_ok oc = true -> oe_policy (oc_env oc) = bitwise ->
  (forall c, policy_reads c oc)
  /\ (own_bool_free oc -> forall c, policy_total c oc)
  /\ (forall cs c, little cs = little c -> policy_matched cs c oc)
  /\ forall c m vs, has_types vs (mt_fields m) = true ->
     own_written c oc m vs = spec_payload (little c) (mt_fields m) vs.
Proof. exact bitwise_claim. Qed.
Print Assumptions C81_bitwise.

(** ... a policy that does not look at the machine is matched between all machines if it is on one,
    and the sender's calls are the same on all ... *)
Theorem C81_portable :
  forall oc c0, portable (oe_policy (oc_env oc)) -> policy_matched c0 c0 oc ->
  forall cs c, policy_matched cs c oc.
Proof. exact portable_claim. Qed.
Print Assumptions C81_portable.

Theorem C81_portable_send :
  forall oc, portable (oe_policy (oc_env oc)) ->
  forall c c' m T (t : transmitter T) contents s, own_send c oc m t contents s = own_send c' oc m t contents s.
Proof. exact portable_send_claim. Qed.
Print Assumptions C81_portable_send.

(** ... so messages arrive in order between machines of different byte order. *)
Theorem C81_portable_in_order :
  forall cs c c0 oc, own_static_ok oc = true -> index_safe c (own_capacity oc) ->
  forall beh h0 ops S rs v msgs B T, matched oc ->
  portable (oe_policy (oc_env oc)) -> policy_matched c0 c0 oc -> steady beh ->
  Forall (own_sendable oc) msgs -> own_send_all cs oc vector_tx msgs [] = Ok B ->
  own_history c oc beh (own_start oc h0) ops S rs v -> B = S ++ T ->
  (exists done rest, msgs = done ++ rest /\ map content (completed beh [] (w_log v)) = done
     /\ own_send_all cs oc vector_tx rest [] = Ok (held v ++ T))
  /\ forall o, own_allowed oc o v ->
       exists v' r, own_step (Z.to_nat (own_capacity oc) + 1) c oc beh o v = Ok (v', r).
Proof. exact portable_in_order_claim. Qed.
Print Assumptions C81_portable_in_order.

(** Nothing checks the conditions.  A serializer that writes fewer bytes than sizeof(T), with a deserializer
    that reads as few and makes the same values of them: the envelope still takes sizeof(T) bytes, and the message behind
    is lost. *)
Theorem C81_short_refuted :
  exists oc B, own_static_ok oc = true /\ well_behaved oc /\ matched oc
  /\ own_decodes (desktop true) oc MessageA (own_written (desktop true) oc MessageA [VInt 1; VInt 2; VInt 3])
       [VInt 1; VInt 2; VInt 3]
  /\ own_send_all (desktop true) oc vector_tx
       [(MessageA, [VInt 1; VInt 2; VInt 3]); (MessageB, [VInt 7; VInt 8; VInt 9])] [] = Ok B
  /\ exists w, own_run 20 (desktop true) oc quiet [OpAppend B; OpProcess] (own_start oc (Some hd1))
        = Ok (w, [RetUnit; RetProcess (Returned 1)])
     /\ map content (w_log w) = [(MessageA, [VInt 1; VInt 2; VInt 3])] /\ held w = [].
Proof.
  exists (Own test_types (bare compact)), [0; 1; 2; 3; 1; 7; 8; 9]. split; [reflexivity|].
  split; [apply bare_well_behaved|]. split; [apply bare_matched; vm_compute; discriminate|].
  split; [reflexivity|]. split; [reflexivity|]. eexists. split; [vm_compute; reflexivity|]. split; reflexivity.
Qed.
Print Assumptions C81_short_refuted.

(** A serializer may keep a state from one field to the next, a deserializer may not: one that writes
    differences cannot be read back.  The state starts anew with each message. *)
Theorem C81_stateful_refuted :
  exists oc B, own_static_ok oc = true /\ well_behaved oc /\ matched oc
  /\ own_send_all (desktop true) oc vector_tx
       [(MessageB, [VInt 7; VInt 8; VInt 9]); (MessageB, [VInt 7; VInt 8; VInt 9])] [] = Ok B
  /\ exists w, own_run 20 (desktop true) oc quiet [OpAppend B; OpProcess] (own_start oc (Some hd1))
        = Ok (w, [RetUnit; RetProcess (Returned 2)])
     /\ map content (w_log w) = [(MessageB, [VInt 7; VInt 1; VInt 1]); (MessageB, [VInt 7; VInt 1; VInt 1])].
Proof.
  exists (Own test_types (bare differences)), [1; 7; 1; 1; 1; 7; 1; 1]. split; [reflexivity|].
  split; [apply bare_well_behaved|]. split; [apply bare_matched; vm_compute; discriminate|].
  split; [reflexivity|]. eexists. split; [vm_compute; reflexivity|]. reflexivity.
Qed.
Print Assumptions C81_stateful_refuted.

(** A deserializer that reads more than the message reads past the end of the buffer, with or without
    assertions. *)
Theorem C81_long_refuted :
  exists oc, own_static_ok oc = true /\ well_behaved oc /\ matched oc
  /\ forall asserts, own_run 20 (desktop asserts) oc quiet [OpAppend [1; 7; 8; 9]; OpProcess] (own_start oc (Some hd1)) = UB.
Proof.
  exists (Own test_types (bare greedy)). split; [reflexivity|].
  split; [apply bare_well_behaved|]. split; [apply bare_matched; vm_compute; discriminate|].
  intros []; vm_compute; reflexivity.
Qed.
Print Assumptions C81_long_refuted.

(** Most significant byte first: sent by a big-endian machine and received by a little-endian one, and as
    BitwiseCopy does it. *)
Definition big_endian : config := Config 16 false Disabled Disabled Disabled.
Example C81_case :
  let oc := Own test_types (bare network) in
  own_static_ok oc = true /\ matched oc /\ portable network
  /\ (forall cs c, policy_matched cs c oc)
  /\ own_send_all big_endian oc vector_tx [(MessageA, [VInt 1; VInt 2; VInt 3])] [] = Ok [0; 1; 2; 0; 3]
  /\ own_send_all (desktop true) oc vector_tx [(MessageA, [VInt 1; VInt 2; VInt 3])] [] = Ok [0; 1; 2; 0; 3]
  /\ (exists w, own_run 20 (desktop true) oc quiet [OpAppend [0; 1; 2; 0; 3]; OpProcess] (own_start oc (Some hd1))
        = Ok (w, [RetUnit; RetProcess (Returned 1)])
        /\ map content (w_log w) = [(MessageA, [VInt 1; VInt 2; VInt 3])])
  /\ own_send_all big_endian (Own test_types (bare bitwise)) vector_tx [(MessageA, [VInt 1; VInt 2; VInt 3])] []
       = Ok [0; 1; 2; 0; 3]
  /\ exists w, own_run 20 (desktop true) (Own test_types (bare bitwise)) quiet [OpAppend [0; 1; 2; 0; 3]; OpProcess]
                 (own_start (Own test_types (bare bitwise)) (Some hd1))
        = Ok (w, [RetUnit; RetProcess (Returned 1)])
        /\ map content (w_log w) = [(MessageA, [VInt 1; VInt 2; VInt 768])].
Proof.
  intros oc. split; [reflexivity|]. split; [apply bare_matched; vm_compute; discriminate|].
  split; [split; reflexivity|]. split; [apply network_matched; reflexivity|].
  split; [reflexivity|]. split; [reflexivity|]. split; [|split; [reflexivity|]].
  - eexists. split; [vm_compute; reflexivity|]. reflexivity.
  - eexists. split; [vm_compute; reflexivity|]. reflexivity.
Qed.
