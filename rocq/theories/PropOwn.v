(** Property C80: envelopes written by an application.

    [well_behaved oc]: whatever bytes are held, the envelope's checkBufferForMessage asks only for
    what is there, and when it says that there is a message, the id is set, the message is there in full,
    and the check says so again.  [matched oc]: what its sendMessage sends is what its
    checkBufferForMessage finds, and it waits while that is incomplete.  [own_history], [own_send]:
    a receiver and a sender of a collection with the envelope.  The envelope names a serialization policy;
    [policy_reads], [policy_total], [policy_matched] are the conditions on that one, see C81. *)
From Verif Require Import OwnClaims Protocol Runs.

(** C80: with a well-behaved envelope every operation returns, whatever bytes arrive, if the
    deserializer makes values of any bytes ... *)
Theorem C80_safe :
  forall c oc, own_static_ok oc = true -> index_safe c (own_capacity oc) ->
  forall beh h0 ops S rs v o, well_behaved oc -> steady beh -> policy_total c oc ->
  own_history c oc beh (own_start oc h0) ops S rs v -> own_allowed oc o v ->
  exists v' r, own_step (Z.to_nat (own_capacity oc) + 1) c oc beh o v = Ok (v', r).
Proof. exact own_safe_claim. Qed.
Print Assumptions C80_safe.

(** ... processMessages calls the handler with exactly the messages the check finds, decoded from the
    bytes at the declared place, and removes as many bytes as declared; without a handler it does
    nothing ... *)
Theorem C80_effect :
  forall c oc, own_static_ok oc = true -> index_safe c (own_capacity oc) ->
  forall beh h0 ops S rs v, well_behaved oc -> policy_reads c oc -> tame beh ->
  own_history c oc beh (own_start oc h0) ops S rs v ->
  forall v' r, own_returns c oc beh OpProcess v v' r ->
  match rx_functor (w_rx v) with
  | None => v' = v /\ r = RetProcess (Returned 0)
  | Some _ => exists w k, size_type (own_capacity oc) w
                /\ OProc w oc c beh (own_id v) (view v) (own_id v') (view v') k
                /\ r = RetProcess (spec_result k)
  end.
Proof. exact own_effect_claim. Qed.
Print Assumptions C80_effect.

(** ... send calls the transmitter with the bytes of the envelope's sendMessage, and finished() once;
    a message type not in the collection does not compile ... *)
Theorem C80_send :
  forall c oc, own_static_ok oc = true -> forall m vs, has_types vs (mt_fields m) = true ->
  (In m (oc_types oc) ->
    exists f l, own_frame c oc m vs f /\ calls_bytes l = f
    /\ forall S (t : transmitter S) s,
         own_send c oc m t (combine (mt_fields m) vs) s = do s' <- run_calls t l s; tx_finished t s')
  /\ (~ In m (oc_types oc) ->
    forall S (t : transmitter S) s, own_send c oc m t (combine (mt_fields m) vs) s = Rejected).
Proof. exact own_send_claim. Qed.
Print Assumptions C80_send.

(** ... with a matched envelope and serialization policy, messages sent one after the other are handled in order and with
    their values, however their bytes are cut up and whenever processMessages is called: the
    messages handled so far are the first ones, and what is held with what has not arrived is what
    sending the others gives; and every operation returns ... *)
Theorem C80_in_order :
  forall c oc, own_static_ok oc = true -> index_safe c (own_capacity oc) ->
  forall cs beh h0 ops S rs v msgs B T, matched oc -> policy_matched cs c oc -> steady beh ->
  Forall (own_sendable oc) msgs -> own_send_all cs oc vector_tx msgs [] = Ok B ->
  own_history c oc beh (own_start oc h0) ops S rs v -> B = S ++ T ->
  (exists done rest, msgs = done ++ rest /\ map content (completed beh [] (w_log v)) = done
     /\ own_send_all cs oc vector_tx rest [] = Ok (held v ++ T))
  /\ forall o, own_allowed oc o v ->
       exists v' r, own_step (Z.to_nat (own_capacity oc) + 1) c oc beh o v = Ok (v', r).
Proof. exact own_in_order_claim. Qed.
Print Assumptions C80_in_order.

(** ... and when processMessages returns, less than the next message is left; if all bytes have arrived then
    all messages have been handled and nothing is left; it returns how many it handled, modulo 256 ... *)
Theorem C80_drained :
  forall c oc, own_static_ok oc = true -> index_safe c (own_capacity oc) ->
  forall cs beh h0 ops S rs v msgs B T v' k, matched oc -> policy_matched cs c oc -> steady beh ->
  Forall (own_sendable oc) msgs -> own_send_all cs oc vector_tx msgs [] = Ok B ->
  own_history c oc beh (own_start oc h0) ops S rs v -> B = S ++ T ->
  rx_has_handler (w_rx v) = true -> own_returns c oc beh OpProcess v v' (RetProcess (Returned k)) ->
  (forall m vs rest, msgs = map content (completed beh [] (w_log v')) ++ (m, vs) :: rest ->
     zlen (held v') < own_length oc m)
  /\ (T = [] -> map content (completed beh [] (w_log v')) = msgs /\ held v' = [])
  /\ k = zlen (completed beh (w_log v) (new_calls v v')) mod 256.
Proof. exact own_drained_claim. Qed.
Print Assumptions C80_drained.

(** ... Basic and BasicChecksum, written as such envelopes, are well-behaved and matched ... *)
Theorem C80_shipped :
  forall coll, static_ok coll = true ->
  own_static_ok (as_own coll) = true /\ well_behaved (as_own coll) /\ matched (as_own coll)
  /\ forall m, own_length (as_own coll) m = Z.of_nat (frame_size (mc_env coll) m).
Proof. exact shipped_good_claim. Qed.
Print Assumptions C80_shipped.

(** ... and a receiver or sender with one of them written so does what it does with the original. *)
Theorem C80_shipped_receiver :
  forall c coll, static_ok coll = true -> index_safe c (capacity coll) ->
  forall beh h0, tame beh ->
  own_start (as_own coll) h0 = start coll h0
  /\ forall ops S rs v, history c coll beh (start coll h0) ops S rs v ->
     forall fuel o, own_step fuel c (as_own coll) beh o v = step fuel c coll beh o v.
Proof. exact shipped_same_claim. Qed.
Print Assumptions C80_shipped_receiver.

Theorem C80_shipped_sender :
  forall c coll, static_ok coll = true ->
  forall T m (t : transmitter T) vs s, has_types vs (mt_fields m) = true ->
  own_send c (as_own coll) m t (combine (mt_fields m) vs) s = send c coll m t (combine (mt_fields m) vs) s.
Proof. exact @own_send_shipped. Qed.
Print Assumptions C80_shipped_sender.

(** The conditions on the check are needed.  Nothing checks that an id is set when it says that there
    is a message: without assertions that is undefined behaviour. *)
Theorem C80_no_id_refuted :
  exists oc, own_static_ok oc = true
  /\ own_run 20 (desktop false) oc quiet [OpAppend [1; 7; 8; 9]; OpProcess] (own_start oc (Some hd1)) = UB
  /\ own_run 20 (desktop true) oc quiet [OpAppend [1; 7; 8; 9]; OpProcess] (own_start oc (Some hd1)) = AssertFail.
Proof. exists (Own test_types nameless). vm_compute. auto. Qed.
Print Assumptions C80_no_id_refuted.

(** Nor that the message is there in full: the handler is called with bytes that have not arrived, then
    an assertion fails, or undefined behaviour. *)
Theorem C80_too_early_refuted :
  exists oc beh, own_static_ok oc = true
  /\ (exists w, own_run 20 (desktop true) oc beh [OpAppend [1]; OpProcess] (own_start oc (Some hd1))
        = Ok (w, [RetUnit; RetProcess Threw])
        /\ map content (w_log w) = [(MessageB, [VInt 0; VInt 0; VInt 0])])
  /\ own_run 20 (desktop true) oc quiet [OpAppend [1]; OpProcess] (own_start oc (Some hd1)) = AssertFail
  /\ own_run 20 (desktop false) oc quiet [OpAppend [1]; OpProcess] (own_start oc (Some hd1)) = UB.
Proof.
  exists (Own test_types hasty), (fun _ => HResult [] true). split; [reflexivity|]. split.
  - eexists. split; [vm_compute; reflexivity|]. reflexivity.
  - split; vm_compute; reflexivity.
Qed.
Print Assumptions C80_too_early_refuted.

(** A check that decodes the message in place finds it only once, but popMessage checks again inside its assertion:
    without assertions the message is handled, with them the program ends. *)
Theorem C80_in_place_refuted :
  exists oc B, own_static_ok oc = true
  /\ own_send (desktop true) oc MessageB vector_tx (combine (mt_fields MessageB) [VInt 7; VInt 8; VInt 9]) [] = Ok B
  /\ (exists w, own_run 20 (desktop false) oc quiet [OpAppend B; OpProcess] (own_start oc (Some hd1))
        = Ok (w, [RetUnit; RetProcess (Returned 1)])
        /\ map content (w_log w) = [(MessageB, [VInt 7; VInt 8; VInt 9])])
  /\ own_run 20 (desktop true) oc quiet [OpAppend B; OpProcess] (own_start oc (Some hd1)) = AssertFail.
Proof.
  exists (Own test_types flipped), [1; 248; 247; 246; 213]. split; [reflexivity|]. split; [reflexivity|]. split.
  - eexists. split; [vm_compute; reflexivity|]. reflexivity.
  - vm_compute. reflexivity.
Qed.
Print Assumptions C80_in_place_refuted.

(** An envelope of one byte, the id: well-behaved and matched.  Three messages arrive in pieces. *)
Definition bare_test := Own test_types (bare bitwise).
Definition three := [(MessageB, [VInt 7; VInt 8; VInt 9]); (MessageEmpty, []); (MessageA, [VInt 1; VInt 2; VInt 3])].
Example C80_case :
  own_static_ok bare_test = true /\ index_safe (desktop true) (own_capacity bare_test)
  /\ well_behaved bare_test /\ matched bare_test /\ policy_matched (desktop false) (desktop true) bare_test
  /\ policy_total (desktop true) bare_test /\ Forall (own_sendable bare_test) three
  /\ own_send_all (desktop true) bare_test vector_tx three [] = Ok [1; 7; 8; 9; 4; 0; 1; 2; 3; 0]
  /\ exists v v', own_history (desktop true) bare_test quiet (own_start bare_test (Some hd1))
                   [OpAppend [1; 7; 8; 9; 4; 0; 1]; OpProcess] [1; 7; 8; 9; 4; 0; 1]
                   [RetUnit; RetProcess (Returned 2)] v
     /\ held v = [0; 1] /\ map content (w_log v) = firstn 2 three
     /\ own_run 20 (desktop true) bare_test quiet [OpAppend [2; 3; 0]; OpProcess] v
          = Ok (v', [RetUnit; RetProcess (Returned 1)])
     /\ map content (w_log v') = three /\ held v' = [].
Proof.
  split; [reflexivity|]. split; [left; reflexivity|]. split; [apply bare_well_behaved|].
  split; [apply bare_matched; vm_compute; discriminate|].
  split; [apply bitwise_policy_matched; reflexivity|].
  split. { apply bitwise_policy_total; try reflexivity. intros m t Hm Ht ->. cbn in Hm. intuition subst; cbn in Ht; intuition discriminate. }
  split.
  { apply Forall_cons; [|apply Forall_cons; [|apply Forall_cons; [|apply Forall_nil]]]; (split; [cbn; auto 10 | reflexivity]). }
  split; [vm_compute; reflexivity|]. eexists. eexists. split.
  - apply (own_checked_history 20). vm_compute. reflexivity.
  - split; [vm_compute; reflexivity|]. split; [vm_compute; reflexivity|]. split; [vm_compute; reflexivity|]. split; reflexivity.
Qed.

(** Bytes that are no id are skipped by it. *)
Example C80_noise_case :
  exists v, own_run 20 (avr true) bare_test quiet [OpAppend [200; 9; 4; 3; 1]; OpProcess] (own_start bare_test (Some hd1))
    = Ok (v, [RetUnit; RetProcess (Returned 1)])
  /\ map content (w_log v) = [(MessageEmpty, [])] /\ held v = [3; 1].
Proof. eexists. split; [vm_compute; reflexivity|]. split; reflexivity. Qed.
