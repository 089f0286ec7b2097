(** Property C93: messages sent while another one is being sent on the same transmitter. *)
From Verif Require Import NestedLemmas Runs Protocol.

(** C93: the bytes written are each message's frame in order, with the bytes of the messages sent before a call on the
    transmitter standing in front of that call's bytes; this for any transmitter that writes what it is given. *)
Theorem C93_bytes :
  forall S (t : transmitter S) (out : S -> list Z) fine c coll xs s s',
  (forall x s s', run_call t x s = Ok s' -> out s' = out s ++ call_bytes x) ->
  (forall s s', tx_finished t s = Ok s' -> out s' = out s) ->
  static_ok coll = true -> Forall (all_sendable coll) xs ->
  send_during_all fine c coll t xs s = Ok s' ->
  out s' = out s ++ flat_map (wire fine (little c) coll) xs.
Proof. exact sent_nested_lemma. Qed.
Print Assumptions C93_bytes.

(** The frames among them are those sent without interruption, checksums included. *)
Theorem C93_frames :
  forall fine c coll m vs, sendable coll (m, vs) ->
  is_message_frame c coll m vs (concat (cuts fine (little c) coll m vs)).
Proof. exact cuts_frame_lemma. Qed.
Print Assumptions C93_frames.

(** A VectorBuffer takes all of it. *)
Theorem C93_vector :
  forall fine c coll xs s, static_ok coll = true -> Forall (all_sendable coll) xs ->
  send_during_all fine c coll vector_tx xs s = Ok (s ++ flat_map (wire fine (little c) coll) xs).
Proof. exact vector_nested_lemma. Qed.
Print Assumptions C93_vector.

(** An I2C transmitter, when it gets through, has put the same bytes on the bus and holds none back. *)
Theorem C93_i2c :
  forall fine c coll xs s s', static_ok coll = true -> Forall (all_sendable coll) xs -> i2c_idle s ->
  send_during_all fine c coll i2c_tx xs s = Ok s' ->
  concat (i2c_bus s') = concat (i2c_bus s) ++ flat_map (wire fine (little c) coll) xs /\ i2c_idle s'.
Proof. exact i2c_nested_lemma. Qed.
Print Assumptions C93_i2c.

(** What a receiver delivers: exactly the messages in the middle of which none was sent, in the order of their bytes,
    if each of the others has no start code after its first byte and what stands in the place of its EOT (or STX) is
    none. *)
Theorem C93_delivered :
  forall fine c coll cs beh h0 xs w, static_ok coll = true -> index_safe c (capacity coll) -> tame beh ->
  little cs = little c -> Forall (all_sendable coll) xs ->
  Forall (fun x => benign fine (little cs) coll x = true) xs ->
  processed c coll beh h0 (flat_map (wire fine (little cs) coll) xs) w ->
  map content (completed beh [] (w_log w)) = flat_map (survivors fine (little cs) coll) xs /\ held w = [].
Proof. exact woven_lemma. Qed.
Print Assumptions C93_delivered.

(** All messages are delivered if none is sent in the middle of another. *)
Theorem C93_between :
  forall fine c coll cs beh h0 xs w, static_ok coll = true -> index_safe c (capacity coll) -> tame beh ->
  little cs = little c -> Forall (all_sendable coll) xs ->
  Forall (fun x => calm fine (little cs) coll x = true) xs ->
  processed c coll beh h0 (flat_map (wire fine (little cs) coll) xs) w ->
  Permutation (map content (completed beh [] (w_log w))) (flat_map (everything fine (little cs) coll) xs) /\ held w = [].
Proof. exact between_lemma. Qed.
Print Assumptions C93_between.

(** A [MessageD] during which a [MessageA] is sent after the first field, itself interrupted by an empty message, and an
    empty one before ETX; before its first byte another, and after its last a [MessageB]. *)
Ltac sendable_tac :=
  repeat match goal with
  | |- _ /\ _ => split
  | |- True => exact I
  | |- sendable _ _ => split; [cbn; auto 10 | reflexivity]
  | |- all_sendable _ ?x => let y := eval hnf in x in change x with y; cbn [all_sendable fold_right]
  | _ => progress cbn [all_sendable fold_right app repeat]
  end.
Definition nothing := Sending MessageEmpty [] [].
Definition in_the_middle := Sending MessageA [VInt (-5); VInt 200; VInt (-300)] [[]; []; []; []; []; [nothing]].
Definition nest := Sending MessageD (map VInt [40;50;60])
  [[nothing]; []; []; []; [in_the_middle]; []; [nothing]; []; [Sending MessageB (map VInt [7;8;9]) []]].
Example C93_case :
  all_sendable test_basic nest /\ benign false true test_basic nest = true /\ calm false true test_basic nest = false
  /\ wire false true test_basic nest
     = [1;4;2;3;4; 1;3;2;40; 1;0;2;251;200; 1;4;2;3;4; 212;254;3;4; 50;60; 1;4;2;3;4; 3;4; 1;1;2;7;8;9;3;4]
  /\ send_during_all false (desktop true) test_basic vector_tx [nest] [] = Ok (wire false true test_basic nest)
  /\ (exists w, processed (desktop true) test_basic quiet (Some hd1) (wire false true test_basic nest) w
      /\ map content (w_log w) = [(MessageEmpty, []); (MessageEmpty, []); (MessageEmpty, []); (MessageB, map VInt [7;8;9])])
  /\ calm true true test_checksum (Sending MessageD (map VInt [40;50;60]) [[nothing]; []; []; []; []; []; []; []; []; [nothing]]) = true.
Proof.
  split; [unfold nest, in_the_middle, nothing; sendable_tac|]. split; [vm_compute; reflexivity|]. split; [vm_compute; reflexivity|].
  split; [vm_compute; reflexivity|]. split; [vm_compute; reflexivity|]. split; [|vm_compute; reflexivity].
  eexists. split.
  - apply (outcome_processed 60) with (n := 4) (ops := [OpAppend (wire false true test_basic nest)]).
    vm_compute. reflexivity.
  - vm_compute. reflexivity.
Qed.

(** "Only messages that were sent are delivered, if the link damages nothing" is false when a message may be sent in the
    middle of another: with either envelope neither of the two messages sent is delivered, but a third. *)
Theorem C93_phantom_refuted :
  exists x vs, forall e, all_sendable (Collection test_types e) x
    /\ length (everything false true (Collection test_types e) x) = 2%nat
    /\ ~ In (MessageMaxArity, vs) (everything false true (Collection test_types e) x)
    /\ exists w, processed (desktop true) (Collection test_types e) quiet (Some hd1) (wire false true (Collection test_types e) x) w
         /\ map content (w_log w) = [(MessageMaxArity, vs)].
Proof.
  exists (Sending MessageMaxArity (map VInt [100;100;48;14;15;16;17;18;19]) [[];[];[];[];[];[];[Sending MessageB (map VInt [10;20;30]) []]]),
    (map VInt [100;100;48;1;1;2;10;20;30]).
  intros e. split; [sendable_tac|]. split; [destruct e; reflexivity|].
  split; [destruct e; cbn; intuition discriminate|]. destruct e; eexists.
  - split.
    + change (wire false true (Collection test_types Basic) _) with [1;5;2;100;100;48;1;1;2;10;20;30;3;4;14;15;16;17;18;19;3;4].
      apply (outcome_processed 60) with (n := 1) (ops := [OpAppend [1;5;2;100;100;48;1;1;2;10;20;30;3;4;14;15;16;17;18;19;3;4]]). vm_compute. reflexivity.
    + vm_compute. reflexivity.
  - split.
    + change (wire false true (Collection test_types BasicChecksum) _) with [1;5;2;100;100;48;1;1;2;10;20;30;3;67;4;14;15;16;17;18;19;3;102;4].
      apply (outcome_processed 60) with (n := 1) (ops := [OpAppend [1;5;2;100;100;48;1;1;2;10;20;30;3;67;4;14;15;16;17;18;19;3;102;4]]). vm_compute. reflexivity.
    + vm_compute. reflexivity.
Qed.
Print Assumptions C93_phantom_refuted.

(** "Messages of up to 255 bytes do not overrun the I2C transmitter's buffer" (C10) is false in this case. *)
Definition long_message := MType 0 [TRawN 0 150].
Definition long_basic := Collection [long_message] Basic.
Theorem C93_overrun_refuted :
  forall fine, exists x, all_sendable long_basic x /\ sizeof_bound long_basic long_message = 155
    /\ length (everything fine true long_basic x) = 2%nat
    /\ send_during fine (avr true) long_basic i2c_tx x i2c_init = UB.
Proof.
  intros fine. exists (Sending long_message [VRaw (repeat 0 150)]
    (repeat [] (if fine then 153 else 4) ++ [[Sending long_message [VRaw (repeat 0 150)] []]])).
  split; [destruct fine; sendable_tac|]. split; [reflexivity|].
  split; destruct fine; vm_compute; reflexivity.
Qed.
Print Assumptions C93_overrun_refuted.
