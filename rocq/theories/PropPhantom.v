(** Property C85: messages lost to phantoms, and a receiver that never gets in step. *)
From Verif Require Import Runs PhantomLemmas.

(** C85: wherever the frame of a message is received, the message is delivered, and what follows is dealt
    with as by a receiver that starts there; or the frame begins inside another frame [g] that the
    receiver did deliver, begun with earlier bytes [u]; or inside the beginning of one it still holds. *)
Theorem C85_lost :
  forall c coll, static_ok coll = true -> index_safe c (capacity coll) ->
  forall cs beh h0 pre f post m vs w, tame beh -> little cs = little c ->
  sendable coll (m, vs) -> is_message_frame cs coll m vs f ->
  processed c coll beh h0 (pre ++ f ++ post) w ->
  (exists l1 d l2 ms2, completed beh [] (w_log w) = l1 ++ d :: l2 /\ content d = (m, vs)
      /\ Scan coll post ms2 (held w) /\ Forall2 (delivers (little c)) ms2 l2)
  \/ (exists pre1 u g m' id p rest l1 d l2 ms2, pre = pre1 ++ u /\ u <> [] /\ u ++ f ++ post = g ++ rest
      /\ is_frame coll g m' id p /\ (length u < length g)%nat
      /\ completed beh [] (w_log w) = l1 ++ d :: l2 /\ delivers (little c) (Found m' id p) d
      /\ Scan coll rest ms2 (held w) /\ Forall2 (delivers (little c)) ms2 l2)
  \/ (exists pre1 u, pre = pre1 ++ u /\ u <> [] /\ held w = u ++ f ++ post).
Proof. exact lost_lemma. Qed.
Print Assumptions C85_lost.

(** MessageEmpty is lost when it falls into the place of the values of a MessageB (or of what may become a
    MessageMaxArity); otherwise it is delivered. *)
Example C85_lost_case :
  is_message_frame (desktop true) test_basic MessageEmpty [] [1;4;2;3;4] /\ sendable test_basic (MessageEmpty, [])
  /\ (exists w, processed (desktop true) test_basic quiet (Some hd1) ([9;1;1] ++ [1;4;2;3;4] ++ [1;1;2;5;6;7;3;4]) w
        /\ map content (completed quiet [] (w_log w)) = [(MessageEmpty, []); (MessageB, map VInt [5;6;7])])
  /\ (exists w, processed (desktop true) test_basic quiet (Some hd1) ([1;1;2] ++ [1;4;2;3;4] ++ [1;1;2;5;6;7;3;4]) w
        /\ map content (completed quiet [] (w_log w)) = [(MessageB, map VInt [1;4;2]); (MessageB, map VInt [5;6;7])])
  /\ (exists w, processed (desktop true) test_basic quiet (Some hd1) ([1;5;2] ++ [1;4;2;3;4] ++ []) w
        /\ completed quiet [] (w_log w) = [] /\ held w = [1;5;2;1;4;2;3;4]).
Proof.
  split; [|split; [split; [cbn; auto 10 | reflexivity]|split; [|split]]].
  - exists 4. split; [split; [lia | reflexivity]|]. split; [|reflexivity]. intros j (Hj & E).
    assert (j < 4 -> False) as HF; [|lia]. intros Hlt.
    assert (j = 0 \/ j = 1 \/ j = 2 \/ j = 3) as [->|[->|[->| ->]]] by lia; discriminate.
  - eexists. split; [apply (outcome_processed 60) with (n := 2) (ops := [OpAppend ([9;1;1] ++ [1;4;2;3;4] ++ [1;1;2;5;6;7;3;4])]); vm_compute; reflexivity|].
    vm_compute. reflexivity.
  - eexists. split; [apply (outcome_processed 60) with (n := 2) (ops := [OpAppend ([1;1;2] ++ [1;4;2;3;4] ++ [1;1;2;5;6;7;3;4])]); vm_compute; reflexivity|].
    vm_compute. reflexivity.
  - eexists. split; [apply (outcome_processed 60) with (n := 0) (ops := [OpAppend ([1;5;2] ++ [1;4;2;3;4] ++ [])]); vm_compute; reflexivity|].
    split; vm_compute; reflexivity.
Qed.

(** Whatever was received before, messages sent lead to handler calls: [k] messages with frames of at
    least [L] bytes to so many calls that [L k <= calls (max + L - 2) + max - 2], where [max] is the size
    of the longest frame. *)
Theorem C85_never_silent :
  forall c coll, static_ok coll = true -> index_safe c (capacity coll) ->
  forall cs beh h0 L pre msgs S w, tame beh ->
  (1 <= L)%nat -> (forall m, In m (mc_types coll) -> (L <= frame_size (mc_env coll) m)%nat) ->
  Forall (sendable coll) msgs -> send_all cs coll vector_tx msgs [] = Ok S ->
  processed c coll beh h0 (pre ++ S) w ->
  Z.of_nat L * zlen msgs
  <= zlen (completed beh [] (w_log w)) * (max_message_length coll + Z.of_nat L - 2) + (max_message_length coll - 2).
Proof. exact never_silent_lemma. Qed.
Print Assumptions C85_never_silent.

(** When all messages are of one size, at least half as many calls as messages sent. *)
Theorem C85_half :
  forall c coll, static_ok coll = true -> index_safe c (capacity coll) ->
  forall cs beh h0 M pre msgs S w, tame beh -> (forall m, In m (mc_types coll) -> frame_size (mc_env coll) m = M) ->
  Forall (sendable coll) msgs -> send_all cs coll vector_tx msgs [] = Ok S ->
  processed c coll beh h0 (pre ++ S) w ->
  zlen msgs <= 2 * zlen (completed beh [] (w_log w)).
Proof. exact half_lemma. Qed.
Print Assumptions C85_half.

(** After the beginning of a MessageC two messages lead to no call yet, four lead to two calls. *)
Example C85_never_silent_case :
  max_message_length test_basic = 17 /\ (forall m, In m (mc_types test_basic) -> (5 <= frame_size (mc_env test_basic) m)%nat)
  /\ send_all (desktop true) test_basic vector_tx (repeat (MessageEmpty, []) 2) [] = Ok [1;4;2;3;4;1;4;2;3;4]
  /\ (exists w, processed (desktop true) test_basic quiet (Some hd1) ([1;2;2] ++ [1;4;2;3;4;1;4;2;3;4]) w
        /\ completed quiet [] (w_log w) = [])
  /\ send_all (desktop true) test_basic vector_tx (repeat (MessageEmpty, []) 4) [] = Ok [1;4;2;3;4;1;4;2;3;4;1;4;2;3;4;1;4;2;3;4]
  /\ (exists w, processed (desktop true) test_basic quiet (Some hd1) ([1;2;2;0] ++ [1;4;2;3;4;1;4;2;3;4;1;4;2;3;4;1;4;2;3;4]) w
        /\ map content (completed quiet [] (w_log w)) = repeat (MessageEmpty, []) 4)
  /\ (exists w, processed (desktop true) test_basic quiet (Some hd1) ([1;5;2;1] ++ [1;4;2;3;4;1;4;2;3;4;1;4;2;3;4;1;4;2;3;4]) w
        /\ map content (completed quiet [] (w_log w))
           = (MessageMaxArity, map VInt [1;1;4;2;3;4;1;4;2]) :: repeat (MessageEmpty, []) 2).
Proof.
  split; [reflexivity|]. split; [intros m Hm; cbn in Hm; intuition; subst; vm_compute; lia|]. split; [vm_compute; reflexivity|].
  split; [|split; [vm_compute; reflexivity|split]].
  - eexists. split; [apply (outcome_processed 60) with (n := 0) (ops := [OpAppend ([1;2;2] ++ [1;4;2;3;4;1;4;2;3;4])]); vm_compute; reflexivity|].
    vm_compute. reflexivity.
  - eexists. split; [apply (outcome_processed 60) with (n := 4) (ops := [OpAppend ([1;2;2;0] ++ [1;4;2;3;4;1;4;2;3;4;1;4;2;3;4;1;4;2;3;4])]); vm_compute; reflexivity|].
    vm_compute. reflexivity.
  - eexists. split; [apply (outcome_processed 60) with (n := 3) (ops := [OpAppend ([1;5;2;1] ++ [1;4;2;3;4;1;4;2;3;4;1;4;2;3;4;1;4;2;3;4])]); vm_compute; reflexivity|].
    vm_compute. reflexivity.
Qed.

(** A receiver that joins in the middle need never get in step, with either envelope: it delivers another
    message for each one sent, for ever. *)
Theorem C85_in_step_refuted :
  forall e, exists coll m vs vs' k, mc_env coll = e /\ static_ok coll = true /\ sendable coll (m, vs) /\ vs' <> vs
    /\ (forall c beh h0 n W w, index_safe c (capacity coll) -> tame beh ->
        send_all c coll vector_tx (repeat (m, vs) (S n)) [] = Ok W -> processed c coll beh h0 (skipn k W) w ->
        map content (completed beh [] (w_log w)) = repeat (m, vs') n)
    /\ (forall n, exists W w, send_all (desktop true) coll vector_tx (repeat (m, vs) (S n)) [] = Ok W
        /\ processed (desktop true) coll quiet (Some (Handler 1 1)) (skipn k W) w).
Proof. exact never_in_step_refuted_lemma. Qed.
Print Assumptions C85_in_step_refuted.

(** Four messages with seven values, the first six bytes of the first one missed; three others come out. *)
Example C85_in_step_case :
  exists coll w, coll = Collection [MType 0 (repeat u8 7)] Basic
    /\ send (desktop true) coll (MType 0 (repeat u8 7)) vector_tx (combine (repeat u8 7) (map VInt [10;3;4;1;0;2;20])) []
       = Ok [1;0;2;10;3;4;1;0;2;20;3;4]
    /\ processed (desktop true) coll quiet (Some hd1) (skipn 6 (concat (repeat [1;0;2;10;3;4;1;0;2;20;3;4] 4))) w
    /\ map content (w_log w) = repeat (MType 0 (repeat u8 7), map VInt [20;3;4;1;0;2;10]) 3.
Proof.
  eexists. eexists. split; [reflexivity|]. split; [vm_compute; reflexivity|].
  split; [apply (outcome_processed 60) with (n := 1)
    (ops := [OpAppend (firstn 30 (skipn 6 (concat (repeat [1;0;2;10;3;4;1;0;2;20;3;4] 4)))); OpProcess;
             OpAppend (skipn 30 (skipn 6 (concat (repeat [1;0;2;10;3;4;1;0;2;20;3;4] 4))))]); vm_compute; reflexivity|].
  vm_compute. reflexivity.
Qed.
