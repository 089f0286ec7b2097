(** Property theorems: exceptions thrown while a message is sent. *)
From Verif Require Import ThrowLemmas.

(** C95: a send that throws has written a beginning of the frame, perhaps all of it; not all if the transmitter, when it
    throws, has not written all it was given and does not throw in writeFinished ... *)
Theorem C95_send :
  forall S (t : thrower S) out c coll m vs f s, writes_some t out ->
  static_ok coll = true -> sendable coll (m, vs) -> is_message_frame c coll m vs f ->
  exists s' thrown n, try_send c coll m t (combine (mt_fields m) vs) s = Ok (s', thrown)
    /\ out s' = out s ++ firstn n f /\ (n <= length f)%nat /\ (thrown = false -> n = length f)
    /\ (not_all t out -> thrown = true -> (n < length f)%nat).
Proof. exact @throwing_send. Qed.
Print Assumptions C95_send.

(** ... as is the case for VectorBuffer, whenever memory allocation fails. *)
Theorem C95_vector :
  forall M (grow : M -> list Z -> M * bool), writes_some (vector_th grow) snd /\ not_all (vector_th grow) snd.
Proof. exact @vector_writes_some. Qed.
Print Assumptions C95_vector.

Theorem C95_vrpn : forall P (port : P -> list Z -> P * option nat), writes_some (vrpn_th port) snd.
Proof. exact @vrpn_writes_some. Qed.
Print Assumptions C95_vrpn.

(** Of two composed transmitters, the second has written a beginning of what the first has written. *)
Theorem C95_composition :
  forall A B (t1 : thrower A) (t2 : thrower B) out1 out2 c coll m vs f s, writes_some t1 out1 -> writes_some t2 out2 ->
  static_ok coll = true -> sendable coll (m, vs) -> is_message_frame c coll m vs f ->
  exists s' thrown n k, try_send c coll m (compose_th t1 t2) (combine (mt_fields m) vs) s = Ok (s', thrown)
    /\ out1 (fst s') = out1 (fst s) ++ firstn n f /\ out2 (snd s') = out2 (snd s) ++ firstn k f
    /\ (k <= n <= length f)%nat /\ (thrown = false -> k = length f).
Proof. exact @composed_send. Qed.
Print Assumptions C95_composition.

Theorem C95_composed :
  forall A B (t1 : thrower A) (t2 : thrower B) out1 out2, writes_some t1 out1 -> writes_some t2 out2 ->
  writes_some (compose_th t1 t2) (fun s => out1 (fst s)) /\ writes_some (compose_th t1 t2) (fun s => out2 (snd s)).
Proof. exact @compose_writes_some. Qed.
Print Assumptions C95_composed.

(** A program that catches the exceptions, writes idle bytes after each and goes on, with the same message or others:
    every message sent without an exception is delivered, once and in order, each other one once or not at all ... *)
Theorem C95_delivered :
  forall c coll, static_ok coll = true -> index_safe c (capacity coll) ->
  forall S (t : thrower S) out cs beh h0 s log s' wire w, writes_some t out ->
  little cs = little c -> tame beh -> attempts cs coll t s log s' ->
  Forall (fun a => sendable coll (at_message a)) log -> Forall (careful cs coll) log ->
  out s' = out s ++ wire -> processed c coll beh h0 wire w ->
  held w = [] /\ exists parts, map content (completed beh [] (w_log w)) = concat parts
    /\ Forall2 (fun a part => part = [at_message a] \/ part = [] /\ at_thrown a = true) log parts.
Proof. exact @retry_lemma. Qed.
Print Assumptions C95_delivered.

(** ... and if the transmitter has not written all when it throws, not at all: a message tried until it is sent is
    delivered once. *)
Theorem C95_once :
  forall c coll, static_ok coll = true -> index_safe c (capacity coll) ->
  forall S (t : thrower S) out cs beh h0 s log s' wire w, writes_some t out -> not_all t out ->
  little cs = little c -> tame beh -> attempts cs coll t s log s' ->
  Forall (fun a => sendable coll (at_message a)) log -> Forall (careful cs coll) log ->
  out s' = out s ++ wire -> processed c coll beh h0 wire w ->
  held w = [] /\ map content (completed beh [] (w_log w)) = map at_message (filter (fun a => negb (at_thrown a)) log).
Proof. exact @once_lemma. Qed.
Print Assumptions C95_once.

(** A vector is refused memory for the fifth byte of a message, which is sent again after fourteen idle bytes. *)
Definition tries : list attempt :=
  [Attempt (MessageD, map VInt [10; 20; 30]) true (repeat 0 14); Attempt (MessageD, map VInt [10; 20; 30]) false [];
   Attempt (MessageEmpty, []) false [7]].

Example C95_case :
  (exists s', attempts (desktop true) test_basic (vector_th (refuse_once 4)) (0%nat, []) tries s'
     /\ snd s' = [1;3;2;10] ++ repeat 0 14 ++ [1;3;2;10;20;30;3;4] ++ [1;4;2;3;4] ++ [7])
  /\ Forall (careful (desktop true) test_basic) tries
  /\ exists w, processed (desktop true) test_basic quiet (Some hd1) ([1;3;2;10] ++ repeat 0 14 ++ [1;3;2;10;20;30;3;4] ++ [1;4;2;3;4] ++ [7]) w
       /\ map content (w_log w) = [(MessageD, map VInt [10; 20; 30]); (MessageEmpty, [])].
Proof.
  split; [|split].
  - eexists. split; [|].
    + eapply tried; [vm_compute; reflexivity | vm_compute; reflexivity|]. eapply tried; [vm_compute; reflexivity | vm_compute; reflexivity|].
      eapply tried; [vm_compute; reflexivity | vm_compute; reflexivity|]. apply tried_all.
    + vm_compute. reflexivity.
  - assert (clean (desktop true) test_basic (MessageD, map VInt [10; 20; 30])) as HC by (apply (clean_at _ _ _ _ 3); reflexivity).
    repeat (apply Forall_cons || apply Forall_nil); (split; [apply no_code; reflexivity|]); try discriminate.
    intros _. split; [|split; [apply no_code; reflexivity | exact HC]].
    split; [apply no_code; reflexivity|]. split; [apply no_code; reflexivity | apply Z.leb_le; reflexivity].
  - eexists. split.
    + apply (outcome_processed 60) with (n := 2) (ops := [OpAppend ([1;3;2;10] ++ repeat 0 14 ++ [1;3;2;10;20;30;3;4] ++ [1;4;2;3;4] ++ [7])]).
      vm_compute. reflexivity.
    + vm_compute. reflexivity.
Qed.

(** Expected: a message whose sending threw an exception has not been sent.  It is not so: with either envelope and two
    composed VectorBuffers, of which the second gets no memory for the last byte, the first has the whole message; sent
    again, it is delivered twice. *)
Theorem C95_twice_refuted :
  forall e, exists coll (grow1 grow2 : nat -> list Z -> nat * bool) s' log w,
  mc_env coll = e /\ static_ok coll = true
  /\ attempts (desktop true) coll (compose_th (vector_th grow1) (vector_th grow2)) ((0%nat, []), (0%nat, [])) log s'
  /\ Forall (careful (desktop true) coll) log
  /\ map at_message log = [(MessageEmpty, []); (MessageEmpty, [])] /\ map at_thrown log = [true; false]
  /\ processed (desktop true) coll quiet (Some hd1) (snd (fst s')) w
  /\ map content (w_log w) = [(MessageEmpty, []); (MessageEmpty, [])].
Proof. exact twice_witness. Qed.
Print Assumptions C95_twice_refuted.
