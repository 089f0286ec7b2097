(** Property C79: two programs sending messages to each other. *)
From Verif Require Import DuplexLemmas PollLemmas Runs Protocol.

(** C79: two programs, each with its own collection, sending messages of their own accord and from
    their handlers, in any order of sends and turns, each turn reading any number of the waiting
    bytes.  At any time each has got the first messages the other one sent, in order; all of
    them if no bytes are waiting, and then none are held. *)
Theorem C79_in_order :
  forall fuel p q hp hq, party_ok p q -> party_ok q p -> little (py_config p) = little (py_config q) ->
  (Z.to_nat (capacity (py_coll p)) < fuel)%nat -> (Z.to_nat (capacity (py_coll q)) < fuel)%nat ->
  forall s t, Talk fuel p q hp hq s t ->
  (exists k, map content (w_log (sd_world t)) = firstn k (sd_sent s))
  /\ (exists k, map content (w_log (sd_world s)) = firstn k (sd_sent t))
  /\ (sd_wire s = [] -> map content (w_log (sd_world t)) = sd_sent s /\ held (sd_world t) = [])
  /\ (sd_wire t = [] -> map content (w_log (sd_world s)) = sd_sent t /\ held (sd_world s) = []).
Proof. exact talk_order. Qed.
Print Assumptions C79_in_order.

(** Another turn is always possible: the calls return and the answers can be sent. *)
Theorem C79_turn_possible :
  forall fuel p q hp hq, party_ok p q -> party_ok q p -> little (py_config p) = little (py_config q) ->
  (Z.to_nat (capacity (py_coll p)) < fuel)%nat -> (Z.to_nat (capacity (py_coll q)) < fuel)%nat ->
  forall s t a, Talk fuel p q hp hq s t -> serves a (sd_wire t) -> exists s' t', Turn fuel p q a s t s' t'.
Proof. exact talk_turn. Qed.
Print Assumptions C79_turn_possible.

(** If one of them only answers, and its answers [f] depend on the message only, the other one gets
    the answers to its messages, in order ... *)
Theorem C79_request_response :
  forall fuel p q hp hq, party_ok p q -> party_ok q p -> little (py_config p) = little (py_config q) ->
  (Z.to_nat (capacity (py_coll p)) < fuel)%nat -> (Z.to_nat (capacity (py_coll q)) < fuel)%nat ->
  forall s t f, Talk fuel p q hp hq s t -> (forall mv, ~ py_main q mv) ->
  (forall log d, py_replies q (log ++ [d]) = f (content d)) ->
  (exists k, map content (w_log (sd_world s)) = firstn k (flat_map f (sd_sent s)))
  /\ (sd_wire s = [] -> sd_wire t = [] -> map content (w_log (sd_world s)) = flat_map f (sd_sent s)).
Proof. exact request_response. Qed.
Print Assumptions C79_request_response.

(** ... and if the other one does not answer the answers, then from any state turns through ports
    that give at least one of the waiting bytes lead to a state in which nothing is waiting:
    everything sent has been delivered. *)
Theorem C79_completes :
  forall fuel p q hp hq, party_ok p q -> party_ok q p -> little (py_config p) = little (py_config q) ->
  (Z.to_nat (capacity (py_coll p)) < fuel)%nat -> (Z.to_nat (capacity (py_coll q)) < fuel)%nat ->
  forall port, (forall P, bytes_ok P -> eager (port P) P) ->
  forall s t, (forall log, py_replies p log = []) -> Talk fuel p q hp hq s t ->
  exists s' t', Turns fuel p q port s t s' t' /\ Talk fuel p q hp hq s' t'
    /\ sd_wire s' = [] /\ sd_wire t' = [] /\ sd_sent s' = sd_sent s
    /\ map content (w_log (sd_world t')) = sd_sent s /\ map content (w_log (sd_world s')) = sd_sent t'.
Proof. exact completes. Qed.
Print Assumptions C79_completes.

(** If both handlers answer every message, a single message keeps the wires busy for ever. *)
Theorem C79_never_silent :
  forall fuel p q hp hq, party_ok p q -> party_ok q p -> little (py_config p) = little (py_config q) ->
  (Z.to_nat (capacity (py_coll p)) < fuel)%nat -> (Z.to_nat (capacity (py_coll q)) < fuel)%nat ->
  forall s t, Talk fuel p q hp hq s t ->
  (forall log d, py_replies p (log ++ [d]) <> []) -> (forall log d, py_replies q (log ++ [d]) <> []) ->
  sd_sent s <> [] \/ sd_sent t <> [] -> sd_wire s <> [] \/ sd_wire t <> [].
Proof. exact never_silent. Qed.
Print Assumptions C79_never_silent.

(** A client asking a server on a machine with 16 bit int and another collection: MessageB is answered by
    MessageD with the same values and a MessageEmpty, everything else is not answered. *)
Definition answer (mv : mtype * list value) : list (mtype * list value) :=
  if mtype_eqb (fst mv) MessageB then [(MessageD, snd mv); (MessageEmpty, [])] else [].
Definition last_answer (log : list delivery) : list (mtype * list value) :=
  match rev log with d :: _ => if has_types (d_values d) (mt_fields (d_message d)) then answer (content d) else [] | [] => [] end.
Definition client := Party (desktop true) test_checksum quiet (sendable test_basic) (fun _ => []).
Definition server := Party (avr true) test_basic quiet (fun _ => False) last_answer.
Definition answering := Party (desktop true) test_basic quiet (fun _ => False) (fun _ => [(MessageEmpty, [])]).
Definition requests := [(MessageA, [VInt 1; VInt 2; VInt 3]); (MessageB, [VInt 7; VInt 8; VInt 9])].
Example C79_case :
  party_ok client server /\ party_ok server client /\ party_ok answering answering
  /\ flat_map answer requests = [(MessageD, [VInt 7; VInt 8; VInt 9]); (MessageEmpty, [])]
  /\ exists s1 t1 s t, Talk 60 client server hd1 hd2 s1 t1 /\ sd_wire s1 = [7;8;9;3;4] /\ sd_wire t1 = []
       /\ map content (w_log (sd_world t1)) = [(MessageA, [VInt 1; VInt 2; VInt 3])]
       /\ Talk 60 client server hd1 hd2 s t /\ sd_sent s = requests /\ sd_wire s = [] /\ sd_wire t = []
       /\ map content (w_log (sd_world s)) = [(MessageD, [VInt 7; VInt 8; VInt 9]); (MessageEmpty, [])].
Proof.
  split; [|split; [|split; [|split; [reflexivity|]]]].
  - split; [reflexivity|]. split; [left; reflexivity|]. split; [exact quiet_steady|]. split; [reflexivity|]. split; [auto|].
    intros log. constructor.
  - split; [reflexivity|]. split; [right; vm_compute; discriminate|]. split; [exact quiet_steady|]. split; [reflexivity|].
    split; [intros mv []|]. intros log. cbn [py_replies server].
    unfold last_answer. destruct (rev log) as [|d l]; [constructor|]. destruct (has_types _ _) eqn:E; [|constructor].
    unfold answer, content. cbn [fst snd]. destruct (mtype_eqb (d_message d) MessageB) eqn:EB; [|constructor].
    assert (d_message d = MessageB) as Em by (apply mtype_eqb_eq; exact EB). rewrite Em in E.
    constructor; [|constructor; [|constructor]]; split; cbn [fst snd]; [cbn; auto 10 | exact E | cbn; auto 10 | reflexivity].
  - split; [reflexivity|]. split; [left; reflexivity|]. split; [exact quiet_steady|]. split; [reflexivity|].
    split; [intros mv []|]. intros log. constructor; [|constructor]. split; [cbn; auto 10 | reflexivity].
  - eexists. eexists. eexists. eexists.
    match goal with |- ?T /\ _ => assert (H1 : T) end.
    { eapply talk_turn_r with (a := arduino_adapter 12 (fifo_read [1;0;2;1;2;3;0;3;4;1;1;2;7;8;9;3;4])).
      - eapply talk_send_l; [apply talk_start|]. apply (sends client server _ _ _ requests).
        + apply Forall_cons; [|apply Forall_cons; [|apply Forall_nil]]; (split; [cbn; auto 10 | reflexivity]).
        + vm_compute. reflexivity.
      - cbn [sd_wire]. refine (proj1 (proj2 (fifo_eager _ _))). repeat constructor; discriminate.
      - eapply turn; [vm_compute; reflexivity..]. }
    split; [exact H1|]. split; [reflexivity|]. split; [reflexivity|]. split; [reflexivity|]. split.
    { eapply talk_turn_l with (a := vrpn_adapter (fifo_read [1;3;2;7;8;9;3;33;4;1;4;2;3;10;4])).
      - eapply talk_turn_r with (a := arduino_adapter 5 (fifo_read [7;8;9;3;4])).
        + exact H1.
        + cbn [sd_wire]. refine (proj1 (proj2 (fifo_eager _ _))). repeat constructor; discriminate.
        + eapply turn; [vm_compute; reflexivity..].
      - cbn [sd_wire]. refine (proj1 (proj1 (fifo_eager _ _))). repeat constructor; discriminate.
      - eapply turn; [vm_compute; reflexivity..]. }
    repeat split; reflexivity.
Qed.
