(** Property theorems: bytes arriving while processMessages is at work. *)
From Verif Require Import ArrivalWitness ArrivalHistory Runs.

(** C92: when bytes arrive by an interrupt routine, or another thread, that keeps to the reported space, at any of the
    calls processMessages makes on its buffer - but not while the fields of a message are read, and beginning with SOH, or not more than one byte, when
    they arrive between the buffer having been found empty and its size being asked for - processMessages returns, and its
    effect, now and later, is that of some sequence of separate calls of appendReceived and processMessages. *)
Theorem C92_arrivals :
  forall c coll, static_ok coll = true -> index_safe c (capacity coll) ->
  forall beh h0 ops S rs w coming fuel, steady beh -> bool_free coll ->
  history c coll beh (start coll h0) ops S rs w ->
  Forall fits coming -> Forall harmless coming ->
  (Z.to_nat (capacity coll) * (1 + length coming) < fuel)%nat ->
  exists w' rest d r, a_process fuel c coll beh (AWorld w coming []) = Ok (AWorld w' rest d, r)
    /\ exists ops' rs' v, separate ops' /\ history c coll beh w ops' d rs' v
         /\ same_view coll w' v /\ r = ends_with rs' w v
         /\ (forall ops2 S2 rs2 w2, history c coll beh w' ops2 S2 rs2 w2 ->
               exists v2, history c coll beh v ops2 S2 rs2 v2 /\ same_view coll w2 v2)
         /\ (forall ops2 S2 rs2 v2, history c coll beh v ops2 S2 rs2 v2 ->
               exists w2, history c coll beh w' ops2 S2 rs2 w2 /\ same_view coll w2 v2).
Proof. exact arrivals_lemma. Qed.
Print Assumptions C92_arrivals.

(** When nothing arrives it is processMessages as in the other claims. *)
Theorem C92_nothing :
  forall c coll, static_ok coll = true -> index_safe c (capacity coll) ->
  forall beh h0 ops S rs w fuel, steady beh -> bool_free coll ->
  history c coll beh (start coll h0) ops S rs w -> (Z.to_nat (capacity coll) < fuel)%nat ->
  exists w' r v, a_process fuel c coll beh (AWorld w [] []) = Ok (AWorld w' [] [], r)
    /\ returns c coll beh OpProcess w v (RetProcess r) /\ same_view coll w' v.
Proof. exact nothing_arrives. Qed.
Print Assumptions C92_nothing.

(** The end of a message and the beginning of the next arrive while the first is looked for, the rest after it has been
    found: two messages delivered by one call.  Then a byte that is not SOH, after the buffer has been found empty. *)
Definition in_pieces : list arrival :=
  [at_moment Between [30; 3]; silent; at_moment Between [4; 1; 4]] ++ repeat silent 20 ++ [at_moment Between [2; 3; 4]]
  ++ repeat (at_moment Emptied [9]) 60.

Example C92_case :
  Forall fits in_pieces /\ Forall harmless in_pieces
  /\ exists S rs w, history (desktop true) test_basic quiet (start test_basic (Some hd1)) [OpAppend [1; 1; 2; 10; 20]] S rs w
  /\ exists w' rest, a_process 2000 (desktop true) test_basic quiet (AWorld w in_pieces [])
         = Ok (AWorld w' rest [30; 3; 4; 1; 4; 2; 3; 4; 9], Returned 2)
       /\ map content (w_log w') = [(MessageB, map VInt [10; 20; 30]); (MessageEmpty, [])].
Proof.
  split; [|split].
  - apply all_fits. unfold in_pieces. cbn [app repeat].
    repeat (apply Forall_cons; [first [left; reflexivity | right; eexists; eexists; split; [|reflexivity]; apply bytes_ok_ok; reflexivity]|]).
    apply Forall_nil.
  - unfold in_pieces. cbn [app repeat].
    repeat (apply Forall_cons; [split; intros n; [reflexivity | left; first [apply at_moment_one; reflexivity | apply Z.leb_le; reflexivity]]|]). apply Forall_nil.
  - eexists. eexists. eexists. split; [apply (checked_history 60); vm_compute; reflexivity|].
    eexists. eexists. split; [vm_compute; reflexivity|]. vm_compute. reflexivity.
Qed.

(** Expected also for what arrives between the buffer having been found empty and its size being asked for.  It is not so:
    with either envelope, bytes that come then are taken to begin a message whatever the first one is, and a message is
    delivered of bytes of which separate calls deliver none; with assertions the program is aborted after the delivery. *)
Theorem C92_emptied_refuted :
  forall e, exists coll coming w d w' rest,
  mc_env coll = e /\ static_ok coll = true /\ bool_free coll
  /\ Forall fits coming /\ Forall (fun f => forall n, f Reading n = []) coming
  /\ w = start coll (Some hd1)
  /\ a_process 200 (desktop true) coll quiet (AWorld w coming []) = AssertFail
  /\ a_process 200 (desktop false) coll quiet (AWorld w coming []) = Ok (AWorld w' rest d, Returned 1)
  /\ map content (w_log w') = [(MessageEmpty, [])]
  /\ forall ops rs v, history (desktop false) coll quiet w ops d rs v -> w_log v = [].
Proof. exact emptied_witness. Qed.
Print Assumptions C92_emptied_refuted.

(** Expected also while the fields of a message are read.  It is not so: bytes that come then may move the contents of the
    buffer under the iterator, and the handler gets the values of another message. *)
Theorem C92_reading_refuted :
  exists coming S rs w d w' rest,
  Forall fits coming /\ Forall (fun f => forall n, f Emptied n = []) coming
  /\ history (desktop true) test_basic quiet (start test_basic (Some hd1)) [OpAppend S] S rs w
  /\ a_process 2000 (desktop true) test_basic quiet (AWorld w coming []) = Ok (AWorld w' rest d, Returned 3)
  /\ map content (w_log w')
     = [(MessageMaxArity, map VInt (nine 10)); (MessageMaxArity, map VInt (nine 30)); (MessageMaxArity, map VInt (nine 30))]
  /\ forall ops rs v, history (desktop true) test_basic quiet (start test_basic (Some hd1)) ops (S ++ d) rs v ->
       map content (w_log v) <> map content (w_log w').
Proof. exact reading_witness. Qed.
Print Assumptions C92_reading_refuted.
