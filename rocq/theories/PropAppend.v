(** Property C103: interrupts that process messages in the midst of appendReceived. *)
From Verif Require Import TornAppendFindings Runs.

(** C103: without interrupts, the accesses are those of appendReceived of the other claims, whether or not the bytes fit. *)
Theorem C103_quiet :
  forall c coll, static_ok coll = true -> index_safe c (capacity coll) ->
  forall beh h0 ops S rs w o d fuel, tame beh -> history c coll beh (start coll h0) ops S rs w ->
  w_append fuel o c coll beh d [] w = (do r <- rx_append c coll d (w_rx w); Ok (World r (w_log w), [])).
Proof. exact quiet_append_lemma. Qed.
Print Assumptions C103_quiet.

(** Let the bytes fit behind the contents; and let the messages in the contents leave some bytes over when they are taken out, or
    let the receiver hold something and processMessages come at most once, or let the end of the contents be the front of the array.
    Then appendReceived, whatever accesses processMessages comes before, returns; what it and the calls of processMessages leave,
    return and make happen later is what separate calls do, the first of them before and the others after appendReceived. *)
Theorem C103_separate :
  forall c coll, static_ok coll = true -> index_safe c (capacity coll) ->
  forall beh h0 ops S rs w o d coming fuel, steady beh -> bool_free coll ->
  history c coll beh (start coll h0) ops S rs w ->
  bytes_ok d -> rb_pastEnd (er_buf (rx_recv (w_rx w))) + zlen d <= capacity coll ->
  (forall ms r, Scan coll (held w) ms r -> r <> [])
    \/ (held w <> [] /\ (count_occ Bool.bool_dec coming true <= 1)%nat)
    \/ rb_pastEnd (er_buf (rx_recv (w_rx w))) = 0 ->
  (Z.to_nat (capacity coll) < fuel)%nat ->
  exists w' ps qs v, w_append fuel o c coll beh d coming w = Ok (w', ps ++ qs)
    /\ history c coll beh w (map (fun _ => OpProcess) ps ++ OpAppend d :: map (fun _ => OpProcess) qs) d
         (map RetProcess ps ++ RetUnit :: map RetProcess qs) v
    /\ same_view coll w' v
    /\ (forall ops2 S2 rs2 w2, history c coll beh w' ops2 S2 rs2 w2 ->
          exists v2, history c coll beh v ops2 S2 rs2 v2 /\ same_view coll w2 v2)
    /\ (forall ops2 S2 rs2 v2, history c coll beh v ops2 S2 rs2 v2 ->
          exists w2, history c coll beh w' ops2 S2 rs2 w2 /\ same_view coll w2 v2).
Proof. exact torn_append_lemma. Qed.
Print Assumptions C103_separate.

(** A message and the first two bytes of another are held; processMessages comes twice while the rest is appended, and once when the
    rest belongs to the contents. *)
Example C103_case :
  (forall ms r, Scan test_basic [1; 1; 2; 10; 20; 30; 3; 4; 1; 1] ms r -> r <> [])
  /\ exists rs w w1,
  history (desktop true) test_basic quiet (start test_basic (Some hd1)) [OpAppend [1; 1; 2; 10; 20; 30; 3; 4; 1; 1]]
    [1; 1; 2; 10; 20; 30; 3; 4; 1; 1] rs w
  /\ held w = [1; 1; 2; 10; 20; 30; 3; 4; 1; 1]
  /\ rb_pastEnd (er_buf (rx_recv (w_rx w))) + 6 <= capacity test_basic
  /\ w_append 60 true (desktop true) test_basic quiet [2; 11; 21; 31; 3; 4]
       [false; true; false; false; false; false; true; false; false; false; false; false; true] w
     = Ok (w1, [Returned 1; Returned 0; Returned 1])
  /\ map content (w_log w1) = [(MessageB, map VInt [10; 20; 30]); (MessageB, map VInt [11; 21; 31])] /\ held w1 = [].
Proof.
  split; [exact some_left|]. do 3 eexists. split; [apply (checked_history 60); vm_compute; reflexivity|].
  split; [vm_compute; reflexivity|]. split; [apply Z.leb_le; vm_compute; reflexivity|].
  split; [vm_compute; reflexivity|]. split; vm_compute; reflexivity.
Qed.

(** Expected also of a receiver that holds nothing.  It is not so.  Let a new receiver be given bytes and process them to the last
    one, and let fewer bytes be appended next.  When processMessages comes after _begin has been set back and before _pastEnd, every
    message of before is delivered again; and _begin is left behind _pastEnd, which stops the program where a failed assertion does. *)
Theorem C103_again :
  forall c coll, static_ok coll = true -> index_safe c (capacity coll) ->
  forall beh h S w1 w r1 r o d fuel, steady beh -> (forall log, hr_throws (beh log) = false) -> bool_free coll ->
  bytes_ok S -> zlen S <= capacity coll ->
  returns c coll beh (OpAppend S) (start coll (Some h)) w1 r1 -> returns c coll beh OpProcess w1 w r -> held w = [] ->
  zlen d < zlen S -> (Z.to_nat (capacity coll) < fuel)%nat ->
  match mode c with
  | Aborting => w_append fuel o c coll beh d [false; false; false; true] w = AssertFail
  | _ => exists n w2, w_append fuel o c coll beh d [false; false; false; true] w = Ok (w2, [Returned n])
           /\ map content (w_log w2) = map content (w_log w) ++ map content (w_log w)
           /\ rb_begin (er_buf (rx_recv (w_rx w2))) = zlen S /\ rb_pastEnd (er_buf (rx_recv (w_rx w2))) = zlen d
  end.
Proof. exact again_lemma. Qed.
Print Assumptions C103_again.

(** One message, then the first three bytes of another: the first message is delivered twice, the space reported is more than the
    buffer has, and the next call of processMessages reads outside of the array. *)
Theorem C103_again_refuted :
  forall o, exists rs w w2,
  history (desktop false) test_basic quiet (start test_basic (Some hd1)) [OpAppend [1; 1; 2; 10; 20; 30; 3; 4]; OpProcess]
    [1; 1; 2; 10; 20; 30; 3; 4] rs w
  /\ held w = [] /\ map content (w_log w) = [(MessageB, map VInt [10; 20; 30])]
  /\ w_append 60 o (desktop false) test_basic quiet [1; 1; 2] [false; false; false; true] w = Ok (w2, [Returned 1])
  /\ map content (w_log w2) = [(MessageB, map VInt [10; 20; 30]); (MessageB, map VInt [10; 20; 30])]
  /\ rx_available test_basic (w_rx w2) = 56
  /\ forall fuel, (0 < fuel)%nat -> step fuel (desktop false) test_basic quiet OpProcess w2 = UB.
Proof. exact again_witness. Qed.
Print Assumptions C103_again_refuted.

(** The bytes must fit behind the contents: when these have to be moved, a message that processMessages took out of them meanwhile is
    put back and delivered again.  Here a single call of processMessages comes, the receiver holds more than the message, and no
    assertion fails. *)
Theorem C103_restored_refuted :
  forall o, exists n rs w w2 rs3 w3,
  history (desktop true) test_basic quiet (start test_basic (Some hd1))
    [OpAppend (repeat 9 20 ++ [1; 5; 2]); OpProcess; OpAppend (repeat 9 11 ++ [1; 1; 2; 10; 20; 30; 3; 4])]
    (repeat 9 20 ++ [1; 5; 2] ++ repeat 9 11 ++ [1; 1; 2; 10; 20; 30; 3; 4]) rs w
  /\ zlen (held w) + 10 <= capacity test_basic
  /\ w_append 60 o (desktop true) test_basic quiet (repeat 9 10) (repeat false n ++ [true]) w = Ok (w2, [Returned 1])
  /\ map content (w_log w2) = [(MessageB, map VInt [10; 20; 30])]
  /\ history (desktop true) test_basic quiet w2 [OpProcess] [] rs3 w3
  /\ map content (w_log w3) = [(MessageB, map VInt [10; 20; 30]); (MessageB, map VInt [10; 20; 30])].
Proof. exact restored_witness. Qed.
Print Assumptions C103_restored_refuted.
