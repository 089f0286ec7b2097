(** Property C106: interrupts that process messages in the midst of getBufferAvailableSpace. *)
From Verif Require Import TornAskLemmas Runs.

(** C106: without interrupts it answers as in the other claims. *)
Theorem C106_quiet :
  forall fuel o c coll beh w, w_available fuel o c coll beh [] w = Ok (rx_available coll (w_rx w), w, []).
Proof. exact quiet_ask_lemma. Qed.
Print Assumptions C106_quiet.

(** processMessages comes before any of the two reads.  The answer is the space there is at one of two moments: after both, if _pastEnd
    is read first ([o]), otherwise between them; and as many bytes can be appended when it is given. *)
Theorem C106_available :
  forall c coll, static_ok coll = true -> index_safe c (capacity coll) ->
  forall beh h0 ops S rs w o coming fuel, steady beh -> bool_free coll ->
  history c coll beh (start coll h0) ops S rs w -> (Z.to_nat (capacity coll) < fuel)%nat ->
  exists w1 w2 ps qs x, w_available fuel o c coll beh coming w = Ok (x, w2, ps ++ qs)
    /\ history c coll beh w (map (fun _ => OpProcess) ps) [] (map RetProcess ps) w1
    /\ history c coll beh w1 (map (fun _ => OpProcess) qs) [] (map RetProcess qs) w2
    /\ x = rx_available coll (w_rx (if o then w2 else w1))
    /\ forall d, bytes_ok d -> zlen d <= x -> exists w3, history c coll beh w2 [OpAppend d] d [RetUnit] w3.
Proof. exact ask_lemma. Qed.
Print Assumptions C106_available.

(** A message is held and processed between the two reads: 43 of 51 bytes are free before, 51 after. *)
Example C106_case : exists rs w w2 v2,
  history (desktop true) test_basic quiet (start test_basic (Some hd1)) [OpAppend [1; 1; 2; 10; 20; 30; 3; 4]] [1; 1; 2; 10; 20; 30; 3; 4] rs w
  /\ w_available 60 true (desktop true) test_basic quiet [false; true] w = Ok (51, w2, [Returned 1])
  /\ w_available 60 false (desktop true) test_basic quiet [false; true] w = Ok (43, v2, [Returned 1]).
Proof.
  do 4 eexists. split; [apply (checked_history 60); vm_compute; reflexivity|]. split; vm_compute; reflexivity.
Qed.
