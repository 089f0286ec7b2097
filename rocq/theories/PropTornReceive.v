(** Property C104: interrupts that process messages in the midst of receiveFrom. *)
From Verif Require Import TornReceiveFindings Runs.

(** C104: without interrupts, the accesses are those of receiveFrom of the other claims, for every adapter. *)
Theorem C104_quiet :
  forall c coll, static_ok coll = true -> index_safe c (capacity coll) ->
  forall beh h0 ops S rs w o a fuel, tame beh -> history c coll beh (start coll h0) ops S rs w ->
  w_receive fuel o c coll beh a [] w = (do (r, n) <- rx_receive_from c coll a (w_rx w); Ok (World r (w_log w), n, [])).
Proof. exact quiet_receive_lemma. Qed.
Print Assumptions C104_quiet.

(** Let as many bytes as the adapter has available fit behind the contents; and let the messages in the contents leave some bytes
    over when they are taken out, or let the receiver hold something and processMessages come at most once, or let the end of the
    contents be the front of the array.  Then receiveFrom, whatever accesses processMessages comes before, takes all the adapter gives
    for that number and returns how many; what it and the calls of processMessages leave, return and make happen later is what
    separate calls do, the first of them before and the others after receiveFrom. *)
Theorem C104_separate :
  forall c coll, static_ok coll = true -> index_safe c (capacity coll) ->
  forall beh h0 ops S rs w o a coming fuel, steady beh -> bool_free coll ->
  history c coll beh (start coll h0) ops S rs w ->
  adapter_ok a -> rb_pastEnd (er_buf (rx_recv (w_rx w))) + ad_available a mod 256 <= capacity coll ->
  (forall ms r, Scan coll (held w) ms r -> r <> [])
    \/ (held w <> [] /\ (count_occ Bool.bool_dec coming true <= 1)%nat)
    \/ rb_pastEnd (er_buf (rx_recv (w_rx w))) = 0 ->
  (Z.to_nat (capacity coll) < fuel)%nat ->
  exists w' d ps qs v, d = fst (ad_read a (ad_available a mod 256))
    /\ w_receive fuel o c coll beh a coming w = Ok (w', zlen d, ps ++ qs)
    /\ history c coll beh w (map (fun _ => OpProcess) ps ++ OpReceive a :: map (fun _ => OpProcess) qs) d
         (map RetProcess ps ++ RetCount (zlen d) :: map RetProcess qs) v
    /\ same_view coll w' v
    /\ (forall ops2 S2 rs2 w2, history c coll beh w' ops2 S2 rs2 w2 ->
          exists v2, history c coll beh v ops2 S2 rs2 v2 /\ same_view coll w2 v2)
    /\ (forall ops2 S2 rs2 v2, history c coll beh v ops2 S2 rs2 v2 ->
          exists w2, history c coll beh w' ops2 S2 rs2 w2 /\ same_view coll w2 v2).
Proof. exact torn_receive_lemma. Qed.
Print Assumptions C104_separate.

(** A message and the first two bytes of another are held; processMessages comes three times while the rest is received: before the
    size is read, while the bytes are stored, and when they belong to the contents. *)
Example C104_case :
  adapter_ok (arduino_adapter 6 (port_read [2; 11; 21; 31; 3; 4]))
  /\ (forall ms r, Scan test_basic [1; 1; 2; 10; 20; 30; 3; 4; 1; 1] ms r -> r <> [])
  /\ exists rs w w1,
  history (desktop true) test_basic quiet (start test_basic (Some hd1)) [OpAppend [1; 1; 2; 10; 20; 30; 3; 4; 1; 1]]
    [1; 1; 2; 10; 20; 30; 3; 4; 1; 1] rs w
  /\ held w = [1; 1; 2; 10; 20; 30; 3; 4; 1; 1]
  /\ rb_pastEnd (er_buf (rx_recv (w_rx w))) + 6 <= capacity test_basic
  /\ w_receive 60 true (desktop true) test_basic quiet (arduino_adapter 6 (port_read [2; 11; 21; 31; 3; 4]))
       [false; true; false; false; false; false; false; true; false; false; false; false; false; false; true] w
     = Ok (w1, 6, [Returned 1; Returned 0; Returned 1])
  /\ map content (w_log w1) = [(MessageB, map VInt [10; 20; 30]); (MessageB, map VInt [11; 21; 31])] /\ held w1 = [].
Proof.
  split; [apply arduino_port_ok, forallb_bytes; reflexivity|].
  split; [exact some_left|]. do 3 eexists. split; [apply (checked_history 60); vm_compute; reflexivity|].
  split; [vm_compute; reflexivity|]. split; [apply Z.leb_le; vm_compute; reflexivity|].
  split; [vm_compute; reflexivity|]. split; vm_compute; reflexivity.
Qed.

(** Expected also when the contents have to be moved.  It is not so: a message that nobody sent is delivered, and the one that was
    sent is lost.  A byte of noise and the beginning of a message were received from a VRPN port, and the noise was dropped; the port
    is asked for as many bytes as there is room for, so that what is held is moved to the front byte by byte.  Without interrupts the
    message sent is delivered.  When processMessages comes after the second byte was moved, the first byte held is no start code any
    more, and a message is found among the values of the one sent. *)
Theorem C104_invented_refuted :
  forall o, exists n rs w rs1 w1 w2 rs3 w3,
  history (desktop true) test_basic quiet (start test_basic (Some hd1))
    [OpReceive (vrpn_adapter (port_read [9; 1; 2; 2; 1; 4; 2; 3; 4])); OpProcess] [9; 1; 2; 2; 1; 4; 2; 3; 4] rs w
  /\ w_log w = [] /\ held w = [1; 2; 2; 1; 4; 2; 3; 4]
  /\ history (desktop true) test_basic quiet w
       [OpReceive (vrpn_adapter (port_read [0; 0; 0; 0; 0; 0; 0; 3; 4])); OpProcess] [0; 0; 0; 0; 0; 0; 0; 3; 4] rs1 w1
  /\ map (fun d => fst (content d)) (w_log w1) = [MessageC]
  /\ w_receive 60 o (desktop true) test_basic quiet (vrpn_adapter (port_read [0; 0; 0; 0; 0; 0; 0; 3; 4])) (repeat false n ++ [true]) w
     = Ok (w2, 9, [Returned 1])
  /\ map (fun d => fst (content d)) (w_log w2) = [MessageEmpty]
  /\ history (desktop true) test_basic quiet w2 [OpProcess] [] rs3 w3
  /\ map (fun d => fst (content d)) (w_log w3) = [MessageEmpty] /\ held w3 = [].
Proof. exact invented_witness. Qed.
Print Assumptions C104_invented_refuted.

(** Nor is it so of a receiver that holds nothing, though the bytes fit behind the end: as in C103_again, the message processed before
    is delivered again, and the next call of processMessages is undefined. *)
Theorem C104_again_refuted :
  forall o, exists rs w w2,
  history (desktop false) test_basic quiet (start test_basic (Some hd1))
    [OpReceive (arduino_adapter 8 (port_read [1; 1; 2; 10; 20; 30; 3; 4])); OpProcess] [1; 1; 2; 10; 20; 30; 3; 4] rs w
  /\ held w = [] /\ map content (w_log w) = [(MessageB, map VInt [10; 20; 30])]
  /\ rb_pastEnd (er_buf (rx_recv (w_rx w))) + 3 <= capacity test_basic
  /\ w_receive 60 o (desktop false) test_basic quiet (arduino_adapter 3 (port_read [1; 1; 2]))
       [false; false; false; false; false; true] w = Ok (w2, 3, [Returned 1])
  /\ map content (w_log w2) = [(MessageB, map VInt [10; 20; 30]); (MessageB, map VInt [10; 20; 30])]
  /\ step 60 (desktop false) test_basic quiet OpProcess w2 = UB.
Proof. exact received_again_witness. Qed.
Print Assumptions C104_again_refuted.
