(** The repository's own test expectations, evaluated on the model.  These are tests of
    the model (does it say what the code is known to do), not proofs of properties. *)
From Verif Require Import Protocol Copies Handlers.

(** tests/Sizeof.cpp, tests/MessageLength.cpp *)
Example lengths_basic :
  map (fun i => get_message_length test_basic i) [0;1;2;3;4;5;6;20;255]
  = [Ok 9; Ok 8; Ok 17; Ok 8; Ok 5; Ok 14; Ok 0; Ok 0; Ok 0].
Proof. reflexivity. Qed.
Example max_basic : max_message_length test_basic = 17 /\ capacity test_basic = 51
                    /\ max_message_length test_checksum = 18.
Proof. repeat split. Qed.

(** tests/ProtocolTestSpecifics.h:49-54 *)
Definition valid_message := [1;1;2;5;10;15;3;4].
Definition valid_message_ck := [1;1;2;5;10;15;3;37;4].

(** tests/TupleTransmission.cpp, tests/BasicChecksum.cpp: sending MessageB 5 10 15 *)
Definition contentsB := [(u8, VInt 5); (u8, VInt 10); (u8, VInt 15)].
Example send_basic :
  send (desktop true) test_basic MessageB vector_tx contentsB vector_init = Ok valid_message.
Proof. reflexivity. Qed.
Example send_ck :
  send (desktop true) test_checksum MessageB vector_tx contentsB vector_init = Ok valid_message_ck.
Proof. reflexivity. Qed.

(** tests/EnvelopeReceiveBuffer.cpp: the rounds of "nefarious" input. *)
Definition feed (d : list Z) :=
  do e <- er_append (desktop true) test_basic d (er_init test_basic);
  do (f, e) <- check (desktop true) test_basic e;
  Ok (f, rb_size 51 (er_buf e), er_id e).
Definition r0 := [0].
Definition r1 := r0 ++ [1].
Definition r2 := r1 ++ [20].
Definition r3 := r2 ++ [1].
Definition r4 := r3 ++ [1].
Definition r4b := r4 ++ [1].
Definition r5 := r4b ++ [1;2].
Definition r6 := r5 ++ [5;10;15].
Definition r7 := r6 ++ firstn 7 valid_message.
Definition r8 := r7 ++ valid_message.
Definition r9 := r8 ++ [0].
Example nefarious :
  map (fun d => do (f, n, _) <- feed d; Ok (f, n)) [r0;r1;r2;r3;r4;r5;r6;r7;r8;r9]
  = [Ok (false,0); Ok (false,1); Ok (false,0); Ok (false,1); Ok (false,2); Ok (false,3);
     Ok (false,6); Ok (false,7); Ok (true,8); Ok (true,9)].
Proof. reflexivity. Qed.
Example nefarious_id : (do (_, _, i) <- feed r8; Ok i) = Ok (Some 1).
Proof. reflexivity. Qed.

(** tests/Handler.cpp, tests/BasicRoundtrip.cpp: delivery to a handler. *)
Definition h0 := Handler 100 7.
Example roundtrip :
  (do s <- send (desktop true) test_basic MessageA vector_tx
             [(i8, VInt (-5)); (u8, VInt 200); (i16, VInt (-300))] vector_init;
   do s <- send (desktop true) test_basic MessageB vector_tx contentsB s;
   do (w, r) <- run 60 (desktop true) test_basic quiet
     [OpAppend s; OpProcess; OpSetHandler h0; OpProcess; OpProcess]
     (World (rx_init test_basic) []);
   Ok (w_log w, r, rx_last (w_rx w), rx_available test_basic (w_rx w)))
  = Ok ([Delivery h0 MessageA [VInt (-5); VInt 200; VInt (-300)];
         Delivery h0 MessageB [VInt 5; VInt 10; VInt 15]],
        [RetUnit; RetProcess (Returned 0); RetUnit; RetProcess (Returned 2);
         RetProcess (Returned 0)], Some 1, 51).
Proof. vm_compute. reflexivity. Qed.

(** tests/Sizeof.cpp *)
Example sizes :
  map sizeof_fields [[i16; i16; i16]; [TInt false 2; TInt false 2; TInt false 2]; [i8]; []] = [6; 6; 1; 0]
  /\ sizeof_bound test_basic MessageA = sizeof_fields (mt_fields MessageA) + 5.
Proof. split; reflexivity. Qed.

(** tests/MessageLength.cpp:52-54 *)
Example invalid_id : is_id_valid test_basic 20 = false.
Proof. reflexivity. Qed.

(** tests/TupleTransmission.cpp, tests/BasicChecksum.cpp: array buffers. *)
Example send_arrays :
  (do s <- send (desktop true) test_basic MessageB (autosized_tx test_basic MessageB) contentsB (autosized_init test_basic MessageB);
   Ok (ab_buffer s)) = Ok valid_message
  /\ (do s <- send (desktop true) test_basic MessageB (abuf_tx 8) contentsB (abuf_init 8); Ok (ab_buffer s)) = Ok valid_message
  /\ (do s <- send_args (desktop true) test_basic MessageB (abuf_tx 8) (ints [5;10;15]) (abuf_init 8); Ok (ab_buffer s))
     = Ok valid_message
  /\ (do s <- send (desktop true) test_checksum MessageB (autosized_tx test_checksum MessageB) contentsB
                (autosized_init test_checksum MessageB);
      Ok (ab_buffer s)) = Ok valid_message_ck.
Proof. repeat split; vm_compute; reflexivity. Qed.

(** tests/HandlerCommon.h with the handlers of tests/Handler.cpp and tests/DefinePartialHandler.h. *)
Definition full_fns :=
  [UserFn MessageA [i8; u8; i16]; UserFn MessageB [u8; u8; u8]; UserFn MessageC [f32; f32; f32];
   UserFn MessageD [u8; u8; u8]; UserFn MessageEmpty []; UserFnRest MessageMaxArity [] true].
Definition partial_fns := [UserFn MessageB [u8; u8; u8]; UserFn MessageEmpty []].
Definition received (coll : collection) (ops : list op) :=
  do (w, r) <- run 60 (desktop true) coll quiet (OpSetHandler h0 :: ops) (World (rx_init coll) []);
  do full <- parameter_calls (desktop true) full_fns (w_log w);
  do part <- partial_calls partial_fns (w_log w);
  Ok (full, part, tl r, rx_last (w_rx w)).
(** All proper prefixes one after the other, tests/HandlerCommon.h:22-31. *)
Definition incomplete (msg : list Z) : list op :=
  flat_map (fun n => [OpAppend (firstn n msg); OpProcess]) (seq 1 (length msg - 1)).
Example incomplete_messages :
  (do (f, p, _, _) <- received test_basic (incomplete valid_message); Ok (f, p)) = Ok ([], [])
  /\ (do (f, p, _, _) <- received test_checksum (incomplete valid_message_ck); Ok (f, p)) = Ok ([], []).
Proof. split; vm_compute; reflexivity. Qed.
Definition gotB := UserCall (UserFn MessageB [u8; u8; u8]) (map VInt [5;10;15]).
Example complete_message :
  received test_basic [OpAppend valid_message; OpProcess]
  = Ok ([gotB], [gotB], [RetUnit; RetProcess (Returned 1)], Some 1)
  /\ received test_checksum [OpAppend valid_message_ck; OpProcess]
     = Ok ([gotB], [gotB], [RetUnit; RetProcess (Returned 1)], Some 1).
Proof. split; vm_compute; reflexivity. Qed.
(** The id changed to that of MessageD, tests/HandlerCommon.h:43-60 (and then processed, which the
    test does not do). *)
Example modified_id :
  received test_basic [OpAppend [1;3;2;5;10;15;3;4]; OpProcess]
  = Ok ([UserCall (UserFn MessageD [u8; u8; u8]) (map VInt [5;10;15])], [], [RetUnit; RetProcess (Returned 1)], Some 3)
  /\ received test_checksum [OpAppend [1;3;2;5;10;15;3;37;4]; OpProcess]
     = Ok ([], [], [RetUnit; RetProcess (Returned 0)], None).
Proof. split; vm_compute; reflexivity. Qed.

(** tests/RoundtripCommon.h: each message sent in four ways with both envelopes; the length of
    what is sent, the result of processMessages(), the last id and the calls of the partial handler. *)
Definition sent_and_received (coll : collection) (m : mtype) (out : outcome (list Z)) :=
  do s <- out;
  do (_, p, r, last) <- received coll [OpAppend s; OpProcess];
  Ok (zlen s =? sizeof_bound coll m, p, r, last).
Definition four_ways (coll : collection) (m : mtype) (seq : list value) (args : list Z) :=
  let c := desktop true in
  let contents := combine (mt_fields m) seq in
  map (sent_and_received coll m)
    [send c coll m vector_tx contents vector_init;
     send_bound c (Bound coll m) vector_tx contents vector_init;
     send_args c coll m vector_tx (ints args) vector_init;
     send_bound_args c (Bound coll m) vector_tx (ints args) vector_init].
Definition expected (last : Z) (calls : list user_call) :=
  repeat (Ok (true, calls, [RetUnit; RetProcess (Returned 1)], Some last)) 4.
Definition roundtrips (coll : collection) :=
  let numbers := map VInt [5;10;15] in
  let ns := [5;10;15] in
  four_ways coll MessageB numbers ns = expected 1 [gotB]
  /\ four_ways coll MessageEmpty [] [] = expected 4 [UserCall (UserFn MessageEmpty []) []]
  /\ four_ways coll MessageA (map VInt [5;5;5]) ns = expected 0 []
  /\ four_ways coll MessageC (repeat (VFloat false 1084227584) 3) ns = expected 2 []
  /\ four_ways coll MessageD numbers ns = expected 3 []
  /\ four_ways coll MessageMaxArity (repeat (VInt 0) 9) (repeat 0 9) = expected 5 [].
Example roundtrips_basic : roundtrips test_basic.
Proof. repeat split; vm_compute; reflexivity. Qed.
Example roundtrips_checksum : roundtrips test_checksum.
Proof. repeat split; vm_compute; reflexivity. Qed.
