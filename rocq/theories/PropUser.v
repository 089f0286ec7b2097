(** Property theorems: transmitters and receive adapters written by an application. *)
From Verif Require Import UserClassLemmas Runs.

(** C88: a transmitter class that defines writeByte and not write gets the frame one byte at a time, then its
    writeFinished, if it defines one, is called once ... *)
Theorem C88_bytes :
  forall S (k : transmitter_class S) byte c coll m vs,
  tc_byte k = Some byte -> tc_block k = None ->
  static_ok coll = true -> In m (mc_types coll) -> has_types vs (mt_fields m) = true ->
  exists f, is_message_frame c coll m vs f
    /\ forall s, send c coll m (class_tx k) (combine (mt_fields m) vs) s
        = do s' <- fold_left (fun o b => do s <- o; byte b s) f (Ok s);
          match tc_finished k with Some fin => fin s' | None => Ok s' end.
Proof. exact class_bytes_lemma. Qed.
Print Assumptions C88_bytes.

(** ... one that defines write too gets the fields through it, except those of type uint8_t ... *)
Theorem C88_blocks :
  forall c coll m vs, static_ok coll = true -> In m (mc_types coll) -> has_types vs (mt_fields m) = true ->
  exists id tail, is_message_frame c coll m vs ([1; id; 2] ++ spec_payload (little c) (mt_fields m) vs ++ tail)
    /\ forall S (k : transmitter_class S) byte block s, tc_byte k = Some byte -> tc_block k = Some block ->
         send c coll m (class_tx k) (combine (mt_fields m) vs) s
         = do s' <- fold_left (fun o x => do s <- o; match x with CByte b => byte b s | CBlock d => block d s end)
                      (map CByte [1; id; 2] ++ map (spec_field_call (little c)) (combine (mt_fields m) vs) ++ map CByte tail) (Ok s);
           match tc_finished k with Some fin => fin s' | None => Ok s' end.
Proof. exact class_calls_lemma. Qed.
Print Assumptions C88_blocks.

(** ... and one that does not define writeByte, whatever else it defines, cannot be sent to. *)
Theorem C88_no_write_byte :
  forall S (k : transmitter_class S) c coll m contents s,
  tc_byte k = None -> send c coll m (class_tx k) contents s = Rejected.
Proof. exact no_write_byte_lemma. Qed.
Print Assumptions C88_no_write_byte.

(** An adapter class with a receiveIntoBuffer that has a getNumAvailable of its own (whichever base it is derived from),
    or is derived from ReceiveAdapterWithoutAvailable, does what the adapters of the other claims do ... *)
Theorem C88_adapter :
  forall c coll a k r, class_of a k ->
  u_receive_from 1 c coll k r = do (r', n) <- rx_receive_from c coll a r; Ok (r', Some n).
Proof. exact class_adapter_lemma. Qed.
Print Assumptions C88_adapter.

(** ... one without receiveIntoBuffer is rejected ... *)
Theorem C88_no_receive :
  forall fuel c coll k r, ac_receive k = None -> u_receive_from fuel c coll k r = Rejected.
Proof. exact no_receive_lemma. Qed.
Print Assumptions C88_no_receive.

(** ... but one derived from ReceiveAdapterBase without getNumAvailable is accepted, and receiveFrom never returns. *)
Theorem C88_endless_refuted :
  forall fuel c coll k f r, ac_receive k = Some f -> ac_available k = None -> ac_without k = false ->
  u_receive_from fuel c coll k r = Hang.
Proof. exact endless_lemma. Qed.
Print Assumptions C88_endless_refuted.

(** When the adapter throws, be it after having stored bytes, the exception leaves receiveFrom with nothing changed that
    can be observed, now or later: what it had stored is not received ... *)
Theorem C88_throw :
  forall c coll, static_ok coll = true -> index_safe c (capacity coll) ->
  forall beh h0 ops S rs w k, tame beh -> history c coll beh (start coll h0) ops S rs w ->
  throws_when (rx_available coll (w_rx w)) k ->
  exists r, u_receive_from 1 c coll k (w_rx w) = Ok (r, None) /\ let v := World r (w_log w) in
    same_view coll w v
    /\ (forall ops' S' rs' w', history c coll beh w ops' S' rs' w' ->
        exists v', history c coll beh v ops' S' rs' v' /\ same_view coll w' v')
    /\ (forall ops' S' rs' v', history c coll beh v ops' S' rs' v' ->
        exists w', history c coll beh w ops' S' rs' w' /\ same_view coll w' v').
Proof. exact adapter_throw_lemma. Qed.
Print Assumptions C88_throw.

(** ... and likewise when the iterators given to appendReceived throw. *)
Theorem C88_append_throw :
  forall c coll, static_ok coll = true -> index_safe c (capacity coll) ->
  forall beh h0 ops S rs w data k, tame beh -> history c coll beh (start coll h0) ops S rs w ->
  zlen data <= rx_available coll (w_rx w) ->
  exists r, u_append_throwing c coll data k (w_rx w) = Ok r /\ let v := World r (w_log w) in
    same_view coll w v
    /\ (forall ops' S' rs' w', history c coll beh w ops' S' rs' w' ->
        exists v', history c coll beh v ops' S' rs' v' /\ same_view coll w' v')
    /\ (forall ops' S' rs' v', history c coll beh v ops' S' rs' v' ->
        exists w', history c coll beh w ops' S' rs' w' /\ same_view coll w' v').
Proof. exact append_throw_lemma. Qed.
Print Assumptions C88_append_throw.

(** A class keeping a list, sent the message of the tests with fields 10, 20, 30. *)
Example C88_bytes_case :
  send (desktop true) test_basic MessageB (class_tx (TransmitterClass (Some (fun b s => Ok (s ++ [b]))) None None))
    (combine (mt_fields MessageB) [VInt 10; VInt 20; VInt 30]) [] = Ok [1;1;2;10;20;30;3;4].
Proof. vm_compute. reflexivity. Qed.

(** A receiver holding the beginning of a message near the end of its array; a port that stores the next three bytes
    and throws, asked for 255: the contents have been moved to the front, the message is not completed by what follows. *)
Definition broken_port : adapter_class := AdapterClass true None (Some (fun n => ([10; 20; 30], None))).
Example C88_case :
  exists S rs w r, history (desktop true) test_basic quiet (start test_basic (Some hd1))
       [OpAppend [1;1;2;10;20;30;3;4;1;1;2]; OpProcess] S rs w
    /\ throws_when (rx_available test_basic (w_rx w)) broken_port
    /\ u_receive_from 1 (desktop true) test_basic broken_port (w_rx w) = Ok (r, None)
    /\ rb_begin (er_buf (rx_recv (w_rx w))) = 8 /\ rb_begin (er_buf (rx_recv r)) = 0
    /\ held (World r (w_log w)) = [1;1;2]
    /\ exists w', run 60 (desktop true) test_basic quiet [OpAppend [3; 4; 0; 0; 0; 0]; OpProcess] (World r (w_log w))
         = Ok (w', [RetUnit; RetProcess (Returned 0)]).
Proof.
  do 4 eexists. split; [apply (checked_history 60); vm_compute; reflexivity|].
  split.
  { eexists. split; [reflexivity|]. right. right. split; [reflexivity|]. split; [reflexivity|].
    exists [10; 20; 30]. split; [reflexivity|]. vm_compute. discriminate. }
  split; [vm_compute; reflexivity|]. split; [vm_compute; reflexivity|]. split; [vm_compute; reflexivity|].
  split; [vm_compute; reflexivity|]. eexists. vm_compute. reflexivity.
Qed.
