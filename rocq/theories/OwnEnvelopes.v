(** Envelopes written by an application: a class derived from EnvelopeBase
    (tuple-transmission/detail/bases/EnvelopeBase.h:44-86) with its own Size, data_offset,
    sendMessage, checkBufferForMessage and serialization policy, used as the second argument of
    MessageCollection (tuple-transmission/MessageCollection.h:48-54).

    The receiving side of Receive.v and the sending side of Transmit.v again, with the
    envelope a parameter.  Simplifications: checkBufferForMessage terminates, touches the receiver only through the functions below and
    does not append to it or call popMessage itself; sendMessage calls bufferTuple with the given
    contents. *)
From Verif Require Export Receive.

(** The code of a checkBufferForMessage, as the calls it makes on the EnvelopeReceiveBuffer;
    what a call returns is passed to the rest of the code. *)
Inductive check_code :=
| KReturn (found : bool)
| KAssert (cond : bool) (k : check_code)         (* BOOST_ASSERT(cond) *)
| KSize (k : Z -> check_code)                    (* bufferSize() *)
| KEmpty (k : bool -> check_code)                (* bufferEmpty() *)
| KFront (k : Z -> check_code)                   (* bufferFront() *)
| KPop (count : Z) (k : Z -> check_code)         (* bufferPopFront(count) *)
| KAt (i : Z) (k : Z -> check_code)              (* buffer(i) *)
| KPut (i x : Z) (k : check_code)                (* buffer(i) = x *)
| KSetId (id : Z) (k : check_code)               (* setCurrentMessageId(id) *)
| KIdValid (k : bool -> check_code)              (* isCurrentMessageIdValid() *)
| KId (k : Z -> check_code)                      (* getCurrentMessageId() *)
| KLength (k : Z -> check_code).                 (* getMessageLength() *)

(** The code of a sendMessage, as the calls it makes.  For bufferTuple it may send the fields to
    [tx] and look at the bytes at the same time, through a TransmitterComposition as
    BasicChecksum does (tuple-transmission/envelopes/BasicChecksum.h:57-66), or collect them in a
    buffer of its own. *)
Inductive send_code :=
| SDone
| SByte (b : Z) (k : send_code)                  (* tx.output(b) *)
| SBlock (bs : list Z) (k : send_code)           (* tx.output(bs, length) *)
| STuple (k : list Z -> send_code)               (* bufferTuple(composition of a buffer and tx, contents) *)
| SCollect (k : list Z -> send_code).            (* bufferTuple(a buffer, contents) *)

(** The calls a serializer's buffer() makes for a value
    (tuple-transmission/detail/bases/SerializerBase.h:63-69, 82-88). *)
Inductive write :=
| WByte (b : Z)                                  (* tx.output(b) *)
| WBlock (bs : list Z).                          (* tx.output(bs, length) *)

(** The code of a deserializer's Unbuffer<T>::apply(it) (SerializerBase.h:114-117): it reads through
    the iterator and advances it. *)
Inductive read_code :=
| RReturn (v : value)
| RUndefined                                     (* undefined behaviour *)
| RByte (k : Z -> read_code).                    (* *it++ *)

(** SerializationPolicy<Serializer, Deserializer>, SerializerBase.h:103-118.  A stateful
    serializer (lines 76-93) has a state that buffer() may change (mutable members, operator()
    being const); a stateless one has the state [tt].  Simplification: what buffer() writes depends on
    the type and the value, the machine and the state only. *)
Record policy := Policy {
  po_state : Type;
  po_init : po_state;
  po_buffer : config -> po_state -> fty * value -> list write * po_state;
  po_read : config -> fty -> read_code }.

(** BitwiseCopy, tuple-transmission/serializers/BitwiseCopySerialization.h:34-73; the memcpy of a
    value as reading its bytes one by one. *)
Fixpoint read_block (n : nat) (acc : list Z) (k : list Z -> read_code) : read_code :=
  match n with
  | O => k acc
  | S n' => RByte (fun b => read_block n' (acc ++ [b]) k)
  end.
Definition bitwise : policy :=
  Policy unit tt
    (fun c _ f =>
       (match f with
        | (ty, v) => if fty_eqb ty u8 then match v with VInt z => [WByte z] | _ => [] end
                     else [WBlock (encode c ty v)]
        end, tt))
    (fun c ty => read_block (fsize ty) []
       (fun bs => match decode c ty bs with Some v => RReturn v | None => RUndefined end)).

(** What a class derived from EnvelopeBase supplies: Size (lines 51-52), data_offset
    (EnvelopeReceiveBuffer.h:101), checkBufferForMessage (lines 71-75), sendMessage for a message id
    (lines 66-69), serialization_policy (line 48). *)
Record own_envelope := OwnEnvelope {
  oe_policy : policy;
  oe_size : Z -> Z;
  oe_offset : Z;
  oe_check : check_code;
  oe_send : Z -> send_code }.

(** MessageCollection, tuple-transmission/MessageCollection.h:48-54. *)
Record own_collection := Own { oc_types : list mtype; oc_env : own_envelope }.

(** ** Metaprograms *)

(** Sizeof of a BoundMessageType, tuple-transmission/detail/operations/Sizeof.h:48-60. *)
Definition own_sizeof (oc : own_collection) (m : mtype) : Z :=
  oe_size (oc_env oc) (sizeof_fields (mt_fields m)).

(** MaxMessage and MaxMessageLength, tuple-transmission/detail/operations/MaxMessageLength.h:40-52. *)
Definition own_max_from (oc : own_collection) (best : mtype) (rest : list mtype) : mtype :=
  fold_left (fun old m => if own_sizeof oc old <? own_sizeof oc m then m else old) rest best.
Definition own_max_length (oc : own_collection) : Z :=
  match oc_types oc with
  | [] => 0
  | m :: rest => own_sizeof oc (own_max_from oc m rest)
  end.

(** ComputeReceiveBufferSize, tuple-transmission/detail/operations/ComputeReceiveBufferSize.h:37-43,
    the buffer's capacity (EnvelopeReceiveBuffer.h:47). *)
Definition own_capacity (oc : own_collection) : Z := own_max_length oc * 3.

(** isIdValid, tuple-transmission/detail/operations/IsIdValid.h:37-40. *)
Definition own_id_valid (oc : own_collection) (id : Z) : bool := id <? zlen (oc_types oc).

(** getMessageLength, tuple-transmission/detail/operations/MessageLength.h:42-71. *)
Definition own_get_length (oc : own_collection) (id : Z) : outcome Z :=
  if negb (own_id_valid oc id) then Ok 0
  else
    match apply_at (oc_types oc) id
            (fun m (_ : option Z) => Some (trunc (uint_least_bits (own_max_length oc)) (own_sizeof oc m)))
            None with
    | Some len => Ok len
    | None => UB
    end.

(** What compiles, as [static_ok]: 1 to 255 message types (tuple-transmission/BoundMessageType.h:88),
    object sizes of at least 1, a buffer size above 0 that has a uint_value_t.  Simplification: Size
    is never negative. *)
Definition own_static_ok (oc : own_collection) : bool :=
  (1 <=? zlen (oc_types oc)) && (zlen (oc_types oc) <=? 255)
  && forallb (fun m => forallb (fun t => 1 <=? Z.of_nat (fsize t)) (mt_fields m)) (oc_types oc)
  && forallb (fun m => 0 <=? own_sizeof oc m) (oc_types oc)
  && (1 <=? own_max_length oc) && (own_capacity oc <? 2 ^ 64).

(** ** EnvelopeReceiveBuffer *)

(** setCurrentMessageId, EnvelopeReceiveBuffer.h:171-177; the parameter is a uint8_t. *)
Definition own_set_id (oc : own_collection) (id : Z) (e : erb) : erb :=
  ERB (if own_id_valid oc (trunc 8 id) then Some (trunc 8 id) else None) (er_buf e).

(** getMessageLength(), EnvelopeReceiveBuffer.h:200-203. *)
Definition own_message_length (c : config) (oc : own_collection) (e : erb) : outcome Z :=
  do _ <- assert_plain c (er_id_valid e);
  do id <- er_current_id c e;
  own_get_length oc id.

(** bufferPopFront(count), EnvelopeReceiveBuffer.h:141-143. *)
Definition own_pop_front (c : config) (oc : own_collection) (count : Z) (e : erb) : outcome (erb * Z) :=
  do (b, x) <- rb_pop_front c (own_capacity oc) (to_sz (own_capacity oc) count) (er_buf e);
  Ok (ERB (er_id e) b, x).

(** Running the code of checkBufferForMessage, EnvelopeReceiveBuffer.h:93-96 with the functions it
    calls: bufferSize, bufferEmpty, bufferFront, bufferPopFront, buffer (lines 120-153; a stored
    value is converted to uint8_t), and those above. *)
Fixpoint run_check (c : config) (oc : own_collection) (k : check_code) (e : erb) : outcome (bool * erb) :=
  let cap := own_capacity oc in
  match k with
  | KReturn b => Ok (b, e)
  | KAssert x k => do _ <- assert_ c x; run_check c oc k e
  | KSize k => run_check c oc (k (rb_size cap (er_buf e))) e
  | KEmpty k => run_check c oc (k (rb_empty (er_buf e))) e
  | KFront k => do x <- rb_front c cap (er_buf e); run_check c oc (k x) e
  | KPop n k => do (e', x) <- own_pop_front c oc n e; run_check c oc (k x) e'
  | KAt i k => do x <- rb_index c cap (er_buf e) (to_sz cap i); run_check c oc (k x) e
  | KPut i x k =>
      do b <- rb_set c cap (to_sz cap i) (trunc 8 x) (er_buf e);
      run_check c oc k (ERB (er_id e) b)
  | KSetId id k => run_check c oc k (own_set_id oc id e)
  | KIdValid k => run_check c oc (k (er_id_valid e)) e
  | KId k => do id <- er_current_id c e; run_check c oc (k id) e
  | KLength k => do n <- own_message_length c oc e; run_check c oc (k n) e
  end.

(** checkBufferForMessage(), EnvelopeReceiveBuffer.h:93-96. *)
Definition own_check (c : config) (oc : own_collection) (e : erb) : outcome (bool * erb) :=
  run_check c oc (oe_check (oc_env oc)) e.

(** popMessage(), EnvelopeReceiveBuffer.h:106-110. *)
Definition own_pop_message (c : config) (oc : own_collection) (e : erb) : outcome erb :=
  do e <- match mode c with
          | Disabled => Ok e
          | Aborting => do (found, e') <- own_check c oc e; if found then Ok e' else AssertFail
          | Reporting => do (_, e') <- own_check c oc e; Ok e'
          end;
  do len <- own_message_length c oc e;
  do (e, _) <- own_pop_front c oc len e;
  Ok (ERB None (er_buf e)).

(** Unbuffer<T>::apply with an iterator into the buffer's array at [pos]; reading outside the array
    is undefined behaviour. *)
Fixpoint run_read (cap : Z) (contents : list Z) (k : read_code) (pos : Z) : outcome (value * Z) :=
  match k with
  | RReturn v => Ok (v, pos)
  | RUndefined => UB
  | RByte k => if (0 <=? pos) && (pos <? cap) then run_read cap contents (k (arr_get contents pos)) (pos + 1) else UB
  end.

(** Deserialize<TypeIter, Context>::apply, tuple-transmission/detail/operations/DeserializeToFusion.h:64-94. *)
Fixpoint own_fields (c : config) (oc : own_collection) (contents : list Z) (ts : list fty) (pos : Z)
         (acc : list value) : outcome (list value) :=
  match ts with
  | [] => Ok acc
  | t :: rest =>
      do (v, pos) <- run_read (own_capacity oc) contents (po_read (oe_policy (oc_env oc)) c t) pos;
      own_fields c oc contents rest pos (acc ++ [v])
  end.

(** getDataIterator() (EnvelopeReceiveBuffer.h:100-102) and deserializeAndInvoke up to the call,
    tuple-transmission/detail/operations/DeserializeAndInvoke.h:39-45, DeserializeToFusion.h:96-121;
    an iterator outside the array is undefined behaviour. *)
Definition own_deserialize (c : config) (oc : own_collection) (e : erb) (id : Z)
  : outcome (option (mtype * list value)) :=
  let pos := rb_begin (er_buf e) + oe_offset (oc_env oc) in
  if (pos <? 0) || (own_capacity oc <? pos) then UB
  else
  apply_at (oc_types oc) id
    (fun m (_ : outcome (option (mtype * list value))) =>
       do vs <- own_fields c oc (rb_contents (er_buf e)) (mt_fields m) pos [];
       Ok (Some (m, vs)))
    (Ok None).

(** ** Receiver *)

(** Construction, tuple-transmission/Receiver.h:74-82. *)
Definition own_start (oc : own_collection) (h : option handler) : world :=
  World (Receiver (ERB None (rb_init (own_capacity oc))) (option_map h_type h) h None) [].

(** getBufferAvailableSpace, Receiver.h:105-107. *)
Definition own_available (oc : own_collection) (r : receiver) : Z :=
  to_sz (own_capacity oc)
        (rb_max_size (own_capacity oc) - rb_size (own_capacity oc) (er_buf (rx_recv r))).

(** appendReceived, Receiver.h:111-114. *)
Definition own_append (c : config) (oc : own_collection) (data : list Z) (r : receiver) : outcome receiver :=
  do b <- rb_push_range c (own_capacity oc) data (er_buf (rx_recv r));
  Ok (Receiver (ERB (er_id (rx_recv r)) b) (rx_invoker r) (rx_functor r) (rx_last r)).

(** receiveFrom, Receiver.h:120-123. *)
Definition own_receive_from (c : config) (oc : own_collection) (a : adapter) (r : receiver)
  : outcome (receiver * Z) :=
  do (b, n) <- rb_from_functor c (own_capacity oc) (adapter_call a) (adapter_available a) (er_buf (rx_recv r));
  Ok (Receiver (ERB (er_id (rx_recv r)) b) (rx_invoker r) (rx_functor r) (rx_last r), n).

(** A handler's actions on the receiver, as [run_acts]. *)
Fixpoint own_acts (c : config) (oc : own_collection)
         (proc : world -> outcome (world * presult)) (acts : list hact) (w : world)
  : outcome (world * bool) :=
  match acts with
  | [] => Ok (w, false)
  | a :: rest =>
      do (w', threw) <-
        match a with
        | ASetHandler h => Ok (World (rx_set_handler h (w_rx w)) (w_log w), false)
        | AClearHandler => Ok (World (rx_clear_handler (w_rx w)) (w_log w), false)
        | AAppend d => do r <- own_append c oc d (w_rx w); Ok (World r (w_log w), false)
        | AProcess =>
            do (w', p) <- proc w;
            Ok (w', match p with Threw => true | Returned _ => false end)
        end;
      if threw then Ok (w', true) else own_acts c oc proc rest w'
  end.

(** The call through the invoker, Receiver.h:146 and 168-177, as [invoke]. *)
Definition own_invoke (c : config) (oc : own_collection) (beh : hbehav)
           (proc : world -> outcome (world * presult)) (id : Z) (w : world)
  : outcome (world * bool) :=
  match rx_invoker (w_rx w), rx_functor (w_rx w) with
  | Some ty, Some h =>
      if negb (ty =? h_type h) then UB
      else
        do found <- own_deserialize c oc (rx_recv (w_rx w)) id;
        match found with
        | None => Ok (w, false)
        | Some (m, vs) =>
            let log := w_log w ++ [Delivery h m vs] in
            let hr := beh log in
            do (w', threw) <- own_acts c oc proc (hr_acts hr) (World (w_rx w) log);
            Ok (w', threw || hr_throws hr)
        end
  | _, _ => UB
  end.

(** The loop of processMessages, Receiver.h:139-153. *)
Fixpoint own_loop (fuel : nat) (c : config) (oc : own_collection) (beh : hbehav) (n : Z) (w : world)
  : outcome (world * presult) :=
  match fuel with
  | O => Hang
  | S fuel' =>
      do (found, e) <- own_check c oc (rx_recv (w_rx w));
      let w := w_set_recv e w in
      if negb found then Ok (w, Returned n)
      else
        do id <- er_current_id c e;
        let w := w_set_last id w in
        do (w, threw) <-
          own_invoke c oc beh
            (fun w => if rx_has_handler (w_rx w) then own_loop fuel' c oc beh 0 w
                      else Ok (w, Returned 0))
            id w;
        if threw then Ok (w, Threw)
        else
          do e <- own_pop_message c oc (rx_recv (w_rx w));
          own_loop fuel' c oc beh (trunc 8 (n + 1)) (w_set_recv e w)
  end.

(** processMessages, Receiver.h:134-155. *)
Definition own_process (fuel : nat) (c : config) (oc : own_collection) (beh : hbehav) (w : world)
  : outcome (world * presult) :=
  if negb (rx_has_handler (w_rx w)) then Ok (w, Returned 0)
  else own_loop fuel c oc beh 0 w.

(** One operation of Receiver's public interface, Receiver.h:86-155. *)
Definition own_step (fuel : nat) (c : config) (oc : own_collection) (beh : hbehav) (o : op) (w : world)
  : outcome (world * opret) :=
  match o with
  | OpSetHandler h => Ok (World (rx_set_handler h (w_rx w)) (w_log w), RetUnit)
  | OpClearHandler => Ok (World (rx_clear_handler (w_rx w)) (w_log w), RetUnit)
  | OpAppend d => do r <- own_append c oc d (w_rx w); Ok (World r (w_log w), RetUnit)
  | OpReceive a =>
      do (r, n) <- own_receive_from c oc a (w_rx w); Ok (World r (w_log w), RetCount n)
  | OpProcess =>
      do (w', p) <- own_process fuel c oc beh w; Ok (w', RetProcess p)
  end.

(** A history of operations and what each returned. *)
Fixpoint own_run (fuel : nat) (c : config) (oc : own_collection) (beh : hbehav) (ops : list op) (w : world)
  : outcome (world * list opret) :=
  match ops with
  | [] => Ok (w, [])
  | o :: rest =>
      do (w', r) <- own_step fuel c oc beh o w;
      do (w'', rs) <- own_run fuel c oc beh rest w';
      Ok (w'', r :: rs)
  end.

(** ** Sending *)

(** The calls of buffer() for one value; bytes are converted to uint8_t. *)
Fixpoint run_writes {S} (t : transmitter S) (ws : list write) (s : S) : outcome S :=
  match ws with
  | [] => Ok s
  | WByte b :: rest => do s <- tx_byte t (trunc 8 b) s; run_writes t rest s
  | WBlock bs :: rest => do s <- tx_block t (map (trunc 8) bs) s; run_writes t rest s
  end.

(** bufferTuple: a new SendContext, called with each value in order, SerializerBase.h:108-112. *)
Fixpoint run_fields {S} (c : config) (p : policy) (t : transmitter S) (contents : list (fty * value))
         (st : po_state p) (s : S) : outcome S :=
  match contents with
  | [] => Ok s
  | f :: rest =>
      let ws := po_buffer p c st f in
      do s <- run_writes t (fst ws) s;
      run_fields c p t rest (snd ws) s
  end.
Definition own_tuple {S} (c : config) (p : policy) (t : transmitter S) (contents : list (fty * value))
  : S -> outcome S :=
  run_fields c p t contents (po_init p).

(** Running the code of sendMessage; bytes are converted to uint8_t (TransmitterBase.h:49-51). *)
Fixpoint run_send {S} (c : config) (p : policy) (t : transmitter S) (contents : list (fty * value)) (k : send_code)
         (s : S) : outcome S :=
  match k with
  | SDone => Ok s
  | SByte b k => do s <- tx_byte t (trunc 8 b) s; run_send c p t contents k s
  | SBlock bs k => do s <- tx_block t (map (trunc 8) bs) s; run_send c p t contents k s
  | STuple k =>
      do bs <- own_tuple c p (compose_tx vector_tx t) contents (vector_init, s);
      run_send c p t contents (k (fst bs)) (snd bs)
  | SCollect k =>
      do bytes <- own_tuple c p vector_tx contents vector_init;
      run_send c p t contents (k bytes) s
  end.

(** send<Collection, Message>(tx, contents), tuple-transmission/Send.h:48-67. *)
Definition own_send {S} (c : config) (oc : own_collection) (m : mtype) (t : transmitter S)
           (contents : list (fty * value)) (s : S) : outcome S :=
  if negb (own_static_ok oc && contents_ok m contents) then Rejected
  else
    match find_index (oc_types oc) m with
    | None => Rejected
    | Some i =>
        do s <- run_send c (oe_policy (oc_env oc)) t contents (oe_send (oc_env oc) (trunc 8 i)) s;
        tx_finished t s
    end.

(** ** The shipped envelopes as such code *)

(** Skipping to the start code, tuple-transmission/envelopes/Basic.h:71-79, BasicChecksum.h:76-84. *)
Fixpoint skip_code (fuel : nat) (k : check_code) : check_code :=
  match fuel with
  | O => KReturn false
  | S fuel' =>
      KEmpty (fun empty => if empty then k
        else KFront (fun x => if x =? SOH then k else KPop 1 (fun _ => skip_code fuel' k)))
  end.

(** popAndRetry, tuple-transmission/detail/bases/EnvelopeBase.h:77-85. *)
Definition retry_code (again : check_code) : check_code :=
  KEmpty (fun empty => KAssert (negb empty)
    (KEmpty (fun empty => if empty then KReturn false else KPop 1 (fun _ => again)))).

(** The loop of BasicChecksum.h:126-130, from index [i] for [n] bytes. *)
Fixpoint sum_code (n : nat) (i ck : Z) (k : Z -> check_code) : check_code :=
  match n with
  | O => k ck
  | S n' => KAt i (fun x => sum_code n' (i + 1) (trunc 8 (ck + x)) k)
  end.

(** The tests of the ending, tuple-transmission/envelopes/Basic.h:114 and BasicChecksum.h:119-141. *)
Definition basic_end_code (len : Z) (good bad : check_code) : check_code :=
  KAt (len - 2) (fun x => if negb (x =? ETX) then bad
    else KAt (len - 1) (fun y => if y =? EOT then good else bad)).
Definition checksum_end_code (len : Z) (good bad : check_code) : check_code :=
  KAt (len - 3) (fun x => if negb (x =? ETX) then bad
    else KAt (len - 1) (fun y => if negb (y =? EOT) then bad
      else sum_code (Z.to_nat (len - 2)) 0 checksum_init (fun ck =>
        KAt (len - 2) (fun stated => if ck =? stated then good else bad)))).

(** checkBufferForMessage of both, tuple-transmission/envelopes/Basic.h:69-123 and
    BasicChecksum.h:74-147; the recursion through popAndRetry is unrolled [fuel] times. *)
Fixpoint shipped_code_fuel (ending : Z -> check_code -> check_code -> check_code) (fuel : nat) : check_code :=
  match fuel with
  | O => KReturn false
  | S fuel' =>
      let again := retry_code (shipped_code_fuel ending fuel') in
      KSize (fun n => skip_code (S (Z.to_nat n)) (
      KSize (fun n => if n <? 2 then KReturn false else
      KAt 1 (fun b1 => KSetId b1 (
      KIdValid (fun valid => if negb valid then again else
      KSize (fun n => if n <? 3 then KReturn false else
      KAt 2 (fun b2 => if negb (b2 =? STX) then again else
      KLength (fun len =>
      KSize (fun n => if n <? len then KReturn false else
      ending len (KReturn true) again))))))))))
  end.

(** The same with one level of recursion for every byte held and one more, which is enough. *)
Definition shipped_code (ending : Z -> check_code -> check_code -> check_code) : check_code :=
  KSize (fun n => shipped_code_fuel ending (S (Z.to_nat n))).

(** Basic, tuple-transmission/envelopes/Basic.h:42-123, and BasicChecksum,
    tuple-transmission/envelopes/BasicChecksum.h:40-147. *)
Definition own_basic : own_envelope :=
  OwnEnvelope bitwise (fun n => 5 + n) 3 (shipped_code basic_end_code)
    (fun id => SByte SOH (SByte id (SByte STX (STuple (fun _ => SByte ETX (SByte EOT SDone)))))).
Definition own_checksum : own_envelope :=
  OwnEnvelope bitwise (fun n => 6 + n) 3 (shipped_code checksum_end_code)
    (fun id => SByte SOH (SByte id (SByte STX (STuple (fun payload =>
       SByte ETX (SByte (fold_left Z.add payload (SOH + id + STX) + ETX) (SByte EOT SDone))))))).

(** A collection with a shipped envelope, as one with an envelope of the application's own. *)
Definition as_own (coll : collection) : own_collection :=
  Own (mc_types coll) (match mc_env coll with Basic => own_basic | BasicChecksum => own_checksum end).
