(** Receiving: EnvelopeReceiveBuffer, the envelopes' checkBufferForMessage,
    deserialization, receive adapters and Receiver. *)
From Verif Require Export Meta ReceiveBuffer Transmit.

(** EnvelopeReceiveBuffer's members,
    tuple-transmission/detail/types/EnvelopeReceiveBuffer.h:207-208. *)
Record erb := ERB { er_id : option Z; er_buf : rbuf }.

(** Template parameter of the buffer, EnvelopeReceiveBuffer.h:47. *)
Definition capacity (coll : collection) : Z := receive_buffer_size coll.

(** Default construction: empty optional, default buffer. *)
Definition er_init (coll : collection) : erb := ERB None (rb_init (capacity coll)).

(** bufferAvailableSpace(), EnvelopeReceiveBuffer.h:72-74. *)
Definition er_available (coll : collection) (e : erb) : Z :=
  to_sz (capacity coll) (rb_max_size (capacity coll) - rb_size (capacity coll) (er_buf e)).

(** bufferAppend(begin, end), EnvelopeReceiveBuffer.h:77-80. *)
Definition er_append (c : config) (coll : collection) (data : list Z) (e : erb) : outcome erb :=
  do b <- rb_push_range c (capacity coll) data (er_buf e);
  Ok (ERB (er_id e) b).

(** bufferAppend(element), EnvelopeReceiveBuffer.h:86-88. *)
Definition er_append1 (c : config) (coll : collection) (x : Z) (e : erb) : outcome erb :=
  do b <- rb_push_back c (capacity coll) x (er_buf e);
  Ok (ERB (er_id e) b).

(** bufferFromFunctorRef(f, n), EnvelopeReceiveBuffer.h:159-162. *)
Definition er_from_functor (c : config) (coll : collection) f n (e : erb) : outcome (erb * Z) :=
  do (b, r) <- rb_from_functor c (capacity coll) f n (er_buf e);
  Ok (ERB (er_id e) b, r).

(** setCurrentMessageId(id), EnvelopeReceiveBuffer.h:171-177. *)
Definition er_set_id (coll : collection) (id : Z) (e : erb) : erb :=
  ERB (if is_id_valid coll id then Some id else None) (er_buf e).

(** isCurrentMessageIdValid(), EnvelopeReceiveBuffer.h:182-188. *)
Definition er_id_valid (e : erb) : bool :=
  match er_id e with Some _ => true | None => false end.

(** getCurrentMessageId(), EnvelopeReceiveBuffer.h:193-195: dereferences the optional
    (boost::optional asserts that it is initialised). *)
Definition er_current_id (c : config) (e : erb) : outcome Z :=
  match er_id e with
  | Some id => Ok id
  | None => if stops (plain c) then AssertFail else UB
  end.

(** getMessageLength(), EnvelopeReceiveBuffer.h:200-203. *)
Definition er_message_length (c : config) (coll : collection) (e : erb) : outcome Z :=
  do _ <- assert_plain c (er_id_valid e);
  do id <- er_current_id c e;
  get_message_length coll id.

(** bufferPopFront(count), EnvelopeReceiveBuffer.h:141-143. *)
Definition er_pop_front (c : config) (coll : collection) (count : Z) (e : erb) : outcome erb :=
  do (b, _) <- rb_pop_front c (capacity coll) (to_sz (capacity coll) count) (er_buf e);
  Ok (ERB (er_id e) b).

(** buffer(i), EnvelopeReceiveBuffer.h:146-153; [i] is converted to the size type. *)
Definition er_buffer (c : config) (coll : collection) (e : erb) (i : Z) : outcome Z :=
  rb_index c (capacity coll) (er_buf e) (to_sz (capacity coll) i).

(** ** checkBufferForMessage *)

(** The loop skipping to SOH, tuple-transmission/envelopes/Basic.h:71-79 and
    BasicChecksum.h:76-84.  [fuel] bounds the iterations of the model. *)
Fixpoint skip_to_soh (fuel : nat) (c : config) (coll : collection) (e : erb) : outcome erb :=
  match fuel with
  | O => Hang
  | S fuel' =>
      if rb_empty (er_buf e) then Ok e
      else
        do f <- rb_front c (capacity coll) (er_buf e);
        if f =? SOH then Ok e
        else
          do e' <- er_pop_front c coll 1 e;
          skip_to_soh fuel' c coll e'
  end.

(** Trailer test of Basic: tuple-transmission/envelopes/Basic.h:114 ([||] evaluates its
    right side only when the left side is false).  Result: the ending is right. *)
Definition basic_trailer (c : config) (coll : collection) (e : erb) (len : Z) : outcome bool :=
  do b1 <- er_buffer c coll e (len - 2);
  if negb (b1 =? ETX) then Ok false
  else
    do b2 <- er_buffer c coll e (len - 1);
    Ok (b2 =? EOT).

(** The checksum loop, tuple-transmission/envelopes/BasicChecksum.h:126-130:
    [n] iterations from index [i]. *)
Fixpoint checksum_loop (n : nat) (c : config) (coll : collection) (e : erb) (i ck : Z) : outcome Z :=
  match n with
  | O => Ok ck
  | S n' =>
      do b <- er_buffer c coll e i;
      do ck' <- tx_byte checksum_tx b ck;
      checksum_loop n' c coll e (i + 1) ck'
  end.

(** Trailer and checksum test of BasicChecksum:
    tuple-transmission/envelopes/BasicChecksum.h:119-141. *)
Definition checksum_trailer (c : config) (coll : collection) (e : erb) (len : Z) : outcome bool :=
  do b1 <- er_buffer c coll e (len - 3);
  if negb (b1 =? ETX) then Ok false
  else
    do b2 <- er_buffer c coll e (len - 1);
    if negb (b2 =? EOT) then Ok false
    else
      do ck <- checksum_loop (Z.to_nat (len - 2)) c coll e 0 checksum_init;
      do stated <- er_buffer c coll e (len - 2);
      Ok (ck =? stated).

(** The part of checkBufferForMessage in which the envelopes differ. *)
Definition trailer (c : config) (coll : collection) (e : erb) (len : Z) : outcome bool :=
  match mc_env coll with
  | Basic => basic_trailer c coll e len
  | BasicChecksum => checksum_trailer c coll e len
  end.

(** popAndRetry, tuple-transmission/detail/bases/EnvelopeBase.h:77-85, with [check] the
    recursive call. *)
Definition pop_and_retry (c : config) (coll : collection)
           (check : erb -> outcome (bool * erb)) (e : erb) : outcome (bool * erb) :=
  do _ <- assert_ c (negb (rb_empty (er_buf e)));
  if rb_empty (er_buf e) then Ok (false, e)
  else
    do e' <- er_pop_front c coll 1 e;
    check e'.

(** checkBufferForMessage of both envelopes, tuple-transmission/envelopes/Basic.h:69-123
    and BasicChecksum.h:74-147, with EnvelopeReceiveBuffer.h:93-96 and
    EnvelopeBase.h:71-75.  Each level of the recursion consumes one unit of [fuel]. *)
Fixpoint check_fuel (fuel : nat) (c : config) (coll : collection) (e : erb) : outcome (bool * erb) :=
  match fuel with
  | O => Hang
  | S fuel' =>
      let cap := capacity coll in
      do e <- skip_to_soh (S (Z.to_nat (rb_size cap (er_buf e)))) c coll e;
      if rb_size cap (er_buf e) <? 2 then Ok (false, e)
      else
        do b1 <- er_buffer c coll e 1;
        let e := er_set_id coll b1 e in
        if negb (er_id_valid e) then pop_and_retry c coll (check_fuel fuel' c coll) e
        else if rb_size cap (er_buf e) <? 3 then Ok (false, e)
        else
          do b2 <- er_buffer c coll e 2;
          if negb (b2 =? STX) then pop_and_retry c coll (check_fuel fuel' c coll) e
          else
            do len <- er_message_length c coll e;
            if rb_size cap (er_buf e) <? len then Ok (false, e)
            else
              do ok <- trailer c coll e len;
              if ok then Ok (true, e)
              else pop_and_retry c coll (check_fuel fuel' c coll) e
  end.

(** The same with enough fuel for the bytes in the buffer: every recursive call pops
    one byte first. *)
Definition check (c : config) (coll : collection) (e : erb) : outcome (bool * erb) :=
  check_fuel (S (Z.to_nat (rb_size (capacity coll) (er_buf e)))) c coll e.

(** popMessage(), EnvelopeReceiveBuffer.h:106-110: with assertions enabled the check,
    including its effects, runs inside BOOST_ASSERT_MSG; a handler that returns lets the
    function go on even if there is no message. *)
Definition er_pop_message (c : config) (coll : collection) (e : erb) : outcome erb :=
  do e <- match mode c with
          | Disabled => Ok e
          | Aborting => do (found, e') <- check c coll e; if found then Ok e' else AssertFail
          | Reporting => do (_, e') <- check c coll e; Ok e'
          end;
  do len <- er_message_length c coll e;
  do e <- er_pop_front c coll len e;
  Ok (ERB None (er_buf e)).

(** ** Deserialization *)

(** Unbuffer<T>::apply on an iterator into the buffer's array,
    tuple-transmission/serializers/BitwiseCopySerialization.h:49-68: reads sizeof(T)
    bytes at position [pos]; outside the array, or not a representation of a value: UB. *)
Definition unbuffer (c : config) (cap : Z) (contents : list Z) (t : fty) (pos : Z) : outcome value :=
  let n := Z.of_nat (fsize t) in
  if range_ok cap pos (pos + n) then
    match decode c t (arr_slice contents pos (pos + n)) with
    | Some v => Ok v
    | None => UB
    end
  else UB.

(** Deserialize<TypeIter, Context>::apply,
    tuple-transmission/detail/operations/DeserializeToFusion.h:64-94: fields in order,
    pushed to the back of the sequence [acc]. *)
Fixpoint deserialize (c : config) (cap : Z) (contents : list Z) (ts : list fty) (pos : Z)
         (acc : list value) : outcome (list value) :=
  match ts with
  | [] => Ok acc
  | t :: rest =>
      do v <- unbuffer c cap contents t pos;
      deserialize c cap contents rest (pos + Z.of_nat (fsize t)) (acc ++ [v])
  end.

(** deserializeAndInvoke up to the call of the user's functor,
    tuple-transmission/detail/operations/DeserializeAndInvoke.h:39-45,
    DeserializeToFusion.h:96-121 and Receiver.h:168-177: which message type and
    values the functor is called with ([None]: not called, apply_at found no element).
    [pos] is getDataIterator(), EnvelopeReceiveBuffer.h:100-102; an iterator outside the
    array is undefined behaviour. *)
Definition deserialize_message (c : config) (coll : collection) (e : erb) (id : Z)
  : outcome (option (mtype * list value)) :=
  let pos := rb_begin (er_buf e) + data_offset (mc_env coll) in
  if capacity coll <? pos then UB
  else
  apply_at (mc_types coll) id
    (fun m (_ : outcome (option (mtype * list value))) =>
       do vs <- deserialize c (capacity coll) (rb_contents (er_buf e)) (mt_fields m) pos [];
       Ok (Some (m, vs)))
    (Ok None).

(** ** Receive adapters *)

(** What a class derived from ReceiveAdapterBase supplies
    (tuple-transmission/detail/bases/ReceiveAdapterBase.h:34-42): the number of
    available bytes, and the function storing at most the given number of bytes: the
    bytes it stored and the count it returned. *)
Record adapter := Adapter { ad_available : Z; ad_read : Z -> list Z * Z }.

(** ReceiveAdapterBase::operator(), ReceiveAdapterBase.h:55-58: maximum and result are
    uint8_t. *)
Definition adapter_call (a : adapter) (maxBytes : Z) : list Z * Z :=
  let '(data, ret) := ad_read a (trunc 8 maxBytes) in (data, trunc 8 ret).

(** ReceiveAdapterBase::getNumAvailable, ReceiveAdapterBase.h:49-51: uint8_t. *)
Definition adapter_available (a : adapter) : Z := trunc 8 (ad_available a).

(** VrpnSerialReceiveAdapter, tuple-transmission/receiveadapters/VrpnSerial.h:36-47 on
    ReceiveAdapterWithoutAvailable (ReceiveAdapterBase.h:69-75): 255 bytes are asked
    for; the port's read_available_characters is the oracle [read], its int result is
    converted to uint8_t (line 42). *)
Definition vrpn_adapter (read : Z -> list Z * Z) : adapter :=
  Adapter 255 (fun n => let '(data, ret) := read n in (data, trunc 8 ret)).

(** ArduinoSerialReceiveAdapter, tuple-transmission/receiveadapters/ArduinoSerial.h:38-53
    (its base class name at line 38 does not exist; modelled as ReceiveAdapterBase). *)
Definition arduino_adapter (available : Z) (read : Z -> list Z * Z) : adapter :=
  Adapter (trunc 8 (Z.min 255 available))
          (fun n => let '(data, ret) := read n in (data, trunc 8 ret)).

(** ** Receiver *)

(** A handler object: [h_obj] its address, [h_type] the C++ class. *)
Record handler := Handler { h_obj : Z; h_type : Z }.

(** Receiver's members, tuple-transmission/Receiver.h:186-196: the buffer, the invoker
    (identified by the handler class it was instantiated for), the functor pointer, the
    last message id. *)
Record receiver := Receiver {
  rx_recv : erb;
  rx_invoker : option Z;
  rx_functor : option handler;
  rx_last : option Z }.

(** Default constructor, Receiver.h:80-82. *)
Definition rx_init (coll : collection) : receiver := Receiver (er_init coll) None None None.

(** Constructor from a handler, Receiver.h:74-77. *)
Definition rx_init_handler (coll : collection) (h : handler) : receiver :=
  Receiver (er_init coll) (Some (h_type h)) (Some h) None.

(** setHandler, Receiver.h:86-90. *)
Definition rx_set_handler (h : handler) (r : receiver) : receiver :=
  Receiver (rx_recv r) (Some (h_type h)) (Some h) (rx_last r).

(** clearHandler, Receiver.h:93-96. *)
Definition rx_clear_handler (r : receiver) : receiver :=
  Receiver (rx_recv r) None None (rx_last r).

(** hasHandler, Receiver.h:99-101. *)
Definition rx_has_handler (r : receiver) : bool :=
  match rx_functor r with Some _ => true | None => false end.

(** getBufferAvailableSpace, Receiver.h:105-107. *)
Definition rx_available (coll : collection) (r : receiver) : Z := er_available coll (rx_recv r).

(** appendReceived, Receiver.h:111-114. *)
Definition rx_append (c : config) (coll : collection) (data : list Z) (r : receiver) : outcome receiver :=
  do e <- er_append c coll data (rx_recv r);
  Ok (Receiver e (rx_invoker r) (rx_functor r) (rx_last r)).

(** receiveFrom, Receiver.h:120-123. *)
Definition rx_receive_from (c : config) (coll : collection) (a : adapter) (r : receiver)
  : outcome (receiver * Z) :=
  do (e, n) <- er_from_functor c coll (adapter_call a) (adapter_available a) (rx_recv r);
  Ok (Receiver e (rx_invoker r) (rx_functor r) (rx_last r), n).

(** getLastMessageId, Receiver.h:126-128. *)
Definition rx_last_id (r : receiver) : option Z := rx_last r.

(** Implicit copy constructor: members copied, ReceiveBuffer's copy constructor for the
    buffer (util/ReceiveBuffer.h:81-86). *)
Definition rx_copy (coll : collection) (r : receiver) : outcome receiver :=
  do b <- rb_copy (capacity coll) (er_buf (rx_recv r));
  Ok (Receiver (ERB (er_id (rx_recv r)) b) (rx_invoker r) (rx_functor r) (rx_last r)).

(** [Receiver x(a)] with [a] a handler object or a receiver, named by a variable, by a const
    variable or reference, or a temporary. *)
Inductive ctor_arg := FromHandler (h : handler) | FromReceiver (r : receiver).
Inductive category := Lvalue | ConstLvalue | Temporary.

(** The constructor template, Receiver.h:74-77: its parameter [MessageFunctor &] is deduced for
    every lvalue, as a const class for a const one, and does not bind to a temporary.  With a
    receiver for a handler its body does not compile, Receiver having no operator()
    (tuple-transmission/detail/operations/DeserializeToFusion.h:110), nor with a const class, a pointer
    to const not being convertible to [void *] (Receiver.h:77 and 195). *)
Definition template_viable (cat : category) : bool :=
  match cat with Temporary => false | _ => true end.
Definition template_construct (coll : collection) (cat : category) (a : ctor_arg) : outcome receiver :=
  match a, cat with
  | FromHandler h, Lvalue => Ok (rx_init_handler coll h)
  | _, _ => Rejected
  end.

(** Choice between the template and the implicit copy constructor, whose parameter is
    [Receiver const &]: for a receiver that is not const the template's parameter is the less
    qualified one and preferred ([over.ics.rank]); for a const one the parameters are the same and
    the constructor that is no template is preferred ([over.match.best]). *)
Definition rx_construct (coll : collection) (cat : category) (a : ctor_arg) : outcome receiver :=
  match a with
  | FromHandler _ => if template_viable cat then template_construct coll cat a else Rejected
  | FromReceiver r =>
      match cat with
      | Lvalue => template_construct coll cat a
      | _ => rx_copy coll r
      end
  end.

(** Implicit assignment from another receiver (util/ReceiveBuffer.h:109-116). *)
Definition rx_assign (coll : collection) (other self : receiver) : outcome receiver :=
  do b <- rb_assign (capacity coll) (er_buf (rx_recv other)) (er_buf (rx_recv self));
  Ok (Receiver (ERB (er_id (rx_recv other)) b) (rx_invoker other) (rx_functor other)
        (rx_last other)).

(** Assignment of a receiver to itself (util/ReceiveBuffer.h:110-111); the other members keep their
    values. *)
Definition rx_self_assign (coll : collection) (r : receiver) : outcome receiver :=
  do b <- rb_self_assign (capacity coll) (er_buf (rx_recv r));
  Ok (Receiver (ERB (er_id (rx_recv r)) b) (rx_invoker r) (rx_functor r) (rx_last r)).

(** One call of a handler's operator(): the object called, the message type it was
    called for and its fields. *)
Record delivery := Delivery { d_handler : handler; d_message : mtype; d_values : list value }.

(** What user handler code may do with the receiver while it runs. *)
Inductive hact :=
| ASetHandler (h : handler)
| AClearHandler
| AAppend (data : list Z)
| AProcess.

(** A run of the user's handler: actions on the receiver, then return or throw.
    Not in /repo: user code.  The behaviour is an arbitrary function of the calls made
    so far, the last one being the current call. *)
Record hresult := HResult { hr_acts : list hact; hr_throws : bool }.
Definition hbehav := list delivery -> hresult.

(** The receiver and the calls handlers have received. *)
Record world := World { w_rx : receiver; w_log : list delivery }.

(** How processMessages ends. *)
Inductive presult := Returned (n : Z) | Threw.

(** Executing a handler's actions, [proc] being processMessages; an exception from a
    nested call propagates. *)
Fixpoint run_acts (c : config) (coll : collection)
         (proc : world -> outcome (world * presult)) (acts : list hact) (w : world)
  : outcome (world * bool) :=
  match acts with
  | [] => Ok (w, false)
  | a :: rest =>
      do (w', threw) <-
        match a with
        | ASetHandler h => Ok (World (rx_set_handler h (w_rx w)) (w_log w), false)
        | AClearHandler => Ok (World (rx_clear_handler (w_rx w)) (w_log w), false)
        | AAppend d => do r <- rx_append c coll d (w_rx w); Ok (World r (w_log w), false)
        | AProcess =>
            do (w', p) <- proc w;
            Ok (w', match p with Threw => true | Returned _ => false end)
        end;
      if threw then Ok (w', true) else run_acts c coll proc rest w'
  end.

(** ( *_invoker)(id, _functorPointer, iterator), Receiver.h:146 and 168-177: a null invoker or
    functor, or one of another class, is undefined behaviour.  The flag tells whether
    the handler threw. *)
Definition invoke (c : config) (coll : collection) (beh : hbehav)
           (proc : world -> outcome (world * presult)) (id : Z) (w : world)
  : outcome (world * bool) :=
  match rx_invoker (w_rx w), rx_functor (w_rx w) with
  | Some ty, Some h =>
      if negb (ty =? h_type h) then UB
      else
        do found <- deserialize_message c coll (rx_recv (w_rx w)) id;
        match found with
        | None => Ok (w, false)
        | Some (m, vs) =>
            let log := w_log w ++ [Delivery h m vs] in
            let hr := beh log in
            do (w', threw) <- run_acts c coll proc (hr_acts hr) (World (w_rx w) log);
            Ok (w', threw || hr_throws hr)
        end
  | _, _ => UB
  end.

(** Set _recv / _lastMessageId. *)
Definition w_set_recv (e : erb) (w : world) : world :=
  World (Receiver e (rx_invoker (w_rx w)) (rx_functor (w_rx w)) (rx_last (w_rx w))) (w_log w).
Definition w_set_last (id : Z) (w : world) : world :=
  World (Receiver (rx_recv (w_rx w)) (rx_invoker (w_rx w)) (rx_functor (w_rx w)) (Some id))
        (w_log w).

(** The loop of processMessages, Receiver.h:139-153; [n] is msgCount, a uint8_t.
    Nested calls start with their own count. *)
Fixpoint process_loop (fuel : nat) (c : config) (coll : collection) (beh : hbehav) (n : Z) (w : world)
  : outcome (world * presult) :=
  match fuel with
  | O => Hang
  | S fuel' =>
      do (found, e) <- check c coll (rx_recv (w_rx w));
      let w := w_set_recv e w in
      if negb found then Ok (w, Returned n)
      else
        do id <- er_current_id c e;
        let w := w_set_last id w in
        do (w, threw) <-
          invoke c coll beh
            (fun w => if rx_has_handler (w_rx w) then process_loop fuel' c coll beh 0 w
                      else Ok (w, Returned 0))
            id w;
        if threw then Ok (w, Threw)
        else
          do e <- er_pop_message c coll (rx_recv (w_rx w));
          process_loop fuel' c coll beh (trunc 8 (n + 1)) (w_set_recv e w)
  end.

(** processMessages, Receiver.h:134-155. *)
Definition process_messages (fuel : nat) (c : config) (coll : collection) (beh : hbehav) (w : world)
  : outcome (world * presult) :=
  if negb (rx_has_handler (w_rx w)) then Ok (w, Returned 0)
  else process_loop fuel c coll beh 0 w.

(** ** The public interface as operations *)
Inductive op :=
| OpSetHandler (h : handler)
| OpClearHandler
| OpAppend (data : list Z)
| OpReceive (a : adapter)
| OpProcess.

(** What the caller sees of one operation. *)
Inductive opret := RetUnit | RetCount (n : Z) | RetProcess (p : presult).

(** One operation of Receiver's public interface, Receiver.h:86-155. *)
Definition step (fuel : nat) (c : config) (coll : collection) (beh : hbehav) (o : op) (w : world)
  : outcome (world * opret) :=
  match o with
  | OpSetHandler h => Ok (World (rx_set_handler h (w_rx w)) (w_log w), RetUnit)
  | OpClearHandler => Ok (World (rx_clear_handler (w_rx w)) (w_log w), RetUnit)
  | OpAppend d => do r <- rx_append c coll d (w_rx w); Ok (World r (w_log w), RetUnit)
  | OpReceive a =>
      do (r, n) <- rx_receive_from c coll a (w_rx w); Ok (World r (w_log w), RetCount n)
  | OpProcess =>
      do (w', p) <- process_messages fuel c coll beh w; Ok (w', RetProcess p)
  end.

(** A history of operations and what each returned. *)
Fixpoint run (fuel : nat) (c : config) (coll : collection) (beh : hbehav) (ops : list op) (w : world)
  : outcome (world * list opret) :=
  match ops with
  | [] => Ok (w, [])
  | o :: rest =>
      do (w', r) <- step fuel c coll beh o w;
      do (w'', rs) <- run fuel c coll beh rest w';
      Ok (w'', r :: rs)
  end.
