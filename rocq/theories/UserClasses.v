(** Transmitters and receive adapters as classes of an application: which member functions the class templates
    TransmitterBase and ReceiveAdapterBase find in a class derived from them, and exceptions thrown while bytes are
    being received. *)
From Verif Require Export Receive.

(** The member functions a class derived from TransmitterBase
    (tuple-transmission/detail/bases/TransmitterBase.h:35-95) defines itself. *)
Record transmitter_class (S : Type) := TransmitterClass {
  tc_byte : option (Z -> S -> outcome S);
  tc_block : option (list Z -> S -> outcome S);
  tc_finished : option (S -> outcome S) }.
Arguments TransmitterClass {S}.
Arguments tc_byte {S}.
Arguments tc_block {S}.
Arguments tc_finished {S}.

(** Those found by [impl().writeByte], [impl().write] and [impl().writeFinished], TransmitterBase.h:49-62: the class's
    own, else the base's (lines 72-80); the base declares writeByte without defining it (line 84), so that a program
    using it is not linked. *)
Definition class_byte {S} (k : transmitter_class S) : Z -> S -> outcome S :=
  match tc_byte k with Some f => f | None => fun _ _ => Rejected end.
Definition class_tx {S} (k : transmitter_class S) : transmitter S :=
  Transmitter (class_byte k)
    (match tc_block k with Some f => f | None => write_fallback (class_byte k) end)
    (match tc_finished k with Some f => f | None => finished_fallback end).

(** A class given to receiveFrom: whether it is derived from ReceiveAdapterWithoutAvailable
    (tuple-transmission/detail/bases/ReceiveAdapterBase.h:69-75) or from ReceiveAdapterBase itself; its own
    getNumAvailable, if it defines one, with the number it returns or [None] when it throws; its own
    receiveIntoBuffer, if it defines one: given the maximum, the bytes it stores and then the count it returns,
    or [None] when it throws. *)
Record adapter_class := AdapterClass {
  ac_without : bool;
  ac_available : option (option Z);
  ac_receive : option (Z -> list Z * option Z) }.

(** ReceiveAdapterBase::getNumAvailable, ReceiveAdapterBase.h:49-51: calls the getNumAvailable found in the derived
    class, its own, else that of ReceiveAdapterWithoutAvailable (lines 72-74), else this very function again.  Each
    call consumes one unit of [fuel].  [None]: an exception. *)
Fixpoint num_available (fuel : nat) (k : adapter_class) : outcome (option Z) :=
  match fuel with
  | O => Hang
  | S fuel' =>
      match ac_available k with
      | Some r => Ok (option_map (trunc 8) r)
      | None => if ac_without k then Ok (Some 255) else num_available fuel' k
      end
  end.

(** bufferFromExternalFunctorRef, util/ReceiveBuffer.h:192-200, with a functor that may throw: what it has stored
    stays in the array, the end of the contents is not advanced. *)
Definition u_from_functor (c : config) (cap : Z) (f : Z -> list Z * option Z) (n : Z) (b : rbuf)
  : outcome (rbuf * option Z) :=
  let n1 := Z.min n (to_sz cap (rb_max_size cap - rb_size cap b)) in
  do b1 <- rb_ensure_space c cap n1 b;
  let '(data, ret) := f n1 in
  if rb_pastEnd b1 + zlen data <=? cap then
    let contents := arr_write (rb_contents b1) (rb_pastEnd b1) data in
    match ret with
    | None => Ok (RBuf (rb_begin b1) (rb_pastEnd b1) contents, None)
    | Some ret =>
        let actual := to_sz cap ret in
        let b2 := RBuf (rb_begin b1) (to_sz cap (rb_pastEnd b1 + actual)) contents in
        do _ <- rb_verify c cap b2;
        Ok (b2, Some actual)
    end
  else UB.

(** receiveFrom, tuple-transmission/Receiver.h:120-123 (through
    tuple-transmission/detail/types/EnvelopeReceiveBuffer.h:159-162), with ReceiveAdapterBase::operator(),
    ReceiveAdapterBase.h:55-58: without a receiveIntoBuffer it does not compile.  [None]: an exception. *)
Definition u_receive_from (fuel : nat) (c : config) (coll : collection) (k : adapter_class) (r : receiver)
  : outcome (receiver * option Z) :=
  match ac_receive k with
  | None => Rejected
  | Some f =>
      do n <- num_available fuel k;
      match n with
      | None => Ok (r, None)
      | Some n =>
          do (b, a) <- u_from_functor c (capacity coll)
                         (fun m => let '(data, ret) := f (trunc 8 m) in (data, option_map (trunc 8) ret))
                         n (er_buf (rx_recv r));
          Ok (Receiver (ERB (er_id (rx_recv r)) b) (rx_invoker r) (rx_functor r) (rx_last r), a)
      end
  end.

(** appendReceived, Receiver.h:111-114 (through EnvelopeReceiveBuffer.h:77-80), given iterators that throw after the first
    [k] elements: push_back, util/ReceiveBuffer.h:175-182, has made room and std::copy has copied these (line 178). *)
Definition u_append_throwing (c : config) (coll : collection) (data : list Z) (k : nat) (r : receiver) : outcome receiver :=
  let cap := capacity coll in
  do b <- rb_ensure_space c cap (to_sz cap (zlen data)) (er_buf (rx_recv r));
  if rb_pastEnd b + zlen (firstn k data) <=? cap then
    Ok (Receiver (ERB (er_id (rx_recv r))
                      (RBuf (rb_begin b) (rb_pastEnd b) (arr_write (rb_contents b) (rb_pastEnd b) (firstn k data))))
                 (rx_invoker r) (rx_functor r) (rx_last r))
  else UB.
