(** Transmitters, serialization and sending. *)
From Verif Require Export Meta Floats.

(** The interface a transmitter implementation gives to TransmitterBase
    (tuple-transmission/detail/bases/TransmitterBase.h:49-84): single byte, block,
    completion.  [output], [output(data,len)] and [outputFinished] (lines 49-62)
    forward to these.  [S] is the state of the transmitter object and of whatever it
    writes to. *)
Record transmitter (S : Type) := Transmitter {
  tx_byte : Z -> S -> outcome S;
  tx_block : list Z -> S -> outcome S;
  tx_finished : S -> outcome S }.
Arguments Transmitter {S}.
Arguments tx_byte {S}.
Arguments tx_block {S}.
Arguments tx_finished {S}.

(** TransmitterBase::write, the fallback that writes byte by byte,
    tuple-transmission/detail/bases/TransmitterBase.h:72-76. *)
Fixpoint write_fallback {S} (byte : Z -> S -> outcome S) (data : list Z) (s : S) : outcome S :=
  match data with
  | [] => Ok s
  | b :: rest => do s' <- byte b s; write_fallback byte rest s'
  end.

(** TransmitterBase::writeFinished, the fallback doing nothing,
    tuple-transmission/detail/bases/TransmitterBase.h:79-80. *)
Definition finished_fallback {S} (s : S) : outcome S := Ok s.

(** ** Shipped transmitters *)

(** ChecksumComputer, tuple-transmission/transmitters/ChecksumComputer.h:43-53:
    state is [_ck], a uint8_t, initially 0. *)
Definition checksum_init : Z := 0.
Definition checksum_byte (v ck : Z) : outcome Z := Ok (trunc 8 (ck + v)).
Definition checksum_tx : transmitter Z :=
  Transmitter checksum_byte (write_fallback checksum_byte) finished_fallback.

(** TransmitterComposition, tuple-transmission/transmitters/TransmitterComposition.h:57-73:
    state is that of the two referenced transmitters.  writeFinished is inherited.
    Simplification: the two references designate different objects. *)
Definition compose_tx {A B} (t1 : transmitter A) (t2 : transmitter B) : transmitter (A * B) :=
  Transmitter
    (fun v s => do a <- tx_byte t1 v (fst s); do b <- tx_byte t2 v (snd s); Ok (a, b))
    (fun d s => do a <- tx_block t1 d (fst s); do b <- tx_block t2 d (snd s); Ok (a, b))
    finished_fallback.

(** VectorBuffer, tuple-transmission/transmitters/VectorBuffer.h:45-55: state is the
    content of the std::vector, initially cleared (line 46).  Simplification: memory
    allocation never fails. *)
Definition vector_init : list Z := [].
Definition vector_tx : transmitter (list Z) :=
  Transmitter (fun v s => Ok (s ++ [v])) (fun d s => Ok (s ++ d)) finished_fallback.

(** BoostArrayBuffer<SIZE>, tuple-transmission/transmitters/BoostArrayBuffer.h:42-79:
    the array and the offset of [it].  Writing through [it] at or past the end of the
    array is undefined behaviour (lines 44-51). *)
Record abuf := ABuf { ab_buffer : list Z; ab_it : Z }.
Definition abuf_init (size : Z) : abuf := ABuf (repeat 0 (Z.to_nat size)) 0.
Definition abuf_write (size : Z) (data : list Z) (s : abuf) : outcome abuf :=
  if ab_it s + zlen data <=? size
  then Ok (ABuf (firstn (Z.to_nat (ab_it s)) (ab_buffer s) ++ data
                 ++ skipn (Z.to_nat (ab_it s) + length data) (ab_buffer s))
                (ab_it s + zlen data))
  else UB.
Definition abuf_tx (size : Z) : transmitter abuf :=
  Transmitter (fun v => abuf_write size [v]) (abuf_write size) finished_fallback.
(** reset(), lines 72-74. *)
Definition abuf_reset (s : abuf) : abuf := ABuf (ab_buffer s) 0.
(** The bytes in [begin(), end()), lines 59-70. *)
Definition abuf_content (s : abuf) : list Z := firstn (Z.to_nat (ab_it s)) (ab_buffer s).

(** AutosizedBoostArrayBuffer<BoundMessage> and CollectionAutosizedBoostArrayBuffer<Collection>,
    tuple-transmission/transmitters/AutosizedBoostArrayBuffer.h:42-50. *)
Definition autosized_tx (coll : collection) (m : mtype) : transmitter abuf :=
  abuf_tx (sizeof_bound coll m).
Definition autosized_init (coll : collection) (m : mtype) : abuf :=
  abuf_init (sizeof_bound coll m).
Definition coll_autosized_tx (coll : collection) : transmitter abuf :=
  abuf_tx (max_message_length coll).
Definition coll_autosized_init (coll : collection) : abuf := abuf_init (max_message_length coll).

(** ArduinoI2C, tuple-transmission/transmitters/ArduinoI2C.h:41-63: a 255 byte array
    buffer, written to the bus as one block by writeFinished and then reset.  State: the
    buffer and the list of blocks written to the TwoWire object.  The constructor is
    misnamed at line 43 (the class does not compile as is); modelled as intended. *)
Definition i2c_bufsize : Z := 255.
Record i2c := I2C { i2c_buf : abuf; i2c_bus : list (list Z) }.
Definition i2c_init : i2c := I2C (abuf_init i2c_bufsize) [].
Definition i2c_tx : transmitter i2c :=
  Transmitter
    (fun v s => do b <- tx_byte (abuf_tx i2c_bufsize) v (i2c_buf s); Ok (I2C b (i2c_bus s)))
    (fun d s => do b <- tx_block (abuf_tx i2c_bufsize) d (i2c_buf s); Ok (I2C b (i2c_bus s)))
    (fun s => Ok (I2C (abuf_reset (i2c_buf s)) (i2c_bus s ++ [abuf_content (i2c_buf s)]))).

(** VrpnSerial, tuple-transmission/transmitters/VrpnSerial.h:37-47, and ArduinoSerial,
    tuple-transmission/transmitters/ArduinoSerial.h:36-49: state is the sequence of
    blocks handed to the port's write.  Simplification: the port accepts every block. *)
Definition serial_tx : transmitter (list (list Z)) :=
  Transmitter (fun v s => Ok (s ++ [[v]])) (fun d s => Ok (s ++ [d])) finished_fallback.

(** ** Serialization *)

(** SendContext::operator() (tuple-transmission/detail/bases/SerializerBase.h:64-69) with
    BitwiseCopySerializer::buffer
    (tuple-transmission/serializers/BitwiseCopySerialization.h:35-45): uint8_t goes out
    as a single byte, everything else as the block of its object representation. *)
Definition buffer_field {S} (c : config) (t : transmitter S) (f : fty * value) (s : S) : outcome S :=
  let '(ty, v) := f in
  if fty_eqb ty u8 then
    match v with
    | VInt z => tx_byte t (trunc 8 z) s
    | _ => Rejected
    end
  else tx_block t (encode c ty v) s.

(** bufferTuple: boost::fusion::for_each over the contents,
    tuple-transmission/detail/bases/SerializerBase.h:108-112 and EnvelopeBase.h:54-58. *)
Fixpoint buffer_tuple {S} (c : config) (t : transmitter S) (contents : list (fty * value)) (s : S)
  : outcome S :=
  match contents with
  | [] => Ok s
  | f :: rest => do s' <- buffer_field c t f s; buffer_tuple c t rest s'
  end.

(** Control codes, tuple-transmission/detail/constants/ControlCodes.h:38-45. *)
Definition SOH : Z := 1.
Definition STX : Z := 2.
Definition ETX : Z := 3.
Definition EOT : Z := 4.

(** Basic::sendMessage, tuple-transmission/envelopes/Basic.h:58-66. *)
Definition basic_send {S} (c : config) (t : transmitter S) (contents : list (fty * value))
           (msgId : Z) (s : S) : outcome S :=
  do s <- tx_byte t SOH s;
  do s <- tx_byte t msgId s;
  do s <- tx_byte t STX s;
  do s <- buffer_tuple c t contents s;
  do s <- tx_byte t ETX s;
  tx_byte t EOT s.

(** BasicChecksum::sendMessage, tuple-transmission/envelopes/BasicChecksum.h:57-71. *)
Definition basic_checksum_send {S} (c : config) (t : transmitter S) (contents : list (fty * value))
           (msgId : Z) (s : S) : outcome S :=
  let tc := compose_tx checksum_tx t in
  do cs <- tx_byte tc SOH (checksum_init, s);
  do cs <- tx_byte tc msgId cs;
  do cs <- tx_byte tc STX cs;
  do cs <- buffer_tuple c tc contents cs;
  do cs <- tx_byte tc ETX cs;
  do s <- tx_byte t (fst cs) (snd cs);
  tx_byte t EOT s.

(** EnvelopeBase::sendMessage dispatch, tuple-transmission/detail/bases/EnvelopeBase.h:66-69. *)
Definition envelope_send {S} (e : envelope) (c : config) (t : transmitter S) contents msgId (s : S)
  : outcome S :=
  match e with
  | Basic => basic_send c t contents msgId s
  | BasicChecksum => basic_checksum_send c t contents msgId s
  end.

(** The static assertion on the contents' types, tuple-transmission/Send.h:56-62:
    same type list, or both empty. *)
Definition contents_ok (m : mtype) (contents : list (fty * value)) : bool :=
  ftys_eqb (mt_fields m) (map fst contents)
  || (match mt_fields m, contents with [], [] => true | _, _ => false end).

(** send<Collection, Message>(tx, contents), tuple-transmission/Send.h:48-67, with the
    assertions of BoundMessageType (tuple-transmission/BoundMessageType.h:54-88). *)
Definition send {S} (c : config) (coll : collection) (m : mtype) (t : transmitter S)
           (contents : list (fty * value)) (s : S) : outcome S :=
  if negb (static_ok coll && contents_ok m contents) then Rejected
  else
    match find_index (mc_types coll) m with
    | None => Rejected
    | Some i =>
        do s <- envelope_send (mc_env coll) c t contents (trunc 8 i) s;
        tx_finished t s
    end.

(** A BoundMessageType, tuple-transmission/BoundMessageType.h:53. *)
Record bound_message := Bound { bm_collection : collection; bm_message : mtype }.

(** send<BoundMessage>(tx, contents), tuple-transmission/Send.h:69-73. *)
Definition send_bound {S} (c : config) (bm : bound_message) (t : transmitter S) contents (s : S)
  : outcome S :=
  send c (bm_collection bm) (bm_message bm) t contents s.

(** Overloads taking the field values as separate parameters, arity 0 to 9,
    tuple-transmission/detail/operations/SendOverloads_Generated.h:55-433: convert the
    arguments (given with their static types), build the list, call the sequence form.
    More than 9 arguments: no overload.  A single argument also fits the sequence form
    (tuple-transmission/Send.h:48-49, 69-71): if its type is that of the field, the overload is
    chosen as the more specialized template ([temp.func.order]); otherwise the overload
    needs a conversion, the sequence form does not and is chosen ([over.match.best]), and its
    assertion fails (Send.h:56-62).  (The enable_if conditions use mpl::equal on integral constants and never
    disable anything; a wrong number of arguments has no viable overload because
    mpl::at_c is out of range or the typelists differ.) *)
Definition send_args {S} (c : config) (coll : collection) (m : mtype) (t : transmitter S)
           (args : list (fty * value)) (s : S) : outcome S :=
  if (Nat.leb (length args) 9) && (Nat.eqb (length args) (length (mt_fields m)))
     && (negb (Nat.eqb (length args) 1) || ftys_eqb (mt_fields m) (map fst args))
     && forallb (fun p => convertible (fst p) (snd p)) (combine (map fst args) (mt_fields m))
  then do contents <- convert_args (mt_fields m) (map snd args); send c coll m t contents s
  else Rejected.

(** The same for a BoundMessageType,
    tuple-transmission/detail/operations/SendOverloads_Generated.h:71-81 and its
    counterparts for each arity. *)
Definition send_bound_args {S} (c : config) (bm : bound_message) (t : transmitter S)
           (args : list (fty * value)) (s : S) : outcome S :=
  send_args c (bm_collection bm) (bm_message bm) t args s.
