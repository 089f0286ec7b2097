(** The template metaprograms, as functions on the type lists they traverse. *)
From Verif Require Export Types.

(** util::find_index: util/MPLFindIndex.h:54-68 (mpl::find then mpl::distance from
    the beginning).  [None]: BOOST_MPL_ASSERT(contains) at line 55 fails. *)
Fixpoint find_index_from (pos : Z) (seq : list mtype) (target : mtype) : option Z :=
  match seq with
  | [] => None
  | m :: rest => if mtype_eqb m target then Some pos
                 else find_index_from (pos + 1) rest target
  end.

(** util/MPLFindIndex.h:67-68. *)
Definition find_index (seq : list mtype) (target : mtype) : option Z :=
  find_index_from 0 seq target.

(** util::detail::runtime_int_to_type_impl::apply, util/MPLApplyAt.h:76-104: starting
    at [current], compare with [i] and either run the functor on the element or
    recurse; past the end do nothing (line 88-90).  [op] is the functor's effect on a
    state [s].  The MPL index and the sequence position advance together. *)
Fixpoint apply_at_from {A S : Type} (current : Z) (seq : list A) (i : Z)
         (op : A -> S -> S) (s : S) : S :=
  match seq with
  | [] => s
  | a :: rest => if current =? i then op a s
                 else apply_at_from (current + 1) rest i op s
  end.

(** util::apply_at, util/MPLApplyAt.h:136-146: the index parameter has type
    uint_value_t<size>::least. *)
Definition apply_at {A S : Type} (seq : list A) (i : Z) (op : A -> S -> S) (s : S) : S :=
  apply_at_from 0 seq (trunc (uint_least_bits (zlen seq)) i) op s.

(** detail::operations::Sizeof on a type sequence: mpl::accumulate of sizeof_ from
    int_<0>, tuple-transmission/detail/operations/Sizeof.h:41-46. *)
Definition sizeof_fields (ts : list fty) : Z :=
  fold_left (fun acc t => acc + Z.of_nat (fsize t)) ts 0.

(** Envelope overhead: tuple-transmission/envelopes/Basic.h:43-48,
    tuple-transmission/envelopes/BasicChecksum.h:41-47. *)
Definition overhead_size (e : envelope) : Z :=
  match e with
  | Basic => 1 + 1 + 1 + 1 + 1
  | BasicChecksum => 1 + 1 + 1 + 1 + 1 + 1
  end.

(** data_offset: tuple-transmission/envelopes/Basic.h:50, BasicChecksum.h:49. *)
Definition data_offset (e : envelope) : Z :=
  match e with Basic => 3 | BasicChecksum => 3 end.

(** Sizeof<BoundMessageType<Collection, Message>>:
    tuple-transmission/detail/operations/Sizeof.h:48-60 with the envelope's Size,
    tuple-transmission/envelopes/Basic.h:54-55, BasicChecksum.h:51-52. *)
Definition sizeof_bound (coll : collection) (m : mtype) : Z :=
  overhead_size (mc_env coll) + sizeof_fields (mt_fields m).

(** MaxMessage: boost::mpl::max_element with TotalMessageSizeLess,
    tuple-transmission/detail/operations/MaxMessageLength.h:40-49: keep the best so
    far unless it is strictly smaller than the next. *)
Definition max_message_from (coll : collection) (best : mtype) (rest : list mtype) : mtype :=
  fold_left (fun old m => if sizeof_bound coll old <? sizeof_bound coll m then m else old)
            rest best.

(** MaxMessageLength, tuple-transmission/detail/operations/MaxMessageLength.h:51-52.
    On an empty collection mpl::deref of the end iterator does not compile; the
    model's value 0 is never used then ([static_ok] excludes it). *)
Definition max_message_length (coll : collection) : Z :=
  match mc_types coll with
  | [] => 0
  | m :: rest => sizeof_bound coll (max_message_from coll m rest)
  end.

(** ComputeReceiveBufferSize: tuple-transmission/detail/operations/ComputeReceiveBufferSize.h:37-43
    with MessageBufferSizeScale = 3,
    tuple-transmission/detail/constants/MessageBufferSizeScale.h:36. *)
Definition receive_buffer_size (coll : collection) : Z := max_message_length coll * 3.

(** MessageCount, tuple-transmission/detail/operations/MessageCount.h:37-38. *)
Definition message_count (coll : collection) : Z := zlen (mc_types coll).

(** isIdValid, tuple-transmission/detail/operations/IsIdValid.h:37-40
    ([id] is a uint8_t, so never negative). *)
Definition is_id_valid (coll : collection) (id : Z) : bool := id <? message_count coll.

(** MessageSizeType, tuple-transmission/detail/types/MessageSizeType.h:33-36. *)
Definition message_size_bits (coll : collection) : Z :=
  uint_least_bits (max_message_length coll).

(** MessageLength<Collection, Id> (compile time, mpl::at),
    tuple-transmission/detail/operations/MessageLength.h:56-58. *)
Definition message_length_static (coll : collection) (n : nat) : option Z :=
  option_map (sizeof_bound coll) (nth_error (mc_types coll) n).

(** getMessageLength (run time), tuple-transmission/detail/operations/MessageLength.h:60-71.
    [retval] (line 68) is uninitialised, modelled by [None]; returning it then is UB.
    The functor GetSizeof (lines 42-53) assigns with conversion to the size type. *)
Definition get_message_length (coll : collection) (id : Z) : outcome Z :=
  if negb (is_id_valid coll id) then Ok 0
  else
    match apply_at (mc_types coll) id
            (fun m (_ : option Z) => Some (trunc (message_size_bits coll) (sizeof_bound coll m)))
            None with
    | Some len => Ok len
    | None => UB
    end.

(** What compiles: static assertions of tuple-transmission/BoundMessageType.h:54-88
    (at most MaxMessageId = 255 messages, line 88 and
    tuple-transmission/detail/types/MessageIdType.h:34-36), a nonempty collection
    (see [max_message_length]), C++ object sizes of at least 1, and a buffer size that
    has a uint_value_t.  The arity assertion at line 84 compares integral constants
    with the sequence algorithm mpl::equal and never fails, so it is absent here. *)
Definition static_ok (coll : collection) : bool :=
  (1 <=? message_count coll) && (message_count coll <=? 255)
  && forallb (fun m => forallb (fun t => (1 <=? Z.of_nat (fsize t))) (mt_fields m)) (mc_types coll)
  && (receive_buffer_size coll <? 2 ^ 64).
