(** How many elements of the receive buffer are moved: the functions of [ReceiveBuffer.v] and [Receive.v] that
    may shift the contents to the front of the array, each returning beside its result the number of elements
    std::copy copies inside the array for that (idealContentsCopy, util/ReceiveBuffer.h:336-340, called by
    slide_contents_forward, lines 310-312).  Copying the new bytes into the array (line 178) is not counted.  Nothing
    else differs: the results are those of [Receive.v] (C87). *)
From Verif Require Export Counted.

(** ensure_space(n), util/ReceiveBuffer.h:285-298. *)
Definition m_ensure_space (c : config) (cap n : Z) (b : rbuf) : counted rbuf :=
  let b1 := if rb_empty b then RBuf 0 0 (rb_contents b) else b in
  if promoted_add c (size_bits cap) (rb_pastEnd b1) n <=? cap then cret (Ok b1)
  else
    cbind (cret (assert_ c (promoted_add c (size_bits cap) (rb_size cap b1) n <=? cap))) (fun _ =>
    (rb_slide cap b1, rb_pastEnd b1 - rb_begin b1)).

(** push_back(input_begin, input_end), util/ReceiveBuffer.h:175-182. *)
Definition m_push_range (c : config) (cap : Z) (data : list Z) (b : rbuf) : counted rbuf :=
  cbind (m_ensure_space c cap (to_sz cap (zlen data)) b) (fun b1 =>
  cret (if rb_pastEnd b1 + zlen data <=? cap then
          let b2 := RBuf (rb_begin b1) (to_sz cap (rb_pastEnd b1 + zlen data))
                         (arr_write (rb_contents b1) (rb_pastEnd b1) data) in
          do _ <- rb_verify c cap b2;
          Ok b2
        else UB)).

(** bufferFromExternalFunctorRef(f, n), util/ReceiveBuffer.h:192-200. *)
Definition m_from_functor (c : config) (cap : Z) (f : Z -> list Z * Z) (n : Z) (b : rbuf) : counted (rbuf * Z) :=
  let n1 := Z.min n (to_sz cap (rb_max_size cap - rb_size cap b)) in
  cbind (m_ensure_space c cap n1 b) (fun b1 =>
  cret (let '(data, ret) := f n1 in
        if rb_pastEnd b1 + zlen data <=? cap then
          let actual := to_sz cap ret in
          let b2 := RBuf (rb_begin b1) (to_sz cap (rb_pastEnd b1 + actual))
                         (arr_write (rb_contents b1) (rb_pastEnd b1) data) in
          do _ <- rb_verify c cap b2;
          Ok (b2, actual)
        else UB)).

(** appendReceived, tuple-transmission/Receiver.h:111-114, with bufferAppend,
    tuple-transmission/detail/types/EnvelopeReceiveBuffer.h:77-80. *)
Definition m_append (c : config) (coll : collection) (data : list Z) (r : receiver) : counted receiver :=
  cbind (m_push_range c (capacity coll) data (er_buf (rx_recv r))) (fun b =>
  cret (Ok (Receiver (ERB (er_id (rx_recv r)) b) (rx_invoker r) (rx_functor r) (rx_last r)))).

(** receiveFrom, Receiver.h:120-123, with bufferFromFunctorRef, EnvelopeReceiveBuffer.h:159-162. *)
Definition m_receive_from (c : config) (coll : collection) (a : adapter) (r : receiver) : counted (receiver * Z) :=
  cbind (m_from_functor c (capacity coll) (adapter_call a) (adapter_available a) (er_buf (rx_recv r))) (fun bn =>
  cret (Ok (Receiver (ERB (er_id (rx_recv r)) (fst bn)) (rx_invoker r) (rx_functor r) (rx_last r), snd bn))).

(** One operation of Receiver's public interface, Receiver.h:86-155.  Moves made by handlers that append to the
    receiver during processMessages are not counted; C87 has none. *)
Definition m_step (fuel : nat) (c : config) (coll : collection) (beh : hbehav) (o : op) (w : world)
  : counted (world * opret) :=
  match o with
  | OpAppend d => cbind (m_append c coll d (w_rx w)) (fun r => cret (Ok (World r (w_log w), RetUnit)))
  | OpReceive a =>
      cbind (m_receive_from c coll a (w_rx w)) (fun rn => cret (Ok (World (fst rn) (w_log w), RetCount (snd rn))))
  | _ => cret (step fuel c coll beh o w)
  end.

(** The number of elements moved. *)
Definition moves {A} (m : counted A) : Z := snd m.
