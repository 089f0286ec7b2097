(** Interrupts in the midst of receiveFrom: the accesses that util::ReceiveBuffer::bufferFromExternalFunctorRef makes to the data
    members, with an interrupt routine that calls processMessages possible before each of them.

    Simplifications: those of TornAppend.v.  The adapter's answers do not depend on when it is asked; it stores its bytes one after
    the other from the first to the last. *)
From Verif Require Export TornAppend.

(** size(), util/ReceiveBuffer.h:124-126, where its value decides what is returned: the two members read, in the order [o] says
    (TornAppend.w_both), the routine possible before each. *)
Definition w_read_size (fuel : nat) (o : bool) (c : config) (coll : collection) (beh : hbehav) (coming : list bool) (w : world)
  : outcome (Z * world * list presult) :=
  do (w1, ps) <- w_interrupt fuel c coll beh (hd false coming) w;
  do (w2, qs) <- w_interrupt fuel c coll beh (hd false (tl coming)) w1;
  let b1 := er_buf (rx_recv (w_rx w1)) in
  let b2 := er_buf (rx_recv (w_rx w2)) in
  Ok (to_sz (capacity coll) (if o then rb_pastEnd b1 - rb_begin b2 else rb_pastEnd b2 - rb_begin b1), w2, ps ++ qs).

(** bufferFromExternalFunctorRef(f, n), util/ReceiveBuffer.h:192-200, behind the line that computes [n]: the functor stores [data] at
    _contents.begin() + _pastEnd and reports [actual]; [_pastEnd += actual] reads the member and writes it. *)
Definition w_functor (o : bool) (c : config) (cap n : Z) (data : list Z) (actual : Z) : wmicro :=
  w_ensure_space o c cap n
    (WPastEnd (fun pos =>
       if pos + zlen data <=? cap
       then w_store pos data
              (WPastEnd (fun p => WSetPastEnd (to_sz cap (p + actual)) (w_verify o c cap WDone)))
       else WUndefined)).

(** receiveFrom, tuple-transmission/Receiver.h:120-123, with tuple-transmission/detail/types/EnvelopeReceiveBuffer.h:159-162 and line
    193 of util/ReceiveBuffer.h: the world after it, what it returns, what the interrupts returned. *)
Definition w_receive (fuel : nat) (o : bool) (c : config) (coll : collection) (beh : hbehav) (a : adapter) (coming : list bool)
           (w : world) : outcome (world * Z * list presult) :=
  let cap := capacity coll in
  do (sw, ps) <- w_read_size fuel o c coll beh coming w;
  let '(size, w1) := sw in
  let n := Z.min (adapter_available a) (to_sz cap (rb_max_size cap - size)) in
  let '(data, ret) := adapter_call a n in
  let actual := to_sz cap ret in
  do (w2, qs) <- w_run fuel c coll beh (w_functor o c cap n data actual) (tl (tl coming)) w1;
  Ok (w2, actual, ps ++ qs).
