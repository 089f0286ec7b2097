(** Interrupts in the midst of appendReceived: the accesses that util::ReceiveBuffer::push_back of a range makes to the data
    members, with an interrupt routine that calls processMessages possible before each of them.

    Simplifications: the members are read and written where the source does so (the compiler keeps none in a register over an
    interrupt), each access is indivisible, std::copy copies the bytes one after the other from the first to the last, the interrupt
    routine is not itself interrupted, and it catches what processMessages throws. *)
From Verif Require Export Receive.

(** A computation as its accesses to _begin, _pastEnd and _contents, util/ReceiveBuffer.h:347-349, and its assertions. *)
Inductive wmicro : Type :=
| WDone
| WUndefined                                   (* undefined behaviour *)
| WAssert (x : bool) (k : wmicro)
| WBegin (k : Z -> wmicro)                     (* reads _begin *)
| WPastEnd (k : Z -> wmicro)                   (* reads _pastEnd *)
| WElement (i : Z) (k : Z -> wmicro)           (* reads _contents[i] *)
| WSetBegin (x : Z) (k : wmicro)               (* writes _begin *)
| WSetPastEnd (x : Z) (k : wmicro)             (* writes _pastEnd *)
| WSetElement (i x : Z) (k : wmicro).          (* writes _contents[i] *)

(** Two operands of one expression, or two arguments of one call, read in an order the language does not lay down: [left_first]. *)
Definition w_both (left_first begin_left : bool) (k : Z -> Z -> wmicro) : wmicro :=
  if Bool.eqb left_first begin_left
  then WBegin (fun b => WPastEnd (fun e => k b e))
  else WPastEnd (fun e => WBegin (fun b => k b e)).

(** BOOST_ASSERT_MSG around an expression that reads members, util/BoostAssertMsg.h:42-98: not evaluated when switched off. *)
Definition w_assert (c : config) (e : (bool -> wmicro) -> wmicro) (k : wmicro) : wmicro :=
  match mode c with Disabled => k | _ => e (fun x => WAssert x k) end.

(** empty() and size(), util/ReceiveBuffer.h:119-126. *)
Definition w_empty (o : bool) (k : bool -> wmicro) : wmicro := w_both o true (fun b e => k (b =? e)).
Definition w_size (o : bool) (cap : Z) (k : Z -> wmicro) : wmicro := w_both o false (fun b e => k (to_sz cap (e - b))).

(** std::copy of [n] elements of _contents from the index [from] to the index [to], util/ReceiveBuffer.h:337. *)
Fixpoint w_move (n : nat) (from to : Z) (k : wmicro) : wmicro :=
  match n with
  | O => k
  | S n' => WElement from (fun x => WSetElement to x (w_move n' (from + 1) (to + 1) k))
  end.

(** slide_contents_forward() and idealContentsCopy( *this, *this), util/ReceiveBuffer.h:310-312 and 336-340: begin() and end() of the
    source (lines 232-234 and 242-244), the copy, the size, the two members.  std::copy requires a range in the array and a destination
    outside of it ([alg.copy]). *)
Definition w_slide (o : bool) (cap : Z) (k : wmicro) : wmicro :=
  w_both o true (fun first last =>
    if negb (range_ok cap first last) || ((first =? 0) && negb (first =? last)) then WUndefined
    else w_move (Z.to_nat (last - first)) first 0
           (w_size o cap (fun n => WSetPastEnd n (WSetBegin 0 k)))).

(** ensure_space(n), util/ReceiveBuffer.h:285-298. *)
Definition w_ensure_space (o : bool) (c : config) (cap n : Z) (k : wmicro) : wmicro :=
  let rest :=
    WPastEnd (fun p =>
      if promoted_add c (size_bits cap) p n <=? cap then k
      else
        w_assert c (fun kt => w_size o cap (fun m => kt (promoted_add c (size_bits cap) m n <=? cap)))
          (w_slide o cap k)) in
  w_empty o (fun e => if e then WSetBegin 0 (WSetPastEnd 0 rest) else rest).

(** std::copy of bytes from elsewhere to _contents from the index [pos] on, util/ReceiveBuffer.h:178. *)
Fixpoint w_store (pos : Z) (data : list Z) (k : wmicro) : wmicro :=
  match data with
  | [] => k
  | x :: rest => WSetElement pos x (w_store (pos + 1) rest k)
  end.

(** verify_invariants(), util/ReceiveBuffer.h:342-345. *)
Definition w_verify (o : bool) (c : config) (cap : Z) (k : wmicro) : wmicro :=
  w_assert c (fun kt => w_both o true (fun b e => kt (b <=? e)))
    (w_assert c (fun kt => WPastEnd (fun e => kt (e <=? cap))) k).

(** push_back(input_begin, input_end), util/ReceiveBuffer.h:175-182, with end(), lines 237-239; [_pastEnd += n] reads the member and
    writes it. *)
Definition w_push_range (o : bool) (c : config) (cap : Z) (data : list Z) : wmicro :=
  w_ensure_space o c cap (to_sz cap (zlen data))
    (WPastEnd (fun pos =>
       if pos + zlen data <=? cap
       then w_store pos data
              (WPastEnd (fun p => WSetPastEnd (to_sz cap (p + zlen data)) (w_verify o c cap WDone)))
       else WUndefined)).

(** The interrupt routine: processMessages, tuple-transmission/Receiver.h:134-155, if it comes here at all; what it returned. *)
Definition w_interrupt (fuel : nat) (c : config) (coll : collection) (beh : hbehav) (now : bool) (w : world)
  : outcome (world * list presult) :=
  if now then do (w', p) <- process_messages fuel c coll beh w; Ok (w', [p])
  else Ok (w, []).

(** The data members of the receiver's buffer, replaced. *)
Definition w_set_buf (b : rbuf) (w : world) : world := w_set_recv (ERB (er_id (rx_recv (w_rx w))) b) w.

(** Execution: before which of the accesses the routine comes (before none after the end of the list); the world after it and what
    the interrupts returned. *)
Fixpoint w_run (fuel : nat) (c : config) (coll : collection) (beh : hbehav) (p : wmicro) (coming : list bool) (w : world)
  : outcome (world * list presult) :=
  let interrupted (k : rbuf -> world -> outcome (world * list presult)) :=
    do (w1, ps) <- w_interrupt fuel c coll beh (hd false coming) w;
    do (w2, qs) <- k (er_buf (rx_recv (w_rx w1))) w1;
    Ok (w2, ps ++ qs) in
  match p with
  | WDone => Ok (w, [])
  | WUndefined => UB
  | WAssert x k => do _ <- assert_ c x; w_run fuel c coll beh k coming w
  | WBegin k => interrupted (fun b w1 => w_run fuel c coll beh (k (rb_begin b)) (tl coming) w1)
  | WPastEnd k => interrupted (fun b w1 => w_run fuel c coll beh (k (rb_pastEnd b)) (tl coming) w1)
  | WElement i k => interrupted (fun b w1 => w_run fuel c coll beh (k (arr_get (rb_contents b) i)) (tl coming) w1)
  | WSetBegin x k =>
      interrupted (fun b w1 => w_run fuel c coll beh k (tl coming) (w_set_buf (RBuf x (rb_pastEnd b) (rb_contents b)) w1))
  | WSetPastEnd x k =>
      interrupted (fun b w1 => w_run fuel c coll beh k (tl coming) (w_set_buf (RBuf (rb_begin b) x (rb_contents b)) w1))
  | WSetElement i x k =>
      interrupted (fun b w1 =>
        w_run fuel c coll beh k (tl coming) (w_set_buf (RBuf (rb_begin b) (rb_pastEnd b) (arr_set (rb_contents b) i x)) w1))
  end.

(** appendReceived, tuple-transmission/Receiver.h:111-114, with tuple-transmission/detail/types/EnvelopeReceiveBuffer.h:77-80. *)
Definition w_append (fuel : nat) (o : bool) (c : config) (coll : collection) (beh : hbehav) (data : list Z) (coming : list bool)
           (w : world) : outcome (world * list presult) :=
  w_run fuel c coll beh (w_push_range o c (capacity coll) data) coming w.
