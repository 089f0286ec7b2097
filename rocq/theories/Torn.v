(** Interrupts in the midst of an operation of util::ReceiveBuffer: the functions of ReceiveBuffer.v that a receiver calls while
    it looks for messages, taken apart into their single accesses to the data members, with an interrupt routine that appends
    bytes possible before each of them.

    Simplifications: the members are read and written where the source does so (the compiler keeps none in a register over an
    interrupt), each access is indivisible, and the interrupt routine is not itself interrupted. *)
From Verif Require Export ReceiveBuffer.

(** A computation as its accesses to _begin, _pastEnd and _contents, util/ReceiveBuffer.h:347-349, and its assertions. *)
Inductive micro (A : Type) : Type :=
| MReturn (a : A)
| MAssert (x : bool) (k : micro A)
| MBegin (k : Z -> micro A)                  (* reads _begin *)
| MPastEnd (k : Z -> micro A)                (* reads _pastEnd *)
| MElement (i : Z) (k : Z -> micro A)        (* reads _contents[i] *)
| MSetBegin (x : Z) (k : micro A)            (* writes _begin *)
| MSetPastEnd (x : Z) (k : micro A).         (* writes _pastEnd *)
Arguments MReturn {A} _.
Arguments MAssert {A} _ _.
Arguments MBegin {A} _.
Arguments MPastEnd {A} _.
Arguments MElement {A} _ _.
Arguments MSetBegin {A} _ _.
Arguments MSetPastEnd {A} _ _.

(** The order in which the two operands of a comparison or of a difference are read is not laid down by the language: [true]
    for the left one first. *)
Definition t_both {A} (left_first begin_left : bool) (k : Z -> Z -> micro A) : micro A :=
  if Bool.eqb left_first begin_left
  then MBegin (fun b => MPastEnd (fun e => k b e))
  else MPastEnd (fun e => MBegin (fun b => k b e)).

(** BOOST_ASSERT_MSG around an expression that reads members, util/BoostAssertMsg.h:42-98: not evaluated when switched off. *)
Definition t_assert {A} (c : config) (e : (bool -> micro A) -> micro A) (k : micro A) : micro A :=
  match mode c with Disabled => k | _ => e (fun x => MAssert x k) end.

(** empty(), util/ReceiveBuffer.h:119-121. *)
Definition t_empty {A} (o : bool) (k : bool -> micro A) : micro A :=
  t_both o true (fun b e => k (b =? e)).

(** size(), util/ReceiveBuffer.h:124-126. *)
Definition t_size {A} (o : bool) (cap : Z) (k : Z -> micro A) : micro A :=
  t_both o false (fun b e => k (to_sz cap (e - b))).

(** operator[], util/ReceiveBuffer.h:141-144, with adjusted_index, lines 305-307, and the element read. *)
Definition t_index {A} (o : bool) (c : config) (cap i : Z) (k : Z -> micro A) : micro A :=
  t_assert c (fun kt => t_size o cap (fun n => kt (i <? n)))
    (MBegin (fun b => MElement (to_sz cap (b + i)) k)).

(** back(), util/VectorSimulator.h:102-108. *)
Definition t_back {A} (o : bool) (c : config) (cap : Z) (k : Z -> micro A) : micro A :=
  t_size o cap (fun n => t_index o c cap (to_sz cap (n - 1)) k).

(** increment_begin() and decrement_pastEnd(), util/ReceiveBuffer.h:325-333: an increment reads the member and then writes it. *)
Definition t_increment_begin {A} (o : bool) (c : config) (cap : Z) (k : micro A) : micro A :=
  t_assert c (fun kt => t_both o true (fun b e => kt (b <? e)))
    (MBegin (fun b => MSetBegin (to_sz cap (b + 1)) k)).
Definition t_decrement_pastEnd {A} (o : bool) (c : config) (cap : Z) (k : micro A) : micro A :=
  t_assert c (fun kt => t_both o false (fun b e => kt (b <? e)))
    (MPastEnd (fun e => MSetPastEnd (to_sz cap (e - 1)) k)).

(** The loop [for (size_type i = 0; i < count; ++i) body] of util/ReceiveBuffer.h:208-210, 220-222. *)
Fixpoint t_times {A} (n : nat) (body : micro A -> micro A) (k : micro A) : micro A :=
  match n with O => k | S n' => body (t_times n' body k) end.

(** pop_front(count) and pop_back(count), util/ReceiveBuffer.h:206-224. *)
Definition t_pop_front (o : bool) (c : config) (cap count : Z) : micro Z :=
  t_index o c cap 0 (fun ret => t_times (Z.to_nat count) (t_increment_begin o c cap) (MReturn ret)).
Definition t_pop_back (o : bool) (c : config) (cap count : Z) : micro Z :=
  t_back o c cap (fun ret => t_times (Z.to_nat count) (t_decrement_pastEnd o c cap) (MReturn ret)).

(** The interrupt routine: appendReceived of the bytes given, tuple-transmission/Receiver.h:111-114,
    tuple-transmission/detail/types/EnvelopeReceiveBuffer.h:77-80.  No bytes: no interrupt at this place. *)
Definition t_interrupt (c : config) (cap : Z) (d : list Z) (b : rbuf) : outcome rbuf :=
  match d with [] => Ok b | _ => rb_push_range c cap d b end.

(** Execution: what comes before each of the next accesses (nothing any more at the end of the list); the value returned, the
    buffer, what is still to come. *)
Fixpoint t_run {A} (c : config) (cap : Z) (p : micro A) (coming : list (list Z)) (b : rbuf)
  : outcome (A * rbuf * list (list Z)) :=
  match p with
  | MReturn a => Ok (a, b, coming)
  | MAssert x k => do _ <- assert_ c x; t_run c cap k coming b
  | MBegin k =>
      do b <- t_interrupt c cap (hd [] coming) b;
      t_run c cap (k (rb_begin b)) (tl coming) b
  | MPastEnd k =>
      do b <- t_interrupt c cap (hd [] coming) b;
      t_run c cap (k (rb_pastEnd b)) (tl coming) b
  | MElement i k =>
      do b <- t_interrupt c cap (hd [] coming) b;
      do _ <- array_check c cap i;
      t_run c cap (k (arr_get (rb_contents b) i)) (tl coming) b
  | MSetBegin x k =>
      do b <- t_interrupt c cap (hd [] coming) b;
      t_run c cap k (tl coming) (RBuf x (rb_pastEnd b) (rb_contents b))
  | MSetPastEnd x k =>
      do b <- t_interrupt c cap (hd [] coming) b;
      t_run c cap k (tl coming) (RBuf (rb_begin b) x (rb_contents b))
  end.
