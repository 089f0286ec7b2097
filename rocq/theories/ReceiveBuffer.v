(** util::ReceiveBuffer<SIZE, uint8_t> (util/ReceiveBuffer.h) and the parts of
    util::vector_simulator it uses (util/VectorSimulator.h).

    [cap] is the template parameter SIZE.  Arithmetic on [size_type] is written with
    its wrap-around.  std::copy on the underlying array is modelled on the list of
    array elements with an explicit bounds check. *)
From Verif Require Export Base.

(** Data members, util/ReceiveBuffer.h:347-349. *)
Record rbuf := RBuf { rb_begin : Z; rb_pastEnd : Z; rb_contents : list Z }.

(** size_type, util/ReceiveBuffer.h:64. *)
Definition size_bits (cap : Z) : Z := uint_least_bits cap.

(** Conversion to size_type. *)
Definition to_sz (cap x : Z) : Z := trunc (size_bits cap) x.

(** Default constructor, util/ReceiveBuffer.h:74-78 ([_contents()] zero-initialises). *)
Definition rb_init (cap : Z) : rbuf := RBuf 0 0 (repeat 0 (Z.to_nat cap)).

(** empty(), util/ReceiveBuffer.h:119-121. *)
Definition rb_empty (b : rbuf) : bool := rb_begin b =? rb_pastEnd b.

(** size(), util/ReceiveBuffer.h:124-126. *)
Definition rb_size (cap : Z) (b : rbuf) : Z := to_sz cap (rb_pastEnd b - rb_begin b).

(** max_size(), util/ReceiveBuffer.h:129-131. *)
Definition rb_max_size (cap : Z) : Z := to_sz cap cap.

(** boost::array::operator[] (used at util/ReceiveBuffer.h:143,151): asserts the
    bounds; without assertions an index out of range is undefined. *)
Definition array_check (c : config) (cap i : Z) : outcome unit :=
  if (0 <=? i) && (i <? cap) then Ok tt
  else if stops (arrays c) then AssertFail else UB.

(** Read / write an array element already checked. *)
Definition arr_get (l : list Z) (i : Z) : Z := nth (Z.to_nat i) l 0.
Definition arr_set (l : list Z) (i x : Z) : list Z :=
  firstn (Z.to_nat i) l ++ [x] ++ skipn (S (Z.to_nat i)) l.

(** adjusted_index, util/ReceiveBuffer.h:305-307. *)
Definition rb_adjusted_index (cap : Z) (b : rbuf) (i : Z) : Z := to_sz cap (rb_begin b + i).

(** operator[], util/ReceiveBuffer.h:141-144: the array index designated. *)
Definition rb_ref (c : config) (cap : Z) (b : rbuf) (i : Z) : outcome Z :=
  do _ <- assert_ c (i <? rb_size cap b);
  let k := rb_adjusted_index cap b i in
  do _ <- array_check c cap k;
  Ok k.

(** Reading through operator[]. *)
Definition rb_index (c : config) (cap : Z) (b : rbuf) (i : Z) : outcome Z :=
  do k <- rb_ref c cap b i;
  Ok (arr_get (rb_contents b) k).

(** Assigning through operator[], util/ReceiveBuffer.h:141-144. *)
Definition rb_set (c : config) (cap : Z) (i x : Z) (b : rbuf) : outcome rbuf :=
  do k <- rb_ref c cap b i;
  Ok (RBuf (rb_begin b) (rb_pastEnd b) (arr_set (rb_contents b) k x)).

(** front() and back(), util/VectorSimulator.h:94-108. *)
Definition rb_front (c : config) (cap : Z) (b : rbuf) : outcome Z := rb_index c cap b 0.
Definition rb_back (c : config) (cap : Z) (b : rbuf) : outcome Z :=
  rb_index c cap b (to_sz cap (rb_size cap b - 1)).

(** at(i) of builds without exceptions, util/VectorSimulator.h:68-70: calls operator[],
    whose parameter converts the std::size_t to size_type.  (With exceptions at() cannot
    be instantiated: vector_simulator_access::rangecheck, lines 53-56, is private.) *)
Definition rb_at (c : config) (cap : Z) (b : rbuf) (i : Z) : outcome Z :=
  rb_index c cap b (to_sz cap i).

(** clear(), util/ReceiveBuffer.h:157-160. *)
Definition rb_clear (b : rbuf) : rbuf := RBuf 0 0 (rb_contents b).

(** Elements [lo, hi) of the array: the source range of a std::copy. *)
Definition arr_slice (l : list Z) (lo hi : Z) : list Z :=
  firstn (Z.to_nat (hi - lo)) (skipn (Z.to_nat lo) l).

(** The range [lo, hi) lies inside the array (both iterators valid and in order). *)
Definition range_ok (cap lo hi : Z) : bool := (0 <=? lo) && (lo <=? hi) && (hi <=? cap).

(** Overwrite the array with [data] from position [pos] (std::copy to the array). *)
Definition arr_write (l : list Z) (pos : Z) (data : list Z) : list Z :=
  firstn (Z.to_nat pos) l ++ data ++ skipn (Z.to_nat pos + length data) l.

(** idealContentsCopy(source, dest) for distinct objects, util/ReceiveBuffer.h:336-340. *)
Definition rb_ideal_copy (cap : Z) (source dest : rbuf) : outcome rbuf :=
  if range_ok cap (rb_begin source) (rb_pastEnd source)
  then Ok (RBuf 0 (rb_size cap source)
             (arr_write (rb_contents dest) 0
                (arr_slice (rb_contents source) (rb_begin source) (rb_pastEnd source))))
  else UB.

(** slide_contents_forward(): idealContentsCopy( *this, *this),
    util/ReceiveBuffer.h:310-312.  std::copy requires that the destination start is
    not inside the source range ([alg.copy]), which fails for a nonempty content that
    already starts at the front of the array. *)
Definition rb_slide (cap : Z) (b : rbuf) : outcome rbuf :=
  if (rb_begin b =? 0) && negb (rb_empty b) then UB
  else rb_ideal_copy cap b b.

(** ensure_space(n), util/ReceiveBuffer.h:285-298. *)
Definition rb_ensure_space (c : config) (cap n : Z) (b : rbuf) : outcome rbuf :=
  let b1 := if rb_empty b then RBuf 0 0 (rb_contents b) else b in
  if promoted_add c (size_bits cap) (rb_pastEnd b1) n <=? cap then Ok b1
  else
    do _ <- assert_ c (promoted_add c (size_bits cap) (rb_size cap b1) n <=? cap);
    rb_slide cap b1.

(** verify_invariants(), util/ReceiveBuffer.h:342-345. *)
Definition rb_verify (c : config) (cap : Z) (b : rbuf) : outcome unit :=
  do _ <- assert_ c (rb_begin b <=? rb_pastEnd b);
  assert_ c (rb_pastEnd b <=? cap).

(** increment_pastEnd(), util/ReceiveBuffer.h:319-323. *)
Definition rb_increment_pastEnd (c : config) (cap : Z) (b : rbuf) : outcome rbuf :=
  do b1 <- rb_ensure_space c cap 1 b;
  let b2 := RBuf (rb_begin b1) (to_sz cap (rb_pastEnd b1 + 1)) (rb_contents b1) in
  do _ <- assert_ c (rb_pastEnd b2 <=? cap);
  Ok b2.

(** push_back(x), util/ReceiveBuffer.h:166-169, for [x] not an element of this buffer. *)
Definition rb_push_back (c : config) (cap : Z) (x : Z) (b : rbuf) : outcome rbuf :=
  do b1 <- rb_increment_pastEnd c cap b;
  do k <- rb_ref c cap b1 (to_sz cap (rb_size cap b1 - 1));
  Ok (RBuf (rb_begin b1) (rb_pastEnd b1) (arr_set (rb_contents b1) k x)).

(** push_back(x), util/ReceiveBuffer.h:166-169, for [x] a reference to element [i] of
    this same buffer: the reference designates a fixed array slot and is read after the
    contents may have been shifted. *)
Definition rb_push_back_own (c : config) (cap : Z) (i : Z) (b : rbuf) : outcome rbuf :=
  do slot <- rb_ref c cap b i;
  do b1 <- rb_increment_pastEnd c cap b;
  do k <- rb_ref c cap b1 (to_sz cap (rb_size cap b1 - 1));
  Ok (RBuf (rb_begin b1) (rb_pastEnd b1)
        (arr_set (rb_contents b1) k (arr_get (rb_contents b1) slot))).

(** push_back(input_begin, input_end), util/ReceiveBuffer.h:175-182, with the input
    range outside this buffer: [data] are the elements of the range. *)
Definition rb_push_range (c : config) (cap : Z) (data : list Z) (b : rbuf) : outcome rbuf :=
  do b1 <- rb_ensure_space c cap (to_sz cap (zlen data)) b;
  if rb_pastEnd b1 + zlen data <=? cap then
    let b2 := RBuf (rb_begin b1) (to_sz cap (rb_pastEnd b1 + zlen data))
                   (arr_write (rb_contents b1) (rb_pastEnd b1) data) in
    do _ <- rb_verify c cap b2;
    Ok b2
  else UB.

(** push_back(begin() + i, begin() + j) with iterators into this very buffer,
    util/ReceiveBuffer.h:175-182: the iterators keep denoting array slots when
    ensure_space moves the contents.  std::copy requires that the destination start is not
    inside the source range ([alg.copy]); otherwise it reads every source slot before it
    can be overwritten. *)
Definition rb_push_range_own (c : config) (cap i j : Z) (b : rbuf) : outcome rbuf :=
  let first := rb_begin b + i in
  let last := rb_begin b + j in
  if range_ok cap first last then
    do b1 <- rb_ensure_space c cap (to_sz cap (last - first)) b;
    if (first <=? rb_pastEnd b1) && (rb_pastEnd b1 <? last) then UB
    else if rb_pastEnd b1 + (last - first) <=? cap then
      let b2 := RBuf (rb_begin b1) (to_sz cap (rb_pastEnd b1 + (last - first)))
                     (arr_write (rb_contents b1) (rb_pastEnd b1)
                        (arr_slice (rb_contents b1) first last)) in
      do _ <- rb_verify c cap b2;
      Ok b2
    else UB
  else UB.

(** bufferFromExternalFunctorRef(f, n), util/ReceiveBuffer.h:192-200.  The functor is
    an oracle: given the maximum count it returns the bytes it stored at the iterator
    and the count it reports. *)
Definition rb_from_functor (c : config) (cap : Z) (f : Z -> list Z * Z) (n : Z) (b : rbuf)
  : outcome (rbuf * Z) :=
  let n1 := Z.min n (to_sz cap (rb_max_size cap - rb_size cap b)) in
  do b1 <- rb_ensure_space c cap n1 b;
  let '(data, ret) := f n1 in
  if rb_pastEnd b1 + zlen data <=? cap then
    let actual := to_sz cap ret in
    let b2 := RBuf (rb_begin b1) (to_sz cap (rb_pastEnd b1 + actual))
                   (arr_write (rb_contents b1) (rb_pastEnd b1) data) in
    do _ <- rb_verify c cap b2;
    Ok (b2, actual)
  else UB.

(** decrement_pastEnd() and increment_begin(), util/ReceiveBuffer.h:325-333. *)
Definition rb_decrement_pastEnd (c : config) (cap : Z) (b : rbuf) : outcome rbuf :=
  do _ <- assert_ c (rb_begin b <? rb_pastEnd b);
  Ok (RBuf (rb_begin b) (to_sz cap (rb_pastEnd b - 1)) (rb_contents b)).
Definition rb_increment_begin (c : config) (cap : Z) (b : rbuf) : outcome rbuf :=
  do _ <- assert_ c (rb_begin b <? rb_pastEnd b);
  Ok (RBuf (to_sz cap (rb_begin b + 1)) (rb_pastEnd b) (rb_contents b)).

(** A counted loop [for (size_type i = 0; i < count; ++i) body]. *)
Fixpoint repeat_m {A} (n : nat) (body : A -> outcome A) (a : A) : outcome A :=
  match n with
  | O => Ok a
  | S n' => do a' <- body a; repeat_m n' body a'
  end.

(** pop_back(count), util/ReceiveBuffer.h:206-212. *)
Definition rb_pop_back (c : config) (cap count : Z) (b : rbuf) : outcome (rbuf * Z) :=
  do ret <- rb_back c cap b;
  do b1 <- repeat_m (Z.to_nat count) (rb_decrement_pastEnd c cap) b;
  Ok (b1, ret).

(** pop_front(count), util/ReceiveBuffer.h:218-224. *)
Definition rb_pop_front (c : config) (cap count : Z) (b : rbuf) : outcome (rbuf * Z) :=
  do ret <- rb_front c cap b;
  do b1 <- repeat_m (Z.to_nat count) (rb_increment_begin c cap) b;
  Ok (b1, ret).

(** erase(first, last), util/ReceiveBuffer.h:256-279.  Iterators are positions in the
    underlying array; the result is the position returned.  std::copy requires that the
    destination start is not inside the source range ([alg.copy]). *)
Definition rb_erase (c : config) (cap first last : Z) (b : rbuf) : outcome (rbuf * Z) :=
  let startIndex := to_sz cap (first - rb_begin b) in
  let endIndex := to_sz cap (last - rb_begin b) in
  do _ <- assert_ c (first <? last);
  let len := to_sz cap (endIndex - startIndex) in
  if len =? 0 then Ok (b, first)
  else
    do _ <- assert_ c (len <=? rb_size cap b);
    do b1 <-
      (if startIndex =? 0 then
         do (b1, _) <- rb_pop_front c cap len b; Ok b1
       else if last =? rb_pastEnd b then
         do (b1, _) <- rb_pop_back c cap len b; Ok b1
       else
         do _ <- assert_ c (0 <? startIndex);
         do _ <- assert_ c (endIndex <? rb_size cap b);
         if range_ok cap last (rb_pastEnd b)
            && range_ok cap (rb_begin b + startIndex)
                        (rb_begin b + startIndex + (rb_pastEnd b - last))
            && negb ((last <=? rb_begin b + startIndex) && (rb_begin b + startIndex <? rb_pastEnd b))
         then
           repeat_m (Z.to_nat len) (rb_decrement_pastEnd c cap)
             (RBuf (rb_begin b) (rb_pastEnd b)
                (arr_write (rb_contents b) (rb_begin b + startIndex)
                   (arr_slice (rb_contents b) last (rb_pastEnd b))))
         else UB);
    Ok (b1, rb_begin b1 + startIndex).

(** erase(position), util/ReceiveBuffer.h:249-251. *)
Definition rb_erase1 (c : config) (cap position : Z) (b : rbuf) : outcome (rbuf * Z) :=
  rb_erase c cap position (position + 1) b.

(** Copy constructor, util/ReceiveBuffer.h:81-86. *)
Definition rb_copy (cap : Z) (other : rbuf) : outcome rbuf :=
  rb_ideal_copy cap other (RBuf 0 (rb_size cap other) (repeat 0 (Z.to_nat cap))).

(** operator=, util/ReceiveBuffer.h:109-116: from a distinct object, and to itself. *)
Definition rb_assign (cap : Z) (other self : rbuf) : outcome rbuf := rb_ideal_copy cap other self.
Definition rb_self_assign (cap : Z) (b : rbuf) : outcome rbuf := rb_slide cap b.

(** Constructor from pointer and length, util/ReceiveBuffer.h:89-94; the parameter
    [len] has size_type, [v] are the elements at the pointer (at least [len] of them). *)
Definition rb_from_array (cap : Z) (v : list Z) (len : Z) : outcome rbuf :=
  let len := to_sz cap len in
  if (len <=? cap) && (len <=? zlen v)
  then Ok (RBuf 0 len (arr_write (repeat 0 (Z.to_nat cap)) 0 (firstn (Z.to_nat len) v)))
  else UB.

(** Constructor from an iterator range, util/ReceiveBuffer.h:97-103. *)
Definition rb_from_range (c : config) (cap : Z) (data : list Z) : outcome rbuf :=
  rb_push_range c cap data (rb_init cap).
