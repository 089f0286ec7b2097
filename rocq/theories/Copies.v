(** Several array buffers in memory, copies of each other; a composition of a transmitter
    with itself. *)
From Verif Require Export Transmit.

(** BoostArrayBuffer<SIZE> objects, numbered: the array each contains and where its
    iterator [it] points, namely into the array of which object and at which offset
    (tuple-transmission/transmitters/BoostArrayBuffer.h:76-79). *)
Record abufs := ABufs { as_arrays : list (list Z); as_its : list (nat * Z) }.

Fixpoint set_nth {A} (i : nat) (x : A) (l : list A) : list A :=
  match i, l with
  | _, [] => []
  | O, _ :: r => x :: r
  | S j, y :: r => y :: set_nth j x r
  end.

Definition nth_array (i : nat) (h : abufs) : list Z := nth i (as_arrays h) [].
Definition nth_it (i : nat) (h : abufs) : nat * Z := nth i (as_its h) (O, 0).

(** Constructor, line 42: zeros, [it] at the beginning of the own array. *)
Definition as_new (size : Z) (h : abufs) : abufs :=
  ABufs (as_arrays h ++ [repeat 0 (Z.to_nat size)]) (as_its h ++ [(length (as_arrays h), 0)]).

(** The implicitly defined copy constructor: both members are copied, so [it] of the copy
    points where [it] of the original does. *)
Definition as_copy (i : nat) (h : abufs) : abufs :=
  ABufs (as_arrays h ++ [nth_array i h]) (as_its h ++ [nth_it i h]).

(** The implicitly defined copy assignment of object [i] to object [j]. *)
Definition as_assign (i j : nat) (h : abufs) : abufs :=
  ABufs (set_nth j (nth_array i h) (as_arrays h)) (set_nth j (nth_it i h) (as_its h)).

(** Lines 44-51: writing through [it] of object [i]; past the end of the array it points
    into is undefined behaviour. *)
Definition as_write (size : Z) (i : nat) (data : list Z) (h : abufs) : outcome abufs :=
  let '(k, off) := nth_it i h in
  do s <- abuf_write size data (ABuf (nth_array k h) off);
  Ok (ABufs (set_nth k (ab_buffer s) (as_arrays h)) (set_nth i (k, ab_it s) (as_its h))).
Definition as_tx (size : Z) (i : nat) : transmitter abufs :=
  Transmitter (fun v => as_write size i [v]) (as_write size i) finished_fallback.

(** reset(), lines 72-74. *)
Definition as_reset (i : nat) (h : abufs) : abufs :=
  ABufs (as_arrays h) (set_nth i (i, 0) (as_its h)).

(** Reading the range [begin(), end()), lines 59-70: undefined behaviour when [end()]
    points into another array. *)
Definition as_content (i : nat) (h : abufs) : outcome (list Z) :=
  let '(k, off) := nth_it i h in
  if Nat.eqb k i then Ok (firstn (Z.to_nat off) (nth_array i h)) else UB.

(** TransmitterComposition, tuple-transmission/transmitters/TransmitterComposition.h:57-73,
    with both references designating the same object: each call is forwarded twice. *)
Definition compose_self_tx {S} (t : transmitter S) : transmitter S :=
  Transmitter
    (fun v s => do s <- tx_byte t v s; tx_byte t v s)
    (fun d s => do s <- tx_block t d s; tx_block t d s)
    finished_fallback.
