(** Specification vocabulary for the receive buffer: the bytes held, and programs of
    buffer operations with their meaning on lists. *)
From Verif Require Export ReceiveBuffer.

(** Capacities the template accepts. *)
Definition cap_ok (cap : Z) : Prop := 0 < cap < 2 ^ 64.

(** The buffer's size_type has [w] bits: the narrowest unsigned type that can hold the capacity. *)
Definition size_type (cap w : Z) : Prop :=
  In w [8; 16; 32; 64] /\ cap < 2 ^ w /\ forall v, In v [8; 16; 32; 64] -> cap < 2 ^ v -> w <= v.

(** The room check in ensure_space cannot wrap. *)
Definition index_safe (c : config) (cap : Z) : Prop :=
  size_bits cap < int_bits c \/ 2 * cap <= 2 ^ size_bits cap.

(** Buffer layout: the held bytes [X] lie between a prefix and a suffix of the array. *)
Definition rep (cap : Z) (b : rbuf) (X : list Z) : Prop :=
  exists A B, rb_contents b = A ++ X ++ B
              /\ rb_begin b = zlen A
              /\ rb_pastEnd b = zlen A + zlen X
              /\ zlen A + zlen X + zlen B = cap.

(** Well-formed indices, and the bytes held. *)
Definition rb_inv (cap : Z) (b : rbuf) : Prop :=
  0 <= rb_begin b <= rb_pastEnd b /\ rb_pastEnd b <= cap /\ zlen (rb_contents b) = cap.
Definition rb_bytes (b : rbuf) : list Z :=
  firstn (Z.to_nat (rb_pastEnd b - rb_begin b)) (skipn (Z.to_nat (rb_begin b)) (rb_contents b)).

(** An operation on a buffer.  Positions given to erase are offsets from begin(). *)
Inductive bop :=
| BPush (x : Z)                          (* push_back(x) *)
| BRange (data : list Z)                 (* push_back(first, last) *)
| BFunctor (f : Z -> list Z * Z) (n : Z) (* bufferFromExternalFunctorRef(f, n) *)
| BPopFront (n : Z)
| BPopBack (n : Z)
| BErase (i j : Z)                       (* erase(begin() + i, begin() + j) *)
| BErase1 (i : Z)                        (* erase(begin() + i) *)
| BSet (i x : Z)                         (* buffer[i] = x *)
| BClear
| BEnsure (n : Z)                        (* ensure_space(n) *)
| BCopy.                                 (* continue with a copy of the buffer *)

(** What an operation returns; an iterator is given as its offset from begin(). *)
Inductive bret := RNone | RElem (x : Z) | RPos (i : Z) | RCount (n : Z).

(** The operation performed by the code. *)
Definition bstep (c : config) (cap : Z) (o : bop) (b : rbuf) : outcome (rbuf * bret) :=
  match o with
  | BPush x => do b' <- rb_push_back c cap x b; Ok (b', RNone)
  | BRange d => do b' <- rb_push_range c cap d b; Ok (b', RNone)
  | BFunctor f n => do (b', k) <- rb_from_functor c cap f n b; Ok (b', RCount k)
  | BPopFront n => do (b', x) <- rb_pop_front c cap n b; Ok (b', RElem x)
  | BPopBack n => do (b', x) <- rb_pop_back c cap n b; Ok (b', RElem x)
  | BErase i j =>
      do (b', p) <- rb_erase c cap (rb_begin b + i) (rb_begin b + j) b; Ok (b', RPos (p - rb_begin b'))
  | BErase1 i => do (b', p) <- rb_erase1 c cap (rb_begin b + i) b; Ok (b', RPos (p - rb_begin b'))
  | BSet i x => do b' <- rb_set c cap i x b; Ok (b', RNone)
  | BClear => Ok (rb_clear b, RNone)
  | BEnsure n => do b' <- rb_ensure_space c cap n b; Ok (b', RNone)
  | BCopy => do b' <- rb_copy cap b; Ok (b', RNone)
  end.
Fixpoint brun (c : config) (cap : Z) (ops : list bop) (b : rbuf) : outcome (rbuf * list bret) :=
  match ops with
  | [] => Ok (b, [])
  | o :: rest =>
      do (b', r) <- bstep c cap o b;
      do (b'', rs) <- brun c cap rest b';
      Ok (b'', r :: rs)
  end.

(** Its meaning on the list of bytes held.  An operation outside the limits (no room,
    popping more than there is, an empty erase range, ...) has no meaning here. *)
Inductive lstep (cap : Z) : bop -> list Z -> list Z -> bret -> Prop :=
| l_push x X : zlen X + 1 <= cap -> lstep cap (BPush x) X (X ++ [x]) RNone
| l_range d X : zlen X + zlen d <= cap -> lstep cap (BRange d) X (X ++ d) RNone
| l_functor f n d X : 0 <= n -> f (Z.min n (cap - zlen X)) = (d, zlen d) ->
    zlen d <= Z.min n (cap - zlen X) -> lstep cap (BFunctor f n) X (X ++ d) (RCount (zlen d))
| l_pop_front P Y x : hd_error (P ++ Y) = Some x ->
    lstep cap (BPopFront (zlen P)) (P ++ Y) Y (RElem x)
| l_pop_back P Y Z x : Y ++ P = Z ++ [x] -> lstep cap (BPopBack (zlen P)) (Y ++ P) Y (RElem x)
| l_erase P M Q : M <> [] ->
    lstep cap (BErase (zlen P) (zlen P + zlen M)) (P ++ M ++ Q) (P ++ Q) (RPos (zlen P))
| l_erase1 P x Q : lstep cap (BErase1 (zlen P)) (P ++ x :: Q) (P ++ Q) (RPos (zlen P))
| l_set P y x Q : lstep cap (BSet (zlen P) x) (P ++ y :: Q) (P ++ x :: Q) RNone
| l_clear X : lstep cap BClear X [] RNone
| l_ensure n X : 0 <= n -> zlen X + n <= cap -> lstep cap (BEnsure n) X X RNone
| l_copy X : lstep cap BCopy X X RNone.
Inductive lrun (cap : Z) : list bop -> list Z -> list Z -> list bret -> Prop :=
| lrun_nil X : lrun cap [] X X []
| lrun_cons o ops X Y W r rs : lstep cap o X Y r -> lrun cap ops Y W rs ->
    lrun cap (o :: ops) X W (r :: rs).

(** What can be observed of a buffer holding [X]: size, emptiness, every element, and the
    iterator range [begin(), end()), inside the array. *)
Definition observed_as (c : config) (cap : Z) (b : rbuf) (X : list Z) : Prop :=
  rb_size cap b = zlen X
  /\ rb_empty b = match X with [] => true | _ => false end
  /\ (forall i, 0 <= i < zlen X -> rb_index c cap b i = Ok (nth (Z.to_nat i) X 0))
  /\ (forall x, hd_error X = Some x -> rb_front c cap b = Ok x)
  /\ (forall Y x, X = Y ++ [x] -> rb_back c cap b = Ok x)
  /\ rb_inv cap b /\ arr_slice (rb_contents b) (rb_begin b) (rb_pastEnd b) = X.

(** The elements [i, j) of a list. *)
Definition part (l : list Z) (i j : Z) : list Z := firstn (Z.to_nat (j - i)) (skipn (Z.to_nat i) l).
