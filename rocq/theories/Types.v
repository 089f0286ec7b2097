(** Field types, values and their object representation; message types and collections. *)
From Verif Require Export Base.

(** Field types of a message: the elements of the MPL sequence given to
    MessageTypeBase (tuple-transmission/MessageType.h:51-56).
    - [TIntN k s n]: integer type or enumeration of [n] bytes, signed when [s]; [k] tells apart types
      of the same width: [IStd] the one meant by uint8_t, int16_t and so on, int and unsigned int
      among them; [INamed] any other (char; long where it is as wide as int or long long); [IEnum] an
      enumeration whose underlying type has this width and signedness, any value of which is taken
      to be a value of the enumeration;
    - [TBool]: bool (size 1);
    - [TFloat wide]: IEEE 754 binary32 (float) or, when [wide], binary64 (double); where
      double is a binary32 too (AVR) it counts as [TFloat false];
    - [TRawN name n]: any other trivially copyable type of [n] bytes (POD structs, identified by
      [name]), a value being its object representation. *)
Inductive ikind := IStd | INamed (name : Z) | IEnum (name : Z).
Inductive fty :=
| TIntN (kind : ikind) (signed : bool) (nbytes : nat)
| TBool
| TFloat (wide : bool)
| TRawN (name : Z) (nbytes : nat).
Notation TInt := (TIntN IStd).
Notation TRaw := (TRawN 0).

(** Bytes of a floating point type. *)
Definition float_bytes (wide : bool) : nat := if wide then 8%nat else 4%nat.

(** sizeof(T), as used by boost::mpl::sizeof_ in
    tuple-transmission/detail/operations/Sizeof.h:45. *)
Definition fsize (t : fty) : nat :=
  match t with TIntN _ _ n => n | TBool => 1%nat | TFloat w => float_bytes w | TRawN _ n => n end.

(** uint8_t, the type with its own serializer and deserializer
    (tuple-transmission/serializers/BitwiseCopySerialization.h:42-45,62-68). *)
Definition u8 : fty := TInt false 1.

(** C++ type identity of field types (boost::mpl::equal / is_same,
    tuple-transmission/Send.h:58; overload selection in
    tuple-transmission/detail/bases/SerializerBase.h:64-69). *)
Definition ikind_eqb (a b : ikind) : bool :=
  match a, b with
  | IStd, IStd => true
  | INamed x, INamed y | IEnum x, IEnum y => x =? y
  | _, _ => false
  end.
Definition fty_eqb (a b : fty) : bool :=
  match a, b with
  | TIntN k s n, TIntN k' s' n' => ikind_eqb k k' && Bool.eqb s s' && Nat.eqb n n'
  | TBool, TBool => true
  | TFloat w, TFloat w' => Bool.eqb w w'
  | TRawN k n, TRawN k' n' => (k =? k') && Nat.eqb n n'
  | _, _ => false
  end.

(** Values of fields.  An integer value is the mathematical integer; a floating point value is
    its bit pattern read as a number, sign bit on top (so that NaNs and zeros are told apart);
    a raw value is its bytes in memory order. *)
Inductive value :=
| VInt (z : Z)
| VBool (b : bool)
| VFloat (wide : bool) (bits : Z)
| VRaw (bytes : list Z).

(** uint8_t range. *)
Definition is_byte (b : Z) : bool := (0 <=? b) && (b <? 256).

(** Range of an integer type of [n] bytes. *)
Definition int_in_range (s : bool) (n : nat) (z : Z) : bool :=
  if s then (- 2 ^ (8 * Z.of_nat n - 1) <=? z) && (z <? 2 ^ (8 * Z.of_nat n - 1))
  else (0 <=? z) && (z <? 2 ^ (8 * Z.of_nat n)).

(** [v] is a value of type [t]. *)
Definition has_type (v : value) (t : fty) : bool :=
  match t, v with
  | TIntN _ s n, VInt z => int_in_range s n z
  | TBool, VBool _ => true
  | TFloat w, VFloat w' z => Bool.eqb w w' && int_in_range false (float_bytes w) z
  | TRawN _ n, VRaw bs => Nat.eqb (length bs) n && forallb is_byte bs
  | _, _ => false
  end.

(** A tuple of values for a field list. *)
Fixpoint has_types (vs : list value) (ts : list fty) : bool :=
  match vs, ts with
  | [], [] => true
  | v :: vs', t :: ts' => has_type v t && has_types vs' ts'
  | _, _ => false
  end.

(** The [n] base-256 digits of [z] (reduced modulo 256^n), least significant first. *)
Fixpoint bytes_le (n : nat) (z : Z) : list Z :=
  match n with
  | O => []
  | S n' => z mod 256 :: bytes_le n' (z / 256)
  end.

(** The number with the given base-256 digits, least significant first. *)
Fixpoint of_bytes_le (bs : list Z) : Z :=
  match bs with
  | [] => 0
  | b :: bs' => b + 256 * of_bytes_le bs'
  end.

(** Memory order of a multi-byte scalar. *)
Definition order (c : config) (bs : list Z) : list Z :=
  if little c then bs else rev bs.

(** Object representation of a value: what memcpy(&buf, &value, sizeof(T)) copies,
    tuple-transmission/serializers/BitwiseCopySerialization.h:36-40; two's complement;
    floating point numbers in the byte order of integers. *)
Definition encode (c : config) (t : fty) (v : value) : list Z :=
  match t, v with
  | TIntN _ _ n, VInt z => order c (bytes_le n z)
  | TBool, VBool b => [if b then 1 else 0]
  | TFloat w, VFloat _ z => order c (bytes_le (float_bytes w) z)
  | TRawN _ _, VRaw bs => bs
  | _, _ => []
  end.

(** Value of the object whose bytes were set by memcpy,
    tuple-transmission/serializers/BitwiseCopySerialization.h:49-58 and 62-68.
    [None]: the bytes are no valid representation (a bool that is neither 0 nor 1),
    reading the object is undefined. *)
Definition decode (c : config) (t : fty) (bs : list Z) : option value :=
  match t with
  | TIntN _ s n =>
      let u := of_bytes_le (order c bs) in
      Some (VInt (if s && (2 ^ (8 * Z.of_nat n - 1) <=? u)
                  then u - 2 ^ (8 * Z.of_nat n) else u))
  | TBool =>
      match bs with
      | [0] => Some (VBool false)
      | [1] => Some (VBool true)
      | _ => None
      end
  | TFloat w => Some (VFloat w (of_bytes_le (order c bs)))
  | TRawN _ _ => Some (VRaw bs)
  end.

(** A message type: a struct deriving from MessageTypeBase<mpl::vector<fields> >
    (tuple-transmission/MessageType.h:51-56).  [mt_name] stands for the identity
    of the struct: messages with the same fields may be different types
    (tests/ProtocolForTest.h:56,58). *)
Record mtype := MType { mt_name : Z; mt_fields : list fty }.

(** Equality of field lists. *)
Fixpoint ftys_eqb (a b : list fty) : bool :=
  match a, b with
  | [], [] => true
  | x :: a', y :: b' => fty_eqb x y && ftys_eqb a' b'
  | _, _ => false
  end.

(** C++ type identity of message types, as used by boost::mpl::find
    (util/MPLFindIndex.h:57). *)
Definition mtype_eqb (a b : mtype) : bool :=
  (mt_name a =? mt_name b) && ftys_eqb (mt_fields a) (mt_fields b).

(** The two envelopes shipped: tuple-transmission/envelopes/Basic.h,
    tuple-transmission/envelopes/BasicChecksum.h. *)
Inductive envelope := Basic | BasicChecksum.

(** MessageCollection<MessageTypeSequence, EnvelopeType>,
    tuple-transmission/MessageCollection.h:48-54. *)
Record collection := Collection { mc_types : list mtype; mc_env : envelope }.
