(** Specification vocabulary for sending: the calls made on a transmitter. *)
From Verif Require Export Spec Transmit Copies.

(** A call made on a transmitter, and the bytes it carries. *)
Inductive call := CByte (b : Z) | CBlock (bs : list Z).
Definition call_bytes (x : call) : list Z := match x with CByte b => [b] | CBlock bs => bs end.
Definition calls_bytes (l : list call) : list Z := concat (map call_bytes l).

(** Making calls, in order, on any transmitter. *)
Definition run_call {S} (t : transmitter S) (x : call) (s : S) : outcome S :=
  match x with CByte b => tx_byte t b s | CBlock bs => tx_block t bs s end.
Fixpoint run_calls {S} (t : transmitter S) (l : list call) (s : S) : outcome S :=
  match l with
  | [] => Ok s
  | x :: rest => do s' <- run_call t x s; run_calls t rest s'
  end.

(** The call for one field: a uint8_t as a single byte, everything else as the block of its bytes. *)
Definition spec_field_call (little : bool) (f : fty * value) : call :=
  match fst f with
  | TInt false 1 => CByte (nth 0 (spec_rep little (fst f) (snd f)) 0)
  | _ => CBlock (spec_rep little (fst f) (snd f))
  end.

(** The frame of a message of the collection with given values; the id is the first
    position of the message type in the collection. *)
Definition is_message_frame (c : config) (coll : collection) (m : mtype) (vs : list value) (f : list Z)
  : Prop :=
  exists id, has_id coll m id /\ (forall j, has_id coll m j -> id <= j)
    /\ f = spec_frame (mc_env coll) id (spec_payload (little c) (mt_fields m) vs).

(** A message with values to be sent: a type of the collection, values of its fields. *)
Definition sendable (coll : collection) (mv : mtype * list value) : Prop :=
  In (fst mv) (mc_types coll) /\ has_types (snd mv) (mt_fields (fst mv)) = true.

(** Sending several messages one after the other. *)
Fixpoint send_all {S} (c : config) (coll : collection) (t : transmitter S)
         (msgs : list (mtype * list value)) (s : S) : outcome S :=
  match msgs with
  | [] => Ok s
  | (m, vs) :: rest =>
      do s' <- send c coll m t (combine (mt_fields m) vs) s; send_all c coll t rest s'
  end.

(** The finite floating point number with bit pattern [bits] is [a]/2^1074, or -[a]/2^1074 when
    [neg] (IEEE 754 binary32, or binary64 when [wide]): exponent field [E], fraction [M]. *)
Definition stands_for (wide : bool) (bits : Z) (neg : bool) (a : Z) : Prop :=
  let P := if wide then 2 ^ 52 else 2 ^ 23 in
  exists E M, bits = (if neg then (if wide then 2 ^ 63 else 2 ^ 31) else 0) + E * P + M
    /\ 0 <= M < P /\ 0 <= E < (if wide then 2047 else 255)
    /\ a = (if E =? 0 then M else P + M) * 2 ^ (Z.max E 1 - 1 + if wide then 0 else 925).

(** Infinity. *)
Definition infinite (wide neg : bool) : Z :=
  (if neg then (if wide then 2 ^ 63 else 2 ^ 31) else 0) + (if wide then 2047 * 2 ^ 52 else 255 * 2 ^ 23).

(** [bits] is the number of the format nearest to [a]/2^1074 (to -[a]/2^1074 when [neg]): closer
    than every other, or as close and even.  Numbers from the middle between the greatest
    finite number and the next power of 2 on become infinite. *)
Definition rounds_to (wide neg : bool) (a bits : Z) : Prop :=
  if a <? (if wide then 2 ^ 1024 - 2 ^ 970 else 2 ^ 128 - 2 ^ 103) * 2 ^ 1074
  then exists x, stands_for wide bits neg x
         /\ forall bits' x', stands_for wide bits' neg x' ->
              Z.abs (x - a) < Z.abs (x' - a)
              \/ Z.abs (x - a) = Z.abs (x' - a) /\ (x' = x \/ Z.even bits = true)
  else bits = infinite wide neg.

(** A number of one format in the other: finite ones are rounded, infinity stays, NaNs become
    quiet and keep their sign and the upper bits of their payload.  (C++ leaves a finite
    number out of range undefined; this is IEEE 754.) *)
Definition reformatted (wide to : bool) (bits bits' : Z) : Prop :=
  if Bool.eqb wide to then bits' = bits
  else
    0 <= bits < (if wide then 2 ^ 64 else 2 ^ 32)
    /\ (forall neg x, stands_for wide bits neg x -> rounds_to to neg x bits')
    /\ (forall neg, bits = infinite wide neg -> bits' = infinite to neg)
    /\ (forall (neg quiet : bool) p, 0 <= p < (if wide then 2 ^ 51 else 2 ^ 22) -> 0 < p + (if quiet then 1 else 0) ->
         bits = infinite wide neg + (if quiet then (if wide then 2 ^ 51 else 2 ^ 22) else 0) + p ->
         bits' = infinite to neg + (if to then 2 ^ 51 + p * 2 ^ 29 else 2 ^ 22 + p / 2 ^ 29)).

(** [v] is the value of type [t] that a parameter of that type gets from argument [a]:
    integers keep their residue modulo 2^bits, booleans tell whether a number is nonzero, a
    boolean as a number is 1 or 0, a floating point number loses its fraction when it
    becomes an integer and numbers are rounded to a floating point type; everything else is
    passed unchanged. *)
Definition converted (t : fty) (a v : value) : Prop :=
  has_type v t = true /\
  match t, a, v with
  | TIntN _ s n, VInt z, VInt z' => (z' - z) mod 2 ^ (8 * Z.of_nat n) = 0
  | TIntN _ s n, VBool b, VInt z' => z' = if b then 1 else 0
  | TIntN _ s n, VFloat w bits, VInt z' =>
      exists neg x, stands_for w bits neg x /\ z' = (if neg then -1 else 1) * (x / 2 ^ 1074)
  | TBool, VInt z, VBool b => b = true <-> z <> 0
  | TBool, VFloat w bits, VBool b =>
      has_type a (TFloat w) = true /\ (b = false <-> exists neg, stands_for w bits neg 0)
  | TFloat w, VInt z, VFloat _ bits => rounds_to w (z <? 0) (Z.abs z * 2 ^ 1074) bits
  | TFloat w, VBool b, VFloat _ bits => rounds_to w false (if b then 2 ^ 1074 else 0) bits
  | TFloat w, VFloat w' bits, VFloat _ bits' => reformatted w' w bits bits'
  | _, _, _ => a = v
  end.
Inductive converted_all : list fty -> list value -> list value -> Prop :=
| conv_nil : converted_all [] [] []
| conv_cons t a v ts vals vs : converted t a v -> converted_all ts vals vs ->
    converted_all (t :: ts) (a :: vals) (v :: vs).

(** Arithmetic types, enumerations, and the types [t] that a parameter of type [u] takes. *)
Definition arithmetic (t : fty) : Prop := match t with TIntN (IEnum _) _ _ | TRawN _ _ => False | _ => True end.
Definition enumeration (t : fty) : Prop := exists e s n, t = TIntN (IEnum e) s n.
Definition accepted (t u : fty) : Prop := t = u \/ (arithmetic t \/ enumeration t) /\ arithmetic u.

(** The double [d] and the float [f] are the same number (with the same sign of zero). *)
Definition same_number (d f : Z) : Prop := exists neg x, stands_for true d neg x /\ stands_for false f neg x.

(** A well-formed array buffer of the given size, wherever its write position is. *)
Definition abuf_ok (size : Z) (s : abuf) : Prop :=
  zlen (ab_buffer s) = size /\ 0 <= ab_it s <= size.

(** Objects of the given size, each with its iterator somewhere in the array of one of them. *)
Definition as_ok (size : Z) (h : abufs) : Prop :=
  length (as_its h) = length (as_arrays h) /\ Forall (fun a => zlen a = size) (as_arrays h)
  /\ Forall (fun it => (fst it < length (as_arrays h))%nat /\ 0 <= snd it <= size) (as_its h).

(** An I2C transmitter with nothing buffered. *)
Definition i2c_idle (s : i2c) : Prop := abuf_ok i2c_bufsize (i2c_buf s) /\ abuf_content (i2c_buf s) = [].

(** Writing a block has the effect of writing its bytes one by one. *)
Definition block_agrees {S} (t : transmitter S) : Prop :=
  forall d s, run_calls t [CBlock d] s = run_calls t (map CByte d) s.
