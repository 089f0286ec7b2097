(** Specification vocabulary, independent of the model's functions: wire format, frame
    scanner, list-based buffer. *)
From Verif Require Export Types.

(** ** Wire format *)

(** Byte [i] (least significant first) of the two's complement representation of [z]. *)
Definition spec_byte (z : Z) (i : nat) : Z := (z / 2 ^ (8 * Z.of_nat i)) mod 256.

(** Object representation of a field, bytes in memory order. *)
Definition spec_rep (little : bool) (t : fty) (v : value) : list Z :=
  match t, v with
  | TIntN _ _ n, VInt z =>
      map (spec_byte z) (if little then seq 0 n else rev (seq 0 n))
  | TBool, VBool b => [if b then 1 else 0]
  | TFloat w, VFloat _ z =>
      let n := if w then 8%nat else 4%nat in
      map (spec_byte z) (if little then seq 0 n else rev (seq 0 n))
  | TRawN _ _, VRaw bs => bs
  | _, _ => []
  end.

(** The payload: representations of the fields in order. *)
Definition spec_payload (little : bool) (ts : list fty) (vs : list value) : list Z :=
  concat (map (fun tv => spec_rep little (fst tv) (snd tv)) (combine ts vs)).

(** Sum of a list of bytes. *)
Definition zsum (l : list Z) : Z := fold_right Z.add 0 l.

(** A frame on the wire. *)
Definition spec_frame (e : envelope) (id : Z) (payload : list Z) : list Z :=
  match e with
  | Basic => [1; id; 2] ++ payload ++ [3; 4]
  | BasicChecksum =>
      let head := [1; id; 2] ++ payload ++ [3] in
      head ++ [zsum head mod 256; 4]
  end.

(** Size of the payload and of the frame of a message type. *)
Definition payload_size (m : mtype) : nat := list_sum (map fsize (mt_fields m)).
Definition frame_size (e : envelope) (m : mtype) : nat :=
  match e with Basic => payload_size m + 5 | BasicChecksum => payload_size m + 6 end%nat.

(** [m] has id [id] in the collection: it is the element at that position. *)
Definition has_id (coll : collection) (m : mtype) (id : Z) : Prop :=
  0 <= id /\ nth_error (mc_types coll) (Z.to_nat id) = Some m.

(** ** Frame scanner *)

(** [f] is a complete valid frame of [coll] with message [m], id [id] and payload bytes [p]. *)
Definition is_frame (coll : collection) (f : list Z) (m : mtype) (id : Z) (p : list Z) : Prop :=
  has_id coll m id /\ length p = payload_size m /\ f = spec_frame (mc_env coll) id p.

(** [s] is a possible beginning of a frame, with more bytes needed to decide: nothing
    yet, a start code, a start code and a valid id, or a header with fewer bytes than
    the message's frame. *)
Definition undecided (coll : collection) (s : list Z) : Prop :=
  match s with
  | [] => True
  | [b] => b = 1
  | [b; id] => b = 1 /\ exists m, has_id coll m id
  | b :: id :: x :: _ =>
      b = 1 /\ x = 2 /\ exists m, has_id coll m id /\ (length s < frame_size (mc_env coll) m)%nat
  end.

(** A found message: type, id and payload bytes. *)
Record found := Found { f_message : mtype; f_id : Z; f_payload : list Z }.

(** Scanning a byte string from the left: wait when undecided, take a frame when one is
    there, otherwise drop one byte. [Scan coll s ms r]: the messages found are [ms] and
    [r] is kept for later. *)
Inductive Scan (coll : collection) : list Z -> list found -> list Z -> Prop :=
| scan_wait s : undecided coll s -> Scan coll s [] s
| scan_frame f m id p s ms r :
    is_frame coll f m id p ->
    Scan coll s ms r ->
    Scan coll (f ++ s) (Found m id p :: ms) r
| scan_skip b s ms r :
    ~ undecided coll (b :: s) ->
    (forall f m id p s', is_frame coll f m id p -> b :: s <> f ++ s') ->
    Scan coll s ms r ->
    Scan coll (b :: s) ms r.

(** Field sizes are positive (every C++ object has size at least 1). *)
Definition fty_ok (t : fty) : Prop := (0 < fsize t)%nat.
