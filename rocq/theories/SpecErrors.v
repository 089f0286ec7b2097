(** Transmission errors, for the properties on the checksum. *)
From Verif Require Export Spec.

(** Adjacent bytes [x], [y] become [x'], [y'] by changes within eight successive bits, the bits of a byte
    being sent from the lowest, or from the highest. *)
Definition burst (x y x' y' : Z) : Prop :=
  exists n, 0 <= n <= 8
    /\ ((x mod 2 ^ n = x' mod 2 ^ n /\ y / 2 ^ n = y' / 2 ^ n)
        \/ (x / 2 ^ n = x' / 2 ^ n /\ y mod 2 ^ n = y' mod 2 ^ n)).

(** Byte [x] with bit [i] changed. *)
Definition flip (x i : Z) : Z := Z.lxor x (2 ^ i).

(** ** Noise *)

(** [L] lists all strings of [n] bytes, each once. *)
Definition all_strings (n : nat) (L : list (list Z)) : Prop :=
  NoDup L /\ forall s, In s L <-> Forall (fun b => 0 <= b < 256) s /\ length s = n.

(** In how many places of a string of [n] bytes a frame of one of the message types could be. *)
Definition places (coll : collection) (n : nat) : Z :=
  zsum (map (fun m => Z.max 0 (Z.of_nat n + 1 - Z.of_nat (frame_size (mc_env coll) m))) (mc_types coll)).

(** How many bytes of a frame follow from the others and the message id. *)
Definition redundant (e : envelope) : Z := match e with Basic => 5 | BasicChecksum => 6 end.
