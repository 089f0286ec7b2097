(** Specification vocabulary for the accesses to the receive buffer. *)
From Verif Require Export SpecEnvelope Counted.

(** [er_cost c coll n a b ready e]: as [er_reached], with [n] calls of checkBufferForMessage from outside
    (not counting the one in popMessage's assertion), [a] accesses to elements of the buffer made by
    checkBufferForMessage and popMessage, and [b] bytes appended. *)
Inductive er_cost (c : config) (coll : collection) : Z -> Z -> Z -> bool -> erb -> Prop :=
| er_cost_new : er_cost c coll 0 0 0 false (er_init coll)
| er_cost_append n a b ready e d e' :
    er_cost c coll n a b ready e -> bytes_ok d -> zlen d <= er_available coll e ->
    er_append c coll d e = Ok e' -> er_cost c coll n a (b + zlen d) ready e'
| er_cost_append1 n a b ready e x e' :
    er_cost c coll n a b ready e -> 0 <= x < 256 -> 1 <= er_available coll e ->
    er_append1 c coll x e = Ok e' -> er_cost c coll n a (b + 1) ready e'
| er_cost_functor n a b ready e ad m e' r :
    er_cost c coll n a b ready e -> adapter_ok ad -> 0 <= m <= 255 ->
    er_from_functor c coll (adapter_call ad) m e = Ok (e', r) -> er_cost c coll n a (b + r) ready e'
| er_cost_check n a b ready e f e' :
    er_cost c coll n a b ready e -> check c coll e = Ok (f, e') ->
    er_cost c coll (n + 1) (a + accesses (c_check c coll e)) b f e'
| er_cost_pop n a b e e' :
    er_cost c coll n a b true e -> er_pop_message c coll e = Ok e' ->
    er_cost c coll n (a + accesses (c_pop_message c coll e)) b false e'
| er_cost_set_id n a b ready e id :
    er_cost c coll n a b ready e -> 0 <= id < 256 -> er_cost c coll n a b false (er_set_id coll id e).

(** No frame of the collection is longer than [L] bytes. *)
Definition longest (coll : collection) (L : Z) : Prop :=
  forall m, In m (mc_types coll) -> Z.of_nat (frame_size (mc_env coll) m) <= L.
