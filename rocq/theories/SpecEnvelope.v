(** Specification vocabulary for EnvelopeReceiveBuffer. *)
From Verif Require Export SpecReceiver SpecBuffer.

(** The bytes an EnvelopeReceiveBuffer holds. *)
Definition er_held (e : erb) : list Z := rb_bytes (er_buf e).

(** [er_reached c coll ready e]: [e] is the state of an EnvelopeReceiveBuffer after any sequence
    of calls in which appended data fits the reported space and popMessage is called only
    when the last check found a message.  [ready]: it did and the message has not been popped. *)
Inductive er_reached (c : config) (coll : collection) : bool -> erb -> Prop :=
| er_reached_new : er_reached c coll false (er_init coll)
| er_reached_append ready e d e' :
    er_reached c coll ready e -> bytes_ok d -> zlen d <= er_available coll e ->
    er_append c coll d e = Ok e' -> er_reached c coll ready e'
| er_reached_append1 ready e x e' :
    er_reached c coll ready e -> 0 <= x < 256 -> 1 <= er_available coll e ->
    er_append1 c coll x e = Ok e' -> er_reached c coll ready e'
| er_reached_functor ready e a n e' k :
    er_reached c coll ready e -> adapter_ok a -> 0 <= n <= 255 ->
    er_from_functor c coll (adapter_call a) n e = Ok (e', k) -> er_reached c coll ready e'
| er_reached_check ready e b e' :
    er_reached c coll ready e -> check c coll e = Ok (b, e') -> er_reached c coll b e'
| er_reached_pop e e' :
    er_reached c coll true e -> er_pop_message c coll e = Ok e' -> er_reached c coll false e'
| er_reached_set_id ready e id :
    er_reached c coll ready e -> 0 <= id < 256 -> er_reached c coll false (er_set_id coll id e).

(** checkBufferForMessage calls itself [k - 1] times: with fewer levels of recursion allowed it
    does not return. *)
Definition levels (c : config) (coll : collection) (e : erb) (k : nat) : Prop :=
  (forall n, (n < k)%nat -> check_fuel n c coll e = Hang) /\ check_fuel k c coll e <> Hang.

(** Assertions are evaluated. *)
Definition checking (c : config) : bool := match mode c with Disabled => false | _ => true end.

(** [er_work c coll n k b ready e]: as [er_reached], with [n] calls of checkBufferForMessage from
    outside, [k] calls altogether (popMessage's assertion makes one too, unless assertions are off) and
    [b] bytes appended. *)
Inductive er_work (c : config) (coll : collection) : Z -> Z -> Z -> bool -> erb -> Prop :=
| er_work_new : er_work c coll 0 0 0 false (er_init coll)
| er_work_append n k b ready e d e' :
    er_work c coll n k b ready e -> bytes_ok d -> zlen d <= er_available coll e ->
    er_append c coll d e = Ok e' -> er_work c coll n k (b + zlen d) ready e'
| er_work_append1 n k b ready e x e' :
    er_work c coll n k b ready e -> 0 <= x < 256 -> 1 <= er_available coll e ->
    er_append1 c coll x e = Ok e' -> er_work c coll n k (b + 1) ready e'
| er_work_functor n k b ready e a m e' r :
    er_work c coll n k b ready e -> adapter_ok a -> 0 <= m <= 255 ->
    er_from_functor c coll (adapter_call a) m e = Ok (e', r) -> er_work c coll n k (b + r) ready e'
| er_work_check n k b ready e f e' l :
    er_work c coll n k b ready e -> check c coll e = Ok (f, e') -> levels c coll e l ->
    er_work c coll (n + 1) (k + Z.of_nat l) b f e'
| er_work_pop n k b e e' l :
    er_work c coll n k b true e -> er_pop_message c coll e = Ok e' -> levels c coll e l ->
    er_work c coll n (if checking c then k + Z.of_nat l else k) b false e'
| er_work_set_id n k b ready e id :
    er_work c coll n k b ready e -> 0 <= id < 256 -> er_work c coll n k b false (er_set_id coll id e).
