(** Specification vocabulary for exceptions thrown while a message is sent. *)
From Verif Require Export Throwing SpecGaps.

(** A call on a transmitter that may throw. *)
Definition th_call {S} (t : thrower S) (x : call) (s : S) : outcome (S * bool) :=
  match x with CByte b => th_byte t b s | CBlock bs => th_block t bs s end.

(** What it has written, [out], grows by the bytes it is given, or by a beginning of them when it throws. *)
Definition writes_some {S} (t : thrower S) (out : S -> list Z) : Prop :=
  (forall x s, exists s' thrown n, th_call t x s = Ok (s', thrown)
     /\ (thrown = false -> n = length (call_bytes x)) /\ out s' = out s ++ firstn n (call_bytes x))
  /\ forall s, exists s' thrown, th_finished t s = Ok (s', thrown) /\ out s' = out s.

(** When it throws it has not written all. *)
Definition not_all {S} (t : thrower S) (out : S -> list Z) : Prop :=
  (forall x s s', th_call t x s = Ok (s', true) -> zlen (out s') < zlen (out s) + zlen (call_bytes x))
  /\ forall s s', th_finished t s <> Ok (s', true).

(** A program that sends messages one by one and catches exceptions; after each message, sent or not, it may write some
    idle bytes itself (and these do get written). *)
Record attempt := Attempt { at_message : mtype * list value; at_thrown : bool; at_idle : list Z }.
Inductive attempts {S} (c : config) (coll : collection) (t : thrower S) : S -> list attempt -> S -> Prop :=
| tried_all s : attempts c coll t s [] s
| tried s m vs s1 thrown idle s2 log s3 :
    try_send c coll m t (combine (mt_fields m) vs) s = Ok (s1, thrown) ->
    run_calls (escaping t) (map CByte idle) (s1, false) = Ok (s2, false) ->
    attempts c coll t s2 log s3 ->
    attempts c coll t s (Attempt (m, vs) thrown idle :: log) s3.

(** The idle bytes are no start codes; after an exception they make a gap, without EOT, and the message that was not sent
    has no start code inside. *)
Definition careful (c : config) (coll : collection) (a : attempt) : Prop :=
  ~ In 1 (at_idle a)
  /\ (at_thrown a = true -> is_gap coll (at_idle a) /\ ~ In 4 (at_idle a) /\ clean c coll (at_message a)).
