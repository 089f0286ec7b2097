(** Specification of two programs that send messages to each other over a wire in each direction. *)
From Verif Require Export SpecLink SpecBuffer.

(** A program: the machine and the build, the collection its receiver is for, what its handler does
    to the receiver, the messages it may send of its own accord, and those its handler sends
    during the last of the handler calls made so far. *)
Record party := Party {
  py_config : config;
  py_coll : collection;
  py_beh : hbehav;
  py_main : mtype * list value -> Prop;
  py_replies : list delivery -> list (mtype * list value) }.

(** One end of the connection: the receiver with the handler calls so far, the messages sent so
    far, and the bytes sent that the other end has not read yet. *)
Record side := Side {
  sd_world : world;
  sd_sent : list (mtype * list value);
  sd_wire : list Z }.
Definition side_start (p : party) (h : handler) : side := Side (start (py_coll p) (Some h)) [] [].

(** The messages sent during the handler calls [new] made after the calls [log]. *)
Fixpoint replies_to (f : list delivery -> list (mtype * list value)) (log new : list delivery)
  : list (mtype * list value) :=
  match new with
  | [] => []
  | d :: rest => f (log ++ [d]) ++ replies_to f (log ++ [d]) rest
  end.

(** The program [p] sends messages of its own accord. *)
Inductive Sends (p q : party) : side -> side -> Prop :=
| sends w sent wire msgs wire' :
    Forall (py_main p) msgs ->
    send_all (py_config p) (py_coll q) vector_tx msgs wire = Ok wire' ->
    Sends p q (Side w sent wire) (Side w (sent ++ msgs) wire').

(** The program [p] reads from the wire of [q] through the adapter [a] and processes messages; its
    handler answers on the other wire.  (What is sent on that wire does not matter to the receiver of [p].) *)
Inductive Turn (fuel : nat) (p q : party) (a : adapter) : side -> side -> side -> side -> Prop :=
| turn w sent wire wq sentq wireq w1 k w2 r wire' :
    step fuel (py_config p) (py_coll p) (py_beh p) (OpReceive a) w = Ok (w1, RetCount k) ->
    step fuel (py_config p) (py_coll p) (py_beh p) OpProcess w1 = Ok (w2, RetProcess (Returned r)) ->
    send_all (py_config p) (py_coll q) vector_tx (replies_to (py_replies p) (w_log w) (new_calls w w2)) wire = Ok wire' ->
    Turn fuel p q a (Side w sent wire) (Side wq sentq wireq)
         (Side w2 (sent ++ replies_to (py_replies p) (w_log w) (new_calls w w2)) wire')
         (Side wq sentq (skipn (Z.to_nat k) wireq)).

(** Everything the two can do: the ends [s] of [p] and [t] of [q] after any number of actions. *)
Inductive Talk (fuel : nat) (p q : party) (hp hq : handler) : side -> side -> Prop :=
| talk_start : Talk fuel p q hp hq (side_start p hp) (side_start q hq)
| talk_send_l s t s' : Talk fuel p q hp hq s t -> Sends p q s s' -> Talk fuel p q hp hq s' t
| talk_send_r s t t' : Talk fuel p q hp hq s t -> Sends q p t t' -> Talk fuel p q hp hq s t'
| talk_turn_l s t a s' t' : Talk fuel p q hp hq s t -> serves a (sd_wire t) ->
    Turn fuel p q a s t s' t' -> Talk fuel p q hp hq s' t'
| talk_turn_r s t a s' t' : Talk fuel p q hp hq s t -> serves a (sd_wire s) ->
    Turn fuel q p a t s t' s' -> Talk fuel p q hp hq s' t'.

(** Turns only, reading the wires through the given ports. *)
Inductive Turns (fuel : nat) (p q : party) (port : list Z -> adapter) : side -> side -> side -> side -> Prop :=
| turns_none s t : Turns fuel p q port s t s t
| turns_l s t s1 t1 s2 t2 : Turns fuel p q port s t s1 t1 ->
    Turn fuel p q (port (sd_wire t1)) s1 t1 s2 t2 -> Turns fuel p q port s t s2 t2
| turns_r s t s1 t1 s2 t2 : Turns fuel p q port s t s1 t1 ->
    Turn fuel q p (port (sd_wire s1)) t1 s1 t2 s2 -> Turns fuel p q port s t s2 t2.

(** A program that compiles, whose handler returns and at most installs other handlers in its
    receiver, and that sends messages of the other end's collection. *)
Definition party_ok (p q : party) : Prop :=
  static_ok (py_coll p) = true /\ index_safe (py_config p) (capacity (py_coll p))
  /\ steady (py_beh p) /\ (forall log, hr_throws (py_beh p log) = false)
  /\ (forall mv, py_main p mv -> sendable (py_coll q) mv)
  /\ (forall log, Forall (sendable (py_coll q)) (py_replies p log)).
