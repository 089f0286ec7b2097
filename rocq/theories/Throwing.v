(** Exceptions thrown while a message is sent: by std::vector when there is no memory, by vrpn_SerialPort when it cannot
    write, or by a transmitter of the application. *)
From Verif Require Export Transmit.

(** A transmitter (tuple-transmission/detail/bases/TransmitterBase.h:49-84) whose functions may throw: each gives its
    state afterwards, and whether it has thrown. *)
Record thrower (S : Type) := Thrower {
  th_byte : Z -> S -> outcome (S * bool);
  th_block : list Z -> S -> outcome (S * bool);
  th_finished : S -> outcome (S * bool) }.
Arguments Thrower {S}.
Arguments th_byte {S}.
Arguments th_block {S}.
Arguments th_finished {S}.

(** The functions on the way from send to the transmitter (tuple-transmission/Send.h:48-67, EnvelopeBase.h:66-69,
    Basic.h:58-66, BasicChecksum.h:57-71, SerializerBase.h:64-69, TransmitterBase.h:49-62) catch nothing, and their
    local objects have no destructors that call a transmitter: after an exception nothing more is called on it. *)
Definition unless_thrown {S} (f : S -> outcome (S * bool)) (s : S * bool) : outcome (S * bool) :=
  if snd s then Ok s else f (fst s).
Definition escaping {S} (t : thrower S) : transmitter (S * bool) :=
  Transmitter (fun v => unless_thrown (th_byte t v)) (fun d => unless_thrown (th_block t d)) (unless_thrown (th_finished t)).

(** send<Collection, Message>(tx, contents), tuple-transmission/Send.h:48-67, in a try block: the state, and whether an
    exception was caught. *)
Definition try_send {S} (c : config) (coll : collection) (m : mtype) (t : thrower S) (contents : list (fty * value)) (s : S)
  : outcome (S * bool) :=
  send c coll m (escaping t) contents (s, false).

(** The fallback writeFinished, tuple-transmission/detail/bases/TransmitterBase.h:79-80. *)
Definition th_nothing {S} (s : S) : outcome (S * bool) := Ok (s, false).

(** TransmitterComposition, tuple-transmission/transmitters/TransmitterComposition.h:57-67: when the first one throws the
    second is not called. *)
Definition both_called {A B} (f : A -> outcome (A * bool)) (g : B -> outcome (B * bool)) (s : A * B) : outcome ((A * B) * bool) :=
  do r <- f (fst s);
  if snd r then Ok ((fst r, snd s), true)
  else do q <- g (snd s); Ok ((fst r, fst q), snd q).
Definition compose_th {A B} (t1 : thrower A) (t2 : thrower B) : thrower (A * B) :=
  Thrower (fun v => both_called (th_byte t1 v) (th_byte t2 v)) (fun d => both_called (th_block t1 d) (th_block t2 d)) th_nothing.

(** VectorBuffer, tuple-transmission/transmitters/VectorBuffer.h:49-55, with a memory of state [M]: [grow], asked with the
    vector's content, tells whether push_back fails for want of memory.  A push_back that throws has no effect
    ([container.requirements.general]); write is one push_back after the other. *)
Definition vec_push {M} (grow : M -> list Z -> M * bool) (v : Z) (s : M * list Z) : outcome ((M * list Z) * bool) :=
  let '(m, fails) := grow (fst s) (snd s) in
  Ok (if fails then ((m, snd s), true) else ((m, snd s ++ [v]), false)).
Fixpoint vec_write {M} (grow : M -> list Z -> M * bool) (d : list Z) (s : M * list Z) : outcome ((M * list Z) * bool) :=
  match d with
  | [] => Ok (s, false)
  | v :: rest => do r <- vec_push grow v s; if snd r then Ok r else vec_write grow rest (fst r)
  end.
Definition vector_th {M} (grow : M -> list Z -> M * bool) : thrower (M * list Z) :=
  Thrower (vec_push grow) (vec_write grow) th_nothing.

(** VrpnSerial, tuple-transmission/transmitters/VrpnSerial.h:40-46, on a port of state [P] that takes all of a write, or
    some of it and throws. *)
Definition vrpn_write {P} (port : P -> list Z -> P * option nat) (d : list Z) (s : P * list Z) : outcome ((P * list Z) * bool) :=
  let '(p, cut) := port (fst s) d in
  Ok match cut with
     | None => ((p, snd s ++ d), false)
     | Some n => ((p, snd s ++ firstn n d), true)
     end.
Definition vrpn_th {P} (port : P -> list Z -> P * option nat) : thrower (P * list Z) :=
  Thrower (fun v => vrpn_write port [v]) (vrpn_write port) th_nothing.
