(** Specification vocabulary for bytes arriving while processMessages is at work. *)
From Verif Require Export Arrivals SpecReceiver.

(** What arrives are bytes, within the reported space. *)
Definition fits (f : arrival) : Prop :=
  forall p n, 0 <= n -> bytes_ok (f p n) /\ zlen (f p n) <= n.

(** Nothing arrives while the fields of a message are read, and what arrives between having found the buffer empty and
    asking for its size begins with SOH or is no more than one byte. *)
Definition harmless (f : arrival) : Prop :=
  (forall n, f Reading n = []) /\ (forall n, zlen (f Emptied n) <= 1 \/ exists d, f Emptied n = 1 :: d).

(** appendReceived and processMessages, called one after the other. *)
Definition separate (ops : list op) : Prop :=
  Forall (fun o => o = OpProcess \/ exists d, o = OpAppend d) ops.

(** How processMessages ends that makes the calls of handlers between [w] and [v], [rs] being what the separate calls
    return. *)
Definition ends_with (rs : list opret) (w v : world) : presult :=
  match throws rs with
  | [] => Returned (zlen (new_calls w v) mod 256)
  | _ => Threw
  end.
