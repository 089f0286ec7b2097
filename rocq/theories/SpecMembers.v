(** Specification vocabulary for the use of member functions. *)
From Verif Require Export Members.
Local Open Scope string_scope.

(** The uses a program leads to: those in it, and those in the bodies of the functions used. *)
Inductive instantiated (cs : classes) (prog : list muse) : muse -> Prop :=
| inst_program u : In u prog -> instantiated cs prog u
| inst_body u f v : instantiated cs prog u -> selected cs u = Some f -> In v (uses_of f) -> instantiated cs prog v.

(** It compiles, as far as the existence, the constness and the access of member functions are concerned. *)
Definition well_formed (cs : classes) (prog : list muse) : Prop :=
  forall u, instantiated cs prog u -> exists f, selected cs u = Some f.

(** A use the class offers: outside of the classes, of a public function of the class (or of the base of ReceiveBuffer), on a
    const object if the function is declared const or static. *)
Definition offered (cs : classes) (u : muse) : Prop :=
  u_from u = "" /\ In (u_class u) ["ReceiveBuffer"; "EnvelopeReceiveBuffer"; "Receiver"]
  /\ exists f, In f (cs_funs cs) /\ f_public f = true /\ f_name f = u_name u
       /\ (f_class f = u_class u \/ u_class u = "ReceiveBuffer" /\ f_class f = "vector_simulator")
       /\ (u_const u = true -> f_const f = true \/ f_static f = true).

(** Those that never compile: class, function, whether the object is const. *)
Definition unusable (exceptions : bool) : list (string * string * bool) :=
  [ ("ReceiveBuffer", "data", false); ("ReceiveBuffer", "data", true); ("ReceiveBuffer", "[]", true);
    ("ReceiveBuffer", "front", true); ("ReceiveBuffer", "back", true); ("ReceiveBuffer", "at", true);
    ("EnvelopeReceiveBuffer", "bufferFront", true); ("EnvelopeReceiveBuffer", "buffer", true);
    ("EnvelopeReceiveBuffer", "bufferEnsureSpace", false); ("EnvelopeReceiveBuffer", "bufferEnsureSpace", true) ]
  ++ if exceptions then [("ReceiveBuffer", "at", false)] else [].
