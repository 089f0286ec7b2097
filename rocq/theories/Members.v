(** Which member functions can be called: constness, access, and what they call in turn. *)
From Coq Require Export String List Bool Arith Lia.
Export ListNotations.
Local Open Scope string_scope.

(** The object a call in a function's body is made on: the function's own object or a data member of it (const in a const
    member function), or an object known as not const, or one known as const. *)
Inductive mobject := Own | Mutable | Fixed.
(** A call in a body: class, function, object. *)
Record mcall := MCall { c_class : string; c_name : string; c_object : mobject }.

(** A member function: its class, its name (with the number of parameters where there are overloads), whether it is static,
    whether it is const, whether it is public, and the calls in its body. *)
Record mfun := MFun { f_class : string; f_name : string; f_static : bool; f_const : bool; f_public : bool; f_calls : list mcall }.

(** The classes: member functions, (derived, base) and (class, friend of it). *)
Record classes := Classes { cs_funs : list mfun; cs_bases : list (string * string); cs_friends : list (string * string) }.

Definition eq2 (x y : string * string) : bool := String.eqb (fst x) (fst y) && String.eqb (snd x) (snd y).

(** The functions a name denotes in a class: its own, otherwise those of its base (C++ [class.member.lookup]). *)
Definition own_funs (cs : classes) (cl name : string) : list mfun :=
  filter (fun f => eq2 (f_class f, f_name f) (cl, name)) (cs_funs cs).
Definition named_funs (cs : classes) (cl name : string) : list mfun :=
  match own_funs cs cl name with
  | [] => match find (fun b => String.eqb (fst b) cl) (cs_bases cs) with
          | Some b => own_funs cs (snd b) name
          | None => []
          end
  | l => l
  end.

(** The function called on a const or non-const object (C++ [over.match.funcs], [over.ics.rank]: a function that is not
    const does not take a const object and is preferred for the others). *)
Definition chosen (cs : classes) (cl name : string) (const : bool) : option mfun :=
  let l := named_funs cs cl name in
  match find (fun f => negb const && negb (f_const f) || f_static f) l with
  | Some f => Some f
  | None => find f_const l
  end.

(** A private function may be named by members and friends of its class only (C++ [class.access]). *)
Definition accessible (cs : classes) (from : string) (f : mfun) : bool :=
  f_public f || String.eqb from (f_class f) || existsb (eq2 (f_class f, from)) (cs_friends cs).

(** A use of a member function: by which class ("" outside of classes), of which class, its name, whether on a const object. *)
Record muse := MUse { u_from : string; u_class : string; u_name : string; u_const : bool }.
Definition selected (cs : classes) (u : muse) : option mfun :=
  match chosen cs (u_class u) (u_name u) (u_const u) with
  | Some f => if accessible cs (u_from u) f then Some f else None
  | None => None
  end.
(** The uses in the body of a function, which is looked at when the function is used (C++ [temp.inst]: a member of a class
    template is instantiated when it is called; compilers say nothing about those never called). *)
Definition uses_of (f : mfun) : list muse :=
  map (fun c => MUse (f_class f) (c_class c) (c_name c) (match c_object c with Own => f_const f | Mutable => false | Fixed => true end)) (f_calls f).

(** vector_simulator_access and vector_simulator, util/VectorSimulator.h:52-119; [exceptions]: at() of lines 79-92, otherwise
    of lines 69-75.  Derived is [RB]. *)
Definition SIM := "vector_simulator".
Definition ACC := "vector_simulator_access".
Definition RB := "ReceiveBuffer".
Definition simulator (exceptions : bool) : list mfun :=
  let checked := if exceptions then [MCall ACC "rangecheck" Own; MCall SIM "getDerived" Own; MCall RB "[]" Own]
                 else [MCall SIM "getDerived" Own; MCall RB "[]" Own] in
  [ MFun ACC "rangecheck" true false false [MCall RB "rangecheck" Fixed];
    MFun SIM "at" false false true checked;
    MFun SIM "at" false true true checked;
    MFun SIM "front" false false true [MCall SIM "getDerived" Own; MCall RB "[]" Own];
    MFun SIM "front" false true true [MCall SIM "getDerived" Own; MCall RB "[]" Own];
    MFun SIM "back" false false true [MCall SIM "getDerived" Own; MCall RB "size" Own; MCall RB "[]" Own];
    MFun SIM "back" false true true [MCall SIM "getDerived" Own; MCall RB "size" Own; MCall RB "[]" Own];
    MFun SIM "getDerived" false false false [];
    MFun SIM "getDerived" false true false [] ].

(** util::ReceiveBuffer, util/ReceiveBuffer.h:80-348; [asserts]: whether the arguments of the assertions are compiled. *)
Definition buffer (asserts : bool) : list mfun :=
  let a l := if asserts then map (fun n => MCall RB n Own) l else [] in
  let own := map (fun n => MCall RB n Own) in
  [ MFun RB "ReceiveBuffer(other)" false false true (MCall RB "size" Fixed :: own ["idealContentsCopy"]);
    MFun RB "ReceiveBuffer(v,len)" false false true [];
    MFun RB "ReceiveBuffer(first,last)" false false true (own ["push_back/2"]);
    MFun RB "=" false false true (own ["slide_contents_forward"; "idealContentsCopy"]);
    MFun RB "empty" false true true [];
    MFun RB "size" false true true [];
    MFun RB "max_size" true false true [];
    MFun RB "data" false true true (own ["adjusted_index"]);
    MFun RB "[]" false false true (a ["size"] ++ own ["adjusted_index"]);
    MFun RB "[]" false true true (a ["size"] ++ own ["adjusted_index"]);
    MFun RB "clear" false false true [];
    MFun RB "push_back/1" false false true (own ["increment_pastEnd"; "size"; "[]"]);
    MFun RB "push_back/2" false false true (own ["ensure_space"; "end"; "verify_invariants"]);
    MFun RB "bufferFromExternalFunctorRef" false false true (own ["max_size"; "size"; "ensure_space"; "verify_invariants"]);
    MFun RB "pop_back" false false true (own ["back"; "decrement_pastEnd"]);
    MFun RB "pop_front" false false true (own ["front"; "increment_begin"]);
    MFun RB "begin" false false true [];
    MFun RB "begin" false true true [];
    MFun RB "end" false false true [];
    MFun RB "end" false true true [];
    MFun RB "erase/1" false false true (own ["erase/2"]);
    MFun RB "erase/2" false false true (own ["begin"; "pop_front"; "end"; "pop_back"; "decrement_pastEnd"] ++ a ["size"]);
    MFun RB "ensure_space" false false true (own ["empty"; "slide_contents_forward"] ++ a ["size"]);
    MFun RB "adjusted_index" false false false [];
    MFun RB "slide_contents_forward" false false false (own ["idealContentsCopy"]);
    MFun RB "rangecheck" false true false (own ["size"]);
    MFun RB "increment_pastEnd" false false false (own ["ensure_space"]);
    MFun RB "decrement_pastEnd" false false false [];
    MFun RB "increment_begin" false false false [];
    MFun RB "idealContentsCopy" true false false (map (fun n => MCall RB n Fixed) ["begin"; "end"; "size"]);
    MFun RB "verify_invariants" false true false [] ].

(** EnvelopeReceiveBuffer, tuple-transmission/detail/types/EnvelopeReceiveBuffer.h:72-203, and the function of EnvelopeBase and of the
    two envelopes that read it through a reference, tuple-transmission/detail/bases/EnvelopeBase.h:70-85,
    tuple-transmission/envelopes/Basic.h:68-123, tuple-transmission/envelopes/BasicChecksum.h:73-147 (the two make the same calls on it). *)
Definition ERB := "EnvelopeReceiveBuffer".
Definition ENV := "Envelope".
Definition envelope_buffer (asserts : bool) : list mfun :=
  let a l := if asserts then l else [] in
  let rb := map (fun n => MCall RB n Own) in
  let own := map (fun n => MCall ERB n Own) in
  let var := map (fun n => MCall ERB n Mutable) in
  [ MFun ERB "bufferAvailableSpace" false true true (rb ["max_size"; "size"]);
    MFun ERB "bufferAppend/2" false false true (rb ["push_back/2"]);
    MFun ERB "bufferAppend/1" false false true (rb ["push_back/1"]);
    MFun ERB "checkBufferForMessage" false false true [MCall ENV "checkBufferForMessage" Own];
    MFun ERB "getDataIterator" false true true (rb ["begin"]);
    MFun ERB "popMessage" false false true (a (own ["checkBufferForMessage"]) ++ own ["getMessageLength"; "bufferPopFront"]);
    MFun ERB "bufferSize" false true true (rb ["size"]);
    MFun ERB "bufferEmpty" false true true (rb ["empty"]);
    MFun ERB "bufferFront" false true true (rb ["front"]);
    MFun ERB "bufferFront" false false true (rb ["front"]);
    MFun ERB "bufferPopFront" false false true (rb ["pop_front"]);
    MFun ERB "buffer" false true true (rb ["[]"]);
    MFun ERB "buffer" false false true (rb ["[]"]);
    MFun ERB "bufferEnsureSpace" false true true (rb ["ensure_space"]);
    MFun ERB "bufferFromFunctorRef" false false true (rb ["bufferFromExternalFunctorRef"]);
    MFun ERB "setCurrentMessageId" false false true [];
    MFun ERB "isCurrentMessageIdValid" false true true [];
    MFun ERB "getCurrentMessageId" false true true [];
    MFun ERB "getMessageLength" false true true (a (own ["isCurrentMessageIdValid"]));
    MFun ENV "checkBufferForMessage" true false true
      (var ["bufferEmpty"; "bufferFront"; "bufferPopFront"; "bufferSize"; "setCurrentMessageId"; "buffer"; "isCurrentMessageIdValid";
            "getMessageLength"] ++ [MCall ENV "popAndRetry" Own]);
    MFun ENV "popAndRetry" true false true (var ["bufferEmpty"; "bufferPopFront"] ++ [MCall ENV "checkBufferForMessage" Own]) ].

(** Receiver, tuple-transmission/Receiver.h:74-177. *)
Definition REC := "Receiver".
Definition receiver : list mfun :=
  let erb := map (fun n => MCall ERB n Own) in
  [ MFun REC "Receiver(handler)" false false true [MCall REC "deserializeAndInvoke" Own];
    MFun REC "Receiver()" false false true [];
    MFun REC "setHandler" false false true [MCall REC "deserializeAndInvoke" Own];
    MFun REC "clearHandler" false false true [];
    MFun REC "hasHandler" false true true [];
    MFun REC "getBufferAvailableSpace" false true true (erb ["bufferAvailableSpace"]);
    MFun REC "appendReceived" false false true (erb ["bufferAppend/2"]);
    MFun REC "receiveFrom" false false true (erb ["bufferFromFunctorRef"]);
    MFun REC "getLastMessageId" false true true [];
    MFun REC "processMessages" false false true
      (MCall REC "hasHandler" Own :: erb ["checkBufferForMessage"; "getCurrentMessageId"; "getDataIterator"; "popMessage"]);
    MFun REC "deserializeAndInvoke" true false false [] ].

(** All of them; ReceiveBuffer derives from vector_simulator and has vector_simulator_access as its friend
    (util/ReceiveBuffer.h:56, 301). *)
Definition the_classes (exceptions asserts : bool) : classes :=
  Classes (simulator exceptions ++ buffer asserts ++ envelope_buffer asserts ++ receiver) [(RB, SIM)] [(RB, ACC)].

(** A class outside of templates, which is compiled where it is defined: its name, the class template it derives from, the
    name of the one function it declares without a return type (a constructor has the class's name, C++ [class.ctor]), the
    class whose reference that function takes, and the class the reference member initialized with it refers to. *)
Record plain := Plain { p_name : string; p_base : string; p_ctor : string; p_takes : string; p_keeps : string }.
(** It compiles where [known] templates are declared and [derives d b] says that class d is b or derives from it
    (C++ [class.derived], [dcl.init.ref]). *)
Definition plain_compiles (known : list string) (derives : string -> string -> bool) (p : plain) : bool :=
  existsb (String.eqb (p_base p)) known && String.eqb (p_ctor p) (p_name p) && derives (p_takes p) (p_keeps p).

(** tuple-transmission/transmitters/ArduinoI2C.h:41-62, tuple-transmission/transmitters/ArduinoSerial.h:36-50,
    tuple-transmission/receiveadapters/ArduinoSerial.h:38-53 (all three under #ifdef ARDUINO), tuple-transmission/transmitters/VrpnSerial.h:35-50,
    tuple-transmission/receiveadapters/VrpnSerial.h:36-47. *)
Definition arduino_i2c := Plain "ArduinoI2C" "TransmitterBase" "ArduinoSerial" "TwoWire" "TwoWire".
Definition arduino_serial := Plain "ArduinoSerial" "TransmitterBase" "ArduinoSerial" "Print" "Stream".
Definition arduino_receive := Plain "ArduinoSerialReceiveAdapter" "ReceiveAdapter" "ArduinoSerialReceiveAdapter" "Stream" "Stream".
Definition vrpn_serial := Plain "VrpnSerial" "TransmitterBase" "VrpnSerial" "vrpn_SerialPort" "vrpn_SerialPort".
Definition vrpn_receive :=
  Plain "VrpnSerialReceiveAdapter" "ReceiveAdapterWithoutAvailable" "VrpnSerialReceiveAdapter" "vrpn_SerialPort" "vrpn_SerialPort".
(** The class templates declared by the headers they include: tuple-transmission/detail/bases/TransmitterBase.h,
    tuple-transmission/detail/bases/ReceiveAdapterBase.h:42-75. *)
Definition base_templates := ["TransmitterBase"; "ReceiveAdapterBase"; "ReceiveAdapterWithoutAvailable"].
