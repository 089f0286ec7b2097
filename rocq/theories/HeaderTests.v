(** The build's own check of the list of headers and the programs it makes to compile each header alone:
    tuple-transmission/CMakeLists.txt, tests/cleanbuild/CMakeLists.txt, tests/cleanbuild/test_headercompile.cpp.in. *)
From Coq Require Export Bool.
From Verif Require Export IncludeGraph Regenerate.
Local Open Scope string_scope.

(** The variables HEADERS, GENERATED_HEADERS and INTEGRATION_HEADERS, tuple-transmission/CMakeLists.txt:1-51, 53-57, 61-67. *)
Definition plain_headers : list string :=
  ["detail/bases/EnvelopeBase_fwd.h"; "detail/bases/EnvelopeBase.h"; "detail/bases/ReceiveAdapterBase.h";
   "detail/bases/ReceiveAdapterBase_fwd.h"; "detail/bases/SerializerBase.h"; "detail/bases/TransmitterBase_fwd.h";
   "detail/bases/TransmitterBase.h"; "detail/constants/ControlCodes.h"; "detail/constants/MessageBufferSizeScale.h";
   "detail/operations/ComputeReceiveBufferSize.h"; "detail/operations/DeserializeAndInvoke.h";
   "detail/operations/DeserializeToFusion.h"; "detail/operations/IsIdValid.h"; "detail/operations/MaxMessageLength.h";
   "detail/operations/MessageArity.h"; "detail/operations/MessageCount_fwd.h"; "detail/operations/MessageCount.h";
   "detail/operations/MessageLength.h"; "detail/operations/Sizeof_fwd.h"; "detail/operations/Sizeof.h";
   "detail/types/EnvelopeReceiveBuffer.h"; "detail/types/IntegralTypes.h"; "detail/types/MessageIdType.h";
   "detail/types/MessageSizeType_fwd.h"; "detail/types/MessageSizeType.h"; "envelopes/BasicChecksum.h"; "envelopes/Basic.h";
   "envelopes/Envelopes_fwd.h"; "BoundMessageType_fwd.h"; "BoundMessageType.h"; "MessageCollection.h"; "MessageType.h";
   "ParameterHandlerBase.h"; "Receiver.h"; "Receiver_fwd.h"; "Send.h"; "serializers/BitwiseCopySerialization.h";
   "transmitters/AutosizedBoostArrayBuffer.h"; "transmitters/BoostArrayBuffer.h"; "transmitters/ChecksumComputer.h";
   "transmitters/TransmitterComposition.h"; "transmitters/VectorBuffer.h"].
Definition generated_headers : list string :=
  ["detail/constants/ArityConfig.h"; "detail/operations/SendOverloads_Generated.h"; "PartialHandlerBase.h"].
Definition integration_headers : list string :=
  ["receiveadapters/VrpnSerial.h"; "receiveadapters/ArduinoSerial.h"; "transmitters/ArduinoI2C.h";
   "transmitters/ArduinoSerial.h"; "transmitters/VrpnSerial.h"].

Definition listed (l : list string) (h : string) : bool := existsb (String.eqb h) l.

(** What file(GLOB_RECURSE ... *.h) picks from the files below tuple-transmission/, tuple-transmission/CMakeLists.txt:85.
    Names are compared with case; there are no links. *)
Fixpoint ends_in_h (s : string) : bool :=
  match s with
  | String "." (String "h" EmptyString) => true
  | String _ r => ends_in_h r
  | EmptyString => false
  end.
Definition globbed (files : list string) : list string := filter ends_in_h files.

(** list(REMOVE_ITEM ...) and the number of headers left, tuple-transmission/CMakeLists.txt:86-90: the headers named in the error
    with which the configuration stops, if there are any. *)
Definition unknown_headers (plain generated integration files : list string) : list string :=
  filter (fun h => negb (listed (plain ++ generated ++ integration) h)) (globbed files).

(** HEADERS as the directories above see it, tuple-transmission/CMakeLists.txt:80 (PARENT_SCOPE). *)
Definition tested_headers (plain generated : list string) : list string := plain ++ generated.

(** string(REPLACE ".h" "" SHORTNAME "${HEADER}"), tests/cleanbuild/CMakeLists.txt:5: wherever it occurs. *)
Fixpoint without_h (s : string) : string :=
  match s with
  | String "." (String "h" r) => without_h r
  | String c r => String c (without_h r)
  | EmptyString => EmptyString
  end.
Definition stem (h : string) : string := "test_headercompile_" ++ without_h h.

(** The characters of a name between two @. *)
Definition name_char (c : ascii) : bool :=
  let n := nat_of_ascii c in
  ((48 <=? n) && (n <=? 57) || (65 <=? n) && (n <=? 90) || (97 <=? n) && (n <=? 122) || (n =? 95) || (n =? 47) || (n =? 46)
   || (n =? 43) || (n =? 45))%nat.

(** configure_file(... @ONLY), tests/cleanbuild/CMakeLists.txt:7: @NAME@ is replaced by the variable's value.  [pending] is what
    has been read since the last @. *)
Fixpoint configured (var : string -> string) (pending : option string) (s : string) : string :=
  match s with
  | EmptyString => match pending with Some n => "@" ++ n | None => EmptyString end
  | String c r =>
      match pending with
      | None => if Ascii.eqb c "@" then configured var (Some EmptyString) r else String c (configured var None r)
      | Some n =>
          if Ascii.eqb c "@" then
            match n with
            | EmptyString => "@" ++ configured var (Some EmptyString) r
            | _ => var n ++ configured var None r
            end
          else if name_char c then configured var (Some (n ++ String c EmptyString)) r
          else "@" ++ n ++ String c (configured var None r)
      end
  end.

(** tests/cleanbuild/test_headercompile.cpp.in:1-6. *)
Definition linefeed : string := String "010" EmptyString.
Definition test_template : string :=
  linefeed ++ "#include <@DIR@/@HEADER@>" ++ linefeed ++ linefeed ++ "int main(int /*argc*/, char* /*argv*/[]) {" ++ linefeed
  ++ String "009" "return 0;" ++ linefeed ++ "}" ++ linefeed.

(** The variables while a header is handled, tests/cleanbuild/CMakeLists.txt:2-6; others are empty. *)
Definition test_var (h : string) (n : string) : string :=
  if String.eqb n "DIR" then "tuple-transmission" else if String.eqb n "HEADER" then h
  else if String.eqb n "SHORTNAME" then without_h h else if String.eqb n "stem" then stem h else EmptyString.
Definition test_source (h : string) : string := configured (test_var h) None test_template.

(** The loop of tests/cleanbuild/CMakeLists.txt:4-15: the targets and their sources; [None]: two targets of the same name, CMake
    stops.  (CMake lets names with a slash pass, policy CMP0037 not being set.) *)
Fixpoint header_tests (made_so_far : list (string * string)) (headers : list string) : option (list (string * string)) :=
  match headers with
  | [] => Some made_so_far
  | h :: rest => if listed (map fst made_so_far) (stem h) then None
                 else header_tests (made_so_far ++ [(stem h, test_source h)]) rest
  end.

(** The targets of a build: regenerate-headers, tuple-transmission, a header's program, headercompile. *)
Inductive target := TRegenerate | TLibrary | TTest (h : string) | TAllTests.

(** add_dependencies: generation/CMakeLists.txt:47-52 (the target exists if a Lua was found and query.lua accepts a data file),
    tuple-transmission/CMakeLists.txt:76-78, tests/cleanbuild/CMakeLists.txt:14.  The second of a pair is built before the first. *)
Definition dependencies (regenerates : bool) (headers : list string) : list (target * target) :=
  (if regenerates then [(TLibrary, TRegenerate)] else []) ++ map (fun h => (TAllTests, TTest h)) headers.

(** Building targets one after another: what is below tuple-transmission/, and what each program's header was when it was
    compiled.  A build tool keeps to the dependencies between targets and is otherwise free in the order. *)
Definition build_target (deletes : bool) (lim : limits) (src : string -> Z) (script now : Z) (rs : list (string * (string * datafile)))
  (b : stamped) (t : target) : stamped * list (string * option string) * bool :=
  match t with
  | TRegenerate => let '(b, ok) := build_all deletes lim src script now rs b in (b, [], ok)
  | TLibrary | TAllTests => (b, [], true)
  | TTest h => (b, [(h, st_tree b h)], match st_tree b h with Some _ => true | None => false end)
  end.
Fixpoint build_targets deletes lim src script now rs (b : stamped) (ts : list target) : stamped * list (string * option string) * bool :=
  match ts with
  | [] => (b, [], true)
  | t :: rest =>
      let '(b, saw, ok) := build_target deletes lim src script now rs b t in
      if ok then let '(b, saw', ok) := build_targets deletes lim src script now rs b rest in (b, (saw ++ saw')%list, ok)
      else (b, saw, false)
  end.
