(** Property C102: the build's check of the headers. *)
From Verif Require Import HeaderLemmas.
Local Open Scope string_scope.

(** C102: configuring the build stops if and only if a file whose name ends in .h lies below tuple-transmission/ and is in none of
    the three lists; the files named in the message are exactly these. *)
Theorem C102_unknown :
  forall plain generated integration files h,
  In h (unknown_headers plain generated integration files)
  <-> In h files /\ (exists b, h = b ++ ".h") /\ ~ In h plain /\ ~ In h generated /\ ~ In h integration.
Proof. exact unknown_spec. Qed.
Print Assumptions C102_unknown.

(** The lists of the library name each of its headers once, and nothing else. *)
Theorem C102_lists :
  NoDup (plain_headers ++ generated_headers ++ integration_headers)
  /\ forall h, In h (map h_path library) /\ String.prefix "tuple-transmission/" h = true
       <-> exists p, h = "tuple-transmission/" ++ p /\ In p (plain_headers ++ generated_headers ++ integration_headers).
Proof. exact (conj library_lists_distinct library_listed). Qed.
Print Assumptions C102_lists.

(** For headers in whose names .h occurs at the end only there is one program for each, all of different names. *)
Theorem C102_programs :
  forall headers, Forall plain_name headers -> NoDup headers ->
  exists l, header_tests [] headers = Some l /\ length l = length headers /\ NoDup (map fst l)
    /\ forall h, In h headers -> exists name, In (name, test_source h) l.
Proof. exact named_tests. Qed.
Print Assumptions C102_programs.

(** The programs of the library: each includes its header, and nothing else, and is empty. *)
Theorem C102_sources :
  Forall plain_name (tested_headers plain_headers generated_headers) /\ NoDup (tested_headers plain_headers generated_headers)
  /\ forall h, In h (tested_headers plain_headers generated_headers) -> includes_just (test_source h) ("tuple-transmission/" ++ h).
Proof. exact (conj library_plain (conj tested_distinct library_sources)). Qed.
Print Assumptions C102_sources.

(** A header of the library (those in util/ among them) is read when one of the programs is compiled if and only if it is not
    one of the integration headers, nor the empty tuple_transmission.h.  Expected: every header.  So it is not noticed that
    three of the integration headers do not compile (C91). *)
Theorem C102_coverage :
  forall h, In h (map h_path library) ->
  ((exists t, In t (tested_headers plain_headers generated_headers) /\ read_by t h)
   <-> ~ In h ("tuple_transmission.h" :: map (fun p => "tuple-transmission/" ++ p) integration_headers)).
Proof. exact library_coverage. Qed.
Print Assumptions C102_coverage.

(** If regenerate-headers is the first target built, every program is compiled with the headers made in the same build. *)
Theorem C102_regenerated_first :
  forall deletes lim src script now l b ts b' saw ok, sound lim l -> unspoilt lim l src script b -> ~ In TRegenerate ts ->
  build_targets deletes lim src script now (build_rules l) b (TRegenerate :: ts) = (b', saw, ok) ->
  forall nd h text x, In nd l -> yields lim nd h text -> In (h, x) saw -> x = Some text.
Proof. exact regenerated_first. Qed.
Print Assumptions C102_regenerated_first.

(** A new header next to the library's, not listed; one whose name does not end in .h is not seen.  The program for Send.h. *)
Example C102_case :
  unknown_headers plain_headers generated_headers integration_headers
    ("New.h" :: "New.hpp" :: "CMakeLists.txt" :: "detail/New.h" :: plain_headers ++ integration_headers) = ["New.h"; "detail/New.h"]
  /\ length (tested_headers plain_headers generated_headers) = 45
  /\ stem "detail/operations/Sizeof.h" = "test_headercompile_detail/operations/Sizeof"
  /\ includes_just (test_source "Send.h") "tuple-transmission/Send.h"
  /\ read_by "Send.h" "util/booststdint.h" /\ ~ read_by "Send.h" "tuple-transmission/Receiver.h"
  /\ (let b := Stamped full_checkout (fun _ => 0%Z) in
      exists b' saw, build_targets false library_limits (fun _ => 0%Z) 0 10 (build_rules data_files) b
        [TRegenerate; TTest "PartialHandlerBase.h"; TLibrary; TTest "Send.h"] = (b', saw, true)
        /\ saw = [("PartialHandlerBase.h", Some partial_handler_base_h); ("Send.h", Some "...")]).
Proof.
  split; [vm_compute; reflexivity|]. split; [reflexivity|]. split; [reflexivity|].
  split; [apply library_sources, listed_in; vm_compute; reflexivity|].
  split; [apply reads_spec; vm_compute; reflexivity|].
  split; [rewrite <- reads_spec; vm_compute; discriminate|].
  cbn zeta. eexists. eexists. split; vm_compute; reflexivity.
Qed.

(** Expected: headers of different names get programs of different names.  .h is removed wherever it occurs in the name: two
    headers can ask for the same target, and CMake stops. *)
Theorem C102_names_refuted :
  exists h1 h2, h1 <> h2 /\ (exists b, h1 = b ++ ".h") /\ (exists b, h2 = b ++ ".h") /\ header_tests [] [h1; h2] = None.
Proof. exact clashing_names. Qed.
Print Assumptions C102_names_refuted.

(** Expected: the programs are compiled with the headers made in the same build.  Nothing orders them behind
    regenerate-headers: after a change of the limits all targets can be built, in an order the dependencies allow, with
    success, and a program compiled with the header as it was before. *)
Theorem C102_early_refuted :
  exists order b b' saw text,
  let lim := Limits 0 2 0 3 in
  let headers := tested_headers plain_headers generated_headers in
  allowed (dependencies true headers) order
  /\ (forall t, In t order <-> t = TRegenerate \/ t = TLibrary \/ t = TAllTests \/ exists h, In h headers /\ t = TTest h)
  /\ unspoilt lim data_files (fun _ => 0%Z) 5 b
  /\ build_targets false lim (fun _ => 0%Z) 5 10 (build_rules data_files) b order = (b', saw, true)
  /\ st_tree b' "PartialHandlerBase.h" = Some text /\ In ("PartialHandlerBase.h", Some partial_handler_base_h) saw
  /\ text <> partial_handler_base_h.
Proof. exact tested_early. Qed.
Print Assumptions C102_early_refuted.
