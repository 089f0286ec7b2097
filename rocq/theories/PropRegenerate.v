(** Property C97: running the generation scripts. *)
From Coq Require Import Permutation.
From Verif Require Import RegenerateLemmas.
From Coq Require Import List.
Local Open Scope string_scope.

(** C97: generateAll.sh, if no data file fails and no two of them name the same header, ends with success, gives every header
    its contents and changes no other file. *)
Theorem C97_generate :
  forall lim l t, sound lim l ->
  exists t', generate_all lim l t = (t', true) /\ regenerated lim l t t'.
Proof. exact (fun lim l t => generate_lemma lim l t). Qed.
Print Assumptions C97_generate.

(** The order in which the shell lists the data files has no influence. *)
Theorem C97_order :
  forall lim l l' t, sound lim l -> Permutation l l' ->
  exists t1 t2, generate_all lim l t = (t1, true) /\ generate_all lim l' t = (t2, true) /\ forall n, t1 n = t2 n.
Proof. exact order_lemma. Qed.
Print Assumptions C97_order.

(** The library's data files never fail, whatever the limits; exactly the three headers are written, all for the same
    limits. *)
Theorem C97_library :
  forall lim t, exists t' a b d,
  generate_all lim data_files t = (t', true)
  /\ config_header (l_smax lim) (l_rmax lim) "variadicGenerate.lua on input ArityConfig.gen.lua" = Some a
  /\ partial_header (l_rmin lim) (l_rmax lim) "variadicGenerate.lua on input PartialHandlerBase.gen.lua" = Some b
  /\ send_header (l_smin lim) (l_smax lim) "variadicGenerate.lua on input SendOverloads.gen.lua" = Some d
  /\ t' "detail/constants/ArityConfig.h" = Some a /\ t' "PartialHandlerBase.h" = Some b
  /\ t' "detail/operations/SendOverloads_Generated.h" = Some d
  /\ forall n, ~ In n ["detail/constants/ArityConfig.h"; "PartialHandlerBase.h"; "detail/operations/SendOverloads_Generated.h"] -> t' n = t n.
Proof. exact library_lemma. Qed.
Print Assumptions C97_library.

(** On a checkout of the library the script changes nothing. *)
Theorem C97_checkout :
  forall t, t "detail/constants/ArityConfig.h" = Some arity_config_h -> t "PartialHandlerBase.h" = Some partial_handler_base_h ->
  t "detail/operations/SendOverloads_Generated.h" = Some send_overloads_h ->
  exists t', generate_all library_limits data_files t = (t', true) /\ forall n, t' n = t n.
Proof. exact checkout_lemma. Qed.
Print Assumptions C97_checkout.

(** If a data file fails, the script stops there with an error: the headers of the data files before it are made, those of
    the ones after it are as before; its own header is as before if query.lua failed, and otherwise empty. *)
Theorem C97_failure :
  forall lim l nd rest t, sound lim l ->
  query_outfile (snd nd) = None \/ made lim nd = None ->
  exists t1 t', regenerated lim l t t1 /\ generate_all lim (l ++ nd :: rest) t = (t', false)
    /\ (query_outfile (snd nd) = None -> forall n, t' n = t1 n)
    /\ (forall o, query_outfile (snd nd) = Some o -> t' o = Some "" /\ forall n, n <> o -> t' n = t1 n).
Proof. exact failure_lemma. Qed.
Print Assumptions C97_failure.

(** A build with CMake, at a time not before the last change of the scripts: if the headers that are not older than their
    scripts are as these say, then afterwards all are; a second build does nothing. *)
Theorem C97_build :
  forall deletes lim src script now l b, sound lim l -> unspoilt lim l src script b ->
  (script <= now)%Z -> (forall nd, In nd l -> (src (fst nd) <= now)%Z) ->
  exists b', build_all deletes lim src script now (build_rules l) b = (b', true)
    /\ regenerated lim l (st_tree b) (st_tree b')
    /\ forall deletes2 lim2 later, build_all deletes2 lim2 src script later (build_rules l) b' = (b', true).
Proof. exact build_once_lemma. Qed.
Print Assumptions C97_build.

(** The build writes only headers that are older than their scripts. *)
Theorem C97_minimal :
  forall deletes lim src script now l b, sound lim l -> unspoilt lim l src script b ->
  exists b', build_all deletes lim src script now (build_rules l) b = (b', true)
    /\ regenerated lim l (st_tree b) (st_tree b')
    /\ (forall n, ~ In n (names_of l) -> st_time b' n = st_time b n)
    /\ (forall nd o, In nd l -> query_outfile (snd nd) = Some o ->
          st_time b' o = if outdated src script b o (fst nd) then now else st_time b o).
Proof. exact (fun deletes lim src script now l b => build_lemma deletes lim src script now l b). Qed.
Print Assumptions C97_minimal.

(** It leaves the same files as the shell script. *)
Theorem C97_agree :
  forall deletes lim src script now l b, sound lim l -> unspoilt lim l src script b ->
  exists b' t', build_all deletes lim src script now (build_rules l) b = (b', true)
    /\ generate_all lim l (st_tree b) = (t', true) /\ forall n, st_tree b' n = t' n.
Proof. exact agree_lemma. Qed.
Print Assumptions C97_agree.

(** When the limits in variadicGenerate.lua have been changed since the headers were made, the next build makes all three
    for the new limits. *)
Theorem C97_limits :
  forall deletes lim src script now b, (forall n, st_time b n < script)%Z ->
  exists b' a p d, build_all deletes lim src script now (build_rules data_files) b = (b', true)
  /\ config_header (l_smax lim) (l_rmax lim) "variadicGenerate.lua on input ArityConfig.gen.lua" = Some a
  /\ partial_header (l_rmin lim) (l_rmax lim) "variadicGenerate.lua on input PartialHandlerBase.gen.lua" = Some p
  /\ send_header (l_smin lim) (l_smax lim) "variadicGenerate.lua on input SendOverloads.gen.lua" = Some d
  /\ st_tree b' "detail/constants/ArityConfig.h" = Some a /\ st_tree b' "PartialHandlerBase.h" = Some p
  /\ st_tree b' "detail/operations/SendOverloads_Generated.h" = Some d.
Proof. exact edited_lemma. Qed.
Print Assumptions C97_limits.

(** A data file without outFile makes a file named nil; new limits reach the headers; files of other names stay. *)
Example C97_case :
  sound library_limits data_files /\ map fst (build_rules data_files)
    = ["detail/constants/ArityConfig.h"; "PartialHandlerBase.h"; "detail/operations/SendOverloads_Generated.h"]
  /\ (exists t', generate_all (Limits 0 2 0 3) (("a.gen.lua", fun _ => Some (GenData None (fun s => Some s))) :: data_files) checkout = (t', true)
        /\ t' "nil" = Some "variadicGenerate.lua on input a.gen.lua" /\ t' "Receiver.h" = checkout "Receiver.h"
        /\ exists a, t' "detail/constants/ArityConfig.h" = Some a
        /\ read_config_header a = Some (("FUSION_MAX_LIST_SIZE", 3), ("BOOST_FUSION_INVOKE_PROCEDURE_MAX_ARITY", 3), ("ReceiveMaxArity", 2))%nat)
  /\ unspoilt library_limits data_files (fun _ => 1%Z) 1%Z (Stamped checkout (fun _ => 1%Z)).
Proof.
  split; [apply library_sound|]. split; [reflexivity|]. split.
  - eexists. split; [vm_compute; reflexivity|]. split; [reflexivity|]. split; [reflexivity|].
    eexists. split; [reflexivity|]. vm_compute. reflexivity.
  - intros nd o text Hn (HQ & HM) _. destruct checked_in as (C1 & C2 & C3).
    destruct Hn as [<-|[<-|[<-|[]]]]; injection HQ as <-; cbn [st_tree].
    + change (config_header 9 9 config_source = Some text) in HM. rewrite C3 in HM. injection HM as <-. reflexivity.
    + change (partial_header 0 9 partial_source = Some text) in HM. rewrite C2 in HM. injection HM as <-. reflexivity.
    + change (send_header 0 9 send_source = Some text) in HM. rewrite C1 in HM. injection HM as <-. reflexivity.
Qed.

(** Expected: a data file that names no output is an error.  Its header goes, with success, into a file named nil; that of a
    second one takes the place of the first. *)
Theorem C97_unnamed :
  forall lim (nd1 nd2 : string * datafile) t text1 text2,
  (exists g, snd nd1 None = Some g /\ gd_outfile g = None) -> made lim nd1 = Some text1 ->
  (exists g, snd nd2 None = Some g /\ gd_outfile g = None) -> made lim nd2 = Some text2 ->
  (exists t', generate_all lim [nd1] t = (t', true) /\ t' "nil" = Some text1 /\ forall n, n <> "nil" -> t' n = t n)
  /\ (exists t', generate_all lim [nd1; nd2] t = (t', true) /\ t' "nil" = Some text2 /\ forall n, n <> "nil" -> t' n = t n).
Proof. exact unnamed_lemma. Qed.
Print Assumptions C97_unnamed.

(** Expected: a header that cannot be made is left as it was.  The script empties it. *)
Theorem C97_emptied_refuted :
  exists l t t' o,
  t o = Some partial_handler_base_h /\ generate_all library_limits l t = (t', false) /\ t' o = Some "".
Proof. exact emptied_header. Qed.
Print Assumptions C97_emptied_refuted.

(** Expected: a build that follows one that failed, nothing having been changed, does not succeed.  With a build tool that
    keeps the output of failed commands it does, and leaves the header empty. *)
Theorem C97_stale_refuted :
  exists l src script b b1 b2 o,
  st_tree b o = Some partial_handler_base_h /\ (st_time b o < src "PartialHandlerBase.gen.lua")%Z
  /\ build_all false library_limits src script 10 (build_rules l) b = (b1, false)
  /\ build_all false library_limits src script 11 (build_rules l) b1 = (b2, true)
  /\ st_tree b2 o = Some "".
Proof. exact stale_header. Qed.
Print Assumptions C97_stale_refuted.

(** Expected: a header is made of every data file that variadicGenerate.lua accepts.  One that computes with the limits while it
    is read (here handlers for one field more) stops query.lua, which does not set them: the script ends there, and CMake
    leaves the header out without a message. *)
Theorem C97_queried_refuted :
  exists d text,
  made library_limits ("PartialHandlerBase.gen.lua", d) = Some text
  /\ (exists fs, read_partial_header text = Some fs /\ List.length fs = 11%nat)
  /\ (forall name l t, generate_all library_limits ((name, d) :: l) t = (t, false))
  /\ forall name l, build_rules ((name, d) :: l) = build_rules l.
Proof. exact skipped_header. Qed.
Print Assumptions C97_queried_refuted.
