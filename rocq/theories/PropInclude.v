(** Properties of the inclusion of the library's headers. *)
From Verif Require Import IncludeLemmas.
Import List.
Local Open Scope string_scope.

(** C83. An application may include the headers of the library in any order and as often as it likes: reading ends, and all that
    it asked for are read. *)
Theorem C83_read dir defined is : (forall h, In h library -> ~ In (h_guard h) defined) ->
  exists st, read_unit dir defined is = Some st
    /\ forall i h, In i is -> found library dir i = Some h -> In (Declarations (h_path h)) (u_log st).
Proof. exact (unit_read dir defined is). Qed.
Print Assumptions C83_read.

(** No Fusion header is read before the limits have been set, unless the application includes one itself. *)
Theorem C83_limits_first dir defined is st a by_header n b :
  (forall h, In h library -> ~ In (h_guard h) defined) -> read_unit dir defined is = Some st ->
  u_log st = (a ++ Foreign by_header n :: b)%list -> fusion_file n = true ->
  In (Declarations config_path) a \/ (by_header = None /\ In n (map inclusion_name is)).
Proof. exact (unit_limits_first dir defined is st a by_header n b). Qed.
Print Assumptions C83_limits_first.

(** The declarations of a header are read once, and behind those of the headers it includes. *)
Theorem C83_order dir defined is st a h b :
  (forall h, In h library -> ~ In (h_guard h) defined) -> read_unit dir defined is = Some st ->
  In h library -> u_log st = (a ++ Declarations (h_path h) :: b)%list ->
  (forall i g, In i (h_includes h) -> found library (directory (h_path h)) i = Some g -> In (Declarations (h_path g)) a)
  /\ ~ In (Declarations (h_path h)) a /\ ~ In (Declarations (h_path h)) b.
Proof. exact (unit_order dir defined is st a h b). Qed.
Print Assumptions C83_order.

(** What the headers include from the library is there. *)
Theorem C83_found h p : In h library -> In (Quoted p) (h_includes h) ->
  exists g, found library (directory (h_path h)) (Quoted p) = Some g.
Proof. exact (own_headers_found h p). Qed.
Print Assumptions C83_found.

(** The generated headers have the guards and #include lines of the model. *)
Theorem C83_texts :
  Forall2 (fun path text => exists h, find_header library path = Some h
     /\ guard_and_includes text = Some (h_guard h, map inclusion_toks (h_includes h)))
    ["tuple-transmission/detail/operations/SendOverloads_Generated.h"; "tuple-transmission/PartialHandlerBase.h"; config_path]
    [send_overloads_h; partial_handler_base_h; arity_config_h].
Proof. exact texts_agree. Qed.
Print Assumptions C83_texts.

Fixpoint position_of (e : event -> bool) (l : list event) : option nat :=
  match l with [] => None | x :: l' => if e x then Some 0 else option_map S (position_of e l') end.
Definition is_config (e : event) : bool := match e with Declarations p => String.eqb p config_path | _ => false end.
Definition is_fusion (e : event) : bool := match e with Foreign _ n => fusion_file n | _ => false end.

(** PartialHandlerBase.h, then Send.h, then the first again: the limits are the 9th that is read, the first Fusion header is
    the 69th.  A file that includes a Fusion header itself, first, has it read before the limits. *)
Example C83_case :
  (exists st, read_unit ["tests"] [] [Angled "tuple-transmission/PartialHandlerBase.h"; Quoted "../tuple-transmission/Send.h";
                                      Angled "tuple-transmission/PartialHandlerBase.h"] = Some st
    /\ position_of is_config (u_log st) = Some 8 /\ position_of is_fusion (u_log st) = Some 68 /\ length (u_log st) = 102)
  /\ (exists st, read_unit ["tests"] [] [Angled "boost/fusion/include/make_vector.hpp"; Angled "tuple-transmission/Send.h"] = Some st
    /\ position_of is_fusion (u_log st) = Some 0 /\ position_of is_config (u_log st) = Some 1)
  /\ (forall h, In h library -> ~ In (h_guard h) ["NDEBUG"; "BOOST_DISABLE_ASSERTS"]).
Proof.
  split; [eexists; split; [vm_compute; reflexivity | vm_compute; auto] |].
  split; [eexists; split; [vm_compute; reflexivity | vm_compute; auto] |].
  intros h Hh Hi. assert (forallb (fun h => negb (existsb (String.eqb (h_guard h)) ["NDEBUG"; "BOOST_DISABLE_ASSERTS"])) library = true)
    as HC by (vm_compute; reflexivity).
  rewrite forallb_forall in HC. specialize (HC h Hh). apply Bool.negb_true_iff in HC.
  assert (existsb (String.eqb (h_guard h)) ["NDEBUG"; "BOOST_DISABLE_ASSERTS"] = true); [|congruence].
  apply existsb_exists. exists (h_guard h). split; [exact Hi | apply String.eqb_refl].
Qed.
