(** Properties of the generation scripts and of the checked-in headers they produced. *)
From Coq Require Import Lia.
From Verif Require Import HeaderArities GeneratePreprocess.
From Verif Require Import Protocol Transmit Handlers.
From Coq Require Import List.
Local Open Scope string_scope.

(** C76. Whatever the limits in variadicGenerate.lua, SendOverloads_Generated.h has, for each arity from the lower
    to the upper limit in turn, under the guard FUSION_MAX_LIST_SIZE >= that arity, one overload of each kind that
    passes on its arguments in order; the header also states the upper limit. *)
Theorem C76_send_overloads smin smax source : comment_safe source ->
  exists text secs, send_header smin smax source = Some text
    /\ read_send_header text = Some (smax, secs)
    /\ map sec_guard secs = seq smin (smax + 1 - smin)
    /\ Forall both_overloads secs.
Proof. exact (generated_sends smin smax source). Qed.
Print Assumptions C76_send_overloads.

(** PartialHandlerBase.h has exactly one default handler for each arity, accepting any message type and values. *)
Theorem C76_default_handlers rmin rmax source : comment_safe source ->
  exists text fs, partial_header rmin rmax source = Some text
    /\ read_partial_header text = Some fs
    /\ Forall2 accepts_any (seq rmin (rmax + 1 - rmin)) fs.
Proof. exact (generated_handlers rmin rmax source). Qed.
Print Assumptions C76_default_handlers.

(** ArityConfig.h configures Fusion for the largest list sent, and for a call with the message tag and the most fields
    received. *)
Theorem C76_limits smax rmax source : comment_safe source ->
  exists text, config_header smax rmax source = Some text
    /\ read_config_header text = Some (("FUSION_MAX_LIST_SIZE", smax), ("BOOST_FUSION_INVOKE_PROCEDURE_MAX_ARITY", rmax + 1),
                                       ("ReceiveMaxArity", rmax))%nat.
Proof. exact (config_reads smax rmax source). Qed.
Print Assumptions C76_limits.

(** Included where neither has been read before, ArityConfig.h sets the limits that the application has not set itself
    and changes no other macro. *)
Theorem C76_limits_set smax rmax source ms : comment_safe source -> ms config_guard = None ->
  exists text ms' toks, config_header smax rmax source = Some text
    /\ preprocess ms text = Some (ms', [], toks)
    /\ (ms "FUSION_MAX_LIST_SIZE" = None -> macro_value ms' "FUSION_MAX_LIST_SIZE" = Some smax)
    /\ (ms "BOOST_FUSION_INVOKE_PROCEDURE_MAX_ARITY" = None -> macro_value ms' "BOOST_FUSION_INVOKE_PROCEDURE_MAX_ARITY" = Some (rmax + 1)%nat)
    /\ (forall x v, ms x = Some v -> ms' x = Some v)
    /\ (forall x, ms x = None -> ~ In x [config_guard; "FUSION_MAX_LIST_SIZE"; "BOOST_FUSION_INVOKE_PROCEDURE_MAX_ARITY"] -> ms' x = None).
Proof. exact (limits_set smax rmax source ms). Qed.
Print Assumptions C76_limits_set.

(** The overloads the compiler sees behind both are those for the arities up to the limit in force: the application's if
    it has set one, otherwise all.  Reading either header again adds nothing. *)
Theorem C76_enabled smin smax rmax source1 source2 ms v : comment_safe source1 -> comment_safe source2 ->
  ms config_guard = None -> ms send_guard = None ->
  match ms "FUSION_MAX_LIST_SIZE" with None => v = smax | Some _ => macro_value ms "FUSION_MAX_LIST_SIZE" = Some v end ->
  exists config sends ms1 ms2 ctoks files stoks oss,
    config_header smax rmax source1 = Some config /\ send_header smin smax source2 = Some sends
    /\ preprocess ms config = Some (ms1, [], ctoks)
    /\ preprocess ms1 sends = Some (ms2, files, stoks)
    /\ hd_error files = Some (tokens """../constants/ArityConfig.h""")
    /\ read_sends stoks = Some (smax, List.concat oss)
    /\ Forall2 overload_pair (filter (fun k => Nat.leb k v) (seq smin (smax + 1 - smin))) oss
    /\ preprocess ms2 config = Some (ms2, [], []) /\ preprocess ms2 sends = Some (ms2, [], []).
Proof. exact (enabled smin smax rmax source1 source2 ms v). Qed.
Print Assumptions C76_enabled.

(** An application that allows lists of 3 elements gets the overloads for 0 to 3 fields. *)
Example C76_enabled_case :
  let ms := define "FUSION_MAX_LIST_SIZE" [W "3"] (fun _ => None) in
  exists ms1 ms2 t1 t2 files os,
    preprocess ms arity_config_h = Some (ms1, [], t1) /\ preprocess ms1 send_overloads_h = Some (ms2, files, t2)
    /\ length files = 9%nat /\ read_sends t2 = Some (9%nat, os) /\ map ov_arity os = [0; 0; 1; 1; 2; 2; 3; 3]%nat
    /\ preprocess ms "#if FUSION_MAX_LIST_SIZE >= 2 int x; #endif" = None
    /\ preprocess ms "int x; #ifndef A
#endif
" = None.
Proof.
  cbv zeta. do 6 eexists. split; [vm_compute; reflexivity|]. split; [vm_compute; reflexivity|].
  split; [reflexivity|]. split; [vm_compute; reflexivity|]. repeat split; vm_compute; reflexivity.
Qed.

(** The checked-in headers are, byte for byte, what the scripts generate. *)
Theorem C76_checked_in :
  send_header 0 9 "variadicGenerate.lua on input SendOverloads.gen.lua" = Some send_overloads_h
  /\ partial_header 0 9 "variadicGenerate.lua on input PartialHandlerBase.gen.lua" = Some partial_handler_base_h
  /\ config_header 9 9 "variadicGenerate.lua on input ArityConfig.gen.lua" = Some arity_config_h.
Proof. exact checked_in. Qed.
Print Assumptions C76_checked_in.

(** The modelled send with separate arguments takes no number of arguments for which the checked-in headers have no overload
    enabled; the modelled PartialHandlerBase ignores a message exactly if the checked-in header has a handler for it. *)
Theorem C76_model_send {S} secs limit d2 d3 n c coll m (t : transmitter S) args s :
  read_send_header send_overloads_h = Some (n, secs) ->
  read_config_header arity_config_h = Some (("FUSION_MAX_LIST_SIZE", limit), d2, d3) ->
  ~ (exists sec, In sec secs /\ (sec_guard sec <= limit)%nat /\ sec_guard sec = length args) ->
  send_args c coll m t args s = Rejected.
Proof. exact (send_args_arities secs limit d2 d3 n c coll m t args s). Qed.
Print Assumptions C76_model_send.

Theorem C76_model_handlers fs m :
  read_partial_header partial_handler_base_h = Some fs ->
  (partial_dispatch [] m = Ok None <-> exists f, In f fs /\ length (hf_values f) = length (mt_fields m)).
Proof. exact (default_handler_arities fs m). Qed.
Print Assumptions C76_model_handlers.

(** No handler called with separate arguments gets a message with more fields than the checked-in limit allows. *)
Theorem C76_model_invoke d1 limit d3 c fns m :
  read_config_header arity_config_h = Some (d1, ("BOOST_FUSION_INVOKE_PROCEDURE_MAX_ARITY", limit), d3) ->
  (limit < 1 + length (mt_fields m))%nat ->
  parameter_dispatch c fns m = Rejected /\ partial_dispatch fns m = Rejected.
Proof. exact (invoke_arities d1 limit d3 c fns m). Qed.
Print Assumptions C76_model_invoke.

(** Limits 2 and 3; the readers refuse a header with an overload whose body does something else. *)
Example C76_case :
  comment_safe "some script"
  /\ (exists text secs, send_header 2 3 "some script" = Some text /\ read_send_header text = Some (3%nat, secs)
       /\ map (fun s => map ov_names (sec_overloads s)) secs = [[["a1"; "a2"]; ["a1"; "a2"]]; [["a1"; "a2"; "a3"]; ["a1"; "a2"; "a3"]]]
       /\ map (fun s => map (fun o => map snd (ov_fields o)) (sec_overloads s)) secs = [[[0; 1]; [0; 1]]; [[0; 1; 2]; [0; 1; 2]]]%nat)
  /\ (exists fs, read_partial_header partial_handler_base_h = Some fs /\ map (fun f => length (hf_values f)) fs = seq 0 10)
  /\ read_send_header "typedef mpl::int_<0> SendOverloadMaxArity;
#if FUSION_MAX_LIST_SIZE >= 0
template<typename A> inline int send() { return 0; }
#endif
}}} using detail::operations::generated::send; }" = None
  /\ partial_dispatch [] (MType 7 (repeat u8 10)) = Rejected.
Proof.
  split; [apply no_star; reflexivity|]. split.
  { eexists. eexists. split; [vm_compute; reflexivity|]. split; [vm_compute; reflexivity|]. vm_compute. split; reflexivity. }
  split; [eexists; split; vm_compute; reflexivity|]. split; vm_compute; reflexivity.
Qed.
