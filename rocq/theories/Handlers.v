(** ParameterHandlerBase and PartialHandlerBase: which operator() of a user's handler
    class is called with the fields as separate arguments. *)
From Verif Require Export Receive.

(** An operator() the user's class defines: void operator()(M const &, P1, ..., Pn), or with
    [uf_rest] void operator()(M const &, P1, ..., Pn, ...), as in tests/Handler.cpp:57. *)
Record user_fn := UserFnRest { uf_message : mtype; uf_params : list fty; uf_rest : bool }.
Definition UserFn (m : mtype) (ps : list fty) : user_fn := UserFnRest m ps false.

(** Integral and floating point promotions ([conv.prom], [conv.fpprom]): to int, from bool, from
    integer types narrower than int and from enumerations whose values fit; from other enumerations
    to the integer type of the same width (int64_t taken to be the first of long and long long that is
    as wide); from float to double. *)
Definition promotes (c : config) (from to : fty) : bool :=
  match from, to with
  | TBool, TIntN IStd true n => 8 * Z.of_nat n =? int_bits c
  | TIntN (IEnum _) s k, TIntN IStd s' n =>
      if (8 * Z.of_nat k <? int_bits c) || s && (8 * Z.of_nat k =? int_bits c)
      then s' && (8 * Z.of_nat n =? int_bits c)
      else Bool.eqb s s' && Nat.eqb n k
  | TIntN _ _ k, TIntN IStd true n => (8 * Z.of_nat k <? int_bits c) && (8 * Z.of_nat n =? int_bits c)
  | TFloat false, TFloat true => true
  | _, _ => false
  end.

(** The rank of the conversion of an argument ([over.ics.rank]): exact match, promotion, conversion. *)
Definition conv_rank (c : config) (from to : fty) : option nat :=
  if fty_eqb from to then Some 0%nat
  else if promotes c from to then Some 1%nat
  else if convertible from to then Some 2%nat
  else None.

(** The ranks of all arguments, fields of the types [ts], of a function with the parameters [ps] and, if
    [rest], an ellipsis, the worst of all; [None]: the function is not viable ([over.match.viable]). *)
Fixpoint fn_ranks (c : config) (ts ps : list fty) (rest : bool) : option (list nat) :=
  match ts, ps with
  | [], [] => Some []
  | [], _ :: _ => None
  | t :: ts', p :: ps' =>
      match conv_rank c t p, fn_ranks c ts' ps' rest with
      | Some r, Some rs => Some (r :: rs)
      | _, _ => None
      end
  | _ :: ts', [] =>
      match rest, fn_ranks c ts' [] rest with
      | true, Some rs => Some (3%nat :: rs)
      | _, _ => None
      end
  end.

(** The viable functions of a user's class for the message [m], with their ranks. *)
Fixpoint candidates (c : config) (fns : list user_fn) (m : mtype) : list (user_fn * list nat) :=
  match fns with
  | [] => []
  | f :: rest =>
      match (if mtype_eqb (uf_message f) m then fn_ranks c (mt_fields m) (uf_params f) (uf_rest f) else None) with
      | Some r => (f, r) :: candidates c rest m
      | None => candidates c rest m
      end
  end.

(** One function is better than another one if no argument has a worse rank and one has a better
    one ([over.match.best]). *)
Fixpoint all2 {A B} (p : A -> B -> bool) (l1 : list A) (l2 : list B) : bool :=
  match l1, l2 with
  | [], [] => true
  | a :: l1', b :: l2' => p a b && all2 p l1' l2'
  | _, _ => false
  end.
Definition better (r1 r2 : list nat) : bool := all2 Nat.leb r1 r2 && negb (all2 Nat.eqb r1 r2).
Definition user_fn_eqb (f g : user_fn) : bool :=
  mtype_eqb (uf_message f) (uf_message g) && ftys_eqb (uf_params f) (uf_params g) && Bool.eqb (uf_rest f) (uf_rest g).

(** Overload resolution among the user's functions: the one that is better than all others; if there
    is none, or a function is defined twice, the program is rejected. *)
Definition resolve (c : config) (fns : list user_fn) (m : mtype) : outcome user_fn :=
  let cs := candidates c fns m in
  match filter (fun f => forallb (fun g => user_fn_eqb (fst f) (fst g) || better (snd f) (snd g)) cs) cs with
  | [f] => Ok (fst f)
  | _ => Rejected
  end.

(** A user function whose parameters all match exactly. *)
Definition exact_match (m : mtype) (f : user_fn) : bool :=
  mtype_eqb (uf_message f) m && ftys_eqb (mt_fields m) (uf_params f).

(** invoke_procedure takes at most BOOST_FUSION_INVOKE_PROCEDURE_MAX_ARITY arguments, 10
    (tuple-transmission/detail/constants/ArityConfig.h:48-50), the message tag among them. *)
Definition invocable (m : mtype) : bool := Nat.leb (S (length (mt_fields m))) 10.

(** The call made by ParameterHandlerBase::operator()(M const&, Sequence const&),
    tuple-transmission/ParameterHandlerBase.h:49-56 (invoke_procedure of the derived
    object with the message tag followed by the fields), for a class derived from
    PartialHandlerBase: the candidates are the user's functions and the templates of
    tuple-transmission/PartialHandlerBase.h:52-80, one for each arity up to 9, which
    match any argument types exactly.  Overload resolution ([over.match.best]) prefers
    a user function only when it matches exactly as well (then the non-template wins);
    a user function that needs a conversion loses to the template.
    [Some f]: user function called; [None]: the empty template body. *)
Definition partial_dispatch (fns : list user_fn) (m : mtype) : outcome (option user_fn) :=
  if invocable m && Nat.leb (length (mt_fields m)) 9
  then
    match filter (exact_match m) fns with
    | [] => Ok None
    | [f] => Ok (Some f)
    | _ => Rejected
    end
  else Rejected.

(** The same for a class derived from ParameterHandlerBase only
    (tuple-transmission/ParameterHandlerBase.h:46-61): there is no fallback. *)
Definition parameter_dispatch (c : config) (fns : list user_fn) (m : mtype) : outcome user_fn :=
  if invocable m then resolve c fns m else Rejected.

(** A field passed through an ellipsis: a float becomes a double, integers and bool keep their
    value ([expr.call], default argument promotions). *)
Definition promote (v : value) : value :=
  match v with
  | VFloat false bits => VFloat true (float_of_float false true bits)
  | _ => v
  end.

(** The arguments a user function receives for the fields [vs]. *)
Definition pass_args (f : user_fn) (vs : list value) : outcome (list value) :=
  let n := length (uf_params f) in
  do args <- convert_args (uf_params f) (firstn n vs);
  Ok (map snd args ++ map promote (skipn n vs)).

(** A call of a user function: which one, with which arguments (converted to its
    parameter types, those of an ellipsis promoted). *)
Record user_call := UserCall { uc_fn : user_fn; uc_args : list value }.

(** A program using a ParameterHandlerBase handler compiles only if the call for every
    message type of the collection resolves: the handler's operator() is instantiated for
    each of them (tuple-transmission/Receiver.h:168-177, util/MPLApplyAt.h:76-104). *)
Definition parameter_compiles (c : config) (fns : list user_fn) (coll : collection) : bool :=
  forallb (fun m => match parameter_dispatch c fns m with Ok _ => true | _ => false end) (mc_types coll).

(** The same for a PartialHandlerBase handler. *)
Definition partial_compiles (fns : list user_fn) (coll : collection) : bool :=
  forallb (fun m => match partial_dispatch fns m with Ok _ => true | _ => false end) (mc_types coll).

(** The user functions called by a sequence of deliveries to a ParameterHandlerBase handler. *)
Fixpoint parameter_calls (c : config) (fns : list user_fn) (log : list delivery) : outcome (list user_call) :=
  match log with
  | [] => Ok []
  | d :: rest =>
      do f <- parameter_dispatch c fns (d_message d);
      do args <- pass_args f (d_values d);
      do calls <- parameter_calls c fns rest;
      Ok (UserCall f args :: calls)
  end.

(** The user functions called by a sequence of deliveries to a partial handler. *)
Fixpoint partial_calls (fns : list user_fn) (log : list delivery) : outcome (list user_call) :=
  match log with
  | [] => Ok []
  | d :: rest =>
      do f <- partial_dispatch fns (d_message d);
      match f with
      | Some f =>
          do args <- pass_args f (d_values d);
          do calls <- partial_calls fns rest;
          Ok (UserCall f args :: calls)
      | None => partial_calls fns rest
      end
  end.
