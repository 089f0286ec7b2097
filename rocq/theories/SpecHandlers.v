(** Specification of partial handlers. *)
From Verif Require Export Handlers SpecReceiver SpecSend.

(** Which user functions the calls [log] of a partial handler reach: exactly those taking
    the message and exactly its field types, with the fields as arguments. *)
Inductive PartialCalls (fns : list user_fn) : list delivery -> list user_call -> Prop :=
| pc_nil : PartialCalls fns [] []
| pc_own d rest f calls :
    In f fns -> uf_message f = d_message d -> uf_params f = mt_fields (d_message d) ->
    PartialCalls fns rest calls ->
    PartialCalls fns (d :: rest) (UserCall f (d_values d) :: calls)
| pc_ignored d rest calls :
    (forall f, In f fns -> uf_message f = d_message d -> uf_params f <> mt_fields (d_message d)) ->
    PartialCalls fns rest calls ->
    PartialCalls fns (d :: rest) calls.

(** What a field becomes that is passed through an ellipsis: a float is the double of the same
    number. *)
Definition promoted (a v : value) : Prop :=
  match a with
  | VFloat false _ => converted (TFloat true) a v
  | _ => v = a
  end.

(** The call [u] is what the delivery [d] becomes: a function of [fns] for its message, called
    with the first fields converted to the function's parameter types and, only if it has an
    ellipsis, further fields promoted. *)
Definition passed_to (fns : list user_fn) (d : delivery) (u : user_call) : Prop :=
  In (uc_fn u) fns /\ uf_message (uc_fn u) = d_message d
  /\ exists a1 a2 v1 v2, d_values d = a1 ++ a2 /\ uc_args u = v1 ++ v2
       /\ converted_all (uf_params (uc_fn u)) a1 v1 /\ Forall2 promoted a2 v2
       /\ (uf_rest (uc_fn u) = false -> a2 = []).

(** How well a parameter type fits an argument type in C++, on a machine whose int has [ib] bits:
    0 for the same type, 1 for a promotion to int or double or of an enumeration to a wider integer type,
    2 for any other conversion to an arithmetic type. *)
Definition promotion (ib : Z) (t u : fty) : Prop :=
  t = TFloat false /\ u = TFloat true
  \/ (exists n, u = TInt true n /\ 8 * Z.of_nat n = ib
       /\ (t = TBool \/ exists k s n', t = TIntN k s n' /\ 8 * Z.of_nat n' < ib))
  \/ exists e s n, t = TIntN (IEnum e) s n /\ ib <= 8 * Z.of_nat n /\ u = TInt s n.
Inductive Rank (ib : Z) (t : fty) : fty -> nat -> Prop :=
| rank_same : Rank ib t t 0
| rank_promotion u : promotion ib t u -> Rank ib t u 1
| rank_conversion u : arithmetic t \/ enumeration t -> arithmetic u -> t <> u -> ~ promotion ib t u -> Rank ib t u 2.

(** The same for all fields, of types [ts], passed to a function with the parameters [ps]: one number for
    each field, 3 for those that an ellipsis takes. *)
Inductive Ranks (ib : Z) (rest : bool) : list fty -> list fty -> list nat -> Prop :=
| ranks_none : Ranks ib rest [] [] []
| ranks_param t u r ts ps rs : Rank ib t u r -> Ranks ib rest ts ps rs -> Ranks ib rest (t :: ts) (u :: ps) (r :: rs)
| ranks_ellipsis t ts rs : rest = true -> Ranks ib rest ts [] rs -> Ranks ib rest (t :: ts) [] (3%nat :: rs).

(** [f] is the best of the functions for the message [m]: every other function that could be called fits
    no field better and some field worse. *)
Definition best (ib : Z) (fns : list user_fn) (m : mtype) (f : user_fn) : Prop :=
  In f fns /\ uf_message f = m
  /\ exists r, Ranks ib (uf_rest f) (mt_fields m) (uf_params f) r
      /\ forall g r', In g fns -> g <> f -> uf_message g = m -> Ranks ib (uf_rest g) (mt_fields m) (uf_params g) r' ->
           Forall2 le r r' /\ r <> r'.

(** No two functions take the same message and the same parameters. *)
Definition distinct_fns (fns : list user_fn) : Prop := NoDup (map (fun f => (uf_message f, uf_params f)) fns).
