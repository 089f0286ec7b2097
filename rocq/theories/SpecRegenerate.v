(** Specification vocabulary for running the generation scripts. *)
From Verif Require Export Regenerate.
Local Open Scope string_scope.

(** A data file without errors for these limits: the header [o] gets the contents [text]. *)
Definition yields (lim : limits) (nd : string * datafile) (o text : string) : Prop :=
  query_outfile (snd nd) = Some o /\ made lim nd = Some text.
Definition sound (lim : limits) (l : list (string * datafile)) : Prop :=
  Forall (fun nd => exists o text, yields lim nd o text) l /\ NoDup (map (fun nd => query_outfile (snd nd)) l).
Definition names_of (l : list (string * datafile)) : list string := map fst (build_rules l).

(** Every header has its contents, and no other file has changed. *)
Definition regenerated (lim : limits) (l : list (string * datafile)) (t t' : tree) : Prop :=
  (forall nd o text, In nd l -> yields lim nd o text -> t' o = Some text)
  /\ (forall n, ~ In n (names_of l) -> t' n = t n).

(** Headers that are not older than the files they are made from are as these say. *)
Definition unspoilt (lim : limits) (l : list (string * datafile)) (src : string -> Z) (script : Z) (b : stamped) : Prop :=
  forall nd o text, In nd l -> yields lim nd o text -> outdated src script b o (fst nd) = false -> st_tree b o = Some text.
