(** Which files matter when the headers are included, and the #include lines in a text. *)
From Verif Require Export IncludeGraph SpecGenerate.
From Verif Require Export Headers.
Local Open Scope string_scope.

(** tuple-transmission/detail/constants/ArityConfig.h: "Must be included before any Fusion header!" *)
Definition config_path : string := "tuple-transmission/detail/constants/ArityConfig.h".
Definition fusion_file (name : string) : bool := String.prefix "boost/fusion/" name.

(** The guard and the #include lines at the beginning of a header. *)
Definition guard_and_includes (text : string) : option (string * list (list tok)) :=
  match read_guard (tokens text) with
  | Some (g, s) => match read_includes (S (List.length s)) s with Some (l, _) => Some (g, l) | None => None end
  | None => None
  end.
Definition inclusion_toks (i : inclusion) : list tok :=
  match i with Quoted p => tokens ("""" ++ p ++ """") | Angled p => tokens ("<" ++ p ++ ">") end.
