(** Specification vocabulary for the build's check of the headers. *)
From Verif Require Export HeaderTests SpecInclude SpecRegenerate.
Local Open Scope string_scope.

(** ".h" occurs in the text. *)
Definition has_h (s : string) : Prop := exists a b, s = a ++ ".h" ++ b.

(** The name of a header file in which ".h" occurs at the end only. *)
Definition plain_name (h : string) : Prop := exists b, ~ has_h b /\ h = b ++ ".h".

(** A program that includes that file, and does nothing. *)
Definition includes_just (text path : string) : Prop :=
  exists fuel, read_includes fuel (tokens text)
    = Some ([inclusion_toks (Angled path)], tokens "int main(int, char * []) { return 0; }").

(** The header [h] of the library is read when the program for the header [t] is compiled, wherever its source is. *)
Definition read_by (t h : string) : Prop :=
  forall dir, exists st, read_unit dir [] [Angled ("tuple-transmission/" ++ t)] = Some st /\ In (Declarations h) (u_log st).

(** An order in which targets may be built. *)
Definition allowed (edges : list (target * target)) (order : list target) : Prop :=
  NoDup order /\ forall x y, In (x, y) edges -> In x order -> exists a b, order = (a ++ x :: b)%list /\ In y a.
