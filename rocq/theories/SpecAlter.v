(** Specification vocabulary for bytes altered at given places. *)
From Verif Require Export SpecErrors.

(** [q'] differs from [q] at the places marked in [mask], and only there. *)
Inductive altered_at : list bool -> list Z -> list Z -> Prop :=
| alt_none : altered_at [] [] []
| alt_keep mask x q q' : altered_at mask q q' -> altered_at (false :: mask) (x :: q) (x :: q')
| alt_change mask x y q q' : y <> x -> altered_at mask q q' -> altered_at (true :: mask) (x :: q) (y :: q').

(** How many places are marked. *)
Definition marked (mask : list bool) : Z := zsum (map (fun b : bool => if b then 1 else 0) mask).

(** The weight of [q'] arriving for [q], a changed byte counting [a] for each of its 255 values and an unchanged one [b]. *)
Fixpoint weight (a b : Z) (q q' : list Z) : Z :=
  match q, q' with
  | x :: q, y :: q' => (if y =? x then b else a) * weight a b q q'
  | _, _ => 1
  end.
