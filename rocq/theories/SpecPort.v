(** Specification vocabulary for ports that take only a part of a write. *)
From Verif Require Export SpecSend Ports.

(** Asked in the state [q] to write the blocks [ds], one after the other, the port ends in [q'],
    having taken the bytes [ts], one list for each block. *)
Inductive Takes {P} (p : port P) : P -> list (list Z) -> P -> list (list Z) -> Prop :=
| takes_none q : Takes p q [] q []
| takes_block q d q1 n ds q' ts : p q d = (q1, n) -> Takes p q1 ds q' ts ->
    Takes p q (d :: ds) q' (firstn (Z.to_nat n) d :: ts).
