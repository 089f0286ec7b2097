(** Specification vocabulary for messages separated by idle bytes. *)
From Verif Require Export SpecLink.

(** Idle bytes: none is SOH, the first two are not STX, and there are as many as the longest message has bytes, less three, or more. *)
Definition is_gap (coll : collection) (l : list Z) : Prop :=
  ~ In 1 l /\ ~ In 2 (firstn 2 l) /\ max_message_length coll - 3 <= zlen l.

(** What arrives of a message and of the idle bytes sent after it. *)
Record segment := Segment { sg_sent : mtype * list value; sg_body : list Z; sg_gap : list Z }.
Definition segment_bytes (s : segment) : list Z := sg_body s ++ sg_gap s.
