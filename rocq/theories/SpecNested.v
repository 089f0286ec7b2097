(** Specification vocabulary for messages sent while others are being sent. *)
From Coq Require Export Permutation.
From Verif Require Export SpecLink Nested.

(** Every message, also those sent during others, is of a type of the collection and has values of its fields. *)
Fixpoint all_sendable (coll : collection) (x : sending) : Prop :=
  match x with
  | Sending m vs during =>
      sendable coll (m, vs)
      /\ fold_right (fun l P => fold_right (fun y Q => all_sendable coll y /\ Q) True l /\ P) True during
  end.

(** The position of a message type in a collection: its id. *)
Fixpoint id_of (m : mtype) (l : list mtype) : Z :=
  match l with
  | [] => 0
  | x :: rest => if mtype_eqb x m then 0 else 1 + id_of m rest
  end.

(** The frame of a message, and the pieces in which it is given to the transmitter: single bytes, or (unless [fine])
    one piece per field. *)
Definition frame_of (little : bool) (coll : collection) (m : mtype) (vs : list value) : list Z :=
  spec_frame (mc_env coll) (id_of m (mc_types coll)) (spec_payload little (mt_fields m) vs).
Definition cuts (fine little : bool) (coll : collection) (m : mtype) (vs : list value) : list (list Z) :=
  let f := frame_of little coll m vs in
  if fine then map (fun b => [b]) f
  else
    map (fun b => [b]) (firstn 3 f)
    ++ map (fun tv => spec_rep little (fst tv) (snd tv)) (combine (mt_fields m) vs)
    ++ map (fun b => [b]) (skipn (3 + payload_size m) f).

(** Pieces with other bytes written before each of them and at the end. *)
Fixpoint weave (ps outs : list (list Z)) : list Z :=
  match ps with
  | [] => hd [] outs
  | p :: rest => hd [] outs ++ p ++ weave rest (tl outs)
  end.

(** All the bytes written, in order. *)
Fixpoint wire (fine little : bool) (coll : collection) (x : sending) : list Z :=
  match x with
  | Sending m vs during => weave (cuts fine little coll m vs) (map (fun l => flat_map (wire fine little coll) l) during)
  end.

(** Something is sent between the first and the last byte of the message: before any call but the first one and
    writeFinished. *)
Definition disturbed (fine little : bool) (coll : collection) (x : sending) : bool :=
  match x with
  | Sending m vs during =>
      existsb (fun l => match l with [] => false | _ => true end)
        (firstn (length (cuts fine little coll m vs) - 1) (tl during))
  end.

(** The messages that get through: those that are not disturbed, in the order of their bytes. *)
Fixpoint survivors (fine little : bool) (coll : collection) (x : sending) : list (mtype * list value) :=
  match x with
  | Sending m vs during =>
      let inner := firstn (S (length (cuts fine little coll m vs)))
                     (map (fun l => flat_map (survivors fine little coll) l) during) in
      if disturbed fine little coll x then concat inner else hd [] inner ++ (m, vs) :: concat (tl inner)
  end.

(** A disturbed message has no start code after its first byte; and of the bytes from its start code on the third is not
    STX, or the one in the place of its EOT is not EOT although its id was sent undisturbed. *)
Definition falls_apart (fine little : bool) (coll : collection) (x : sending) : bool :=
  match x with
  | Sending m vs during =>
      let outs := map (fun l => flat_map (wire fine little coll) l) during in
      let sent := skipn (length (hd [] outs)) (wire fine little coll x) in
      forallb (fun b => negb (b =? 1)) (tl (frame_of little coll m vs))
      && (negb (nth 2 sent 0 =? 2)
          || (match nth 1 outs [] with [] => true | _ => false end)
             && negb (nth (frame_size (mc_env coll) m - 1) sent 0 =? 4))
  end.
Fixpoint benign (fine little : bool) (coll : collection) (x : sending) : bool :=
  match x with
  | Sending m vs during =>
      forallb (forallb (benign fine little coll)) during
      && (negb (disturbed fine little coll x) || falls_apart fine little coll x)
  end.

(** Nothing is sent in the middle of a message, only before its first byte or after its last. *)
Fixpoint calm (fine little : bool) (coll : collection) (x : sending) : bool :=
  match x with
  | Sending m vs during => forallb (forallb (calm fine little coll)) during && negb (disturbed fine little coll x)
  end.

(** All messages sent (what would be sent before further calls than are made is not). *)
Fixpoint everything (fine little : bool) (coll : collection) (x : sending) : list (mtype * list value) :=
  match x with
  | Sending m vs during =>
      (m, vs) :: concat (firstn (S (length (cuts fine little coll m vs)))
                           (map (fun l => flat_map (everything fine little coll) l) during))
  end.
