(** Specification vocabulary for handlers that ask. *)
From Verif Require Export Interactive SpecReceiver.

(** The handler does not call processMessages, appends bytes, and receives from adapters that keep their contract. *)
Fixpoint calm (p : hprog) : Prop :=
  match p with
  | HEnd _ => True
  | HSet _ k | HClear k => calm k
  | HAppend d k => bytes_ok d /\ calm k
  | HReceive a k => adapter_ok a /\ forall n, calm (k n)
  | HProcess _ => False
  | HAskSpace k => forall n, calm (k n)
  | HAskLast k => forall n, calm (k n)
  | HAskHandler k => forall b, calm (k b)
  end.

(** The bytes an adapter delivers to a receiver with room for [room] bytes. *)
Definition delivered (a : adapter) (room : Z) : list Z := fst (ad_read a (Z.min (ad_available a mod 256) room)).

(** [asks coll p X h last acts t]: run with the bytes [X] held, the handler [h] and the last id [last], the program does the
    actions [acts] - appending what it receives - and ends, throwing if [t]. *)
Inductive asks (coll : collection) : hprog -> list Z -> option handler -> option Z -> list hact -> bool -> Prop :=
| asks_end t X h last : asks coll (HEnd t) X h last [] t
| asks_set h' k X h last acts t : asks coll k X (Some h') last acts t -> asks coll (HSet h' k) X h last (ASetHandler h' :: acts) t
| asks_clear k X h last acts t : asks coll k X None last acts t -> asks coll (HClear k) X h last (AClearHandler :: acts) t
| asks_append d k X h last acts t : asks coll k (X ++ d) h last acts t -> asks coll (HAppend d k) X h last (AAppend d :: acts) t
| asks_receive a k X h last acts t : let d := delivered a (capacity coll - zlen X) in
    asks coll (k (zlen d)) (X ++ d) h last acts t -> asks coll (HReceive a k) X h last (AAppend d :: acts) t
| asks_space k X h last acts t : asks coll (k (capacity coll - zlen X)) X h last acts t -> asks coll (HAskSpace k) X h last acts t
| asks_last k X h last acts t : asks coll (k last) X h last acts t -> asks coll (HAskLast k) X h last acts t
| asks_handler k X h last acts t :
    asks coll (k (match h with Some _ => true | None => false end)) X h last acts t -> asks coll (HAskHandler k) X h last acts t.

(** A history of calls with such handlers. *)
Inductive i_history (c : config) (coll : collection) (prog : ibehav) : world -> list op -> list opret -> world -> Prop :=
| ih_nil w : i_history c coll prog w [] [] w
| ih_snoc w ops rs w1 o r w2 : i_history c coll prog w ops rs w1 -> allowed coll o w1 ->
    (exists fuel, i_step fuel c coll prog o w1 = Ok (w2, r)) ->
    i_history c coll prog w (ops ++ [o]) (rs ++ [r]) w2.

(** A handler that keeps to the space it can ask for and leaves a handler in place. *)
Fixpoint careful (coll : collection) (p : hprog) (X : list Z) (h : option handler) (last : option Z) : Prop :=
  match p with
  | HEnd _ => h <> None
  | HSet h' k => careful coll k X (Some h') last
  | HClear k => careful coll k X None last
  | HAppend d k => zlen d <= capacity coll - zlen X /\ careful coll k (X ++ d) h last
  | HReceive a k => let d := delivered a (capacity coll - zlen X) in careful coll (k (zlen d)) (X ++ d) h last
  | HProcess _ => False
  | HAskSpace k => careful coll (k (capacity coll - zlen X)) X h last
  | HAskLast k => careful coll (k last) X h last
  | HAskHandler k => careful coll (k (match h with Some _ => true | None => false end)) X h last
  end.

(** Handlers of [Receive.v] as programs. *)
Fixpoint program (acts : list hact) (throws : bool) : hprog :=
  match acts with
  | [] => HEnd throws
  | ASetHandler h :: rest => HSet h (program rest throws)
  | AClearHandler :: rest => HClear (program rest throws)
  | AAppend d :: rest => HAppend d (program rest throws)
  | AProcess :: rest => HProcess (fun _ => program rest throws)
  end.
