(** Specification vocabulary for links between a sender and a receiver: ports holding
    unread bytes, polling loops, collections extending each other, frames without start
    codes inside. *)
From Verif Require Export SpecSend SpecReceiver.

(** The adapter reads a port at which the bytes [P] are waiting: whatever it stores is
    the beginning of [P]. *)
Definition serves (a : adapter) (P : list Z) : Prop :=
  adapter_ok a /\ forall n, 0 <= n <= 255 -> exists P', P = fst (ad_read a n) ++ P'.

(** When bytes are waiting it reports some, and stores some when asked for any. *)
Definition eager (a : adapter) (P : list Z) : Prop :=
  serves a P
  /\ (P <> [] -> 0 < ad_available a mod 256 /\ forall n, 0 < n <= 255 -> fst (ad_read a n) <> []).

(** A port giving as many of the waiting bytes as it is asked for. *)
Definition fifo_read (P : list Z) (n : Z) : list Z * Z :=
  (firstn (Z.to_nat n) P, Z.min n (zlen P)).

(** Turns of the loop [receiveFrom(a); processMessages()] on the bytes [P] waiting at a
    port, each time through an adapter allowed by [ok]: [Polls n w P w' P'] when [n] turns
    lead from [w] to [w'] and leave [P'] unread. *)
Inductive Polls (ok : adapter -> list Z -> Prop) (fuel : nat) (c : config) (coll : collection)
  (beh : hbehav) : nat -> world -> list Z -> world -> list Z -> Prop :=
| polls_none w P : Polls ok fuel c coll beh O w P w P
| polls_turn n w P w1 P1 a w2 k w3 r P2 :
    Polls ok fuel c coll beh n w P w1 P1 ->
    ok a P1 ->
    step fuel c coll beh (OpReceive a) w1 = Ok (w2, RetCount k) ->
    step fuel c coll beh OpProcess w2 = Ok (w3, RetProcess r) ->
    P2 = skipn (Z.to_nat k) P1 ->
    Polls ok fuel c coll beh (S n) w P w3 P2.

(** The collection [new] is [old] with message types added at the end. *)
Definition extends (old new : collection) : Prop :=
  mc_env new = mc_env old /\ exists extra, mc_types new = mc_types old ++ extra.

(** The message's frame contains no byte 1 after its start code. *)
Definition clean (c : config) (coll : collection) (mv : mtype * list value) : Prop :=
  forall f, is_message_frame c coll (fst mv) (snd mv) f -> ~ In 1 (tl f).

(** Whether a message type is one of the collection's. *)
Definition known (coll : collection) (mv : mtype * list value) : bool :=
  existsb (mtype_eqb (fst mv)) (mc_types coll).

(** [v'] is [v] with the bytes of a number in opposite order; other values are equal. *)
Definition swapped (t : fty) (v v' : value) : Prop :=
  has_type v' t = true /\
  match t, v, v' with
  | TIntN _ s n, VInt z, VInt z' => forall i, (i < n)%nat -> spec_byte z' i = spec_byte z (n - 1 - i)
  | TFloat w, VFloat _ z, VFloat _ z' =>
      let n := fsize (TFloat w) in forall i, (i < n)%nat -> spec_byte z' i = spec_byte z (n - 1 - i)
  | (TIntN _ _ _ | TFloat _), _, _ => False
  | _, _, _ => v' = v
  end.
Inductive swapped_all : list fty -> list value -> list value -> Prop :=
| swap_nil : swapped_all [] [] []
| swap_cons t v v' ts vs vs' : swapped t v v' -> swapped_all ts vs vs' ->
    swapped_all (t :: ts) (v :: vs) (v' :: vs').

(** Two collections with the same envelope and the same number of payload bytes for every id. *)
Definition same_layout (A B : collection) : Prop :=
  mc_env A = mc_env B /\ map payload_size (mc_types A) = map payload_size (mc_types B).

(** The call [d] at a receiver of [B] got the payload bytes of the message [mv] of [A], under
    the id the message was sent with; [la], [lb] are the byte orders of the two machines. *)
Definition rereads (la lb : bool) (A B : collection) (mv : mtype * list value) (d : delivery) : Prop :=
  exists id, has_id A (fst mv) id /\ (forall j, has_id A (fst mv) j -> id <= j)
    /\ has_id B (d_message d) id /\ has_types (d_values d) (mt_fields (d_message d)) = true
    /\ spec_payload lb (mt_fields (d_message d)) (d_values d) = spec_payload la (mt_fields (fst mv)) (snd mv).
