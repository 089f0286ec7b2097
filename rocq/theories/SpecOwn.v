(** Specification vocabulary for envelopes written by an application. *)
From Verif Require Export SpecBuffer SpecReceiver SpecSend OwnEnvelopes.

(** [m] has id [id]; the length of its message as declared by the envelope. *)
Definition own_has_id (oc : own_collection) (m : mtype) (id : Z) : Prop :=
  0 <= id /\ nth_error (oc_types oc) (Z.to_nat id) = Some m.
Definition own_length (oc : own_collection) (m : mtype) : Z :=
  oe_size (oc_env oc) (Z.of_nat (payload_size m)).

(** What the code of a check does to the list of bytes held and the current id, [w] being the
    width of the buffer's size type; [None] when it asks for what is not there (an element past
    the bytes held, the id when none is set) or one of its assertions fails. *)
Fixpoint exec (w : Z) (oc : own_collection) (k : check_code) (X : list Z) (id : option Z)
  : option (bool * list Z * option Z) :=
  match k with
  | KReturn b => Some (b, X, id)
  | KAssert x k => if x then exec w oc k X id else None
  | KSize k => exec w oc (k (zlen X)) X id
  | KEmpty k => exec w oc (k (match X with [] => true | _ => false end)) X id
  | KFront k => match X with x :: _ => exec w oc (k x) X id | [] => None end
  | KPop n k =>
      match X with
      | x :: _ => if n mod 2 ^ w <=? zlen X
                  then exec w oc (k x) (skipn (Z.to_nat (n mod 2 ^ w)) X) id else None
      | [] => None
      end
  | KAt i k => match nth_error X (Z.to_nat (i mod 2 ^ w)) with
               | Some x => exec w oc (k x) X id
               | None => None
               end
  | KPut i x k =>
      if i mod 2 ^ w <? zlen X
      then exec w oc k (firstn (Z.to_nat (i mod 2 ^ w)) X ++ [x mod 256]
                        ++ skipn (S (Z.to_nat (i mod 2 ^ w))) X) id
      else None
  | KSetId i k => exec w oc k X (if i mod 256 <? zlen (oc_types oc) then Some (i mod 256) else None)
  | KIdValid k => exec w oc (k (match id with Some _ => true | None => false end)) X id
  | KId k => match id with Some i => exec w oc (k i) X id | None => None end
  | KLength k =>
      match id with
      | Some i => match nth_error (oc_types oc) (Z.to_nat i) with
                  | Some m => exec w oc (k (own_length oc m)) X id
                  | None => None
                  end
      | None => None
      end
  end.
Definition exec_check (w : Z) (oc : own_collection) := exec w oc (oe_check (oc_env oc)).

(** The current id is that of a message type, if set. *)
Definition id_ok (oc : own_collection) (id : option Z) : Prop :=
  forall i, id = Some i -> exists m, own_has_id oc m i.

(** [Y] starts with a message of type [m]: long enough, its fields inside it. *)
Definition room_for (oc : own_collection) (m : mtype) (Y : list Z) : Prop :=
  0 <= oe_offset (oc_env oc)
  /\ oe_offset (oc_env oc) + Z.of_nat (payload_size m) <= own_length oc m
  /\ 0 < own_length oc m <= zlen Y.

(** The check says the same again, with more bytes behind. *)
Definition stays_found (w : Z) (oc : own_collection) (Y : list Z) (i : Z) : Prop :=
  forall d, bytes_ok d -> zlen (Y ++ d) <= own_capacity oc ->
  exec_check w oc (Y ++ d) (Some i) = Some (true, Y ++ d, Some i).

(** What the receiver relies on: whatever bytes there are, the check asks only for what is there, and when
    it says that there is a message then the id is set, the message is there in full, and the
    check says so again. *)
Definition well_behaved (oc : own_collection) : Prop :=
  forall w X id, size_type (own_capacity oc) w -> bytes_ok X -> zlen X <= own_capacity oc -> id_ok oc id ->
  exists b Y id', exec_check w oc X id = Some (b, Y, id')
    /\ (b = true -> exists i m, id' = Some i /\ own_has_id oc m i /\ room_for oc m Y /\ stays_found w oc Y i).

(** ** Processing on lists *)

(** The bytes of the fields of the message at the front of [Y]. *)
Definition own_payload (oc : own_collection) (m : mtype) (Y : list Z) : list Z :=
  part Y (oe_offset (oc_env oc)) (oe_offset (oc_env oc) + Z.of_nat (payload_size m)).

(** Reading [bs] one byte after the other: [None] when there are too few, [Some None] when the reader's
    behaviour is undefined, otherwise the value and what is left. *)
Fixpoint takes (k : read_code) (bs : list Z) : option (option (value * list Z)) :=
  match k with
  | RReturn v => Some (Some (v, bs))
  | RUndefined => Some None
  | RByte k => match bs with b :: bs' => takes (k b) bs' | [] => None end
  end.

(** Reading the fields of a message from its bytes. *)
Fixpoint decodes (p : policy) (c : config) (ts : list fty) (bs : list Z) : option (option (list value)) :=
  match ts with
  | [] => Some (Some [])
  | t :: rest =>
      match takes (po_read p c t) bs with
      | Some (Some (v, bs')) => option_map (option_map (cons v)) (decodes p c rest bs')
      | Some None => Some None
      | None => None
      end
  end.
Definition own_decodes (c : config) (oc : own_collection) (m : mtype) (bs : list Z) (vs : list value) : Prop :=
  decodes (oe_policy (oc_env oc)) c (mt_fields m) bs = Some (Some vs).

(** The deserializer reads no more than the bytes of the message's fields; [policy_total]: and makes values of any
    bytes. *)
Definition policy_reads (c : config) (oc : own_collection) : Prop :=
  forall m bs, In m (oc_types oc) -> bytes_ok bs -> length bs = payload_size m ->
  exists r, decodes (oe_policy (oc_env oc)) c (mt_fields m) bs = Some r.
Definition policy_total (c : config) (oc : own_collection) : Prop :=
  forall m bs, In m (oc_types oc) -> bytes_ok bs -> length bs = payload_size m ->
  exists vs, own_decodes c oc m bs vs.

(** [OProc id s id' s' r]: processing with the current id [id], as [Proc]. *)
Inductive OProc (w : Z) (oc : own_collection) (c : config) (beh : hbehav)
  : option Z -> sstate -> option Z -> sstate -> option nat -> Prop :=
| oproc_wait id X Y id' h last log :
    exec_check w oc X id = Some (false, Y, id') ->
    OProc w oc c beh id (SState X h last log) id' (SState Y h last log) (Some O)
| oproc_message id X f s i m vs h last log id' s' r :
    exec_check w oc X id = Some (true, f ++ s, Some i) ->
    own_has_id oc m i -> zlen f = own_length oc m ->
    own_decodes c oc m (own_payload oc m (f ++ s)) vs ->
    let log1 := log ++ [Delivery h m vs] in
    let acts := hr_acts (beh log1) in
    hr_throws (beh log1) = false ->
    zlen (f ++ s ++ appended acts) <= own_capacity oc ->
    OProc w oc c beh None
          (SState (s ++ appended acts) (handler_after acts (Some h)) (Some i) log1) id' s' r ->
    OProc w oc c beh id (SState X (Some h) last log) id' s' (option_map S r)
| oproc_throw id X Y i m vs h last log :
    exec_check w oc X id = Some (true, Y, Some i) ->
    own_has_id oc m i ->
    own_decodes c oc m (own_payload oc m Y) vs ->
    let log1 := log ++ [Delivery h m vs] in
    let acts := hr_acts (beh log1) in
    hr_throws (beh log1) = true ->
    zlen (Y ++ appended acts) <= own_capacity oc ->
    OProc w oc c beh id (SState X (Some h) last log)
          (Some i) (SState (Y ++ appended acts) (handler_after acts (Some h)) (Some i) log1) None.

(** The current id. *)
Definition own_id (v : world) : option Z := er_id (rx_recv (w_rx v)).

(** ** Histories, as [history] *)
Definition own_allowed (oc : own_collection) (o : op) (w : world) : Prop :=
  match o with
  | OpAppend d => bytes_ok d /\ zlen d <= own_available oc (w_rx w)
  | OpReceive a => adapter_ok a
  | _ => True
  end.
Definition own_returns (c : config) (oc : own_collection) (beh : hbehav) (o : op) (w w' : world) (r : opret)
  : Prop :=
  exists fuel, own_step fuel c oc beh o w = Ok (w', r).
Definition own_received (oc : own_collection) (beh : hbehav) (o : op) (w w' : world) : list Z :=
  match o with
  | OpAppend d => d
  | OpReceive a => fst (ad_read a (Z.min (ad_available a mod 256) (own_available oc (w_rx w))))
  | OpProcess => appended_by beh (w_log w) (new_calls w w')
  | _ => []
  end.
Inductive own_history (c : config) (oc : own_collection) (beh : hbehav) (w : world)
  : list op -> list Z -> list opret -> world -> Prop :=
| ohist_nil : own_history c oc beh w [] [] [] w
| ohist_snoc ops S rs w1 o r w2 :
    own_history c oc beh w ops S rs w1 ->
    own_allowed oc o w1 ->
    own_returns c oc beh o w1 w2 r ->
    own_history c oc beh w (ops ++ [o]) (S ++ own_received oc beh o w1 w2) (rs ++ [r]) w2.

(** No message has a bool field. *)
Definition own_bool_free (oc : own_collection) : Prop :=
  forall m t, In m (oc_types oc) -> In t (mt_fields m) -> t <> TBool.

(** ** Sending *)

(** The bytes the code of a sendMessage sends when the fields have the bytes [p]. *)
Fixpoint sent (k : send_code) (p : list Z) : list Z :=
  match k with
  | SDone => []
  | SByte b k => (b mod 256) :: sent k p
  | SBlock bs k => map (fun b => b mod 256) bs ++ sent k p
  | STuple k => p ++ sent (k p) p
  | SCollect k => sent (k p) p
  end.

(** The bytes a serializer writes for the values, starting in state [st]. *)
Definition write_bytes (x : write) : list Z :=
  match x with WByte b => [b mod 256] | WBlock bs => map (fun b => b mod 256) bs end.
Fixpoint written (p : policy) (c : config) (st : po_state p) (ts : list fty) (vs : list value) : list Z :=
  match ts, vs with
  | t :: ts', v :: vs' =>
      concat (map write_bytes (fst (po_buffer p c st (t, v))))
        ++ written p c (snd (po_buffer p c st (t, v))) ts' vs'
  | _, _ => []
  end.
Definition own_written (c : config) (oc : own_collection) (m : mtype) (vs : list value) : list Z :=
  written (oe_policy (oc_env oc)) c (po_init (oe_policy (oc_env oc))) (mt_fields m) vs.

(** What the serializer writes on machine [cs] has the size of the fields, and the deserializer makes the
    same values of it on machine [c]. *)
Definition policy_matched (cs c : config) (oc : own_collection) : Prop :=
  forall m vs, In m (oc_types oc) -> has_types vs (mt_fields m) = true ->
  length (own_written cs oc m vs) = payload_size m /\ own_decodes c oc m (own_written cs oc m vs) vs.

(** Neither the serializer nor the deserializer looks at the machine. *)
Definition portable (p : policy) : Prop :=
  (forall c c' st f, po_buffer p c st f = po_buffer p c' st f) /\ (forall c c' t, po_read p c t = po_read p c' t).

(** [f] is what is sent for message type [m] with values [vs]. *)
Definition own_frame (c : config) (oc : own_collection) (m : mtype) (vs : list value) (f : list Z) : Prop :=
  exists id, own_has_id oc m id /\ (forall j, own_has_id oc m j -> id <= j)
    /\ f = sent (oe_send (oc_env oc) id) (own_written c oc m vs).

(** The two halves of an envelope fit together: what sendMessage sends has the declared length
    and the bytes of the fields at the declared place, the check finds it with its id at the front of the
    buffer whatever follows, and waits while it is incomplete. *)
Definition matched (oc : own_collection) : Prop :=
  forall m i p f, own_has_id oc m i -> length p = payload_size m -> bytes_ok p ->
  f = sent (oe_send (oc_env oc) i) p ->
  zlen f = own_length oc m /\ room_for oc m f /\ own_payload oc m f = p
  /\ (forall w id, size_type (own_capacity oc) w -> id_ok oc id ->
        (forall s, bytes_ok s -> zlen (f ++ s) <= own_capacity oc ->
           exec_check w oc (f ++ s) id = Some (true, f ++ s, Some i))
        /\ (forall q t, f = q ++ t -> t <> [] -> exists id', exec_check w oc q id = Some (false, q, id'))).

(** A message with values to be sent. *)
Definition own_sendable (oc : own_collection) (mv : mtype * list value) : Prop :=
  In (fst mv) (oc_types oc) /\ has_types (snd mv) (mt_fields (fst mv)) = true.

(** Sending several messages one after the other. *)
Fixpoint own_send_all {S} (c : config) (oc : own_collection) (t : transmitter S)
         (msgs : list (mtype * list value)) (s : S) : outcome S :=
  match msgs with
  | [] => Ok s
  | (m, vs) :: rest =>
      do s' <- own_send c oc m t (combine (mt_fields m) vs) s; own_send_all c oc t rest s'
  end.
