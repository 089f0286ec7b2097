(** Specification of a receiver on byte lists: no array, no indices, no envelope code. *)
From Verif Require Export Spec Receive.

(** Bytes. *)
Definition bytes_ok (l : list Z) : Prop := Forall (fun b => 0 <= b < 256) l.

(** The payload bytes [bs] are those of the values [vs]. *)
Definition encodes (little : bool) (ts : list fty) (vs : list value) (bs : list Z) : Prop :=
  has_types vs ts = true /\ spec_payload little ts vs = bs.

(** What the outside knows of a receiver: the bytes received and not yet consumed, the
    handler, the last message id, the handler calls so far. *)
Record sstate := SState {
  s_bytes : list Z;
  s_handler : option handler;
  s_last : option Z;
  s_log : list delivery }.

(** The bytes a handler appends, and the handler in place after its actions. *)
Definition appended (acts : list hact) : list Z :=
  concat (map (fun a => match a with AAppend d => d | _ => [] end) acts).
Definition handler_after (acts : list hact) (h : option handler) : option handler :=
  fold_left (fun h a => match a with
                        | ASetHandler h' => Some h'
                        | AClearHandler => None
                        | _ => h
                        end) acts h.

(** [b :: s] can neither be nor become a frame. *)
Definition no_frame (coll : collection) (b : Z) (s : list Z) : Prop :=
  ~ undecided coll (b :: s) /\ forall f m id p s', is_frame coll f m id p -> b :: s <> f ++ s'.

(** Processing: [Proc s s' (Some n)] when it returns after [n] messages, [Proc s s' None]
    when the handler threw. *)
Inductive Proc (coll : collection) (little : bool) (beh : hbehav)
  : sstate -> sstate -> option nat -> Prop :=
| proc_wait X h last log :
    undecided coll X ->
    Proc coll little beh (SState X h last log) (SState X h last log) (Some O)
| proc_skip b X h last log s' r :
    no_frame coll b X ->
    Proc coll little beh (SState X h last log) s' r ->
    Proc coll little beh (SState (b :: X) h last log) s' r
| proc_frame f m id p vs s h last log s' r :
    is_frame coll f m id p ->
    encodes little (mt_fields m) vs p ->
    let log1 := log ++ [Delivery h m vs] in
    let acts := hr_acts (beh log1) in
    hr_throws (beh log1) = false ->
    zlen (f ++ s ++ appended acts) <= capacity coll ->
    Proc coll little beh
         (SState (s ++ appended acts) (handler_after acts (Some h)) (Some id) log1) s' r ->
    Proc coll little beh (SState (f ++ s) (Some h) last log) s' (option_map S r)
| proc_throw f m id p vs s h last log :
    is_frame coll f m id p ->
    encodes little (mt_fields m) vs p ->
    let log1 := log ++ [Delivery h m vs] in
    let acts := hr_acts (beh log1) in
    hr_throws (beh log1) = true ->
    zlen (f ++ s ++ appended acts) <= capacity coll ->
    Proc coll little beh (SState (f ++ s) (Some h) last log)
         (SState (f ++ s ++ appended acts) (handler_after acts (Some h)) (Some id) log1) None.

(** What processMessages returns for [n] messages. *)
Definition spec_result (r : option nat) : presult :=
  match r with Some n => Returned (Z.of_nat n mod 256) | None => Threw end.

(** An adapter keeping its contract: it stores at most as many bytes as asked for and
    reports how many. *)
Definition adapter_ok_at (a : adapter) (n : Z) : Prop :=
  bytes_ok (fst (ad_read a n)) /\ zlen (fst (ad_read a n)) <= n
  /\ snd (ad_read a n) = zlen (fst (ad_read a n)).
Definition adapter_ok (a : adapter) : Prop := forall n, 0 <= n <= 255 -> adapter_ok_at a n.

(** One operation: [Step o s d s' r], [d] being the bytes it received. *)
Inductive Step (coll : collection) (little : bool) (beh : hbehav)
  : op -> sstate -> list Z -> sstate -> opret -> Prop :=
| step_set h X h0 last log :
    Step coll little beh (OpSetHandler h) (SState X h0 last log) [] (SState X (Some h) last log) RetUnit
| step_clear X h0 last log :
    Step coll little beh OpClearHandler (SState X h0 last log) [] (SState X None last log) RetUnit
| step_append d X h last log :
    zlen X + zlen d <= capacity coll ->
    Step coll little beh (OpAppend d) (SState X h last log) d (SState (X ++ d) h last log) RetUnit
| step_receive a X h last log d :
    d = fst (ad_read a (Z.min (ad_available a mod 256) (capacity coll - zlen X))) ->
    Step coll little beh (OpReceive a) (SState X h last log) d (SState (X ++ d) h last log)
         (RetCount (zlen d))
| step_process_none X last log :
    Step coll little beh OpProcess (SState X None last log) [] (SState X None last log)
         (RetProcess (Returned 0))
| step_process X h last log s' r :
    Proc coll little beh (SState X (Some h) last log) s' r ->
    Step coll little beh OpProcess (SState X (Some h) last log) [] s' (RetProcess (spec_result r)).

(** Handlers that do not call processMessages and append bytes. *)
Definition tame (beh : hbehav) : Prop :=
  forall log a, In a (hr_acts (beh log)) ->
    match a with AProcess => False | AAppend d => bytes_ok d | _ => True end.

(** Handlers that at most install other handlers, or throw. *)
Definition steady (beh : hbehav) : Prop :=
  forall log a, In a (hr_acts (beh log)) -> exists h, a = ASetHandler h.

(** No message has a bool field. *)
Definition bool_free (coll : collection) : Prop :=
  forall m t, In m (mc_types coll) -> In t (mt_fields m) -> t <> TBool.

(** ** Histories of calls on the modelled receiver *)

(** The caller keeps to the reported space; adapters keep their contract. *)
Definition allowed (coll : collection) (o : op) (w : world) : Prop :=
  match o with
  | OpAppend d => bytes_ok d /\ zlen d <= rx_available coll (w_rx w)
  | OpReceive a => adapter_ok a
  | _ => True
  end.

(** The call returns (or throws), with this effect. *)
Definition returns (c : config) (coll : collection) (beh : hbehav) (o : op) (w w' : world) (r : opret)
  : Prop :=
  exists fuel, step fuel c coll beh o w = Ok (w', r).

(** Bytes appended by the handler calls [new] made after the calls [log]. *)
Fixpoint appended_by (beh : hbehav) (log new : list delivery) : list Z :=
  match new with
  | [] => []
  | d :: rest => appended (hr_acts (beh (log ++ [d]))) ++ appended_by beh (log ++ [d]) rest
  end.

(** The handler calls among [new] that did not throw. *)
Fixpoint completed (beh : hbehav) (log new : list delivery) : list delivery :=
  match new with
  | [] => []
  | d :: rest =>
      (if hr_throws (beh (log ++ [d])) then [] else [d]) ++ completed beh (log ++ [d]) rest
  end.

(** The handler calls made between two worlds. *)
Definition new_calls (w w' : world) : list delivery := skipn (length (w_log w)) (w_log w').

(** The bytes given to the receiver by an operation. *)
Definition received (coll : collection) (beh : hbehav) (o : op) (w w' : world) : list Z :=
  match o with
  | OpAppend d => d
  | OpReceive a => fst (ad_read a (Z.min (ad_available a mod 256) (rx_available coll (w_rx w))))
  | OpProcess => appended_by beh (w_log w) (new_calls w w')
  | _ => []
  end.

(** [history w ops S rs w']: the calls [ops] lead from [w] to [w'], returning [rs] and
    giving the receiver the bytes [S] altogether. *)
Inductive history (c : config) (coll : collection) (beh : hbehav)
  : world -> list op -> list Z -> list opret -> world -> Prop :=
| hist_nil w : history c coll beh w [] [] [] w
| hist_snoc w ops S rs w1 o r w2 :
    history c coll beh w ops S rs w1 ->
    allowed coll o w1 ->
    returns c coll beh o w1 w2 r ->
    history c coll beh w (ops ++ [o]) (S ++ received coll beh o w1 w2) (rs ++ [r]) w2.

(** A new receiver, without or with a handler. *)
Definition start (coll : collection) (h : option handler) : world :=
  World (match h with None => rx_init coll | Some h => rx_init_handler coll h end) [].

(** The bytes a receiver holds. *)
Definition held (w : world) : list Z :=
  let b := er_buf (rx_recv (w_rx w)) in
  firstn (Z.to_nat (rb_pastEnd b - rb_begin b)) (skipn (Z.to_nat (rb_begin b)) (rb_contents b)).

(** The call [d] is for the found frame [fd]: its message type, its values. *)
Definition delivers (little : bool) (fd : found) (d : delivery) : Prop :=
  d_message d = f_message fd
  /\ encodes little (mt_fields (f_message fd)) (d_values d) (f_payload fd).

(** Every frame the scanner finds holds valid values. *)
Definition decodable (coll : collection) (little : bool) (s : list Z) : Prop :=
  forall ms r, Scan coll s ms r ->
    Forall (fun fd => exists vs, encodes little (mt_fields (f_message fd)) vs (f_payload fd)) ms.

(** A receiver that was new got the bytes [S] altogether, by any sequence of calls, the
    last of which was a processMessages with a handler set that returned. *)
Definition processed (c : config) (coll : collection) (beh : hbehav) (h0 : option handler)
           (S : list Z) (w : world) : Prop :=
  exists ops S1 rs w1 n,
    history c coll beh (start coll h0) ops S1 rs w1
    /\ rx_has_handler (w_rx w1) = true
    /\ returns c coll beh OpProcess w1 w (RetProcess (Returned n))
    /\ S = S1 ++ received coll beh OpProcess w1 w.

(** The message and values of a call. *)
Definition content (d : delivery) : mtype * list value := (d_message d, d_values d).

(** The handler calls [new], made after the calls [log], each went to the handler in place
    at that time, [h] being in place at first and [h'] at last. *)
Fixpoint served (beh : hbehav) (log : list delivery) (h : option handler) (new : list delivery)
  (h' : option handler) : Prop :=
  match new with
  | [] => h' = h
  | d :: rest => h = Some (d_handler d)
      /\ served beh (log ++ [d]) (handler_after (hr_acts (beh (log ++ [d]))) h) rest h'
  end.

(** The found messages occupy frames in [s], disjoint and in this order. *)
Inductive occurs (coll : collection) : list found -> list Z -> Prop :=
| occ_nil s : occurs coll [] s
| occ_cons g f m id p ms s : is_frame coll f m id p -> occurs coll ms s ->
    occurs coll (Found m id p :: ms) (g ++ f ++ s).

(** What can be seen of a receiver. *)
Definition same_view (coll : collection) (w v : world) : Prop :=
  held w = held v /\ w_log w = w_log v /\ rx_last_id (w_rx w) = rx_last_id (w_rx v)
  /\ rx_functor (w_rx w) = rx_functor (w_rx v) /\ rx_available coll (w_rx w) = rx_available coll (w_rx v).

(** Scanning [S] with anything after it finds [ms] and is then at [X]. *)
Definition Consumed (coll : collection) (S : list Z) (ms : list found) (X : list Z) : Prop :=
  forall T ms' r, Scan coll (X ++ T) ms' r -> Scan coll (S ++ T) (ms ++ ms') r.


(** The calls of processMessages among the returns [rs] that ended with an exception. *)
Definition throws (rs : list opret) : list opret :=
  filter (fun r => match r with RetProcess Threw => true | _ => false end) rs.

(** The bytes of the frames of the messages delivered in the calls [l]. *)
Definition frame_bytes (coll : collection) (l : list delivery) : Z :=
  fold_right Z.add 0 (map (fun d => Z.of_nat (frame_size (mc_env coll) (d_message d))) l).
