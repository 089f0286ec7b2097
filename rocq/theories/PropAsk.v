(** Property theorems: handlers that ask the receiver, and fetch further bytes, while they run. *)
From Verif Require Import InteractiveLemmas Runs.

(** C90: everything seen of a receiver whose handlers decide what to do by what it tells them, and receive bytes
    themselves, is seen with handlers as in the other claims, which append these bytes: [asks] says what each handler was
    told - the message it is called for is still held, in front, and counts against the space; the last id is this
    message's - and what it did. *)
Theorem C90_asks :
  forall c coll, static_ok coll = true -> index_safe c (capacity coll) ->
  forall prog h0 ops rs w, (forall log, calm (prog log)) -> i_history c coll prog (start coll h0) ops rs w ->
  exists beh S v, tame beh /\ history c coll beh (start coll h0) ops S rs v /\ same_view coll w v
    /\ forall log d rest, w_log w = log ++ d :: rest ->
       exists f s fd, is_frame coll f (f_message fd) (f_id fd) (f_payload fd) /\ delivers (little c) fd d
         /\ asks coll (prog (log ++ [d])) (f ++ s) (Some (d_handler d)) (Some (f_id fd))
                 (hr_acts (beh (log ++ [d]))) (hr_throws (beh (log ++ [d]))).
Proof. exact ask_lemma. Qed.
Print Assumptions C90_asks.

(** Conversely the handlers of the other claims are such programs, also those that call processMessages. *)
Theorem C90_programs :
  forall fuel c coll beh o w,
  i_step fuel c coll (fun log => program (hr_acts (beh log)) (hr_throws (beh log))) o w = step fuel c coll beh o w.
Proof. exact program_lemma. Qed.
Print Assumptions C90_programs.

(** Handlers that append no more than the space they are told, receive as much as they like, and leave a handler in
    place never make processMessages go wrong; it can at most go on for ever. *)
Theorem C90_careful :
  forall c coll, static_ok coll = true -> index_safe c (capacity coll) ->
  forall prog h0 ops rs w fuel, (forall log, calm (prog log)) -> bool_free coll ->
  (forall log X h id, zlen X <= capacity coll -> careful coll (prog log) X (Some h) (Some id)) ->
  i_history c coll prog (start coll h0) ops rs w ->
  (exists w' r, i_step fuel c coll prog OpProcess w = Ok (w', r)) \/ i_step fuel c coll prog OpProcess w = Hang.
Proof. exact careful_lemma. Qed.
Print Assumptions C90_careful.

(** A handler that at its first call fetches the rest of a second message from a port, having asked for the space, and
    throws if anything it is told is not as expected (51 bytes altogether, 8 of them its own message, 3 the beginning of the next). *)
Definition port : adapter := Adapter 20 (fun n => (firstn (Z.to_nat n) [10; 20; 30; 3; 4], Z.min n 5)).
Definition fetches : ibehav := fun log =>
  match log with
  | [_] => HAskSpace (fun n => if n =? 40 then
             HReceive port (fun k => HAskSpace (fun n' => HAskLast (fun id => HAskHandler (fun b =>
               HEnd (negb ((k =? 5) && (n' =? 35) && match id with Some 1 => true | _ => false end && b)))))) else HEnd true)
  | _ => HEnd false
  end.
Example C90_case :
  capacity test_basic = 51
  /\ (exists w w', i_step 60 (desktop true) test_basic fetches (OpAppend [1;1;2;10;20;30;3;4;1;1;2]) (start test_basic (Some hd1)) = Ok (w, RetUnit)
      /\ i_step 60 (desktop true) test_basic fetches OpProcess w = Ok (w', RetProcess (Returned 2))
      /\ List.length (w_log w') = 2%nat /\ held w' = []).
Proof.
  split; [vm_compute; reflexivity|]. do 2 eexists. split; [vm_compute; reflexivity|]. split; [vm_compute; reflexivity|].
  split; vm_compute; reflexivity.
Qed.

(** A handler filling the space it is told is careful. *)
Definition fills : ibehav := fun _ => HAskSpace (fun n => HAppend (repeat 0 (Z.to_nat n)) (HEnd false)).
Example C90_fills_careful : (forall log, calm (fills log))
  /\ forall coll log X h id, zlen X <= capacity coll -> careful coll (fills log) X (Some h) (Some id).
Proof.
  split.
  - intros log n. split; [|exact I]. apply Forall_forall. intros x Hx. apply repeat_spec in Hx. subst x. lia.
  - intros coll log X h id HX. cbn. split; [|discriminate]. unfold zlen in *. rewrite repeat_length. lia.
Qed.
