(** Property theorems: lifetimes of handlers. *)
From Verif Require Import LifetimeLemmas Runs.

(** C89: the contract of the constructor's comment suffices: as long as only objects are destroyed that the receiver is
    never given as handlers, wherever that happens, also inside handlers, and whatever these do, every call does what it
    does without destructions. *)
Theorem C89_outlives :
  forall fuel c coll beh (destroyed : Z -> Prop) ops h0 w' rs,
  (forall x, In (LDestroy x) ops -> destroyed x) ->
  (forall log x, In (LEnd x) (lr_acts (beh log)) -> destroyed x) ->
  (forall h, h0 = Some h -> ~ destroyed (h_obj h)) ->
  (forall h, In (LOp (OpSetHandler h)) ops -> ~ destroyed (h_obj h)) ->
  (forall log h, In (LAct (ASetHandler h)) (lr_acts (beh log)) -> ~ destroyed (h_obj h)) ->
  run fuel c coll (immortal beh) (ops_of ops) (start coll h0) = Ok (w', rs) ->
  exists gone rs', l_run fuel c coll beh ops (LWorld (start coll h0) []) = Ok (LWorld w' gone, rs') /\ rets_of ops rs' = rs.
Proof. exact outlives_lemma. Qed.
Print Assumptions C89_outlives.

(** Exactly: processMessages goes as without destructions if each handler it calls exists at that moment, and is
    undefined if one does not. *)
Theorem C89_process :
  forall fuel c coll beh w gone w' r, tame (immortal beh) ->
  step fuel c coll (immortal beh) OpProcess w = Ok (w', r) ->
  (to_the_living beh gone (w_log w) (new_calls w w') ->
     exists gone', l_step fuel c coll beh (LOp OpProcess) (LWorld w gone) = Ok (LWorld w' gone', r)
       /\ forall x, In x gone' <-> In x (gone_after beh gone (w_log w) (new_calls w w')))
  /\ (~ to_the_living beh gone (w_log w) (new_calls w w') ->
     l_step fuel c coll beh (LOp OpProcess) (LWorld w gone) = UB).
Proof. exact lifetime_process_lemma. Qed.
Print Assumptions C89_process.

(** So handlers that have been replaced or cleared may be destroyed: it is enough that the one in place exists ... *)
Theorem C89_replaced :
  forall c coll, static_ok coll = true -> index_safe c (capacity coll) ->
  forall beh h0 ops S rs w gone w' r fuel, tame (immortal beh) ->
  history c coll (immortal beh) (start coll h0) ops S rs w ->
  (forall h, rx_functor (w_rx w) = Some h -> ~ In (h_obj h) gone) ->
  (forall log x, ~ In (LEnd x) (lr_acts (beh log))) ->
  (forall log h, In (LAct (ASetHandler h)) (lr_acts (beh log)) -> ~ In (h_obj h) gone) ->
  step fuel c coll (immortal beh) OpProcess w = Ok (w', r) ->
  exists gone', l_step fuel c coll beh (LOp OpProcess) (LWorld w gone) = Ok (LWorld w' gone', r).
Proof. exact replaced_lemma. Qed.
Print Assumptions C89_replaced.

(** ... no other function uses the handler ... *)
Theorem C89_other_calls :
  forall fuel c coll beh o w gone, o <> OpProcess ->
  l_step fuel c coll beh (LOp o) (LWorld w gone) = do (w', r) <- step fuel c coll (immortal beh) o w; Ok (LWorld w' gone, r).
Proof. exact other_calls_lemma. Qed.
Print Assumptions C89_other_calls.

(** ... nor does processMessages when no message is complete ... *)
Theorem C89_idle :
  forall c coll, static_ok coll = true -> index_safe c (capacity coll) ->
  forall beh h0 ops S rs w gone r fuel, tame (immortal beh) ->
  history c coll (immortal beh) (start coll h0) ops S rs w ->
  Scan coll (held w) [] r -> (0 < fuel)%nat ->
  exists w', l_step fuel c coll beh (LOp OpProcess) (LWorld w gone) = Ok (LWorld w' gone, RetProcess (Returned 0))
    /\ step fuel c coll (immortal beh) OpProcess w = Ok (w', RetProcess (Returned 0)) /\ w_log w' = w_log w.
Proof. exact idle_process_lemma. Qed.
Print Assumptions C89_idle.

(** ... but with the handler in place destroyed, hasHandler still answers true and the next complete message is
    undefined behaviour. *)
Theorem C89_dangling_refuted :
  forall c coll, static_ok coll = true -> index_safe c (capacity coll) ->
  forall beh h0 ops S rs w gone h fd ms r fuel, tame (immortal beh) ->
  history c coll (immortal beh) (start coll h0) ops S rs w ->
  rx_functor (w_rx w) = Some h -> In (h_obj h) gone -> Scan coll (held w) (fd :: ms) r -> (0 < fuel)%nat ->
  rx_has_handler (w_rx w) = true /\ l_step fuel c coll beh (LOp OpProcess) (LWorld w gone) = UB.
Proof. exact dangling_lemma. Qed.
Print Assumptions C89_dangling_refuted.

(** A handler that destroys itself when called: nothing is wrong if the message is the only one, or if it first installs
    another handler; undefined with a second message. *)
Definition once : lbehav := fun _ => LResult [LEnd 1] false.
Definition hands_over : lbehav := fun log =>
  match log with [_] => LResult [LAct (ASetHandler hd2); LEnd 1] false | _ => LResult [] false end.
Definition one_message := [1;1;2;10;20;30;3;4].
Example C89_case :
  (exists w, l_run 60 (desktop true) test_basic once [LOp (OpAppend one_message); LOp OpProcess; LOp OpClearHandler]
       (LWorld (start test_basic (Some hd1)) []) = Ok (LWorld w [1], [RetUnit; RetProcess (Returned 1); RetUnit]))
  /\ l_run 60 (desktop true) test_basic once [LOp (OpAppend (one_message ++ one_message)); LOp OpProcess]
       (LWorld (start test_basic (Some hd1)) []) = UB
  /\ (exists w, l_run 60 (desktop true) test_basic hands_over [LOp (OpAppend (one_message ++ one_message)); LOp OpProcess]
       (LWorld (start test_basic (Some hd1)) []) = Ok (LWorld w [1], [RetUnit; RetProcess (Returned 2)])
       /\ map d_handler (w_log w) = [hd1; hd2])
  /\ l_run 60 (desktop true) test_basic (fun _ => LResult [] false) [LDestroy 1; LOp (OpAppend one_message); LOp OpProcess]
       (LWorld (start test_basic (Some hd1)) []) = UB.
Proof.
  split; [eexists; vm_compute; reflexivity|]. split; [vm_compute; reflexivity|].
  split; [eexists; split; [vm_compute; reflexivity|]; vm_compute; reflexivity|]. vm_compute. reflexivity.
Qed.
