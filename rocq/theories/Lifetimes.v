(** Objects that are destroyed: the receiver keeps the address of its handler
    (tuple-transmission/Receiver.h:66-77), and the application may destroy the handler object at any time. *)
From Verif Require Export Receive.

(** What user handler code may do while it runs: something with the receiver, or destroy an object (perhaps the one
    running).  Not in /repo: user code. *)
Inductive lact := LAct (a : hact) | LEnd (obj : Z).
Record lresult := LResult { lr_acts : list lact; lr_throws : bool }.
Definition lbehav := list delivery -> lresult.

(** The receiver, the calls made, and the objects that no longer exist.  No address is used twice. *)
Record lworld := LWorld { lw_world : world; lw_gone : list Z }.

Definition exists_no_more (gone : list Z) (obj : Z) : bool := existsb (Z.eqb obj) gone.

(** As [run_acts] of Receive.v. *)
Fixpoint l_run_acts (c : config) (coll : collection) (proc : lworld -> outcome (lworld * presult)) (acts : list lact) (l : lworld)
  : outcome (lworld * bool) :=
  match acts with
  | [] => Ok (l, false)
  | LEnd x :: rest => l_run_acts c coll proc rest (LWorld (lw_world l) (x :: lw_gone l))
  | LAct a :: rest =>
      let w := lw_world l in
      do (l', threw) <-
        match a with
        | ASetHandler h => Ok (LWorld (World (rx_set_handler h (w_rx w)) (w_log w)) (lw_gone l), false)
        | AClearHandler => Ok (LWorld (World (rx_clear_handler (w_rx w)) (w_log w)) (lw_gone l), false)
        | AAppend d => do r <- rx_append c coll d (w_rx w); Ok (LWorld (World r (w_log w)) (lw_gone l), false)
        | AProcess => do (l', p) <- proc l; Ok (l', match p with Threw => true | Returned _ => false end)
        end;
      if threw then Ok (l', true) else l_run_acts c coll proc rest l'
  end.

(** As [invoke] of Receive.v (Receiver.h:146 and 168-177): calling an object that exists no more is undefined behaviour. *)
Definition l_invoke (c : config) (coll : collection) (beh : lbehav) (proc : lworld -> outcome (lworld * presult)) (id : Z) (l : lworld)
  : outcome (lworld * bool) :=
  let w := lw_world l in
  match rx_invoker (w_rx w), rx_functor (w_rx w) with
  | Some ty, Some h =>
      if negb (ty =? h_type h) then UB
      else
        do found <- deserialize_message c coll (rx_recv (w_rx w)) id;
        match found with
        | None => Ok (l, false)
        | Some (m, vs) =>
            if exists_no_more (lw_gone l) (h_obj h) then UB
            else
              let log := w_log w ++ [Delivery h m vs] in
              let hr := beh log in
              do (l', threw) <- l_run_acts c coll proc (lr_acts hr) (LWorld (World (w_rx w) log) (lw_gone l));
              Ok (l', threw || lr_throws hr)
        end
  | _, _ => UB
  end.

(** As [process_loop] and [process_messages] of Receive.v, Receiver.h:134-155. *)
Fixpoint l_process_loop (fuel : nat) (c : config) (coll : collection) (beh : lbehav) (n : Z) (l : lworld)
  : outcome (lworld * presult) :=
  match fuel with
  | O => Hang
  | S fuel' =>
      do (found, e) <- check c coll (rx_recv (w_rx (lw_world l)));
      let l := LWorld (w_set_recv e (lw_world l)) (lw_gone l) in
      if negb found then Ok (l, Returned n)
      else
        do id <- er_current_id c e;
        let l := LWorld (w_set_last id (lw_world l)) (lw_gone l) in
        do (l, threw) <-
          l_invoke c coll beh
            (fun l => if rx_has_handler (w_rx (lw_world l)) then l_process_loop fuel' c coll beh 0 l
                      else Ok (l, Returned 0))
            id l;
        if threw then Ok (l, Threw)
        else
          do e <- er_pop_message c coll (rx_recv (w_rx (lw_world l)));
          l_process_loop fuel' c coll beh (trunc 8 (n + 1)) (LWorld (w_set_recv e (lw_world l)) (lw_gone l))
  end.
Definition l_process_messages (fuel : nat) (c : config) (coll : collection) (beh : lbehav) (l : lworld)
  : outcome (lworld * presult) :=
  if negb (rx_has_handler (w_rx (lw_world l))) then Ok (l, Returned 0)
  else l_process_loop fuel c coll beh 0 l.

(** One operation of the application: a call of Receiver's public interface, as [step] of Receive.v (none but
    processMessages uses the handler, Receiver.h:86-155), or the destruction of an object. *)
Inductive lop := LOp (o : op) | LDestroy (obj : Z).
Definition l_step (fuel : nat) (c : config) (coll : collection) (beh : lbehav) (o : lop) (l : lworld) : outcome (lworld * opret) :=
  let w := lw_world l in
  let stays (r : receiver) := LWorld (World r (w_log w)) (lw_gone l) in
  match o with
  | LDestroy x => Ok (LWorld w (x :: lw_gone l), RetUnit)
  | LOp (OpSetHandler h) => Ok (stays (rx_set_handler h (w_rx w)), RetUnit)
  | LOp OpClearHandler => Ok (stays (rx_clear_handler (w_rx w)), RetUnit)
  | LOp (OpAppend d) => do r <- rx_append c coll d (w_rx w); Ok (stays r, RetUnit)
  | LOp (OpReceive a) => do (r, n) <- rx_receive_from c coll a (w_rx w); Ok (stays r, RetCount n)
  | LOp OpProcess => do (l', p) <- l_process_messages fuel c coll beh l; Ok (l', RetProcess p)
  end.
Fixpoint l_run (fuel : nat) (c : config) (coll : collection) (beh : lbehav) (ops : list lop) (l : lworld)
  : outcome (lworld * list opret) :=
  match ops with
  | [] => Ok (l, [])
  | o :: rest =>
      do (l', r) <- l_step fuel c coll beh o l;
      do (l'', rs) <- l_run fuel c coll beh rest l';
      Ok (l'', r :: rs)
  end.
