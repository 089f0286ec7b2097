(** Handlers that ask the receiver for its state, and that fetch further bytes themselves, while they run. *)
From Verif Require Export Receive.

(** A run of a handler's operator() as a program that goes on according to what the receiver's functions return to it
    (tuple-transmission/Receiver.h:86-155).  Not in /repo: user code.  As in Receive.v it is an arbitrary function of the
    calls made so far. *)
Inductive hprog :=
| HEnd (throws : bool)
| HSet (h : handler) (k : hprog)
| HClear (k : hprog)
| HAppend (data : list Z) (k : hprog)
| HReceive (a : adapter) (k : Z -> hprog)
| HProcess (k : Z -> hprog)
| HAskSpace (k : Z -> hprog)
| HAskLast (k : option Z -> hprog)
| HAskHandler (k : bool -> hprog).
Definition ibehav := list delivery -> hprog.

(** Running it: setHandler, clearHandler, appendReceived, receiveFrom, processMessages (an exception from the nested call
    propagates), getBufferAvailableSpace, getLastMessageId, hasHandler (Receiver.h:86-155); true when it throws. *)
Fixpoint i_play (c : config) (coll : collection) (proc : world -> outcome (world * presult)) (p : hprog) (w : world)
  : outcome (world * bool) :=
  match p with
  | HEnd t => Ok (w, t)
  | HSet h k => i_play c coll proc k (World (rx_set_handler h (w_rx w)) (w_log w))
  | HClear k => i_play c coll proc k (World (rx_clear_handler (w_rx w)) (w_log w))
  | HAppend d k => do r <- rx_append c coll d (w_rx w); i_play c coll proc k (World r (w_log w))
  | HReceive a k => do (r, n) <- rx_receive_from c coll a (w_rx w); i_play c coll proc (k n) (World r (w_log w))
  | HProcess k =>
      do (w', p) <- proc w;
      match p with Threw => Ok (w', true) | Returned n => i_play c coll proc (k n) w' end
  | HAskSpace k => i_play c coll proc (k (rx_available coll (w_rx w))) w
  | HAskLast k => i_play c coll proc (k (rx_last_id (w_rx w))) w
  | HAskHandler k => i_play c coll proc (k (rx_has_handler (w_rx w))) w
  end.

(** As [invoke], [process_loop], [process_messages] and [step] of Receive.v, Receiver.h:86-177. *)
Definition i_invoke (c : config) (coll : collection) (prog : ibehav) (proc : world -> outcome (world * presult)) (id : Z) (w : world)
  : outcome (world * bool) :=
  match rx_invoker (w_rx w), rx_functor (w_rx w) with
  | Some ty, Some h =>
      if negb (ty =? h_type h) then UB
      else
        do found <- deserialize_message c coll (rx_recv (w_rx w)) id;
        match found with
        | None => Ok (w, false)
        | Some (m, vs) =>
            let log := w_log w ++ [Delivery h m vs] in
            i_play c coll proc (prog log) (World (w_rx w) log)
        end
  | _, _ => UB
  end.
Fixpoint i_process_loop (fuel : nat) (c : config) (coll : collection) (prog : ibehav) (n : Z) (w : world)
  : outcome (world * presult) :=
  match fuel with
  | O => Hang
  | S fuel' =>
      do (found, e) <- check c coll (rx_recv (w_rx w));
      let w := w_set_recv e w in
      if negb found then Ok (w, Returned n)
      else
        do id <- er_current_id c e;
        let w := w_set_last id w in
        do (w, threw) <-
          i_invoke c coll prog
            (fun w => if rx_has_handler (w_rx w) then i_process_loop fuel' c coll prog 0 w
                      else Ok (w, Returned 0))
            id w;
        if threw then Ok (w, Threw)
        else
          do e <- er_pop_message c coll (rx_recv (w_rx w));
          i_process_loop fuel' c coll prog (trunc 8 (n + 1)) (w_set_recv e w)
  end.
Definition i_process_messages (fuel : nat) (c : config) (coll : collection) (prog : ibehav) (w : world)
  : outcome (world * presult) :=
  if negb (rx_has_handler (w_rx w)) then Ok (w, Returned 0)
  else i_process_loop fuel c coll prog 0 w.
Definition i_step (fuel : nat) (c : config) (coll : collection) (prog : ibehav) (o : op) (w : world)
  : outcome (world * opret) :=
  match o with
  | OpSetHandler h => Ok (World (rx_set_handler h (w_rx w)) (w_log w), RetUnit)
  | OpClearHandler => Ok (World (rx_clear_handler (w_rx w)) (w_log w), RetUnit)
  | OpAppend d => do r <- rx_append c coll d (w_rx w); Ok (World r (w_log w), RetUnit)
  | OpReceive a => do (r, n) <- rx_receive_from c coll a (w_rx w); Ok (World r (w_log w), RetCount n)
  | OpProcess => do (w', p) <- i_process_messages fuel c coll prog w; Ok (w', RetProcess p)
  end.
