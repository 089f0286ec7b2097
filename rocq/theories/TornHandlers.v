(** Interrupts and the handler: processMessages called by an interrupt in the midst of setHandler or clearHandler, and setHandler or
    clearHandler called by an interrupt in the midst of processMessages.

    Simplifications: the members are read and written where the source does so, each access is indivisible (a pointer is read and
    written in one piece), and the interrupt routine is not itself interrupted. *)
From Verif Require Export TornAppend.

(** Writing _invoker and _functorPointer, tuple-transmission/Receiver.h:186-195. *)
Definition h_set_invoker (x : option Z) (w : world) : world :=
  World (Receiver (rx_recv (w_rx w)) x (rx_functor (w_rx w)) (rx_last (w_rx w))) (w_log w).
Definition h_set_functor (x : option handler) (w : world) : world :=
  World (Receiver (rx_recv (w_rx w)) (rx_invoker (w_rx w)) x (rx_last (w_rx w))) (w_log w).

(** setHandler(h), tuple-transmission/Receiver.h:87-91 ([Some h]), and clearHandler, lines 94-97 ([None]): two writes, the routine
    possible before each; what it returned. *)
Definition h_change (fuel : nat) (c : config) (coll : collection) (beh : hbehav) (to : option handler) (coming : list bool) (w : world)
  : outcome (world * list presult) :=
  do (w1, ps) <- w_interrupt fuel c coll beh (hd false coming) w;
  do (w2, qs) <- w_interrupt fuel c coll beh (hd false (tl coming)) (h_set_invoker (option_map h_type to) w1);
  Ok (h_set_functor to w2, ps ++ qs).

(** An interrupt routine that calls setHandler and clearHandler some times. *)
Definition h_changes (tos : list (option handler)) (w : world) : world :=
  fold_left (fun w to => h_set_functor to (h_set_invoker (option_map h_type to) w)) tos w.

(** ( *_invoker)(id, _functorPointer, iterator), tuple-transmission/Receiver.h:146: the two members are read in an order the language
    does not lay down ([o]: _invoker first), the routine possible before each.  Then as Receive.invoke, with the values read. *)
Definition h_invoke (o : bool) (c : config) (coll : collection) (beh : hbehav)
           (proc : world -> outcome (world * presult)) (first second : list (option handler)) (id : Z) (w : world)
  : outcome (world * bool) :=
  let w1 := h_changes first w in
  let w2 := h_changes second w1 in
  match rx_invoker (w_rx (if o then w1 else w2)), rx_functor (w_rx (if o then w2 else w1)) with
  | Some ty, Some h =>
      if negb (ty =? h_type h) then UB
      else
        do found <- deserialize_message c coll (rx_recv (w_rx w2)) id;
        match found with
        | None => Ok (w2, false)
        | Some (m, vs) =>
            let log := w_log w2 ++ [Delivery h m vs] in
            let hr := beh log in
            do (w', threw) <- run_acts c coll proc (hr_acts hr) (World (w_rx w2) log);
            Ok (w', threw || hr_throws hr)
        end
  | _, _ => UB
  end.

(** The loop of processMessages, tuple-transmission/Receiver.h:139-153, as Receive.process_loop; [coming] are the calls the routine
    makes before the reads of the two members.  A call of processMessages made by a handler is not interrupted. *)
Fixpoint h_loop (fuel : nat) (o : bool) (c : config) (coll : collection) (beh : hbehav) (n : Z) (coming : list (list (option handler)))
         (w : world) : outcome (world * presult) :=
  match fuel with
  | O => Hang
  | S fuel' =>
      do (found, e) <- check c coll (rx_recv (w_rx w));
      let w := w_set_recv e w in
      if negb found then Ok (w, Returned n)
      else
        do id <- er_current_id c e;
        let w := w_set_last id w in
        do (w, threw) <-
          h_invoke o c coll beh
            (fun w => if rx_has_handler (w_rx w) then process_loop fuel' c coll beh 0 w
                      else Ok (w, Returned 0))
            (hd [] coming) (hd [] (tl coming)) id w;
        if threw then Ok (w, Threw)
        else
          do e <- er_pop_message c coll (rx_recv (w_rx w));
          h_loop fuel' o c coll beh (trunc 8 (n + 1)) (tl (tl coming)) (w_set_recv e w)
  end.

(** processMessages, tuple-transmission/Receiver.h:134-155; the first entry of [coming] comes before hasHandler reads
    _functorPointer (lines 100-102). *)
Definition h_process (fuel : nat) (o : bool) (c : config) (coll : collection) (beh : hbehav) (coming : list (list (option handler)))
           (w : world) : outcome (world * presult) :=
  let w := h_changes (hd [] coming) w in
  if negb (rx_has_handler (w_rx w)) then Ok (w, Returned 0)
  else h_loop fuel o c coll beh 0 (tl coming) w.
