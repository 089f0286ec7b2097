(** Interrupts in the midst of processMessages: the code of Receive.v again, each of its calls on the buffer taken apart as in
    Torn.v, with an interrupt routine that appends bytes possible before every access to the buffer's members.

    Simplification: no interrupt while a handler's own code runs (for that see Arrivals.v); std::memcpy reads one byte after
    another. *)
From Verif Require Export Torn Receive.

(** The buffer, and what comes before each of the next accesses. *)
Record tstate := TState { ts_recv : erb; ts_coming : list (list Z) }.

(** A call on the ReceiveBuffer, tuple-transmission/detail/types/EnvelopeReceiveBuffer.h:60-153. *)
Definition t_call {A} (c : config) (coll : collection) (p : micro A) (s : tstate) : outcome (A * tstate) :=
  do r <- t_run c (capacity coll) p (ts_coming s) (er_buf (ts_recv s));
  let '(x, b, coming) := r in
  Ok (x, TState (ERB (er_id (ts_recv s)) b) coming).

(** bufferEmpty(), bufferSize(), bufferPopFront(count), buffer(i); bufferFront() is buffer(0), EnvelopeReceiveBuffer.h:60-153,
    util/VectorSimulator.h:94-100. *)
Definition tc_empty o c coll : tstate -> outcome (bool * tstate) := t_call c coll (t_empty o MReturn).
Definition tc_size o c coll : tstate -> outcome (Z * tstate) := t_call c coll (t_size o (capacity coll) MReturn).
Definition tc_at o c coll i : tstate -> outcome (Z * tstate) :=
  t_call c coll (t_index o c (capacity coll) (to_sz (capacity coll) i) MReturn).
Definition tc_pop o c coll count : tstate -> outcome (Z * tstate) :=
  t_call c coll (t_pop_front o c (capacity coll) (to_sz (capacity coll) count)).

(** The loop skipping to SOH, tuple-transmission/envelopes/Basic.h:71-79, BasicChecksum.h:76-84. *)
Fixpoint tc_skip (fuel : nat) (o : bool) (c : config) (coll : collection) (s : tstate) : outcome tstate :=
  match fuel with
  | O => Hang
  | S fuel' =>
      do (empty, s) <- tc_empty o c coll s;
      if empty : bool then Ok s
      else
        do (x, s) <- tc_at o c coll 0 s;
        if x =? SOH then Ok s
        else
          do (_, s) <- tc_pop o c coll 1 s;
          tc_skip fuel' o c coll s
  end.

(** The checksum loop, BasicChecksum.h:126-130. *)
Fixpoint tc_checksum_loop (n : nat) (o : bool) (c : config) (coll : collection) (i ck : Z) (s : tstate) : outcome (Z * tstate) :=
  match n with
  | O => Ok (ck, s)
  | S n' =>
      do (b, s) <- tc_at o c coll i s;
      do ck' <- tx_byte checksum_tx b ck;
      tc_checksum_loop n' o c coll (i + 1) ck' s
  end.

(** The test of the end of the message, Basic.h:114, BasicChecksum.h:119-141. *)
Definition tc_trailer (o : bool) (c : config) (coll : collection) (len : Z) (s : tstate) : outcome (bool * tstate) :=
  match mc_env coll with
  | Basic =>
      do (b1, s) <- tc_at o c coll (len - 2) s;
      if negb (b1 =? ETX) then Ok (false, s)
      else
        do (b2, s) <- tc_at o c coll (len - 1) s;
        Ok (b2 =? EOT, s)
  | BasicChecksum =>
      do (b1, s) <- tc_at o c coll (len - 3) s;
      if negb (b1 =? ETX) then Ok (false, s)
      else
        do (b2, s) <- tc_at o c coll (len - 1) s;
        if negb (b2 =? EOT) then Ok (false, s)
        else
          do (ck, s) <- tc_checksum_loop (Z.to_nat (len - 2)) o c coll 0 checksum_init s;
          do (stated, s) <- tc_at o c coll (len - 2) s;
          Ok (ck =? stated, s)
  end.

(** popAndRetry, tuple-transmission/detail/bases/EnvelopeBase.h:77-85; the first call only with assertions. *)
Definition tc_pop_and_retry (o : bool) (c : config) (coll : collection) (check : tstate -> outcome (bool * tstate)) (s : tstate)
  : outcome (bool * tstate) :=
  do s <- match mode c with
          | Disabled => Ok s
          | _ => do (empty, s) <- tc_empty o c coll s; do _ <- assert_ c (negb empty); Ok s
          end;
  do (empty, s) <- tc_empty o c coll s;
  if empty : bool then Ok (false, s)
  else
    do (_, s) <- tc_pop o c coll 1 s;
    check s.

(** checkBufferForMessage, Basic.h:69-123, BasicChecksum.h:74-147; the current id is no member of the ReceiveBuffer. *)
Fixpoint tc_check (fuel : nat) (o : bool) (c : config) (coll : collection) (s : tstate) : outcome (bool * tstate) :=
  match fuel with
  | O => Hang
  | S fuel' =>
      do s <- tc_skip fuel o c coll s;
      do (n, s) <- tc_size o c coll s;
      if n <? 2 then Ok (false, s)
      else
        do (id, s) <- tc_at o c coll 1 s;
        let s := TState (er_set_id coll id (ts_recv s)) (ts_coming s) in
        if negb (er_id_valid (ts_recv s)) then tc_pop_and_retry o c coll (tc_check fuel' o c coll) s
        else
          do (n, s) <- tc_size o c coll s;
          if n <? 3 then Ok (false, s)
          else
            do (b2, s) <- tc_at o c coll 2 s;
            if negb (b2 =? STX) then tc_pop_and_retry o c coll (tc_check fuel' o c coll) s
            else
              do len <- er_message_length c coll (ts_recv s);
              do (n, s) <- tc_size o c coll s;
              if n <? len then Ok (false, s)
              else
                do (ok, s) <- tc_trailer o c coll len s;
                if ok : bool then Ok (true, s)
                else tc_pop_and_retry o c coll (tc_check fuel' o c coll) s
  end.

(** An interrupt before an access through an iterator. *)
Definition tc_interrupt (c : config) (coll : collection) (s : tstate) : outcome tstate :=
  do b <- t_interrupt c (capacity coll) (hd [] (ts_coming s)) (er_buf (ts_recv s));
  Ok (TState (ERB (er_id (ts_recv s)) b) (tl (ts_coming s))).

(** [n] bytes of the array from [pos], through an iterator; Unbuffer<T>::apply,
    tuple-transmission/serializers/BitwiseCopySerialization.h:49-68. *)
Fixpoint tc_bytes (n : nat) (c : config) (coll : collection) (pos : Z) (s : tstate) : outcome (list Z * tstate) :=
  match n with
  | O => Ok ([], s)
  | S n' =>
      do s <- tc_interrupt c coll s;
      let x := arr_get (rb_contents (er_buf (ts_recv s))) pos in
      do (l, s) <- tc_bytes n' c coll (pos + 1) s;
      Ok (x :: l, s)
  end.

(** Deserialize<TypeIter, Context>::apply, tuple-transmission/detail/operations/DeserializeToFusion.h:64-94. *)
Fixpoint tc_fields (c : config) (coll : collection) (ts : list fty) (pos : Z) (acc : list value) (s : tstate)
  : outcome (list value * tstate) :=
  match ts with
  | [] => Ok (acc, s)
  | t :: rest =>
      if range_ok (capacity coll) pos (pos + Z.of_nat (fsize t)) then
        do (l, s) <- tc_bytes (fsize t) c coll pos s;
        match decode c t l with
        | Some v => tc_fields c coll rest (pos + Z.of_nat (fsize t)) (acc ++ [v]) s
        | None => UB
        end
      else UB
  end.

(** getDataIterator(), which reads one member, and deserializeAndInvoke up to the call, EnvelopeReceiveBuffer.h:100-102,
    util/ReceiveBuffer.h:232-234, tuple-transmission/detail/operations/DeserializeAndInvoke.h:39-45, DeserializeToFusion.h:96-121. *)
Definition tc_deserialize (c : config) (coll : collection) (id : Z) (s : tstate) : outcome (option (mtype * list value) * tstate) :=
  do s <- tc_interrupt c coll s;
  let pos := rb_begin (er_buf (ts_recv s)) + data_offset (mc_env coll) in
  if capacity coll <? pos then UB
  else
  apply_at (mc_types coll) id
    (fun m (_ : outcome (option (mtype * list value) * tstate)) =>
       do (vs, s) <- tc_fields c coll (mt_fields m) pos [] s;
       Ok (Some (m, vs), s))
    (Ok (None, s)).

(** popMessage(), EnvelopeReceiveBuffer.h:106-110. *)
Definition tc_pop_message (fuel : nat) (o : bool) (c : config) (coll : collection) (s : tstate) : outcome tstate :=
  do s <- match mode c with
          | Disabled => Ok s
          | Aborting => do (found, s) <- tc_check fuel o c coll s; if found : bool then Ok s else AssertFail
          | Reporting => do (_, s) <- tc_check fuel o c coll s; Ok s
          end;
  do len <- er_message_length c coll (ts_recv s);
  do (_, s) <- tc_pop o c coll len s;
  Ok (TState (ERB None (er_buf (ts_recv s))) (ts_coming s)).

(** The call through the invoker, Receiver.h:146 and 168-177, as [invoke]; what has not yet come. *)
Definition t_invoke (c : config) (coll : collection) (beh : hbehav) (proc : world -> outcome (world * presult)) (id : Z)
           (w : world) (coming : list (list Z)) : outcome (world * bool * list (list Z)) :=
  match rx_invoker (w_rx w), rx_functor (w_rx w) with
  | Some ty, Some h =>
      if negb (ty =? h_type h) then UB
      else
        do (found, s) <- tc_deserialize c coll id (TState (rx_recv (w_rx w)) coming);
        let w := w_set_recv (ts_recv s) w in
        match found with
        | None => Ok (w, false, ts_coming s)
        | Some (m, vs) =>
            let log := w_log w ++ [Delivery h m vs] in
            let hr := beh log in
            do (w', threw) <- run_acts c coll proc (hr_acts hr) (World (w_rx w) log);
            Ok (w', threw || hr_throws hr, ts_coming s)
        end
  | _, _ => UB
  end.

(** The loop of processMessages, tuple-transmission/Receiver.h:139-153; [fuel] for its rounds, [steps] for those of the check; what
    has not yet come at the end. *)
Fixpoint t_loop (fuel steps : nat) (o : bool) (c : config) (coll : collection) (beh : hbehav) (n : Z) (w : world)
         (coming : list (list Z)) : outcome (world * presult * list (list Z)) :=
  match fuel with
  | O => Hang
  | S fuel' =>
      do (found, s) <- tc_check steps o c coll (TState (rx_recv (w_rx w)) coming);
      let w := w_set_recv (ts_recv s) w in
      if negb found then Ok (w, Returned n, ts_coming s)
      else
        do id <- er_current_id c (ts_recv s);
        let w := w_set_last id w in
        do r <-
          t_invoke c coll beh
            (fun w => if rx_has_handler (w_rx w) then process_loop fuel' c coll beh 0 w else Ok (w, Returned 0))
            id w (ts_coming s);
        let '(w, threw, coming) := r in
        if threw : bool then Ok (w, Threw, coming)
        else
          do s <- tc_pop_message steps o c coll (TState (rx_recv (w_rx w)) coming);
          t_loop fuel' steps o c coll beh (trunc 8 (n + 1)) (w_set_recv (ts_recv s) w) (ts_coming s)
  end.

(** processMessages, Receiver.h:134-155. *)
Definition t_process (fuel steps : nat) (o : bool) (c : config) (coll : collection) (beh : hbehav) (w : world) (coming : list (list Z))
  : outcome (world * presult * list (list Z)) :=
  if negb (rx_has_handler (w_rx w)) then Ok (w, Returned 0, coming)
  else t_loop fuel steps o c coll beh 0 w coming.
