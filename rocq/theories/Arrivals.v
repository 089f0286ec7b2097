(** Bytes that arrive while processMessages is at work: an interrupt routine, or another thread, that calls appendReceived
    between two of the calls that processMessages makes on its buffer.  The code of Receive.v again, with such an arrival
    possible before every call on the EnvelopeReceiveBuffer and before every field that is read.

    Simplification: a call on the EnvelopeReceiveBuffer and the reading of one field are not themselves interrupted (for that
    see Torn.v). *)
From Verif Require Export Receive.

(** Where processMessages is: anywhere else; between having found the buffer empty and asking for its size
    (tuple-transmission/envelopes/Basic.h:71-81, BasicChecksum.h:76-86); between taking the iterator to the data and calling the
    handler (tuple-transmission/Receiver.h:146). *)
Inductive moment := Between | Emptied | Reading.

(** What arrives at a moment, getBufferAvailableSpace() being the number given.  Not in /repo: user code. *)
Definition arrival := moment -> Z -> list Z.

(** The buffer, what will arrive at the next moments (nothing any more at the end of the list), the bytes that have arrived. *)
Record fbuf := FBuf { fb_recv : erb; fb_coming : list arrival; fb_arrived : list Z }.

(** appendReceived, Receiver.h:111-114. *)
Definition arrive (c : config) (coll : collection) (p : moment) (s : fbuf) : outcome fbuf :=
  match fb_coming s with
  | [] => Ok s
  | f :: rest =>
      let d := f p (er_available coll (fb_recv s)) in
      do e <- er_append c coll d (fb_recv s);
      Ok (FBuf e rest (fb_arrived s ++ d))
  end.

(** A call on the buffer, after an arrival. *)
Definition call_after {A} (c : config) (coll : collection) (p : moment) (f : erb -> outcome (A * erb)) (s : fbuf)
  : outcome (A * fbuf) :=
  do s <- arrive c coll p s;
  do (x, e) <- f (fb_recv s);
  Ok (x, FBuf e (fb_coming s) (fb_arrived s)).

(** bufferEmpty(), bufferSize(), bufferFront(), bufferPopFront(count), buffer(i), setCurrentMessageId(id),
    isCurrentMessageIdValid(), getCurrentMessageId(), getMessageLength(),
    tuple-transmission/detail/types/EnvelopeReceiveBuffer.h:60-203. *)
Definition a_empty c coll := call_after c coll Between (fun e => Ok (rb_empty (er_buf e), e)).
Definition a_size c coll p := call_after c coll p (fun e => Ok (rb_size (capacity coll) (er_buf e), e)).
Definition a_front c coll := call_after c coll Between (fun e => do x <- rb_front c (capacity coll) (er_buf e); Ok (x, e)).
Definition a_pop c coll count := call_after c coll Between (fun e => do e <- er_pop_front c coll count e; Ok (tt, e)).
Definition a_at c coll i := call_after c coll Between (fun e => do x <- er_buffer c coll e i; Ok (x, e)).
Definition a_set_id c coll id := call_after c coll Between (fun e => Ok (tt, er_set_id coll id e)).
Definition a_id_valid c coll := call_after c coll Between (fun e => Ok (er_id_valid e, e)).
Definition a_id c coll := call_after c coll Between (fun e => do id <- er_current_id c e; Ok (id, e)).
Definition a_length c coll := call_after c coll Between (fun e => do n <- er_message_length c coll e; Ok (n, e)).

(** The loop skipping to SOH, Basic.h:71-79, BasicChecksum.h:76-84; the moment after it. *)
Fixpoint a_skip (fuel : nat) (c : config) (coll : collection) (s : fbuf) : outcome (moment * fbuf) :=
  match fuel with
  | O => Hang
  | S fuel' =>
      do (empty, s) <- a_empty c coll s;
      if empty : bool then Ok (Emptied, s)
      else
        do (x, s) <- a_front c coll s;
        if x =? SOH then Ok (Between, s)
        else
          do (_, s) <- a_pop c coll 1 s;
          a_skip fuel' c coll s
  end.

(** The checksum loop, BasicChecksum.h:126-130. *)
Fixpoint a_checksum_loop (n : nat) (c : config) (coll : collection) (i ck : Z) (s : fbuf) : outcome (Z * fbuf) :=
  match n with
  | O => Ok (ck, s)
  | S n' =>
      do (b, s) <- a_at c coll i s;
      do ck' <- tx_byte checksum_tx b ck;
      a_checksum_loop n' c coll (i + 1) ck' s
  end.

(** The test of the end of the message, Basic.h:114, BasicChecksum.h:119-141. *)
Definition a_trailer (c : config) (coll : collection) (len : Z) (s : fbuf) : outcome (bool * fbuf) :=
  match mc_env coll with
  | Basic =>
      do (b1, s) <- a_at c coll (len - 2) s;
      if negb (b1 =? ETX) then Ok (false, s)
      else
        do (b2, s) <- a_at c coll (len - 1) s;
        Ok (b2 =? EOT, s)
  | BasicChecksum =>
      do (b1, s) <- a_at c coll (len - 3) s;
      if negb (b1 =? ETX) then Ok (false, s)
      else
        do (b2, s) <- a_at c coll (len - 1) s;
        if negb (b2 =? EOT) then Ok (false, s)
        else
          do (ck, s) <- a_checksum_loop (Z.to_nat (len - 2)) c coll 0 checksum_init s;
          do (stated, s) <- a_at c coll (len - 2) s;
          Ok (ck =? stated, s)
  end.

(** popAndRetry, tuple-transmission/detail/bases/EnvelopeBase.h:77-85; the first call only with assertions. *)
Definition a_pop_and_retry (c : config) (coll : collection) (check : fbuf -> outcome (bool * fbuf)) (s : fbuf)
  : outcome (bool * fbuf) :=
  do s <- match mode c with
          | Disabled => Ok s
          | _ => do (empty, s) <- a_empty c coll s; do _ <- assert_ c (negb empty); Ok s
          end;
  do (empty, s) <- a_empty c coll s;
  if empty : bool then Ok (false, s)
  else
    do (_, s) <- a_pop c coll 1 s;
    check s.

(** checkBufferForMessage, Basic.h:69-123, BasicChecksum.h:74-147. *)
Fixpoint a_check (fuel : nat) (c : config) (coll : collection) (s : fbuf) : outcome (bool * fbuf) :=
  match fuel with
  | O => Hang
  | S fuel' =>
      do (p, s) <- a_skip fuel c coll s;
      do (n, s) <- a_size c coll p s;
      if n <? 2 then Ok (false, s)
      else
        do (id, s) <- a_at c coll 1 s;
        do (_, s) <- a_set_id c coll id s;
        do (valid, s) <- a_id_valid c coll s;
        if negb valid then a_pop_and_retry c coll (a_check fuel' c coll) s
        else
          do (n, s) <- a_size c coll Between s;
          if n <? 3 then Ok (false, s)
          else
            do (b2, s) <- a_at c coll 2 s;
            if negb (b2 =? STX) then a_pop_and_retry c coll (a_check fuel' c coll) s
            else
              do (len, s) <- a_length c coll s;
              do (n, s) <- a_size c coll Between s;
              if n <? len then Ok (false, s)
              else
                do (ok, s) <- a_trailer c coll len s;
                if ok : bool then Ok (true, s)
                else a_pop_and_retry c coll (a_check fuel' c coll) s
  end.

(** popMessage(), EnvelopeReceiveBuffer.h:106-110. *)
Definition a_pop_message (fuel : nat) (c : config) (coll : collection) (s : fbuf) : outcome fbuf :=
  do s <- match mode c with
          | Disabled => Ok s
          | Aborting => do (found, s) <- a_check fuel c coll s; if found : bool then Ok s else AssertFail
          | Reporting => do (_, s) <- a_check fuel c coll s; Ok s
          end;
  do (len, s) <- a_length c coll s;
  do (_, s) <- a_pop c coll len s;
  Ok (FBuf (ERB None (er_buf (fb_recv s))) (fb_coming s) (fb_arrived s)).

(** Deserialize<TypeIter, Context>::apply, tuple-transmission/detail/operations/DeserializeToFusion.h:64-94: the iterator is a
    position in the array. *)
Fixpoint a_fields (c : config) (coll : collection) (ts : list fty) (pos : Z) (acc : list value) (s : fbuf)
  : outcome (list value * fbuf) :=
  match ts with
  | [] => Ok (acc, s)
  | t :: rest =>
      do (v, s) <- call_after c coll Reading (fun e => do v <- unbuffer c (capacity coll) (rb_contents (er_buf e)) t pos; Ok (v, e)) s;
      a_fields c coll rest (pos + Z.of_nat (fsize t)) (acc ++ [v]) s
  end.

(** getDataIterator() and deserializeAndInvoke up to the call, EnvelopeReceiveBuffer.h:100-102,
    tuple-transmission/detail/operations/DeserializeAndInvoke.h:39-45, DeserializeToFusion.h:96-121. *)
Definition a_deserialize (c : config) (coll : collection) (id : Z) (s : fbuf)
  : outcome (option (mtype * list value) * fbuf) :=
  do (pos, s) <- call_after c coll Between (fun e => Ok (rb_begin (er_buf e) + data_offset (mc_env coll), e)) s;
  if capacity coll <? pos then UB
  else
  apply_at (mc_types coll) id
    (fun m (_ : outcome (option (mtype * list value) * fbuf)) =>
       do (vs, s) <- a_fields c coll (mt_fields m) pos [] s;
       Ok (Some (m, vs), s))
    (Ok (None, s)).

(** The receiver, the handler calls, what will arrive and what has arrived. *)
Record aworld := AWorld { aw_world : world; aw_coming : list arrival; aw_arrived : list Z }.

(** Code that works on the receiver's buffer. *)
Definition on_buffer {A} (f : fbuf -> outcome (A * fbuf)) (w : aworld) : outcome (A * aworld) :=
  do (x, s) <- f (FBuf (rx_recv (w_rx (aw_world w))) (aw_coming w) (aw_arrived w));
  Ok (x, AWorld (w_set_recv (fb_recv s) (aw_world w)) (fb_coming s) (fb_arrived s)).

(** A handler's actions, as [run_acts]; bytes arrive before each. *)
Fixpoint a_acts (c : config) (coll : collection) (proc : aworld -> outcome (aworld * presult)) (acts : list hact) (w : aworld)
  : outcome (aworld * bool) :=
  match acts with
  | [] => Ok (w, false)
  | a :: rest =>
      do (_, w) <- on_buffer (call_after c coll Between (fun e => Ok (tt, e))) w;
      let same := fun v => AWorld v (aw_coming w) (aw_arrived w) in
      let rx := w_rx (aw_world w) in
      let log := w_log (aw_world w) in
      do (w, threw) <-
        match a with
        | ASetHandler h => Ok (same (World (rx_set_handler h rx) log), false)
        | AClearHandler => Ok (same (World (rx_clear_handler rx) log), false)
        | AAppend d => do r <- rx_append c coll d rx; Ok (same (World r log), false)
        | AProcess => do (w', p) <- proc w; Ok (w', match p with Threw => true | Returned _ => false end)
        end;
      if threw : bool then Ok (w, true) else a_acts c coll proc rest w
  end.

(** The call through the invoker, Receiver.h:146 and 168-177, as [invoke]. *)
Definition a_invoke (c : config) (coll : collection) (beh : hbehav) (proc : aworld -> outcome (aworld * presult)) (id : Z)
           (w : aworld) : outcome (aworld * bool) :=
  match rx_invoker (w_rx (aw_world w)), rx_functor (w_rx (aw_world w)) with
  | Some ty, Some h =>
      if negb (ty =? h_type h) then UB
      else
        do (found, w) <- on_buffer (a_deserialize c coll id) w;
        match found with
        | None => Ok (w, false)
        | Some (m, vs) =>
            let log := w_log (aw_world w) ++ [Delivery h m vs] in
            let hr := beh log in
            do (w', threw) <- a_acts c coll proc (hr_acts hr) (AWorld (World (w_rx (aw_world w)) log) (aw_coming w) (aw_arrived w));
            Ok (w', threw || hr_throws hr)
        end
  | _, _ => UB
  end.

(** The loop of processMessages, Receiver.h:139-153. *)
Fixpoint a_loop (fuel : nat) (c : config) (coll : collection) (beh : hbehav) (n : Z) (w : aworld) : outcome (aworld * presult) :=
  match fuel with
  | O => Hang
  | S fuel' =>
      do (found, w) <- on_buffer (a_check fuel c coll) w;
      if negb found then Ok (w, Returned n)
      else
        do (id, w) <- on_buffer (a_id c coll) w;
        let w := AWorld (w_set_last id (aw_world w)) (aw_coming w) (aw_arrived w) in
        do (w, threw) <-
          a_invoke c coll beh
            (fun w => if rx_has_handler (w_rx (aw_world w)) then a_loop fuel' c coll beh 0 w else Ok (w, Returned 0))
            id w;
        if threw : bool then Ok (w, Threw)
        else
          do (_, w) <- on_buffer (fun s => do s <- a_pop_message fuel c coll s; Ok (tt, s)) w;
          a_loop fuel' c coll beh (trunc 8 (n + 1)) w
  end.

(** processMessages, Receiver.h:134-155. *)
Definition a_process (fuel : nat) (c : config) (coll : collection) (beh : hbehav) (w : aworld) : outcome (aworld * presult) :=
  if negb (rx_has_handler (w_rx (aw_world w))) then Ok (w, Returned 0)
  else a_loop fuel c coll beh 0 w.
