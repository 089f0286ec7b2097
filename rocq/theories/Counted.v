(** How often elements of the receive buffer are accessed: the functions of [Receive.v] again, each
    returning beside its result the number of calls of ReceiveBuffer::operator[]
    (util/ReceiveBuffer.h:141-152; front() calls it, util/VectorSimulator.h:94-108) it makes.
    Nothing else differs: the results are those of [Receive.v] (C86). *)
From Verif Require Export Receive.

(** A result and the number of accesses made. *)
Definition counted (A : Type) : Type := (outcome A * Z)%type.

(** No access. *)
Definition cret {A} (o : outcome A) : counted A := (o, 0).

(** One call of operator[]. *)
Definition access {A} (o : outcome A) : counted A := (o, 1).

(** Sequence: accesses add up; after a failure nothing more is done. *)
Definition cbind {A B} (m : counted A) (f : A -> counted B) : counted B :=
  match m with
  | (Ok a, n) => let '(r, k) := f a in (r, n + k)
  | (AssertFail, n) => (AssertFail, n)
  | (UB, n) => (UB, n)
  | (Hang, n) => (Hang, n)
  | (Rejected, n) => (Rejected, n)
  end.

(** bufferFront(), tuple-transmission/detail/types/EnvelopeReceiveBuffer.h:125-137. *)
Definition c_front (c : config) (coll : collection) (e : erb) : counted Z :=
  access (rb_front c (capacity coll) (er_buf e)).

(** buffer(i), EnvelopeReceiveBuffer.h:146-153. *)
Definition c_buffer (c : config) (coll : collection) (e : erb) (i : Z) : counted Z :=
  access (er_buffer c coll e i).

(** bufferPopFront(count), EnvelopeReceiveBuffer.h:141-143: pop_front copies the front element,
    util/ReceiveBuffer.h:219. *)
Definition c_pop_front (c : config) (coll : collection) (count : Z) (e : erb) : counted erb :=
  access (er_pop_front c coll count e).

(** The loop skipping to SOH, tuple-transmission/envelopes/Basic.h:71-79 and BasicChecksum.h:76-84. *)
Fixpoint c_skip (fuel : nat) (c : config) (coll : collection) (e : erb) : counted erb :=
  match fuel with
  | O => cret Hang
  | S fuel' =>
      if rb_empty (er_buf e) then cret (Ok e)
      else
        cbind (c_front c coll e) (fun f =>
        if f =? SOH then cret (Ok e)
        else cbind (c_pop_front c coll 1 e) (fun e' => c_skip fuel' c coll e'))
  end.

(** Trailer test of Basic, Basic.h:114. *)
Definition c_basic_trailer (c : config) (coll : collection) (e : erb) (len : Z) : counted bool :=
  cbind (c_buffer c coll e (len - 2)) (fun b1 =>
  if negb (b1 =? ETX) then cret (Ok false)
  else cbind (c_buffer c coll e (len - 1)) (fun b2 => cret (Ok (b2 =? EOT)))).

(** The checksum loop, BasicChecksum.h:126-130. *)
Fixpoint c_checksum_loop (n : nat) (c : config) (coll : collection) (e : erb) (i ck : Z) : counted Z :=
  match n with
  | O => cret (Ok ck)
  | S n' =>
      cbind (c_buffer c coll e i) (fun b =>
      cbind (cret (tx_byte checksum_tx b ck)) (fun ck' =>
      c_checksum_loop n' c coll e (i + 1) ck'))
  end.

(** Trailer and checksum test of BasicChecksum, BasicChecksum.h:119-141. *)
Definition c_checksum_trailer (c : config) (coll : collection) (e : erb) (len : Z) : counted bool :=
  cbind (c_buffer c coll e (len - 3)) (fun b1 =>
  if negb (b1 =? ETX) then cret (Ok false)
  else
    cbind (c_buffer c coll e (len - 1)) (fun b2 =>
    if negb (b2 =? EOT) then cret (Ok false)
    else
      cbind (c_checksum_loop (Z.to_nat (len - 2)) c coll e 0 checksum_init) (fun ck =>
      cbind (c_buffer c coll e (len - 2)) (fun stated => cret (Ok (ck =? stated)))))).

(** The part in which the envelopes differ. *)
Definition c_trailer (c : config) (coll : collection) (e : erb) (len : Z) : counted bool :=
  match mc_env coll with
  | Basic => c_basic_trailer c coll e len
  | BasicChecksum => c_checksum_trailer c coll e len
  end.

(** popAndRetry, tuple-transmission/detail/bases/EnvelopeBase.h:77-85. *)
Definition c_pop_and_retry (c : config) (coll : collection)
           (chk : erb -> counted (bool * erb)) (e : erb) : counted (bool * erb) :=
  cbind (cret (assert_ c (negb (rb_empty (er_buf e))))) (fun _ =>
  if rb_empty (er_buf e) then cret (Ok (false, e))
  else cbind (c_pop_front c coll 1 e) chk).

(** checkBufferForMessage, Basic.h:69-123 and BasicChecksum.h:74-147. *)
Fixpoint c_check_fuel (fuel : nat) (c : config) (coll : collection) (e : erb) : counted (bool * erb) :=
  match fuel with
  | O => cret Hang
  | S fuel' =>
      let cap := capacity coll in
      cbind (c_skip (S (Z.to_nat (rb_size cap (er_buf e)))) c coll e) (fun e =>
      if rb_size cap (er_buf e) <? 2 then cret (Ok (false, e))
      else
        cbind (c_buffer c coll e 1) (fun b1 =>
        let e := er_set_id coll b1 e in
        if negb (er_id_valid e) then c_pop_and_retry c coll (c_check_fuel fuel' c coll) e
        else if rb_size cap (er_buf e) <? 3 then cret (Ok (false, e))
        else
          cbind (c_buffer c coll e 2) (fun b2 =>
          if negb (b2 =? STX) then c_pop_and_retry c coll (c_check_fuel fuel' c coll) e
          else
            cbind (cret (er_message_length c coll e)) (fun len =>
            if rb_size cap (er_buf e) <? len then cret (Ok (false, e))
            else
              cbind (c_trailer c coll e len) (fun ok =>
              if ok then cret (Ok (true, e))
              else c_pop_and_retry c coll (c_check_fuel fuel' c coll) e)))))
  end.

Definition c_check (c : config) (coll : collection) (e : erb) : counted (bool * erb) :=
  c_check_fuel (S (Z.to_nat (rb_size (capacity coll) (er_buf e)))) c coll e.

(** popMessage(), EnvelopeReceiveBuffer.h:106-110. *)
Definition c_pop_message (c : config) (coll : collection) (e : erb) : counted erb :=
  cbind (match mode c with
         | Disabled => cret (Ok e)
         | Aborting => cbind (c_check c coll e) (fun r => cret (if fst r then Ok (snd r) else AssertFail))
         | Reporting => cbind (c_check c coll e) (fun r => cret (Ok (snd r)))
         end) (fun e =>
  cbind (cret (er_message_length c coll e)) (fun len =>
  cbind (c_pop_front c coll len e) (fun e =>
  cret (Ok (ERB None (er_buf e)))))).

(** The number of accesses of a counted call. *)
Definition accesses {A} (m : counted A) : Z := snd m.
