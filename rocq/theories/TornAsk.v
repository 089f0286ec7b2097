(** Interrupts in the midst of getBufferAvailableSpace that call processMessages.  Simplifications: those of TornReceive.v. *)
From Verif Require Export TornReceive.

(** getBufferAvailableSpace, tuple-transmission/Receiver.h:105-107, with tuple-transmission/detail/types/EnvelopeReceiveBuffer.h:72-74:
    max_size() reads no member, size() reads two; what it returns, the world after it, what the interrupts returned. *)
Definition w_available (fuel : nat) (o : bool) (c : config) (coll : collection) (beh : hbehav) (coming : list bool) (w : world)
  : outcome (Z * world * list presult) :=
  do (sw, ps) <- w_read_size fuel o c coll beh coming w;
  let '(size, w1) := sw in
  Ok (to_sz (capacity coll) (rb_max_size (capacity coll) - size), w1, ps).
