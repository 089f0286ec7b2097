(** Ports that accept only a part of a write, and copies of the I2C transmitter. *)
From Verif Require Export Copies.

(** A port as its owner sees it: in a state of type [P], asked to write a block, it takes
    a number of bytes from the front of the block and goes to another state. *)
Definition port P := P -> list Z -> P * Z.
Definition taken (n : Z) (d : list Z) : list Z := firstn (Z.to_nat n) d.

(** VrpnSerial, tuple-transmission/transmitters/VrpnSerial.h:37-47, and ArduinoSerial,
    tuple-transmission/transmitters/ArduinoSerial.h:36-49, on such a port; both drop the number
    of bytes written that the port's write returns.  State: the port's, and for every write
    what was taken of it.  (ArduinoSerial binds a [Stream] reference to the [Print] it is
    given, lines 40 and 51, which does not compile; modelled as intended.  The exception that
    vrpn_SerialPort throws for a failed write is not in this definition.) *)
Definition port_write {P} (p : port P) (d : list Z) (s : P * list (list Z)) : outcome (P * list (list Z)) :=
  let '(q, n) := p (fst s) d in Ok (q, snd s ++ [taken n d]).
Definition port_tx {P} (p : port P) : transmitter (P * list (list Z)) :=
  Transmitter (fun v => port_write p [v]) (port_write p) finished_fallback.

(** ArduinoI2C, tuple-transmission/transmitters/ArduinoI2C.h:41-63, on such a bus: the number
    returned by TwoWire::write in line 56 is dropped, too. *)
Definition i2c_port_tx {P} (p : port P) : transmitter (P * i2c) :=
  Transmitter
    (fun v s => do b <- tx_byte (abuf_tx i2c_bufsize) v (i2c_buf (snd s)); Ok (fst s, I2C b (i2c_bus (snd s))))
    (fun d s => do b <- tx_block (abuf_tx i2c_bufsize) d (i2c_buf (snd s)); Ok (fst s, I2C b (i2c_bus (snd s))))
    (fun s => let '(q, n) := p (fst s) (abuf_content (i2c_buf (snd s))) in
              Ok (q, I2C (abuf_reset (i2c_buf (snd s))) (i2c_bus (snd s) ++ [taken n (abuf_content (i2c_buf (snd s)))]))).

(** ArduinoI2C objects on one bus, numbered, their buffers copied as in [Copies]: writeFinished
    (ArduinoI2C.h:55-58) subtracts [bufTx.begin()] from [bufTx.end()], undefined behaviour when
    these point into different arrays ([as_content]). *)
Record i2cs := I2Cs { is_bufs : abufs; is_bus : list (list Z) }.
Definition is_tx (i : nat) : transmitter i2cs :=
  Transmitter
    (fun v s => do h <- tx_byte (as_tx i2c_bufsize i) v (is_bufs s); Ok (I2Cs h (is_bus s)))
    (fun d s => do h <- tx_block (as_tx i2c_bufsize i) d (is_bufs s); Ok (I2Cs h (is_bus s)))
    (fun s => do d <- as_content i (is_bufs s); Ok (I2Cs (as_reset i (is_bufs s)) (is_bus s ++ [d]))).
(** The implicitly defined copy constructor. *)
Definition is_copy (i : nat) (s : i2cs) : i2cs := I2Cs (as_copy i (is_bufs s)) (is_bus s).
