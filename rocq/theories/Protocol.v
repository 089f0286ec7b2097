(** The protocol of the repository's tests, tests/ProtocolForTest.h:47-76, and two machine
    configurations.  Used only in examples. *)
From Verif Require Export Receive.

Definition i8 : fty := TInt true 1.
Definition i16 : fty := TInt true 2.
Definition f32 : fty := TFloat false.

Definition MessageA := MType 0 [i8; u8; i16].
Definition MessageB := MType 1 [u8; u8; u8].
Definition MessageC := MType 2 [f32; f32; f32].
Definition MessageD := MType 3 [u8; u8; u8].
Definition MessageEmpty := MType 4 [].
Definition MessageMaxArity := MType 5 (repeat u8 9).
Definition test_types :=
  [MessageA; MessageB; MessageC; MessageD; MessageEmpty; MessageMaxArity].

Definition test_basic := Collection test_types Basic.
Definition test_checksum := Collection test_types BasicChecksum.

(** Desktop (32-bit int, little endian) and AVR-like (16-bit int) machines. *)
Definition desktop (a : bool) := let m := if a then Aborting else Disabled in Config 32 true m m m.
Definition avr (a : bool) := let m := if a then Aborting else Disabled in Config 16 true m m m.
Definition bigend (a : bool) := let m := if a then Aborting else Disabled in Config 32 false m m m.

(** A desktop build with a user-defined assertion handler that returns
    (util/BoostAssertMsg.h:48-58). *)
Definition reporting := Config 32 true Reporting Reporting Reporting.

(** Arguments of type int. *)
Definition ints (zs : list Z) : list (fty * value) := map (fun z => (TInt true 4, VInt z)) zs.

(** A handler that does nothing. *)
Definition quiet : hbehav := fun _ => HResult [] false.
