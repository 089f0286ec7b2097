(** Outcomes, machine configuration and fixed-width arithmetic shared by the model. *)
From Coq Require Export ZArith List Bool Lia.
Export ListNotations.
Open Scope Z_scope.

(** Result of executing a piece of the modelled C++ code.  Not in /repo: it is
    the model's account of C++ execution.
    - [Ok a]: normal completion;
    - [AssertFail]: a BOOST_ASSERT / BOOST_ASSERT_MSG fired (util/BoostAssertMsg.h:42-98);
    - [UB]: undefined behaviour (out-of-bounds access, null call, ...);
    - [Hang]: the model's fuel ran out (no result within that many steps);
    - [Rejected]: a static assertion fails, the program does not compile. *)
Inductive outcome (A : Type) : Type :=
| Ok (a : A)
| AssertFail
| UB
| Hang
| Rejected.
Arguments Ok {A} _.
Arguments AssertFail {A}.
Arguments UB {A}.
Arguments Hang {A}.
Arguments Rejected {A}.

(** Sequencing of C++ statements (model infrastructure). *)
Definition bind {A B} (m : outcome A) (k : A -> outcome B) : outcome B :=
  match m with
  | Ok a => k a
  | AssertFail => AssertFail
  | UB => UB
  | Hang => Hang
  | Rejected => Rejected
  end.

Notation "'do' x <- m ; k" := (bind m (fun x => k))
  (at level 200, x pattern, m at level 100, k at level 200, right associativity).

(** What the behaviour of the code depends on besides its inputs:
    - [int_bits]: width of [int], which decides integral promotion (16 on AVR
      Arduino, 32 on the desktop platforms; both are targets, see
      tuple-transmission/transmitters/ArduinoSerial.h:32 and VrpnSerial.h:27);
    - [little]: byte order of object representations, seen through memcpy in
      tuple-transmission/serializers/BitwiseCopySerialization.h:38,54;
    - [mode]: what BOOST_ASSERT_MSG does, util/BoostAssertMsg.h:42-98:
      [Disabled], nothing, the expression is not evaluated (lines 44-46); [Aborting], a
      failure ends the program (lines 60-95); [Reporting], a failure calls the user's
      handler (lines 48-58), which returns.  Simplification: a handler that throws counts
      as [Aborting];
    - [plain]: what BOOST_ASSERT does, in
      tuple-transmission/detail/types/EnvelopeReceiveBuffer.h:201 and in boost::optional;
    - [arrays]: what the check of an index in boost::array does, which is one or the other
      according to the version of Boost.
    Which of them go together depends on Boost and on macros (util/BoostAssertMsg.h:42-60);
    the three are independent here. *)
Inductive amode := Disabled | Aborting | Reporting.
Record config := Config { int_bits : Z; little : bool; mode : amode; plain : amode; arrays : amode }.
Definition stops (m : amode) : bool := match m with Aborting => true | _ => false end.
Definition aborts (c : config) : bool := stops (mode c).

(** BOOST_ASSERT_MSG(expr, msg): util/BoostAssertMsg.h:42-98. *)
Definition assert_ (c : config) (b : bool) : outcome unit :=
  if aborts c then (if b then Ok tt else AssertFail) else Ok tt.

(** BOOST_ASSERT(expr), of boost/assert.hpp. *)
Definition assert_plain (c : config) (b : bool) : outcome unit :=
  if stops (plain c) then (if b then Ok tt else AssertFail) else Ok tt.

(** Conversion to an unsigned type of [w] bits (C++ [conv.integral]). *)
Definition trunc (w x : Z) : Z := x mod 2 ^ w.

(** [boost::uint_value_t<n>::least]: width of the smallest of unsigned char,
    short, int/long, long long whose maximum is at least [n].  Used in
    util/ReceiveBuffer.h:64, util/MPLApplyAt.h:137-139 and
    tuple-transmission/detail/types/MessageSizeType.h:35.
    Simplification: the fixed widths 8, 16, 32, 64 of all supported platforms. *)
Definition uint_least_bits (n : Z) : Z :=
  if n <? 2 ^ 8 then 8
  else if n <? 2 ^ 16 then 16
  else if n <? 2 ^ 32 then 32
  else 64.

(** [a + b] for two operands of an unsigned [w]-bit type, after the integral
    promotions: exact in [int] when [int] is wider than the type, otherwise
    reduced modulo 2^w (C++ [conv.prom], [expr.add]). *)
Definition promoted_add (c : config) (w a b : Z) : Z :=
  if w <? int_bits c then a + b else trunc w (a + b).

(** Length of a list as a machine integer. *)
Definition zlen {A} (l : list A) : Z := Z.of_nat (length l).
