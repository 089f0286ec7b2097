(** Floating point numbers: what the bit patterns of IEEE 754 binary32 and binary64 stand
    for, and the implicit conversions of C++ arithmetic types ([conv.integral], [conv.double],
    [conv.fpint], [conv.bool]).  The repository contains no such code; its calls rely on the
    language's conversions where an argument is not of the field's type
    (tests/RoundtripCommon.h:171-180 pass int literals for the float fields of MessageC). *)
From Verif Require Export Types.

(** Precision in bits (with the implicit leading one) and exponent range of the formats. *)
Definition fl_prec (wide : bool) : Z := if wide then 53 else 24.
Definition fl_emax (wide : bool) : Z := if wide then 1024 else 128.

(** Weight of the last place of the smallest numbers is 2^(3 - emax - prec).  Values are
    counted in units of 2^-1074, the smallest positive double, so that every finite number of
    both formats is an integer: [fl_low] is the exponent of a format's smallest number in
    that unit (0 for double, 925 for float). *)
Definition fl_unit : Z := 1074.
Definition fl_low (wide : bool) : Z := 3 - fl_emax wide - fl_prec wide + fl_unit.

(** Sign bit, and the rest of the bit pattern. *)
Definition fl_sign (wide : bool) (bits : Z) : bool := 2 ^ (8 * Z.of_nat (float_bytes wide) - 1) <=? bits.
Definition fl_mag (wide : bool) (bits : Z) : Z := bits mod 2 ^ (8 * Z.of_nat (float_bytes wide) - 1).

(** The pattern of infinity; patterns above it (without the sign) are NaNs. *)
Definition fl_inf (wide : bool) : Z := (2 * fl_emax wide - 1) * 2 ^ (fl_prec wide - 1).

(** Value of a finite pattern without its sign, in units of 2^-1074: exponent field 0 has no
    implicit leading one. *)
Definition fl_abs (wide : bool) (mag : Z) : Z :=
  let e := mag / 2 ^ (fl_prec wide - 1) in
  let m := mag mod 2 ^ (fl_prec wide - 1) in
  if e =? 0 then m * 2 ^ fl_low wide
  else (m + 2 ^ (fl_prec wide - 1)) * 2 ^ (e - 1 + fl_low wide).
Definition fl_value (wide : bool) (bits : Z) : Z :=
  if fl_sign wide bits then - fl_abs wide (fl_mag wide bits) else fl_abs wide (fl_mag wide bits).

(** A pattern with the given sign. *)
Definition fl_signed (wide : bool) (s : bool) (mag : Z) : Z :=
  if s then mag + 2 ^ (8 * Z.of_nat (float_bytes wide) - 1) else mag.

(** Nearest integer to a/d, ties to even. *)
Definition div_even (a d : Z) : Z :=
  let q := a / d in
  let r := a mod d in
  if (2 * r <? d) || ((2 * r =? d) && Z.even q) then q else q + 1.

(** Rounding [a] >= 0 (in units of 2^-1074) to the format, to nearest, ties to even, the
    default rounding mode (C++ leaves the choice between the two neighbours open; hardware
    and IEEE 754 round like this).  Too large: infinity. *)
Definition fl_round (wide : bool) (a : Z) : Z :=
  if a =? 0 then 0
  else
    let ex := Z.max (Z.log2 a - (fl_prec wide - 1)) (fl_low wide) in
    Z.min (fl_inf wide) ((ex - fl_low wide) * 2 ^ (fl_prec wide - 1) + div_even a (2 ^ ex)).

(** An integer as a floating point number. *)
Definition float_of_int (wide : bool) (z : Z) : Z :=
  fl_signed wide (z <? 0) (fl_round wide (Z.abs z * 2 ^ fl_unit)).

(** A floating point number in the other format: NaNs stay NaNs of the same sign, quiet, with
    the upper bits of the payload. *)
Definition float_of_float (wide to : bool) (bits : Z) : Z :=
  if Bool.eqb wide to then bits
  else
    let mag := fl_mag wide bits in
    fl_signed to (fl_sign wide bits)
      (if mag =? fl_inf wide then fl_inf to
       else if fl_inf wide <? mag then
         let payload := mag mod 2 ^ (fl_prec wide - 2) in
         fl_inf to + 2 ^ (fl_prec to - 2)
         + (if to then payload * 2 ^ (fl_prec to - fl_prec wide) else payload / 2 ^ (fl_prec wide - fl_prec to))
       else fl_round to (fl_abs wide mag)).

(** Implicit conversions between field types: arithmetic types convert to each other, enumerations
    to arithmetic types, other types only to themselves (C++ [conv.integral], [conv.double],
    [conv.fpint], [conv.bool]). *)
Definition convertible (from to : fty) : bool :=
  match from, to with
  | (TIntN _ _ _ | TBool | TFloat _), (TIntN (IStd | INamed _) _ _ | TBool | TFloat _) => true
  | _, _ => fty_eqb from to
  end.

(** Initialising a by-value parameter of type [ty] from an argument: integers are reduced
    to the type's range; a bool becomes 0 or 1; floating point numbers lose their
    fractional part, undefined if the result is not in range ([conv.fpint]); a bool tells
    whether a number is nonzero.  Without a conversion the call does not compile. *)
Definition convert_arg (ty : fty) (v : value) : outcome value :=
  match ty, v with
  | TIntN _ false n, VInt z => Ok (VInt (z mod 2 ^ (8 * Z.of_nat n)))
  | TIntN _ true n, VInt z =>
      let h := 2 ^ (8 * Z.of_nat n - 1) in
      Ok (VInt ((z + h) mod 2 ^ (8 * Z.of_nat n) - h))
  | TIntN _ _ _, VBool b => Ok (VInt (if b then 1 else 0))
  | TIntN _ s n, VFloat w bits =>
      let z := Z.quot (fl_value w bits) (2 ^ fl_unit) in
      if (fl_mag w bits <? fl_inf w) && int_in_range s n z then Ok (VInt z) else UB
  | TBool, VInt z => Ok (VBool (negb (z =? 0)))
  | TBool, VBool b => Ok (VBool b)
  | TBool, VFloat w bits => Ok (VBool (negb (fl_mag w bits =? 0)))
  | TFloat w, VInt z => Ok (VFloat w (float_of_int w z))
  | TFloat w, VBool b => Ok (VFloat w (float_of_int w (if b then 1 else 0)))
  | TFloat w, VFloat w' bits => Ok (VFloat w (float_of_float w' w bits))
  | TRawN _ n, VRaw bs => if Nat.eqb (length bs) n then Ok (VRaw bs) else Rejected
  | _, _ => Rejected
  end.

(** Arguments converted to the parameter types
    [typename mpl::at_c<sequence_type, i>::type]. *)
Fixpoint convert_args (ts : list fty) (args : list value) : outcome (list (fty * value)) :=
  match ts, args with
  | [], [] => Ok []
  | t :: ts', a :: args' =>
      do v <- convert_arg t a;
      do vs <- convert_args ts' args';
      Ok ((t, v) :: vs)
  | _, _ => Rejected
  end.
