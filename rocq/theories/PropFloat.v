(** Property C71: numbers given for floating point fields.  [stands_for w bits neg x]: the pattern
    [bits] of a float, or a double when [w], is the number x/2^1074, negated when [neg]. *)
From Verif Require Import SpecSend SendLemmas Protocol.

(** C71: integers of at most 24 bits (53 for double fields), of whatever types [tys], are sent as the same
    numbers (a single argument must have the type of the field, see C11_single_argument) ... *)
Theorem C71_integer_arguments :
  forall S c coll m (t : transmitter S) (l : list (bool * Z)) tys s, static_ok coll = true ->
  In m (mc_types coll) -> (length l <= 9)%nat -> length l <> 1%nat -> length tys = length l -> Forall (fun ty => arithmetic ty \/ enumeration ty) tys -> mt_fields m = map (fun x => TFloat (fst x)) l ->
  Forall (fun x : bool * Z => Z.abs (snd x) <= if fst x then 2 ^ 53 else 2 ^ 24) l ->
  exists vs, Forall2 (fun x v => exists bits, v = VFloat (fst x) bits
                        /\ stands_for (fst x) bits (snd x <? 0) (Z.abs (snd x) * 2 ^ 1074)) l vs
    /\ send_args c coll m t (combine tys (map (fun x => VInt (snd x)) l)) s = send c coll m t (combine (mt_fields m) vs) s.
Proof. exact @send_ints_lemma. Qed.
Print Assumptions C71_integer_arguments.
(** The calls of tests/RoundtripCommon.h:171-180: ints 5, 10, 15 for float fields. *)
Example C71_integer_case :
  mt_fields MessageC = map (fun x => TFloat (fst x)) [(false, 5); (false, 10); (false, -16777216)]
  /\ send_args (desktop true) test_basic MessageC vector_tx (ints [5; 10; 15]) []
     = Ok [1;2;2; 0;0;160;64; 0;0;32;65; 0;0;112;65; 3;4]
  /\ send_args (desktop true) test_basic MessageC vector_tx (ints [5; 10; -16777216]) []
     = Ok [1;2;2; 0;0;160;64; 0;0;32;65; 0;0;128;203; 3;4].
Proof. repeat split. Qed.

(** ... but not all integers: "an integer arrives as the same number" is false for float fields, even for
    integers of 4 bytes. *)
Theorem C71_large_integer_refuted :
  exists coll m z z', static_ok coll = true /\ In m (mc_types coll) /\ mt_fields m = [TFloat false; TBool]
    /\ has_type (VInt z) (TInt true 4) = true /\ z <> z'
    /\ forall S c (t : transmitter S) s,
         send_args c coll m t [(TInt true 4, VInt z); (TBool, VBool true)] s
         = send_args c coll m t [(TInt true 4, VInt z'); (TBool, VBool true)] s
         /\ send_args c coll m t [(TInt true 4, VInt z); (TBool, VBool true)] s
            = send c coll m t [(TFloat false, VFloat false 1266679808); (TBool, VBool true)] s.
Proof.
  exists (Collection [MType 0 [TFloat false; TBool]] Basic), (MType 0 [TFloat false; TBool]), 16777217, 16777216.
  split; [reflexivity|]. split; [left; reflexivity|]. repeat split. discriminate.
Qed.
Print Assumptions C71_large_integer_refuted.

(** Doubles that are floats are sent as the same numbers in float fields, floats always in double fields
    ([same_number d f] compares a double with a float) ... *)
Theorem C71_floating_arguments :
  forall S c coll m (t : transmitter S) ds fs s, static_ok coll = true ->
  In m (mc_types coll) -> (length ds <= 9)%nat -> length ds <> 1%nat -> Forall2 same_number ds fs ->
  (mt_fields m = map (fun _ => TFloat false) ds ->
   send_args c coll m t (map (fun d => (TFloat true, VFloat true d)) ds) s = send c coll m t (combine (mt_fields m) (map (VFloat false) fs)) s)
  /\ (mt_fields m = map (fun _ => TFloat true) ds ->
   send_args c coll m t (map (fun f => (TFloat false, VFloat false f)) fs) s = send c coll m t (combine (mt_fields m) (map (VFloat true) ds)) s).
Proof. exact @send_doubles_lemma. Qed.
Print Assumptions C71_floating_arguments.
Theorem C71_floats_are_doubles :
  forall f neg x, stands_for false f neg x -> exists d, same_number d f.
Proof. exact widen_exists. Qed.
Print Assumptions C71_floats_are_doubles.
(** 1.5, -0.0 and 2^-149, the smallest positive float. *)
Example C71_floating_case :
  Forall2 same_number [4609434218613702656; 9223372036854775808; 3936146074321813504] [1069547520; 2147483648; 1]
  /\ send_args (desktop true) test_basic MessageC vector_tx
       (map (fun d => (TFloat true, VFloat true d)) [4609434218613702656; 9223372036854775808; 3936146074321813504]) []
     = Ok [1;2;2; 0;0;192;63; 0;0;0;128; 1;0;0;0; 3;4].
Proof.
  split; [|vm_compute; reflexivity]. repeat (apply Forall2_cons || apply Forall2_nil).
  - exists false, (3 * 2 ^ 1073). split; [exists 1023, (2 ^ 51) | exists 127, (2 ^ 22)]; vm_compute; intuition congruence.
  - exists true, 0. split; exists 0, 0; vm_compute; intuition congruence.
  - exists false, (2 ^ 925). split; [exists 874, 0 | exists 0, 1]; vm_compute; intuition congruence.
Qed.

(** ... and a double too large for a float is sent as infinity, one too small as zero. *)
Theorem C71_overflow_refuted :
  exists d e, (exists x, stands_for true d false x) /\ (exists x, 0 < x /\ stands_for true e false x)
    /\ forall S c (t : transmitter S) s,
         send_args c (Collection [MType 0 [TFloat false; TFloat false]] Basic) (MType 0 [TFloat false; TFloat false]) t
           [(TFloat true, VFloat true d); (TFloat true, VFloat true e)] s
         = send c (Collection [MType 0 [TFloat false; TFloat false]] Basic) (MType 0 [TFloat false; TFloat false]) t
             [(TFloat false, VFloat false (infinite false false)); (TFloat false, VFloat false 0)] s.
Proof.
  exists (2000 * 2 ^ 52), 1. split; [|split; [|intros; reflexivity]].
  - eexists. exists 2000, 0. split; [reflexivity|]. split; [vm_compute; intuition congruence|].
    split; [vm_compute; intuition congruence|]. reflexivity.
  - exists 1. split; [reflexivity|]. exists 0, 1. vm_compute. intuition congruence.
Qed.
Print Assumptions C71_overflow_refuted.
