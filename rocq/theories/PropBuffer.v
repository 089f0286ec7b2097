(** Properties C17, C18, C20-C22, C46-C49, C62: the receive buffer. *)
From Verif Require Import SpecBuffer BufferLemmas ConstructLemmas Protocol.

(** C17: programs of operations behave like the same operations on lists, from every
    layout of the buffer and in particular from a new buffer. *)
Theorem C17_fifo_any_layout :
  forall c cap ops b rs X Y, cap_ok cap -> index_safe c cap -> rep cap b X ->
  lrun cap ops X Y rs ->
  exists b', brun c cap ops b = Ok (b', rs) /\ observed_as c cap b' Y /\ rep cap b' Y.
Proof. exact buffer_program_lemma. Qed.
Print Assumptions C17_fifo_any_layout.

Theorem C17_fifo :
  forall c cap ops rs X, cap_ok cap -> index_safe c cap -> lrun cap ops [] X rs ->
  exists b', brun c cap ops (rb_init cap) = Ok (b', rs) /\ observed_as c cap b' X /\ rep cap b' X.
Proof. exact buffer_program_init. Qed.
Print Assumptions C17_fifo.

Definition program := [BRange [1;2;3;4]; BPopFront 2; BPush 5; BEnsure 2; BFunctor (fun n => (repeat 7 (Z.to_nat n), n)) 1;
                       BErase 1 3; BSet 0 9; BCopy; BPopBack 1].
Example C17_case : cap_ok 5 /\ index_safe (desktop true) 5
  /\ lrun 5 program [] [9] [RNone; RElem 1; RNone; RNone; RCount 1; RPos 1; RNone; RNone; RElem 7]
  /\ rep 5 (RBuf 2 4 [0;0;3;4;0]) [3;4].
Proof.
  split; [split; reflexivity|]. split; [left; reflexivity|]. split.
  - unfold program.
    apply lrun_cons with [1;2;3;4]. { apply (l_range 5 [1;2;3;4] []). discriminate. }
    apply lrun_cons with [3;4]. { apply (l_pop_front 5 [1;2] [3;4] 1). reflexivity. }
    apply lrun_cons with [3;4;5]. { apply (l_push 5 5 [3;4]). discriminate. }
    apply lrun_cons with [3;4;5]. { apply l_ensure; discriminate. }
    apply lrun_cons with [3;4;5;7]. { apply (l_functor 5 (fun n => (repeat 7 (Z.to_nat n), n)) 1 [7] [3;4;5]); [discriminate | reflexivity | discriminate]. }
    apply lrun_cons with [3;7]. { apply (l_erase 5 [3] [4;5] [7]). discriminate. }
    apply lrun_cons with [9;7]. { apply (l_set 5 [] 3 9 [7]). }
    apply lrun_cons with [9;7]. { apply l_copy. }
    apply lrun_cons with [9]. { apply (l_pop_back 5 [7] [9] [9] 7). reflexivity. }
    constructor.
  - exists [0;0], [0]. repeat split.
Qed.

(** C18: after every prefix of such a program the indices are inside the array and the
    rest still runs without undefined behaviour or failing assertion. *)
Theorem C18_inside_array :
  forall c cap ops more rs X, cap_ok cap -> index_safe c cap ->
  lrun cap (ops ++ more) [] X rs ->
  exists b' rs', brun c cap ops (rb_init cap) = Ok (b', rs')
    /\ 0 <= rb_begin b' <= rb_pastEnd b' /\ rb_pastEnd b' <= cap
    /\ zlen (rb_contents b') = cap /\ 0 <= rb_size cap b' <= cap
    /\ exists b'' r, brun c cap more b' = Ok (b'', r).
Proof. exact buffer_inside_lemma. Qed.
Print Assumptions C18_inside_array.
Example C18_case :
  brun (desktop true) 5 program (rb_init 5)
  = Ok (RBuf 0 1 [9;7;0;0;0], [RNone; RElem 1; RNone; RNone; RCount 1; RPos 1; RNone; RNone; RElem 7]).
Proof. reflexivity. Qed.

(** C20: a block that does not fit, but whose length modulo 2^(bits of size_type) does,
    is written past the array, with assertions enabled or not ... *)
Theorem C20_oversized_append_refuted :
  forall c cap w b X d, cap_ok cap -> index_safe c cap -> size_type cap w -> rep cap b X ->
  cap < zlen X + zlen d -> zlen X + zlen d mod 2 ^ w <= cap ->
  rb_push_range c cap d b = UB.
Proof. exact oversized_ub_width. Qed.
Print Assumptions C20_oversized_append_refuted.
(** ... while every other block that does not fit is caught by an assertion. *)
Theorem C20_other_oversized_appends_caught :
  forall c cap w b X d, cap_ok cap -> size_type cap w -> w < int_bits c -> aborts c = true ->
  rep cap b X -> cap < zlen X + zlen d mod 2 ^ w ->
  rb_push_range c cap d b = AssertFail.
Proof. exact oversized_caught_width. Qed.
Print Assumptions C20_other_oversized_appends_caught.
(** Without assertions that stop the program every block that does not fit is undefined
    behaviour: whether assertions are off or their handler returns ... *)
Theorem C20_unchecked_oversized_append :
  forall c cap b X d, cap_ok cap -> aborts c = false -> rep cap b X -> cap < zlen X + zlen d ->
  rb_push_range c cap d b = UB.
Proof. exact oversized_unchecked. Qed.
Print Assumptions C20_unchecked_oversized_append.
(** ... and so is push_back of one more element on a full buffer, which assertions catch. *)
Theorem C20_push_on_full :
  forall c cap b X x, cap_ok cap -> index_safe c cap -> rep cap b X -> zlen X = cap ->
  rb_push_back c cap x b = if aborts c then AssertFail else UB.
Proof. exact push_full. Qed.
Print Assumptions C20_push_on_full.
Example C20_case : cap_ok 51 /\ index_safe (desktop true) 51 /\ size_type 51 8 /\ size_type 255 8 /\ size_type 256 16 /\ rep 51 (rb_init 51) []
  /\ rb_push_range (desktop true) 51 (repeat 0 256) (rb_init 51) = UB
  /\ rb_push_range (desktop true) 51 (repeat 0 255) (rb_init 51) = AssertFail
  /\ aborts reporting = false /\ rb_push_range reporting 51 (repeat 0 255) (rb_init 51) = UB
  /\ rep 2 (RBuf 0 2 [5;6]) [5;6] /\ rb_push_back (desktop true) 2 7 (RBuf 0 2 [5;6]) = AssertFail
  /\ rb_push_back reporting 2 7 (RBuf 0 2 [5;6]) = UB.
Proof.
  split; [split; reflexivity|]. split; [left; reflexivity|].
  do 3 (split; [split; [cbn; tauto|]; split; [reflexivity|]; intros v Hv Hc; cbn [In] in Hv; destruct Hv as [<-|[<-|[<-|[<-|[]]]]]; lia|]).
  split; [exists [], (repeat 0 51); repeat split|].
  do 4 (split; [reflexivity|]). split; [exists [], []; repeat split | split; reflexivity].
Qed.

(** C21 (the nonempty ranges are part of C17). *)
Theorem C21_erase :
  forall c cap b P M Q, cap_ok cap -> rep cap b (P ++ M ++ Q) -> M <> [] ->
  exists b', rb_erase c cap (rb_begin b + zlen P) (rb_begin b + zlen P + zlen M) b
             = Ok (b', rb_begin b' + zlen P)
             /\ rep cap b' (P ++ Q).
Proof. exact (fun c cap b P M Q H => rep_erase c cap H b P M Q). Qed.
Print Assumptions C21_erase.
Theorem C21_erase_empty_range_refuted :
  forall c cap b X i, cap_ok cap -> rep cap b X -> 0 <= i <= zlen X ->
  rb_erase c cap (rb_begin b + i) (rb_begin b + i) b
  = if aborts c then AssertFail else Ok (b, rb_begin b + i).
Proof. exact erase_empty. Qed.
Print Assumptions C21_erase_empty_range_refuted.
Example C21_case : rep 5 (RBuf 1 5 [0;1;2;3;4]) ([1] ++ [2;3] ++ [4])
  /\ rb_erase (desktop true) 5 2 4 (RBuf 1 5 [0;1;2;3;4]) = Ok (RBuf 1 3 [0;1;4;3;4], 2)
  /\ rb_erase (desktop true) 5 1 3 (RBuf 1 5 [0;1;2;3;4]) = Ok (RBuf 3 5 [0;1;2;3;4], 3).
Proof. split; [exists [0], []; repeat split | split; reflexivity]. Qed.

(** C22 *)
Theorem C22_copies :
  forall c cap b d X Y, cap_ok cap -> index_safe c cap -> rep cap b X -> rep cap d Y ->
  exists b1 b2, rb_copy cap b = Ok b1 /\ rb_assign cap b d = Ok b2
    /\ observed_as c cap b1 X /\ observed_as c cap b2 X
    /\ forall ops Y' rs, lrun cap ops X Y' rs ->
         exists e e1 e2, brun c cap ops b = Ok (e, rs) /\ brun c cap ops b1 = Ok (e1, rs)
           /\ brun c cap ops b2 = Ok (e2, rs)
           /\ observed_as c cap e Y' /\ observed_as c cap e1 Y' /\ observed_as c cap e2 Y'.
Proof. exact copy_lemma. Qed.
Print Assumptions C22_copies.
(** Self-assignment copies the array onto itself, which std::copy does not allow when the
    content already starts at the front. *)
Theorem C22_self_assignment :
  forall c cap b X, cap_ok cap -> rep cap b X ->
  if (rb_begin b =? 0) && negb (zlen X =? 0)
  then rb_self_assign cap b = UB
  else exists b', rb_self_assign cap b = Ok b' /\ observed_as c cap b' X /\ rb_begin b' = 0.
Proof. exact self_assign_lemma. Qed.
Print Assumptions C22_self_assignment.
Example C22_case : rep 4 (RBuf 1 3 [0;1;2;0]) [1;2] /\ rep 4 (RBuf 0 4 [9;9;9;9]) [9;9;9;9]
  /\ rb_assign 4 (RBuf 1 3 [0;1;2;0]) (RBuf 0 4 [9;9;9;9]) = Ok (RBuf 0 2 [1;2;9;9]).
Proof.
  split; [exists [0], [0]; repeat split|]. split; [exists [], []; repeat split | reflexivity].
Qed.

(** C46: where the room check can wrap, appends within the free space leave the array; it can wrap exactly
    if size_type is at least as wide as int and cannot hold twice the capacity. *)
Theorem C46_wrapping_room_check_refuted :
  forall c cap, cap_ok cap -> ~ index_safe c cap -> forall d1 d2,
  zlen d1 = cap -> zlen d2 = cap - 1 ->
  exists rs X, lrun cap [BRange d1; BPopFront (cap - 1); BRange d2] [] X rs
    /\ brun c cap [BRange d1; BPopFront (cap - 1); BRange d2] (rb_init cap) = UB.
Proof. exact unsafe_witness. Qed.
Print Assumptions C46_wrapping_room_check_refuted.
Theorem C46_room_check_wraps :
  forall c cap w, cap_ok cap -> size_type cap w ->
  (index_safe c cap <-> w < int_bits c \/ 2 * cap <= 2 ^ w).
Proof. exact index_safe_width. Qed.
Print Assumptions C46_room_check_wraps.
(** With [int] of 16, 32 or 64 bits and a capacity below 2^(int width), the safe
    capacities (for which C17 holds) are those of at most half that. *)
Theorem C46_safe_capacities :
  forall c cap, cap_ok cap -> int_bits c = 16 \/ int_bits c = 32 \/ int_bits c = 64 ->
  cap < 2 ^ int_bits c -> index_safe c cap <-> cap <= 2 ^ (int_bits c - 1).
Proof. exact index_safe_iff. Qed.
Print Assumptions C46_safe_capacities.
Example C46_case : cap_ok 32769 /\ ~ index_safe (avr true) 32769 /\ index_safe (avr true) 32768
  /\ index_safe (desktop true) 32769.
Proof.
  split; [split; reflexivity|]. unfold index_safe.
  change (size_bits 32769) with 16. change (size_bits 32768) with 16.
  change (int_bits (avr true)) with 16. change (int_bits (desktop true)) with 32. change (2 ^ 16) with 65536. lia.
Qed.

(** C47: pushing element [i] of the buffer itself pushes another element when the content
    lies at the end of the array and overlaps its shifted copy. *)
Theorem C47_push_own_element :
  forall c cap b X i, cap_ok cap -> index_safe c cap -> rep cap b X ->
  0 <= i < zlen X -> zlen X + 1 <= cap ->
  let j := if (rb_pastEnd b =? cap) && (rb_begin b + i <? zlen X) then rb_begin b + i else i in
  exists b', rb_push_back_own c cap i b = Ok b' /\ rep cap b' (X ++ [nth (Z.to_nat j) X 0]).
Proof. exact push_own_lemma. Qed.
Print Assumptions C47_push_own_element.
Theorem C47_push_own_element_refuted :
  exists c cap b X i b', rep cap b X /\ 0 <= i < zlen X /\ zlen X + 1 <= cap
    /\ rb_push_back_own c cap i b = Ok b' /\ rep cap b' (X ++ [2]) /\ nth (Z.to_nat i) X 0 = 1.
Proof. exact push_own_witness. Qed.
Print Assumptions C47_push_own_element_refuted.
Example C47_case : rep 4 (RBuf 1 3 [0;1;2;0]) [1;2]
  /\ rb_push_back_own (desktop true) 4 0 (RBuf 1 3 [0;1;2;0]) = Ok (RBuf 1 4 [0;1;2;1])
  /\ rb_push_back_own (desktop true) 3 0 (RBuf 1 3 [0;1;2]) = Ok (RBuf 0 3 [1;2;2]).
Proof. split; [exists [0], [0]; repeat split | split; reflexivity]. Qed.

(** C48: a buffer constructed from data that fits holds that data and works like any
    other (C17_fifo_any_layout), from an array and a length ... *)
Theorem C48_from_array :
  forall c cap v len, cap_ok cap -> 0 <= len <= zlen v -> len <= cap ->
  exists b, rb_from_array cap v len = Ok b /\ observed_as c cap b (firstn (Z.to_nat len) v)
            /\ rep cap b (firstn (Z.to_nat len) v).
Proof. exact from_array_fits. Qed.
Print Assumptions C48_from_array.
(** ... and from a range. *)
Theorem C48_from_range :
  forall c cap d, cap_ok cap -> index_safe c cap -> zlen d <= cap ->
  exists b, rb_from_range c cap d = Ok b /\ observed_as c cap b d /\ rep cap b d.
Proof. exact from_range_lemma. Qed.
Print Assumptions C48_from_range.
(** Data that does not fit is not rejected: the length is reduced modulo
    2^(bits of size_type), and if the rest still does not fit, the array is overrun. *)
Theorem C48_from_array_any_length_refuted :
  forall c cap w v len, cap_ok cap -> size_type cap w -> 0 <= len <= zlen v ->
  let k := len mod 2 ^ w in
  if k <=? cap
  then exists b, rb_from_array cap v len = Ok b /\ observed_as c cap b (firstn (Z.to_nat k) v)
                 /\ rep cap b (firstn (Z.to_nat k) v) /\ rb_begin b = 0
  else rb_from_array cap v len = UB.
Proof. exact from_array_width. Qed.
Print Assumptions C48_from_array_any_length_refuted.
Example C48_case : cap_ok 5 /\ index_safe (desktop true) 5
  /\ rb_from_array 5 [7;8;9;10] 3 = Ok (RBuf 0 3 [7;8;9;0;0])
  /\ rb_from_range (desktop true) 5 [7;8;9] = Ok (RBuf 0 3 [7;8;9;0;0])
  /\ rb_from_array 5 (repeat 7 258) 258 = Ok (RBuf 0 2 [7;7;0;0;0])
  /\ rb_from_array 5 (repeat 7 258) 6 = UB.
Proof. split; [split; reflexivity|]. split; [left; reflexivity|]. repeat split. Qed.

(** C49: at() gives the elements by position ... *)
Theorem C49_at :
  forall c cap b X i, cap_ok cap -> rep cap b X -> 0 <= i < zlen X ->
  rb_at c cap b i = Ok (nth (Z.to_nat i) X 0).
Proof. exact at_in_range. Qed.
Print Assumptions C49_at.
(** ... but does not reject all other positions: they are reduced modulo 2^(bits of
    size_type) before an assertion looks at them. *)
Theorem C49_at_out_of_range_refuted :
  forall c cap w b X i, cap_ok cap -> size_type cap w -> rep cap b X -> 0 <= i ->
  let k := i mod 2 ^ w in
  (k < zlen X -> rb_at c cap b i = Ok (nth (Z.to_nat k) X 0))
  /\ (zlen X <= k -> aborts c = true -> rb_at c cap b i = AssertFail).
Proof. exact at_width. Qed.
Print Assumptions C49_at_out_of_range_refuted.
Example C49_case : rep 4 (RBuf 1 3 [0;8;9;0]) [8;9]
  /\ rb_at (desktop true) 4 (RBuf 1 3 [0;8;9;0]) 1 = Ok 9
  /\ rb_at (desktop true) 4 (RBuf 1 3 [0;8;9;0]) 257 = Ok 9
  /\ rb_at (desktop true) 4 (RBuf 1 3 [0;8;9;0]) 2 = AssertFail.
Proof. split; [exists [0], [0]; repeat split | repeat split; reflexivity]. Qed.

(** C62: push_back(begin() + i, begin() + j) with a range of the buffer's own elements that fits.
    Without a shift of the contents the elements are appended.  When the contents are shifted,
    the iterators denote other elements (or the slots behind the new end): the behaviour is
    undefined if the new end lies in the range, and otherwise the range appended is the one now
    found [rb_begin b] elements further on, or the right one if it lies behind the new end. *)
Theorem C62_push_own_range :
  forall c cap b X i j, cap_ok cap -> index_safe c cap -> rep cap b X ->
  0 <= i <= j -> j <= zlen X -> zlen X + (j - i) <= cap ->
  (rb_pastEnd b + (j - i) <= cap ->
     exists b', rb_push_range_own c cap i j b = Ok b' /\ rep cap b' (X ++ part X i j))
  /\ (cap < rb_pastEnd b + (j - i) -> rb_begin b + i <= zlen X < rb_begin b + j ->
      rb_push_range_own c cap i j b = UB)
  /\ (cap < rb_pastEnd b + (j - i) -> rb_begin b + j <= zlen X ->
      exists b', rb_push_range_own c cap i j b = Ok b'
        /\ rep cap b' (X ++ part X (rb_begin b + i) (rb_begin b + j)))
  /\ (cap < rb_pastEnd b + (j - i) -> zlen X < rb_begin b + i ->
      exists b', rb_push_range_own c cap i j b = Ok b' /\ rep cap b' (X ++ part X i j)).
Proof. exact push_own_range_lemma. Qed.
Print Assumptions C62_push_own_range.
Theorem C62_push_own_range_refuted :
  exists c cap b X i j b', rep cap b X /\ 0 <= i < j /\ j <= zlen X
    /\ zlen X + (j - i) <= cap /\ rb_push_range_own c cap i j b = Ok b' /\ rep cap b' (X ++ [3;4])
    /\ part X i j = [1;2].
Proof. exact push_own_range_witness. Qed.
Print Assumptions C62_push_own_range_refuted.
(** All four cases, in a buffer of six elements holding 1, 2, 3, 4 or 1, 2. *)
Example C62_case :
  rep 6 (RBuf 0 4 [1;2;3;4;0;0]) [1;2;3;4]
  /\ rb_push_range_own (desktop true) 6 1 3 (RBuf 0 4 [1;2;3;4;0;0]) = Ok (RBuf 0 6 [1;2;3;4;2;3])
  /\ rep 6 (RBuf 2 6 [0;0;1;2;3;4]) [1;2;3;4]
  /\ rb_push_range_own (desktop true) 6 1 3 (RBuf 2 6 [0;0;1;2;3;4]) = UB
  /\ rb_push_range_own (desktop true) 6 0 2 (RBuf 2 6 [0;0;1;2;3;4]) = Ok (RBuf 0 6 [1;2;3;4;3;4])
  /\ rep 6 (RBuf 4 6 [0;0;0;0;1;2]) [1;2]
  /\ rb_push_range_own (desktop true) 6 0 2 (RBuf 4 6 [0;0;0;0;1;2]) = Ok (RBuf 0 4 [1;2;1;2;1;2]).
Proof.
  split; [exists [], [0;0]; repeat split|]. split; [reflexivity|].
  split; [exists [0;0], []; repeat split|]. split; [reflexivity|]. split; [reflexivity|].
  split; [exists [0;0;0;0], []; repeat split | reflexivity].
Qed.
