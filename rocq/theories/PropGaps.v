(** Property theorems: messages separated by idle bytes. *)
From Verif Require Import GapLemmas Runs.

(** C94: enough idle bytes empty the receiver, whatever it got before ... *)
Theorem C94_empties :
  forall c coll, static_ok coll = true -> index_safe c (capacity coll) ->
  forall beh h0 g gap w, tame beh -> is_gap coll gap -> processed c coll beh h0 (g ++ gap) w -> held w = [].
Proof. exact gap_empties_lemma. Qed.
Print Assumptions C94_empties.

(** ... and with one idle byte less there are bytes after which it keeps them all ... *)
Theorem C94_needed :
  forall c coll, static_ok coll = true -> index_safe c (capacity coll) ->
  exists g, g <> [] /\ forall gap beh h0 w, zlen gap < max_message_length coll - 3 -> tame beh ->
  processed c coll beh h0 (g ++ gap) w -> held w = g ++ gap.
Proof. exact gap_needed_lemma. Qed.
Print Assumptions C94_needed.

(** ... so what is delivered is what new receivers would deliver of the segments, one each ... *)
Theorem C94_independent :
  forall c coll, static_ok coll = true -> index_safe c (capacity coll) ->
  forall beh h0 segs w alone, tame beh -> Forall (fun s => is_gap coll (sg_gap s)) segs ->
  processed c coll beh h0 (flat_map segment_bytes segs) w ->
  Forall2 (fun s bv => tame (fst bv) /\ exists h, processed c coll (fst bv) h (segment_bytes s) (snd bv)) segs alone ->
  map content (completed beh [] (w_log w)) = flat_map (fun bv => map content (completed (fst bv) [] (w_log (snd bv)))) alone
  /\ held w = [].
Proof. exact gap_independent_lemma. Qed.
Print Assumptions C94_independent.

(** ... and damage to some of the messages, whatever it is, does no harm to the others: in the place of each that is whole,
    that message is delivered and nothing else. *)
Theorem C94_local :
  forall c coll, static_ok coll = true -> index_safe c (capacity coll) ->
  forall cs beh h0 segs w, tame beh -> little cs = little c -> Forall (fun s => is_gap coll (sg_gap s)) segs ->
  Forall (fun s => sendable coll (sg_sent s)) segs -> processed c coll beh h0 (flat_map segment_bytes segs) w ->
  held w = [] /\ exists parts, map content (completed beh [] (w_log w)) = concat parts
    /\ Forall2 (fun s part => (is_message_frame cs coll (fst (sg_sent s)) (snd (sg_sent s)) (sg_body s) -> part = [sg_sent s])
                             /\ 5 * zlen part <= zlen (segment_bytes s)) segs parts.
Proof. exact gap_local_lemma. Qed.
Print Assumptions C94_local.

(** Of a message of fourteen bytes only seven arrive.  After fourteen idle bytes the next message is delivered; after thirteen the
    receiver may still wait for the rest of a longer one, and without any a part of one and the next message may make one that was not sent. *)
Definition broken := Segment (MessageMaxArity, map VInt [9;9;9;9;9;9;9;9;9]) [1;5;2;9;9;9;9] (repeat 0 14).
Definition whole := Segment (MessageB, map VInt [10; 20; 30]) [1;1;2;10;20;30;3;4] (repeat 255 14).

Example C94_case :
  Forall (fun s => is_gap test_basic (sg_gap s)) [broken; whole]
  /\ is_message_frame (desktop true) test_basic MessageB (map VInt [10; 20; 30]) (sg_body whole)
  /\ (exists w, processed (desktop true) test_basic quiet (Some hd1) (flat_map segment_bytes [broken; whole]) w
        /\ map content (w_log w) = [sg_sent whole])
  /\ (exists w, processed (desktop true) test_basic quiet (Some hd1) ([1;2;2] ++ repeat 0 13) w
        /\ held w = [1;2;2] ++ repeat 0 13)
  /\ exists w, processed (desktop true) test_basic quiet (Some hd1) ([1;5;2;9;9;9;9;9;9] ++ [1;4;2;3;4]) w
        /\ map content (w_log w) = [(MessageMaxArity, map VInt [9;9;9;9;9;9;1;4;2])].
Proof.
  split; [|split; [|split; [|split]]].
  - repeat (apply Forall_cons || apply Forall_nil); (split; [|split]; [apply no_code; reflexivity | apply no_code; reflexivity | apply Z.leb_le; reflexivity]).
  - exists 1. split; [split; [lia | reflexivity]|]. split; [|reflexivity].
    intros j (J1 & J2). cbn in J1. assert (j = 0 \/ 1 <= j) as [->|?] by lia; [discriminate | assumption].
  - eexists. split.
    + apply (outcome_processed 100) with (n := 1) (ops := [OpAppend ([1;5;2;9;9;9;9] ++ repeat 0 14 ++ [1;1;2;10;20;30;3;4] ++ repeat 255 14)]).
      vm_compute. reflexivity.
    + vm_compute. reflexivity.
  - eexists. split.
    + apply (outcome_processed 60) with (n := 0) (ops := [OpAppend ([1;2;2] ++ repeat 0 13)]). vm_compute. reflexivity.
    + vm_compute. reflexivity.
  - eexists. split.
    + apply (outcome_processed 60) with (n := 1) (ops := [OpAppend ([1;5;2;9;9;9;9;9;9] ++ [1;4;2;3;4])]). vm_compute. reflexivity.
    + vm_compute. reflexivity.
Qed.
