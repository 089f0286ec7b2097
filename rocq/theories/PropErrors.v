(** Property C82: what the checksum envelope detects and what it misses. *)
From Verif Require Import Runs ErrorLemmas.

(** C82: a frame of the checksum envelope with two adjacent bytes, anywhere in it, altered within eight
    successive bits, in either order of the bits of a byte, is no frame: scanning goes on at its second
    byte. The altered byte may be the id, as long as it does not become the id of a message of another
    payload size (C33_id_byte_refuted). *)
Theorem C82_burst :
  forall c coll, static_ok coll = true -> index_safe c (capacity coll) ->
  forall beh h0 pre ms m id p a x y b x' y' s w, tame beh -> mc_env coll = BasicChecksum ->
  is_frame coll (a ++ x :: y :: b) m id p ->
  bytes_ok [x; y; x'; y'] -> burst x y x' y' -> (x', y') <> (x, y) ->
  (forall m2, has_id coll m2 (nth 1 (a ++ x' :: y' :: b) 0) -> payload_size m2 = payload_size m) ->
  Scan coll pre ms [] -> processed c coll beh h0 (pre ++ (a ++ x' :: y' :: b) ++ s) w ->
  exists ms', Scan coll (tl (a ++ x' :: y' :: b) ++ s) ms' (held w)
    /\ Forall2 (delivers (little c)) (ms ++ ms') (completed beh [] (w_log w)).
Proof. exact burst_lemma. Qed.
Print Assumptions C82_burst.

(** MessageB(10,20,30) with the upper half of 20 and the lower half of 30 altered, and one with the lowest
    bit of 30 and the highest of ETX altered. *)
Example C82_burst_case : burst 20 30 (20 + 6 * 16) 18 /\ burst 30 3 31 131 /\ exists w v,
  is_frame test_checksum [1;1;2;10;20;30;3;67;4] MessageB 1 [10;20;30]
  /\ processed (desktop true) test_checksum quiet (Some hd1) ([1;1;2;10;116;18;3;67;4] ++ [1]) w
  /\ w_log w = [] /\ held w = [1]
  /\ processed (desktop true) test_checksum quiet (Some hd1) ([1;1;2;10;20;31;131;67;4] ++ [1]) v
  /\ w_log v = [] /\ held v = [1].
Proof.
  split; [exists 4; split; [lia | left; split; reflexivity]|].
  split; [exists 1; split; [lia | right; split; reflexivity]|].
  eexists. eexists. split; [split; [split; [discriminate | reflexivity] | split; reflexivity]|].
  split; [apply (outcome_processed 60) with (n := 0) (ops := [OpAppend ([1;1;2;10;116;18;3;67;4] ++ [1])]); vm_compute; reflexivity|].
  split; [vm_compute; reflexivity|]. split; [vm_compute; reflexivity|].
  split; [apply (outcome_processed 60) with (n := 0) (ops := [OpAppend ([1;1;2;10;20;31;131;67;4] ++ [1])]); vm_compute; reflexivity|].
  split; vm_compute; reflexivity.
Qed.

(** ... but a change within nine successive bits, from bit 0 of one byte to bit 0 of the next, can pass. *)
Theorem C82_nine_bits_refuted :
  exists a x y b p p' w, is_frame test_checksum (a ++ x :: y :: b) MessageB 1 p
    /\ processed (desktop true) test_checksum quiet (Some hd1) (a ++ flip x 0 :: flip y 0 :: b) w
    /\ map content (w_log w) = [(MessageB, map VInt p')] /\ p' <> p.
Proof.
  exists [1;1;2], 10, 21, [30;3;68;4], [10;21;30], [11;20;30]. eexists.
  split; [split; [split; [discriminate | reflexivity] | split; reflexivity]|].
  split; [|split].
  - apply (outcome_processed 60) with (ops := [OpAppend [1;1;2;11;20;30;3;68;4]]) (n := 1). vm_compute. reflexivity.
  - reflexivity.
  - discriminate.
Qed.
Print Assumptions C82_nine_bits_refuted.

(** Two bits of different payload bytes changed: delivered, with the changed bytes, exactly if they are
    bits of the same significance that are the highest of their bytes or had different values; otherwise
    scanning goes on at the second byte. *)
Theorem C82_two_bits :
  forall c coll, static_ok coll = true -> index_safe c (capacity coll) ->
  forall beh h0 pre ms m id a x b y d i j k s w, tame beh -> mc_env coll = BasicChecksum ->
  is_frame coll ([1; id; 2] ++ (a ++ x :: b ++ y :: d) ++ [3; k; 4]) m id (a ++ x :: b ++ y :: d) ->
  bytes_ok [x; y] -> 0 <= i < 8 -> 0 <= j < 8 ->
  Scan coll pre ms [] ->
  processed c coll beh h0 (pre ++ ([1; id; 2] ++ (a ++ flip x i :: b ++ flip y j :: d) ++ [3; k; 4]) ++ s) w ->
  (i = j /\ (i = 7 \/ Z.testbit x i <> Z.testbit y j) ->
     exists ms', Scan coll s ms' (held w)
       /\ Forall2 (delivers (little c)) (ms ++ Found m id (a ++ flip x i :: b ++ flip y j :: d) :: ms') (completed beh [] (w_log w)))
  /\ (~ (i = j /\ (i = 7 \/ Z.testbit x i <> Z.testbit y j)) ->
     exists ms', Scan coll ([id; 2] ++ (a ++ flip x i :: b ++ flip y j :: d) ++ [3; k; 4] ++ s) ms' (held w)
       /\ Forall2 (delivers (little c)) (ms ++ ms') (completed beh [] (w_log w))).
Proof. exact two_bits_lemma. Qed.
Print Assumptions C82_two_bits.
(** MessageB(10,20,30): bit 1 of 10 and of 20, set and clear; bit 7 of both, clear; bit 0 of both, clear. *)
Example C82_two_bits_case : exists w1 w2 w3,
  map (fun i => (flip 10 i, flip 20 i)) [1; 7; 0] = [(8, 22); (138, 148); (11, 21)]
  /\ Z.testbit 10 1 <> Z.testbit 20 1 /\ Z.testbit 10 0 = Z.testbit 20 0
  /\ processed (desktop true) test_checksum quiet (Some hd1) ([1;1;2;8;22;30;3;67;4] ++ [1]) w1
  /\ map content (w_log w1) = [(MessageB, map VInt [8;22;30])] /\ held w1 = [1]
  /\ processed (desktop true) test_checksum quiet (Some hd1) ([1;1;2;138;148;30;3;67;4] ++ [1]) w2
  /\ map content (w_log w2) = [(MessageB, map VInt [138;148;30])] /\ held w2 = [1]
  /\ processed (desktop true) test_checksum quiet (Some hd1) ([1;1;2;11;21;30;3;67;4] ++ [1]) w3
  /\ w_log w3 = [] /\ held w3 = [1].
Proof.
  eexists. eexists. eexists. split; [reflexivity|]. split; [discriminate|]. split; [reflexivity|].
  split; [apply (outcome_processed 60) with (n := 1) (ops := [OpAppend ([1;1;2;8;22;30;3;67;4] ++ [1])]); vm_compute; reflexivity|].
  split; [vm_compute; reflexivity|]. split; [vm_compute; reflexivity|].
  split; [apply (outcome_processed 60) with (n := 1) (ops := [OpAppend ([1;1;2;138;148;30;3;67;4] ++ [1])]); vm_compute; reflexivity|].
  split; [vm_compute; reflexivity|]. split; [vm_compute; reflexivity|].
  split; [apply (outcome_processed 60) with (n := 0) (ops := [OpAppend ([1;1;2;11;21;30;3;67;4] ++ [1])]); vm_compute; reflexivity|].
  split; vm_compute; reflexivity.
Qed.

(** A bit of a payload byte and one of the checksum byte changed: delivered exactly if they are bits of
    the same significance that are the highest of their bytes or had the same value. *)
Theorem C82_bit_and_checksum :
  forall c coll, static_ok coll = true -> index_safe c (capacity coll) ->
  forall beh h0 pre ms m id a x d i j k s w, tame beh -> mc_env coll = BasicChecksum ->
  is_frame coll ([1; id; 2] ++ (a ++ x :: d) ++ [3; k; 4]) m id (a ++ x :: d) ->
  0 <= x < 256 -> 0 <= i < 8 -> 0 <= j < 8 ->
  Scan coll pre ms [] ->
  processed c coll beh h0 (pre ++ ([1; id; 2] ++ (a ++ flip x i :: d) ++ [3; flip k j; 4]) ++ s) w ->
  (i = j /\ (i = 7 \/ Z.testbit x i = Z.testbit k j) ->
     exists ms', Scan coll s ms' (held w)
       /\ Forall2 (delivers (little c)) (ms ++ Found m id (a ++ flip x i :: d) :: ms') (completed beh [] (w_log w)))
  /\ (~ (i = j /\ (i = 7 \/ Z.testbit x i = Z.testbit k j)) ->
     exists ms', Scan coll ([id; 2] ++ (a ++ flip x i :: d) ++ [3; flip k j; 4] ++ s) ms' (held w)
       /\ Forall2 (delivers (little c)) (ms ++ ms') (completed beh [] (w_log w))).
Proof. exact bit_and_checksum_lemma. Qed.
Print Assumptions C82_bit_and_checksum.
(** MessageB(10,20,30), checksum 67: bit 1 of 10 and of 67, both set; bit 0, clear and set. *)
Example C82_bit_and_checksum_case : exists w1 w3,
  map (fun i => (flip 10 i, flip 67 i)) [1; 0] = [(8, 65); (11, 66)]
  /\ Z.testbit 10 1 = Z.testbit 67 1 /\ Z.testbit 10 0 <> Z.testbit 67 0
  /\ processed (desktop true) test_checksum quiet (Some hd1) ([1;1;2;8;20;30;3;65;4] ++ [1]) w1
  /\ map content (w_log w1) = [(MessageB, map VInt [8;20;30])] /\ held w1 = [1]
  /\ processed (desktop true) test_checksum quiet (Some hd1) ([1;1;2;11;20;30;3;66;4] ++ [1]) w3
  /\ w_log w3 = [] /\ held w3 = [1].
Proof.
  eexists. eexists. split; [reflexivity|]. split; [reflexivity|]. split; [discriminate|].
  split; [apply (outcome_processed 60) with (n := 1) (ops := [OpAppend ([1;1;2;8;20;30;3;65;4] ++ [1])]); vm_compute; reflexivity|].
  split; [vm_compute; reflexivity|]. split; [vm_compute; reflexivity|].
  split; [apply (outcome_processed 60) with (n := 0) (ops := [OpAppend ([1;1;2;11;20;30;3;66;4] ++ [1])]); vm_compute; reflexivity|].
  split; vm_compute; reflexivity.
Qed.

(** Whatever the checksum byte, exactly one in 256 of the payloads of a message with at least one payload
    byte makes a frame with it. *)
Theorem C82_one_in_256 :
  forall coll m id n k, mc_env coll = BasicChecksum -> has_id coll m id ->
  payload_size m = S n -> 0 <= k < 256 ->
  exists L, NoDup L
    /\ (forall p, In p L <-> bytes_ok p /\ is_frame coll ([1; id; 2] ++ p ++ [3; k; 4]) m id p)
    /\ zlen L = 256 ^ Z.of_nat n.
Proof. exact one_in_256_lemma. Qed.
Print Assumptions C82_one_in_256.
(** 65536 payloads of MessageB go with checksum 67, among them 10,20,30. *)
Example C82_one_in_256_case : mc_env test_checksum = BasicChecksum /\ has_id test_checksum MessageB 1
  /\ payload_size MessageB = 3%nat /\ 256 ^ Z.of_nat 2 = 65536
  /\ is_frame test_checksum ([1; 1; 2] ++ [10;20;30] ++ [3; 67; 4]) MessageB 1 [10;20;30].
Proof.
  split; [reflexivity|]. split; [split; [discriminate | reflexivity]|]. split; [reflexivity|]. split; [reflexivity|].
  split; [split; [discriminate | reflexivity] | split; reflexivity].
Qed.
