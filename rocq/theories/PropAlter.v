(** Property C98: how many alterations of several bytes the checksum misses. *)
From Verif Require Import Runs AlterLemmas.

(** C98: of the 255^j ways to alter j given bytes, all of them altered, among payload and checksum byte of a frame of the
    checksum envelope, exactly (255^j + 255 (-1)^j) / 256 make a frame again: none of those of a single byte, 255 of those of
    two bytes, and about one in 256 of those of more. *)
Theorem C98_missed :
  forall coll m id p k mask sum, mc_env coll = BasicChecksum ->
  is_frame coll ([1; id; 2] ++ p ++ [3; k; 4]) m id p -> bytes_ok p -> length mask = length p ->
  exists L, NoDup L
    /\ (forall p' k', In (p', k') L <-> bytes_ok p' /\ altered_at (mask ++ [sum]) (p ++ [k]) (p' ++ [k'])
          /\ is_frame coll ([1; id; 2] ++ p' ++ [3; k'; 4]) m id p')
    /\ 256 * zlen L = 255 ^ marked (mask ++ [sum]) + 255 * (-1) ^ marked (mask ++ [sum]).
Proof. exact missed_lemma. Qed.
Print Assumptions C98_missed.
Theorem C98_possible :
  forall mask q, length mask = length q -> bytes_ok q ->
  exists L, NoDup L /\ (forall q', In q' L <-> altered_at mask q q' /\ bytes_ok q') /\ zlen L = 255 ^ marked mask.
Proof. exact possible_lemma. Qed.
Print Assumptions C98_possible.

(** These are the ones a receiver delivers, wherever in a stream; of the others it skips the first byte. *)
Theorem C98_delivered :
  forall c coll, static_ok coll = true -> index_safe c (capacity coll) ->
  forall beh h0 pre ms m id p k mask sum, tame beh -> mc_env coll = BasicChecksum ->
  is_frame coll ([1; id; 2] ++ p ++ [3; k; 4]) m id p -> bytes_ok p -> length mask = length p ->
  Scan coll pre ms [] ->
  exists L, NoDup L
    /\ 256 * zlen L = 255 ^ marked (mask ++ [sum]) + 255 * (-1) ^ marked (mask ++ [sum])
    /\ (forall p' k', In (p', k') L -> bytes_ok (p' ++ [k']) /\ altered_at (mask ++ [sum]) (p ++ [k]) (p' ++ [k']))
    /\ forall p' k' s w, bytes_ok (p' ++ [k']) -> altered_at (mask ++ [sum]) (p ++ [k]) (p' ++ [k']) ->
       processed c coll beh h0 (pre ++ ([1; id; 2] ++ p' ++ [3; k'; 4]) ++ s) w ->
       (In (p', k') L -> exists ms', Scan coll s ms' (held w)
          /\ Forall2 (delivers (little c)) (ms ++ Found m id p' :: ms') (completed beh [] (w_log w)))
       /\ (~ In (p', k') L -> exists ms', Scan coll ([id; 2] ++ p' ++ [3; k'; 4] ++ s) ms' (held w)
          /\ Forall2 (delivers (little c)) (ms ++ ms') (completed beh [] (w_log w))).
Proof. exact missed_delivered. Qed.
Print Assumptions C98_delivered.

(** If each byte of payload and checksum is altered with the probability e, independently of the others and to each of the 255
    other values with the same probability, then a frame arrives, altered or not, with the probability
    (1 + 255 (1 - 256 e / 255)^n) / 256, where n is the number of these bytes; here with the probabilities of a certain
    altered value and of the right one as arbitrary numbers [a] and [b] (a = e / 255, b = 1 - e, both in some small unit). *)
Theorem C98_weighted :
  forall coll m id p k a b, mc_env coll = BasicChecksum ->
  is_frame coll ([1; id; 2] ++ p ++ [3; k; 4]) m id p -> bytes_ok p ->
  exists L, NoDup L
    /\ (forall p' k', In (p', k') L <-> bytes_ok p' /\ is_frame coll ([1; id; 2] ++ p' ++ [3; k'; 4]) m id p')
    /\ 256 * zsum (map (fun r => weight a b (p ++ [k]) (fst r ++ [snd r])) L)
       = (b + 255 * a) ^ (zlen p + 1) + 255 * (b - a) ^ (zlen p + 1).
Proof. exact weighted_lemma. Qed.
Print Assumptions C98_weighted.

(** MessageB(10,20,30), checksum 67: two payload bytes altered so that the sum is kept, and three bytes so that it is not. *)
Example C98_case :
  is_frame test_checksum ([1; 1; 2] ++ [10; 20; 30] ++ [3; 67; 4]) MessageB 1 [10; 20; 30]
  /\ map (fun j => (255 ^ j + 255 * (-1) ^ j) / 256) [1; 2; 3; 4] = [0; 255; 64770; 16516605]
  /\ altered_at ([true; false; true] ++ [false]) ([10; 20; 30] ++ [67]) ([11; 20; 29] ++ [67])
  /\ altered_at ([true; false; true] ++ [true]) ([10; 20; 30] ++ [67]) ([11; 20; 29] ++ [68])
  /\ marked ([true; false; true] ++ [true]) = 3
  /\ weight 2 7 ([10; 20; 30] ++ [67]) ([11; 20; 29] ++ [68]) = 56
  /\ exists w v, processed (desktop true) test_checksum quiet (Some hd1) ([1; 1; 2; 11; 20; 29; 3; 67; 4] ++ [1]) w
     /\ map content (w_log w) = [(MessageB, map VInt [11; 20; 29])]
     /\ processed (desktop true) test_checksum quiet (Some hd1) ([1; 1; 2; 11; 20; 29; 3; 68; 4] ++ [1]) v /\ w_log v = [].
Proof.
  split; [split; [split; [discriminate | reflexivity] | split; reflexivity]|]. split; [vm_compute; reflexivity|].
  split; [apply alt_change; [discriminate|]; apply alt_keep; apply alt_change; [discriminate|]; repeat constructor|].
  split; [apply alt_change; [discriminate|]; apply alt_keep; apply alt_change; [discriminate|]; apply alt_change; [discriminate | constructor]|].
  split; [reflexivity|]. split; [reflexivity|]. eexists. eexists.
  split; [apply (outcome_processed 60) with (n := 1) (ops := [OpAppend ([1; 1; 2; 11; 20; 29; 3; 67; 4] ++ [1])]); vm_compute; reflexivity|].
  split; [vm_compute; reflexivity|].
  split; [apply (outcome_processed 60) with (n := 0) (ops := [OpAppend ([1; 1; 2; 11; 20; 29; 3; 68; 4] ++ [1])]); vm_compute; reflexivity|].
  vm_compute. reflexivity.
Qed.
