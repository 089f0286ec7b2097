(** Property theorems: accesses to the elements of the receive buffer. *)
From Verif Require Import CostLemmas Protocol.

(** C86: the functions that count accesses return what those that do not count return ... *)
Theorem C86_same_results :
  forall c coll e, fst (c_check c coll e) = check c coll e /\ fst (c_pop_message c coll e) = er_pop_message c coll e.
Proof. exact same_result_lemma. Qed.
Print Assumptions C86_same_results.

(** ... with the Basic envelope one check makes at most six accesses for every byte it drops, and five more ... *)
Theorem C86_basic :
  forall c coll, static_ok coll = true -> index_safe c (capacity coll) -> mc_env coll = Basic ->
  forall ready e b e', er_reached c coll ready e -> check c coll e = Ok (b, e') ->
  accesses (c_check c coll e) <= 6 * (zlen (er_held e) - zlen (er_held e')) + 5.
Proof. exact basic_check_lemma. Qed.
Print Assumptions C86_basic.

(** ... with BasicChecksum at most five more than the longest frame is long for every byte ... *)
Theorem C86_checksum :
  forall c coll L, static_ok coll = true -> index_safe c (capacity coll) -> mc_env coll = BasicChecksum -> longest coll L ->
  forall ready e b e', er_reached c coll ready e -> check c coll e = Ok (b, e') ->
  accesses (c_check c coll e) <= (L + 5) * (zlen (er_held e) - zlen (er_held e')) + (L + 4).
Proof. exact checksum_check_lemma. Qed.
Print Assumptions C86_checksum.

(** ... and over the life of a buffer as much for every byte no longer held and every check. *)
Theorem C86_total :
  forall c coll L, static_ok coll = true -> index_safe c (capacity coll) -> longest coll L ->
  forall n a b ready e, er_cost c coll n a b ready e ->
  a <= match mc_env coll with Basic => 6 | BasicChecksum => L + 5 end * (n + (b - zlen (er_held e))).
Proof. exact total_cost_lemma. Qed.
Print Assumptions C86_total.

Theorem C86_counted :
  forall c coll, static_ok coll = true -> index_safe c (capacity coll) ->
  forall ready e, er_reached c coll ready e <-> exists n a b, er_cost c coll n a b ready e.
Proof. exact counted_lemma. Qed.
Print Assumptions C86_counted.

(** "The work is linear in the bytes received, whatever the messages' length" is false with BasicChecksum: for a
    frame of [L] bytes, [k] beginnings followed by [k] ends with wrong checksums, [L - 3 + 3 k] bytes in all and
    so fewer than [2 L], make one check sum up [k] times; [k] may be a third of [L]. *)
Theorem C86_linear_refuted :
  forall c coll, static_ok coll = true -> index_safe c (capacity coll) -> mc_env coll = BasicChecksum ->
  forall m id k, has_id coll m id -> (3 * k + 3 <= frame_size (mc_env coll) m)%nat ->
  exists d e, bytes_ok d /\ length d = (3 * k + frame_size (mc_env coll) m - 3)%nat
    /\ er_append c coll d (er_init coll) = Ok e /\ er_reached c coll false e
    /\ Z.of_nat k * (Z.of_nat (frame_size (mc_env coll) m) + 5) <= accesses (c_check c coll e).
Proof. exact attained_lemma. Qed.
Print Assumptions C86_linear_refuted.

(** The collection of the tests: a check past noise to a complete message, then popMessage with its own check. *)
Example C86_case :
  longest test_basic 17 /\ longest test_checksum 18
  /\ exists n a e, er_cost (avr true) test_basic n a 11 false e /\ n = 1 /\ a = 18 /\ er_held e = [].
Proof.
  split; [|split].
  - intros m Hm. cbn in Hm. repeat (destruct Hm as [<-|Hm]; [cbn; lia|]). contradiction.
  - intros m Hm. cbn in Hm. repeat (destruct Hm as [<-|Hm]; [cbn; lia|]). contradiction.
  - do 3 eexists. split.
    + eapply er_cost_pop.
      * eapply er_cost_check.
        -- refine (er_cost_append _ _ 0 0 0 false _ [7; 1; 9; 1;1;2;10;20;30;3;4] _ (er_cost_new _ _) _ _ _).
           ++ repeat constructor; lia.
           ++ vm_compute. discriminate.
           ++ vm_compute. reflexivity.
        -- vm_compute. reflexivity.
      * vm_compute. reflexivity.
    + split; [vm_compute; reflexivity|]. split; [vm_compute; reflexivity|]. vm_compute. reflexivity.
Qed.

(** The longest message of the tests, 18 bytes: 30 bytes, 5 sums, 165 accesses. *)
Example C86_linear_case : exists m, has_id test_checksum m 2 /\ (3 * 5 + 3 <= frame_size (mc_env test_checksum) m)%nat
  /\ exists e, er_append (avr true) test_checksum (flat_map (fun _ => [1;2;2]) (seq 0 5) ++ flat_map (fun _ => [3;10;4]) (seq 0 5)) (er_init test_checksum) = Ok e
    /\ accesses (c_check (avr true) test_checksum e) = 165.
Proof.
  eexists. split; [split; [lia | reflexivity]|]. split; [vm_compute; lia|]. eexists.
  split; [vm_compute; reflexivity|]. vm_compute. reflexivity.
Qed.
