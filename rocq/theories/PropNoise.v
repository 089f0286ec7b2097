(** Property C84: how rarely noise is taken for messages. *)
From Verif Require Import Runs NoiseLemmas.

(** C84: of the strings of [n] arbitrary bytes, after traffic that was dealt with completely, the messages
    found in all of them together are at most as many as there are strings, times the places where a
    message could be, divided by 256^5 (Basic) or 256^6 (BasicChecksum). [res s] is the receiver after
    the string [s]. *)
Theorem C84_average :
  forall c coll, static_ok coll = true -> index_safe c (capacity coll) ->
  forall beh, tame beh ->
  forall h0 pre ms n L (res : list Z -> world), Scan coll pre ms [] -> all_strings n L ->
  (forall s, In s L -> processed c coll beh h0 (pre ++ s) (res s)) ->
  zsum (map (fun s => zlen (completed beh [] (w_log (res s))) - zlen ms) L) * 256 ^ redundant (mc_env coll)
  <= places coll n * 256 ^ Z.of_nat n.
Proof. exact noise_average_lemma. Qed.
Print Assumptions C84_average.

(** So are the strings in which a message is found at all. *)
Theorem C84_rare :
  forall c coll, static_ok coll = true -> index_safe c (capacity coll) ->
  forall beh, tame beh ->
  forall h0 pre ms n L (res : list Z -> world), Scan coll pre ms [] -> all_strings n L ->
  (forall s, In s L -> processed c coll beh h0 (pre ++ s) (res s)) ->
  forall bad, NoDup bad ->
  (forall s, In s bad -> In s L /\ length (completed beh [] (w_log (res s))) <> length ms) ->
  zlen bad * 256 ^ redundant (mc_env coll) <= places coll n * 256 ^ Z.of_nat n.
Proof. exact noise_rare_lemma. Qed.
Print Assumptions C84_rare.

(** The bound is attained: for messages of one size and strings of that size. *)
Theorem C84_exact :
  forall c coll, static_ok coll = true -> index_safe c (capacity coll) ->
  forall beh, tame beh ->
  forall h0 pre ms n L (res : list Z -> world), Scan coll pre ms [] -> all_strings n L ->
  (forall m, In m (mc_types coll) -> frame_size (mc_env coll) m = n) ->
  (forall s, In s L -> processed c coll beh h0 (pre ++ s) (res s)) ->
  zsum (map (fun s => zlen (completed beh [] (w_log (res s))) - zlen ms) L) * 256 ^ redundant (mc_env coll)
  = zlen (mc_types coll) * 256 ^ Z.of_nat n.
Proof. exact noise_exact_lemma. Qed.
Print Assumptions C84_exact.

(** The calls do return: the strings fed to a new receiver byte by byte, with processMessages after each. *)
Theorem C84_run :
  forall c coll, static_ok coll = true -> index_safe c (capacity coll) ->
  forall beh, steady beh -> (forall log, hr_throws (beh log) = false) -> bool_free coll ->
  forall fuel, (Z.to_nat (capacity coll) < fuel)%nat ->
  forall h n L, (0 < n)%nat -> all_strings n L ->
  exists res, (forall s, In s L -> exists rs,
      run fuel c coll beh (feed (map (fun b => [b]) s)) (start coll (Some h)) = Ok (res s, rs))
    /\ zsum (map (fun s => zlen (w_log (res s))) L) * 256 ^ redundant (mc_env coll) <= places coll n * 256 ^ Z.of_nat n
    /\ zlen (filter (fun s => 0 <? zlen (w_log (res s))) L) * 256 ^ redundant (mc_env coll) <= places coll n * 256 ^ Z.of_nat n.
Proof. exact noise_run_lemma. Qed.
Print Assumptions C84_run.

(** The test collection, nine bytes of noise: ten places for a message without the checksum, six with
    it, where no more than six strings in 256^6 contain one. Strings of nine bytes exist, all of them can
    be received, in some a message is found, in others none. *)
Example C84_case :
  places test_basic 9 = 10 /\ places test_checksum 9 = 6 /\ redundant Basic = 5 /\ redundant BasicChecksum = 6
  /\ exists L res, all_strings 9 L
    /\ (forall s, In s L -> processed (desktop true) test_checksum quiet (Some hd1) ([1;1;2;10;20;30;3;67;4] ++ s) (res s))
    /\ (exists s, In s L /\ map content (w_log (res s)) = [(MessageB, [VInt 10; VInt 20; VInt 30]); (MessageB, [VInt 1; VInt 2; VInt 3])])
    /\ (exists s, In s L /\ map content (w_log (res s)) = [(MessageB, [VInt 10; VInt 20; VInt 30])]).
Proof.
  split; [vm_compute; reflexivity|]. split; [vm_compute; reflexivity|]. split; [reflexivity|]. split; [reflexivity|].
  exists (payloads 9), (fun s => fed 60 (desktop true) test_checksum quiet hd1 ([1;1;2;10;20;30;3;67;4] ++ s)).
  split; [apply payloads_all|]. split; [|split].
  - intros s Hs. apply payloads_in in Hs as (_ & HB). apply fed_processed; try reflexivity.
    + left. reflexivity.
    + intros log a [].
    + intros m t Hm Ht. cbn in Hm. intuition; subst; cbn in Ht; intuition; subst; discriminate.
    + vm_compute. lia.
    + apply Forall_app. split; [|assumption]. repeat constructor; discriminate.
    + discriminate.
  - exists [1;1;2;1;2;3;3;13;4]. split; [|vm_compute; reflexivity]. apply payloads_in. split; [reflexivity|]. repeat constructor; discriminate.
  - exists [1;1;2;1;2;3;3;14;4]. split; [|vm_compute; reflexivity]. apply payloads_in. split; [reflexivity|]. repeat constructor; discriminate.
Qed.
(** Only MessageB, 8 bytes: exactly 256^3 of the 256^8 strings. *)
Example C84_exact_case : exists coll, coll = Collection [MessageB] Basic /\ static_ok coll = true
  /\ (forall m, In m (mc_types coll) -> frame_size (mc_env coll) m = 8%nat)
  /\ zlen (mc_types coll) * 256 ^ Z.of_nat 8 = 256 ^ 3 * 256 ^ redundant (mc_env coll)
  /\ exists w, processed (desktop true) coll quiet (Some hd1) [1;0;2;1;2;3;3;4] w
     /\ map content (w_log w) = [(MessageB, [VInt 1; VInt 2; VInt 3])].
Proof.
  eexists. split; [reflexivity|]. split; [reflexivity|]. split; [intros m [<-|[]]; reflexivity|]. split; [reflexivity|].
  eexists. split; [apply (outcome_processed 60) with (n := 1) (ops := [OpAppend [1;0;2;1;2;3;3;4]]); vm_compute; reflexivity|].
  vm_compute. reflexivity.
Qed.
