(** Properties C56, C57, C75: EnvelopeReceiveBuffer used on its own.

    [er_reached c coll ready e]: [e] is the state of such a buffer after any sequence of calls
    keeping to the reported space and popping only found messages. *)
From Verif Require Import WorkLemmas Protocol.

(** C56: appending: the reported space is exact; bytes go to the end and the current id stays ... *)
Theorem C56_append :
  forall c coll, static_ok coll = true -> index_safe c (capacity coll) ->
  forall ready e, er_reached c coll ready e ->
  er_available coll e = capacity coll - zlen (er_held e)
  /\ (forall d, zlen d <= er_available coll e ->
        exists e', er_append c coll d e = Ok e' /\ er_held e' = er_held e ++ d /\ er_id e' = er_id e)
  /\ (forall x, 1 <= er_available coll e ->
        exists e', er_append1 c coll x e = Ok e' /\ er_held e' = er_held e ++ [x] /\ er_id e' = er_id e)
  /\ (forall a n, adapter_ok a -> 0 <= n <= 255 ->
        let d := fst (ad_read a (Z.min n (er_available coll e))) in
        exists e', er_from_functor c coll (adapter_call a) n e = Ok (e', zlen d)
          /\ er_held e' = er_held e ++ d /\ er_id e' = er_id e).
Proof. exact envelope_append_lemma. Qed.
Print Assumptions C56_append.

(** ... checkBufferForMessage always returns, drops only bytes that begin no frame, gives the same
    answer when repeated, and tells whether the first frame is complete: if so it is at the
    front with its id and length reported; if not, what is left needs more bytes ... *)
Theorem C56_check :
  forall c coll, static_ok coll = true -> index_safe c (capacity coll) ->
  forall ready e, er_reached c coll ready e ->
  exists b e', check c coll e = Ok (b, e')
    /\ (exists dropped, er_held e = dropped ++ er_held e')
    /\ Consumed coll (er_held e) [] (er_held e')
    /\ check c coll e' = Ok (b, e')
    /\ if b then exists f m id p s, er_held e' = f ++ s /\ is_frame coll f m id p
               /\ er_current_id c e' = Ok id /\ er_message_length c coll e' = Ok (zlen f)
       else undecided coll (er_held e').
Proof. exact envelope_check_lemma. Qed.
Print Assumptions C56_check.

(** ... popMessage removes exactly the found frame ... *)
Theorem C56_pop :
  forall c coll, static_ok coll = true -> index_safe c (capacity coll) ->
  forall e, er_reached c coll true e ->
  exists f m id p e', er_current_id c e = Ok id /\ is_frame coll f m id p /\ er_held e = f ++ er_held e'
    /\ er_pop_message c coll e = Ok e' /\ er_id_valid e' = false.
Proof. exact envelope_pop_lemma. Qed.
Print Assumptions C56_pop.

(** ... and, when there is none, is stopped by an assertion, if assertions are on. *)
Theorem C56_pop_asserts :
  forall c coll ready e e', er_reached c coll ready e -> aborts c = true ->
  check c coll e = Ok (false, e') -> er_pop_message c coll e = AssertFail.
Proof. exact envelope_pop_assert_lemma. Qed.
Print Assumptions C56_pop_asserts.

(** When no id is set, as in a new buffer and after popMessage, the id and the length must not be asked for:
    an assertion fails, that of BOOST_ASSERT, or if that does not stop the program there is undefined behaviour; the same for
    popMessage without BOOST_ASSERT_MSG, and with a reporting handler of it if the check sets no id either. *)
Theorem C56_no_id :
  forall c coll e, er_id_valid e = false ->
  let stop {A} : outcome A := if stops (plain c) then AssertFail else UB in
  er_current_id c e = stop /\ er_message_length c coll e = stop
  /\ (mode c = Disabled -> er_pop_message c coll e = stop)
  /\ (mode c = Reporting -> forall e', check c coll e = Ok (false, e') -> er_id_valid e' = false -> er_pop_message c coll e = stop).
Proof. exact no_id_lemma. Qed.
Print Assumptions C56_no_id.
Example C56_no_id_case :
  er_id_valid (er_init test_basic) = false
  /\ er_message_length (desktop true) test_basic (er_init test_basic) = AssertFail
  /\ er_pop_message (desktop false) test_basic (er_init test_basic) = UB
  /\ er_pop_message (Config 32 true Disabled Aborting Disabled) test_basic (er_init test_basic) = AssertFail
  /\ er_pop_message (Config 32 true Reporting Reporting Reporting) test_basic (er_init test_basic) = UB.
Proof. repeat split. Qed.

(** Noise, a MessageEmpty with a wrong end, then MessageB and a beginning. *)
Definition e_data : list Z := [7;1;4;2;3;9; 1;1;2;10;20;30;3;4; 1;0].
Example C56_case :
  exists e e1 e2, er_append (desktop true) test_basic e_data (er_init test_basic) = Ok e
    /\ er_reached (desktop true) test_basic false e
    /\ check (desktop true) test_basic e = Ok (true, e1) /\ er_held e1 = [1;1;2;10;20;30;3;4; 1;0]
    /\ er_reached (desktop true) test_basic true e1
    /\ er_pop_message (desktop true) test_basic e1 = Ok e2 /\ er_held e2 = [1;0]
    /\ (exists e3, check (desktop true) test_basic e2 = Ok (false, e3))
    /\ er_pop_message (desktop true) test_basic e2 = AssertFail.
Proof.
  assert (exists e, er_append (desktop true) test_basic e_data (er_init test_basic) = Ok e) as (e & E) by (eexists; reflexivity).
  assert (er_reached (desktop true) test_basic false e) as R.
  { eapply er_reached_append; [apply er_reached_new | | | exact E].
    - repeat constructor; lia.
    - vm_compute. discriminate. }
  assert (exists e1, check (desktop true) test_basic e = Ok (true, e1)) as (e1 & E1).
  { vm_compute in E. injection E as <-. eexists. vm_compute. reflexivity. }
  assert (er_reached (desktop true) test_basic true e1) as R1 by (eapply er_reached_check; eassumption).
  vm_compute in E. injection E as <-. vm_compute in E1. injection E1 as <-.
  do 3 eexists. split; [reflexivity|]. split; [exact R|]. split; [vm_compute; reflexivity|]. split; [reflexivity|].
  split; [exact R1|]. split; [vm_compute; reflexivity|]. split; [reflexivity|]. split; [eexists|]; vm_compute; reflexivity.
Qed.

(** "isCurrentMessageIdValid tells whether a message was found" is false: after a check that
    found nothing an id may be set, even with nothing held.  Without assertions popMessage then
    removes bytes that are not there, and the buffer reports more bytes than its capacity;
    or, after a complete message was appended, it removes a part of it. *)
Theorem C56_stale_id_refuted :
  exists coll e e' e2 e3 e4, static_ok coll = true
    /\ er_reached (desktop false) coll false e /\ check (desktop false) coll e = Ok (false, e')
    /\ er_id_valid e' = true /\ er_held e' = []
    /\ er_pop_message (desktop false) coll e' = Ok e2
    /\ capacity coll < rb_size (capacity coll) (er_buf e2)
    /\ er_append (desktop false) coll [1;1;2;10;20;30;3;4] e' = Ok e3
    /\ er_pop_message (desktop false) coll e3 = Ok e4 /\ er_held e4 = [30;3;4].
Proof.
  exists test_basic.
  assert (exists e, er_append (desktop false) test_basic [1;4;9] (er_init test_basic) = Ok e) as (e & E) by (eexists; reflexivity).
  assert (er_reached (desktop false) test_basic false e) as R.
  { eapply er_reached_append; [apply er_reached_new | | | exact E].
    - repeat constructor; lia.
    - vm_compute. discriminate. }
  vm_compute in E. injection E as <-. do 5 eexists. split; [reflexivity|]. split; [exact R|].
  split; [vm_compute; reflexivity|]. split; [reflexivity|]. split; [reflexivity|].
  split; [vm_compute; reflexivity|]. split; [vm_compute; reflexivity|]. split; [vm_compute; reflexivity|].
  split; vm_compute; reflexivity.
Qed.
Print Assumptions C56_stale_id_refuted.

(** C57: checkBufferForMessage calls itself for every byte it drops, not in tail position of a loop.
    As many levels as bytes held suffice, at least one ... *)
Theorem C57_depth_bound :
  forall c coll, static_ok coll = true -> index_safe c (capacity coll) ->
  forall ready e n, er_reached c coll ready e -> (1 <= n)%nat -> zlen (er_held e) <= Z.of_nat n ->
  check_fuel n c coll e = check c coll e /\ exists b e', check c coll e = Ok (b, e').
Proof. exact depth_bound_lemma. Qed.
Print Assumptions C57_depth_bound.

(** ... and for every number of bytes up to the capacity there are bytes that need as many levels. *)
Theorem C57_depth_attained :
  forall c coll, static_ok coll = true -> index_safe c (capacity coll) ->
  forall k, (1 <= k)%nat -> Z.of_nat k <= capacity coll ->
  exists e, er_append c coll (repeat 1 (k - 1) ++ [255]) (er_init coll) = Ok e
    /\ er_reached c coll false e /\ zlen (er_held e) = Z.of_nat k
    /\ (forall n, (n < k)%nat -> check_fuel n c coll e = Hang)
    /\ exists b e', check_fuel k c coll e = Ok (b, e').
Proof. exact depth_attained_lemma. Qed.
Print Assumptions C57_depth_attained.

(** 51 levels for the collection of the tests. *)
Example C57_case :
  Z.of_nat 51 = capacity test_basic
  /\ exists e, er_append (avr true) test_basic (repeat 1 50 ++ [255]) (er_init test_basic) = Ok e
    /\ check_fuel 50 (avr true) test_basic e = Hang
    /\ exists e', check_fuel 51 (avr true) test_basic e = Ok (false, e') /\ er_held e' = [].
Proof.
  split; [reflexivity|]. eexists. split; [vm_compute; reflexivity|]. split; [vm_compute; reflexivity|].
  eexists. split; vm_compute; reflexivity.
Qed.

(** C75: a call of checkBufferForMessage makes at most one call of itself for every byte it drops ... *)
Theorem C75_one_check :
  forall c coll, static_ok coll = true -> index_safe c (capacity coll) ->
  forall ready e b e' l, er_reached c coll ready e -> check c coll e = Ok (b, e') -> levels c coll e l ->
  Z.of_nat l <= zlen (er_held e) - zlen (er_held e') + 1.
Proof. exact one_check_lemma. Qed.
Print Assumptions C75_one_check.

(** ... so over the life of a buffer all calls together are no more than those made from outside and the bytes
    appended that are no longer held.  Every state a buffer can reach has these numbers. *)
Theorem C75_total_work :
  forall c coll, static_ok coll = true -> index_safe c (capacity coll) ->
  forall n k b ready e, er_work c coll n k b ready e -> k <= n + (b - zlen (er_held e)).
Proof. intros c coll Hst Hs n k b ready e H. pose proof (work_lemma c coll Hst Hs n k b ready e H). lia. Qed.
Print Assumptions C75_total_work.
Theorem C75_counted :
  forall c coll, static_ok coll = true -> index_safe c (capacity coll) ->
  forall ready e, er_reached c coll ready e <-> exists n k b, er_work c coll n k b ready e.
Proof.
  intros c coll Hst Hs ready e. split; [apply (work_exists c coll Hst Hs)|].
  intros (n & k & b & H). exact (work_reached c coll n k b ready e H).
Qed.
Print Assumptions C75_counted.
(** Start codes only, then an invalid id: one check, 50 calls of itself, which is the bound. *)
Example C75_case : exists e,
  er_work (avr true) test_basic 1 51 51 false e /\ er_held e = [].
Proof.
  eexists. split.
  - refine (er_work_check _ _ 0 0 51 false _ false _ 51 _ _ _).
    + refine (er_work_append _ _ 0 0 0 false _ (repeat 1 50 ++ [255]) _ (er_work_new _ _) _ _ _).
      * apply Forall_forall. intros x Hx. cbn in Hx. lia.
      * vm_compute. discriminate.
      * vm_compute. reflexivity.
    + vm_compute. reflexivity.
    + split.
      * intros n Hn. do 51 (destruct n as [|n]; [vm_compute; reflexivity|]). lia.
      * vm_compute. discriminate.
  - vm_compute. reflexivity.
Qed.
