(** Property C99: which assertions a program has. *)
From Verif Require Import Runs AssertLemmas.

(** C99: with a Boost that does not define BOOST_ASSERT_MSG, it is what the macros set at the first inclusion of BoostAssertMsg.h
    ask for, whatever is set or included later: nothing, if BOOST_DISABLE_ASSERTS or NDEBUG is set, the user's function, if
    BOOST_ENABLE_ASSERT_HANDLER is, and otherwise a failure ends the program. *)
Theorem C99_msg :
  forall b s0 before s mid after, (forall x, ba_msg b x = None) ->
  ~ In LHeader before -> ~ In LHeader mid -> (forall x, ~ In (LSet x) mid) ->
  exists e, um_msg (preprocessed b s0 (before ++ LSet s :: mid ++ LHeader :: after)) = Some e
    /\ (e = Nothing <-> sw_disable s = true \/ sw_ndebug s = true)
    /\ (e = CallsUser <-> sw_disable s = false /\ sw_ndebug s = false /\ sw_handler s = true).
Proof. exact msg_lemma. Qed.
Print Assumptions C99_msg.

(** BOOST_ASSERT is what Boost makes of the macros set at the last inclusion of boost/assert.hpp. *)
Theorem C99_plain :
  forall b s0 before s mid after, (forall x, ~ In (LSet x) mid) -> ~ In LBoost after -> ~ In LHeader after ->
  um_plain (preprocessed b s0 (before ++ LSet s :: mid ++ LBoost :: after)) = Some (ba_plain b s).
Proof. exact plain_lemma. Qed.
Print Assumptions C99_plain.

(** With a Boost that defines BOOST_ASSERT_MSG the header does no more than to include boost/assert.hpp. *)
Theorem C99_boost :
  forall b s0 before after, (forall x, ba_msg b x <> None) -> ~ In LHeader before -> ~ In LHeader after ->
  um_msg (preprocessed b s0 (before ++ LHeader :: after)) = um_msg (preprocessed b s0 (before ++ LBoost :: after))
  /\ um_plain (preprocessed b s0 (before ++ LHeader :: after)) = um_plain (preprocessed b s0 (before ++ LBoost :: after)).
Proof. exact boost_own_lemma. Qed.
Print Assumptions C99_boost.

(** Whatever BOOST_ASSERT_MSG, BOOST_ASSERT and the checks of boost::array are, each separately, and whatever the user's functions
    do: a receiver given the same calls returns the same and looks the same. *)
Theorem C99_builds :
  forall c coll, static_ok coll = true -> index_safe c (capacity coll) ->
  forall beh h0 ops S rs w e1 e2 e3 r1 r2 r3, tame beh -> history c coll beh (start coll h0) ops S rs w ->
  exists v, history (Config (int_bits c) (little c) (acts_as r1 e1) (acts_as r2 e2) (acts_as r3 e3)) coll beh (start coll h0) ops S rs v
    /\ same_view coll w v.
Proof. exact switched_lemma. Qed.
Print Assumptions C99_builds.

(** A condition that does not hold - of the code's own assertions, of its BOOST_ASSERTs, or that an index of boost::array is in
    range - ends the program exactly when the macro calls the function that does, or the user's and that does not return. *)
Theorem C99_failure :
  forall i l r1 e1 r2 e2 r3 e3 cap k,
  let c := Config i l (acts_as r1 e1) (acts_as r2 e2) (acts_as r3 e3) in
  let ends r e := e = CallsAbort \/ (e = CallsUser /\ r = false) in
  (assert_ c false = AssertFail <-> ends r1 e1) /\ (assert_ c false = Ok tt <-> ~ ends r1 e1)
  /\ (assert_plain c false = AssertFail <-> ends r2 e2) /\ (assert_plain c false = Ok tt <-> ~ ends r2 e2)
  /\ (k < 0 \/ cap <= k -> (array_check c cap k = AssertFail <-> ends r3 e3) /\ (array_check c cap k = UB <-> ~ ends r3 e3)).
Proof. exact ends_lemma. Qed.
Print Assumptions C99_failure.

(** Expected: BOOST_ASSERT and BOOST_ASSERT_MSG, with the same macros set, are switched on or off together.  With the older versions
    of Boost they are, except with BOOST_ENABLE_ASSERT_HANDLER and NDEBUG: then only BOOST_ASSERT calls the user's function. *)
Theorem C99_old :
  forall s, (sw_ndebug s = true /\ sw_handler s = true /\ sw_disable s = false)
  \/ um_plain (preprocessed old_boost s [LHeader]) = um_msg (preprocessed old_boost s [LHeader]).
Proof. exact old_lemma. Qed.
Print Assumptions C99_old.
Theorem C99_together_refuted :
  exists s, um_plain (preprocessed old_boost s [LHeader]) = Some CallsUser /\ um_msg (preprocessed old_boost s [LHeader]) = Some Nothing.
Proof. exact together_lemma. Qed.
Print Assumptions C99_together_refuted.

(** A file that sets NDEBUG too late, as some header has included BoostAssertMsg.h: BOOST_ASSERT is off, BOOST_ASSERT_MSG is
    not.  And a receiver in the mixed build of [C99_together_refuted] that gets MessageB(10,20,30). *)
Example C99_case :
  preprocessed old_boost (Switches false false false) [LHeader; LSet (Switches false true false); LBoost; LHeader]
  = UnitMacros (Switches false true false) (Some Nothing) (Some CallsAbort) true
  /\ exists w, processed (Config 32 true (acts_as false Nothing) (acts_as true CallsUser) (acts_as false CallsAbort)) test_checksum quiet (Some hd1) [1; 1; 2; 10; 20; 30; 3; 67; 4] w
     /\ map content (w_log w) = [(MessageB, map VInt [10; 20; 30])].
Proof.
  split; [reflexivity|]. eexists.
  split; [apply (outcome_processed 60) with (n := 1) (ops := [OpAppend [1; 1; 2; 10; 20; 30; 3; 67; 4]]); vm_compute; reflexivity|].
  vm_compute. reflexivity.
Qed.
