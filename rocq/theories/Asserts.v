(** Which assertions a program has: the preprocessor's way through util/BoostAssertMsg.h. *)
From Verif Require Export Receive.

(** The macros that decide about assertions, set or not: BOOST_DISABLE_ASSERTS, NDEBUG (util/BoostAssertMsg.h:44) and
    BOOST_ENABLE_ASSERT_HANDLER (line 48). *)
Record switches := Switches { sw_disable : bool; sw_ndebug : bool; sw_handler : bool }.

(** What an assertion macro expands to: nothing (line 46), a call of a function the user has to define when the condition does not
    hold (lines 53-58), or a call of a function that ends the program (lines 75-80 and 91-94). *)
Inductive expansion := Nothing | CallsUser | CallsAbort.

(** boost/assert.hpp, which is not in /repo: it has no include guard, and wherever it is included it defines BOOST_ASSERT anew,
    and BOOST_ASSERT_MSG in those versions of Boost that have it, according to the macros set there.  An arbitrary function. *)
Record boost_assert := BoostAssert { ba_plain : switches -> expansion; ba_msg : switches -> option expansion }.

(** The preprocessor: macros set, what BOOST_ASSERT and BOOST_ASSERT_MSG are defined as, whether BoostAssertMsg.h has been read
    (line 30). *)
Record unit_macros := UnitMacros { um_set : switches; um_plain : option expansion; um_msg : option expansion; um_seen : bool }.

(** #include <boost/assert.hpp>. *)
Definition include_boost (b : boost_assert) (u : unit_macros) : unit_macros :=
  UnitMacros (um_set u) (Some (ba_plain b (um_set u)))
    (match ba_msg b (um_set u) with Some e => Some e | None => um_msg u end) (um_seen u).

(** The definition of BOOST_ASSERT_MSG in BoostAssertMsg.h, lines 44-95. *)
Definition header_msg (s : switches) : expansion :=
  if sw_disable s || sw_ndebug s then Nothing
  else if sw_handler s then CallsUser
  else CallsAbort.

(** #include <util/BoostAssertMsg.h>, lines 29-98: boost/assert.hpp first (line 37), then a definition if there is none (line 42).
    Simplification: BOOST_ASSERT_HPP (line 61) is not defined already. *)
Definition include_header (b : boost_assert) (u : unit_macros) : unit_macros :=
  if um_seen u then u
  else
    let u := include_boost b u in
    UnitMacros (um_set u) (um_plain u)
      (match um_msg u with Some e => Some e | None => Some (header_msg (um_set u)) end) true.

(** A source file as far as assertions are concerned: macros set or unset, and the two headers included.  Not in /repo: user
    code, and the headers that include the two, such as util/ReceiveBuffer.h:40-41. *)
Inductive source_line := LSet (s : switches) | LBoost | LHeader.
Definition preprocess_line (b : boost_assert) (u : unit_macros) (l : source_line) : unit_macros :=
  match l with
  | LSet s => UnitMacros s (um_plain u) (um_msg u) (um_seen u)
  | LBoost => include_boost b u
  | LHeader => include_header b u
  end.
Definition preprocessed (b : boost_assert) (s : switches) (ls : list source_line) : unit_macros :=
  fold_left (preprocess_line b) ls (UnitMacros s None None false).

(** What an expansion does when the condition does not hold; [returns]: the user's function returns. *)
Definition acts_as (returns : bool) (e : expansion) : amode :=
  match e with
  | Nothing => Disabled
  | CallsUser => if returns then Reporting else Aborting
  | CallsAbort => Aborting
  end.

(** boost/assert.hpp of the versions before BOOST_ASSERT_MSG (not in /repo; after Boost's documentation): BOOST_DISABLE_ASSERTS
    switches BOOST_ASSERT off, BOOST_ENABLE_ASSERT_HANDLER makes it call the user's function, otherwise it is assert of the C
    library, which NDEBUG switches off. *)
Definition old_boost : boost_assert :=
  BoostAssert (fun s => if sw_disable s then Nothing else if sw_handler s then CallsUser
                        else if sw_ndebug s then Nothing else CallsAbort) (fun _ => None).
