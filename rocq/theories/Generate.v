(** The generation scripts: generation/variadicGenerate.lua and its data files. *)
From Coq Require Export Ascii String List Arith ZArith DecimalString.
Export ListNotations.
Local Open Scope string_scope.

(** Sequencing of Lua code that may stop with an error. *)
Definition lua_bind {A B} (o : option A) (f : A -> option B) : option B :=
  match o with Some a => f a | None => None end.
Notation "'let*' x := m 'in' k" := (lua_bind m (fun x => k)) (at level 200, x pattern, m at level 100, k at level 200).

(** A number written with %d or tostring (the scripts use nonnegative integers). *)
Definition dec (n : nat) : string := NilEmpty.string_of_uint (Nat.to_uint n).

(** string.format with the options %d and %s; the arguments are given as text.  An argument
    missing or another option is an error. *)
Fixpoint fmt (f : string) (args : list string) : option string :=
  match f with
  | EmptyString => Some EmptyString
  | String "%"%char r =>
      match r, args with
      | String "d"%char r', a :: args' | String "s"%char r', a :: args' =>
          let* t := fmt r' args' in Some (a ++ t)
      | _, _ => None
      end
  | String ch r => let* t := fmt r args in Some (String ch t)
  end.

(** string.rep; nothing if the count is not positive. *)
Definition rep (s : string) (n : Z) : string :=
  Nat.iter (Z.to_nat n) (append s) EmptyString.

Definition tab : string := String (Ascii.ascii_of_nat 9) EmptyString.
Definition newline : string := String (Ascii.ascii_of_nat 10) EmptyString.

(** indent, generation/variadicGenerate.lua:42-44; [base] is data.baseIndent. *)
Definition indent (base amount fn : Z) : string := rep tab (amount + base) ++ rep "    " fn.

(** out with all three arguments, generation/variadicGenerate.lua:46-66; left-out indents are 0.  The
    line added to [lines]. *)
Definition out (base reg arg : Z) (line : string) : string := indent base reg arg ++ line.

(** genRange with the default separator, generation/variadicGenerate.lua:68-74. *)
Definition gen_range (count : nat) (f : nat -> string) : string := String.concat ", " (map f (seq 1 count)).

(** All of a list, or an error. *)
Fixpoint all {A} (l : list (option A)) : option (list A) :=
  match l with
  | [] => Some []
  | o :: r => let* a := o in let* t := all r in Some (a :: t)
  end.

(** main, generation/variadicGenerate.lua:13-37, with print's newline; [lo] and [hi] are data.minArity and
    data.maxArity. *)
Definition variadic (prefix suffix : string) (generate : nat -> option (list string)) (lo hi : nat)
           (source : string) : option string :=
  let* p := fmt prefix [source] in
  let* ls := all (map generate (seq lo (hi + 1 - lo))) in
  Some (String.concat newline (p :: List.concat ls ++ [suffix]) ++ newline).

(** ** generation/SendOverloads.gen.lua *)

(** The parameter of the i-th field, generation/SendOverloads.gen.lua:7-9. *)
Definition send_parameter (message_sequence_type : string) (i : nat) : option string :=
  fmt "typename mpl::at_c<%s, %d>::type a%d" [message_sequence_type; dec (i - 1); dec i].

(** generateHelper, generation/SendOverloads.gen.lua:1-18. *)
Definition generate_helper (arity : nat) (MessageCollectionType MessageType message_sequence_type : string)
  : option (list string) :=
  let* l1 := fmt "inline typename enable_if< mpl::equal<mpl::int_<%d>, MessageArity<%s> >, void>::type"
                 [dec arity; MessageType] in
  let* ps := all (map (send_parameter message_sequence_type) (seq 1 arity)) in
  let arguments := "transmitters::TransmitterBase<TransmitterDerived> & tx" :: ps in
  let* l2 := fmt ("send(%s) {" ++ newline) [String.concat ("," ++ newline ++ indent 4 0 0 ++ "     ") arguments] in
  let* l3 := fmt "::transmission::send<%s, %s>(" [MessageCollectionType; MessageType] in
  Some [out 4 0 0 l1; out 4 0 0 l2; out 4 1 0 l3; out 4 1 1 "tx,";
        out 4 1 1 ("fusion::make_list(" ++ gen_range arity (fun i => "a" ++ dec i) ++ ")");
        out 4 1 0 ");"; out 4 0 0 ("}" ++ newline)].

(** generate, generation/SendOverloads.gen.lua:25-48. *)
Definition send_generate (arity : nat) : option (list string) :=
  let* guard := fmt "#if FUSION_MAX_LIST_SIZE >= %d" [dec arity] in
  let* c1 := fmt "/// template parameters, and taking a transmitter, plus values for %d message fields directly" [dec arity] in
  let* o1 := generate_helper arity "MessageCollectionType" "MessageType" "typename MessageType::sequence_type" in
  let* c2 := fmt "/// template parameter, and taking a transmitter, plus values for %d message fields directly" [dec arity] in
  let* o2 := generate_helper arity "typename BoundMessage::message_collection" "typename BoundMessage::message_type"
               "typename BoundMessage::message_type::sequence_type" in
  Some ([out 4 (-4) 0 guard;
         out 4 0 0 "/// @brief Overload of transmission::send() taking a message collection and a message type as explicit";
         out 4 0 0 c1;
         out 4 0 0 "/// instead of a boost::fusion sequence containing the field values.";
         out 4 0 0 "template<typename MessageCollectionType, typename MessageType, typename TransmitterDerived>"]
        ++ o1 ++
        [out 4 0 0 "/// @brief Overload of transmission::send() taking a BoundMessageType as the only explicit";
         out 4 0 0 c2;
         out 4 0 0 "/// instead of a boost::fusion sequence containing the field values.";
         out 4 0 0 "template<typename BoundMessage, typename TransmitterDerived>"]
        ++ o2 ++
        [out 4 (-4) 0 ("#endif" ++ newline)%string])%list.

(** prefix, generation/SendOverloads.gen.lua:50-101; [smax] is SendOverloadMaxArity. *)
Definition send_prefix (smax : nat) : string := "/** @file
	@brief Header AUTO-GENERATED by %s to avoid doing crazy preprocessor things

	DO NOT EDIT THIS FILE DIRECTLY - instead, edit the script that generates it.

        @date 2012

        @author
        Ryan Pavlik
        <rpavlik@iastate.edu> and <abiryan@ryand.net>
        http://academic.cleardefinition.com/
        Iowa State University Virtual Reality Applications Center
        Human-Computer Interaction Graduate Program
*/

//          Copyright Iowa State University 2012.
// Distributed under the Boost Software License, Version 1.0.
//    (See accompanying file LICENSE_1_0.txt or copy at
//          http://www.boost.org/LICENSE_1_0.txt)

#pragma once
#ifndef INCLUDED_SendOverloads_Generated_h_GUID_ceb4f589_526e_49d7_84c5_0b38f6d1fc42
#define INCLUDED_SendOverloads_Generated_h_GUID_ceb4f589_526e_49d7_84c5_0b38f6d1fc42

// Internal Includes
#include ""../constants/ArityConfig.h""
#include ""MessageArity.h""
#include ""../bases/TransmitterBase_fwd.h""

// Library/third-party includes
#include <boost/fusion/include/make_list.hpp>
#include <boost/mpl/size.hpp>
#include <boost/mpl/int.hpp>
#include <boost/mpl/at.hpp>
#include <boost/mpl/equal.hpp>
#include <boost/utility/enable_if.hpp>

// Standard includes
// - none

namespace transmission {
	// Forward-declare the main send function that we'll invoke after making a fusion sequence
	template<typename Collection, typename Message, typename TransmitterDerived, typename MessageContentsType>
	void send(transmitters::TransmitterBase<TransmitterDerived> & tx, MessageContentsType const & contents);

	namespace detail {
		namespace operations {
			namespace generated {
				namespace mpl = boost::mpl;
				namespace fusion = boost::fusion;
				using boost::enable_if;
				typedef mpl::int_<" ++ dec smax ++ "> SendOverloadMaxArity;

".

(** suffix, generation/SendOverloads.gen.lua:103-111. *)
Definition send_suffix : string := "			} // end of namespace generated
		} // end of namespace operations
	} // end of namespace detail

	using detail::operations::generated::send;
} // end of namespace transmission
#endif // INCLUDED_SendOverloads_Generated_h_GUID_ceb4f589_526e_49d7_84c5_0b38f6d1fc42
".

(** variadicGenerate.lua on SendOverloads.gen.lua, with the limits of generation/variadicGenerate.lua:6-7 as parameters. *)
Definition send_header (smin smax : nat) (source : string) : option string :=
  variadic (send_prefix smax) send_suffix send_generate smin smax source.

(** ** generation/PartialHandlerBase.gen.lua *)

(** generate, generation/PartialHandlerBase.gen.lua:7-28. *)
Definition partial_generate (arity : nat) : option (list string) :=
  let argumentTypes := ("typename M" ::
    (if Nat.ltb 0 arity then [gen_range arity (fun i => ("typename T" ++ dec i)%string)] else []))%list in
  let arguments := ("M const &" ::
    (if Nat.ltb 0 arity then [gen_range arity (fun i => ("T" ++ dec i)%string)] else [])
    ++ ["typename M::message_type_tag * = NULL"]
    ++ (if Nat.eqb arity 1
        then ["typename boost::disable_if<boost::fusion::traits::is_sequence<T1> >::type * = NULL"] else []))%list in
  let* l1 := fmt "template<%s>" [String.concat ", " argumentTypes] in
  let* l2 := fmt ("void operator()(%s) {}" ++ newline) [String.concat ", " arguments] in
  Some [out 3 0 0 l1; out 3 0 0 l2].

(** prefix, generation/PartialHandlerBase.gen.lua:30-80. *)
Definition partial_prefix : string := "/** @file
	@brief Header AUTO-GENERATED by %s to avoid doing crazy preprocessor things

	DO NOT EDIT THIS FILE DIRECTLY - instead, edit the script that generates it.

	@date 2012

	@author
	Ryan Pavlik
	<rpavlik@iastate.edu> and <abiryan@ryand.net>
	http://academic.cleardefinition.com/
	Iowa State University Virtual Reality Applications Center
	Human-Computer Interaction Graduate Program
*/

//          Copyright Iowa State University 2012.
// Distributed under the Boost Software License, Version 1.0.
//    (See accompanying file LICENSE_1_0.txt or copy at
//          http://www.boost.org/LICENSE_1_0.txt)

#pragma once
#ifndef INCLUDED_PartialHandlerBase_h_GUID_314b3576_c339_42e9_ac75_cccb9b7f0bfe
#define INCLUDED_PartialHandlerBase_h_GUID_314b3576_c339_42e9_ac75_cccb9b7f0bfe

// Internal Includes
#include ""Receiver.h""
#include ""ParameterHandlerBase.h""

// Library/third-party includes
#include <boost/utility/enable_if.hpp>
#include <boost/fusion/include/is_sequence.hpp>

// Standard includes
// - none

namespace transmission {

	/** @brief Base class for use in creating functors for transmission::Receiver
		that provides default handlers for all message types.

		If you derive your functor from this class, you don't have to provide all
		the handlers, and you must include a line like the following in the
		functor to explicitly use the provided defaults:

		using transmission::PartialHandlerBase<YourClass>::operator();
	*/
	template<typename Derived>
	class PartialHandlerBase : public ParameterHandlerBase<Derived> {
		public:
			using ParameterHandlerBase<Derived>::operator();
".

(** suffix, generation/PartialHandlerBase.gen.lua:82-88. *)
Definition partial_suffix : string := "	};
} // end of namespace transmission

#endif // INCLUDED_PartialHandlerBase_h_GUID_314b3576_c339_42e9_ac75_cccb9b7f0bfe
".

(** variadicGenerate.lua on PartialHandlerBase.gen.lua, with the limits of generation/variadicGenerate.lua:4-5 as parameters. *)
Definition partial_header (rmin rmax : nat) (source : string) : option string :=
  variadic partial_prefix partial_suffix partial_generate rmin rmax source.

(** ** generation/ArityConfig.gen.lua *)

(** generate, generation/ArityConfig.gen.lua:7-31. *)
Definition config_generate (smax rmax arity : nat) : option (list string) :=
  let* d1 := fmt "#define FUSION_MAX_LIST_SIZE %d" [dec smax] in
  let* d2 := fmt "#define BOOST_FUSION_INVOKE_PROCEDURE_MAX_ARITY %d" [dec (rmax + 1)] in
  let* d3 := fmt "ReceiveMaxArity = %d" [dec rmax] in
  Some [out 0 0 0 "#ifndef FUSION_MAX_LIST_SIZE"; out 0 0 0 d1; out 0 0 0 "#endif";
        out 0 0 0 "#ifndef BOOST_FUSION_INVOKE_PROCEDURE_MAX_ARITY"; out 0 0 0 d2; out 0 0 0 "#endif";
        out 0 0 0 "namespace transmission {"; out 0 1 0 "namespace detail {"; out 0 2 0 "namespace constants {";
        out 0 3 0 "enum {"; out 0 4 0 d3; out 0 3 0 "};"; out 0 2 0 "} // end of namespace constants";
        out 0 1 0 "} // end of namespace detail"; out 0 0 0 "} // end of namespace transmission"].

(** prefix, generation/ArityConfig.gen.lua:33-76. *)
Definition config_prefix : string := "/** @file
	@brief Config header with Fusion limit defines - Must be included before any
	Fusion header!

	Header AUTO-GENERATED by %s to ensure consistency

	DO NOT EDIT THIS FILE DIRECTLY - instead, edit the script that generates it.
	In this case, this file mostly exists to get constants used when generating
	_any_ file into one file to configure support libraries, so the generation
	script shared by all generated files contains the typically-interesting
	values.

	Note that only by editing and re-running the generating script can you
	change these limits, since some files are pre-generated instead of
	using BOOST_PP_...

	@author
	Ryan Pavlik
	<rpavlik@iastate.edu> and <abiryan@ryand.net>
	http://academic.cleardefinition.com/
	Iowa State University Virtual Reality Applications Center
	Human-Computer Interaction Graduate Program
*/

//          Copyright Iowa State University 2012.
// Distributed under the Boost Software License, Version 1.0.
//    (See accompanying file LICENSE_1_0.txt or copy at
//          http://www.boost.org/LICENSE_1_0.txt)

#pragma once
#ifndef INCLUDED_FusionConfig_h_GUID_e185dc4f_3d12_4f22_ae37_ee131be6d12a
#define INCLUDED_FusionConfig_h_GUID_e185dc4f_3d12_4f22_ae37_ee131be6d12a

// Internal Includes
// - none

// Library/third-party includes
// - none

// Standard includes
// - none


".

(** suffix, generation/ArityConfig.gen.lua:78-81. *)
Definition config_suffix : string := "
#endif // INCLUDED_FusionConfig_h_GUID_e185dc4f_3d12_4f22_ae37_ee131be6d12a
".

(** variadicGenerate.lua on ArityConfig.gen.lua. *)
Definition config_header (smax rmax : nat) (source : string) : option string :=
  variadic config_prefix config_suffix (config_generate smax rmax) 0 0 source.
