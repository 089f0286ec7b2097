# Formal model of vancegroup/tuple-transmission

Rocq/Coq 8.16.1, standard library only (`ZArith`, `List`, `Bool`, `String`, `Lia`). All sources
are in `rocq/theories`, in the order of `rocq/_CoqProject`.

## Trusted base

* Coq's kernel (and the virtual machine behind `vm_compute`, used to close concrete cases and
  the witnesses of `_refuted` theorems).
* Assumptions: `Print Assumptions` stands under every property theorem and prints
  `Closed under the global context` for each of them: no axiom of the standard library is
  used, and none is declared here. (A listing of the whole loaded environment also shows
  `Coq.ssr.ssrunder.Under_rel.*`: fields of a module type inside Coq's own plugin library,
  which the standard library loads; no theorem depends on them.)
* The model: that the definitions in the model files below say what the C++ does.
  Every definition cites the file and lines it stands for. Nothing was compiled or run; the
  reading of the C++ (C++98 with Boost) is by hand. The expected byte strings and sizes
  in the project's own tests are reproduced in `TestVectors.v` as a check of that reading.
* The specification: the definitions in the `Spec*.v` files that the theorem statements use.
  Frame format, payload encoding, floating point numbers (`stands_for`, `rounds_to`), scanner and list operations are defined there without any
  model function. Histories necessarily name the modelled public calls (`step`, `send_all`), and observable
  quantities (space reported, bytes held, log of handler calls, last id).

## Outcomes

A modelled function returns `Ok v`, or one of

* `AssertFail` -- a `BOOST_ASSERT`/`BOOST_ASSERT_MSG` stops the program,
* `UB` -- behaviour undefined by the C++ standard or a library precondition: access outside an array, calling
  the empty invoker, dereferencing an empty `boost::optional` with assertions off, an object
  representation that is no value of the type, `std::copy` into the front of its own source,
* `Hang` -- the explicit fuel of an unbounded loop or recursion ran out; theorems that say a call returns exclude it for
  enough fuel and show that more fuel does not matter,
* `Rejected` -- a static assertion fails, the program does not compile.

A machine configuration (`config`) has the width of `int` (16 or 32 bits decide integer promotion
in index arithmetic), the byte order, and the assertion modes: `Disabled` (expression not
evaluated), `Aborting` (failure stops), `Reporting` (the failure handler returns and execution goes
on; the expression, with its side effects, has been evaluated). There are three, independent of each other, for
`BOOST_ASSERT_MSG`, for `BOOST_ASSERT` and for the checks inside `boost::array`. Theorems quantify over all
configurations unless they say otherwise.

## Model files

| file | models |
|---|---|
| `Base.v` | outcomes, configurations, conversion to fixed-width unsigned types, integer promotion, what an assertion does |
| `Asserts.v` | the preprocessor's way through `util/BoostAssertMsg.h`: which assertions a source file has. `boost/assert.hpp` is an arbitrary function of the macros set |
| `Types.v` | field types (integers of any width and sign, float and double as bit patterns, bool, other trivially copyable types as raw bytes), values, object representation, message types and collections (`MessageType.h`, `MessageCollection.h`) |
| `Floats.v` | what bit patterns of `float` and `double` stand for, and C++'s implicit conversions between arithmetic types, used where arguments are not of the field's type. IEEE 754, rounding to nearest even; a double out of float's range becomes infinite |
| `Meta.v` | `util/MPLFindIndex.h`, `util/MPLApplyAt.h`, `Sizeof.h`, `MaxMessageLength.h`, `MessageLength.h`, `IsIdValid.h`, `MessageCount.h`, `ComputeReceiveBufferSize.h`, size types (`MessageSizeType.h`, `MessageIdType.h`, least integer of the buffer) |
| `ReceiveBuffer.v` | all of `util/ReceiveBuffer.h` that can be instantiated, `util/VectorSimulator.h` |
| `Transmit.v` | transmitters (`TransmitterBase.h`, `VectorBuffer.h`, `BoostArrayBuffer.h`, `AutosizedBoostArrayBuffer.h`, `TransmitterComposition.h`, `ArduinoSerial.h`, `VrpnSerial.h`, `ArduinoI2C.h`, `ChecksumComputer.h`), `SerializerBase.h`, `BitwiseCopySerialization.h`, both envelopes' `sendMessage`, `Send.h`, `BoundMessageType.h`, `SendOverloads_Generated.h` |
| `Copies.v` | copies and assignment of array-buffer transmitters; one transmitter used twice in a composition |
| `Ports.v` | serial and I2C transmitters on ports that take only a part of a write; copies of the I2C transmitter |
| `Receive.v` | `EnvelopeReceiveBuffer.h`, `EnvelopeBase.h`, both envelopes' `checkBufferForMessage`, `DeserializeToFusion.h`, `DeserializeAndInvoke.h`, `ReceiveAdapterBase.h`, both receive adapters, `Receiver.h` |
| `Counted.v` | `checkBufferForMessage` and `popMessage` of `Receive.v` again, counting the element accesses they make |
| `Moves.v` | `ensure_space` and the operations that call it again, counting the elements moved to the front of the array |
| `UserClasses.v` | `TransmitterBase.h`, `ReceiveAdapterBase.h`: which members of a derived class are called; exceptions in `receiveFrom` and `appendReceived` |
| `Lifetimes.v` | `Receiver.h` again, with objects that are destroyed: calling a handler that exists no more is undefined behaviour |
| `Interactive.v` | `Receiver.h` again, with handlers that call any of its functions, also those that return something, and go on according to the answer |
| `Members.v` | the member functions of `ReceiveBuffer`, its base, `EnvelopeReceiveBuffer` and `Receiver` as a table (const, static, private, which of each other they call), C++'s choice and access rules for them; names and bases of the VRPN and Arduino classes |
| `Arrivals.v` | `processMessages`, `checkBufferForMessage`, `popMessage`, `Deserialize` once more, with bytes appended by an interrupt routine between any two calls on the buffer or fields read |
| `Torn.v` | `empty`, `size`, `operator[]`, `pop_front`, `pop_back` of `ReceiveBuffer` taken apart into single reads and writes of the members, with an interrupt routine that appends before each of them |
| `TornCheck.v` | `checkBufferForMessage`, `popAndRetry`, `popMessage`, the reading of the fields and the loop of `processMessages` with every call on the buffer taken apart in this way |
| `TornAppend.v` | `push_back` of a range, `ensure_space` and `is_contents_at_beginning` of `ReceiveBuffer` as `appendReceived` calls them, taken apart into single reads and writes of the members and the array, with an interrupt that calls `processMessages` before any of them |
| `TornReceive.v` | `receiveFrom` with `bufferFromExternalFunctorRef` taken apart in the same way |
| `TornHandlers.v` | `setHandler`, `clearHandler` and `processMessages` with interrupts between their accesses to `_invoker` and `_functorPointer` |
| `TornAsk.v` | `getBufferAvailableSpace` with interrupts between its two reads |
| `Throwing.v` | `send` in a try block, transmitters that throw: `VectorBuffer` without memory, `VrpnSerial`, `TransmitterComposition` of them |
| `Nested.v` | `send` again, with other messages sent on the same transmitter before any of the calls it makes |
| `OwnEnvelopes.v` | the same with an envelope written by an application: its check and its sendMessage as finite programs over the functions of `EnvelopeReceiveBuffer` and of a transmitter, its serialization policy (`SerializerBase.h`, stateless and stateful) as transmitter calls and a program reading bytes; the shipped envelopes and `BitwiseCopy` in that form |
| `Handlers.v` | `ParameterHandlerBase.h`, `PartialHandlerBase.h` |
| `Generate.v` | `generation/variadicGenerate.lua` and the three `generation/*.gen.lua`: the text they print, for any limits. Lua's `string.format` with `%d` and `%s`, `string.rep`, `table.concat` |
| `Regenerate.v` | `generation/generateAll.sh`, `generation/query.lua`, the rules of `generation/CMakeLists.txt`: which headers are written, with what, and what is left after a failure. A data file is a function of the limits, unset in `query.lua`, that may stop with an error; the output directories exist, paths have no blanks; time stamps decide what a build makes, as in make |
| `Headers.v` | the text of the checked-in `SendOverloads_Generated.h`, `PartialHandlerBase.h`, `ArityConfig.h` |
| `IncludeGraph.v` | include guards and `#include` lines of all headers in `tuple-transmission/` and `util/` as a table, and their inclusion; the text of the three generated headers is checked against the table (C83), the other rows are transcribed |
| `HeaderTests.v` | the lists and the check in `tuple-transmission/CMakeLists.txt`, the loop of `tests/cleanbuild/CMakeLists.txt` with `string(REPLACE)` and `configure_file` as far as used, `test_headercompile.cpp.in`; targets, their dependencies, and building them in some order |
| `Protocol.v` | configurations and collections used in the concrete cases, among them those of the project's tests |

Handlers are arbitrary functions of the history of calls so far. A handler call may set or clear the handler,
append bytes, call processMessages again, and throw. `receiveFrom` inside a handler is the append of the
bytes read. Receive adapters and ports are arbitrary functions from the requested count to the bytes
stored and the number reported; the shipped adapters are modelled on top of a port.

## Specification files

`Spec.v` (frame format, payload, scanner relation on byte strings), `SpecSend.v`, `SpecPort.v`, `SpecBuffer.v`
(list operations a buffer is compared with), `SpecReceiver.v` (histories of public calls),
`SpecHandlers.v`, `SpecLink.v` (polling, collections that grow, damage), `SpecDuplex.v` (two programs talking to each other), `SpecOwn.v` (application-written envelopes), `SpecErrors.v` (altered bits), `SpecEnvelope.v`, `SpecCost.v`, `SpecMoves.v`, `SpecUser.v`, `SpecLifetimes.v`, `SpecInteractive.v`, `SpecMembers.v`, `SpecArrivals.v`, `SpecNested.v`, `SpecGaps.v`, `SpecThrowing.v`, `SpecPace.v`, `SpecRegenerate.v`, `SpecHeaderTests.v`, `SpecAlter.v` (bytes altered at given places),
`SpecGenerate.v` (tokens of a header and readers for the declarations in it), `SpecInclude.v` (Fusion's files, the `#include` lines in a text).

The remaining files are proofs: `*Proofs.v` the basic development, `*Lemmas.v` the lemma behind each property theorem,
`Runs.v` turns computed runs into histories, `TestVectors.v` the byte strings of the project's tests.

## How the proofs go

* Sender: `send` over an arbitrary transmitter makes a fixed list of calls; its bytes are the frame.
* Codec: two's complement of any width in either byte order, by induction on the width.
* Metaprograms: recursive list functions, by induction.
* Buffer: refinement of array, begin and end indices (with wrapped arithmetic) to a list,
  operation by operation (`rep cap b X`), then induction over operation sequences.
* Receiver: `checkBufferForMessage` refines the scanner relation; the scanner is deterministic, total and
  compositional (scan of a concatenation). Histories by induction over the public calls, with every call
  simulated by a step on the abstract state (bytes held, log, last id, handler).
* Generated headers: the text is cut into literal pieces and numbers, tokenized piece by piece, and read back, by induction
  on the arities.
* Links: polling, relaying, growing collections, byte order, damage, all from the scanner relation.

Where the property one expects is false of the code, a theorem named `_refuted` exhibits the violation and
a companion states what does hold.

## Findings (violations of the expected property)

* C07: a second send into an autosized array buffer without `resetBuffer` writes past the array.
* C09: a composition never calls its parts' `writeFinished`; an I2C transmitter inside one never sends, then overruns.
* C14, C59: byte order is not negotiated; values change between machines of different order.
* C20: an append of 256 (65536, ...) bytes too many passes the room check, the length being truncated to the index type.
* C21: `erase` of an empty range fails an assertion.
* C22: self-assignment of a nonempty buffer whose contents start at the front copies a range onto itself (undefined).
* C31: garbage that looks like a beginning of a longer message swallows the messages after it.
* C33: the checksum does not see swapped payload bytes; a damaged id byte can pass when sizes differ.
* C35: the number returned by processMessages is the count modulo 256.
* C39: clearing the handler from inside it calls a null invoker when another message is waiting.
* C40, C50, C51: processMessages from inside a handler never ends; guarded re-entry pops the message twice: assertion,
  undefined behaviour, or delivery of an old message again.
* C44: a non-const receiver variable cannot be copied (the constructor for handlers is chosen and does not compile); self-assignment can be undefined.
* C45: a `bool` byte other than 0 and 1 is turned into a `bool` object (undefined).
* C46: with 16-bit `int` the room check wraps for capacities above 32768.
* C47, C62: pushing elements of the buffer itself appends other elements after the contents have been shifted.
* C48, C49: constructor length and `at()` index are truncated before any check.
* C82: changes within nine successive bits, and pairs of bits of the same significance, pass the checksum.
* C81: nothing checks that a serializer writes sizeof(T) bytes or that a deserializer reads no more; a stateful serializer has no stateful counterpart.
* C80: nothing checks that an envelope that reports a message has set the id or has all its bytes; popMessage runs the envelope's check again inside an assertion, so a check that changes the buffer behaves differently with assertions.
* C11: for a message with one field, an argument that needs a conversion (such as the literal 5 for a `uint8_t`) does not compile.
* C52: the -1 of a failed VRPN read is counted as 255 bytes: bytes are lost, invented, or an assertion fails.
* C54: an old receiver can deliver a phantom message from inside a message of a type it does not know.
* C56: a failed check leaves a stale id set.
* C57: the recursion of checkBufferForMessage is as deep as the number of bytes held.
* C58: a handler function that takes a floating point field as an integer has undefined behaviour for some values a sender may send.
* C60: copies of an array-buffer transmitter write into the original's array; sending through a copied I2C transmitter is undefined.
* C77: a message sent again right after it was interrupted can be lost, and one that was not sent delivered.
* C99: with an older Boost, `NDEBUG` and `BOOST_ENABLE_ASSERT_HANDLER`, `BOOST_ASSERT` is on and `BOOST_ASSERT_MSG` is off.
* C100: an interrupt that appends bytes in the midst of `pop_front()`, `size()` or `empty()` and makes the contents move (or finds them empty) corrupts the buffer or the answer, though the bytes fit.
* C101: a byte that arrives while `processMessages` asks an empty buffer for its size stops the program at an assertion, or is thrown away where assertions are off.
* C103: `processMessages` called by an interrupt while `appendReceived` sets the indices of an emptied buffer back delivers all its messages again, then stops at an assertion or leaves the indices crossed (next call undefined); while `appendReceived` moves the contents, a message taken out comes back.
* C104: `processMessages` called by an interrupt while `receiveFrom` moves the contents delivers a message nobody sent and loses the one sent; with a VRPN port the contents are moved whenever bytes were dropped before them.
* C105: with a message held, an interrupt that calls `processMessages` between the two writes of `clearHandler`, or of `setHandler` for another class of handler, has undefined behaviour; so has one that calls these in the midst of `processMessages`.
* C97: a generation that fails leaves an empty header, which a later build may take as up to date; `query.lua` rejects data files that need the limits.
* C95: a send that throws may have written the whole message (two composed transmitters), which arrives twice when it is sent again.
* C93: a message sent in the middle of another can make a receiver deliver a third one, and overruns an I2C transmitter.
* C92: bytes appended by an interrupt while `processMessages` runs can be delivered as a message without SOH, or make a handler get another message's values.
* C91: `data()`, element access of a const buffer, `bufferEnsureSpace`, `at()` with exceptions and the three Arduino classes do not compile.
* C85: a receiver that joins a stream in the middle need never get in step; it can deliver other messages than those sent, for ever.
* C86: with BasicChecksum one check may sum up again from every third byte: the work per byte grows with the messages' length.
* C78: the number of bytes a port has taken is ignored: cut writes go unnoticed.
* C102: the header-compile tests are not ordered behind the generation of the headers; names with a second `.h` clash; the integration headers are compiled by no test.
* C72: with different envelopes at the two ends, values containing start codes can be delivered as messages never sent.

## Not modelled

* whether a program compiles, beyond membership of the message type, the number of messages, field types and
  missing handler functions, and the overload resolution of handler functions and of `send` with one argument as stated at `resolve` and `send_args`,
  and the limit on arguments of a handler call: Fusion's other arity limits, conversions defined by classes. (The arity assertions use `mpl::equal`
  on integral constants, which compares them as empty sequences and always holds.)
* what code that cannot be instantiated would do: `at()` with exceptions (its range check is private), const element access and `data()` of
  `ReceiveBuffer`, `bufferEnsureSpace` (that they cannot is C91), `EnvelopeBase::unbuffer`. `ArduinoI2C`'s constructor and the base class of the
  Arduino receive adapter are misnamed in the source, `ArduinoSerial` binds a `Stream` reference to a `Print`; these are modelled as intended (that they do not compile as they are is C91).
* serializers that look at anything but machine, state, type and value, and field types that are themselves Fusion sequences;
* concurrent use of one object, except appending between the calls `processMessages` makes (C92) or between the accesses of one operation of the buffer (C100) or of `processMessages` outside the handlers' own code (C101), processing between the accesses of `appendReceived` (C103), `receiveFrom` (C104), the accesses to the handler's members (C105) and `getBufferAvailableSpace` (C106), and sending between the calls `send` makes (C93);
* exceptions thrown by `BoostArrayBuffer` or the Arduino classes (they throw none);
* hardware and OS behind VRPN and Arduino streams: ports are arbitrary functions;
* the CMake scripts except the generation rules (C97) and the lists and compile tests of the headers (C102), CMake itself; Lua itself beyond what `Generate.v` uses. C++ in the generated headers is read as tokens by a fixed grammar
  (`SpecGenerate.v`), not given a meaning; C76 ties the arities found there to those in `Transmit.v` and `Handlers.v`.

## Mutation tests

`seeded/LOG.jsonl` has one line per deliberately wrong variant of a model definition. Each variant was tried in a scratch copy in two ways:
the proofs were rebuilt, recording the theorems whose proof no longer goes through; and a file of executable instances
("probes") of the theorem statements was evaluated on the mutated model, recording the statements that became false. The second is
the stronger evidence, since a false instance shows that no other proof script could succeed.

## Theorems per property

In `PropSend.v` (C01-C11, C60, C61, C73, C78), `PropFloat.v` (C71), `PropCodec.v` (C12-C16), `PropBuffer.v` (C17, C18, C20-C22,
C46-C49, C62), `PropStream.v` (C19, C23-C34, C52, C65 and later ones), `PropHandlers.v` (C35-C45, C50, C51, C58),
`PropEnvelope.v` (C56, C57, C75), `PropLink.v` (C53-C55, C59, C63, C64 and later ones), `PropGenerate.v` (C76), `PropDuplex.v` (C79), `PropOwn.v` (C80), `PropPolicy.v` (C81), `PropErrors.v` (C82), `PropInclude.v` (C83), `PropNoise.v` (C84), `PropPhantom.v` (C85), `PropCost.v` (C86), `PropMoves.v` (C87), `PropUser.v` (C88), `PropLifetime.v` (C89), `PropAsk.v` (C90), `PropMembers.v` (C91), `PropArrivals.v` (C92), `PropNested.v` (C93), `PropGaps.v` (C94), `PropThrow.v` (C95), `PropPace.v` (C96), `PropRegenerate.v` (C97), `PropAlter.v` (C98), `PropAssert.v` (C99), `PropTorn.v` (C100), `PropPolled.v` (C101), `PropHeaders.v` (C102), `PropAppend.v` (C103), `PropTornReceive.v` (C104), `PropTornHandlers.v` (C105), `PropTornAsk.v` (C106). The concrete case beside each
theorem is the `Example` whose name begins with the property id.

| id | property | theorems |
|---|---|---|
| C01 | Wire format of a sent message | `C01_wire_format`, `C01_others_rejected` |
| C02 | Frame length is fixed by the message type | `C02_frame_length` |
| C03 | Message ids identify message types | `C03_id_transmitted`, `C03_ids_distinct`, `C03_valid_ids_are_positions` |
| C04 | Checksum byte | `C04_checksum_byte` |
| C05 | Bulk and byte-wise output agree; sends concatenate | `C05_block_equals_bytes`, `C05_sends_concatenate_vector`, `C05_sends_concatenate_serial` |
| C06 | Autosized array buffers hold any one message | `C06_autosized_fits_exactly`, `C06_collection_autosized` |
| C07 | Array buffers are not bounds-checked | `C07_autosized_second_send_refuted`, `C07_overrun_when_too_long`, `C07_contained_when_it_fits` |
| C08 | Composition tees the stream | `C08_composition_tees_calls`, `C08_send_through_composition` |
| C09 | Composition and completion | `C09_composition_loses_completion_refuted`, `C09_composed_i2c_overruns` |
| C10 | I2C transmitter emits one write per message | `C10_i2c_one_write_per_message` |
| C11 | Send overloads agree | `C11_overloads_agree`, `C11_single_argument`, `C11_foreign_argument`, `C11_integers_convert`, `C11_in_range_unchanged` |
| C12 | Field codec round trip | `C12_field_round_trip`, `C12_field_encoding_injective` |
| C13 | Tuple codec round trip | `C13_tuple_round_trip` |
| C14 | Byte order is not negotiated | `C14_byte_order_reverses`, `C14_value_preserved_refuted` |
| C15 | Maximum message length | `C15_max_message_length` |
| C16 | Run-time length lookup | `C16_message_length_lookup` |
| C17 | Receive buffer is a FIFO of bytes | `C17_fifo_any_layout`, `C17_fifo` |
| C18 | Receive buffer never leaves its array | `C18_inside_array` |
| C19 | Reported space is usable space | `C19_space` |
| C20 | Oversized appends are not reliably detected | `C20_oversized_append_refuted`, `C20_other_oversized_appends_caught`, `C20_unchecked_oversized_append`, `C20_push_on_full` |
| C21 | erase | `C21_erase`, `C21_erase_empty_range_refuted` |
| C22 | Buffer copies | `C22_copies`, `C22_self_assignment` |
| C23 | receiveFrom never overfills | `C23_receive_from`, `C23_shipped_adapters` |
| C24 | Lossless in-order delivery | `C24_lossless`, `C24_lossless_run` |
| C25 | Delivery depends only on the byte stream | `C25_stream_scanner`, `C25_stream_only`, `C25_scanner_total` |
| C26 | No invented messages | `C26_no_invention`, `C26_every_call_has_a_frame` |
| C27 | The receiver never gets stuck full | `C27_never_full` |
| C28 | processMessages terminates and is memory-safe on any input | `C28_terminates_safely` |
| C29 | Noise without a start code is skipped | `C29_noise_skipped` |
| C30 | Idle bytes resynchronise | `C30_idle_empties`, `C30_resynchronised` |
| C31 | Garbage can swallow a message | `C31_garbage_swallows`, `C31_garbage_refuted` |
| C32 | Checksum detects any single corrupted byte | `C32_single_byte` |
| C33 | Checksum blind spots | `C33_swapped_bytes`, `C33_id_byte_refuted` |
| C34 | Basic envelope accepts any payload | `C34_basic_payload_unprotected` |
| C35 | Returned message count | `C35_count_mod_256`, `C35_count_exact`, `C35_count_refuted` |
| C36 | Last message id | `C36_last_id` |
| C37 | Handler management | `C37_no_handler`, `C37_handlers` |
| C38 | A throwing handler sees its message again | `C38_throwing_handler` |
| C39 | Clearing the handler from inside the handler | `C39_clear_inside_handler`, `C39_clear_refuted` |
| C40 | Re-entrant processing never finishes | `C40_reentrant`, `C40_reentrant_refuted` |
| C41 | Appending from inside the handler | `C41_append_inside_handler`, `C41_append_returns` |
| C42 | Assertions do not change behaviour | `C42_builds_agree` |
| C43 | Partial handlers | `C43_partial_handler`, `C43_compiles` |
| C44 | Copied receivers behave alike | `C44_copy`, `C44_assign`, `C44_variable_refuted`, `C44_from_handler`, `C44_self_assign`, `C44_self_assign_refuted` |
| C45 | bool fields and hostile input | `C45_invalid_value`, `C45_bool_refuted` |
| C46 | Index arithmetic on narrow-int platforms | `C46_wrapping_room_check_refuted`, `C46_room_check_wraps`, `C46_safe_capacities`, `C46_receiver_refuted` |
| C47 | Pushing an element of the buffer itself | `C47_push_own_element`, `C47_push_own_element_refuted` |
| C48 | Buffers constructed from data | `C48_from_array`, `C48_from_range`, `C48_from_array_any_length_refuted` |
| C49 | Checked element access | `C49_at`, `C49_at_out_of_range_refuted` |
| C50 | Feedback from the handler | `C50_feedback`, `C50_feedback_refuted` |
| C51 | Guarded re-entrant processing | `C51_guarded_reentry`, `C51_guarded_reentry_refuted`, `C51_old_message_again_refuted` |
| C52 | Read errors of a VRPN port | `C52_read_error_drops_refuted`, `C52_read_error_asserts`, `C52_read_error_invents_refuted`, `C52_read_error_overruns_refuted` |
| C53 | Polling loop | `C53_polling`, `C53_polling_progress`, `C53_polling_bound`, `C53_polling_drains`, `C53_shipped_ports` |
| C54 | Adding message types | `C54_same_sending`, `C54_old_to_new`, `C54_new_to_old`, `C54_phantom_refuted` |
| C55 | Bounded damage | `C55_damage_bounded` |
| C56 | EnvelopeReceiveBuffer | `C56_append`, `C56_check`, `C56_pop`, `C56_pop_asserts`, `C56_no_id`, `C56_stale_id_refuted` |
| C57 | Recursion depth of checkBufferForMessage | `C57_depth_bound`, `C57_depth_attained` |
| C58 | Parameter handlers | `C58_parameter_handler`, `C58_no_float_as_integer`, `C58_float_as_integer_refuted`, `C58_compiles`, `C58_parameter_missing` |
| C59 | Links between machines of different byte order | `C59_cross_endian`, `C59_swapped_determined`, `C59_single_bytes_unchanged`, `C59_values_changed_refuted` |
| C60 | Copies of array buffers | `C60_copy_refuted`, `C60_copy_reset`, `C60_new`, `C60_assignment_refuted`, `C60_i2c_copy_refuted`, `C60_i2c_original` |
| C61 | Same bytes through every transmitter | `C61_same_bytes`, `C61_self_composition_refuted` |
| C62 | Pushing a range of the buffer itself | `C62_push_own_range`, `C62_push_own_range_refuted` |
| C63 | Relaying messages | `C63_relay` |
| C64 | Streams are uniquely decodable | `C64_same_bytes_same_messages`, `C64_prefix`, `C64_other_order_refuted` |
| C65 | Damaged payloads and the checksum | `C65_payload_damage` |
| C66 | Accounting for the bytes received | `C66_accounting`, `C66_call_bound` |
| C67 | The future depends on the bytes held only | `C67_future` |
| C68 | A lost byte | `C68_lost_byte`, `C68_lost_header_refuted` |
| C69 | An extra byte | `C69_extra_byte`, `C69_checksum_4_refuted` |
| C70 | Different collections at both ends | `C70_same_layout`, `C70_same_layout_sent`, `C70_longer_expected`, `C70_shorter_expected`, `C70_int_size_refuted` |
| C71 | Numbers given for floating point fields | `C71_integer_arguments`, `C71_large_integer_refuted`, `C71_floating_arguments`, `C71_floats_are_doubles`, `C71_overflow_refuted` |
| C72 | Mismatched envelopes | `C72_checksum_to_basic_frame`, `C72_checksum_to_basic`, `C72_basic_to_checksum_frame`, `C72_basic_to_checksum`, `C72_phantom_refuted` |
| C73 | Calls made on a transmitter | `C73_calls`, `C73_byte_only`, `C73_serial_writes` |
| C74 | A frame with a damaged control code or id | `C74_control_code`, `C74_unknown_id`, `C74_other_id` |
| C75 | Total work of checkBufferForMessage | `C75_one_check`, `C75_total_work`, `C75_counted` |
| C76 | Generated headers | `C76_send_overloads`, `C76_default_handlers`, `C76_limits`, `C76_limits_set`, `C76_enabled`, `C76_checked_in`, `C76_model_send`, `C76_model_handlers`, `C76_model_invoke` |
| C77 | Interrupted sending | `C77_failed_send`, `C77_prompt`, `C77_interrupted`, `C77_interrupted_start`, `C77_resend_refuted` |
| C78 | Ports that take only a part of a write | `C78_serial_port`, `C78_port_that_takes_all`, `C78_short_write_refuted`, `C78_i2c_port`, `C78_i2c_buffer` |
| C79 | Two programs talking to each other | `C79_in_order`, `C79_turn_possible`, `C79_request_response`, `C79_completes`, `C79_never_silent` |
| C80 | Envelopes written by an application | `C80_safe`, `C80_effect`, `C80_send`, `C80_in_order`, `C80_drained`, `C80_shipped`, `C80_shipped_receiver`, `C80_shipped_sender`, `C80_no_id_refuted`, `C80_too_early_refuted`, `C80_in_place_refuted` |
| C81 | Serialization policies written by an application | `C81_field_by_field`, `C81_bitwise`, `C81_portable`, `C81_portable_send`, `C81_portable_in_order`, `C81_short_refuted`, `C81_stateful_refuted`, `C81_long_refuted` |
| C82 | What the checksum detects and what it misses | `C82_burst`, `C82_nine_bits_refuted`, `C82_two_bits`, `C82_bit_and_checksum`, `C82_one_in_256` |
| C83 | The headers may be included in any order | `C83_read`, `C83_limits_first`, `C83_order`, `C83_found`, `C83_texts` |
| C84 | How rarely noise is taken for messages | `C84_average`, `C84_rare`, `C84_exact`, `C84_run` |
| C85 | Where messages are lost, and that some get through | `C85_lost`, `C85_never_silent`, `C85_half`, `C85_in_step_refuted` |
| C86 | Accesses to the receive buffer | `C86_same_results`, `C86_basic`, `C86_checksum`, `C86_total`, `C86_counted`, `C86_linear_refuted` |
| C87 | Bytes moved inside the receive buffer | `C87_same_results`, `C87_each`, `C87_moves`, `C87_attained`, `C87_polled_refuted`, `C87_thrown_refuted` |
| C88 | Transmitters and receive adapters written by an application | `C88_bytes`, `C88_blocks`, `C88_no_write_byte`, `C88_adapter`, `C88_no_receive`, `C88_endless_refuted`, `C88_throw`, `C88_append_throw` |
| C89 | Lifetime of handlers | `C89_outlives`, `C89_process`, `C89_replaced`, `C89_other_calls`, `C89_idle`, `C89_dangling_refuted` |
| C90 | Handlers that ask the receiver | `C90_asks`, `C90_programs`, `C90_careful` |
| C91 | Member functions that cannot be called | `C91_members`, `C91_receiver`, `C91_const_element_refuted`, `C91_arduino_refuted`, `C91_vrpn` |
| C92 | Bytes arriving while processMessages runs | `C92_arrivals`, `C92_nothing`, `C92_emptied_refuted`, `C92_reading_refuted` |
| C93 | Messages sent while another one is being sent | `C93_bytes`, `C93_frames`, `C93_vector`, `C93_i2c`, `C93_delivered`, `C93_between`, `C93_phantom_refuted`, `C93_overrun_refuted` |
| C94 | Messages separated by idle bytes | `C94_empties`, `C94_needed`, `C94_independent`, `C94_local` |
| C95 | Exceptions while a message is sent | `C95_send`, `C95_vector`, `C95_vrpn`, `C95_composition`, `C95_composed`, `C95_delivered`, `C95_once`, `C95_twice_refuted` |
| C96 | A port that keeps a limited number of bytes | `C96_bucket`, `C96_prompt`, `C96_sharp` |
| C97 | Running the generation scripts | `C97_generate`, `C97_order`, `C97_library`, `C97_checkout`, `C97_failure`, `C97_build`, `C97_minimal`, `C97_agree`, `C97_limits`, `C97_unnamed`, `C97_emptied_refuted`, `C97_stale_refuted`, `C97_queried_refuted` |
| C98 | How many alterations the checksum misses | `C98_missed`, `C98_possible`, `C98_delivered`, `C98_weighted` |
| C99 | Which assertions a program has | `C99_msg`, `C99_plain`, `C99_boost`, `C99_builds`, `C99_failure`, `C99_old`, `C99_together_refuted` |
| C100 | Interrupts in the midst of an operation of the buffer | `C100_quiet`, `C100_empty`, `C100_size`, `C100_index`, `C100_pop_front`, `C100_moved`, `C100_moved_refuted`, `C100_size_refuted`, `C100_empty_refuted`, `C100_pop_back` |
| C101 | Interrupts in the midst of processMessages | `C101_quiet`, `C101_found`, `C101_separate`, `C101_abort`, `C101_abort_refuted`, `C101_lost`, `C101_lost_refuted`, `C101_moved_refuted` |
| C102 | The build's check of the headers | `C102_unknown`, `C102_lists`, `C102_programs`, `C102_sources`, `C102_coverage`, `C102_regenerated_first`, `C102_names_refuted`, `C102_early_refuted` |
| C103 | Interrupts in the midst of appendReceived | `C103_quiet`, `C103_separate`, `C103_again`, `C103_again_refuted`, `C103_restored_refuted` |
| C104 | Interrupts in the midst of receiveFrom | `C104_quiet`, `C104_separate`, `C104_invented_refuted`, `C104_again_refuted` |
| C105 | Interrupts while the handler is changed | `C105_quiet`, `C105_change_separate`, `C105_change_undefined`, `C105_change_refuted`, `C105_processing`, `C105_processing_undefined`, `C105_processing_refuted` |
| C106 | Asking for the space while an interrupt processes | `C106_quiet`, `C106_available` |
