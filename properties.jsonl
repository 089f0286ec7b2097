{"id": "C01", "title": "Wire format of a sent message", "statement": "transmission::send writes to the transmitter exactly the bytes SOH, message id, STX, the fields' object representations in declaration order, ETX, (for BasicChecksum: one checksum byte,) EOT, in that order and nothing else; then it signals completion exactly once, after the last byte. A send does not compile for a type that is not in the collection, for other field types, or for a collection of more than 255 messages.", "quantifier": "every collection the static assertions accept, every message type in it, every tuple of field values, every transmitter (any writeByte/write/writeFinished behaviour), every prior transmitter state", "why_tests_cant": "the tests check two literal messages into two buffers; the claim ranges over all message types, values and transmitters", "anchors": ["tuple-transmission/Send.h: send", "tuple-transmission/envelopes/Basic.h: sendMessage", "tuple-transmission/envelopes/BasicChecksum.h: sendMessage", "tuple-transmission/detail/bases/TransmitterBase.h"]}
{"id": "C02", "title": "Frame length is fixed by the message type", "statement": "The number of bytes send writes equals Sizeof<BoundMessageType>: payload size plus 5 (Basic) or 6 (BasicChecksum), independent of the values.", "quantifier": "every collection, message type and tuple of values", "why_tests_cant": "needs every type list, not a few", "anchors": ["tuple-transmission/detail/operations/Sizeof.h", "tuple-transmission/envelopes/Basic.h: Size", "tuple-transmission/envelopes/BasicChecksum.h: Size"]}
{"id": "C03", "title": "Message ids identify message types", "statement": "The id transmitted for a message type is its position in the collection, it survives the cast to uint8_t, is accepted by isIdValid, distinct message types get distinct ids and looking the id up gives the message type back; ids that are not positions are rejected by isIdValid.", "quantifier": "every accepted collection (up to 255 messages) and every pair of message types in it, every byte", "why_tests_cant": "needs all collections and all byte values", "anchors": ["util/MPLFindIndex.h", "util/MPLApplyAt.h", "tuple-transmission/detail/operations/IsIdValid.h", "tuple-transmission/BoundMessageType.h", "tuple-transmission/detail/types/MessageIdType.h"]}
{"id": "C04", "title": "Checksum byte", "statement": "With the BasicChecksum envelope the byte before EOT is the sum modulo 256 of all bytes from SOH through ETX inclusive.", "quantifier": "every message and every tuple of values", "why_tests_cant": "sum wrap-around depends on all bytes", "anchors": ["tuple-transmission/envelopes/BasicChecksum.h: sendMessage", "tuple-transmission/transmitters/ChecksumComputer.h", "tuple-transmission/transmitters/TransmitterComposition.h"]}
{"id": "C05", "title": "Bulk and byte-wise output agree; sends concatenate", "statement": "For every shipped transmitter, outputting a block of bytes leaves the same transmitted byte sequence as outputting them one at a time, and the bytes a VectorBuffer or serial port has received after a sequence of sends is the concatenation of the frames in send order.", "quantifier": "all byte blocks, all transmitter states, all sequences of sends", "why_tests_cant": "quantifies over all blocks, states and histories", "anchors": ["tuple-transmission/transmitters/VectorBuffer.h", "tuple-transmission/transmitters/BoostArrayBuffer.h", "tuple-transmission/transmitters/VrpnSerial.h", "tuple-transmission/transmitters/ArduinoSerial.h", "tuple-transmission/transmitters/ChecksumComputer.h", "tuple-transmission/detail/bases/TransmitterBase.h: write"]}
{"id": "C06", "title": "Autosized array buffers hold any one message", "statement": "Sending a bound message into a fresh AutosizedBoostArrayBuffer for it never writes outside the array and fills it exactly; sending any message of a collection into a fresh or reset CollectionAutosizedBoostArrayBuffer never writes outside the array, and [begin,end) is then exactly the frame.", "quantifier": "every collection, message type, values, prior contents before reset", "why_tests_cant": "buffer size is computed per type at compile time; overflow must be excluded for all types", "anchors": ["tuple-transmission/transmitters/AutosizedBoostArrayBuffer.h", "tuple-transmission/transmitters/BoostArrayBuffer.h"]}
{"id": "C07", "title": "Array buffers are not bounds-checked", "statement": "Expected by a user: a second send into an AutosizedBoostArrayBuffer without reset is reported or contained. The code violates it: it writes outside the array (undefined behaviour), for every message.", "quantifier": "every collection, message type and values", "why_tests_cant": "undefined behaviour cannot be pinned down by a test", "anchors": ["tuple-transmission/transmitters/BoostArrayBuffer.h: writeByte, write, reset"]}
{"id": "C08", "title": "Composition tees the stream", "statement": "A TransmitterComposition of two transmitters delivers the identical byte sequence to both, in the same order, for byte and block outputs; sending through it is the same as sending to each separately, as far as bytes are concerned.", "quantifier": "every pair of transmitters, every sequence of outputs", "why_tests_cant": "all transmitters and all sequences", "anchors": ["tuple-transmission/transmitters/TransmitterComposition.h"]}
{"id": "C09", "title": "Composition and completion", "statement": "Expected: completion signalled on a TransmitterComposition reaches both members (a buffering member flushes). The code violates it: outputFinished on a composition reaches neither member, so a composed ArduinoI2C never writes to the bus.", "quantifier": "every pair of transmitters / every message", "why_tests_cant": "absence of a call cannot be observed by sampling members that ignore it", "anchors": ["tuple-transmission/transmitters/TransmitterComposition.h", "tuple-transmission/detail/bases/TransmitterBase.h: writeFinished"]}
{"id": "C10", "title": "I2C transmitter emits one write per message", "statement": "After any sequence of sends of messages no longer than 255 bytes through the buffering I2C transmitter, the bus has seen exactly one write per send, containing exactly that message's frame, in order, and nothing is left buffered.", "quantifier": "every sequence of messages with frames of at most 255 bytes", "why_tests_cant": "all histories", "anchors": ["tuple-transmission/transmitters/ArduinoI2C.h", "tuple-transmission/Send.h"]}
{"id": "C11", "title": "Send overloads agree", "statement": "Passing fields as separate arguments, or a BoundMessageType instead of collection and message, transmits exactly what the sequence form transmits for the arguments converted to the field types (integers reduced modulo 2^bits); in-range arguments are transmitted unchanged. The argument of a single-field message must have exactly the field's type; otherwise it is taken for a sequence and the call does not compile. Nor does a call compile with an argument that the field's type does not take: a struct of another type, a number for an enumeration.", "quantifier": "every message type, every integer argument list, every transmitter", "why_tests_cant": "integer conversions over all values", "anchors": ["tuple-transmission/detail/operations/SendOverloads_Generated.h", "tuple-transmission/Send.h"]}
{"id": "C12", "title": "Field codec round trip", "statement": "Deserializing the bytes serialized for a field yields the same value and consumes exactly sizeof(field) bytes, whatever follows; distinct values have distinct encodings.", "quantifier": "every integer type and enumeration of every width and signedness, bool, float and double, every struct copied with memcpy, both byte orders", "why_tests_cant": "all values of all widths", "anchors": ["tuple-transmission/serializers/BitwiseCopySerialization.h"]}
{"id": "C13", "title": "Tuple codec round trip", "statement": "Deserializing a serialized tuple with the message's field list yields the same values in the same order, reading exactly the payload bytes (never the envelope's trailer).", "quantifier": "every field list and value tuple", "why_tests_cant": "all field lists", "anchors": ["tuple-transmission/detail/bases/SerializerBase.h: bufferTuple", "tuple-transmission/detail/operations/DeserializeToFusion.h"]}
{"id": "C14", "title": "Byte order is not negotiated", "statement": "Expected for a wire protocol between different machines: an integer field arrives with its value. The code violates it between machines of different byte order: the receiver obtains the byte-reversed value, silently.", "quantifier": "every multi-byte integer value", "why_tests_cant": "one host cannot exhibit it", "anchors": ["tuple-transmission/serializers/BitwiseCopySerialization.h"]}
{"id": "C15", "title": "Maximum message length", "statement": "MaxMessageLength is at least the frame length of every message in the collection and equal to one of them; the receive buffer capacity is three times it.", "quantifier": "every nonempty collection", "why_tests_cant": "all collections", "anchors": ["tuple-transmission/detail/operations/MaxMessageLength.h", "tuple-transmission/detail/operations/ComputeReceiveBufferSize.h", "tuple-transmission/detail/constants/MessageBufferSizeScale.h"]}
{"id": "C16", "title": "Run-time length lookup", "statement": "getMessageLength(id) equals the compile-time length of the id-th message for every valid id, without truncation by the chosen size type, and 0 for every invalid id.", "quantifier": "every collection and every byte id", "why_tests_cant": "all ids of all collections", "anchors": ["tuple-transmission/detail/operations/MessageLength.h", "tuple-transmission/detail/types/MessageSizeType.h", "util/MPLApplyAt.h"]}
{"id": "C17", "title": "Receive buffer is a FIFO of bytes", "statement": "Any sequence of append (single, range, from functor), pop front, pop back, erase, clear and ensure-space operations that respects the buffer's documented limits behaves exactly like the same operations on a list: same returned elements, same size, same content; making room never changes the content.", "quantifier": "every capacity, every operation sequence within limits, every prior layout of the buffer", "why_tests_cant": "every history and every internal layout", "anchors": ["util/ReceiveBuffer.h"]}
{"id": "C18", "title": "Receive buffer never leaves its array", "statement": "Under the same operation sequences no access is outside the array, no assertion fires and the size never exceeds the capacity.", "quantifier": "every capacity and operation sequence within limits", "why_tests_cant": "undefined behaviour and all histories", "anchors": ["util/ReceiveBuffer.h"]}
{"id": "C19", "title": "Reported space is usable space", "statement": "getBufferAvailableSpace returns exactly capacity minus the number of bytes held, and appending any data of at most that length succeeds and appends exactly it, wherever the content lies in the array; that many and no more.", "quantifier": "every reachable receiver state and every data block", "why_tests_cant": "all states", "anchors": ["tuple-transmission/Receiver.h: getBufferAvailableSpace, appendReceived", "util/ReceiveBuffer.h: push_back, ensure_space"]}
{"id": "C20", "title": "Oversized appends are not reliably detected", "statement": "Expected: with assertions enabled, appending more than the available space is caught before memory is overwritten. The code violates it: the count is truncated to the size type, so a block whose length is a multiple of 256 (8-bit size type) writes outside the array before any assertion fires. Without assertions that stop the program every block that does not fit, and one more element on a full buffer, is undefined behaviour.", "quantifier": "exists state and block (and all blocks whose truncated length fits)", "why_tests_cant": "undefined behaviour", "anchors": ["util/ReceiveBuffer.h: push_back(InputIterator,InputIterator), ensure_space"]}
{"id": "C21", "title": "erase", "statement": "Erasing a nonempty range removes exactly those elements, keeps the order of the others and returns the position following them; with assertions enabled an empty range aborts, although the code means to handle it.", "quantifier": "every state and every range", "why_tests_cant": "all states and ranges", "anchors": ["util/ReceiveBuffer.h: erase"]}
{"id": "C22", "title": "Buffer copies", "statement": "Copy construction and assignment from another buffer give equal contents, independent of the target's previous content; later operations on either behave identically. Self-assignment keeps the content where it is defined.", "quantifier": "every pair of states", "why_tests_cant": "all layouts", "anchors": ["util/ReceiveBuffer.h: copy constructor, operator=, idealContentsCopy"]}
{"id": "C23", "title": "receiveFrom never overfills", "statement": "receiveFrom asks the adapter for at most min(available bytes reported, free space), and with an adapter that stores no more than asked and reports how many it stored, it never writes outside the buffer, appends exactly those bytes and returns their number.", "quantifier": "every receiver state, every adapter obeying its contract, every reported availability", "why_tests_cant": "all states and adapters", "anchors": ["tuple-transmission/Receiver.h: receiveFrom", "tuple-transmission/detail/bases/ReceiveAdapterBase.h", "util/ReceiveBuffer.h: bufferFromExternalFunctorRef"]}
{"id": "C24", "title": "Lossless in-order delivery", "statement": "If the byte stream appended to a Receiver is the concatenation of frames produced by send, then however it is split into appends and however processMessages calls are interleaved (each append fitting the reported space), the handler is invoked exactly once per message, in send order, with the sent values; after the last processMessages nothing is left.", "quantifier": "every collection, every list of messages and values, every chunking and interleaving", "why_tests_cant": "chunkings are unbounded", "anchors": ["tuple-transmission/Receiver.h: processMessages", "tuple-transmission/envelopes/Basic.h: checkBufferForMessage", "tuple-transmission/envelopes/BasicChecksum.h: checkBufferForMessage"]}
{"id": "C25", "title": "Delivery depends only on the byte stream", "statement": "For arbitrary (also corrupt) bytes, the sequence of handler calls and the unconsumed remainder after processMessages depend only on the concatenation of the appended bytes, not on how they were split or how often processMessages was called; they are those of a simple left-to-right frame scanner.", "quantifier": "every byte stream, every chunking and interleaving", "why_tests_cant": "unbounded streams and schedules", "anchors": ["tuple-transmission/Receiver.h", "tuple-transmission/envelopes/Basic.h", "tuple-transmission/envelopes/BasicChecksum.h"]}
{"id": "C26", "title": "No invented messages", "statement": "Every delivered message corresponds to a complete valid frame (start code, valid id, STX, payload, ETX, correct checksum if any, EOT) occupying its own bytes of the received stream; these frames are disjoint and in delivery order, and the delivered values are those encoded in the frame.", "quantifier": "every byte stream and history", "why_tests_cant": "unbounded streams", "anchors": ["tuple-transmission/envelopes/Basic.h: checkBufferForMessage", "tuple-transmission/envelopes/BasicChecksum.h: checkBufferForMessage", "tuple-transmission/Receiver.h"]}
{"id": "C27", "title": "The receiver never gets stuck full", "statement": "After processMessages (with a handler) fewer bytes than the longest message remain, so more than two thirds of the buffer is free, whatever was received.", "quantifier": "every byte stream and history", "why_tests_cant": "unbounded histories", "anchors": ["tuple-transmission/Receiver.h", "tuple-transmission/detail/operations/ComputeReceiveBufferSize.h"]}
{"id": "C28", "title": "processMessages terminates and is memory-safe on any input", "statement": "For any bytes received, processMessages returns, performs no out-of-bounds access and trips no assertion (no bool fields in the protocol).", "quantifier": "every byte content, every buffer layout", "why_tests_cant": "all inputs", "anchors": ["tuple-transmission/Receiver.h: processMessages", "tuple-transmission/detail/bases/EnvelopeBase.h: popAndRetry"]}
{"id": "C29", "title": "Noise without a start code is skipped", "statement": "Bytes other than SOH preceding a frame at a frame boundary do not change what is delivered.", "quantifier": "every noise string without SOH, every following stream", "why_tests_cant": "unbounded", "anchors": ["tuple-transmission/envelopes/Basic.h: checkBufferForMessage"]}
{"id": "C30", "title": "Idle bytes resynchronise", "statement": "After arbitrary garbage, receiving MaxMessageLength bytes that are not SOH brings the receiver back to an empty buffer, so every frame sent afterwards is delivered.", "quantifier": "every garbage, every idle string without SOH of that length, every later list of messages", "why_tests_cant": "unbounded", "anchors": ["tuple-transmission/envelopes/Basic.h", "tuple-transmission/envelopes/BasicChecksum.h", "tuple-transmission/detail/bases/EnvelopeBase.h: popAndRetry"]}
{"id": "C31", "title": "Garbage can swallow a message", "statement": "Expected: a valid frame received after garbage is delivered. The code violates it: three garbage bytes that look like a header make the receiver deliver a message never sent and lose the real one.", "quantifier": "exists garbage and message", "why_tests_cant": "needs an adversarial stream", "anchors": ["tuple-transmission/envelopes/Basic.h: checkBufferForMessage"]}
{"id": "C32", "title": "Checksum detects any single corrupted byte", "statement": "With BasicChecksum, if exactly one byte of a frame is changed and the frame length implied by the id byte is unchanged, the receiver does not accept the corrupted bytes as a message.", "quantifier": "every frame, every position, every replacement byte", "why_tests_cant": "all frames", "anchors": ["tuple-transmission/envelopes/BasicChecksum.h: checkBufferForMessage"]}
{"id": "C33", "title": "Checksum blind spots", "statement": "Expected by the name: corrupted frames are rejected. The code accepts frames with swapped payload bytes, and a single corrupted id byte can make part of a frame acceptable as another message.", "quantifier": "every pair of distinct payload positions; exists for the id", "why_tests_cant": "adversarial", "anchors": ["tuple-transmission/envelopes/BasicChecksum.h"]}
{"id": "C34", "title": "Basic envelope accepts any payload", "statement": "With the Basic envelope any change of payload bytes is delivered unnoticed as changed values; control codes inside the payload do not disturb framing of an in-sync stream.", "quantifier": "every message and payload", "why_tests_cant": "all payloads", "anchors": ["tuple-transmission/envelopes/Basic.h"]}
{"id": "C35", "title": "Returned message count", "statement": "processMessages returns the number of handler invocations modulo 256; it is exact whenever the buffer cannot hold 256 messages; for larger protocols it is wrong (256 messages give 0).", "quantifier": "every state", "why_tests_cant": "needs large buffers", "anchors": ["tuple-transmission/Receiver.h: processMessages"]}
{"id": "C36", "title": "Last message id", "statement": "getLastMessageId is empty until the first delivery and afterwards the id of the most recently delivered message, across any history; appends and handler changes do not alter it.", "quantifier": "every history", "why_tests_cant": "all histories", "anchors": ["tuple-transmission/Receiver.h: getLastMessageId, processMessages"]}
{"id": "C37", "title": "Handler management", "statement": "Without a handler processMessages returns 0 and changes nothing, buffered bytes are kept and delivered after a handler is set; each delivery goes to the handler set at the time, never to an earlier one.", "quantifier": "every history of set/clear/append/process", "why_tests_cant": "all histories", "anchors": ["tuple-transmission/Receiver.h: setHandler, clearHandler, hasHandler, processMessages"]}
{"id": "C38", "title": "A throwing handler sees its message again", "statement": "If the handler throws, the exception leaves processMessages with the message still buffered and all later bytes intact; the next processMessages delivers the same message (same values) first.", "quantifier": "every state, message and handler behaviour", "why_tests_cant": "all crash points", "anchors": ["tuple-transmission/Receiver.h: processMessages"]}
{"id": "C39", "title": "Clearing the handler from inside the handler", "statement": "Expected: clearHandler during delivery stops further deliveries. The code violates it: if another complete message is buffered, processMessages calls through a null pointer.", "quantifier": "every buffer with two complete messages", "why_tests_cant": "undefined behaviour", "anchors": ["tuple-transmission/Receiver.h: processMessages, clearHandler"]}
{"id": "C40", "title": "Re-entrant processing never finishes", "statement": "Expected: a handler may call processMessages. The code violates it: the message being handled is still in the buffer, so the nested call delivers it again and recursion never ends.", "quantifier": "every state with a complete message", "why_tests_cant": "non-termination", "anchors": ["tuple-transmission/Receiver.h: processMessages"]}
{"id": "C41", "title": "Appending from inside the handler", "statement": "A handler may append further received bytes to the receiver (fitting the reported space): the result is the same as if they had been appended right after the current message was consumed.", "quantifier": "every state, every appended data fitting", "why_tests_cant": "all states", "anchors": ["tuple-transmission/Receiver.h: processMessages, appendReceived", "util/ReceiveBuffer.h"]}
{"id": "C42", "title": "Assertions do not change behaviour", "statement": "Builds with assertions that abort, assertions whose handler returns, and no assertions, and those in which BOOST_ASSERT_MSG, BOOST_ASSERT and the checks of boost::array differ in this, deliver the same messages, return the same counts and leave the same bytes buffered, although popMessage runs a check with side effects inside an assertion.", "quantifier": "every history within the documented limits", "why_tests_cant": "two builds, all histories", "anchors": ["tuple-transmission/detail/types/EnvelopeReceiveBuffer.h: popMessage"]}
{"id": "C43", "title": "Partial handlers", "statement": "A handler derived from PartialHandlerBase has its own function called exactly for messages with a function whose parameter types are the field types, with the fields as arguments in order, and every other message is silently consumed and counted; such a program compiles exactly if no message type of the collection has more than 9 fields.", "quantifier": "every collection, every set of handler functions with different signatures, every message stream", "why_tests_cant": "all handler sets and streams", "anchors": ["tuple-transmission/PartialHandlerBase.h", "tuple-transmission/ParameterHandlerBase.h"]}
{"id": "C44", "title": "Copied receivers behave alike", "statement": "A copy of a Receiver (assignment, or construction from a const receiver or a temporary) responds to every further sequence of operations exactly as the original would, wherever the bytes lie in the original's array. Construction from a receiver variable that is not const selects the constructor for handlers and does not compile. Construction from a handler compiles only for a variable that is not const, and is the same as construction without a handler followed by setHandler. Assignment of a receiver to itself has no observable effect, except that it is undefined while it holds bytes that begin at the front of its array.", "quantifier": "every state and every later history", "why_tests_cant": "all histories", "anchors": ["tuple-transmission/Receiver.h", "util/ReceiveBuffer.h: copy constructor, operator="]}
{"id": "C45", "title": "bool fields and hostile input", "statement": "Expected: any received bytes are handled safely. The code violates it for bool fields: a payload byte other than 0 and 1 creates an invalid bool (undefined behaviour).", "quantifier": "exists byte stream", "why_tests_cant": "undefined behaviour", "anchors": ["tuple-transmission/serializers/BitwiseCopySerialization.h: Unbuffer"]}
{"id": "C46", "title": "Index arithmetic on narrow-int platforms", "statement": "Expected: appends within the reported space are safe for every capacity. The code violates it where the size type is as wide as int (16-bit int and capacity above 32768): the room check wraps and the append writes outside the array; this is reached through a Receiver by calls that keep to the space it reports. Safe for every capacity up to 32768.", "quantifier": "every capacity and int width", "why_tests_cant": "needs an unusual platform", "anchors": ["util/ReceiveBuffer.h: ensure_space"]}
{"id": "C47", "title": "Pushing an element of the buffer itself", "statement": "Expected, as for std::vector: push_back of a reference to an element of the same buffer appends that element's value. The code violates it when room must be made first; it holds whenever no shift is needed.", "quantifier": "every state and element", "why_tests_cant": "all layouts", "anchors": ["util/ReceiveBuffer.h: push_back(const_reference)"]}
{"id": "C48", "title": "Buffers constructed from data", "statement": "A buffer constructed from a pointer and a length, or from an iterator range, that fits its capacity holds exactly these elements and then behaves like any other buffer. Expected for longer data: rejection. The code violates it: the length is reduced modulo the size type's range, and what still does not fit is copied past the array.", "quantifier": "every capacity, data and length", "why_tests_cant": "all lengths; undefined behaviour", "anchors": ["util/ReceiveBuffer.h: constructors"]}
{"id": "C49", "title": "Checked element access", "statement": "at(i) returns the i-th element for every i below size(). Expected otherwise: rejection. The code violates it: without exceptions the position is reduced modulo the size type's range first, so at(size + 256k) of a small buffer returns an element; assertion failure for the remaining positions (with assertions enabled).", "quantifier": "every state and position", "why_tests_cant": "all positions", "anchors": ["util/VectorSimulator.h: at", "util/ReceiveBuffer.h: operator[]"]}
{"id": "C50", "title": "Feedback from the handler", "statement": "Expected: processMessages returns. The code violates it for handlers that append a complete frame to the same receiver at each call: it stays inside the call for ever although every append fits the reported space.", "quantifier": "every such handler and every receiver state with one message and room for another", "why_tests_cant": "non-termination", "anchors": ["tuple-transmission/Receiver.h: processMessages, appendReceived"]}
{"id": "C51", "title": "Guarded re-entrant processing", "statement": "Expected: a handler that guards against recursion may call processMessages once. The code violates it: the message is handled twice, and the outer call then pops a message that is gone - an assertion failure, or, when assertions are off or their handler returns, undefined behaviour or even a message delivered earlier being delivered again from stale buffer contents.", "quantifier": "every state with a complete message", "why_tests_cant": "needs a re-entrant handler; undefined behaviour", "anchors": ["tuple-transmission/Receiver.h: processMessages", "tuple-transmission/detail/types/EnvelopeReceiveBuffer.h: popMessage"]}
{"id": "C52", "title": "Read errors of a VRPN port", "statement": "Expected: receiveFrom on a port that reports a read error (-1) leaves the receiver unchanged. The code violates it: the result is taken as 255 bytes. With capacity below 256 the last byte held is lost (or an assertion fails when none is held); with room for 255 bytes, 255 old bytes of the array appear as received; with less room the content ends at its size plus 255 modulo the range of the size type: bytes held are lost where that is inside the array, otherwise an assertion fails or, without assertions that stop the program, the content then ends outside the array.", "quantifier": "every receiver state", "why_tests_cant": "needs a failing port", "anchors": ["tuple-transmission/receiveadapters/VrpnSerial.h", "tuple-transmission/detail/bases/ReceiveAdapterBase.h", "util/ReceiveBuffer.h: bufferFromFunctor"]}
{"id": "C53", "title": "Polling loop", "statement": "The loop receiveFrom(adapter); processMessages() over a port at which the bytes of sent messages wait: after any number of turns, however many bytes each read yields, the messages delivered are the first ones sent, in order, each once; less than one maximal message is held; every turn returns. With adapters that read at least one byte when some wait (the shipped ones do), everything is delivered after at most as many turns as bytes.", "quantifier": "every collection, message sequence, schedule of reads, handler that does not throw or touch the receiver", "why_tests_cant": "all schedules", "anchors": ["tuple-transmission/Receiver.h: receiveFrom, processMessages", "tuple-transmission/receiveadapters/VrpnSerial.h", "tuple-transmission/receiveadapters/ArduinoSerial.h"]}
{"id": "C54", "title": "Adding message types", "statement": "When message types are added at the end of a collection, messages of the old collection are sent identically; a receiver of the new collection delivers everything an old sender sends; a receiver of the old collection delivers exactly the known messages of a new sender if the frames of the unknown ones contain no further start code. Expected without this condition: unknown messages are skipped. The code violates it: a frame contained in the fields of an unknown message is delivered.", "quantifier": "every pair of collections, every message sequence", "why_tests_cant": "all pairs of versions", "anchors": ["tuple-transmission/BoundMessageType.h", "tuple-transmission/envelopes/Basic.h: checkBufferForMessage", "tuple-transmission/envelopes/BasicChecksum.h: checkBufferForMessage"]}
{"id": "C55", "title": "Bounded damage", "statement": "After arbitrary bytes, a stream of messages whose frames contain no start code after the first byte is delivered completely except for some first messages; all lost ones but the last are together shorter than one maximal message.", "quantifier": "every byte sequence followed by every such message sequence", "why_tests_cant": "all garbage", "anchors": ["tuple-transmission/envelopes/Basic.h: checkBufferForMessage", "tuple-transmission/envelopes/BasicChecksum.h: checkBufferForMessage"]}
{"id": "C56", "title": "EnvelopeReceiveBuffer", "statement": "Used directly, within the reported space: appends add at the end; checkBufferForMessage returns, drops only bytes no frame begins with, is idempotent, and returns true exactly when a complete frame is at the front, with its id and length; popMessage removes this frame. Expected: isCurrentMessageIdValid is false when no message was found. The code violates it: a rejected header leaves its id set, and without assertions popMessage then corrupts the buffer.", "quantifier": "every history of calls", "why_tests_cant": "all histories", "anchors": ["tuple-transmission/detail/types/EnvelopeReceiveBuffer.h"]}
{"id": "C57", "title": "Recursion depth of checkBufferForMessage", "statement": "The recursion of checkBufferForMessage is at most as deep as the number of bytes held (at least 1), and for each number of bytes up to the capacity some bytes need exactly this depth: the stack needed grows linearly with the capacity.", "quantifier": "every buffer state; every depth up to the capacity", "why_tests_cant": "needs all inputs; stack use", "anchors": ["tuple-transmission/envelopes/Basic.h: popAndRetry", "tuple-transmission/envelopes/BasicChecksum.h: popAndRetry"]}
{"id": "C58", "title": "Parameter handlers", "statement": "A handler derived from ParameterHandlerBase gets one call per delivered message, of the own function for this message that C++ overload resolution prefers (every other callable one fits no field better and some field worse, in the order same type, promotion, conversion, ellipsis), with the fields converted to its parameter types (unchanged if they are the field types; fields taken by an ellipsis promoted), unless a floating point field has no value in the integer type of its parameter, which is undefined; a handler compiles exactly if for every message type of the collection there is such a function and no message has more than 9 fields.", "quantifier": "every handler function set and stream", "why_tests_cant": "all handler sets", "anchors": ["tuple-transmission/ParameterHandlerBase.h", "util/MPLApplyAt.h"]}
{"id": "C59", "title": "Links between machines of different byte order", "statement": "Expected: a message arrives with the values sent. The code violates it between machines of opposite byte order: each message arrives once and in order, but with the bytes of every multi-byte integer and floating point number reversed; collections with one-byte integers only are unaffected.", "quantifier": "every collection and message sequence", "why_tests_cant": "needs two platforms", "anchors": ["tuple-transmission/serializers/BitwiseCopySerialization.h"]}
{"id": "C60", "title": "Copies of array buffers", "statement": "Expected: a copy of a BoostArrayBuffer is an independent buffer with the same content. The code violates it: the copied iterator points into the original, so the copy's range is invalid and messages sent through the copy are written into the original's array. After reset() the copy is independent, as is every buffer that was constructed and not copied; that one starts empty. Assignment does the same to the buffer assigned to, and sending through a copy of an I2C transmitter is undefined behaviour (writeFinished subtracts iterators of different arrays).", "quantifier": "every collection, message and buffer state", "why_tests_cant": "undefined behaviour; all states", "anchors": ["tuple-transmission/transmitters/BoostArrayBuffer.h"]}
{"id": "C61", "title": "Same bytes through every transmitter", "statement": "A message sequence gives the same bytes through VectorBuffer, a serial port and I2C (one block per message there). Expected also of compositions; a composition of an object with itself violates it: every write is doubled.", "quantifier": "every collection and message sequence", "why_tests_cant": "all sequences", "anchors": ["tuple-transmission/transmitters/VectorBuffer.h", "tuple-transmission/transmitters/VrpnSerial.h", "tuple-transmission/transmitters/ArduinoI2C.h", "tuple-transmission/transmitters/TransmitterComposition.h"]}
{"id": "C62", "title": "Pushing a range of the buffer itself", "statement": "Expected: push_back(first, last) with iterators into the same buffer appends copies of those elements when there is room. The code guarantees it only when the contents need not be shifted: then exactly these elements are appended; when ensure_space shifts the contents the behaviour is undefined if the new end lies inside the range, the elements appended are others if the range lies before the new end, and the right ones if it lies behind it.", "quantifier": "every buffer layout, contents, range and capacity", "why_tests_cant": "depends on where the contents lie in the array and on where the range lies relative to the new end", "anchors": ["util/ReceiveBuffer.h: push_back(first, last), ensure_space, slide_contents_forward"]}
{"id": "C63", "title": "Relaying messages", "statement": "The messages a receiver has delivered, from whatever bytes it was given, can all be sent again, and a receiver given the bytes so sent delivers exactly the same messages in the same order and keeps no bytes, also if the second link uses the other byte order.", "quantifier": "every collection, byte stream with noise, call sequence and handler on either side", "why_tests_cant": "all byte streams and all histories on both links", "anchors": ["tuple-transmission/Receiver.h", "tuple-transmission/Send.h: send", "tuple-transmission/detail/operations/DeserializeToFusion.h"]}
{"id": "C64", "title": "Streams are uniquely decodable", "statement": "Two lists of messages sent as the same bytes are equal; if the bytes of one list begin with the bytes of another, then so do the messages, and the remaining bytes are those of the remaining messages. It fails between machines of different byte order.", "quantifier": "every collection (including types listed twice), all message lists and values", "why_tests_cant": "quantifies over pairs of message lists", "anchors": ["tuple-transmission/Send.h: send", "tuple-transmission/envelopes/Basic.h: sendMessage", "tuple-transmission/envelopes/BasicChecksum.h: sendMessage"]}
{"id": "C65", "title": "Damaged payloads and the checksum", "statement": "With the BasicChecksum envelope, a frame whose payload and checksum byte were replaced by any other bytes is delivered, with the bytes it then has, exactly if the checksum byte equals the sum modulo 256 of the bytes before it; otherwise it is not delivered and the search goes on at its second byte.", "quantifier": "every collection, message type, replacement payload and checksum byte, preceding and following bytes", "why_tests_cant": "all combinations of damaged bytes", "anchors": ["tuple-transmission/envelopes/BasicChecksum.h: checkBufferForMessage", "tuple-transmission/transmitters/ChecksumComputer.h"]}
{"id": "C66", "title": "Accounting for the bytes received", "statement": "At any time the bytes a receiver was given are the consumed ones followed by the ones it holds. The consumed ones contain, in order and without overlap, one frame for each handler call that did not throw; every other handler call ended a processMessages with its exception. So the handler is called at most once per five consumed bytes, plus once per processMessages that threw.", "quantifier": "every collection, history of calls, handlers that do not re-enter, byte stream", "why_tests_cant": "all histories", "anchors": ["tuple-transmission/Receiver.h: processMessages", "tuple-transmission/detail/types/EnvelopeReceiveBuffer.h"]}
{"id": "C67", "title": "The future depends on the bytes held only", "statement": "Bytes received later never change which messages were delivered before, and the messages delivered from them are exactly those the frame scanner finds in the bytes held followed by the new bytes; nothing else of the past matters.", "quantifier": "every collection, two receivers, one given a continuation of the other's bytes", "why_tests_cant": "all streams and continuations", "anchors": ["tuple-transmission/Receiver.h: processMessages", "tuple-transmission/envelopes/Basic.h", "tuple-transmission/envelopes/BasicChecksum.h"]}
{"id": "C68", "title": "A lost byte", "statement": "A frame that lost one byte behind its id and is followed by something other than EOT is not delivered; the search goes on at its second byte, so if no start code is left in it only this message is lost, and all following ones are delivered. Expected also if the start code or the id is lost; there the code can deliver another message instead.", "quantifier": "every collection, envelope, frame, position of the lost byte, preceding and following bytes", "why_tests_cant": "all frames and positions", "anchors": ["tuple-transmission/envelopes/Basic.h: checkBufferForMessage", "tuple-transmission/envelopes/BasicChecksum.h: checkBufferForMessage"]}
{"id": "C69", "title": "An extra byte", "statement": "A frame with one byte inserted behind its id is either still there, followed by EOT, or not delivered, and the search goes on at its second byte. With the BasicChecksum envelope this needs a checksum other than 4: with checksum 4 an inserted byte can make a frame with another payload that is accepted.", "quantifier": "every collection, envelope, frame, inserted byte and position", "why_tests_cant": "all frames, positions and bytes", "anchors": ["tuple-transmission/envelopes/Basic.h: checkBufferForMessage", "tuple-transmission/envelopes/BasicChecksum.h: checkBufferForMessage"]}
{"id": "C70", "title": "Different collections at both ends", "statement": "If the collections of sender and receiver have the same envelope and the same number of payload bytes for every id, every message sent is delivered: the same id and the same bytes, read as the receiver's field types; and receivers of either collection find the same frames in any byte stream. If the sizes differ for an id, a frame shorter than expected is not delivered but kept, waiting for more bytes; of a longer one a message made of its first bytes is delivered if the next ones look like the end of a frame, otherwise none. (An int field is enough: 2 bytes on AVR, 4 on a PC.)", "quantifier": "every pair of collections, message sequence, byte stream, machine", "why_tests_cant": "all pairs of protocol definitions and all streams", "anchors": ["tuple-transmission/detail/operations/MessageLength.h", "tuple-transmission/detail/operations/Sizeof.h", "tuple-transmission/envelopes/Basic.h: checkBufferForMessage"]}
{"id": "C71", "title": "Numbers given for floating point fields", "statement": "Integers passed as separate arguments for float fields (double fields) are sent as the same numbers if they have at most 24 (53) bits, larger ones as the nearest float; doubles that are floats, and floats for double fields, are sent as the same numbers, also zeros of either sign and subnormal numbers. Expected for all numbers; the rest is rounded silently, to infinity if too large for a float.", "quantifier": "every message type with floating point fields (not just one), every argument list, transmitter and machine", "why_tests_cant": "all integers and bit patterns", "anchors": ["tuple-transmission/detail/operations/SendOverloads_Generated.h", "tuple-transmission/serializers/BitwiseCopySerialization.h", "tests/RoundtripCommon.h"]}
{"id": "C72", "title": "Mismatched envelopes", "statement": "A sender and a receiver share their message types but not the envelope. With checksums only on the sender's side a message is delivered exactly if its checksum happens to be 4, with its values; otherwise the search goes on at its second byte, and what has no start code inside is lost without trace. With checksums only on the receiver's side no message without start codes inside is delivered, and the frame of the last one is kept. Expected that nothing is ever delivered that was not sent: violated in both directions by messages with start codes among their values.", "quantifier": "every list of message types, both directions, every list of messages, every grouping of the stream, every tame handler", "why_tests_cant": "all message lists and all groupings", "anchors": ["tuple-transmission/envelopes/Basic.h", "tuple-transmission/envelopes/BasicChecksum.h", "tuple-transmission/Receiver.h", "tuple-transmission/MessageCollection.h"]}
{"id": "C73", "title": "Calls made on a transmitter", "statement": "With any transmitter, also a user-written one, a send consists of exactly these calls: a single-byte write for each control code, for the id and for the checksum; per field one block write with all its bytes, or a single-byte write for a uint8_t; then writeFinished once. The first failing call ends the send. A transmitter that implements only writeByte gets the bytes of the frame in order; a serial port gets one write per call.", "quantifier": "every transmitter, message type, value, envelope and machine", "why_tests_cant": "all transmitters, including failing ones", "anchors": ["tuple-transmission/detail/bases/TransmitterBase.h", "tuple-transmission/Send.h", "tuple-transmission/envelopes/Basic.h", "tuple-transmission/envelopes/BasicChecksum.h", "tuple-transmission/serializers/BitwiseCopySerialization.h", "tuple-transmission/transmitters/VrpnSerial.h"]}
{"id": "C74", "title": "A frame with a damaged control code or id", "statement": "A frame of either envelope with one of SOH, STX, ETX, EOT changed, or with the id changed to one the collection does not have, is not delivered; scanning goes on at its second byte, so that with no SOH among its other bytes exactly this message is lost. Without checksum an id changed to that of a message of the same size delivers that message instead; a smaller one is delivered if ETX EOT are where it ends; for a larger one nothing is delivered and the receiver waits for that many bytes.", "quantifier": "every accepted collection, frame, position and value of the changed byte, bytes before and after, tame handler, order of calls", "why_tests_cant": "every position and value of the damage, every collection and every surrounding stream; the tests change the id of one message to one other value", "anchors": ["tuple-transmission/envelopes/Basic.h: checkBufferForMessage", "tuple-transmission/envelopes/BasicChecksum.h: checkBufferForMessage", "tests/HandlerCommon.h"]}
{"id": "C75", "title": "Total work of checkBufferForMessage", "statement": "One call of checkBufferForMessage calls itself at most once for every byte it drops. Over the life of a buffer the calls altogether are at most those made from outside plus the bytes appended that are no longer held, so the number of calls is linear in the bytes received whatever they are.", "quantifier": "every accepted collection, machine, assertion mode and sequence of appends, checks, pops and id settings that keeps to the reported space", "why_tests_cant": "a bound on the sum over all executions; tests measure single runs", "anchors": ["tuple-transmission/detail/bases/EnvelopeBase.h: popAndRetry", "tuple-transmission/envelopes/Basic.h: checkBufferForMessage", "tuple-transmission/envelopes/BasicChecksum.h: checkBufferForMessage", "tuple-transmission/detail/types/EnvelopeReceiveBuffer.h"]}
{"id": "C76", "title": "Generated headers", "statement": "For any limits in the generating script, SendOverloads_Generated.h has for each arity from the minimum to the maximum, in order and guarded by FUSION_MAX_LIST_SIZE, exactly two overloads of send, whose parameters have the types of the fields in order and which pass all arguments on in order to the sequence form for the same collection and message type; PartialHandlerBase.h has exactly one empty default handler for each arity, accepting any message and values; ArityConfig.h sets the Fusion limits to those arities (one more for calls, because of the message tag). When preprocessed, ArityConfig.h sets those limits that the application has not set and changes no other macro; behind it the overloads that the compiler sees are those for the arities up to the limit in force; reading either again adds nothing. The checked-in headers are what the scripts print, and provide for exactly the arities 0 to 9; no handler is called with separate arguments for a message with more fields than the limit allows.", "quantifier": "every lower and upper limit, every script name without a star, and whatever macros the application has defined", "why_tests_cant": "tests compile one set of limits, and never look at the text", "anchors": ["generation/variadicGenerate.lua", "generation/SendOverloads.gen.lua", "generation/PartialHandlerBase.gen.lua", "generation/ArityConfig.gen.lua", "tuple-transmission/detail/operations/SendOverloads_Generated.h", "tuple-transmission/PartialHandlerBase.h", "tuple-transmission/detail/constants/ArityConfig.h"]}
{"id": "C77", "title": "Interrupted sending", "statement": "When a message cannot be sent because the transmitter fails, what has been written is a beginning of its frame, ending just before the call that failed. A receiver that has got all messages sent before and any proper beginning of the next frame has delivered exactly those messages and holds that beginning. If the sender then goes on with further messages (after noise without start codes, or none), exactly these are delivered next, provided the byte in the place of the interrupted frame's EOT is not EOT (in that of its STX not STX, if only the start code was sent) and the beginning has no further start code; without that condition re-sending an interrupted message can deliver a message never sent instead.", "quantifier": "every collection, message, interruption point, noise, transmitter that writes what it is given, and history of calls", "why_tests_cant": "the interruption point and the byte coinciding with the EOT position matter; tests send whole messages", "anchors": ["tuple-transmission/Send.h: send", "tuple-transmission/envelopes/Basic.h: sendMessage, checkBufferForMessage", "tuple-transmission/envelopes/BasicChecksum.h: sendMessage, checkBufferForMessage", "tuple-transmission/detail/bases/EnvelopeBase.h: popAndRetry", "tuple-transmission/Receiver.h: processMessages"]}
{"id": "C78", "title": "Ports that take only a part of a write", "statement": "Sending through a serial or I2C transmitter returns as if everything had been written, whatever the port does: the number of bytes taken, which the port returns, is ignored. Of every write a beginning arrives; the bytes on the wire are the frame exactly if the port took all of every write. Expected: when send has returned the frame has been written; a port that takes one byte of each write violates it for every message with a field of more than one byte, and an I2C bus with a k byte buffer cuts every longer frame.", "quantifier": "every port (any function of its state and the block), message sequence, envelope and machine", "why_tests_cant": "needs every behaviour of the port", "anchors": ["tuple-transmission/transmitters/VrpnSerial.h", "tuple-transmission/transmitters/ArduinoSerial.h", "tuple-transmission/transmitters/ArduinoI2C.h"]}
{"id": "C79", "title": "Two programs talking to each other", "statement": "Two programs, each with a receiver and its own collection, send messages to each other of their own accord and from their handlers. In any interleaving of sends and turns (receiveFrom; processMessages), each reading any number of the waiting bytes, every turn returns and at any time each has got the first messages the other sent, in order, all of them once no bytes are waiting. If one only answers, the other gets the answers to its messages in order; if that one does not answer the answers, turns lead to a state where everything is delivered. If both answer every message, then after the first message sent the wires are never both empty.", "quantifier": "every pair of programs whose handlers return and do not append or process; machines of equal byte order; every interleaving", "why_tests_cant": "all interleavings of two programs and all splittings of the bytes", "anchors": ["tuple-transmission/Receiver.h", "tuple-transmission/Send.h", "tuple-transmission/receiveadapters/ArduinoSerial.h"]}
{"id": "C80", "title": "Envelopes written by an application", "statement": "For a collection with an envelope of the application's own (class derived from EnvelopeBase): if its checkBufferForMessage, on any bytes, reads only bytes held and when it returns true has set the id, the whole message is at the front, and it would return true again, then every operation of the receiver returns and processMessages handles exactly the messages the check finds, decoded at data_offset, removing Size bytes each. If moreover the check finds what sendMessage sends and waits while it is incomplete, messages sent are handled in order with their values however the bytes are cut up, and all of them when all bytes have arrived and processMessages returns. send passes the bytes of sendMessage to any transmitter, then calls finished() once. Basic and BasicChecksum are such envelopes. Without these conditions: undefined behaviour when no id is set, handling of bytes not received; a check that decodes in place works only without assertions since popMessage checks again.", "quantifier": "every envelope whose check and send are finite programs over the EnvelopeReceiveBuffer and transmitter functions; all collections, configurations, histories", "why_tests_cant": "all possible envelope classes", "anchors": ["tuple-transmission/detail/bases/EnvelopeBase.h", "tuple-transmission/detail/types/EnvelopeReceiveBuffer.h", "tuple-transmission/Receiver.h", "tuple-transmission/Send.h", "tuple-transmission/MessageCollection.h"]}
{"id": "C81", "title": "Serialization policies written by an application", "statement": "An envelope of an application may name its own serialization policy instead of BitwiseCopy. If its serializer writes sizeof(T) bytes for every field, whatever state it has, and the deserializer makes the same value of them and stops behind them, then messages arrive in order with their values (C80). BitwiseCopy is such a policy between machines of the same byte order and writes values as in memory. A policy that does not depend on the machine makes the same transmitter calls on every machine, and messages arrive between machines of different byte order. Without these conditions, and nothing checks them: a serializer that writes fewer bytes loses the message behind; one that writes differences to the field before cannot be undone, deserializers having no state; a deserializer that reads more than the fields reads past the buffer.", "quantifier": "every policy whose buffer() is a list of transmitter calls depending on machine, state, type and value, and whose Unbuffer is a finite program reading bytes; all collections, machines, histories", "why_tests_cant": "all possible serializer classes, all values, pairs of machines", "anchors": ["tuple-transmission/detail/bases/SerializerBase.h:55-118", "tuple-transmission/serializers/BitwiseCopySerialization.h:34-73", "tuple-transmission/detail/operations/DeserializeToFusion.h:64-121", "tuple-transmission/detail/bases/EnvelopeBase.h:48"]}
{"id": "C82", "title": "What the checksum detects and what it misses", "statement": "With BasicChecksum: two adjacent bytes of a frame altered within eight successive bits (either bit order) make it no frame, wherever in the frame, unless the id becomes that of a message of another payload size; within nine successive bits a change can pass. Two bits in different payload bytes changed: delivered, with the changed values, exactly if they have the same significance and are the highest bits or had different values. A payload bit and a checksum bit: exactly if they have the same significance and are the highest or had the same value. For any checksum byte exactly one in 256 of the payloads passes.", "quantifier": "all collections with BasicChecksum, messages, payloads, positions, bits, histories and data around the frame, and handlers that do not throw or call back", "why_tests_cant": "256^n payloads, all pairs of bits and positions", "anchors": ["tuple-transmission/envelopes/BasicChecksum.h: checkBufferForMessage", "tuple-transmission/transmitters/ChecksumComputer.h", "tuple-transmission/Receiver.h: processMessages"]}
{"id": "C83", "title": "The headers may be included in any order", "statement": "Whatever #include lines a file has, in whatever order and however often, reading the library's headers ends, each header asked for is read, its declarations are read once and behind those of every library header it includes, and no Boost.Fusion header is read before ArityConfig.h has set Fusion's limits, except one the file itself includes. Every header of the library named in quotes exists.", "quantifier": "all directories of the including file, sequences of #include lines of any length, and sets of macros defined before that do not contain one of the library's guards", "why_tests_cant": "any sequence of inclusions of any headers", "anchors": ["tuple-transmission/detail/constants/ArityConfig.h", "tuple-transmission/*.h: include guards and #include lines", "util/*.h"]}
{"id": "C84", "title": "How rarely noise is taken for messages", "statement": "Of all strings of n bytes received after traffic that was dealt with completely, the number in which a message is found, and even the number of messages found in all of them together, is at most the number of strings, times the number of places where a frame of one of the message types fits into n bytes, divided by 256^5 (Basic) or 256^6 (BasicChecksum). For messages that are all of one size and strings of that size this is exact. A receiver fed these strings byte by byte, with processMessages after each byte, returns from every call.", "quantifier": "all collections, n, earlier traffic and ways of splitting the bytes; all 256^n strings counted", "why_tests_cant": "256^n strings for every n", "anchors": ["tuple-transmission/Receiver.h", "tuple-transmission/envelopes/Basic.h", "tuple-transmission/envelopes/BasicChecksum.h"]}
{"id": "C85", "title": "Where messages are lost, and that some get through", "statement": "Wherever in the received bytes the complete frame of a sent message stands, the message is delivered, and what follows is dealt with as by a receiver starting there; or the frame begins inside another frame, begun with earlier bytes, whose message was delivered instead (a phantom); or it begins inside bytes that the receiver still holds as the beginning of a frame. Whatever was received before, k messages sent with frames of at least L bytes lead to a number n of handler calls with L*k <= n*(max+L-2) + max-2, max being the size of the longest frame; when all messages are of one size, to at least k/2. It is not true that a receiver joining in the middle of a stream gets in step sooner or later: with either envelope there is a message which, repeated, is received for ever as a different one.", "quantifier": "all collections, earlier bytes, messages, ways of splitting the bytes, handler behaviours without nested processMessages; any number of repetitions", "why_tests_cant": "every garbage prefix and every number of messages", "anchors": ["tuple-transmission/Receiver.h", "tuple-transmission/envelopes/Basic.h", "tuple-transmission/envelopes/BasicChecksum.h"]}
{"id": "C86", "title": "Accesses to the receive buffer", "statement": "Counted are the element accesses (operator[], front) that checkBufferForMessage and popMessage make. With the Basic envelope one check makes at most 6 for every byte it drops and 5 more. With BasicChecksum, the longest frame being L bytes, at most L+5 for every byte it drops and L+4 more. Over the life of a buffer all together are at most 6 times (with BasicChecksum L+5 times) the number of checks made from outside plus the bytes appended and no longer held. It is not true that the work with BasicChecksum is linear in the bytes whatever the messages' length: for a message type with a frame of L bytes and any k with 3k+3 <= L there are L-3+3k bytes (fewer than 2L) on which a single check makes at least k(L+5) accesses.", "quantifier": "every accepted collection, machine, assertion mode, and sequence of appends, checks, pops and id settings that keeps to the reported space; every message type and k", "why_tests_cant": "every content of the buffer, every message length", "anchors": ["tuple-transmission/envelopes/Basic.h", "tuple-transmission/envelopes/BasicChecksum.h", "tuple-transmission/detail/types/EnvelopeReceiveBuffer.h", "tuple-transmission/detail/bases/EnvelopeBase.h", "util/ReceiveBuffer.h"]}
{"id": "C87", "title": "Bytes moved inside the receive buffer", "statement": "Counted are the bytes that the receive buffer copies within its array to make room at the end. A call moves nothing, or it is an appendReceived or receiveFrom on a receiver that holds bytes and moves exactly those held. Over the life of a receiver the bytes moved are at most twice the bytes given to it, in however many pieces and with however many calls of processMessages, if every receiveFrom gets all the bytes it asked its adapter for, no handler throws and handlers do nothing to the receiver but install other handlers. There are such runs moving more than 1.9 times the bytes given. The bound does not hold for a receiver polled through VrpnSerialReceiveAdapter, which asks for 255 bytes whatever there is (a run moves more than 30 times the bytes received), nor with a handler that throws at every other message (more than 40 times).", "quantifier": "every accepted collection, machine, assertion mode, and sequence of calls that keeps to the reported space; the last sentences: the runs exhibited", "why_tests_cant": "every division of every byte stream into calls", "anchors": ["util/ReceiveBuffer.h", "tuple-transmission/Receiver.h", "tuple-transmission/receiveadapters/VrpnSerial.h", "tuple-transmission/detail/bases/ReceiveAdapterBase.h"]}
{"id": "C88", "title": "Transmitters and receive adapters written by an application", "statement": "A transmitter class that defines writeByte and not write gets every frame one byte at a time, in order; one that defines write too gets each field that is not a uint8_t through it as one block, everything else byte by byte; after the frame its writeFinished is called once if it defines one, and nothing else is called. One that does not define writeByte cannot be sent to. A receive adapter class with a receiveIntoBuffer works as the shipped ones do if it defines getNumAvailable (its own is used, whichever base class it has) or is derived from ReceiveAdapterWithoutAvailable (which stands for 255); without receiveIntoBuffer it is rejected. Expected: one derived from ReceiveAdapterBase without getNumAvailable is rejected too. The code violates it: it compiles, and receiveFrom calls itself without end. If the adapter throws, even after having stored bytes, or if iterators given to appendReceived throw at any element, the exception leaves the call with nothing changed that can be observed, now or by any later calls; the bytes already stored are not received.", "quantifier": "every transmitter class, message and values; every adapter class, receiver state, machine and later history of calls", "why_tests_cant": "needs classes that lack members or throw; every state and every point of throwing", "anchors": ["tuple-transmission/detail/bases/TransmitterBase.h", "tuple-transmission/detail/bases/ReceiveAdapterBase.h", "tuple-transmission/Receiver.h: receiveFrom, appendReceived", "util/ReceiveBuffer.h: bufferFromExternalFunctorRef, push_back"]}
{"id": "C89", "title": "Lifetime of handlers", "statement": "If the objects given to a receiver as handlers are not destroyed while it is used, destroying any others, at any time and also inside handlers, changes nothing. More exactly, processMessages works as if nothing had been destroyed if every handler it calls exists when it is called, and is undefined if one does not: so a handler may be destroyed once it has been replaced or cleared, or while no complete message is buffered, and by itself in its last call. No other member function uses the handler. Expected: a receiver whose handler has been destroyed has no handler. The code violates it: hasHandler answers true, and processing the next complete message calls the destroyed object.", "quantifier": "every sequence of calls and destructions, every behaviour of handlers that may destroy objects and install handlers, every receiver state", "why_tests_cant": "a call through a dangling pointer need not fail in a test; any point of destruction", "anchors": ["tuple-transmission/Receiver.h: Receiver(MessageFunctor &), setHandler, clearHandler, hasHandler, processMessages, deserializeAndInvoke"]}
{"id": "C90", "title": "Handlers that ask the receiver", "statement": "While a handler runs, getLastMessageId returns the id of its message, hasHandler is true until the handler clears it, and getBufferAvailableSpace counts its message, and everything behind it, as still held; receiveFrom and appendReceived add bytes behind these. Whatever handlers do according to what these functions return to them, everything observable is as with handlers of the other claims that append the same bytes, so that those claims hold for them too. Handlers that append no more than the space they are told, receive from adapters as much as they like and leave a handler in place never make processMessages go wrong (it may go on as long as they find new messages).", "quantifier": "every collection without bool fields (for the last part), machine, sequence of calls and behaviour of handlers that do not call processMessages", "why_tests_cant": "the decisions of a handler may depend on every answer; every history", "anchors": ["tuple-transmission/Receiver.h: getBufferAvailableSpace, getLastMessageId, hasHandler, receiveFrom, appendReceived, processMessages"]}
{"id": "C91", "title": "Member functions that cannot be called", "statement": "Expected: every public member function of ReceiveBuffer (with its base vector_simulator), EnvelopeReceiveBuffer and Receiver can be called, on const objects those declared const. The code violates it: data(), element access of a const buffer (operator[], at, front, back, bufferFront, buffer) and bufferEnsureSpace never compile, nor does at() where exceptions are enabled; every program that uses none of these, in particular every one that uses only Receiver's functions, compiles as far as existence, constness and access of these functions go. Of the classes that are no templates, ArduinoI2C, ArduinoSerial and ArduinoSerialReceiveAdapter do not compile where Print does not derive from Stream; the ones for VRPN do.", "quantifier": "every set of uses, with and without exceptions and assertions", "why_tests_cant": "a test can only use what compiles; members of templates nobody uses are never looked at", "anchors": ["util/ReceiveBuffer.h: data, operator[], adjusted_index", "util/VectorSimulator.h: vector_simulator_access::rangecheck, at, front, back", "tuple-transmission/detail/types/EnvelopeReceiveBuffer.h: bufferEnsureSpace, bufferFront, buffer", "tuple-transmission/Receiver.h", "tuple-transmission/transmitters/ArduinoI2C.h", "tuple-transmission/transmitters/ArduinoSerial.h", "tuple-transmission/receiveadapters/ArduinoSerial.h"]}
{"id": "C92", "title": "Bytes arriving while processMessages runs", "statement": "Expected: when an interrupt routine or another thread appends bytes, within the reported space, between the calls processMessages makes on its buffer, the effect is that of some sequence of separate appendReceived and processMessages calls. It is so if nothing arrives while the fields of a message are read and what arrives between the buffer having been found empty and its size being asked for begins with SOH or is a single byte. The code violates it at these two moments: bytes arriving at the second are taken for a message whatever their first byte is (and with assertions the program is aborted after the delivery), bytes arriving at the first can move the buffer's contents under the iterator, so that a handler gets the values of another message.", "quantifier": "every collection without bool fields, every state reached, every pattern of arrivals, handlers that at most install handlers or throw", "why_tests_cant": "which moment an interrupt hits cannot be chosen in a test, and the tests have one thread", "anchors": ["tuple-transmission/Receiver.h: processMessages", "tuple-transmission/envelopes/Basic.h: checkBufferForMessage", "tuple-transmission/envelopes/BasicChecksum.h: checkBufferForMessage", "tuple-transmission/detail/types/EnvelopeReceiveBuffer.h", "tuple-transmission/detail/operations/DeserializeToFusion.h", "util/ReceiveBuffer.h: ensure_space"]}
{"id": "C93", "title": "Messages sent while another one is being sent", "statement": "When messages are sent on a transmitter while another message is being sent on it (by an interrupt routine, or by the code behind the port), before any of the calls the send makes, nested to any depth, each frame's bytes are written in order and with the right checksum, those of the messages sent before a call in front of that call's bytes. A receiver delivers exactly the messages in the middle of which none was sent, in the order of their bytes, if each other message has no start code after its first byte and the byte in the place of its EOT is not EOT (or that in the place of STX not STX). If messages are sent only before the first or after the last byte of others, all are delivered. Expected: without damage only messages that were sent are delivered, and messages of up to 255 bytes do not overrun the I2C transmitter. The code violates both: with either envelope a message can be delivered that was never sent, and a message sent in the middle of another overruns the buffer.", "quantifier": "every collection, all nested sendings, every transmitter that writes what it is given, interrupts between calls or between single bytes", "why_tests_cant": "which moment an interrupt hits cannot be chosen in a test; the tests send one message at a time", "anchors": ["tuple-transmission/Send.h: send", "tuple-transmission/detail/bases/TransmitterBase.h", "tuple-transmission/envelopes/Basic.h: sendMessage", "tuple-transmission/envelopes/BasicChecksum.h: sendMessage", "tuple-transmission/transmitters/ArduinoI2C.h", "tuple-transmission/detail/bases/SerializerBase.h"]}
{"id": "C94", "title": "Messages separated by idle bytes", "statement": "If the sender sends idle bytes after every message - none of them SOH, the first two not STX, and as many as the longest message of the collection has bytes, less three, or more - the receiver has discarded or delivered every byte it got by the end of them, whatever came before. So what it delivers is, segment after segment, what a new receiver would deliver of that message and its idle bytes alone; arbitrary damage to some messages does no harm to the others: in the place of every message that arrives whole exactly that message is delivered, and in the place of another at most one message for every five bytes of its segment. With one idle byte less there are, in every collection, bytes that the receiver keeps together with the idle bytes, waiting for more.", "quantifier": "every collection, all byte sequences before the idle bytes, all damage, all splittings into calls", "why_tests_cant": "all damage to all messages cannot be tried; the tests send undamaged messages without anything between them", "anchors": ["tuple-transmission/Receiver.h: processMessages, appendReceived", "tuple-transmission/envelopes/Basic.h: checkBufferForMessage", "tuple-transmission/envelopes/BasicChecksum.h", "tuple-transmission/detail/operations/MaxMessageLength.h"]}
{"id": "C95", "title": "Exceptions while a message is sent", "statement": "When a transmitter throws during send (std::vector without memory, vrpn_SerialPort that cannot write, an application's own class) the exception leaves send, nothing more is called on the transmitter, and what has been written is a beginning of the frame; for VectorBuffer never all of it. Of two composed transmitters the second has written a beginning of what the first has. If the program catches every exception, then writes a gap of idle bytes (C94, without EOT) and goes on with the same or other messages, a receiver delivers every message whose send returned exactly once and in order, and each of the others (having no start code inside) at most once; none of them if the transmitter never throws after having written all it was given, so that a message tried again until send returns is delivered exactly once. Expected: a message whose send threw was not sent. The code violates it with either envelope for composed VectorBuffers: the first has the whole message when the second throws at the last byte, and a message tried again is delivered twice.", "quantifier": "every collection, all transmitters that write what they are given or throw after a beginning of it, all failing moments, all sequences of attempts", "why_tests_cant": "allocation failures at every byte of every message cannot be provoked in a test; the tests' transmitters never throw", "anchors": ["tuple-transmission/Send.h: send", "tuple-transmission/transmitters/VectorBuffer.h", "tuple-transmission/transmitters/VrpnSerial.h", "tuple-transmission/transmitters/TransmitterComposition.h", "tuple-transmission/detail/bases/TransmitterBase.h", "tuple-transmission/envelopes/Basic.h: sendMessage", "tuple-transmission/envelopes/BasicChecksum.h: sendMessage"]}
{"id": "C96", "title": "A port that keeps a limited number of bytes", "statement": "A program calls receiveFrom (through VrpnSerial or ArduinoSerial) and processMessages in a loop; the bytes of sent messages arrive in bursts between the turns at a port that keeps F bytes and drops what arrives when it is full. Let R be twice the longest message plus one byte, at most 255. If a bucket of size F from which R bytes leak per turn never overflows, then no byte is lost, no more bytes wait at the port than in the bucket, the messages delivered are the first ones sent, and all are delivered when nothing is left; both calls return in every turn. If every burst is no longer than F and R, then after every turn the port is empty, every message that has arrived completely is delivered and exactly the bytes of the incomplete one are held. R is sharp: for the test messages (R = 35) bursts of 36 bytes overflow a port of 64 bytes.", "quantifier": "every collection, all port sizes, all messages, all sizes and numbers of bursts, both adapters", "why_tests_cant": "no test has a port that loses bytes or runs a loop; overflow shows only after many turns of particular traffic", "anchors": ["tuple-transmission/receiveadapters/VrpnSerial.h", "tuple-transmission/receiveadapters/ArduinoSerial.h", "tuple-transmission/Receiver.h: receiveFrom, processMessages", "util/ReceiveBuffer.h: bufferFromExternalFunctorRef", "tuple-transmission/detail/operations/ComputeReceiveBufferSize.h"]}
{"id": "C97", "title": "Running the generation scripts", "statement": "generateAll.sh, if no data file fails and no two name the same header, succeeds, gives each header what variadicGenerate.lua prints for it and changes no other file, in whatever order the shell lists the data files. The library's three data files fail for no limits; exactly three headers are written, all for the same limits; on a checkout nothing changes. When a data file fails the script stops with an error, the headers before it are made, those after it untouched. A build with CMake leaves the same files, writes only headers older than their scripts, makes all three after a change of the limits, and a second build does nothing. Expected: a header that cannot be made is left as it was, a failed build keeps failing until something is changed, every data file variadicGenerate.lua accepts gets its header, and one that names no header is an error. The code violates these: the header of a data file that names none goes into a file called nil, that of the next such one in its place; the redirection empties the header, a later build (with a tool that keeps outputs of failed commands) takes the empty header as up to date, and query.lua, which does not set the limits, stops on a data file that computes with them; CMake then leaves the header out silently.", "quantifier": "all limits, all data files (as functions that may fail), all file trees, all time stamps", "why_tests_cant": "the generation scripts have no tests; whoever builds the library with Lua installed runs them on the source tree", "anchors": ["generation/generateAll.sh", "generation/query.lua", "generation/CMakeLists.txt", "generation/variadicGenerate.lua: main", "generation/ArityConfig.gen.lua: outFile", "generation/PartialHandlerBase.gen.lua: outFile", "generation/SendOverloads.gen.lua: outFile"]}
{"id": "C98", "title": "How many alterations the checksum misses", "statement": "Take a frame of the checksum envelope and any set of j places among its payload bytes and its checksum byte. Of the 255^j ways to alter exactly the bytes at these places, exactly (255^j + 255 (-1)^j) / 256 make a frame again: none for one byte, 255 for two, about one in 256 for more, regardless of which places and which payload. A receiver that gets the altered bytes, after any completed frames and before any further bytes, delivers the altered payload for exactly these, and for all the others goes on scanning at the second byte. If every byte is altered independently, each of its 255 wrong values with the weight a and the right one with the weight b, the weights of the frames add up to ((b+255a)^n + 255(b-a)^n) / 256, n being the number of payload bytes and one.", "quantifier": "all collections with the checksum envelope, all messages and payloads, all sets of places, all weights, all preceding and following bytes", "why_tests_cant": "the number of alterations grows as 255^j and a test tries a handful", "anchors": ["tuple-transmission/envelopes/BasicChecksum.h", "tuple-transmission/transmitters/ChecksumComputer.h", "tuple-transmission/Receiver.h: processMessages", "tuple-transmission/Receiver.h: checkBufferForMessage"]}
{"id": "C99", "title": "Which assertions a program has", "statement": "With a Boost that does not define BOOST_ASSERT_MSG, BOOST_ASSERT_MSG is what the macros set at the first inclusion of BoostAssertMsg.h ask for, whatever is set or included later: nothing if BOOST_DISABLE_ASSERTS or NDEBUG is set, otherwise the user's function if BOOST_ENABLE_ASSERT_HANDLER is set, otherwise a failure ends the program. BOOST_ASSERT is what Boost makes of the macros set at the last inclusion of boost/assert.hpp. With a Boost that defines BOOST_ASSERT_MSG, the header does no more than include boost/assert.hpp. Whatever the assertions of each kind do, a receiver given the same calls returns the same. A failure ends the program exactly when the macro calls a function that does not return. Expected: with the same macros set, BOOST_ASSERT and BOOST_ASSERT_MSG are switched on or off together. Violated, with older versions of Boost, exactly when NDEBUG and BOOST_ENABLE_ASSERT_HANDLER are set and BOOST_DISABLE_ASSERTS is not.", "quantifier": "all source files as sequences of macro settings and inclusions, all versions of boost/assert.hpp as functions of the macros, all histories of a receiver", "why_tests_cant": "the tests are built with one Boost and one setting", "anchors": ["util/BoostAssertMsg.h", "util/ReceiveBuffer.h", "tuple-transmission/detail/types/EnvelopeReceiveBuffer.h: getMessageLength", "tuple-transmission/detail/types/EnvelopeReceiveBuffer.h: popMessage"]}
{"id": "C100", "title": "Interrupts in the midst of an operation of the buffer", "statement": "Bytes appended by an interrupt routine between any two accesses that empty(), size(), operator[] or pop_front(n) of a receive buffer make to its data members, in either order of evaluation of their operands, do no harm when they fit behind the contents: empty() (also of an empty buffer) and size() (of one that is not empty) answer what was true at some moment of the call, operator[] gives the element, pop_front(n) removes the n elements and no others, and no byte that comes is lost. Expected: the same whenever the bytes fit into the buffer. Violated: when the contents must be moved for them between the reading and the writing of _begin, pop_front() removes further bytes, as many as had been removed since the contents last moved; size() of an empty buffer may answer more than there are; empty() may answer true of a buffer that is not empty. pop_back() loses all that comes between the reading and the writing of _pastEnd.", "quantifier": "all capacities, contents, positions of the interrupts and bytes that arrive, both orders of evaluation, all assertion modes", "why_tests_cant": "an interrupt between two machine instructions cannot be provoked by a test that calls functions", "anchors": ["util/ReceiveBuffer.h: pop_front", "util/ReceiveBuffer.h: size", "util/ReceiveBuffer.h: ensure_space", "util/VectorSimulator.h", "tuple-transmission/Receiver.h: appendReceived"]}
{"id": "C101", "title": "Interrupts in the midst of processMessages", "statement": "When the bytes a receiver holds contain a message, bytes appended by an interrupt routine before whatever accesses checkBufferForMessage makes to the buffer's data members, in either order of evaluation of operands, change nothing as long as they fit behind the contents: the message is found all the same, with the same id, and no byte that comes is lost. More: when the bytes to come fit behind the contents, and as long as some are still to come those that have come leave some over once their messages are taken out, processMessages, interrupted so at whatever accesses while it looks for messages, reads their fields and removes them, returns, and what it leaves, returns and makes happen later is what some sequence of separate calls of appendReceived and processMessages does. Without interrupts the accesses do what processMessages does in the other claims. Expected: the same of a receiver that holds nothing, and whenever the bytes fit into the buffer. Violated: when a single byte comes while processMessages asks the empty buffer for its size, two bytes or more having been removed since the buffer was last empty, the program stops where a failed assertion stops it; where assertions are off the byte is thrown away if the stale byte behind it is no message id, and with it the message it begins. When the contents must be moved for the bytes, a message already in the buffer can be lost.", "quantifier": "all collections, histories, handlers that do not process, positions of the interrupts and bytes that arrive, both orders of evaluation", "why_tests_cant": "an interrupt between two machine instructions cannot be provoked by a test that calls functions", "anchors": ["tuple-transmission/envelopes/Basic.h: checkBufferForMessage", "tuple-transmission/envelopes/BasicChecksum.h: checkBufferForMessage", "tuple-transmission/detail/bases/EnvelopeBase.h: popAndRetry", "tuple-transmission/Receiver.h: processMessages", "util/ReceiveBuffer.h: size", "util/ReceiveBuffer.h: pop_front"]}
{"id": "C102", "title": "The build's check of the headers", "statement": "Configuring the build stops exactly when a file ending in .h below tuple-transmission/ is in none of the three lists of tuple-transmission/CMakeLists.txt, and names exactly these files; the lists name every header of the library once and nothing else. The header-compile tests are one program per header of the first two lists, of different names, that includes the header and nothing else. Every header in tuple-transmission/ and util/ is read by one of them except the five integration headers (three of which do not compile, C91). A build that makes regenerate-headers first compiles each program with the headers made in that build. Expected: different headers get programs of different names; programs are always compiled with the headers made in the same build. Violated: .h is removed anywhere in the name, so that two headers can ask for the same target; nothing orders the programs behind regenerate-headers, so that after a change of the limits a build can succeed having compiled them with the old headers.", "quantifier": "all lists of headers and files, all headers of the library, all orders of targets, limits, file trees and time stamps", "why_tests_cant": "a test of the build cannot see which headers it leaves out, nor every order a parallel build may take", "anchors": ["tuple-transmission/CMakeLists.txt", "tests/cleanbuild/CMakeLists.txt", "tests/cleanbuild/test_headercompile.cpp.in", "generation/CMakeLists.txt"]}
{"id": "C103", "title": "Interrupts in the midst of appendReceived", "statement": "Let processMessages be called by an interrupt before any of the reads and writes appendReceived makes of the buffer's members and array. Without such calls appendReceived does what the other claims say. Let the bytes fit behind the contents, and either processing leave some of the bytes held over, or something be held and at most one such call come, or _pastEnd be 0. Then appendReceived returns, and messages delivered, values returned and everything later are as if the calls had been made apart, the first ones before appendReceived and the others after it. Expected also when nothing is held, and when the contents have to be moved to make room. Violated: a receiver that has processed all its bytes sets _begin back before _pastEnd; a call between the two delivers every message of before again, and the program stops at an assertion, or goes on with _begin behind _pastEnd (reported space above the capacity, undefined behaviour at the next processMessages). A call just before the moved contents' _pastEnd is set takes out a message that is then put back and delivered again, with no assertion failing.", "quantifier": "all configurations, collections without bool fields, histories, handlers that at most install other handlers or throw, bytes, sets of accesses interrupted", "why_tests_cant": "no test interrupts between two accesses of one call; the places where it matters are single instructions", "anchors": ["util/ReceiveBuffer.h: push_back", "util/ReceiveBuffer.h: ensure_space", "tuple-transmission/Receiver.h: appendReceived", "tuple-transmission/Receiver.h: processMessages"]}
{"id": "C104", "title": "Interrupts in the midst of receiveFrom", "statement": "Let processMessages be called by an interrupt before any of the reads and writes receiveFrom makes of the buffer's members and array. Without such calls receiveFrom does what the other claims say. Let as many bytes as the adapter has available fit behind the contents, and either processing leave some of the bytes held over, or something be held and at most one such call come, or _pastEnd be 0. Then receiveFrom takes the bytes the adapter gives for that number and returns their number, and messages delivered, values returned and everything later are as if the calls had been made apart. Expected also when the contents have to be moved, and when nothing is held. Violated: while the contents are moved, a call can find the first byte held overwritten, deliver a message nobody sent from inside the message that is arriving, and lose that message, with no assertion failing; a receiver that has processed all its bytes can deliver a message again and then have undefined behaviour.", "quantifier": "all configurations, collections without bool fields, histories, handlers that at most install other handlers or throw, adapters keeping their contract, sets of accesses interrupted", "why_tests_cant": "no test interrupts between two accesses of one call; the places where it matters are single instructions", "anchors": ["util/ReceiveBuffer.h: bufferFromExternalFunctorRef", "util/ReceiveBuffer.h: ensure_space", "tuple-transmission/Receiver.h: receiveFrom", "tuple-transmission/Receiver.h: processMessages"]}
{"id": "C105", "title": "Interrupts while the handler is changed", "statement": "Let processMessages be called by an interrupt in the midst of setHandler or clearHandler, or setHandler or clearHandler in the midst of processMessages, before any of the reads and writes of _invoker and _functorPointer. Without such calls both do what the other claims say. In the first case, with no handler in place, or a new handler of the old one's class, or no complete message held, or no call between the two writes, all is as if processMessages had been called before. In the second case, as long as a handler is in place at each read and the two reads for a message meet handlers of one class, the same messages are delivered and the same returned and held as without, and each message goes to the handler in place when _functorPointer was read for it. Expected for every handler. Violated: whenever a complete message is held, processMessages between the two writes of clearHandler or of setHandler for another class, a cleared handler when processMessages reads _functorPointer for it, and setHandler for another class between its two reads, call a function of one class with an object of another or call through a null pointer: undefined behaviour.", "quantifier": "all configurations, collections without bool fields, histories, handlers that do not use the receiver (nor throw, in the second case), accesses interrupted, handlers set, orders of the two reads", "why_tests_cant": "no test interrupts between two accesses of one call", "anchors": ["tuple-transmission/Receiver.h: setHandler", "tuple-transmission/Receiver.h: clearHandler", "tuple-transmission/Receiver.h: hasHandler", "tuple-transmission/Receiver.h: processMessages"]}
{"id": "C106", "title": "Asking for the space while an interrupt processes", "statement": "Let processMessages be called by an interrupt before any of the two reads getBufferAvailableSpace makes of the buffer's members, in either order. The answer is the space the receiver has at a moment of the call, namely after the interrupts if _pastEnd is read first and between them otherwise; the calls of processMessages do what they do when made apart; and that many bytes can be appended afterwards, no assertion failing.", "quantifier": "all configurations, collections without bool fields, histories, handlers that at most install other handlers or throw, sets of reads interrupted, orders of the reads", "why_tests_cant": "no test interrupts between two accesses of one call", "anchors": ["tuple-transmission/Receiver.h: getBufferAvailableSpace", "tuple-transmission/detail/types/EnvelopeReceiveBuffer.h: bufferAvailableSpace", "util/ReceiveBuffer.h: size"]}
