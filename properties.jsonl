{"id": "C01", "title": "Frame encode/decode round trip", "statement": "For every frame an application can build whose fields fit the wire (non-empty payload parts, metadata <= 16777215 bytes, u31/u63 ranges, MIME types <= 255 bytes, resume tokens <= 65535 bytes and present exactly when the RESUME flag is set, error codes matching their stream id), encoding it and decoding the bytes with Frame::decode gives back Ok of the identical frame and consumes every byte.", "quantifier": "all 14 frame kinds, all field values, all payload contents and lengths", "why_tests_cant": "The space of payloads, lengths and field values is unbounded; the tests check one frame per type.", "anchors": ["binate/src/frame/mod.rs: Frame::encode, Frame::decode", "binate/src/frame/codec/*.rs", "binate/src/frame/visit.rs"]}
{"id": "C02", "title": "Round trip of empty payload parts", "statement": "Decoding an encoded payload-carrying frame yields the same frame except that an empty-but-present metadata or data part comes back as absent; flags, stream id and request-n are unchanged. Hence the round trip is exact if and only if no payload part is present-but-empty.", "quantifier": "all payload-carrying frames with in-range fields, including Some(empty) parts", "why_tests_cant": "The boundary between present-but-empty and absent must be known for every frame kind and flag combination.", "anchors": ["binate/src/frame/visit.rs: eat_payload", "binate/src/payload.rs: Payload::encode"]}
{"id": "C03", "title": "Decoding never panics except for extension frames", "statement": "Frame::decode applied to any byte string returns Ok or a DecodeError; it panics exactly when at least 6 bytes are available and the 6-bit frame type is 0x3F (EXT), and it always terminates.", "quantifier": "all byte strings of any length", "why_tests_cant": "A remote peer controls every byte; panic freedom is a for-all statement over inputs.", "anchors": ["binate/src/frame/mod.rs: Frame::decode", "binate/src/frame/visit.rs"]}
{"id": "C04", "title": "Decoding consumes a prefix and nothing else", "statement": "Whatever Frame::decode returns (frame or error), what is left in the buffer is a suffix of the input: bytes are never reordered, invented or altered. With fewer than 6 bytes nothing is consumed. SETUP, ERROR, LEASE, KEEPALIVE, REQUEST_*, PAYLOAD and METADATA_PUSH frames consume the whole input; CANCEL consumes 6 bytes, REQUEST_N 10, RESUME_OK 14 and RESUME 28 plus the token, leaving the rest untouched.", "quantifier": "all byte strings, all outcomes", "why_tests_cant": "Leftover bytes on every error path and every frame type cannot be enumerated.", "anchors": ["binate/src/frame/mod.rs: Frame::decode", "binate/src/frame/codec/*.rs: decode"]}
{"id": "C05", "title": "Decoded frames are stable under re-encoding", "statement": "If Frame::decode accepts some bytes as frame f, then f can be encoded without panicking and decoding that encoding yields exactly f again with nothing left over.", "quantifier": "all byte strings accepted by the decoder", "why_tests_cant": "Must hold for every accepted input, including those with reserved bits or odd flags set.", "anchors": ["binate/src/frame/mod.rs", "binate/src/frame/codec/*.rs"]}
{"id": "C06", "title": "Consumed size equals re-encoded size", "statement": "If Frame::decode accepts bytes as f leaving a rest, the number of bytes consumed equals the length of the encoding of f.", "quantifier": "all accepted byte strings", "why_tests_cant": "For-all over inputs.", "anchors": ["binate/src/frame/mod.rs", "binate/src/frame/codec/*.rs"]}
{"id": "C07", "title": "Reported length equals encoded length", "statement": "Encode::len() of a frame equals the number of bytes encode appends and the length of to_bytes(), for every frame kind except SETUP without a resume token, for which len() is exactly two more than the encoded size. No frame is_empty().", "quantifier": "all frames that encode without panic", "why_tests_cant": "len() and encode() are two independent computations that must agree for every frame.", "anchors": ["binate/src/frame/encode.rs: Encode", "binate/src/frame/codec/setup.rs: SetupFrame::len", "binate/src/frame/codec/*.rs: len"]}
{"id": "C08", "title": "Encoding only appends, and panics only on oversized metadata", "statement": "encode(buf) leaves the bytes already in buf unchanged and appends bytes that do not depend on them. It panics exactly when a SETUP/REQUEST_*/PAYLOAD frame carries metadata longer than 16777215 bytes; in that case the fixed-size header fields have already been appended. to_bytes() returns the bytes encode appends and panics on the same frames.", "quantifier": "all frames, all prior buffer contents", "why_tests_cant": "Panic boundary at 2^24 and independence from buffer contents range over unbounded data.", "anchors": ["binate/src/frame/codec/*.rs: encode", "binate/src/frame/u24.rs: U24::from_usize"]}
{"id": "C09", "title": "Wire layout", "statement": "The bytes produced for each frame kind are, in order and in big-endian, the fields drawn in that frame's documentation diagram: stream id, 6-bit type with 10-bit flags, the kind's fixed fields, then metadata length (24-bit), metadata and data where the kind carries a payload.", "quantifier": "all frames with in-range fields", "why_tests_cant": "Peers rely on the byte order and positions for every value, not just sampled ones.", "anchors": ["binate/src/frame/codec/*.rs: encode", "binate/src/frame/flags.rs"]}
{"id": "C10", "title": "Flag bit positions match the documented header diagram", "statement": "In the 16-bit type/flags word the IGNORE and METADATA flags are the two bits immediately following the 6-bit frame type, followed by F/R, C/L and N, as drawn in the frame diagrams.", "quantifier": "all flag constants and all header words", "why_tests_cant": "An interoperability statement about every header word; round-trip tests cannot see a consistent shift.", "anchors": ["binate/src/frame/flags.rs: Flags, FrameType::from_bits diagram"]}
{"id": "C11", "title": "Complete decoder characterisation", "statement": "Frame::decode returns Ok(f) leaving rest if and only if the input splits into the documented fields of f followed by rest; in every other case it returns exactly the error (or EXT panic) determined by the first violated rule: too short header, unknown type, stream id rule, too short body.", "quantifier": "all byte strings, all frames", "why_tests_cant": "Acceptance and rejection of arbitrary attacker-controlled input.", "anchors": ["binate/src/frame/mod.rs: Frame::decode", "binate/src/frame/visit.rs", "binate/src/frame/codec/*.rs: decode"]}
{"id": "C12", "title": "Connection-level frames require stream id 0", "statement": "Input whose type is SETUP, LEASE, KEEPALIVE, METADATA_PUSH, RESUME or RESUME_OK with a non-zero 31-bit stream id is always rejected with InvalidStreamId{expected \"0\", found}; no other non-ERROR kind is ever rejected because of its stream id.", "quantifier": "all byte strings", "why_tests_cant": "For-all over 2^31 stream ids and all bodies.", "anchors": ["binate/src/frame/mod.rs: Frame::decode"]}
{"id": "C13", "title": "ERROR frame code/stream-id consistency", "statement": "A decoded ERROR frame never has a connection-level code (0x1-0x4, 0x101, 0x102) on a non-zero stream, nor a stream-level code (0x201-0x204) on stream 0; such input is rejected with the right expectation; every other code is accepted on every stream.", "quantifier": "all byte strings of type ERROR, all 2^32 codes and 2^31 stream ids", "why_tests_cant": "Too many (code, id) pairs.", "anchors": ["binate/src/frame/codec/error.rs: validate_stream_id, ErrorFrame::decode"]}
{"id": "C14", "title": "Unknown frame types are reported", "statement": "If the 6-bit type is not one of 0x01-0x0E or 0x3F, decode fails with UnrecognizedFrameType(that 6-bit value), whatever the rest of the input; and it reports this error only then.", "quantifier": "all byte strings of at least 6 bytes", "why_tests_cant": "For-all over inputs.", "anchors": ["binate/src/frame/visit.rs: eat_flags", "binate/src/frame/flags.rs: FrameType::from_bits"]}
{"id": "C15", "title": "Errors are stable when more bytes arrive; Incomplete means more bytes can help", "statement": "If decode fails with an error other than InComplete (or panics) on some bytes, it gives the same outcome on every extension of them. If it fails with InComplete, some extension of the input is no longer InComplete. If it accepts, every extension is accepted as a frame of the same kind.", "quantifier": "all byte strings and all extensions", "why_tests_cant": "Quantifies over pairs of inputs.", "anchors": ["binate/src/frame/mod.rs: Frame::decode", "binate/src/frame/visit.rs"]}
{"id": "C16", "title": "Reserved bits are ignored", "statement": "Flipping the reserved high bit of the stream id, the unassigned header flag bits (0x200 and 0x00F) or the reserved high bit of u31/u63 fields never changes the decoding outcome.", "quantifier": "all byte strings", "why_tests_cant": "For-all over inputs and reserved-bit values.", "anchors": ["binate/src/frame/visit.rs: eat_stream_id, eat_flags, eat_u31, eat_u63", "binate/src/frame/flags.rs: Flags"]}
{"id": "C17", "title": "Constructors and accessors agree", "statement": "For in-range arguments every frame constructor yields a frame whose accessors return exactly the arguments, with the METADATA flag set iff the payload has metadata and FOLLOWS/COMPLETE/NEXT set exactly as requested, in both debug and release builds.", "quantifier": "all constructor arguments in the documented ranges", "why_tests_cant": "For-all over arguments and flag combinations.", "anchors": ["binate/src/frame/codec/*.rs: new"]}
{"id": "C18", "title": "Constructors on out-of-range arguments", "statement": "With debug assertions on, a constructor panics exactly when a u31/u63 argument is out of range or a required non-zero request-n is zero; with them off it never panics and keeps the low 31/63 bits of the argument, except LEASE, which keeps the full value and therefore does not survive a round trip.", "quantifier": "all argument values, both build modes", "why_tests_cant": "Boundary behaviour over all 2^32/2^64 values.", "anchors": ["binate/src/frame/codec/*.rs: new", "binate/src/frame/codec/mod.rs: debug_assert_max_u31, debug_assert_max_u63, debug_assert_non_zero", "binate/src/frame/codec/lease.rs: LeaseFrame::new"]}
{"id": "C19", "title": "24-bit integers", "statement": "U24::from_u32/from_usize succeed exactly on values <= 16777215 and panic otherwise; into_u32/into_usize invert them; the encoding is the 3-byte big-endian value; every (u8,u16) pair is the image of exactly one value. U24::MIN and U24::MAX are the limits of that range.", "quantifier": "all u32/usize values and all U24 values", "why_tests_cant": "2^24 values and all larger ones.", "anchors": ["binate/src/frame/u24.rs"]}
{"id": "C20", "title": "Frame type codes", "statement": "FrameType::value/from_value and bits/from_bits are mutually inverse, from_bits depends only on the top six bits, both reject every code outside the documented 15.", "quantifier": "all u16 values, all frame types", "why_tests_cant": "All 65536 words and unbounded u16 arguments of from_value.", "anchors": ["binate/src/frame/flags.rs: FrameType"]}
{"id": "C21", "title": "Protocol versions are totally ordered", "statement": "Version comparison is a total order (reflexive, antisymmetric, transitive, total), agrees with equality, is lexicographic in (major, minor) and coincides with the numeric order of the 4 encoded bytes. new, major and minor are inverse and len is the number of bytes encoded.", "quantifier": "all pairs and triples of versions", "why_tests_cant": "2^64 pairs.", "anchors": ["binate/src/frame/version.rs: Ord, PartialOrd, Encode"]}
{"id": "C22", "title": "Payload builder semantics", "statement": "After any sequence of set_data/set_metadata calls the built payload holds the last value set for each part and nothing for a part never set; len() is the sum of the part lengths, is_empty()/has_*()/split() agree with it.", "quantifier": "all sequences of builder calls", "why_tests_cant": "Histories of arbitrary length.", "anchors": ["binate/src/payload.rs: PayloadBuilder, Payload"]}
{"id": "C23", "title": "Chunking preserves the payload", "statement": "The payloads yielded by chunks(n), in order, concatenate to exactly the original metadata and data; chunk i carries bytes [i*n, i*n+n) of each part and a part that is exhausted is absent from later chunks.", "quantifier": "all payloads, all chunk sizes n >= 1", "why_tests_cant": "Unbounded payload sizes and chunk sizes.", "anchors": ["binate/src/payload.rs: PayloadChunks::next, Payload::chunks"]}
{"id": "C24", "title": "Chunk sizes", "statement": "Every part of every chunk has at most n bytes and exactly n unless it is the last piece of that part; the iteration terminates after max(pieces of metadata, pieces of data) chunks; chunks(0) panics.", "quantifier": "all payloads, all chunk sizes", "why_tests_cant": "Unbounded sizes.", "anchors": ["binate/src/payload.rs: PayloadChunks::next, Payload::chunks"]}
{"id": "C25", "title": "ExactSizeIterator::len of chunks", "statement": "chunks(n).len() equals the number of chunks still to be yielded, at every point of the iteration, whenever no part is present-but-empty and both parts are at most 2^24 bytes. (It fails for a present-but-empty payload and for longer parts because the count is computed in f32.) A payload that fits in one chunk is counted right whatever its size.", "quantifier": "all payloads, chunk sizes and iteration points", "why_tests_cant": "The count is a rounded floating point computation whose correctness depends on the magnitude of both operands.", "anchors": ["binate/src/payload.rs: ExactSizeIterator for PayloadChunks"]}
{"id": "C26", "title": "Chunk iterator is fused", "statement": "Once chunks(n) has returned None it returns None for ever.", "quantifier": "all payloads, all chunk sizes, any number of further calls", "why_tests_cant": "Histories of arbitrary length.", "anchors": ["binate/src/payload.rs: FusedIterator for PayloadChunks"]}
{"id": "C27", "title": "Buffer list behaves as one byte sequence", "statement": "For a list of non-empty buffers, remaining/chunk/advance/copy_to_bytes behave like the same operations on the concatenation: same bytes returned, same bytes left, panic exactly when asking for more than remaining; emptied buffers are dropped and no byte is lost or duplicated, over any sequence of operations. The same holds for a BufList<T> over any T that keeps the rules of Buf. After any history, len is the number of pushed buffers with a byte not yet taken.", "quantifier": "all segmentations, all operation sequences", "why_tests_cant": "Arbitrary segmentations and histories.", "anchors": ["binate/src/connection/buf.rs: Buf for BufList"]}
{"id": "C28", "title": "Decoding is independent of segmentation", "statement": "Frame::decode on a buffer list gives the same outcome (frame, error or panic) and leaves the same remaining bytes as on the contiguous bytes, for every way of cutting the input into non-empty segments. The same holds for every implementation of Buf that keeps the rules of the trait.", "quantifier": "all byte strings, all segmentations, all lawful Buf implementations", "why_tests_cant": "Exponentially many segmentations per input.", "anchors": ["binate/src/connection/buf.rs", "binate/src/frame/mod.rs: Frame::decode"]}
{"id": "C29", "title": "Empty segments are dangerous", "statement": "push of an empty buffer panics with debug assertions and is accepted without; with an empty buffer at the front and more bytes behind it, copy_to_bytes of a positive available length never terminates.", "quantifier": "all buffer lists whose front is empty, all lengths", "why_tests_cant": "Non-termination cannot be observed by a test.", "anchors": ["binate/src/connection/buf.rs: BufList::push, copy_to_bytes"]}
{"id": "C30", "title": "Vectored view", "statement": "chunks_vectored fills min(slots, number of buffers) slots with the buffers in order (for non-empty buffers), never overruns the slots, and the gathered bytes are a prefix of the content. Over any T whose own chunks_vectored gives all it holds when there is room the gathered bytes are a prefix too; over a T of several chunks with the default chunks_vectored of the trait, bytes are skipped.", "quantifier": "all buffer lists and slot counts", "why_tests_cant": "Unbounded lists.", "anchors": ["binate/src/connection/buf.rs: chunks_vectored"]}
{"id": "C31", "title": "Frame reassembly", "statement": "Converting a list of encoded fragments into a payload yields the in-order concatenation of their metadata and of their data (absent when empty), ignores frames that carry no payload, and fails with the decode error of the first undecodable fragment. The outcome depends only on the bytes of the fragments, whatever Buf holds them.", "quantifier": "all lists of fragments", "why_tests_cant": "Unbounded fragment lists and contents.", "anchors": ["binate/src/connection/buf.rs: TryInto<Payload> for BufList"]}
{"id": "C32", "title": "Fragmentation end to end", "statement": "Encoding the frames sent by fire-and-forget for a payload, with or without fragmentation, and reassembling them yields the original payload (present-but-empty parts become absent).", "quantifier": "all payloads, all chunk sizes, all stream ids", "why_tests_cant": "Unbounded sizes.", "anchors": ["binate/src/connection/socket.rs: fire_and_forget", "binate/src/payload.rs: PayloadChunks", "binate/src/connection/buf.rs: try_into"]}
{"id": "C33", "title": "FOLLOWS flag on fragments", "statement": "Every fire-and-forget frame but the last has FOLLOWS set and the last one has it clear. Holds when no part is present-but-empty and parts are at most 2^24 bytes; a present-but-empty payload or a part of 2^24+1 bytes breaks it. A payload that fits in one fragment is sent as one frame without FOLLOWS, whatever its size.", "quantifier": "all payloads and chunk sizes", "why_tests_cant": "Depends on a rounded float for unbounded sizes.", "anchors": ["binate/src/connection/socket.rs: fire_and_forget"]}
{"id": "C34", "title": "fire-and-forget sends the request", "statement": "A successful fire_and_forget hands at least one REQUEST_FNF frame to the connection. Holds without fragmentation and for every payload with at least one part; with fragmentation an absent/absent payload sends nothing yet returns Ok.", "quantifier": "all payloads, all configurations", "why_tests_cant": "For-all over payloads.", "anchors": ["binate/src/connection/socket.rs: fire_and_forget"]}
{"id": "C35", "title": "fire-and-forget stops at the first send error", "statement": "If the connection rejects the k-th frame, exactly the first k frames have been handed over, in order, the error is returned, and no further frame is sent; the call returns Ok iff all sends succeeded. All frames of a call carry the same stream id.", "quantifier": "all payloads, all connection behaviours", "why_tests_cant": "Arbitrary failure points and connection histories.", "anchors": ["binate/src/connection/socket.rs: fire_and_forget"]}
{"id": "C36", "title": "Stream ids: parity, range, availability", "statement": "Every id handed out by a client provider is odd, by a server provider even, is at most 2^31-1 and was not a key of the store when it was checked - after any number of calls, through wrap-around, under any interleaving of callers and store changes.", "quantifier": "all histories and schedules", "why_tests_cant": "Wrap-around needs 2^30 calls; interleavings are unbounded.", "anchors": ["binate/src/connection/stream_id.rs"]}
{"id": "C37", "title": "Stream id 0 is never handed out", "statement": "A client provider never hands out 0. A server provider hands out a non-zero id during its first 2^30-1 draws but hands out 0 on the next draw if 0 is not in the store.", "quantifier": "all histories", "why_tests_cant": "Needs 2^30 allocations.", "anchors": ["binate/src/connection/stream_id.rs: new_for_server, next_stream_id"]}
{"id": "C38", "title": "Concurrent allocations are distinct", "statement": "Among any set of concurrent and sequential calls performing at most 2^30 atomic increments in total, no two calls return the same id, in any interleaving.", "quantifier": "all numbers of threads, all schedules, all store contents", "why_tests_cant": "Schedules cannot be enumerated.", "anchors": ["binate/src/connection/stream_id.rs: next_stream_id"]}
{"id": "C39", "title": "Allocation terminates iff an id is free", "statement": "With a fixed store, next_stream_id returns the first id not in the store in cyclic order from the current position, and it returns if and only if some id of the provider's parity is free.", "quantifier": "all stores and all counter positions", "why_tests_cant": "Divergence and 2^30-step searches are untestable.", "anchors": ["binate/src/connection/stream_id.rs: next_stream_id"]}
{"id": "C40", "title": "Request counter arithmetic", "statement": "After any interleaving of add and dec calls from any threads the counter holds initial + sum(adds) - count(decs) modulo 2^32 as a signed 32-bit value, independently of the schedule, and each dec returns the value just before it.", "quantifier": "all operation histories and schedules", "why_tests_cant": "Unbounded histories.", "anchors": ["binate/src/connection/counter.rs"]}
{"id": "C41", "title": "Request permits", "statement": "As long as the total stays within i32, the number of dec calls that returned a positive count never exceeds the permits granted (initial plus adds), in any schedule; without adds exactly min(decs, initial) succeed. The counter does go negative on extra decs and is_zero is then false.", "quantifier": "all histories and schedules", "why_tests_cant": "Unbounded histories.", "anchors": ["binate/src/connection/counter.rs"]}
{"id": "C42", "title": "Keepalive watchdog", "statement": "The watchdog closes the connection at its second wake-up at the latest - within two timeout periods of creation if it is run promptly - whatever keepalives arrive: it compares against a timestamp that is never refreshed; it never closes before one full period.", "quantifier": "all timeouts (other than zero for the bound on closing) and all sleep delays >= timeout, all arrival patterns", "why_tests_cant": "Timing-dependent.", "anchors": ["binate/src/connection/socket.rs: RSocketMachine::new keepalive task"]}
{"id": "C43", "title": "Connection status listener", "statement": "While the connection honours its contract (each status stream immediately yields the current status) the status listener never ends and reports each poll's Closed/Error status once, in order, repeatedly reporting an unchanged status.", "quantifier": "all status histories", "why_tests_cant": "Infinite executions.", "anchors": ["binate/src/connection/socket.rs: RSocketMachine::new status task", "binate/src/connection/conn.rs"]}
{"id": "C44", "title": "MIME type recognition", "statement": "Exactly the 47 listed strings are recognised, each as its own type; every other string maps to UNPARSEABLE; distinct strings map to distinct types.", "quantifier": "all strings", "why_tests_cant": "Infinitely many strings.", "anchors": ["binate/src/mimetype.rs: From<&str>"]}
{"id": "C45", "title": "MIME type to string conversion", "statement": "Converting a well-known MIME type back to a string yields the string it was parsed from. (Refuted: the conversion calls itself and never returns for any type other than UNPARSEABLE.)", "quantifier": "all 48 MIME types", "why_tests_cant": "Non-termination is not testable.", "anchors": ["binate/src/mimetype.rs: From<WellKnownMimeType> for &'static str"]}
{"id": "C46", "title": "Error classification", "statement": "Every error is exactly one of decode, protocol or I/O; every protocol error satisfies exactly one of the ten specific predicates; is_setup is the union of the three setup predicates; converting a DecodeError gives a decode error and an io::Error a non-protocol one. The source of a converted error has the text of what was converted.", "quantifier": "all error kinds and sources", "why_tests_cant": "Must hold for every kind and wrapped value.", "anchors": ["binate/src/error.rs: Error"]}
{"id": "C47", "title": "Error descriptions name their code", "statement": "The description of each protocol error contains the name and hexadecimal value of its protocol code, and Code, ErrorFrame constants and descriptions agree. (REJECTED is described as CONNECTION_ERROR.)", "quantifier": "all protocol error kinds", "why_tests_cant": "A cross-module consistency statement.", "anchors": ["binate/src/error.rs: Code, description", "binate/src/frame/codec/error.rs: ErrorFrame constants"]}
{"id": "C48", "title": "SETUP builder history", "statement": "After any sequence of builder calls each field holds the value of the last relevant call or its default (version 1.0, 30 s, 60 s, application/binary), RESUME is set iff set_resume_flag or set_resume_token was called, LEASE iff set_lease_flag, METADATA iff set_metadata; the builder panics exactly on a token > 65535 bytes, a MIME type > 256 bytes, or (debug) an out-of-range interval.", "quantifier": "all sequences of builder calls, both build modes", "why_tests_cant": "Unbounded histories.", "anchors": ["binate/src/frame/codec/setup.rs: SetupFrameBuilder"]}
{"id": "C49", "title": "SETUP frames survive the wire exactly when consistent", "statement": "A SETUP frame built by any call sequence round-trips exactly if and only if the RESUME flag comes with a token, MIME types are at most 255 bytes, metadata is shorter than 2^24 bytes and no payload part is present-but-empty; a 256-byte MIME type or a bare RESUME flag is accepted by the builder but does not round-trip.", "quantifier": "all builder histories", "why_tests_cant": "Unbounded histories and sizes.", "anchors": ["binate/src/frame/codec/setup.rs"]}
{"id": "C50", "title": "Text accessors", "statement": "data_utf8/metadata_utf8 succeed exactly when the bytes are well-formed UTF-8 (absent parts give the empty string) and return the bytes unchanged; data_utf8 of an ERROR frame does so too, but gives nothing where data is absent or not UTF-8; the SETUP MIME accessors return the string exactly when every byte is ASCII.", "quantifier": "all byte strings", "why_tests_cant": "Unbounded inputs.", "anchors": ["binate/src/payload.rs: data_utf8, metadata_utf8", "binate/src/frame/codec/setup.rs: metadata_mimetype, data_mimetype", "binate/src/frame/codec/error.rs: data_utf8"]}
{"id": "C51", "title": "Encoding is unambiguous", "statement": "Two frames with in-range fields and no present-but-empty parts that encode to the same bytes are equal; no such encoding of a fixed-size frame is a proper prefix of another's.", "quantifier": "all pairs of frames", "why_tests_cant": "Quantifies over pairs.", "anchors": ["binate/src/frame/codec/*.rs: encode"]}
{"id": "C52", "title": "Concurrent requests do not mix", "statement": "When several threads run fire_and_forget concurrently on one machine, the frames the connection received with a given call's stream id are exactly that call's fragments in order, in any interleaving (up to 2^30 allocations). This holds while other threads call metadata_push, each push being handed over as one METADATA_PUSH frame, and while the connection is closed at any point. The frames the connection has taken (answered Ok) are a prefix of them: all of them when the call returned Ok, not all when one was refused.", "quantifier": "all thread counts, payloads, schedules", "why_tests_cant": "Schedules.", "anchors": ["binate/src/connection/socket.rs: fire_and_forget", "binate/src/connection/stream_id.rs"]}
{"id": "C53", "title": "metadata_push sends one frame", "statement": "metadata_push hands exactly one METADATA_PUSH frame with exactly the given bytes to the connection and returns its result, allocating no stream id; decoding its encoding yields the same metadata even when empty.", "quantifier": "all metadata", "why_tests_cant": "Unbounded contents.", "anchors": ["binate/src/connection/socket.rs: metadata_push", "binate/src/frame/codec/metadata_push.rs"]}
{"id": "C54", "title": "Metadata length is present only with the METADATA flag", "statement": "A payload frame without the METADATA flag carries its data directly after the fixed fields, as the RSocket protocol prescribes. (Refuted: a 3-byte length is always written and always expected.)", "quantifier": "all payload frames without metadata", "why_tests_cant": "Interoperability over all frames.", "anchors": ["binate/src/frame/codec/*.rs: encode", "binate/src/frame/visit.rs: eat_payload"]}
{"id": "C55", "title": "Textual forms", "statement": "Version displays as major.minor in decimal and the text determines the version; DecodeError displays carry the offending type in hex / ids in decimal and distinct errors display differently.", "quantifier": "all versions, all decode errors", "why_tests_cant": "2^32 versions.", "anchors": ["binate/src/frame/version.rs: Display", "binate/src/frame/decode.rs: Display"]}
{"id": "C56", "title": "Truncation inside the data part is undetectable", "statement": "Cutting an encoded payload frame anywhere inside its data part yields an accepted frame carrying exactly the prefix of the data, with all other fields intact; cutting it earlier yields InComplete.", "quantifier": "all payload frames, all cut points", "why_tests_cant": "For-all over cut points.", "anchors": ["binate/src/frame/visit.rs: eat_payload", "binate/src/frame/codec/*.rs: decode"]}
{"id": "C57", "title": "Displayed errors are unambiguous", "statement": "The displayed text of an Error determines its description and its source text; distinct kinds other than decode errors have distinct descriptions; a converted DecodeError can be read back from the displayed text.", "quantifier": "all errors, all source texts (including ones that look like descriptions)", "why_tests_cant": "Source texts are arbitrary strings.", "anchors": ["binate/src/error.rs: Display for Error", "binate/src/error.rs: description", "binate/src/error.rs: From<DecodeError>"]}
{"id": "C58", "title": "How far chunks(n).len() can be off", "statement": "For parts of any size that usize can express and no present-but-empty part, at every point of the iteration: if no chunk is left, len() is 0; if k >= 1 are left, len() lies strictly between (k-1)(1-2^-22) and k(1+2^-22)+1. Below 2^22 chunks it is off by at most one, and it is 0 only when at most one chunk is left.", "quantifier": "all payloads, chunk sizes up to usize::MAX and iteration points", "why_tests_cant": "Three roundings (two conversions and a division) interact over 2^128 pairs of operands; the large ones need exabytes of payload.", "anchors": ["binate/src/payload.rs: ExactSizeIterator for PayloadChunks"]}
{"id": "C59", "title": "Concurrent id allocation makes progress", "statement": "From any reachable state and under any schedule of any number of threads calling fire_and_forget: over a stretch in which at most 2^30 ids are drawn and the store holds no other keys than a set of b, at least (draws - b - number of threads) calls obtain their id, and no call draws more than b + 1 ids before it obtains one.", "quantifier": "all schedules, all numbers of threads, all contents of the store and all changes to it by other code", "why_tests_cant": "Interleavings and stores are unbounded; a starving schedule would have to be guessed.", "anchors": ["binate/src/connection/stream_id.rs: next_stream_id", "binate/src/connection/socket.rs: fire_and_forget"]}
{"id": "C60", "title": "An undisturbed call behaves as the sequential one", "statement": "Whatever the other threads are in the middle of, a thread that runs one fire_and_forget call without being interrupted hands over exactly the frames, leaves exactly the provider and the connection, and ends with exactly the result of the call taken by itself; nothing else changes.", "quantifier": "all states of the other threads, connections, payloads, chunk sizes", "why_tests_cant": "Quantifies over every intermediate state of any number of other threads.", "anchors": ["binate/src/connection/socket.rs: fire_and_forget", "binate/src/connection/stream_id.rs: next_stream_id"]}
{"id": "C61", "title": "Frames encoded one after the other", "statement": "Frames whose fields fit, encoded one after the other into one buffer, are recovered in order by calling decode until the buffer is empty if and only if every frame but the last is a REQUEST_N, CANCEL, RESUME or RESUME_OK. If another kind comes before the end, decode returns that frame with all the following bytes appended to its data (or metadata) and consumes the buffer.", "quantifier": "all lists of frames of any length and content", "why_tests_cant": "Unbounded sequences of unbounded frames, and an if-and-only-if over all of them.", "anchors": ["binate/src/frame/decode.rs", "binate/src/frame/mod.rs", "binate/src/frame/codec: encode and decode of every frame"]}
{"id": "C62", "title": "Bytes on the wire of a fire-and-forget call", "statement": "The frames handed over by a successful fire_and_forget call encode to exactly the bytes of metadata and data plus nine bytes per frame, and with chunk size n no frame takes more than 9 + 2 n bytes.", "quantifier": "all payloads, chunk sizes, connections and provider states", "why_tests_cant": "Payload and chunk sizes are unbounded.", "anchors": ["binate/src/connection/socket.rs: fire_and_forget", "binate/src/payload.rs: Chunks", "binate/src/frame/codec/request_fnf.rs: encode, len"]}
{"id": "C63", "title": "Vectored writing drains exactly the content", "statement": "A writer that repeatedly gathers slices from a BufList with chunks_vectored, writes any prefix of them and advances by as much has at every moment written exactly the bytes the list no longer holds, in order; no advance panics, every turn with a free slot offers at least one byte while any is left, and the whole content can always be written.", "quantifier": "all lists of non-empty buffers of any type that keeps the rules of Buf, all numbers of slots and all partial writes, changing from turn to turn", "why_tests_cant": "Unbounded sequences of turns with arbitrary partial writes.", "anchors": ["binate/src/connection/buf.rs: chunks_vectored, advance"]}
{"id": "C64", "title": "Debug text of errors", "statement": "The Debug text of an Error is binate::Error( followed by the kind and, if there is a source, a comma and its debug text; it determines the kind, the decode error inside it with its fields, and whether there is a source and with which text.", "quantifier": "all errors and all source texts", "why_tests_cant": "The fields and sources are arbitrary numbers and texts.", "anchors": ["binate/src/error.rs: impl fmt::Debug for Error, Kind, DecodeError"]}
{"id": "C65", "title": "Accessors of a received frame answer the header", "statement": "When decode accepts an input, the kind of the frame, its stream_id and its is_follows, is_complete, is_next, is_resume, is_lease and is_respond queries answer exactly the type, the stream id and the flag bits of the six header bytes; each query of Flags looks at exactly one bit and from_bits_truncate keeps exactly the assigned five.", "quantifier": "all accepted inputs, all flag words", "why_tests_cant": "Inputs are unbounded and the unassigned and reserved bits are arbitrary.", "anchors": ["binate/src/frame/flags.rs: Flags", "binate/src/frame/codec/*.rs: accessors, decode"]}
{"id": "C66", "title": "Concurrent calls are delivered whole and once", "statement": "Let several threads run fire_and_forget on one machine while others push metadata and the connection is closed at any point. Encode the frames the connection has taken, in order, and give them to a receiver that collects the REQUEST_FNF messages of each stream and reassembles a collection at the first message without FOLLOWS. It delivers at most one payload per stream; every payload delivered is the one of the call that owns the stream; every call that returned Ok is delivered; no call that returned an error is. This needs a non-zero chunk size and payloads with something to send, no part present but empty, and parts of at most 2^24 bytes (up to 2^30 allocations). A payload whose parts are present but empty is never delivered when chunking is on, although the call returns Ok.", "quantifier": "all thread counts, payloads, chunk sizes, connections, schedules", "why_tests_cant": "Schedules, refusals and payloads are unbounded.", "anchors": ["binate/src/connection/socket.rs: fire_and_forget, metadata_push", "binate/src/connection/stream_id.rs", "binate/src/payload.rs", "binate/src/frame/codec/request_fnf.rs"]}
{"id": "C67", "title": "The connection sees exactly the observed frames and closes", "statement": "While any number of threads call fire_and_forget and metadata_push on one machine and close is called at any points, the connection goes from its initial state to its final one exactly through the observed events in their order: each fire_and_forget frame through send_and_forget, each metadata_push frame through send, each close through close, nothing else; every answer observed is the one the connection gave; and it is closed exactly as many times as close was called.", "quantifier": "all connections, thread counts, payloads, chunk sizes, schedules", "why_tests_cant": "Connections are arbitrary state machines and schedules are unbounded.", "anchors": ["binate/src/connection/socket.rs: fire_and_forget, metadata_push, send_and_forget, close"]}
{"id": "C68", "title": "What a thread does between two requests", "statement": "In every interleaving, for any number of ids drawn, each thread takes up its requests in the order they were made. For a fire_and_forget call it draws an id, draws again while the id is in use, then hands over with the first free id the frames of the payload of that very call in order, stops with the error at the first refusal, and returns Ok only when all have been taken; a call ends at most once. For a metadata_push it hands over one frame with the metadata. In these no thread panics unless the chunk size is zero, and then only after it found a free id. For request_response, request_stream or request_channel it panics at once.", "quantifier": "all thread counts, payloads, chunk sizes, connections, stores, schedules, builds", "why_tests_cant": "Schedules and the behaviour of the other threads are unbounded.", "anchors": ["binate/src/connection/socket.rs: fire_and_forget, metadata_push", "binate/src/connection/stream_id.rs: next_stream_id"]}
{"id": "C69", "title": "A new machine sends whole payloads on fresh ids", "statement": "The first fire_and_forget on a new RSocketMachine hands over exactly one REQUEST_FNF frame with the whole payload and FOLLOWS unset, on stream 1 for a client and 2 for a server, and gives the connection's answer. As long as nothing inserts into the receivers, under any interleaving of any number of calls every id drawn is found free and every frame handed over is the whole payload of the call that obtained its id.", "quantifier": "both roles, all payloads, connections, schedules", "why_tests_cant": "Payloads and schedules are unbounded.", "anchors": ["binate/src/connection/socket.rs: RSocketMachine::new, fire_and_forget", "binate/src/connection/stream_id.rs: new_for_client, new_for_server"]}
{"id": "C70", "title": "The machine with its background tasks", "statement": "Let the threads calling fire_and_forget and metadata_push, the keepalive watchdog and the status listener of one RSocketMachine run in any interleaving with any passage of time. The threads and the connection behave as in an execution of the threads alone with at most one extra close, made by the watchdog. The watchdog does nothing until more than one timeout has passed since creation, then logs the timeout once and closes once; it has done so once it has run, has run again at least a timeout later and two timeouts after creation, and has run once more. Exactly: it looks at the time only when run at least a timeout after its first run or its last look, however late it is first run. The listener logs exactly the lines of the statuses it was given, in order, each status being the one the connection had when asked; it stops when a status stream ends.", "quantifier": "all schedules, delays, timeouts (other than zero for the bound on when the watchdog has closed), connections, statuses, thread counts, payloads", "why_tests_cant": "Schedules, delays and connections are unbounded.", "anchors": ["binate/src/connection/socket.rs: RSocketMachine::new, handle_connection_error, handle_error, handle_transport_close, fire_and_forget, metadata_push"]}
{"id": "C71", "title": "Nothing succeeds after a close", "statement": "On a connection that once closed stays closed and refuses every send_and_forget, after a close by the watchdog or by a user every frame of every fire_and_forget call is refused, and no call that obtains its stream id after the close and has something to send returns Ok.", "quantifier": "all such connections, schedules, delays, thread counts, payloads, chunk sizes", "why_tests_cant": "Schedules and connections are unbounded.", "anchors": ["binate/src/connection/socket.rs: fire_and_forget, close, RSocketMachine::new"]}
{"id": "C72", "title": "Client and server ids never collide", "statement": "The stream ids used by a client machine and those used by a server machine are disjoint, in any two executions of any length, through wrap-around.", "quantifier": "all pairs of executions", "why_tests_cant": "Executions are unbounded.", "anchors": ["binate/src/connection/stream_id.rs: new_for_client, new_for_server, next_stream_id", "binate/src/connection/socket.rs: RSocketMachine::new"]}
{"id": "C73", "title": "The ids obtained do not depend on the schedule", "statement": "While nothing changes the receivers map, whenever no fire_and_forget call is in the middle of its search for a stream id, the ids obtained so far are the free ones among the first ids of the provider, up to a free one. So two executions of two machines started alike which have served the same number of calls have used the same ids and leave the provider in the same state, whatever the schedules, the connections and the chunk sizes (other than zero).", "quantifier": "all pairs of schedules, thread counts, payloads, connections, provider states, map contents, non-zero chunk sizes", "why_tests_cant": "The loom test explores two threads making two calls each on one map; thread counts, schedules and map contents are unbounded.", "anchors": ["binate/src/connection/stream_id.rs: next_stream_id, assert_thread_safe", "binate/src/connection/socket.rs: fire_and_forget"]}
{"id": "C74", "title": "The decoders of the frame types called directly", "statement": "Called directly on a body with a stream id and flags, the decode function of each of the fourteen frame types does exactly what Frame::decode does with that body behind a header with that stream id, type and flags, as long as the id has 31 bits and is 0 for connection-level types. For another id LEASE and KEEPALIVE fail with InvalidStreamId{expected \"0\", found id} without reading anything, SETUP, METADATA_PUSH, RESUME and RESUME_OK ignore the id, and the stream-level types do the same for every non-zero id and keep it unchanged, even above 31 bits. It does not matter how the buffer is cut into chunks.", "quantifier": "all bodies, 32-bit stream ids, flags, lawful buffers", "why_tests_cant": "Bodies and ids are unbounded; the tests only decode what they have encoded.", "anchors": ["binate/src/frame/codec/*.rs: Decode::decode", "binate/src/frame/mod.rs: Frame::decode"]}
{"id": "C75", "title": "The request methods that are not implemented", "statement": "A call of request_response, request_stream or request_channel on the machine panics in the calling thread and has no other effect. In every interleaving, what happens afterwards is exactly what would happen if that thread had stopped instead: the same ids are drawn, the same frames are handed over by the other threads with the same answers, and the stream id provider, the receivers and the connection end up in the same state.", "quantifier": "all schedules before and after, threads, stores, connections, chunk sizes, builds", "why_tests_cant": "Schedules are unbounded, and no test calls these methods.", "anchors": ["binate/src/connection/socket.rs: request_response, request_stream, request_channel"]}
{"id": "C76", "title": "size_hint of chunks is exact", "statement": "As ExactSizeIterator demands, size_hint of chunks(n) gives the number of chunks left as lower and upper bound at every point of the iteration, and chunks(n).take(m).len() is the smaller of m and that number. (Refuted: size_hint is not overridden and always gives no bounds, so the default len of adaptors such as take panics for every m > 0.)", "quantifier": "all payloads, chunk sizes, points of the iteration, m", "why_tests_cant": "The tests only call len on the iterator itself.", "anchors": ["binate/src/payload.rs: ExactSizeIterator for PayloadChunks, Iterator for PayloadChunks"]}
{"id": "C77", "title": "Debug text of frames", "statement": "The {:?} text of a frame is its variant and type name followed by every field with its name, in declaration order, and its value: numbers in decimal, flags by the names of the bits set (those without a name as one hexadecimal number, (empty) if none is set), byte strings as b\"...\" with \\n \\r \\t \\0 \\\" \\\\ and \\xhh for what is not printable. The text contains only printable ASCII, whatever bytes the peer sent, so it is one line; and two frames with the same text are equal. The same holds (shown and unambiguous) for payloads, flags, versions, U24, frame types, the two builders and the chunk iterator.", "quantifier": "all frames (fields of any size), payloads, flags, byte strings", "why_tests_cant": "Payloads and field values are unbounded, and ambiguity is about pairs of frames; the tests never look at a debug text.", "anchors": ["binate/src/frame/codec/*.rs: derive(Debug)", "binate/src/frame/mod.rs: derive(Debug) for Frame", "binate/src/payload.rs: derive(Debug)", "binate/src/frame/flags.rs: bitflags!"]}
{"id": "C78", "title": "Comparison of frames with ==", "statement": "f == g holds exactly if the two frames are of the same type and agree in every field; the same for payloads and versions, and versions compare equal under partial_cmp exactly if they are ==. Two frames obtained by decoding are == exactly if they are written as the same bytes, and exactly if they have the same debug text.", "quantifier": "all pairs of frames, payloads, versions; all pairs of decoded inputs", "why_tests_cant": "Pairs of frames are unbounded; the tests use == only between a frame and its own round trip.", "anchors": ["binate/src/frame/codec/*.rs: derive(PartialEq)", "binate/src/frame/mod.rs: derive(PartialEq) for Frame", "binate/src/payload.rs: derive(PartialEq)", "binate/src/frame/version.rs: derive(PartialEq), PartialOrd"]}
{"id": "C79", "title": "A closed connection is reported without end", "statement": "On a connection that once closed stays closed and whose status streams begin with the current status, after a close by the watchdog or by a user the status listener logs at most one line for a status obtained earlier and from then on logs \"connection was closed\" again in every second of its turns: a single close leads to any number of log lines, with no time passing.", "quantifier": "all such connections, schedules before and after the close, delays, thread counts", "why_tests_cant": "Unbounded executions; the tests never close a connection.", "anchors": ["binate/src/connection/socket.rs: RSocketMachine::new status task, handle_transport_close", "binate/src/connection/conn.rs: DuplexConnection::connection_status"]}
{"id": "C80", "title": "Where a payload stops being text", "statement": "When data_utf8 or metadata_utf8 of a payload fails, valid_up_to of the error is the length of the longest prefix of the part that is UTF-8; error_len is None exactly if the part ends inside a character, that is could be continued to a text, and otherwise the number of bytes from there to the end of the longest prefix that could still be continued to a text, but at least 1. The bytes pointed at exist, and are one to three.", "quantifier": "all payloads, all byte strings", "why_tests_cant": "Byte strings are unbounded; the tests never look at a UTF-8 error.", "anchors": ["binate/src/payload.rs: Payload::data_utf8, Payload::metadata_utf8"]}
{"id": "C81", "title": "Permits beyond 32 bits", "statement": "The request counter is exact only in 32 bits: dec returns the number of permits granted and not yet taken exactly if that number fits a signed 32-bit integer. With 2^31 or more outstanding permits (two grants of the size one REQUEST_N frame can carry) dec returns a negative number, so they are lost; and since dec does not stop at zero, after 2^31 more calls of dec than permits the following 2^31-1 calls return a positive number although nothing was granted.", "quantifier": "all initial counts, all histories of add, dec, is_zero and load", "why_tests_cant": "Needs billions of operations or sums of arbitrary grants; the tests use 42 and 8.", "anchors": ["binate/src/connection/counter.rs: RequestCounter::dec, RequestCounter::add"]}
{"id": "C82", "title": "Which frames a peer that follows the diagrams can exchange with the library", "statement": "A frame is written exactly as the frame diagrams prescribe (flags where they are drawn, a metadata length only in front of metadata) if and only if it is a REQUEST_N, CANCEL, ERROR, RESUME or RESUME_OK frame, a KEEPALIVE frame without RESPOND, or a LEASE frame without metadata. From the prescribed form the decoder returns the frame if and only if it is one of these, a METADATA_PUSH frame, or a LEASE frame with metadata. SETUP, the four request kinds and PAYLOAD are never exchanged faithfully.", "quantifier": "all frames in range whose METADATA flag says whether there is metadata", "why_tests_cant": "An interoperability statement about all frames; round-trip tests use the library on both ends.", "anchors": ["binate/src/frame/flags.rs: Flags", "binate/src/frame/codec/*.rs: encode, decode, diagrams", "binate/src/frame/visit.rs: eat_payload"]}
{"id": "C83", "title": "A fire-and-forget call ends after a bounded number of its own steps", "statement": "Consider a thread that calls fire_and_forget while other threads call it too, push metadata, close the connection and change the receivers map. As long as at most 2^30 ids are drawn meanwhile and no other keys than a set of b are in the map, the call has returned or been refused once its thread has been run 2 (b + 1) + (number of fragments) + 1 times, whatever the others do and however often they are run. The bound is met by an example.", "quantifier": "all schedules, thread counts, payloads, connections, non-zero chunk sizes, contents of the map and changes to it", "why_tests_cant": "A test runs a few schedules; starvation by other threads needs an adversarial scheduler and is excluded only by an argument about all interleavings.", "anchors": ["binate/src/connection/stream_id.rs: next_stream_id", "binate/src/connection/socket.rs: fire_and_forget"]}
{"id": "C84", "title": "Frames with a fixed end may arrive in any segments, others may not", "statement": "A reader appends each segment that arrives to its buffer and decodes copies of the buffer, dropping the bytes each frame takes, until the answer is Incomplete (it waits) or another error or a panic (it stops). If the frames it delivers are REQUEST_N, CANCEL, RESUME and RESUME_OK frames, it delivers the same frames and ends the same way for every cutting of the same bytes; and of such frames encoded one after the other it has always delivered exactly those that have arrived completely. A frame of any other kind that is cut inside its last part is delivered at once without the missing bytes.", "quantifier": "all byte sequences, valid or not, and all ways to cut them into segments", "why_tests_cant": "The cuttings of even a short input are exponentially many, and the inputs include malformed ones.", "anchors": ["binate/src/frame/mod.rs: Frame::decode", "binate/src/frame/codec/*.rs: decode"]}
{"id": "C85", "title": "Where a failed decode leaves the buffer", "statement": "When Frame::decode answers Incomplete, the buffer stands exactly before the first fixed-width field, length field or counted part that is not complete (nothing is consumed when fewer than six bytes were there; the header is consumed otherwise; a 24-bit length of which only two bytes are there loses the first). After any other error the six bytes of the header are consumed, and for ERROR frames the four bytes of the code too. Hence calling decode again on the same buffer once the missing bytes have arrived never yields the frame if its header had already arrived; it can yield another frame, hidden in the payload.", "quantifier": "all inputs; all frames and all places where their encodings are cut", "why_tests_cant": "The position depends on the type, the flags and up to three lengths in the input; a test looks at a few cuts of a few frames.", "anchors": ["binate/src/frame/mod.rs: Frame::decode", "binate/src/frame/visit.rs: eat_*", "binate/src/frame/codec/*.rs: decode"]}
{"id": "C86", "title": "The decoder asks a buffer only for what it has, and a bounded number of times", "statement": "Frame::decode and the decoders of the frame types never advance a buffer by, or copy from it, more bytes than it reports as remaining: two buffers that differ only in what they do when asked for too much give the same answers. So a length announced by a peer never makes a buffer allocate or make up bytes. Decoding one frame moves the buffer at most 30 times for any correct implementation of Buf however it is segmented, and at most 16 times if the bytes are contiguous; both bounds are reached.", "quantifier": "all implementations of Buf (also wrong ones whose chunk is not longer than what remains), all contents", "why_tests_cant": "It speaks about every implementation of a trait and every announced length up to 2^24.", "anchors": ["binate/src/frame/visit.rs: incomplete_if_less_than!, eat_*", "binate/src/frame/mod.rs: Frame::decode"]}
{"id": "C87", "title": "Debug text of frames over several lines", "statement": "The {:#?} text of a frame puts every field on lines of its own, indented by four blanks per level, with its name and a comma at its end, an Option's content likewise; numbers, flags and byte strings are as in {:?}. Removing the line feeds, the indentation and the commas at the ends of lines (with blanks inside braces and after the other commas) gives exactly the {:?} text, whatever bytes the payload contains, so two frames with the same text are equal. The same for payloads, versions, the chunk iterator, U24 and the two builders. Bits of flags without a name, which only unsafe code can set, would be written with 0x twice.", "quantifier": "all frames whose fields are within their Rust types (all decoded ones are), payloads of any content", "why_tests_cant": "Payloads are unbounded and could contain what looks like a line break; the tests never look at a debug text.", "anchors": ["binate/src/frame/codec/*.rs: derive(Debug)", "binate/src/frame/mod.rs: derive(Debug) for Frame", "binate/src/payload.rs: derive(Debug)", "binate/src/frame/flags.rs: bitflags!"]}
{"id": "C88", "title": "Debug names of MIME types and error codes", "statement": "The {:?} text of a well-known MIME type is its registered name in capitals with an underscore for every character that is neither a letter nor a digit, UNPARSEABLE for the remaining one; that of an error code is its name. Different values have different texts.", "quantifier": "all MIME types, all error codes", "why_tests_cant": "The tests look at none of the 58 texts.", "anchors": ["binate/src/mimetype.rs: WellKnownMimeType", "binate/src/error.rs: Code"]}
{"id": "C89", "title": "Lengths and the width of usize", "statement": "Let usize have w >= 32 bits and no byte string be longer than isize::MAX. Payload::len never overflows. Encode::len of a frame is the exact sum of its parts whenever that fits usize, in particular for every decoded frame and for every frame with metadata below 2^24 bytes (SETUP frames as the builder makes them); otherwise it panics in debug builds and is the sum modulo 2^w in release builds, and both happen. to_bytes gives the bytes of encode in every build exactly if the metadata is below 2^24 bytes and len() is at most isize::MAX, and panics otherwise. For w up to 64 the number of chunks and their indices are the same in every width. BufList::remaining overflows exactly if the buffers hold 2^w bytes or more in total; a BufList with at most isize::MAX bytes in total keeps the rules of Buf, so decoding from it is decoding its bytes, while one whose total wraps around to less than 6 makes decode answer Incomplete although a frame is there.", "quantifier": "all frames, payloads, chunk sizes and buffer lists, all widths of at least 32 bits, both builds", "why_tests_cant": "Overflow needs gigabytes or exabytes of data and both machine widths; the absence of overflow quantifies over all frames.", "anchors": ["binate/src/frame/encode.rs: Encode::len, Encode::to_bytes", "binate/src/frame/codec/*.rs: len", "binate/src/payload.rs: Payload::len, PayloadChunks::len", "binate/src/connection/buf.rs: BufList::remaining, copy_to_bytes"]}
{"id": "C90", "title": "Who keeps the connection alive", "statement": "The connection of a machine is dropped exactly when the last holder of a machine is gone: the threads that hold a clone, the keepalive watchdog until it ends or the runtime drops it, the status listener until it ends or the runtime drops it. That happens at once, once, and nothing is done with the machine or the connection afterwards; whoever does something has a machine at that time, and a thread in the middle of a fire_and_forget has one throughout. Hence dropping all machines does not drop the connection: not before the watchdog has closed it, more than a keepalive timeout after creation, and never on a connection whose status streams always begin with a status, unless the runtime drops the tasks. A watchdog that the runtime drops has logged and closed nothing, and a listener that it drops has logged every status it was given. Apart from that the machine behaves as in C70.", "quantifier": "all connections, status streams, timeouts, builds, chunk sizes and schedules of any number of threads that clone, use and drop machines, of the two tasks and of the runtime dropping them", "why_tests_cant": "It is about all interleavings of clones, drops and tasks, and about something that never happens; tests see finitely many schedules.", "anchors": ["binate/src/connection/socket.rs: RSocketMachine (derive Clone), RSocketMachine::new, close"]}
{"id": "C91", "title": "A fragmented request is one request of the RSocket protocol", "statement": "The frames a successful fire_and_forget hands to the connection form one request of the RSocket protocol: one REQUEST_FNF frame and, if that has FOLLOWS, PAYLOAD frames of the same stream up to one without FOLLOWS, so that a receiver that follows the protocol hands on the payload.", "quantifier": "all payloads, chunk sizes, machines, connections and builds", "why_tests_cant": "The repository has no receiver and its tests only look at the frames one by one; which payloads survive depends on sizes, absent parts and chunk size together.", "anchors": ["binate/src/connection/socket.rs: RSocketMachine::fire_and_forget", "binate/src/frame/codec/request_fnf.rs: RequestFnfFrame::new", "binate/src/payload.rs: Payload::chunks"]}
{"id": "C92", "title": "The chunk iterator through the methods of Iterator", "statement": "PayloadChunks overrides nothing of Iterator but next, and the provided methods work on it as on the list of chunks left, whatever has been taken before: count ends and gives their exact number (unlike len, C25, C58), last the last of them, collect all of them in order, nth(j) the j-th, going on behind it; take, skip, step_by, enumerate and zip yield the corresponding sublists and pairs.", "quantifier": "all payloads, chunk sizes, numbers of items taken before, arguments of the methods; for zip all other iterators", "why_tests_cant": "The tests walk a few small payloads with next; this is about every payload, chunk size, position and argument.", "anchors": ["binate/src/payload.rs: impl Iterator for PayloadChunks, Payload::chunks", "binate/src/connection/socket.rs: RSocketMachine::fire_and_forget (enumerate)"]}
{"id": "C93", "title": "Relaxed increments suffice", "statement": "The provider increments its atomic with Ordering::Relaxed, so happens-before orders only the steps of one thread, conflicting accesses to one key of the store, and calls on the connection; the increments have their own modification order. Every execution allowed like this is nevertheless an interleaving: its steps can be put in one order that keeps to happens-before and to the order of the increments, and run one by one in that order they find and give exactly what they did. So everything said of interleavings (C36-C39, C52, C66-C68) holds of the code as written, for instance that up to 2^30 draws no two calls get the same id. That the modification order does not contradict happens-before (coherence) is needed for it: without it a thread can observe a trace that no interleaving has.", "quantifier": "all executions of any number of threads, connections, store contents and users of the store; all happens-before and modification orders", "why_tests_cant": "What a weakly ordered machine may do is not enumerable by running tests on one; the tests of the provider run on one thread.", "anchors": ["binate/src/connection/stream_id.rs: StreamIdProvider::next_stream_id (Ordering::Relaxed)", "binate/src/connection/socket.rs: RSocketMachine::fire_and_forget, metadata_push, close, receivers"]}
{"id": "C94", "title": "Setting the request handler", "statement": "However many tasks call set_request_handler on the clones of one machine, however their polls interleave and whichever futures are dropped before they finish: the handler in place is always that of the call which put its own in place last (the dummy of RSocketMachine::new before any); a call does so at most once, and the next one only after it has returned; calls take effect in the order in which they first asked for the lock; a call whose future was dropped early has no effect; no handler is dropped twice, and the dropped ones are exactly those that have been replaced and those of calls dropped early. No wakeup is lost: the first call in line that has not returned is being polled or owns the lock and was woken, and letting the tasks in line run brings every one of them to its end.", "quantifier": "all schedules of any number of calls, polls and drops of futures", "why_tests_cant": "The repository has no test of the handler, and interleavings of polls with dropped futures are not enumerable.", "anchors": ["binate/src/connection/socket.rs: RequestHanlder::set_request_handler", "binate/src/connection/socket.rs: RSocketMachine::new (request_handler)"]}
{"id": "C95", "title": "Debug text of errors over several lines", "statement": "The {:#?} text of an Error is the line binate::Error(, the lines of the kind indented by four blanks with a comma at the end, then those of the source if there is one, likewise, whatever they are, and a closing parenthesis. A decode error is Decode( with its variant and fields on lines of their own further in. The text determines the kind with the fields of a decode error, whether there is a source, and the source's text, even if that contains line feeds, commas or parentheses.", "quantifier": "all errors and all texts of sources (for the layout: expected stream IDs without a line feed, which all of the crate are)", "why_tests_cant": "Fields and source texts are unbounded, and a source text could imitate the layout; the tests never look at a debug text.", "anchors": ["binate/src/error.rs: impl fmt::Debug for Error, Kind", "binate/src/frame/decode.rs: DecodeError"]}
{"id": "C96", "title": "Debug text of connection statuses and counters", "statement": "The {:?} text of a ConnectionStatus is its name and, for Error, the reason in quotes: a quote, backslash, tab, line feed or carriage return stands behind a backslash, NUL is \\0 or \\u{0}, any other character is itself or \\u{...} with its number, depending on the Unicode tables of the compiler. Whatever these tables are, the text contains no line feed and no character that is neither printable ASCII nor printable by the tables, and it can be read back, even without knowing the tables and whatever follows it: two statuses with the same text are equal. The {:#?} text differs only in putting the reason on a line of its own. StreamIdProvider and RequestCounter show their value in decimal with a sign, and two with the same text have the same value.", "quantifier": "all statuses with any reasons, all Unicode tables, all values of the counters", "why_tests_cant": "Reasons are unbounded texts and ambiguity is about pairs; the tests never look at a debug text.", "anchors": ["binate/src/connection/conn.rs: ConnectionStatus", "binate/src/connection/stream_id.rs: StreamIdProvider", "binate/src/connection/counter.rs: RequestCounter"]}
{"id": "C97", "title": "Equality of enums, U24, decode errors and statuses", "statement": "== on FrameType, WellKnownMimeType, Code, Role, U24, DecodeError, Kind and ConnectionStatus is true exactly of equal values. So two frame types are equal exactly if their codes are; the MIME types of two strings exactly if the strings are equal or both unknown; two U24 made from numbers exactly if the numbers are; two decode errors exactly if they display the same text; two kinds exactly if their debug texts are the same, in either form.", "quantifier": "all pairs of values, all strings", "why_tests_cant": "Strings and fields are unbounded; the tests compare a few equal values.", "anchors": ["binate/src/frame/flags.rs: FrameType", "binate/src/mimetype.rs: WellKnownMimeType", "binate/src/error.rs: Kind, Code", "binate/src/frame/u24.rs: U24", "binate/src/frame/decode.rs: DecodeError", "binate/src/connection/conn.rs: ConnectionStatus", "binate/src/connection/socket.rs: Role"]}
{"id": "C98", "title": "Storage of an encoded frame", "statement": "Encode::to_bytes returns a Bytes whose storage is exactly self.len() bytes, as its documentation guarantees. (False of SETUP frames without a resume token, whose storage is 2 bytes smaller; true of all other frames and of Payload, U24 and Version.) However BytesMut grows, to_bytes asks the allocator for self.len() bytes first and never has to grow, and only a SETUP frame without a token makes freeze ask for a second block; the returned bytes fill their block. encode into a buffer with room for len() more bytes asks nothing of the allocator and keeps the capacity. Neither the bytes nor the panics depend on the storage.", "quantifier": "all frames, payloads, versions and 24-bit numbers, all buffers and capacities, all growth policies", "why_tests_cant": "Capacity and requests to the allocator are not observed by any test; frames and buffers are unbounded.", "anchors": ["binate/src/frame/encode.rs: Encode::to_bytes", "binate/src/frame/codec/*.rs: Encode for each frame", "binate/src/payload.rs: Encode for Payload"]}
{"id": "C99", "title": "Rules the documentation states with MUST", "statement": "Every frame made by a constructor or the SETUP builder, and every frame the decoder returns, keeps the rules that the doc comments state with MUST: stream ids and 31-bit numbers below 2^31, positions below 2^63, request_n and the keepalive times not 0, tokens of at most 65535 bytes, connection errors on stream 0 and stream errors elsewhere, COMPLETE or NEXT on PAYLOAD. (False of both.) Arguments that keep the rules always give a frame that keeps them, in debug and release builds. A constructor that returns gives a frame that breaks them exactly if: a keepalive time of SETUP was last set to 0 (modulo 2^31), an error code is on the wrong stream, a LEASE number is 2^31 or more (release builds), request_n is 0 modulo 2^31 (release builds), PAYLOAD has neither COMPLETE nor NEXT, or the RESUME token is too long. A received frame breaks them exactly if a keepalive time or request_n is 0 or PAYLOAD has neither flag.", "quantifier": "all constructors with all arguments, all chains of builder calls, both builds, all inputs of the decoder", "why_tests_cant": "The tests construct and decode one frame of each kind, all of them valid; arguments and inputs are unbounded.", "anchors": ["binate/src/frame/codec/*.rs: new of each frame", "binate/src/frame/codec/setup.rs: SetupFrameBuilder", "binate/src/frame/mod.rs: Frame::decode"]}
{"id": "C100", "title": "Application error codes", "statement": "Every code from MIN_APPLICATION_ERROR_CODE (0x301) to MAX_APPLICATION_ERROR_CODE (0xFFFFFFFE) can be put in an ErrorFrame. (False: ErrorFrame::new keeps exactly the codes below 2^31. With debug assertions it panics for the others; without, it drops the highest bit.) Sent on a stream by a release build, such a code therefore arrives as another one, and the peer refuses the frame with InvalidStreamId if the other one is a connection error: 0x80000003 arrives as REJECTED_SETUP. The codec itself carries all of them: an ERROR frame with any application code is decoded as it was encoded, on every stream.", "quantifier": "all application codes, stream ids and data, both builds", "why_tests_cant": "There are more than 4 * 10^9 codes on 2^31 streams; the tests use one.", "anchors": ["binate/src/frame/codec/error.rs: ErrorFrame::new, MIN_APPLICATION_ERROR_CODE, MAX_APPLICATION_ERROR_CODE"]}
{"id": "C101", "title": "Flags are sets of five flags", "statement": "Whatever safe operations a value of Flags is made by (constants, empty, all, from_bits, from_bits_truncate, |, &, ^, -, !, insert, remove, toggle, set, extend, collect), it is one of the 32 sets of the five flags, namely the set that the corresponding operations on sets give, where FOLLOWS, RESUME and RESPOND are one flag and COMPLETE and LEASE are one; all 32 are obtained. from_bits refuses exactly the words with a bit that is no flag, and nothing else can fail. contains is inclusion, intersects is a common flag, == is equality of sets, and of two different sets the one with the highest flag on which they differ is the greater. The is_ methods answer membership of the flag they name. PayloadFrame::new keeps exactly FOLLOWS, COMPLETE and NEXT of the flags given and sets METADATA by the payload.", "quantifier": "all expressions of any size over all 16-bit words, all pairs of values, all payloads and stream ids, both builds", "why_tests_cant": "Expressions are unbounded; the tests use a few constants.", "anchors": ["binate/src/frame/flags.rs: Flags", "binate/src/frame/codec/payload.rs: PayloadFrame::new"]}
{"id": "C102", "title": "Which bytes are shared and which are copied", "statement": "Decoding a frame from one Bytes copies none of its byte strings (token, MIME types, metadata, data): each is, in the order of the wire, a piece of the storage of that Bytes at its own position, and an empty one holds at most that storage. Decoding from a BufList<Bytes> of non-empty members hands out a non-empty string that lies within one member as a piece of the storage of that member; a string that reaches over the end of a member is copied, once, into a block of its own; an empty one holds no storage; no other block is made. The frame is the same as that decoded from the bytes. The i-th chunk of a payload of chunk size n consists of the pieces from i*n on, in the storage of the payload's own parts.", "quantifier": "all frames, all inputs, all divisions into non-empty members, all places of their storage; all payloads, chunk sizes and numbers of calls of next", "why_tests_cant": "Divisions are unbounded, and tests compare contents, which are equal whether or not they are copied.", "anchors": ["binate/src/connection/buf.rs: BufList::copy_to_bytes", "binate/src/frame/visit.rs: eat_bytes", "binate/src/payload.rs: PayloadChunks::next"]}
{"id": "C103", "title": "Frames of known length, in any buffer", "statement": "Take, Chain, VecDeque<u8> and Cursor keep the rules of Buf whenever what they are made of does, so Frame::decode reads from them what it reads from the bytes they hold. A caller that knows the lengths of the frames in its buffer and decodes each from a Take of that length gets, for each of them, what decoding its bytes alone gives, whatever the others are (up to the first panic), and is left with what follows the last: any frames that fit come through in order. With the lengths Frame::len reports, frames come through exactly when no SETUP frame without resume token comes before another frame.", "quantifier": "all buffers that keep the rules of Buf, all contents, all lists of frames, all byte strings between the ends", "why_tests_cant": "Buffers can be nested and divided in unboundedly many ways, and the reported length is wrong for one kind of frame only when something follows it.", "anchors": ["binate/src/frame/mod.rs: Frame::decode", "binate/src/frame/mod.rs: Frame::len", "binate/src/frame/codec/setup.rs: SetupFrame::len"]}
{"id": "C104", "title": "The watchdog can always still close the connection, whatever the runtime", "statement": "On a runtime with any number of worker threads, whatever has happened since RSocketMachine::new, the machine's watchdog can still come to close the connection when the keepalive timeout has passed, for every connection whose status streams begin with a status at once, as connection_status documents.", "quantifier": "all connections, all numbers of workers, all interleavings of the two tasks, user tasks and other threads, all times", "why_tests_cant": "The listener never gives its worker back, so whether the watchdog is starved depends on the number of workers and on who was polled first; a test with a multi-threaded runtime, or a mock whose stream is not ready, does not show it.", "anchors": ["binate/src/connection/socket.rs: RSocketMachine::new", "binate/src/connection/conn.rs: DuplexConnection::connection_status", "binate/src/runtime.rs: spawn"]}
{"id": "C105", "title": "Nothing depends on the operations of the connection being atomic", "statement": "When the connection's send_and_forget, send and close take any number of steps, run at the same time on different threads, fail, panic or never end, and the connection changes by itself in between, the calls of RSocketMachine do what they do on some connection that answers at once, each operation counted when it ends. A thread is in one operation at a time; the frames of one fire_and_forget are begun in order, each after the one before has ended well, all of them if it returns; no other call begins a frame with its id.", "quantifier": "all connections, payloads, chunk sizes, interleavings of the steps inside and outside the operations, contents of the store; up to 2^30 ids drawn for the last two", "why_tests_cant": "A mock connection answers at once and on one thread; that overlapping, failing or panicking sends never reorder, drop or mix the fragments of a call is a statement about all interleavings inside operations the crate does not own.", "anchors": ["binate/src/connection/socket.rs: RSocketMachine::fire_and_forget", "binate/src/connection/socket.rs: RSocketMachine::metadata_push", "binate/src/connection/socket.rs: RSocketMachine::close", "binate/src/connection/conn.rs: DuplexConnection"]}
{"id": "C106", "title": "Requests arrive whole, whenever during its operations the connection puts frames on the wire", "statement": "When the frame of each operation of the connection reaches the wire at most once, at any time between the beginning and the end of that operation, and that of a send_and_forget that returns Ok(()) does, then the frames of one fire_and_forget are on the wire in order from the first on, all of them if it returned, whatever the order in which other threads' frames come between; a receiver that collects the frames of each stream gets the payload of every call that returned, whole and once, nothing but payloads of calls, and none of a call that failed before its last frame.", "quantifier": "all connections, numbers of threads, payloads, chunk sizes, interleavings and times at which frames reach the wire; up to 2^30 ids drawn; payloads that survive chunking for the last part", "why_tests_cant": "The order of frames on the wire depends on where inside overlapping operations each is written; a test sees one order, on a mock that has no inside.", "anchors": ["binate/src/connection/socket.rs: RSocketMachine::fire_and_forget", "binate/src/connection/conn.rs: DuplexConnection::send_and_forget", "binate/src/connection/buf.rs: TryInto<Payload> for BufList"]}
{"id": "C107", "title": "A payload is put together from the fragments of one request", "statement": "A list of encoded frames converts to a payload only if they are the frames of one request of the RSocket protocol (one request frame and, if that has FOLLOWS, PAYLOAD frames of the same stream up to one without FOLLOWS), and then to the payload of that request.", "quantifier": "all lists of encoded frames; all stream ids, flags and orders", "why_tests_cant": "The one test of reassembly uses fragments of one stream; what happens to fragments of others in between, to missing ends and to second requests is about all lists.", "anchors": ["binate/src/connection/buf.rs: TryInto<Payload> for BufList"]}
{"id": "C108", "title": "What a panicking operation leaves of a buffer list", "statement": "A caller that catches panics of a BufList and goes on using it sees one queue of bytes: push of an empty buffer (debug builds) and copy_to_bytes of more than there is panic and leave the list as it was, advance by more than there is panics and leaves the list without any buffer, and all other operations do as on the bytes.", "quantifier": "all histories of operations, all buffers that keep the rules of Buf, both builds (no empty buffers pushed in release builds)", "why_tests_cant": "The test with should_panic ends at the panic; what is left depends on where in the list each operation stops.", "anchors": ["binate/src/connection/buf.rs: BufList::push", "binate/src/connection/buf.rs: Buf for BufList"]}
{"id": "C109", "title": "A panic names the argument and the rule it breaks", "statement": "A frame constructor or setter of the SETUP builder that panics says the name of the first of its arguments that breaks a limit, and the limit; the other assertions of the crate (token and MIME type lengths, U24, chunk size, BufList, encoding of frames with too much metadata, decoding of EXT) each say their own text, in the builds in which they panic; a call that does not panic says nothing.", "quantifier": "all arguments of all constructors, of the SETUP builder and its chains, of U24, Payload::chunks, BufList::push and copy_to_bytes, Encode and Frame::decode; both builds", "why_tests_cant": "The tests with should_panic do not look at the message, and use one value per assertion.", "anchors": ["binate/src/frame/codec/mod.rs: debug_assert_max_u31", "binate/src/frame/codec/mod.rs: debug_assert_max_u63", "binate/src/frame/codec/mod.rs: debug_assert_non_zero", "binate/src/frame/codec/setup.rs: SetupFrameBuilder", "binate/src/frame/u24.rs: U24", "binate/src/payload.rs: Payload::chunks", "binate/src/connection/buf.rs: BufList", "binate/src/frame/mod.rs: Frame::decode"]}
{"id": "C110", "title": "The error of a text accessor says where the text ends", "statement": "If a part of a payload is not UTF-8, the error of its text accessor displays the index up to which it is text and either how many bytes from there are no part of a text, or that a character there does not end; its Debug text has the same numbers; different errors have different texts.", "quantifier": "all payloads and all bytes of their parts", "why_tests_cant": "The tests of the accessors have valid text only; the numbers shown depend on all bytes up to the fault.", "anchors": ["binate/src/payload.rs: Payload::data_utf8", "binate/src/payload.rs: Payload::metadata_utf8"]}
{"id": "C111", "title": "In fair runs the watchdog does close the connection", "statement": "On a runtime with two or more worker threads, in every unending run in which no worker stops, time goes on and the watchdog is not left waiting for ever beside an idle worker, the watchdog of a machine closes the connection once the keepalive timeout has passed, exactly once, whatever the status streams, users and other threads do. With one worker that holds of strongly fair runs in which the worker is idle again and again; with status streams that are always ready it fails in some strongly fair run.", "quantifier": "all unending fair runs, numbers of workers, connections, status streams, timeouts, user tasks and threads", "why_tests_cant": "It is about runs without end and every fair scheduler; no test runs the watchdog at all.", "anchors": ["binate/src/connection/socket.rs: RSocketMachine::new", "binate/src/runtime.rs: spawn"]}
{"id": "C112", "title": "How late the watchdog closes the connection", "statement": "If the task that watches the keepalive timeout T of a machine is never kept waiting for more than D - after it is spawned, after it is due to wake up, after its line in the log - then the connection is closed by it once more than max(2T+2D, T+3D) has passed since the machine was made, whatever calls, threads and the connection do; some such run takes exactly that long without it being closed; and it is never closed by it before more than T has passed.", "quantifier": "all timeouts, delays, connections, runs of threads, calls and tasks, and times", "why_tests_cant": "No test runs the watchdog; the bound is about every schedule, and the slowest depends on whether the delay is shorter than the timeout.", "anchors": ["binate/src/connection/socket.rs: RSocketMachine::new"]}
{"id": "C113", "title": "Making a machine, with and without a runtime", "statement": "Calling RSocketMachine::new does nothing; dropped unpolled, its future drops the connection unused. Polled outside of a runtime it panics and the connection is dropped unused. Polled in a running runtime it returns a machine at the first poll, made at that time: its keepalive timeout counts from there. Without a timer its watchdog panics when it is first run, which drops its clone, and the connection is never closed by it; all else is as with a timer. In a runtime that has been shut down it returns a machine without tasks, whose connection is dropped with the last clone of a user and whose status is never asked for.", "quantifier": "all connections, timeouts, times between call and poll, runtimes, and runs of threads, clones, drops and tasks", "why_tests_cant": "No test makes a machine at all; it is about every run after the poll, and about what never happens.", "anchors": ["binate/src/connection/socket.rs: RSocketMachine::new", "binate/src/runtime.rs: spawn"]}
{"id": "C114", "title": "A connection that changes by itself", "statement": "When the connection also changes between the calls of the machine, at any time and in any way, threads and watchdog do what they would with a connection that never does and gives the same answers; the watchdog logs and closes at the same of its runs; the listener logs, in order, the line of each status it is given, which is the one the connection has when asked, so that a change undone before it asks is not logged. If the connection stays closed once closed, no frame of a request is accepted after it has been closed by a user, the watchdog or itself.", "quantifier": "all connections, ways and times in which they change by themselves, and runs of threads and both tasks", "why_tests_cant": "There is no test of a machine and no connection to test with; it is about every interleaving of changes and calls.", "anchors": ["binate/src/connection/conn.rs: DuplexConnection", "binate/src/connection/conn.rs: ConnectionStatus", "binate/src/connection/socket.rs: RSocketMachine::new"]}
{"id": "C115", "title": "Going on after a panic", "statement": "A thread that panics in a method of the machine (one that is not implemented, or fire_and_forget with chunks of size 0), catches the panic and goes on using the machine is as good as another thread that starts afresh: ids, receivers, connection and all other threads are as if it had stopped and the other one had gone on. Until it catches the panic it does nothing; a panic is caught once, and a thread that has not panicked has nothing to catch. However many panics are caught, the calls that go through obtain distinct ids and are delivered whole and once, under the conditions of C38 and C66.", "quantifier": "all thread counts, payloads, chunk sizes, connections, stores, schedules, builds, and numbers and places of caught panics", "why_tests_cant": "It is about every interleaving of panics, catches and calls of any number of threads.", "anchors": ["binate/src/connection/socket.rs: RSocketMachine::request_response", "binate/src/connection/socket.rs: RSocketMachine::fire_and_forget", "binate/src/payload.rs: Payload::chunks"]}
{"id": "C116", "title": "Comparing, clamping and sorting versions", "statement": "The operators <, <=, >, >= and == on versions are those of the order by major number and then by minor number. max and min return one of the two versions, such that neither comes after or before it. clamp returns the version if it lies between the bounds and otherwise the bound that it passes, and panics if and only if the bounds are the wrong way round. However versions are sorted, stably or not, the outcome is the same, with each version no later than all that follow it.", "quantifier": "all versions and all lists of versions", "why_tests_cant": "There are 2^64 pairs of versions and unboundedly many lists to sort.", "anchors": ["binate/src/frame/version.rs: impl Ord for Version", "binate/src/frame/version.rs: impl PartialOrd for Version", "binate/src/frame/version.rs: Version"]}
