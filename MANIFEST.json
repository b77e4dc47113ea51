{
 "claims": [
  {
   "property": "C01",
   "status": "proved",
   "theorems": [
    "C01_roundtrip",
    "C01_roundtrip_only_fitting"
   ],
   "note": "Round trip holds iff the frame fits the wire format."
  },
  {
   "property": "C02",
   "status": "proved",
   "theorems": [
    "C02_empty_parts",
    "C02_exact_iff"
   ],
   "note": ""
  },
  {
   "property": "C03",
   "status": "proved",
   "theorems": [
    "C03_panic_iff_ext",
    "C03_total"
   ],
   "note": "Decoding panics exactly on extension frames (type 0x3F)."
  },
  {
   "property": "C04",
   "status": "proved",
   "theorems": [
    "C04_consumption"
   ],
   "note": ""
  },
  {
   "property": "C05",
   "status": "proved",
   "theorems": [
    "C05_C06_reencode"
   ],
   "note": ""
  },
  {
   "property": "C06",
   "status": "proved",
   "theorems": [
    "C05_C06_reencode"
   ],
   "note": ""
  },
  {
   "property": "C07",
   "status": "proved",
   "theorems": [
    "C07_len"
   ],
   "note": ""
  },
  {
   "property": "C08",
   "status": "proved",
   "theorems": [
    "C08_appends_or_oversized",
    "C08_to_bytes"
   ],
   "note": ""
  },
  {
   "property": "C09",
   "status": "proved",
   "theorems": [
    "C09_layout"
   ],
   "note": ""
  },
  {
   "property": "C10",
   "status": "partial",
   "theorems": [
    "C10_refuted",
    "C10_claim_refuted",
    "C10_positions_partial"
   ],
   "note": "The claim is false of the code: C10_refuted and C10_claim_refuted. C10_positions_partial states the actual positions, one bit lower than drawn."
  },
  {
   "property": "C11",
   "status": "proved",
   "theorems": [
    "C11_accepts_iff_parses",
    "C11_outcome"
   ],
   "note": ""
  },
  {
   "property": "C12",
   "status": "proved",
   "theorems": [
    "C12_stream_zero"
   ],
   "note": ""
  },
  {
   "property": "C13",
   "status": "proved",
   "theorems": [
    "C13_error_rules",
    "C13_error_sound"
   ],
   "note": ""
  },
  {
   "property": "C14",
   "status": "proved",
   "theorems": [
    "C14_unknown_type",
    "C14_unknown_needs_header"
   ],
   "note": ""
  },
  {
   "property": "C15",
   "status": "proved",
   "theorems": [
    "C15_errors_stable",
    "C15_accepted_extends",
    "C15_incomplete_bounded",
    "C15_incomplete_can_be_completed"
   ],
   "note": ""
  },
  {
   "property": "C16",
   "status": "proved",
   "theorems": [
    "C16_header",
    "C16_body",
    "C16_body_accepted"
   ],
   "note": ""
  },
  {
   "property": "C17",
   "status": "proved",
   "theorems": [
    "C17_request_response",
    "C17_request_fnf",
    "C17_request_stream",
    "C17_request_channel",
    "C17_payload",
    "C17_request_n",
    "C17_cancel",
    "C17_error",
    "C17_lease",
    "C17_keepalive",
    "C17_resume",
    "C17_resume_ok",
    "C17_metadata_push"
   ],
   "note": ""
  },
  {
   "property": "C18",
   "status": "proved",
   "theorems": [
    "C18_debug_panics",
    "C18_release_masks",
    "C18_release_request_zero",
    "C18_release_lease"
   ],
   "note": ""
  },
  {
   "property": "C19",
   "status": "proved",
   "theorems": [
    "C19_u24",
    "C19_from_u32_panics",
    "C19_from_usize_panics",
    "C19_onto",
    "C19_limits"
   ],
   "note": ""
  },
  {
   "property": "C20",
   "status": "proved",
   "theorems": [
    "C20_laws",
    "C20_from_value",
    "C20_from_bits",
    "C20_unknown"
   ],
   "note": ""
  },
  {
   "property": "C21",
   "status": "proved",
   "theorems": [
    "C21_compare",
    "C21_total_order",
    "C21_wire_order",
    "C21_fields",
    "C21_len"
   ],
   "note": ""
  },
  {
   "property": "C22",
   "status": "proved",
   "theorems": [
    "C22_history",
    "C22_queries"
   ],
   "note": ""
  },
  {
   "property": "C23",
   "status": "proved",
   "theorems": [
    "C23_calls",
    "C23_complete",
    "C23_concat"
   ],
   "note": ""
  },
  {
   "property": "C24",
   "status": "proved",
   "theorems": [
    "C24_sizes",
    "C24_ends",
    "C24_zero"
   ],
   "note": ""
  },
  {
   "property": "C25",
   "status": "proved",
   "theorems": [
    "C25_len",
    "C25_len_iff",
    "C25_empty_parts",
    "C25_long_low",
    "C25_long_high",
    "C25_single"
   ],
   "note": ""
  },
  {
   "property": "C26",
   "status": "proved",
   "theorems": [
    "C26_fused"
   ],
   "note": ""
  },
  {
   "property": "C27",
   "status": "proved",
   "theorems": [
    "C27_history",
    "C27_left",
    "C27_advance",
    "C27_remaining",
    "C27_chunk",
    "C27_any_buffers",
    "C27_any_history"
   ],
   "note": ""
  },
  {
   "property": "C28",
   "status": "proved",
   "theorems": [
    "C28_segmentation",
    "C28_any_buffer",
    "C28_lawful"
   ],
   "note": ""
  },
  {
   "property": "C29",
   "status": "proved",
   "theorems": [
    "C29_push_empty",
    "C29_front_empty_diverges",
    "C29_diverges_iff"
   ],
   "note": ""
  },
  {
   "property": "C30",
   "status": "proved",
   "theorems": [
    "C30_vectored",
    "C30_bounded",
    "C30_prefix",
    "C30_any_buffers",
    "C30_bytes_gather",
    "C30_default_skips"
   ],
   "note": ""
  },
  {
   "property": "C31",
   "status": "proved",
   "theorems": [
    "C31_reassembly",
    "C31_encoded",
    "C31_first_error",
    "C31_first_panic",
    "C31_any_buffers"
   ],
   "note": ""
  },
  {
   "property": "C32",
   "status": "proved",
   "theorems": [
    "C32_end_to_end",
    "C32_encodes"
   ],
   "note": ""
  },
  {
   "property": "C33",
   "status": "proved",
   "theorems": [
    "C33_follows",
    "C33_exact",
    "C33_empty_part",
    "C33_long",
    "C33_one_piece"
   ],
   "note": ""
  },
  {
   "property": "C34",
   "status": "proved",
   "theorems": [
    "C34_sends"
   ],
   "note": ""
  },
  {
   "property": "C35",
   "status": "proved",
   "theorems": [
    "C35_outcome",
    "C35_determined",
    "C35_returns",
    "C35_zero_chunk"
   ],
   "note": ""
  },
  {
   "property": "C36",
   "status": "proved",
   "theorems": [
    "C36_available",
    "C36_parity"
   ],
   "note": ""
  },
  {
   "property": "C37",
   "status": "proved",
   "theorems": [
    "C37_draws",
    "C37_client",
    "C37_server",
    "C37_handed_out"
   ],
   "note": ""
  },
  {
   "property": "C38",
   "status": "proved",
   "theorems": [
    "C38_distinct",
    "C38_sharp"
   ],
   "note": ""
  },
  {
   "property": "C39",
   "status": "proved",
   "theorems": [
    "C39_first_free",
    "C39_returns_iff",
    "C39_bound",
    "C39_diverges"
   ],
   "note": ""
  },
  {
   "property": "C40",
   "status": "proved",
   "theorems": [
    "C40_schedule",
    "C40_answers",
    "C40_unique"
   ],
   "note": ""
  },
  {
   "property": "C41",
   "status": "proved",
   "theorems": [
    "C41_bounded",
    "C41_exact",
    "C41_negative"
   ],
   "note": ""
  },
  {
   "property": "C42",
   "status": "proved",
   "theorems": [
    "C42_closes",
    "C42_when",
    "C42_otherwise"
   ],
   "note": ""
  },
  {
   "property": "C43",
   "status": "proved",
   "theorems": [
    "C43_reports",
    "C43_ends"
   ],
   "note": ""
  },
  {
   "property": "C44",
   "status": "proved",
   "theorems": [
    "C44_recognised",
    "C44_others",
    "C44_distinct",
    "C44_complete"
   ],
   "note": ""
  },
  {
   "property": "C45",
   "status": "partial",
   "theorems": [
    "C45_diverges",
    "C45_refuted",
    "C45_never",
    "C45_unparseable_partial"
   ],
   "note": "The claim is false of the code: the conversion recurses forever (C45_diverges), so it never returns the string (C45_never, C45_refuted). Only the UNPARSEABLE case returns (C45_unparseable_partial)."
  },
  {
   "property": "C46",
   "status": "proved",
   "theorems": [
    "C46_classes",
    "C46_protocol",
    "C46_one",
    "C46_which",
    "C46_setup",
    "C46_conversions"
   ],
   "note": ""
  },
  {
   "property": "C47",
   "status": "partial",
   "theorems": [
    "C47_refuted",
    "C47_names_partial",
    "C47_rejected",
    "C47_codes",
    "C47_codes_distinct",
    "C47_constants"
   ],
   "note": "The claim is false for REJECTED (C47_refuted, C47_rejected): described as CONNECTION_ERROR. Proved for the nine other kinds (C47_names_partial); Code and ErrorFrame constants agree (C47_codes, C47_constants)."
  },
  {
   "property": "C48",
   "status": "proved",
   "theorems": [
    "C48_history",
    "C48_payload",
    "C48_flag_queries",
    "C48_panics",
    "C48_terminates"
   ],
   "note": ""
  },
  {
   "property": "C49",
   "status": "proved",
   "theorems": [
    "C49_survives_iff"
   ],
   "note": "The size condition on metadata (2^24) is part of the equivalence: larger metadata panics on encoding. Examples show the 256-byte MIME type and bare RESUME flag failures."
  },
  {
   "property": "C50",
   "status": "proved",
   "theorems": [
    "C50_payload",
    "C50_error",
    "C50_mimetype",
    "C50_text"
   ],
   "note": ""
  },
  {
   "property": "C51",
   "status": "proved",
   "theorems": [
    "C51_injective",
    "C51_prefix_free"
   ],
   "note": ""
  },
  {
   "property": "C52",
   "status": "proved",
   "theorems": [
    "C52_no_mixing",
    "C52_accepted",
    "C52_only_calls",
    "C52_pushes"
   ],
   "note": ""
  },
  {
   "property": "C53",
   "status": "proved",
   "theorems": [
    "C53_one_frame"
   ],
   "note": ""
  },
  {
   "property": "C54",
   "status": "partial",
   "theorems": [
    "C54_refuted",
    "C54_claim_refuted",
    "C54_decode_refuted"
   ],
   "note": "The claim is false of the code: the 3-byte length is always written (C54_refuted) and always expected (C54_decode_refuted)."
  },
  {
   "property": "C55",
   "status": "proved",
   "theorems": [
    "C55_version",
    "C55_version_distinct",
    "C55_decode_error",
    "C55_decode_error_distinct",
    "C55_numeral"
   ],
   "note": ""
  },
  {
   "property": "C56",
   "status": "proved",
   "theorems": [
    "C56_truncation"
   ],
   "note": ""
  },
  {
   "property": "C57",
   "status": "proved",
   "theorems": [
    "C57_display",
    "C57_description",
    "C57_decode"
   ],
   "note": ""
  },
  {
   "property": "C58",
   "status": "proved",
   "theorems": [
    "C58_close",
    "C58_within_one"
   ],
   "note": ""
  },
  {
   "property": "C59",
   "status": "proved",
   "theorems": [
    "C59_progress",
    "C59_call"
   ],
   "note": ""
  },
  {
   "property": "C60",
   "status": "proved",
   "theorems": [
    "C60_alone"
   ],
   "note": ""
  },
  {
   "property": "C61",
   "status": "proved",
   "theorems": [
    "C61_back_to_back",
    "C61_swallows"
   ],
   "note": ""
  },
  {
   "property": "C62",
   "status": "proved",
   "theorems": [
    "C62_total",
    "C62_each"
   ],
   "note": ""
  },
  {
   "property": "C63",
   "status": "proved",
   "theorems": [
    "C63_written",
    "C63_turn",
    "C63_progress",
    "C63_finishes"
   ],
   "note": ""
  },
  {
   "property": "C64",
   "status": "proved",
   "theorems": [
    "C64_text",
    "C64_error",
    "C64_decode_error"
   ],
   "note": ""
  },
  {
   "property": "C65",
   "status": "proved",
   "theorems": [
    "C65_received",
    "C65_flags",
    "C65_truncate"
   ],
   "note": ""
  },
  {
   "property": "C66",
   "status": "proved",
   "theorems": [
    "C66_deliveries",
    "C66_lost"
   ],
   "note": "Holds for payloads with something to send and no part present but empty; C66_lost states what happens to the latter."
  },
  {
   "property": "C67",
   "status": "proved",
   "theorems": [
    "C67_replays",
    "C67_closes"
   ],
   "note": ""
  },
  {
   "property": "C68",
   "status": "proved",
   "theorems": [
    "C68_behaves",
    "C68_no_panic"
   ],
   "note": ""
  },
  {
   "property": "C69",
   "status": "proved",
   "theorems": [
    "C69_first",
    "C69_calls"
   ],
   "note": ""
  },
  {
   "property": "C70",
   "status": "proved",
   "theorems": [
    "C70_threads",
    "C70_replays",
    "C70_watch",
    "C70_watch_closes",
    "C70_watch_exact",
    "C70_listener"
   ],
   "note": ""
  },
  {
   "property": "C71",
   "status": "proved",
   "theorems": [
    "C71_after_close"
   ],
   "note": ""
  },
  {
   "property": "C72",
   "status": "proved",
   "theorems": [
    "C72_disjoint"
   ],
   "note": ""
  },
  {
   "property": "C73",
   "status": "proved",
   "theorems": [
    "C73_first_free",
    "C73_same"
   ],
   "note": ""
  },
  {
   "property": "C74",
   "status": "proved",
   "theorems": [
    "C74_as_frame",
    "C74_checked",
    "C74_ignored",
    "C74_relabelled",
    "C74_any_buffer"
   ],
   "note": ""
  },
  {
   "property": "C75",
   "status": "proved",
   "theorems": [
    "C75_missing"
   ],
   "note": ""
  },
  {
   "property": "C76",
   "status": "partial",
   "theorems": [
    "C76_size_hint_refuted",
    "C76_take_len_refuted"
   ],
   "note": "The claim is false of the code: size_hint gives no bounds (C76_size_hint_refuted), so the len of take panics (C76_take_len_refuted). What it gives is a valid, empty bound."
  },
  {
   "property": "C77",
   "status": "proved",
   "theorems": [
    "C77_shown",
    "C77_parts",
    "C77_determines",
    "C77_determines_parts",
    "C77_printable"
   ],
   "note": ""
  },
  {
   "property": "C78",
   "status": "proved",
   "theorems": [
    "C78_frames",
    "C78_parts",
    "C78_decoded"
   ],
   "note": ""
  },
  {
   "property": "C79",
   "status": "proved",
   "theorems": [
    "C79_repeats",
    "C79_unbounded"
   ],
   "note": ""
  },
  {
   "property": "C80",
   "status": "proved",
   "theorems": [
    "C80_where",
    "C80_within"
   ],
   "note": ""
  },
  {
   "property": "C81",
   "status": "proved",
   "theorems": [
    "C81_exact_iff",
    "C81_lost",
    "C81_lost_by_two",
    "C81_invented"
   ],
   "note": ""
  },
  {
   "property": "C82",
   "status": "proved",
   "theorems": [
    "C82_written",
    "C82_read"
   ],
   "note": ""
  },
  {
   "property": "C83",
   "status": "proved",
   "theorems": [
    "C83_wait_free"
   ],
   "note": ""
  },
  {
   "property": "C84",
   "status": "proved",
   "theorems": [
    "C84_segments",
    "C84_one",
    "C84_arrived",
    "C84_early"
   ],
   "note": "The reader that gathers segments is part of the specification; the library has none."
  },
  {
   "property": "C85",
   "status": "proved",
   "theorems": [
    "C85_stalled",
    "C85_rejected",
    "C85_retry"
   ],
   "note": ""
  },
  {
   "property": "C86",
   "status": "proved",
   "theorems": [
    "C86_within",
    "C86_calls",
    "C86_contiguous"
   ],
   "note": "C86_within holds for any Buf whose chunk is not longer than remaining(); C86_calls for any lawful one."
  },
  {
   "property": "C87",
   "status": "proved",
   "theorems": [
    "C87_laid",
    "C87_joined",
    "C87_determines",
    "C87_decoded",
    "C87_parts",
    "C87_joined_parts"
   ],
   "note": "For flags with unnamed bits (unsafe code only) the text differs from the compact one: C87_doubled."
  },
  {
   "property": "C88",
   "status": "proved",
   "theorems": [
    "C88_mime",
    "C88_code"
   ],
   "note": ""
  },
  {
   "property": "C89",
   "status": "proved",
   "theorems": [
    "C89_payload",
    "C89_len",
    "C89_len_written",
    "C89_decoded",
    "C89_built",
    "C89_overflows",
    "C89_to_bytes",
    "C89_chunks",
    "C89_remaining",
    "C89_lawful",
    "C89_wrapped"
   ],
   "note": ""
  },
  {
   "property": "C90",
   "status": "proved",
   "theorems": [
    "C90_freed",
    "C90_last",
    "C90_entitled",
    "C90_system",
    "C90_kept",
    "C90_closed_first",
    "C90_frees",
    "C90_in_call",
    "C90_cancelled"
   ],
   "note": ""
  },
  {
   "property": "C91",
   "status": "partial",
   "theorems": [
    "C91_refuted",
    "C91_iff_partial",
    "C91_lost"
   ],
   "note": "The claim is false of the code: every fragment is a REQUEST_FNF frame (C91_refuted). C91_iff_partial states exactly when it holds (the payload is not split, which is so for every machine made by new, C69), C91_lost what a receiver that follows the protocol makes of a split payload."
  },
  {
   "property": "C92",
   "status": "proved",
   "theorems": [
    "C92_methods",
    "C92_nth",
    "C92_adaptors",
    "C92_any"
   ],
   "note": ""
  },
  {
   "property": "C93",
   "status": "proved",
   "theorems": [
    "C93_interleaving",
    "C93_distinct",
    "C93_coherence_needed"
   ],
   "note": "Executions are events ordered by happens-before and the modification order of the atomic only; the theorem turns them into schedules of the interleaving model. The rules for allowed executions are those of the Rust memory model for this program: no data races, coherence, reads from the last write."
  },
  {
   "property": "C94",
   "status": "proved",
   "theorems": [
    "C94_current",
    "C94_exclusive",
    "C94_fifo",
    "C94_cancelled",
    "C94_drops",
    "C94_wakeup",
    "C94_drain"
   ],
   "note": "tokio's RwLock is modelled as the fair queue it documents, with writers only, since nothing in the crate reads the handler; set_request_handler itself has no caller in the crate yet. Dropping a handler is taken to return."
  },
  {
   "property": "C95",
   "status": "proved",
   "theorems": [
    "C95_laid",
    "C95_determines"
   ],
   "note": "The text of the source is an argument, since its type is not known to the crate."
  },
  {
   "property": "C96",
   "status": "proved",
   "theorems": [
    "C96_quoted",
    "C96_reads_back",
    "C96_ascii",
    "C96_status",
    "C96_status_determines",
    "C96_counters",
    "C96_counters_determine"
   ],
   "note": "The Unicode tables of the compiler and the way NUL is written are parameters of the model; a String is the list of its characters."
  },
  {
   "property": "C97",
   "status": "proved",
   "theorems": [
    "C97_equal",
    "C97_means"
   ],
   "note": "Enums are compared by the discriminants the compiler gives them."
  },
  {
   "property": "C98",
   "status": "partial",
   "theorems": [
    "C98_refuted",
    "C98_blocks",
    "C98_exact_iff",
    "C98_same",
    "C98_room",
    "C98_any",
    "C98_parts"
   ],
   "note": "The documented guarantee is false of the code: SETUP without a resume token (C98_refuted). C98_exact_iff says that it holds of exactly the other frames, C98_blocks what holds of all. The storage of BytesMut is modelled after bytes 1.0.1, whose sources are not at hand (DESIGN.md)."
  },
  {
   "property": "C99",
   "status": "partial",
   "theorems": [
    "C99_lawful",
    "C99_built_refuted",
    "C99_built_iff",
    "C99_received_refuted",
    "C99_received_iff"
   ],
   "note": "The claim is false of the code: the constructors make (C99_built_refuted, in both builds) and the decoder returns (C99_received_refuted) frames that break the rules. C99_built_iff and C99_received_iff say exactly which, C99_lawful that lawful arguments are enough."
  },
  {
   "property": "C100",
   "status": "partial",
   "theorems": [
    "C100_refuted",
    "C100_usable_iff",
    "C100_sent",
    "C100_carried"
   ],
   "note": "The claim is false of the code: application codes of 2^31 and above cannot be constructed (C100_refuted). C100_usable_iff says exactly which can, C100_sent what a peer makes of the others, C100_carried that the codec carries all."
  },
  {
   "property": "C101",
   "status": "proved",
   "theorems": [
    "C101_sets",
    "C101_reached",
    "C101_panic_iff",
    "C101_from_bits",
    "C101_extend",
    "C101_questions",
    "C101_order",
    "C101_queries",
    "C101_payload"
   ],
   "note": "The operations are those generated by bitflags 1.2.1, after its documentation; the unsafe from_bits_unchecked is left out."
  },
  {
   "property": "C102",
   "status": "proved",
   "theorems": [
    "C102_one",
    "C102_list",
    "C102_same",
    "C102_chunks",
    "C102_chunks_same"
   ],
   "note": "The storage of Bytes is modelled after bytes 1.0.1, whose sources are not at hand (DESIGN.md). Buffers of other types (BytesMut, slices) and the copies made by encode and by reassembly are not covered."
  },
  {
   "property": "C103",
   "status": "proved",
   "theorems": [
    "C103_take",
    "C103_chain",
    "C103_std",
    "C103_delimited",
    "C103_frames",
    "C103_reported"
   ],
   "note": "The adaptors are modelled after the documentation of bytes 1.0.1 and std; a Cursor past the end of its bytes is excluded (its advance(0) panics). The reader is a caller, not code of the crate."
  },
  {
   "property": "C104",
   "status": "partial",
   "theorems": [
    "C104_refines",
    "C104_starved",
    "C104_refuted",
    "C104_iff_partial",
    "C104_workers",
    "C104_yielding"
   ],
   "note": "The claim is false of the code: with one worker, once the listener has asked for a status the watchdog never runs again (C104_refuted, C104_starved). C104_iff_partial says that it holds exactly with two workers or more, C104_yielding that one is enough if the status stream is sometimes not ready. A poll that is never pending is taken to keep its worker, as tokio does; its cooperative budget only concerns its own types."
  },
  {
   "property": "C105",
   "status": "proved",
   "theorems": [
    "C105_simulated",
    "C105_all",
    "C105_in_turn",
    "C105_in_order",
    "C105_owned"
   ],
   "note": "A connection is any state machine that is entered, goes on step by step inside and says when the operation has ended and how (Returned or Unwound). The threads are those of SocketM.v; the two tasks of the machine are not among them. C105_all says that no behaviour of connections that answer at once is missing. The 2^30 of C105_in_order and C105_owned is the number of ids before they repeat (C41)."
  },
  {
   "property": "C106",
   "status": "proved",
   "theorems": [
    "C106_order",
    "C106_only",
    "C106_delivered"
   ],
   "note": "reaches says which lists of frames can be on the wire after a trace; C106_delivered is C66 for connections whose operations take time. Of a call that failed at its last frame, the payload may have arrived (C106_example)."
  },
  {
   "property": "C107",
   "status": "partial",
   "theorems": [
    "C107_refuted",
    "C107_request_partial",
    "C107_handed",
    "C107_blind",
    "C107_mixed"
   ],
   "note": "Refuted: C107_refuted converts two complete requests of different streams to one payload. Proved: the fragments of one request convert to its payload (C107_request_partial, C107_handed); stream ids and flags make no difference (C107_blind), fragments of two requests are all taken in (C107_mixed)."
  },
  {
   "property": "C108",
   "status": "proved",
   "theorems": [
    "C108_same",
    "C108_history",
    "C108_advance",
    "C108_copy"
   ],
   "note": "CaughtM.v has the state of the list at each panic; C108_same ties it to the operations of C27. What an inner buffer leaves of itself when it panics is arbitrary (hurt_advance, hurt_copy); buffers that keep the rules of Buf do not panic there."
  },
  {
   "property": "C109",
   "status": "proved",
   "theorems": [
    "C109_iff",
    "C109_argument",
    "C109_other",
    "C109_tells",
    "C109_limit",
    "C109_chain"
   ],
   "note": "C109_iff ties the messages to the functions of CodecM.v, U24M.v, ChunkM.v, BufM.v and FrameM.v. The messages of panics in core, std and bytes (index out of bounds, assertions of Buf and BufMut) and of the unimplemented request methods are not modelled."
  },
  {
   "property": "C110",
   "status": "proved",
   "theorems": [
    "C110_display",
    "C110_debug",
    "C110_distinct",
    "C110_sentence",
    "C110_tells"
   ],
   "note": "The texts are those of core::str::Utf8Error, to our knowledge."
  },
  {
   "property": "C111",
   "status": "proved",
   "theorems": [
    "C111_closes",
    "C111_idle",
    "C111_one",
    "C111_iff",
    "C111_strong"
   ],
   "note": "The runs are those of PoolM.v (C104), without end. C111_closes: two workers, weak fairness; C111_idle: one worker, strong fairness; C111_one, C111_iff: two are needed. What fairness means is in Spec/Fair.v; that tokio is fair is its documentation, not proved."
  },
  {
   "property": "C112",
   "status": "proved",
   "theorems": [
    "C112_closes",
    "C112_tight",
    "C112_not_before"
   ],
   "note": "Runs of SystemM.v (C70), where the watchdog task takes one step when it is run; a delay is the time it is runnable but not run (Spec/Prompt.v). Timer granularity counts as delay."
  },
  {
   "property": "C113",
   "status": "proved",
   "theorems": [
    "C113_lazy",
    "C113_outside",
    "C113_running",
    "C113_no_timer",
    "C113_shut",
    "C113_system",
    "C113_closed",
    "C113_asked"
   ],
   "note": "What tokio::spawn does outside of a runtime and after a shutdown, and what sleep does without a timer, is to our knowledge of tokio 1 (its sources were not at hand); the text of those panics is not modelled."
  },
  {
   "property": "C114",
   "status": "proved",
   "theorems": [
    "C114_same",
    "C114_watch",
    "C114_listener",
    "C114_replays",
    "C114_after_close"
   ],
   "note": "A change of the connection happens between two of the calls of the machine, not during one."
  },
  {
   "property": "C115",
   "status": "proved",
   "theorems": [
    "C115_as_others",
    "C115_who_catches",
    "C115_silent",
    "C115_distinct",
    "C115_deliveries"
   ],
   "note": "Panics of the connection and of the status or watchdog task are not among them (C105 has the former, C113 those of the watchdog)."
  },
  {
   "property": "C116",
   "status": "proved",
   "theorems": [
    "C116_operators",
    "C116_max_min",
    "C116_clamp",
    "C116_sorting"
   ],
   "note": "The operators, max, min and clamp are written after the documentation of core::cmp; sorting is any permutation in which no version is greater, by cmp, than the next."
  }
 ]
}
