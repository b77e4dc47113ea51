# Formal model of mapkts/binate in Coq 8.16

## Method

The model is a set of total, executable Gallina functions that follow the Rust
sources function by function (every definition cites file and lines).
The properties of `properties.jsonl` are theorems about those functions.

* `rocq/theories/Model/*.v` - the model, no proofs.
* `rocq/theories/Spec/*.v`  - independent specifications (wire layout, decoder
  grammar, slices, ids...).  They use none of the model's functions, only its data types.
* `rocq/theories/Proofs/*.v` - lemmas.
* `rocq/theories/Props/*.v` - only the property theorems, each closed by
  `exact lemma`, with `Print Assumptions` below and non-vacuity `Example`s beside.
* `rocq/theories/Tests/RepoTests.v` - the unit tests of the sources, translated assertion by
  assertion and evaluated on the model (the `loom` test for every schedule): a check of the
  model, not of the properties.

## Modelling conventions

| Rust | model |
|---|---|
| `u8` in a buffer | `Coq.Init.Byte.byte` (no range hypothesis needed) |
| `u8/u16/u32/u64/usize` values | `N`; range hypotheses (`x < 2^32`) stand for the Rust type |
| `i32` of the atomics | `Z` in two's complement, with the wrap written explicitly |
| lengths, indices, loop fuel | `nat` |
| `Bytes`, `BytesMut`, `&[u8]` | `list byte` |
| `Option`, `Result` | `option`, explicit result types |
| panic | explicit `Panic` value; for `encode` the bytes already written are kept |
| non-termination | fuel; exhaustion is an explicit `Loop` value, never a normal-looking one |
| `debug_assert!` | a `build` argument (`Debug`/`Release`) |
| `&mut` | returns the new value |
| threads | explicit interleavings: a schedule is an arbitrary list of events |
| `f32` | `Coq.Floats.SpecFloat` with precision 24, emax 128 (IEEE-754 binary32, round to nearest even) |

## Plan per property

| id | modelled | proof idea |
|---|---|---|
| C01, C02 | `encode`/`decode` of all 14 frames over flat bytes | per-kind round trip by rewriting through the `eat_*` lemmas |
| C03, C04, C11-C16 | `Frame::decode` over a generic `Buf` | forward and backward lemmas for every `eat_*`, then case analysis on the type; specification = a field grammar in `Spec` |
| C05, C06 | decode, encode | decoded frames are well formed, then C01 |
| C07-C09 | encode, len | direct computation against `Spec` layout |
| C10, C54 | flag constants, payload encoding | refutation witnesses plus what does hold |
| C17, C18 | constructors and accessors, build flag | bit lemmas (`land` with 2^k-1 is `mod`) |
| C19-C21 | `U24`, `FrameType`, `Version` | arithmetic; finite sweeps for the 15 types |
| C22 | payload builder | induction over call sequences |
| C23-C26, C58 | chunk iterator, its f32 length | invariant of the iteration; error bounds of binary32 rounding, in integers |
| C27-C30 | `BufList` operations with fuel for the `bytes` crate loops | simulation with the concatenation |
| C31, C32 | reassembly, fire-and-forget | induction over fragments using C01 |
| C33-C35, C53 | `fire_and_forget`, `metadata_push` against an arbitrary connection oracle | induction over chunks |
| C36-C39 | stream-id provider, interleaving semantics | invariant: k-th increment returns (init+2k) mod 2^31 |
| C40, C41 | request counter, interleaving semantics | induction over histories |
| C42, C43 | watchdog and listener loops with arbitrary delays/statuses | induction; real time and the tokio scheduler are represented only by the delay/status sequences |
| C44, C45 | MIME table, recursive conversion with fuel | finite sweep + string equality; divergence for every fuel |
| C46, C47 | error kinds, predicates, descriptions | case analysis |
| C48, C49 | SETUP builder as a call-sequence interpreter | induction over histories |
| C50 | `str::from_utf8` (std algorithm), `is_ascii` | equivalence with the Unicode scalar-value encoding |
| C51 | encode | corollary of C01 |
| C52 | interleaved `fire_and_forget`, `metadata_push`, `close` | invariant over schedules |
| C59 | the same, from any reachable state | every draw is answered busy (distinct keys), allocated or pending (one per thread) |
| C60 | the sequential and the interleaved model of one call | simulation, step by step |
| C61 | encode into one buffer, decode until it is empty | induction on the list, from C01 and C15 |
| C62 | fire_and_forget, encoded | sum over the fragments, from C07 and C23 |
| C63 | `chunks_vectored` and `advance` in turns | each turn keeps written ++ left = content |
| C55 | `Display` impls | injectivity of decimal/hex printing |
| C56 | decode on prefixes | from the decoder lemmas |
| C57 | `Display for Error` | no description contains a colon, so the first one ends it |
| C64 | `Debug for Error`, derived `Debug` of its kind | no closing parenthesis before the end of the kind's text; escapes read back |
| C65 | accessors after decode | the header read by the decoder is the one of the wire format |
| C66 | interleaved calls, `Encode`, `TryFrom<BufferList>` | schedule invariant on taken frames, per-stream projection of the receiver |
| C67 | interleaved calls, `DuplexConnection` | replay of the trace, induction over schedules |
| C68 | interleaved calls | invariant tying each thread to a phase of a small automaton, no bound on draws |
| C69 | `RSocketMachine::new`, `fire_and_forget` | symbolic run, invariant of the empty store |
| C70 | `RSocketMachine::new` and its tasks with the threads | simulation by executions of threads, clock invariant, rank of the watchdog; the watchdog exactly, from the times it is run |
| C71 | the same on connections that close for good | replay of the trace, phases of a thread |
| C72 | `new_for_client`, `new_for_server` | parity of the ids drawn |
| C73 | `next_stream_id` in every schedule | every draw but those of running searches has been answered: freeness decides; the number of free ids fixes the number of draws |
| C74 | the fourteen `Decode` implementations and `Frame::decode` | decoding after a header; every reader either lacks bytes or gives a value |
| C75 | `request_response`, `request_stream`, `request_channel` of `RSocketMachine` | comparing an execution step by step with the one without the thread |
| C76 | `PayloadChunks` as `ExactSizeIterator` (refuted) | computation of the default `size_hint` and of `Take` |
| C77 | derived `Debug` of frames and their parts, `Debug` of `Bytes` and of `bitflags` | each part's text is self-delimiting: byte escapes are prefix-free (checked for all pairs), flags end at the first comma, numerals at the first non-digit |
| C78 | derived `PartialEq` | field by field; with C05 and C77 |
| C79 | the status task of `RSocketMachine::new` after a close | induction on the schedule from any closed state |
| C80 | `data_utf8`, `metadata_utf8` when they fail | a fault in the first character, and shifting it past a character |
| C81 | `RequestCounter` beyond 32 bits | the balance modulo 2^32 |
| C82 | encode and decode against the frames as drawn in the diagrams | lengths of the fields and the flag word |
| C83 | `fire_and_forget` in every schedule | phases of the thread with the number of its steps, C59 bounds the draws |
| C84 | `Frame::decode` on what has arrived so far | prefixes of accepted, rejected and incomplete inputs (C15), splitting the run of the reader |
| C85 | `Frame::decode` and the buffer it leaves | the items of each body as a list; each reader stops in front of the first that is not complete |
| C86 | the decoders over any `Buf` | two buffers alike within what they report; a buffer that counts the calls, bounds added up along the decoders |
| C87 | derived `Debug` in the form `{:#?}`, `PadAdapter` of `core` | texts as trees of strings: the padded text is its list of lines; a scanner that joins lines gives the compact text, by induction over the tree for any indentation; with C77 |
| C88 | derived `Debug` of `WellKnownMimeType` and `Code` | case analysis |
| C89 | `len` of frames and payloads, `to_bytes`, the chunk count and `BufList` with the additions of a `usize` of w bits | an addition commutes with the exact sum, so every order of adding gives the same; the list keeps the rules of `Buf` while its content is small, then C28 |
| C90 | a machine with its tasks, clones and drops, and the count of the `Arc` of its connection | the count is the number of holders, with a pending drop in the middle of a step; with C70 |
| C91 | `fire_and_forget` against the fragmentation of the protocol and a receiver that follows it | all frames of a call are REQUEST_FNF (C34), so only a single one conforms; the receiver on marked frames by induction |
| C92 | the provided methods and adaptors of `Iterator` over `PayloadChunks` | an iterator gives a list: each method by induction over it, once for all iterators; C23 for chunks |
| C93 | the steps of the threads ordered by happens-before and by the modification order of the relaxed atomic | the two orders together have no cycle, so a first event exists; a step depends on the places it touches only; replay along the order |
| C94 | the calls of `set_request_handler` behind the fair lock, with futures dropped anywhere | invariant: who owns the lock, the queue is the rest of the line, what the trace says of each call |
| C95 | `Debug for Error` in the form `{:#?}`, derived `Debug` of its kind | a padded text ends at the first line that is not indented, so it reads back; the padded text is its list of lines |
| C96 | derived `Debug` of `ConnectionStatus`, `StreamIdProvider`, `RequestCounter`; `Debug for str` on all characters | the pieces of a quoted string are prefix-free, also across two tables |
| C97 | derived `==` of the enums, `U24`, `DecodeError`, `Kind`, `ConnectionStatus` | case analysis; tags invert; with C44, C55, C64 |
| C98 | `BytesMut` with capacity and the blocks it asks for, every `encode` as its list of `put` calls | the sizes of the calls add up to `len`, but for SETUP without a token, so no call has to grow; false as documented |
| C99 | all constructors, the SETUP builder, the decoder, against the MUST rules of the doc comments | masks leave 31 or 63 bits; the last call of a builder is unique; C11 for what the decoder returns; false as documented |
| C100 | `ErrorFrame::new` against the range of application codes | the mask of 31 bits; with C01 and C13; false as documented |
| C101 | all operations of `Flags` that `bitflags!` generates, as expressions | the 32 values are closed under each operation (computed for all pairs), then induction over expressions |
| C102 | `Bytes` with the block and offset of their first byte; a buffer that records every `Bytes` it hands out | each decoder step adds to the record exactly the strings it returns (compositional lemma over any recording buffer); invariant: the list left is the original one cut after `k` bytes |
| C103 | `Take`, `Chain`, `VecDeque<u8>`, `Cursor` as operations; a caller that decodes from a `Take` of a given length | each keeps the rules of the trait (the default `copy_to_bytes` once for all), then C28; the reported lengths by C07 and C61 |
| C104 | the two tasks on w worker threads: a task keeps its worker until its future is pending or done; user tasks and other threads act in between | refuted for w = 1 by an invariant (the only worker is held by the listener); for w of 2 or more the watchdog is driven to its end from any reachable state; every run is one of C70 |
| C105 | `fire_and_forget`, `metadata_push` and `close` on a connection whose operations take time, overlap and panic | step by step simulation by an execution with atomic operations on a connection that gives the same answers in the order they end; the rest carried over from it |
| C106 | what reaches the wire, and a receiver, from the executions of C105 | invariants of the threads (where each is, what it has begun, what is in flight) by induction on the actions, then as C66 |
| C107 | reassembly of frames that are not one request (refuted); of those that are; of relabelled and mixed ones | by C31; a decoder reads the payload without the stream id and flags |
| C108 | histories of a buffer list in which every panic is caught | refinement of the list to a queue of bytes, operation by operation; the operations agree with those of C27 |
| C109 | messages of the assertions of the crate: which argument, which rule, in which build; injectivity of the text | case analysis of the calls; messages exist exactly where the functions of the other models panic |
| C110 | texts of the error of the text accessors, by the bytes of the part | by C80 and the numerals of C55 |
| C111 | runs without end on worker threads, weakly or strongly fair: the watchdog closes | next turn of the watchdog by fairness, at a time after the timeout; invariants of C104; a fair run of one worker as counterexample |
| C112 | latest and earliest close by the watchdog, if it is never kept waiting for more than a given delay | invariant on since when it waits; the slowest run for every timeout and delay |
| C113 | making a machine: the future of `new` polled or dropped, in a runtime, outside, shut down, without a timer | reduction to runs of C90 in which the runtime drops tasks |
| C114 | a connection that also changes by itself | simulation by a connection that reads the answers from a list |
| C115 | threads that catch their panics and go on | simulation by threads with a new name after each catch (pairs of name and number, by the Cantor pairing); C38 and C66 do not depend on names |
| C116 | operators, max, min, clamp and sorting of versions | case analysis on `cmp`; sorted permutations are unique as the order is antisymmetric |

## Trusted base

1. The kernel of Coq 8.16.1 (and its `vm_compute`, used in some examples and finite sweeps),
   running on the files of `rocq/theories`.  No kernel check is switched off, there are
   no axioms of our own, no `Admitted`, no functors or module types.
2. No axioms: `Print Assumptions` lists none for any theorem, below.  Only Coq's standard
   library is used.  (Checking the files also loads `Coq.ssr.ssrunder`, whose sealed module
   `Under_rel` counts as seven axioms; no theorem depends on them.)
3. That the model is what the code does.  Each definition cites the lines it models; the
   conventions are in the table above.

### What Print Assumptions lists

<!-- assumptions -->
* `Props/AdaptProps.v`, 6 theorems. Closed under the global context: `C103_take`, `C103_chain`, `C103_std`, `C103_delimited`, `C103_frames`, `C103_reported`.
* `Props/BornProps.v`, 8 theorems. Closed under the global context: `C113_lazy`, `C113_outside`, `C113_running`, `C113_no_timer`, `C113_shut`, `C113_system`, `C113_closed`, `C113_asked`.
* `Props/BufProps.v`, 31 theorems. Closed under the global context: `C27_history`, `C27_left`, `C27_advance`, `C27_remaining`, `C27_chunk`, `C27_any_buffers`, `C27_any_history`, `C28_segmentation`, `C28_any_buffer`, `C28_lawful`, `C29_push_empty`, `C29_front_empty_diverges`, `C29_diverges_iff`, `C30_vectored`, `C30_bounded`, `C30_prefix`, `C30_any_buffers`, `C30_bytes_gather`, `C30_default_skips`, `C31_reassembly`, `C31_encoded`, `C31_first_error`, `C31_first_panic`, `C31_any_buffers`, `C63_written`, `C63_turn`, `C63_progress`, `C63_finishes`, `C86_within`, `C86_calls`, `C86_contiguous`.
* `Props/CaughtProps.v`, 4 theorems. Closed under the global context: `C108_same`, `C108_history`, `C108_advance`, `C108_copy`.
* `Props/ChunkProps.v`, 17 theorems. Closed under the global context: `C23_calls`, `C23_complete`, `C23_concat`, `C24_sizes`, `C24_ends`, `C24_zero`, `C25_len`, `C25_len_iff`, `C25_empty_parts`, `C25_long_low`, `C25_long_high`, `C25_single`, `C58_close`, `C58_within_one`, `C26_fused`, `C76_size_hint_refuted`, `C76_take_len_refuted`.
* `Props/CodecProps.v`, 38 theorems. Closed under the global context: `C01_roundtrip`, `C01_roundtrip_only_fitting`, `C02_empty_parts`, `C02_exact_iff`, `C03_panic_iff_ext`, `C03_total`, `C04_consumption`, `C05_C06_reencode`, `C07_len`, `C08_appends_or_oversized`, `C08_to_bytes`, `C09_layout`, `C11_accepts_iff_parses`, `C11_outcome`, `C12_stream_zero`, `C13_error_rules`, `C13_error_sound`, `C14_unknown_type`, `C14_unknown_needs_header`, `C15_errors_stable`, `C15_accepted_extends`, `C15_incomplete_bounded`, `C15_incomplete_can_be_completed`, `C16_header`, `C16_body`, `C16_body_accepted`, `C51_injective`, `C51_prefix_free`, `C56_truncation`, `C61_back_to_back`, `C61_swallows`, `C84_segments`, `C84_one`, `C84_arrived`, `C84_early`, `C85_stalled`, `C85_rejected`, `C85_retry`.
* `Props/DebugProps.v`, 8 theorems. Closed under the global context: `C77_shown`, `C77_parts`, `C77_determines`, `C77_determines_parts`, `C77_printable`, `C78_frames`, `C78_parts`, `C78_decoded`.
* `Props/EnvProps.v`, 5 theorems. Closed under the global context: `C114_same`, `C114_watch`, `C114_listener`, `C114_replays`, `C114_after_close`.
* `Props/FairProps.v`, 5 theorems. Closed under the global context: `C111_closes`, `C111_idle`, `C111_one`, `C111_iff`, `C111_strong`.
* `Props/FlagProps.v`, 9 theorems. Closed under the global context: `C101_sets`, `C101_reached`, `C101_panic_iff`, `C101_from_bits`, `C101_extend`, `C101_questions`, `C101_order`, `C101_queries`, `C101_payload`.
* `Props/FrameProps.v`, 50 theorems. Closed under the global context: `C10_refuted`, `C10_claim_refuted`, `C10_positions_partial`, `C54_refuted`, `C54_claim_refuted`, `C54_decode_refuted`, `C17_request_response`, `C17_request_fnf`, `C17_request_stream`, `C17_request_channel`, `C17_payload`, `C17_request_n`, `C17_cancel`, `C17_error`, `C17_lease`, `C17_keepalive`, `C17_resume`, `C17_resume_ok`, `C17_metadata_push`, `C18_debug_panics`, `C18_release_masks`, `C18_release_request_zero`, `C18_release_lease`, `C19_u24`, `C19_from_u32_panics`, `C19_from_usize_panics`, `C19_onto`, `C19_limits`, `C20_laws`, `C20_from_value`, `C20_from_bits`, `C20_unknown`, `C21_compare`, `C21_total_order`, `C21_wire_order`, `C21_fields`, `C21_len`, `C22_history`, `C22_queries`, `C48_history`, `C48_payload`, `C48_flag_queries`, `C48_panics`, `C48_terminates`, `C49_survives_iff`, `C65_received`, `C65_flags`, `C65_truncate`, `C82_written`, `C82_read`.
* `Props/HandlerProps.v`, 7 theorems. Closed under the global context: `C94_current`, `C94_exclusive`, `C94_fifo`, `C94_cancelled`, `C94_drops`, `C94_wakeup`, `C94_drain`.
* `Props/IterProps.v`, 4 theorems. Closed under the global context: `C92_methods`, `C92_nth`, `C92_adaptors`, `C92_any`.
* `Props/LifeProps.v`, 9 theorems. Closed under the global context: `C90_freed`, `C90_last`, `C90_entitled`, `C90_system`, `C90_kept`, `C90_closed_first`, `C90_frees`, `C90_in_call`, `C90_cancelled`.
* `Props/MessageProps.v`, 6 theorems. Closed under the global context: `C109_iff`, `C109_argument`, `C109_other`, `C109_tells`, `C109_limit`, `C109_chain`.
* `Props/MixProps.v`, 5 theorems. Closed under the global context: `C107_refuted`, `C107_request_partial`, `C107_handed`, `C107_blind`, `C107_mixed`.
* `Props/OwnProps.v`, 5 theorems. Closed under the global context: `C74_as_frame`, `C74_checked`, `C74_ignored`, `C74_relabelled`, `C74_any_buffer`.
* `Props/PoolProps.v`, 6 theorems. Closed under the global context: `C104_refines`, `C104_starved`, `C104_refuted`, `C104_iff_partial`, `C104_workers`, `C104_yielding`.
* `Props/PrettyProps.v`, 8 theorems. Closed under the global context: `C87_laid`, `C87_joined`, `C87_determines`, `C87_decoded`, `C87_parts`, `C87_joined_parts`, `C88_mime`, `C88_code`.
* `Props/PromptProps.v`, 3 theorems. Closed under the global context: `C112_closes`, `C112_tight`, `C112_not_before`.
* `Props/ProtoProps.v`, 3 theorems. Closed under the global context: `C91_refuted`, `C91_iff_partial`, `C91_lost`.
* `Props/ReachProps.v`, 3 theorems. Closed under the global context: `C106_order`, `C106_only`, `C106_delivered`.
* `Props/ReviveProps.v`, 5 theorems. Closed under the global context: `C115_as_others`, `C115_who_catches`, `C115_silent`, `C115_distinct`, `C115_deliveries`.
* `Props/RuleProps.v`, 9 theorems. Closed under the global context: `C99_lawful`, `C99_built_refuted`, `C99_built_iff`, `C99_received_refuted`, `C99_received_iff`, `C100_refuted`, `C100_usable_iff`, `C100_sent`, `C100_carried`.
* `Props/ShareProps.v`, 5 theorems. Closed under the global context: `C102_one`, `C102_list`, `C102_same`, `C102_chunks`, `C102_chunks_same`.
* `Props/ShowProps.v`, 11 theorems. Closed under the global context: `C95_laid`, `C95_determines`, `C96_quoted`, `C96_reads_back`, `C96_ascii`, `C96_status`, `C96_status_determines`, `C96_counters`, `C96_counters_determine`, `C97_equal`, `C97_means`.
* `Props/SlowProps.v`, 5 theorems. Closed under the global context: `C105_simulated`, `C105_all`, `C105_in_turn`, `C105_in_order`, `C105_owned`.
* `Props/SocketProps.v`, 61 theorems. Closed under the global context: `C32_end_to_end`, `C32_encodes`, `C33_follows`, `C33_exact`, `C33_empty_part`, `C33_long`, `C33_one_piece`, `C34_sends`, `C35_outcome`, `C35_determined`, `C35_returns`, `C35_zero_chunk`, `C36_available`, `C36_parity`, `C37_draws`, `C37_client`, `C37_server`, `C37_handed_out`, `C38_distinct`, `C38_sharp`, `C39_first_free`, `C39_returns_iff`, `C39_bound`, `C39_diverges`, `C40_schedule`, `C40_answers`, `C40_unique`, `C41_bounded`, `C41_exact`, `C41_negative`, `C81_exact_iff`, `C81_lost`, `C81_lost_by_two`, `C81_invented`, `C42_closes`, `C42_when`, `C42_otherwise`, `C43_reports`, `C43_ends`, `C52_no_mixing`, `C52_accepted`, `C52_only_calls`, `C52_pushes`, `C53_one_frame`, `C59_progress`, `C59_call`, `C60_alone`, `C83_wait_free`, `C62_total`, `C62_each`, `C66_deliveries`, `C66_lost`, `C67_replays`, `C67_closes`, `C68_behaves`, `C68_no_panic`, `C69_first`, `C69_calls`, `C73_first_free`, `C73_same`, `C75_missing`.
* `Props/StoreProps.v`, 7 theorems. Closed under the global context: `C98_refuted`, `C98_blocks`, `C98_exact_iff`, `C98_same`, `C98_room`, `C98_any`, `C98_parts`.
* `Props/SystemProps.v`, 10 theorems. Closed under the global context: `C70_threads`, `C70_replays`, `C70_watch`, `C70_watch_closes`, `C70_watch_exact`, `C70_listener`, `C71_after_close`, `C72_disjoint`, `C79_repeats`, `C79_unbounded`.
* `Props/TextProps.v`, 37 theorems. Closed under the global context: `C44_recognised`, `C44_others`, `C44_distinct`, `C44_complete`, `C45_diverges`, `C45_refuted`, `C45_never`, `C45_unparseable_partial`, `C46_classes`, `C46_protocol`, `C46_one`, `C46_which`, `C46_setup`, `C46_conversions`, `C47_refuted`, `C47_names_partial`, `C47_rejected`, `C47_codes`, `C47_codes_distinct`, `C47_constants`, `C50_payload`, `C50_error`, `C50_mimetype`, `C50_text`, `C80_where`, `C80_within`, `C55_version`, `C55_version_distinct`, `C55_decode_error`, `C55_decode_error_distinct`, `C55_numeral`, `C57_display`, `C57_description`, `C57_decode`, `C64_text`, `C64_error`, `C64_decode_error`.
* `Props/Utf8TextProps.v`, 5 theorems. Closed under the global context: `C110_display`, `C110_debug`, `C110_distinct`, `C110_sentence`, `C110_tells`.
* `Props/VersionProps.v`, 4 theorems. Closed under the global context: `C116_operators`, `C116_max_min`, `C116_clamp`, `C116_sorting`.
* `Props/WeakProps.v`, 3 theorems. Closed under the global context: `C93_interleaving`, `C93_distinct`, `C93_coherence_needed`.
* `Props/WordProps.v`, 11 theorems. Closed under the global context: `C89_payload`, `C89_len`, `C89_len_written`, `C89_decoded`, `C89_built`, `C89_overflows`, `C89_to_bytes`, `C89_chunks`, `C89_remaining`, `C89_lawful`, `C89_wrapped`.

<!-- end assumptions -->

### Modelled

| source | model |
|---|---|
| `frame/mod.rs` (`Frame::decode`, `Encode for Frame`), `frame/encode.rs`, `frame/visit.rs` | `FrameM.v`, `VisitM.v` |
| `frame/codec/*.rs` (14 frames: constructors, accessors, encode, len, decode; SETUP builder) | `CodecM.v` |
| `frame/flags.rs`, `frame/u24.rs`, `frame/version.rs` | `FlagsM.v`, `U24M.v` |
| `frame/decode.rs`, `error.rs` | `Types.v`, `ErrorM.v` |
| `payload.rs` (payload, builder, text accessors, chunk iterator with its `f32` length) | `PayloadM.v`, `ChunkM.v`, `Utf8M.v` |
| `mimetype.rs`, `consts.rs` | `MimeM.v`, `CodecM.v` |
| the provided methods of `Iterator` on the chunk iterator | `IterM.v` |
| derived `Debug` and `PartialEq` of frames, payloads, versions (and `Debug` of flags, `U24`, frame types, builders, chunk iterator) | `DebugM.v` |
| the same `Debug` in the form `{:#?}`; `Debug` of MIME types and error codes | `PrettyM.v` |
| `{:#?}` of errors; `Debug` of connection statuses and counters; `==` of enums, `U24`, decode errors, kinds, statuses | `ShowM.v` |
| `connection/buf.rs` | `BufM.v` |
| `connection/buf.rs` after a caught panic | `CaughtM.v` |
| messages of panics: `frame/codec/mod.rs` 5-21 and the assertions of `frame/`, `payload.rs`, `connection/buf.rs` | `MessageM.v` (types in `MessageTypes.v`) |
| `connection/socket.rs` 45-102 as a future, `runtime.rs` 5-11 | `BornM.v` (types in `BornTypes.v`), on top of `LifeM.v` |
| `connection/conn.rs` 9-50: changes of a connection between the calls of the machine | `EnvM.v` (types in `EnvTypes.v`), on top of `SystemM.v` |
| `connection/socket.rs` 132-175: threads that go on after a panic | `ReviveM.v` (types in `ReviveTypes.v`), on top of `SocketM.v` |
| `frame/version.rs` 41-55: the methods that `Ord` and `PartialOrd` provide | `VersionM.v`, after the documentation of core::cmp |
| `Display` and `Debug` of `core::str::Utf8Error` (payload.rs 71-87) | `Utf8TextM.v` |
| `to_bytes` and `encode` again, with the storage of `BytesMut` | `StoreM.v` |
| all that `bitflags!` generates for `Flags` | `FlagOpsM.v` (the operations as data in `FlagOpsTypes.v`) |
| decoding from `Bytes` and `BufList<Bytes>` and chunking again, with the storage of `Bytes` | `ShareM.v` (types in `ShareTypes.v`) |
| nothing in the crate: other buffers a caller can decode from, and a caller that knows the lengths of its frames | `AdaptM.v` (types in `AdaptTypes.v`) |
| `runtime.rs` and the tasks of `connection/socket.rs` on worker threads | `PoolM.v` (types in `PoolTypes.v`) |
| `connection/socket.rs` on connections whose operations take time | `SlowM.v` (types in `SlowTypes.v`) |
| the constructors as data | `RuleTypes.v`, `RuleM.v` |
| all `len` functions, `to_bytes` and `BufList` again, in a `usize` of w bits | `WordM.v` |
| `connection/stream_id.rs`, `connection/counter.rs` | `StreamIdM.v` |
| `connection/socket.rs` (`new`, its two tasks, the five request methods, error handlers) | `SocketM.v`; threads and tasks together in `SystemM.v`, with clones and drops in `LifeM.v`, threads without a global order of their steps in `WeakM.v`; `RequestHanlder` and its lock in `HandlerM.v` |

### Not modelled, or assumed

* The dependencies are their documented contract: `bytes` 1.0.1 (`Buf`, `BufMut`, `Bytes`, `BytesMut`,
  `Take`) in `Base.v` and `BufM.v`; `bitflags` 1.2.1 in `FlagsM.v`; what these two crates and `core` write for `Debug` in `DebugM.v` and `PrettyM.v`; the provided methods of `core::iter::Iterator` in `IterM.v`; `DashMap::contains_key` as the key set
  of a linearisable map; `std::str::from_utf8` as the validation loop of `core`; `core::fmt` for
  integers.  Buffer capacities, reallocation and reference counts are not modelled (except that `ShareM.v` has the place of a `Bytes`: `slice`, `split_to` and `copy_to_bytes` of `Bytes` refer to the same block, empty slices to none, as of bytes 1.0.1 to our knowledge; except also that `StoreM.v` has the capacity of a `BytesMut` that is not shared, and the blocks it asks for: `with_capacity` gets exactly what it asks for, growing is an arbitrary function, `freeze` gives back the rest; this is our knowledge of how `bytes` 1.0.1 does it, not a documented contract, and its sources were not at hand to compare (later versions keep the block in `freeze`); that `WordM.v` refuses allocations above `isize::MAX`, and that `LifeM.v` has
  the count of the `Arc` of a connection, unbounded); memory is unbounded.
* Lengths are unbounded integers, except in `WordM.v`, where the sums of lengths are computed once more in a `usize` of w bits (32 or more), with
  overflow as in debug and release builds; C89 says when the two agree.  Casts from `f32` are to 64 bits elsewhere.
* `BufList<T>` is modelled for any `T: Buf`, given by its operations; `chunks_vectored` of `T` is assumed to return the number of
  slots it writes.
* Atomics: every operation on the single `AtomicI32` of a provider or counter is one step of an interleaving.  For the counter
  (all `SeqCst`) that is the definition of the ordering.  For the provider (`Relaxed`) C93 derives it from the rules of the memory model
  (`WeakM.v`: coherence, no data races, the locks of `DashMap` and the connection synchronise); those rules are trusted.
* The connection (`DuplexConnection`, a trait with no implementation in the sources) is an arbitrary state machine; each of its `send_and_forget`, `send` and `close` is one atomic step
  (for the threads of `SocketM.v` C105 derives it: with operations that take time, overlap and panic, they do what they do with such a connection), and
  asking for its status does not change it.  Between these steps it stays as it is, except in `EnvM.v`, where it also changes by itself.  The `tokio` scheduler is an arbitrary choice of who runs next; a timer that has
  not expired leaves its task asleep, one that has lets it go on when it is next picked.  In `PoolM.v` the tasks are polled by worker threads, each of which keeps its task until it is pending or done (the budget `tokio` gives a task only concerns `tokio`'s own types); a task of the user is one action at a time, so that one that never lets go of its worker is left out.  (`sleep` cuts durations that overflow its clock to some thirty years, after which the watchdog would look at the time and sleep on; there is a timer, except in `BornM.v`, where there may be none and the watchdog panics when first run.)  In `SocketM.v` the watchdog and the listener
  are also modelled by themselves, given the delays and statuses they see.  In `LifeM.v` each thread uses a machine of its own; machines shared by reference are
  the threads of `SystemM.v`.  `RwLock` is the fair queue it documents, used by writers only (nothing reads the handler).  A status stream and the future of a `metadata_push` hold no machine (they are `'static` and made by the connection).
* In the `Debug` text of an `Error`, the escapes Rust uses for control characters and some characters outside ASCII
  (the only quoted text is `expected` of `InvalidStreamId`, which the decoder fills with constants); `ShowM.v` has them for
  the reasons of connection statuses, with the Unicode tables as a parameter, and C96 says that the two agree on printable ASCII.
* The other derives (`Clone` but that of the machine, `Copy`, `Eq`; `Debug` of `Timeout`), `prelude.rs`, `macros/`, `types.rs` (traits nothing implements),
  `test_helpers.rs`, `lib.rs`: no behaviour of their own.
* `rsocket.rs` (a trait and a dummy whose methods are all `unimplemented!()`, used by nothing).  The three methods of
  `RSocketMachine` that are `unimplemented!()` are one action of `SocketM.v`; the thread that calls one stops there.  In `ReviveM.v` it may catch the panic and go on, and C115 says that it is then
  as good as another thread.
* The backtrace of a panic, and the messages of panics in `core`, `std` and `bytes` (index out of bounds, the assertions of `Buf` and `BufMut`) and of the unimplemented request methods; the messages of the crate's own assertions are in `MessageM.v`.
* `log::error!` is an effect carrying the text; whether a logger prints it is not modelled.

### Facts about the code found on the way

* C10: the flag constants are one bit below the positions drawn in the comments of the same file and of the protocol.
* C54: the 3-byte metadata length is written and expected even when the METADATA flag is not set.
* C45: the conversion of a MIME type to a string calls itself and never returns.
* C76: `PayloadChunks` overrides `len` but not `size_hint`, so `chunks(n).take(m).len()` panics for every `m > 0`.
* C47: REJECTED is described as CONNECTION_ERROR.
* C03: an extension frame (type 0x3F) makes the decoder panic.
* C25, C33: the number of chunks goes through `f32`: it is exact up to 2^24 bytes, and can be wrong beyond (C58 bounds by how much) or for parts that are
  all empty, and then the last fragment of a request is marked as followed by another.
* C30: `BufList::chunks_vectored` skips bytes when `T` has several chunks and the default `chunks_vectored`.
* C89: `BufList::remaining` adds up the lengths of buffers that may share their bytes: past 2^w the sum panics in debug builds and wraps in release builds (four times the same GiB look empty where `usize` has 32 bits).
* C91: all fragments of a request are REQUEST_FNF frames, where the protocol has PAYLOAD frames after the first: a receiver that follows the protocol never gets a payload that was split.  (No machine made by `new` splits payloads, C69.)
* C90: the two tasks of a machine own clones of it, so dropping all machines neither closes nor drops the connection; the listener keeps it for as long as its status streams have items.
* C49: the SETUP builder accepts MIME types of 256 bytes, whose length is written modulo 256.
* C98: so `to_bytes` of a SETUP frame without a token does not have the documented capacity, and takes a second block.
* C99: nothing checks that PAYLOAD has COMPLETE or NEXT, that keepalive times are not 0, that error codes fit their stream when a frame is made, or that the token of RESUME is short enough; the decoder accepts a request_n of 0; LEASE numbers are not masked in release builds.
* C100: half of the application error codes cannot be put in an ERROR frame.
* C09: the length of a SETUP frame always counts the two bytes of the token length.  A sender that announces frames by `Frame::len` spoils the frame after such a SETUP frame (C103).
* `RESUME` tokens longer than 65535 bytes are written with their length modulo 2^16 (C01: such a frame does not fit the wire).
* C42: `keepalive_last_received` is copied by the watchdog and never written, so arrivals of frames cannot delay the timeout.
* C81: `RequestCounter` wraps: outstanding permits beyond 2^31 - 1 are lost, and `dec` below -2^31 succeeds again.
* C82: no frame with a payload section is written as the protocol draws it, nor read from that form; of the others the
  KEEPALIVE frame with RESPOND is neither, and METADATA_PUSH and LEASE with metadata are only read.
* C85: a decode that answers `InComplete` has already consumed the header if it was there, so it must be given a copy of the buffer; trying again on the
  same buffer can deliver a frame hidden in the payload of the first.
* C84: a frame whose last part has no length (all but four kinds) is delivered as soon as its fixed part is there, cut short.
* C79: the status listener asks for a new status stream each turn, so once the connection is closed it logs so for ever, without waiting.
* C104: each turn of the listener asks for a new stream, whose first status is documented to be there at once, so its task is never pending: it holds a worker of the runtime for ever.  On a runtime with one worker (the only kind the enabled features of `tokio`, `rt` and `sync`, provide) the watchdog and all tasks of the user starve.
* `chunk_payload` is never set by the code: fragmentation is modelled for any value it could have.

## Wrong programs

`seeded/LOG.jsonl` lists the edits made to a copy of the model to see whether the theorems notice, one per line: hand-written ones aimed at a claim (`m1`-`m3`, `m5`-)
and ones produced mechanically all over the model (`m4`: comparisons, literals, field names, flags, widths, branches).  `failed` are
the theorems whose proof no longer goes through, directly or because a lemma below it broke; `first_broken_proofs` are those that
broke first.  Where nothing that expresses the claim failed, `tightened` names the theorem that was added or strengthened.
