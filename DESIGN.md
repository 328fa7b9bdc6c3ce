# Formal model of r53 in Rocq (Coq 8.16.1)

English statements are in properties.jsonl, machine-readable status in MANIFEST.json.  (This file is written by
tools/gen_design.py from tools/design_head.md, MANIFEST.json and tools/notes.json.)

## Layout (rocq/theories)

* `Base.v`      result type (`Ok | Err | Panic | Hang`), state monad, list/byte helpers.
* `*Model.v`    executable Gallina models, no proofs; every definition cites the file and lines of /repo it models.
* `Spec*.v`     small specifications that do not use the models' helpers: labels, wire relation, canonical order, presentation
                grammar, buffers as logs, record layout, section grouping, maps, red-black trees, histories.
* `*Proofs*.v`, `TreePure*.v`, `*Lemmas.v`, `PermTac.v`   lemmas and proofs.
* `ExtInstance.v`  a concrete instance of the foreign functions (see below), used for non-vacuity examples.
* `Prop*.v`     only the property theorems `Cnn_...`, each closed by `exact`, followed by `Print Assumptions` and by `Example`s that
                show a concrete, non-trivial case meeting the hypotheses.

`_partial` marks a theorem that proves only part of its property, `_refuted` a theorem that exhibits inputs on which the model of the
code violates the property as stated (the code has a bug there, or the natural expectation is wrong).

## Trusted base

* The Coq 8.16.1 kernel, including its virtual machine (`vm_compute` is used in examples, refutations and finite sweeps).
* `Print Assumptions` after every property theorem prints "Closed under the global context": no axioms.  `vcheck` lists seven
  `Coq.ssr.ssrunder.Under_rel.*` constants as library axioms: they are module parameters inside Coq's own ssreflect support
  library, loaded with `lia`/`ssreflect` dependencies; no theorem rests on them.
* No axioms, functors, module types, `Admitted`, `Unset Guard Checking` or plugins.
* The reading of the Rust source into Gallina (the model).  `tools/cites.py` prints every definition next to the lines it cites,
  `tools/uncited.py` lists the functions of /repo that no definition cites.
* The English reading of the specifications in `Spec*.v`.

## Modelling conventions

* `u8/u16/u32` are `N` with explicit range predicates and explicit truncation (`as_u8`, `as_u16`, `as_u32`); `usize` is `nat`
  (unbounded; subtraction below zero is `Panic`). Overflow of usize additions with caller-supplied arguments (split, parent, read_bytes,
  skip, write_u16_at) is modelled separately in `UsizeModel.v`, for 16/32/64-bit targets and both build modes; all other usize sums are
  bounded by the size of objects in memory, so they cannot overflow.
* `&mut self` functions return the new state, also on failure (`M S A := S -> res A * S`), so what a failed write leaves behind is
  visible to the caller.
* `anyhow` errors are the single value `Err`; their messages are not modelled.  `panic!`, `assert!`, `unwrap`, `expect`, index or slice
  out of range, arithmetic overflow and (in the tree) dereferencing a null, freed or never allocated pointer are `Panic`.
* Loops are structural where possible; otherwise they take explicit fuel, running out of it is `Hang`, and the theorems prove that it does not
  happen (or, where it does, that it happens for every fuel: C60_hang_any_fuel).
* Where a reachable state can overflow, the build mode is a parameter `md` (`Debug` = panic, `Release` = wrap); elsewhere overflow is
  `Panic` and proved unreachable.
* Strings are their UTF-8 octets.

## What is modelled

* src/util: input_buffer, output_buffer, hex, string_buffer.
* src/name.rs, label_slice.rs, label_sequence.rs: all functions except accessors of Name and LabelSequence that return a field.
* src/message_render.rs: all of it (hash table, packed items, comparison through pointers in the output).
* src/header.rs, header_flag.rs, opcode.rs, rcode.rs, rr_class.rs, rr_type.rs, question.rs.
* src/rdata.rs, rdatas.rs, rdatafield/*: the derive macro rdata-derive/src/expand.rs generates straight-line code from field
  attributes; it is modelled as an interpreter over the table of (codec, display) attributes of every struct.
* src/rrset.rs, response.rs, request.rs, notify.rs, edns.rs, response_builder.rs, response_iter.rs.
* src/domaintree/*: flag, node, node_chain, tree with a memory of nodes.  Addresses are never reused (a freed node that is touched
  again is `Panic`, so reuse cannot hide anything).  Callbacks of find_node_ext are pure functions.
* src/rand_name_generator.rs over an arbitrary stream of random draws.
* Display of all types, including messages (DisplayModel.v), `DomainTree::dump` and search chains (DumpModel.v).

## What is not modelled, or only through a contract

* Code of other crates, as fields of the record `ext` (TextModel.v): std's Ipv4Addr/Ipv6Addr parsing and printing, base64,
  time's calendar.  Theorems that need their behaviour assume the contract `ext_ok` (SpecText.v: printing yields white-space-free ASCII
  and parsing inverts printing); ExtInstance.v proves that a concrete instance satisfies it.  In that instance the IPv4/IPv6 parser and
  printer are those of std (StdNet.v, written from library/core/src/net/parser.rs and ip_addr.rs; that source is not in /repo), base64 is RFC 4648
  and the calendar is the proleptic Gregorian one.
* `slice::sort_unstable`: any function meeting the contract `sorts` (SpecEq.v: returns a permutation, sorted by the element order).
* `str::to_uppercase` is modelled for ASCII letters and for every other Unicode character whose upper-case form is ASCII (U+017F long s, U+0131 dotless i, sharp s, the ligatures U+FB00-FB06); all other characters are left alone, which is indistinguishable because the result is only compared with ASCII mnemonics.
* `rand`: arbitrary values.  `Hasher`: the bytes fed to it.
* Not modelled: examples/dig.rs, the fuzz target, syn's parsing of source text into the derive input (MacroModel.v starts from
  fields, attributes and tokens), rustc beyond the name and type checks of the emitted code, trivial field accessors and re-exports, allocation failure, the Debug formatting.
* Undefined behaviour other than invalid dereference/double free (aliasing rules of raw pointers and `&mut`) is not modelled.

## Per property: what is modelled, how it is proved, status

| id | title | modelled | method | status | theorems |
|----|----|----|----|----|----|
| C01 | Name::from_wire is total on arbitrary bytes | Name::from_wire as a fuelled loop over InputBuffer | fuel measure 2*pos + 259: pointers strictly decrease, labels add up to at most 255; no index out of range by an invariant on the loop state | proved | C01_from_wire_total |
| C02 | Name::from_wire decodes exactly the RFC 1035 wire format | same | soundness and completeness against the inductive wire relation of SpecName (RFC 1035 4.1.4) | proved | C02_from_wire_exact |
| C03 | Names obtained from the API are well formed | every public constructor and transformation of Name | induction over a syntax of API calls (SpecApi); each operation preserves well-formedness | partial | C03_api_names_well_formed_partial, C03_refuted_text, C03_refuted_relative, C03_refuted_nul |
| C04 | Uncompressed wire round trip of names | Name::from_wire | the wire relation holds of the raw bytes at any place | proved | C04_raw_round_trip |
| C05 | Name compression is transparent | MessageRender with hash table, packed items, the shared cursor of find_offset | invariant: every table entry denotes a name in the output; induction over any sequence of writes | proved | C05_names_decode, C05_payload_kept, C05_no_panic |
| C06 | Name equality is case-insensitive label equality | PartialEq for Name | both while loops refined to label lists | proved | C06_eq_is_case_insensitive, C06_eq_equivalence |
| C07 | Hash agrees with equality | Hash for Name (bytes fed to the hasher) | as C06 | proved | C07_hash_agrees_with_eq |
| C08 | Ord on Name is a total order consistent with Eq | Ord for Name, i8 arithmetic in both build modes | refinement to lexicographic order of reversed lower-cased label lists | partial | C08_cmp_is_canonical_order_partial, C08_canonical_order_total, C08_refuted, C08_cmp_exact_partial, C08_equal_partial, C08_calm_partial, C08_debug_partial, C08_signed_total, C08_antisymmetry_refuted |
| C09 | get_relation classifies names correctly | LabelSlice::compare | refinement to the number of common trailing labels | partial | C09_get_relation_partial, C09_common_labels_spec, C09_refuted_debug, C09_debug_exact_partial, C09_calm_partial |
| C10 | is_subdomain means label-suffix | is_subdomain | exact characterisation: byte suffix that need not start at a label | partial | C10_is_subdomain_complete_partial, C10_is_subdomain_exact_partial, C10_refuted |
| C11 | concat joins labels | concat_all, concat | refinement to ++ on label lists | proved | C11_concat_all, C11_concat, C11_empty_list_panics |
| C12 | split / parent / strip / into_* select the right labels | split, parent, strip_*, into_* | refinement to firstn/skipn on label lists | partial | C12_split, C12_parent, C12_parent_debug_partial, C12_parent_refuted, C12_strip_left, C12_into_ancestor, C12_strip_right, C12_into_child, C12_cut_and_concat, C12_split_usize_partial, C12_split_usize_refuted, C12_parent_usize |
| C13 | reverse reverses labels and is an involution | reverse | refinement to rev | proved | C13_reverse, C13_reverse_involutive |
| C14 | as_lowercase is a canonical form | as_lowercase | refinement to map lower | proved | C14_as_lowercase, C14_canonical_form |
| C15 | is_wildcard / is_root / label_count describe the labels | is_wildcard, is_root, label_count, len | case analysis on labels | proved | C15_predicates |
| C16 | Name::new never panics | string_parse state machine | invariant of the machine, at most 6 passes per character | proved | C16_new_never_panics, C16_label_sequence_never_panics |
| C17 | Name::new implements the presentation grammar | string_parse | simulation of the grammar of SpecName | partial | C17_grammar_partial, C17_refuted, C17_escapes_exact_partial |
| C18 | Display and parse of names round trip | Display for LabelSlice, string_parse | exact text of Display for every name; round trip for names without escapes | partial | C18_round_trip_exact_partial, C18_display_parse_round_trip_partial, C18_display_text, C18_refuted |
| C19 | Textual output is valid ASCII/UTF-8 | Display, string_to_str, to_hex | every emitted byte is below 128 | proved | C19_name_display_ascii, C19_string_ascii, C19_hex_ascii |
| C20 | LabelSequence split/concat_all partition a name | LabelSequence | refinement to label lists | partial | C20_from_name, C20_split, C20_concat_all_partial, C20_violations_are_errors, C20_no_panic, C20_refuted_empty, C20_split_usize_partial, C20_split_usize_refuted |
| C21 | Header wire round trip | Header::from_wire/to_wire | bit lemmas on 16-bit words | proved | C21_header_round_trip, C21_header_reencode, C21_header_decode |
| C22 | Header flags are independent | set/clear/is_flag_set, setted_flags | bit lemmas | proved | C22_set_flag, C22_flags_distinct, C22_setted_flags, C22_closed |
| C23 | RRType / RRClass / Opcode / Rcode numeric codes round trip | code tables | case analysis, for all u16 | proved | C23_type_code, C23_type_of_code, C23_type_iana, C23_class_code, C23_class_of_code, C23_class_iana, C23_opcode, C23_rcode |
| C24 | Mnemonics round trip | mnemonics in any letter case | table injectivity | partial | C24_type_text_partial, C24_cert_refuted, C24_class_text, C24_rcode_text, C24_type_accepts, C24_class_accepts, C24_rcode_accepts, C24_type_only_ascii_partial, C24_long_s_refuted |
| C25 | Response::from_wire is total on arbitrary bytes | Response/Request::from_wire with all sub-decoders | safety predicate composed through the monad | proved | C25_response_total, C25_request_total |
| C26 | RData wire round trip | RData::to_wire, from_wire through field schemas | codec composition over any message context | proved | C26_rdata_round_trip, C26_rdata_write_safe |
| C27 | RData::from_wire enforces RDLENGTH | RData::from_wire | length accounting through the fields | proved | C27_exact_length, C27_total |
| C28 | Message wire round trip | Response::to_wire, from_wire | composition of C05 and C26 | proved | C28_round_trip |
| C29 | Re-encoding a decoded message is lossless | same | decoded responses are consistent, then C28 | proved | C29_reencode |
| C30 | Truncation contract | to_wire with failing writes, truncate | all outcomes enumerated | proved | C30_outcome |
| C31 | Response::to_wire never panics | same | size arithmetic: the panic window | partial | C31_panic_window_partial, C31_refuted |
| C32 | Section decoding groups records faithfully | Section::from_wire | grouping specification by induction over records | partial | C32_sections_partial, C32_refuted |
| C33 | OPT records are only accepted in the additional section, once | same | exact acceptance condition | partial | C33_accepted_partial, C33_opt_in_answer_refuted, C33_two_opts_refuted |
| C34 | Requests round trip and reject non-queries | Request | as C28 | partial | C34_round_trip, C34_decoded_partial, C34_refuted |
| C35 | EDNS conversion round trip | Edns | bit lemmas | proved | C35_rrset_round_trip, C35_same_wire, C35_wire |
| C36 | EDNS set through the builder is visible | ResponseBuilder::edns, get_edns | induction over builder programs | partial | C36_visible_partial, C36_exact_partial, C36_twice_refuted, C36_hidden_refuted |
| C37 | ResponseBuilder::done makes counts consistent | ResponseBuilder | induction over builder programs | proved | C37_counts, C37_consistent |
| C38 | add_rrset never creates two rrsets with one owner and type | add_rrset | uniqueness invariant over histories | proved | C38_add, C38_unique, C38_history |
| C39 | Response iterator is a double-ended queue over all rrsets | ResponseIter | refinement to a deque | proved | C39_deque |
| C40 | Iterator length is exact | size_hint | induction over next calls | partial | C40_front_partial, C40_exact_partial, C40_back_refuted |
| C41 | RRset equality is an equivalence that ignores order | PartialEq for RRset, any sort_unstable | permutation reasoning from the contract of sorting | partial | C41_small_partial, C41_large_partial, C41_small_exact_partial, C41_complete_partial, C41_refuted |
| C42 | Hex codec | from_hex, to_hex | list induction | proved | C42_round_trip, C42_from_hex, C42_from_hex_none |
| C43 | Character-string codec | read_char_string, read_text, string_to_str | grammar relation | proved | C43_string_accepts, C43_string_sound, C43_string_total, C43_string_round_trip, C43_text_iff, C43_text_total, C43_text_round_trip, C43_empty_refused, C43_trailing_space_refused |
| C44 | String tokenizer | StringBuffer::next | list induction | proved | C44_white, C44_next_words, C44_next_words_from, C44_words_exist_unique |
| C45 | InputBuffer never reads out of bounds | InputBuffer | operation sequences | partial | C45_reads_exact, C45_cursor_stays_inside, C45_usize_partial, C45_usize_refuted |
| C46 | OutputBuffer is an append-only bounded log | OutputBuffer | operation sequences against an abstract log | partial | C46_bounded_log, C46_usize_partial, C46_skip_usize_refuted, C46_at16_usize_refuted |
| C47 | DomainTree behaves as a map from names to values | DomainTree with raw pointers in a memory | separation of the pointer structure from a functional tree (TreeProofs), BST order on labels, abstract map over histories | partial | C47_ascii_no_overflow, C47_high_no_overflow, C47_find_latest_partial, C47_insert_returns_previous_partial, C47_debug_any_find_partial, C47_debug_any_insert_partial, C47_keys, C47_nonascii_release_refuted, C47_nonascii_debug_refuted |
| C48 | DomainTree::find returns the closest enclosing node | find | search in the functional tree | partial | C48_closest_partial, C48_inserted_ancestors_found_partial, C48_debug_any_closest_partial, C48_debug_any_inserted_partial, C48_nonascii_refuted |
| C49 | DomainTree::remove deletes exactly the named entry | remove | as C47 | partial | C49_exact_partial, C49_closest_partial, C49_debug_any_exact_partial, C49_debug_any_closest_partial, C49_absent_name_refuted |
| C50 | DomainTree stays balanced | insert/remove with both fixups and rotations | red-black invariant through the pointer code, height bound | proved | C50_balanced |
| C51 | DomainTree::len counts nodes | len | counting over histories | partial | C51_len_partial, C51_len_at_least_partial, C51_clear_exact_partial, C51_clear_refuted |
| C52 | DomainTree::clone is an independent equal copy | clone | copy lemma on the memory | partial | C52_clone_partial, C52_debug_any_partial, C52_exact_partial, C52_debug_any_exact_partial, C52_lost_entries_refuted, C52_remove_from_clone_refuted |
| C53 | DomainTree pointer structure is sound | all pointer operations | no step of a reachable history dereferences null/freed memory; links and flags consistent | proved | C53_safe, C53_any_names, C53_links, C53_debug_can_panic, C53_debug_panic_is_overflow, C53_debug_panic_needs, C53_builds_agree |
| C54 | NodeChain::get_absolute_name rebuilds the stored name | NodeChain | chain invariant of find_loop | partial | C54_absolute_name_partial, C54_debug_any_partial, C54_without_pop_refuted, C54_nul_refuted |
| C55 | find_node_ext invokes the callback on every enabled proper ancestor | find_node_ext | callbacks compared with the list of proper ancestors | partial | C55_callbacks_partial, C55_debug_any_partial, C55_nul_refuted |
| C56 | RandNameGenerator always yields a valid name | RandNameGenerator over any stream of draws | loop invariant | proved | C56_random_name |
| C57 | Decimal numbers in text round trip | Display/FromStr of unsigned integers | induction on digits | proved | C57_round_trip_u8, C57_round_trip_u16, C57_round_trip_u32, C57_printed, C57_accepts, C57_refuses |
| C58 | RRset text round trip | Display/FromStr of RRset | field-wise round trip with tokenizer | partial | C58_every_rrset_partial, C58_exact_partial, C58_rrset_text_partial, C58_refuted |
| C59 | from_strs only merges records of one rrset | from_strs | exact characterisation | partial | C59_from_strs_partial, C59_same_owner_class_refuted |
| C60 | reset and truncate leave a usable renderer | reset, truncate | reset equals new; refutation for truncate | partial | C60_any_calls_no_panic_partial, C60_any_calls_reset_partial, C60_any_calls_plain_name_partial, C60_reset_is_fresh_partial, C60_truncate_partial, C60_truncate_names_partial, C60_truncate_refuted, C60_truncate_refuted_hang, C60_truncate_refuted_corrupt, C60_hang_any_fuel |
| C61 | A name that fits is written | write_name | liveness: search cannot fail without hash collisions | partial | C61_fitting_name_written_partial, C61_hash_collision_refuted |
| C62 | Record data is laid out as the RFCs say | RData::to_wire | layout relation per field | proved | C62_layout |
| C63 | Rendering does not depend on spare room | Response::to_wire | two runs in lock step | proved | C63_capacity_independent |
| C64 | A response that fits is rendered completely | same | size bound without compression + C61 | partial | C64_fits_partial, C64_refuted |
| C65 | Notify messages decode to what they announce | NotifyRequest | as C28 | proved | C65_decode, C65_round_trip, C65_notify, C65_fits |
| C66 | Parsing text never panics | RRset/RData::from_str | safety predicate; all panics located | partial | C66_str, C66_white, C66_rrset_from_str_ascii_partial, C66_rrset_from_str_panics_partial, C66_rdata_from_str_partial, C66_rrset_from_str_exact_partial, C66_rdata_from_str_exact_partial, C66_rrset_from_strs_exact_partial, C66_rrset_from_strs_ends, C66_time_field_partial, C66_rrsig_time_refuted, C66_blank_debug_refuted |
| C67 | Display of records never panics | Display of RRset | totality | proved | C67_display_total |
| C68 | Dropping a DomainTree frees every node once | Drop/clear | frees each node once | partial | C68_drop_frees_all_partial, C68_drop_frees_reachable_partial, C68_remove_leaks_refuted |
| C69 | Printing a message never panics | Display of messages and parts (DisplayModel) | totality of each part, decoded messages are consistent (C32) | proved | C69_decoded_response, C69_decoded_request, C69_response, C69_request, C69_notify |
| C70 | Printed names are unambiguous | Display for LabelSlice | the escape code is a prefix code; unescaped dots separate labels | proved | C70_name_text_unambiguous |
| C71 | Printed headers and EDNS lines are unambiguous | Display for Header and Edns | delimiters do not occur in the fields; decimal text is injective; flag bits from the flag list | proved | C71_header_text_unambiguous, C71_edns_text_unambiguous |
| C72 | A printed message shows every record | Display for Response, RRset::from_str | C58 lifted over sections | partial | C72_message_text_partial, C72_header_text, C72_question_text, C72_request_text, C72_every_message_partial, C72_title_line_refuted |
| C73 | Printed messages are unambiguous | Display for Response and Request | C70-C72 and unique line splitting; records determine the grouping into rrsets | partial | C73_response_text_unambiguous_partial, C73_request_text_unambiguous_partial, C73_refuted, C73_exact_partial |
| C74 | Node values and flags are independent | DomainTree on an explicit heap (TreeModel), view of a node (SpecHist2) | the abstract entry table of C47: each setter replaces one entry; view reads the table | partial | C74_setters_partial, C74_insert_flags_partial, C74_debug_any_setters_partial, C74_debug_any_insert_partial, C74_non_ascii_refuted |
| C75 | Handles of valued nodes stay valid | as C74; leaves = the calls that do not touch a name | induction over the later history with the table step of each call | partial | C75_handles_partial, C75_debug_any_partial, C75_valueless_refuted |
| C76 | Message constructors make well-formed queries | request_new, response_with_question (MsgModel) | exact bytes of header and question, decoder on those bytes | proved | C76_request, C76_response, C76_response_wire |
| C77 | NotifyResponse is a decodable answer to its NOTIFY | notify_response_new, notify_response_to_wire (MsgModel) | exact bytes of header and question; a section decoder started at the end of the bytes fails | partial | C77_fields, C77_decodes_partial, C77_soa_refuted |
| C78 | Builder setters: the last write wins and nothing else changes | bop_call, build over MsgModel's builder functions | induction over the calls | proved | C78_remove_mut, C78_remove_mut_total, C78_remove_mut_pure, C78_last_write, C78_remove, C78_clear_with |
| C79 | Builder programs survive the wire | as C78, with C28's encoder and decoder | invariant of builder programs (every section unique and in range once empty sections are dropped), then C28 | partial | C79_round_trip_partial, C79_tidy_partial, C79_refuted |
| C80 | Header::clear blanks a header | header_clear (CodesModel) | computation | partial | C80_clear_partial, C80_refuted |
| C81 | Text that parses is in range | rrset_from_str, rrset_from_strs (TextModel) | postconditions of every token reader over text whose octets satisfy a predicate | partial | C81_one_partial, C81_many_partial, C81_exact_partial, C81_many_exact_partial, C81_name_partial, C81_owner_refuted, C81_salt_refuted |
| C82 | response_builder::build makes the message its arguments describe | build_response (CtorModel) | reduction to a builder program, C37, C28, C81 | partial | C82_program, C82_head, C82_edns_partial, C82_round_trip_partial, C82_refuted |
| C83 | Label sequences compare like names | seq_equals, seq_cmp (NameModel) | reduction of the comparison loop to a function on lists of labels | partial | C83_equals, C83_order_partial, C83_calm_partial, C83_exact_partial, C83_refuted |
| C84 | RData order is total and agrees with equality | rdata_eq, rdata_cmp (EqModel) | order-preserving keys, lexicographic order laws | partial | C84_eq, C84_order_partial, C84_refuted |
| C85 | RRType order agrees with equality | rrtype_cmp, rrtype_eqb (CodesModel) | type_ok inversion | partial | C85_order_partial, C85_refuted |
| C86 | A label slice shows exactly the labels that stripping left | SliceModel.v on top of NameModel.v (label_slice.rs in full); SpecSlice.v describes slices by lists of labels. | invariant: the slice's window is a window of the label list; induction over the strip history. | proved | C86_views, C86_equals, C86_source |
| C87 | Comparing label slices gives order, relation and common labels | sl_compare of NameModel.v in both arithmetics and both case modes. | refinement of the loop to a comparison of label lists; SpecSlice.slice_order states the outcome. | partial | C87_compare_exact_partial, C87_ascii_partial, C87_common_tail_spec, C87_refuted |
| C88 | The text form of a label sequence | seq_display of SliceModel.v, seq_from_str of NameModel.v; SpecEsc.v/SpecSlice.v give the reading rule. | from the exact theorem on string_parse (C17). | partial | C88_display_partial, C88_from_str, C88_round_trip_exact_partial, C88_refuted |
| C89 | Printing a tree or a search chain shows what is stored | DumpModel.v (the octets printed are returned; printing to stdout is assumed not to fail); SpecDump.v and SpecChain.v give the text as a function of the picture of the memory. | induction over the picture; every pointer of the chain is shown to be a node of the tree by an invariant of the search loop. | proved | C89_dump, C89_chain_display, C89_any_chain_display |
| C90 | The last comparison of a search names the neighbour of the name searched | find_loop of TreeModel.v; SpecLast.v states the result in terms of the entries of the tree and the order of names. | zipper invariant of the search loop: everything left of the path is before the name, everything right of it after. | partial | C90_neighbour_partial, C90_callbacks_partial, C90_debug_any_partial, C90_nonascii_refuted |
| C91 | NodeChain is a stack of at most 128 nodes | chain_* of TreeModel.v; SpecChain.v runs the same calls on a list. | simulation by a list, induction over the calls. | proved | C91_stack, C91_pop_returns_top |
| C92 | A decoded message does not depend on the octets after it | response_from_buf/request_from_buf of MsgModel.v with the position where they stop; SpecLocal.v: agreement of two octet sequences up to an index. | a locality predicate on readers, closed under bind, down to names (a name reads at most 256 octets from any backward target). | partial | C92_response_trailing, C92_request_trailing, C92_response_window_partial, C92_request_window_partial, C92_refuted |
| C93 | Decoding cannot amplify | MsgModel.v; plain_size and all_records of SpecMsg.v. | from the exact grammar of accepted messages (C32): every name takes 1 octet (root) or at least 2 for at most 255. | proved | C93_ratio, C93_counts |
| C94 | Compression never lengthens | RenderModel.v, MsgModel.v; SpecBuf.v histories; plain_size of SpecMsg.v. | invariant of the compression table; size bounds composed along the encoder. | proved | C94_name, C94_response |
| C95 | Derived rdata structs round-trip exactly when open-ended fields come last | DeriveModel.v: the generated code as a function of the list of codecs; C95_instances identifies the 22 structs of RDataModel.v as instances. | induction over the list of codecs, from the field lemmas used for C26/C27; for the converse, the field behind an open-ended one always decodes as empty. | proved | C95_round_trip, C95_necessary, C95_total_exact, C95_uncompressed, C95_instances |
| C96 | Decoding a name takes bounded work | fw_loop of NameModel.v with an explicit number of passes. | a measure that every pass decreases; induction along the chain for the lower bound. | proved | C96_bound, C96_constant, C96_chain |
| C97 | Parsed text is printed in a normal form | TextModel.v (rrset_from_str, rrset_from_strs, rrset_display) with the external parsers as a parameter. | an invariant of everything the text decoder can return (TextProofs8.v) shows that the hypotheses of C58 hold, then C58 and C59. | partial | C97_one_line_partial, C97_lines_partial, C97_canonical_partial, C97_exact_partial, C97_refuted |
| C98 | A printed NOTIFY shows its zone and SOA | DisplayModel.v (notify_display) with TextModel.v (rrset_display). | explicit form of the SOA line; names and numbers contain no separators, so the text splits uniquely. | proved | C98_notify_text, C98_unambiguous |
| C99 | Messages are equal exactly if they say the same | MsgEqModel.v (derived comparisons) over EqModel.v; sort_unstable is a parameter with its contract. | composition of the exact results for rrsets (C41) and names (C06). | partial | C99_request, C99_notify_response, C99_response_partial, C99_notify_partial, C99_reflexive_partial, C99_equivalence_partial, C99_round_trip_partial, C99_refuted |
| C100 | Names are compressed as far as possible | RenderModel.v (write_name with its table, as it is). | completeness invariant over histories: every suffix written within reach has an entry in its bucket, and every entry stands for a suffix written; the search takes the longest. | partial | C100_cheapest_partial, C100_low_partial, C100_shape_partial, C100_plain_exact, C100_plain, C100_bucket_refuted |
| C101 | Text code generated by derive(Rdata) for any struct | DeriveModel.v (derived_display, derived_from_str over an arbitrary list of (codec, display) attributes), TextModel.v | induction over the fields with the per-field round trip; a field read to the end leaves the buffer at its end, where every reader fails | proved | C101_round_trip, C101_necessary, C101_safe, C101_instances |
| C102 | Looking up, inserting or removing a name takes logarithmically many steps | TreeModel.v (find_loop, insert_loop, insert_fixup_loop, remove_loop, remove_fixup), SpecTreeWork.v | every level of a reached tree has height at most 2 log2 (nodes + 1) (C50's invariant); each descent strips at least one label of the target; induction on the passes; for insert: fuel monotonicity, and a split adds one node to a path of at most that height | proved | C102_bound, C102_find, C102_insert, C102_remove |
| C103 | Builder calls do not interfere with each other | MsgModel.v (builder methods), SpecBuild.v | frame lemmas for each call, induction on the sequence | proved | C103_settings, C103_sections |
| C104 | The derive macro accepts exactly the annotated structs, and what it emits does what the annotations say | MacroModel.v, DeriveModel.v, SpecMacro.v | inversion of the token parser; the emitted program as a function of the parsed fields; induction on the fields with the local environment as invariant; C95 for the round trip | proved | C104_accepts, C104_rejects, C104_ends, C104_compiles, C104_len, C104_buf, C104_runs, C104_round_trip, C104_source |
| C105 | Edns::rr_count is the number of records that Edns::to_wire writes | MsgModel.v (edns_to_wire, edns_rr_count), SpecAccess.v (records_at) | C35's exact octets; decoding advances, so the number of records between two positions is unique | partial | C105_one_record, C105_count_partial, C105_decoded_partial, C105_options_refuted |
| C106 | Writing through FindResult::get_value_mut changes exactly the value found | FindMutModel.v, TreeModel.v, SpecFindMut.v, SpecHist2.v | the find specification (C48) and the invariant of the memory picture (C53) with the store of the found node | partial | C106_write_through_partial, C106_debug_any_partial, C106_shared_refuted |
| C107 | Time-to-live values survive text and wire form | AccessModel.v | C57 lemmas; logs_u32 (C36 machinery) and decodes_u32 | proved | C107_text_round_trip, C107_accepts, C107_no_trap, C107_wire |
| C108 | Buffers can be refilled and drained | AccessModel.v, TextModel.v, SpecAccess.v | induction on the calls and on the words | proved | C108_set_data, C108_is_empty, C108_words_then_left |
| C109 | Comparing handles of tree nodes | NodeModel.v, TreeModel.v, SpecNode.v | the memory invariant (C53) and the exact comparison of label sequences (C83) | partial | C109_cmp_exact, C109_siblings_partial, C109_names_refuted, C109_null_refuted, C109_order_refuted |
| C110 | The node above a node is its closest stored ancestor | TreeModel.v (get_upper_node, subtree_root), SpecNode.v | the memory picture determines parent pointers and subtree-root flags; siblings differ in the label closest to the root | partial | C110_upper, C110_closest_partial, C110_closest_debug_partial, C110_release_refuted |
| C111 | The message decoders compute exactly what the octets say | MsgModel.v, SpecMsg.v, SpecExact.v | soundness and completeness of each decoder (C25-C33) and uniqueness of the cut into longest runs | proved | C111_header, C111_question, C111_record, C111_response, C111_response_error, C111_request, C111_request_error |
| C112 | A message can be rebuilt from its own printed text | DisplayModel.v, CtorModel.v, MsgModel.v, TextModel.v, SpecRebuild.v | display of each rrset as a block of lines that from_strs maps back (C58), add_rrset on distinct rrsets appends (C38), the header flags determine the flag word, then composition with C82 and C28 | partial | C112_rebuild_partial, C112_exact_partial, C112_built_partial, C112_text_wire_text_partial, C112_cert_refuted, C112_escape_refuted, C112_size_partial |
| C113 | Names in the record data of newer types are written without compression | RenderModel.v, RDataModel.v, SpecOpaque.v | the writes of a record's fields extend the history (C05); a field without a name appends its octets; a name that takes its full length was written without a pointer; name_step of C100 decides the length; lengths add up | partial | C113_no_names, C113_exact_partial, C113_refuted |
| C114 | Writing a name takes bounded work, whatever the message | RenderModel.v, SpecRenderWork.v (the same functions with a budget: one unit for every octet of the message looked at and every table item tried) | invariant over histories: every item of the table points at a run (induction over the history); amortised cost over the name buffer: every step is paid for by an octet of the name or by an item (at most 15 per bucket) | proved | C114_bound, C114_constant |
| C115 | Decoding a message takes bounded work | MsgModel.v, SpecDecodeWork.v (the same decoders with a budget) | every read consumes at least one octet for each price paid (a name pays at most 257 + 2 * min(n, 16384) and consumes at least one octet); composed along the decoders, induction over fields and sections | proved | C115_bound |
| C116 | Rendering a message takes work bounded by its names | MsgModel.v, SpecMsgWork.v (the same encoders with a budget), SpecRenderWork.v | C114's bound for a name, composed along the encoders with the invariant that every table entry points at a run of plain labels (kept by skipping and patching RDLENGTH); induction over fields, records and sections | proved | C116_response, C116_request, C116_notify, C116_notify_response, C116_price |
| C117 | A message rendered behind other octets | MsgModel.v, RenderModel.v | the invariant of histories without names composed with header and question; the decoders of C34 on the octets appended; refutations by computation | partial | C117_request_partial, C117_response_partial, C117_refuted, C117_truncated_refuted |
| C118 | Messages beyond 64 KiB | MsgModel.v, SpecBig.v | the rendering invariant of C28 with the bound on the buffer replaced by one on each record's data; for the refutation, every decoded record has at most 65535 octets of data (soundness of decoding), and C64 makes the rendering succeed | partial | C118_outcome_partial, C118_fits_partial, C118_decoded_partial, C118_refuted, C118_reencode_partial, C118_exact_partial |
| C119 | Old buffer contents never show in a message | RenderModel.v, MsgModel.v, SpecStale.v | two-run simulation of C63 in both directions, with the exact panic window of C31 and the explicit octets of a truncated message | proved | C119_response, C119_request, C119_notify, C119_calls, C119_skip_shows |
| C120 | A renderer can be reused for any number of messages | RenderModel.v, MsgModel.v, SpecAnyCalls.v, SpecReuse.v | a weak invariant of the renderer kept by every call and every encoder whatever its outcome (sizes of the tables and the buffer), enough for reset to give a new renderer; then C119 | proved | C120_response, C120_request, C120_reset |

## Notes on partial properties and behaviour of the code found on the way

* **C03** (Names obtained from the API are well formed): Proved for every finite composition of API calls with text that does not end in backslash-dot and truthful LabelSequence pieces. False in general of the code: C03_refuted_text (an escaped trailing dot gives a 256-byte name), C03_refuted_relative and C03_refuted_nul (LabelSequence::concat_all returns a Name without root label).
* **C08** (Ord on Name is a total order consistent with Eq): A total order, in both builds, on every set of labels without overflowing octets (C08_calm_partial with C08_signed_total; on ASCII it is RFC 4034's canonical order, C08_cmp_is_canonical_order_partial). A debug build answers that order or panics (C08_debug_partial). False in general: the i8 byte difference overflows (panic in debug, cyclic and not even antisymmetric order in release): C08_refuted, C08_antisymmetry_refuted. The exact outcome for arbitrary octets is C08_cmp_exact_partial; equality is right for all octets (C08_equal_partial).
* **C09** (get_relation classifies names correctly): Proved for all bytes in release arithmetic; in debug arithmetic for ASCII names and, more generally, for any set of labels no two of which overflow (C09_calm_partial); debug builds panic on some non-ASCII names (C09_refuted_debug); C09_debug_exact_partial says exactly when.
* **C10** (is_subdomain means label-suffix): If direction proved, exact behaviour characterised; the only-if direction is false of the code (C10_refuted: ab. is reported to be below b.).
* **C12** (split / parent / strip / into_* select the right labels): All operations proved for all arguments (split, parent, strip_*, concat...). False in two corners: in a debug build parent(level) with level > label_count panics instead of returning an error (C12_parent_refuted; in a release build it errors, C12_parent), and split(i, k) panics in both builds when i + k does not fit into a usize (C12_split_usize_refuted), e.g. split(1, usize::MAX).
* **C17** (Name::new implements the presentation grammar): Backslash-free grammar proved in both directions, as claimed. Escapes do not mean in the code what the claim says (C17_refuted); C17_escapes_exact_partial says for every text exactly which name or error it gives (reading rule in SpecEsc.v).
* **C18** (Display and parse of names round trip): Display specified for all names. The round trip holds for exactly those names none of whose characters needs an escape (C18_round_trip_exact_partial, an equivalence); for all others it fails (C18_refuted) because the parser mishandles escapes.
* **C20** (LabelSequence split/concat_all partition a name): split, partition/rebuild and all error cases proved for non-empty pieces whose is_absolute is truthful; the empty sequence panics (C20_refuted_empty) and a trailing NUL byte is mistaken for the root (C03_refuted_nul); split(i, k) with i + k above usize::MAX panics (C20_split_usize_refuted).
* **C24** (Mnemonics round trip): Proved for every named RRType except CERT, every named RRClass and every Rcode, in any letter case; RRType::CERT prints as URI (C24_cert_refuted). The accepted texts are characterised exactly (C24_*_accepts): the spellings of the IANA mnemonic, which because of Unicode upper-casing include a long s for S and a dotless i for I (C24_long_s_refuted), so 'only case variants' holds for ASCII texts.
* **C30** (Truncation contract): Every outcome for every buffer size; the panic is the subject of C31, C64 shows when rendering is complete.
* **C31** (Response::to_wire never panics): False of the code (C31_refuted): OutputBuffer::truncate(pos) refuses pos == len, so Response::truncate's unwrap panics. Proved: the panicking capacities are exactly an interval [head_size, head_size+k), k <= 255, k = 0 iff there are no records.
* **C32** (Section decoding groups records faithfully): All but the last clause proved for every accepted message (order, grouping, owner/class/TTL of the first record of each run, exactness when runs are uniform). TTL and class of later records of a run are dropped by the code (C32_refuted).
* **C33** (OPT records are only accepted in the additional section, once): Exact acceptance condition proved (iff). The code checks only the first record of answer/authority and adjacent OPT records: C33_opt_in_answer_refuted, C33_two_opts_refuted.
* **C34** (Requests round trip and reject non-queries): Round trip and exact outcome for every buffer proved; question and answer counts are enforced, the authority count is not (C34_refuted).
* **C36** (EDNS set through the builder is visible): Proved when no OPT rrset is in the additional section before and later calls leave that section alone, and exactly when get_edns sees which value is characterised (an equivalence) for all programs that do not take anything out of the additional section (C36_exact_partial). The full claim is false of the code: a second edns call keeps the first value (C36_twice_refuted); an rrset added to the additional section later hides the OPT record from get_edns (C36_hidden_refuted).
* **C37** (ResponseBuilder::done makes counts consistent): Counts for every builder program (C37_counts, sections below 65536 records); programs without remove_rrset_by/with_section callbacks give fully consistent responses (C37_consistent), for which C27-C34 describe the bytes of to_wire.
* **C40** (Iterator length is exact): What size_hint says and what is really left after any interleaving of next and next_back is proved exactly (C40_exact_partial): the hint counts what next has taken but not what next_back has, because it ignores back_index. So it is exact as long as only next is called (C40_front_partial) and false after a next_back (C40_back_refuted).
* **C41** (RRset equality is an equivalence that ignores order): Exact characterisation (equal iff same owner, type and multiset of data up to case of names) for < 4 rdatas when the left one has no duplicates, and for >= 4 rdatas whose names do not overflow the octet comparison, for every sorting function with the contract of sort_unstable; C41_small_exact_partial says what is decided below 4 rdatas in all cases. False with duplicates below 4 rdatas: not symmetric (C41_refuted).
* **C43** (Character-string codec): Exact grammar of accepted quoted strings, round trip for every content of 1..255 octets; the empty string and white space after the last string are refused (C43_empty_refused, C43_trailing_space_refused).
* **C45** (InputBuffer never reads out of bounds): C45_* are exact for unbounded arguments, C45_usize_partial for every usize argument whose end position fits into a usize; read_bytes(n) with pos + n above usize::MAX panics instead of failing (C45_usize_refuted).
* **C46** (OutputBuffer is an append-only bounded log): C46_* are exact for unbounded arguments, C46_usize_partial for every usize argument whose end position fits into a usize; near usize::MAX skip panics (debug) or succeeds and drops written bytes (release) (C46_skip_usize_refuted), and write_u16_at panics (C46_at16_usize_refuted).
* **C47** (DomainTree behaves as a map from names to values): Proved for all histories whose labels do not overflow the octet comparison (all ASCII labels, all labels over 128-255, and every mixed set without an overflowing pair; both builds), and for names of any octets in the debug build, where a call may instead panic in the overflow check (the _debug_any theorems). Outside that, false of the code: the release build loses entries (C47_nonascii_release_refuted), the debug build panics (C47_nonascii_debug_refuted), because siblings are ordered by an i8 difference.
* **C48** (DomainTree::find returns the closest enclosing node): Proved for all histories whose labels do not overflow the octet comparison (all ASCII labels, all labels over 128-255, and every mixed set without an overflowing pair; both builds), and for names of any octets in the debug build, where a call may instead panic in the overflow check (the _debug_any theorems). False of the release build when octets overflow (C48_nonascii_refuted).
* **C49** (DomainTree::remove deletes exactly the named entry): Proved for all histories whose labels do not overflow the octet comparison (all ASCII labels, all labels over 128-255, and every mixed set without an overflowing pair; both builds), and for names of any octets in the debug build, where a call may instead panic in the overflow check (the _debug_any theorems). Removing a name that has a node clears exactly its value; a name with no enclosing node changes nothing; C49_closest_partial says what happens in all cases. False of the code: removing an absent name below a stored one removes the stored one (C49_absent_name_refuted).
* **C51** (DomainTree::len counts nodes): Proved for all histories without clear (any names, both builds), as an upper bound for all, and exactly across clears (C51_clear_exact_partial): the count before a clear stays in len for good. The full claim is false of the code: clear does not reset len (C51_clear_refuted).
* **C52** (DomainTree::clone is an independent equal copy): Proved for all histories whose labels do not overflow the octet comparison (all ASCII labels, all labels over 128-255, and every mixed set without an overflowing pair; both builds), and for names of any octets in the debug build, where a call may instead panic in the overflow check (the _debug_any theorems). The original is intact, the clone agrees on NotFound and on exact matches it reports, and completely for trees of one node; what the copy contains is said exactly (C52_exact_partial: the topmost entry only). False of the code: entries below the top node are lost (C52_lost_entries_refuted), cloning an empty tree dereferences null, removing from a clone walks off the tree (C52_remove_from_clone_refuted).
* **C53** (DomainTree pointer structure is sound): Proved for all histories over all legal names, both builds: the release build completes every history and all links and flags are consistent after it (C53_any_names, C53_links). The debug build does the same or stops in the overflow check of the octet subtraction (C53_debug_panic_is_overflow: with that check made an error, no pointer, index or assertion fails; C53_debug_panic_needs says which labels it takes; C53_debug_can_panic that it happens).
* **C54** (NodeChain::get_absolute_name rebuilds the stored name): Proved for all histories whose labels do not overflow the octet comparison (all ASCII labels, all labels over 128-255, and every mixed set without an overflowing pair; both builds), and for names of any octets in the debug build, where a call may instead panic in the overflow check (the _debug_any theorems). Needs labels that do not end in NUL, and the found node popped off the chain as the code's own users do. False without the pop (labels appear twice, C54_without_pop_refuted) and for labels ending in NUL (panic, C54_nul_refuted).
* **C55** (find_node_ext invokes the callback on every enabled proper ancestor): Proved for every callback, for all histories whose labels do not overflow the octet comparison (all ASCII labels, all labels over 128-255, and every mixed set without an overflowing pair; both builds), and for names of any octets in the debug build, where a call may instead panic in the overflow check (the _debug_any theorems). Needs labels that do not end in NUL; with such a label it panics (C55_nul_refuted).
* **C58** (RRset text round trip): Proved for every rrset whose content text can carry (text_rrset: names of plain characters, types with a readable mnemonic, non-empty binaries and strings, quoted binaries up to 255 octets), with the exact line format, and for no other rrset (C58_exact_partial, an equivalence). False outside it: C58_refuted (empty salt, CERT, empty character string, unknown class print text that does not parse). The exact line of every other record in range is given by C58_every_rrset_partial.
* **C59** (from_strs only merges records of one rrset): Exact characterisation of from_strs proved for non-empty lists: only the types are compared. The rest of the claim is false: C59_same_owner_class_refuted (owner, class and ttl of later lines are ignored; an empty list panics).
* **C60** (reset and truncate leave a usable renderer): reset proved equal to a fresh renderer after every history, truncations included (C60_any_calls_reset_partial); after any calls whatever no call panics (C60_any_calls_no_panic_partial) and names written without compression are appended exactly (C60_any_calls_plain_name_partial); a truncate that cuts off no name leaves a renderer reachable without any truncation, and every later name that fits is written and decodes to itself (C60_truncate_partial, C60_truncate_names_partial). Missing because false of the code: a truncate that cuts off a name leaves stale offsets in the compression table, so later compressed writes can fail although there is room (C60_truncate_refuted), loop for ever (C60_truncate_refuted_hang) or succeed with octets that do not decode (C60_truncate_refuted_corrupt).
* **C61** (A name that fits is written): Proved when no two different names among those written (and their ancestors) share the 32-bit hash and the length; false otherwise (C61_hash_collision_refuted: after bafz. and three bagd., the fourth bagd. is refused at length 24 of 512).
* **C64** (A response that fits is rendered completely): Proved unless two different names (or ancestors) in the response share hash and length; refuted otherwise (C64_refuted: 122 octets truncated in a 512-octet buffer).
* **C66** (Parsing text never panics): Exact: for every text, C66_rrset_from_str_exact_partial (and the rdata and from_strs versions) say which lines panic - a blank text in debug builds, or an RRSIG line whose fields are in order up to a time of 14 bytes with a character across the end of a group of digits - and that no other text panics or loops; all ASCII text is safe (C66_rrset_from_str_ascii_partial). The full property is false: C66_rrsig_time_refuted, C66_blank_debug_refuted, and no lines at all (C59_same_owner_class_refuted).
* **C68** (Dropping a DomainTree frees every node once): Proved for all legal names and both builds: drop frees each node of the tree once and nothing else, and everything when no name was removed. False of the code in general: removed nodes are never freed (C68_remove_leaks_refuted).
* **C69** (Printing a message never panics): The functions of other crates that print addresses, base64 and times are a parameter.
* **C72** (A printed message shows every record): The exact text of every message in range, whatever its records, is given (C72_every_message_partial; header, EDNS, question and record lines in SpecShown.v/SpecDisplay.v); that each line reads back as its record is proved for the records that text can carry (C72_message_text_partial; for exactly these, see C58_exact_partial). Every part starting on its own line is false: with EDNS the question title is on the EDNS line (C72_title_line_refuted).
* **C73** (Printed messages are unambiguous): Proved injective for messages without OPT records, with named types and classes and records that text can carry; with OPT records C73_exact_partial says exactly (an equivalence) which messages share their text: those that differ at most in what of OPT records is not printed. False otherwise: unassigned types all print as Unknown and the extended rcode is not printed (C73_refuted).
* **C74** (Node values and flags are independent): Proved for all histories whose labels do not overflow the octet comparison (all ASCII labels, all labels over 128-255, and every mixed set without an overflowing pair; both builds), and for names of any octets in the debug build, where a call may instead panic in the overflow check (the _debug_any theorems). Refuted for the release build with overflowing octets, where an inserted node may not be found again (C74_non_ascii_refuted).
* **C75** (Handles of valued nodes stay valid): Proved for all histories whose labels do not overflow the octet comparison (all ASCII labels, all labels over 128-255, and every mixed set without an overflowing pair; both builds), and for names of any octets in the debug build, where a call may instead panic in the overflow check (the _debug_any theorems). Refuted for nodes without a value: deleting another name can take such a node out of the tree (it is then leaked, C68).
* **C77** (NotifyResponse is a decodable answer to its NOTIFY): Proved for NOTIFYs without SOA. Refuted with an SOA: the answer count 1 is taken over but no record is written, so the bytes never decode, for any zone, id, SOA and buffer.
* **C79** (Builder programs survive the wire): Proved without remove_rrset_by, and with it up to emptied sections. Refuted exactly there: remove_rrset_by leaves Some(vec![]), which decodes to None.
* **C80** (Header::clear blanks a header): Refuted for opcode and rcode: they keep their values and are still encoded. Everything else is proved.
* **C81** (Text that parses is in range): Exact: with nothing assumed about the text, a parsed rrset is in range if and only if every name in it has at most 255 octets and every length-prefixed binary at most 255 (C81_exact_partial, C81_many_exact_partial, C81_name_partial); text without backslash never gives a longer name (C81_one_partial). Refuted otherwise: an escaped final dot makes an owner of 256 octets, and a 256-octet NSEC3PARAM salt is accepted although its length octet cannot hold the length.
* **C82** (response_builder::build makes the message its arguments describe): Exact program, head and round trip proved for all texts whose names have at most 255 octets, whose hex fields fit their length octet and that are not OPT text (each proviso is needed, C81). Refuted: udp_size of 65536 or more is cut to 16 bits.
* **C83** (Label sequences compare like names): Equality proved for all sequences. Total order proved for all octets that do not overflow, canonical order for ASCII; exact behaviour (signed octets, overflow) proved for all octets; refuted: panic on octets whose signed difference overflows and on the empty sequence split can leave (debug builds).
* **C84** (RData order is total and agrees with equality): Equality proved in full; total order proved for names whose octets do not overflow. Refuted otherwise: three NS records in a cycle (release) and a panic (debug).
* **C85** (RRType order agrees with equality): Proved for types made by RRType::new or a mnemonic (all decoded and parsed types). Refuted: RRType::Unknown(1) compares Equal to RRType::A but is not == to it.
* **C86** (A label slice shows exactly the labels that stripping left): For all names and non-empty label sequences (those the API makes).
* **C87** (Comparing label slices gives order, relation and common labels): Count and relation proved for all octets (whenever compare returns); exact order and exact panic condition proved for all octets in both builds; canonical order proved for ASCII. Refuted in general: octets whose signed difference overflows make a debug build panic and a release build order two slices inconsistently.
* **C88** (The text form of a label sequence): Display proved for all non-empty sequences; from_str characterised exactly for all texts; the round trip proved to hold exactly if no character needs an escape (sequences that fit a name). Refuted otherwise: the relative sequence of the label "a." comes back absolute; Display of the empty sequence that split can leave panics.
* **C89** (Printing a tree or a search chain shows what is stored): For all octets and both builds. len() itself is C51.
* **C90** (The last comparison of a search names the neighbour of the name searched): Proved for all label sets without overflow (e.g. ASCII) in both builds and for all octets in debug builds whenever the search does not panic; with callbacks, for labels not ending in a NUL octet (cf. C54). Refuted in release builds for octets over 127 (8-bit differences are not an order).
* **C91** (NodeChain is a stack of at most 128 nodes): bottom on an empty chain does not panic: it returns whatever is in the first slot.
* **C92** (A decoded message does not depend on the octets after it): Appending octets never changes the result (proved), and octets from 256 behind the end of the message on never matter (proved). Refuted for the octets just behind the message: a compression pointer to the middle of a name may start a label that runs past the last record, so two datagrams with the same message but different trailers can decode differently.
* **C94** (Compression never lengthens): No hypothesis about hash collisions: a collision may make rendering fail (C61), but never makes a name longer.
* **C95** (Derived rdata structs round-trip exactly when open-ended fields come last): The eleven codecs of rdatafield, name_uncompressed included. The macro's token parsing (parser.rs) is not modelled.
* **C96** (Decoding a name takes bounded work): The while loop cut off after k passes (SpecWork.v) gives the same answer as the uninterrupted call for every k from the bound on.
* **C97** (Parsed text is printed in a normal form): Proved for rrsets whose names need no escaping and that neither are CERT nor sign CERT; among rrsets in range exactly these survive (C97_exact_partial). Missing because false of the code: printing and parsing a name with an escaped character doubles that character (a@b -> a@@b -> a@@@@b), and CERT is printed as URI, which is refused (C97_refuted).
* **C99** (Messages are equal exactly if they say the same): Requests and notify responses: in full. Responses and notify requests: exactly what == decides is proved. Missing because false of the code: classes are not compared, so responses whose EDNS records differ in UDP size, DO bit and extended rcode are equal (C99_refuted); repeated records in small rrsets and overflowing octets in large ones, as in C41.
* **C100** (Names are compressed as far as possible): Proved for every history in which no bucket of the table has received more than 15 names and no two different names collide in hash and length. Missing because false of the code: once 15 names fell into one of the 64 buckets further names of that bucket are never found again and are written in full each time (C100_bucket_refuted); a collision makes the lookup fail (C61).
* **C101** (Text code generated by derive(Rdata) for any struct): Values text can carry: in-range fields with names of plain characters, readable type mnemonics, non-empty binaries and strings, quoted strings of at most 255 octets (other values are C58's). External parsers through ext_ok.
* **C102** (Looking up, inserting or removing a name takes logarithmically many steps): find_node_ext_within / find_within (SpecTreeWork.v) give up after k passes of the loop.  C102_bound: giving up after the bound or later never changes the answer, for every callback; C102_find: the call without callback ends.  C102_insert: the same for insert (insert_within), whose search takes two passes more at most and whose repair loop at most 2 log2 (len+2) + 1.  C102_remove: remove (remove_within): at most 128 rounds, each with three walks of at most 2 log2 (len+1) passes.
* **C103** (Builder calls do not interfere with each other): final (SpecBuild.v) is the value left by the last call that sets something.  remove_rrset_by and with_section take pure functions.
* **C104** (The derive macro accepts exactly the annotated structs, and what it emits does what the annotations say): MacroModel.v models the parser over abstract tokens, the emitted statements, rustc's name and type check of them (only what the emitted code uses), and their execution with an environment of local variables.  Identifiers with non-ASCII letters are taken to be refused by Ident::new.  rustc's other checks (visibility, traits in scope) are not modelled.
* **C105** (Edns::rr_count is the number of records that Edns::to_wire writes): Proved: to_wire writes exactly one record always, hence rr_count is right exactly if options is None or holds one option; every decoded Edns is such.  Refuted for options = Some(k), k <> 1: rr_count answers k (it counts options, which to_wire drops).  The model keeps of the options only their number.
* **C106** (Writing through FindResult::get_value_mut changes exactly the value found): Proved for names whose labels cannot overflow in comparison (all ASCII) in both builds, and for all names in the build with overflow checks unless it panics.  Refuted: find and get_value_mut take shared references, so two results for one entry give two mutable references to the same value at once.
* **C107** (Time-to-live values survive text and wire form): str::parse::<u32> is modelled in TextModel.v (parse_uint).
* **C108** (Buffers can be refilled and drained): left_str is stated for valid UTF-8 (a &str).
* **C109** (Comparing handles of tree nodes): Proved: for any history, any names and either build cmp is exactly the comparison of the labels stored at the two nodes (relative to the node above), partial_cmp the same, == is identity of nodes; over labels that cannot overflow in comparison (all ASCII) the nodes of each level come in strictly increasing order.  Refuted: nodes of different levels compare by their relative labels only, so different nodes compare Equal (cmp not compatible with ==) and the order is not that of the names; a null handle is dereferenced; in the release build two siblings with octets over 127 can each be less than the other.
* **C110** (The node above a node is its closest stored ancestor): Proved for any history, any names, either build: get_upper_node is the node that the node hangs below, and the labels of the node and of the nodes above spell the entry's name; that this is the closest stored ancestor over labels that cannot overflow (both builds) and over all names in the build with overflow checks.  Refuted for the release build with octets over 127, where the ancestor may have been inserted elsewhere.
* **C111** (The message decoders compute exactly what the octets say): Both directions, and the refused inputs.  The relation is written over octets (header_at, question_at, rr_at, message_at, grouped) without the decoders; `acceptable` spells out the decoder's OPT and empty-rdata rules, which are laxer than the RFC (C33), and class and TTL of later records of a run are dropped (C32).
* **C112** (A message can be rebuilt from its own printed text): Proved for names without escapes and no CERT records, from decoded messages (C112_rebuild) and all the way from text to text (C112_text_wire_text); refuted for CERT (printed as URI, the line is then refused) and for names with escaped characters (the printed name parses to a longer one). C112_exact_partial: of all messages in range, exactly these are rebuilt (the printed lines given back to build make the message iff it is a text_message); C112_size_partial: with exactly one UDP size.
* **C113** (Names in the record data of newer types are written without compression): Proved for the types without names, after any history (C113_no_names). False of the code for all six later types that hold names (C113_refuted): every name field is written with compression switched on. C113_exact_partial says exactly when the octets are plain, for every type, given the provisos of C100 (no hash collision, no full bucket, message within the reach of pointers): if and only if no name in the data ends in a name already in the message or in an earlier name of the same data.
* **C114** (Writing a name takes bounded work, whatever the message): A table item always points at plain labels that end in the root or in one pointer to such a place (never a pointer to a pointer), so next_label follows at most one pointer. Truncation is excluded because it leaves items pointing at what was cut off: see C60_truncate_refuted_hang, C60_hang_any_fuel for the endless loop.
* **C115** (Decoding a message takes bounded work): The bound is quadratic in the length because the code is: C115_ex is a response of 1033 octets that takes more than ten steps per octet.
* **C116** (Rendering a message takes work bounded by its names): Writing an octet is free: the number of octets written is bounded by the message itself (C28).
* **C117** (A message rendered behind other octets): Proved for requests, and for responses without records, behind any calls that write no name. False for responses with records (C117_refuted): behind two octets compression pointers are off by two, and a truncated response has its identifier and question count overwritten (C117_truncated_refuted), since truncation patches octets 2, 6, 8 and 10 of the buffer.
* **C118** (Messages beyond 64 KiB): Proved for all responses whose records have data that RDLENGTH can count (65535 octets, names counted with one octet more than their own length), without any bound on the message or the buffer (C118_outcome_partial; the panic is C31's), and, without hash collisions, that such a response is written in full whenever it fits (C118_fits_partial). False otherwise (C118_refuted): any DNSKEY with a key of more than 65531 octets is reported as written, with RDLENGTH cut to 16 bits, while no octets at all decode to it (C118_decoded_partial). Decoding a message of at most 65000 octets, encoding into any buffer and decoding again gives the same response, or its head with TC (C118_reencode_partial). For records whose data holds no names the condition is exact (C118_exact_partial).
* **C119** (Old buffer contents never show in a message): OutputBuffer::skip is excluded: what it reserves shows the old contents until it is patched (C119_skip_shows); the encoders always patch.
* **C120** (A renderer can be reused for any number of messages): A panic is modelled as leaving the state the failing step left (as after catch_unwind).
