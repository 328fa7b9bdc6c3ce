{
 "claims": [
  {
   "property": "C01",
   "status": "proved",
   "theorems": [
    "C01_from_wire_total"
   ],
   "note": ""
  },
  {
   "property": "C02",
   "status": "proved",
   "theorems": [
    "C02_from_wire_exact"
   ],
   "note": ""
  },
  {
   "property": "C03",
   "status": "partial",
   "theorems": [
    "C03_api_names_well_formed_partial",
    "C03_refuted_text",
    "C03_refuted_relative",
    "C03_refuted_nul"
   ],
   "note": "Proved for every finite composition of API calls with text that does not end in backslash-dot and truthful LabelSequence pieces. False in general of the code: C03_refuted_text (an escaped trailing dot gives a 256-byte name), C03_refuted_relative and C03_refuted_nul (LabelSequence::concat_all returns a Name without root label)."
  },
  {
   "property": "C04",
   "status": "proved",
   "theorems": [
    "C04_raw_round_trip"
   ],
   "note": ""
  },
  {
   "property": "C05",
   "status": "proved",
   "theorems": [
    "C05_names_decode",
    "C05_payload_kept",
    "C05_no_panic"
   ],
   "note": ""
  },
  {
   "property": "C06",
   "status": "proved",
   "theorems": [
    "C06_eq_is_case_insensitive",
    "C06_eq_equivalence"
   ],
   "note": ""
  },
  {
   "property": "C07",
   "status": "proved",
   "theorems": [
    "C07_hash_agrees_with_eq"
   ],
   "note": ""
  },
  {
   "property": "C08",
   "status": "partial",
   "theorems": [
    "C08_cmp_is_canonical_order_partial",
    "C08_canonical_order_total",
    "C08_refuted",
    "C08_cmp_exact_partial",
    "C08_equal_partial",
    "C08_calm_partial",
    "C08_debug_partial",
    "C08_signed_total",
    "C08_antisymmetry_refuted"
   ],
   "note": "A total order, in both builds, on every set of labels without overflowing octets (C08_calm_partial with C08_signed_total; on ASCII it is RFC 4034's canonical order, C08_cmp_is_canonical_order_partial). A debug build answers that order or panics (C08_debug_partial). False in general: the i8 byte difference overflows (panic in debug, cyclic and not even antisymmetric order in release): C08_refuted, C08_antisymmetry_refuted. The exact outcome for arbitrary octets is C08_cmp_exact_partial; equality is right for all octets (C08_equal_partial)."
  },
  {
   "property": "C09",
   "status": "partial",
   "theorems": [
    "C09_get_relation_partial",
    "C09_common_labels_spec",
    "C09_refuted_debug",
    "C09_debug_exact_partial",
    "C09_calm_partial"
   ],
   "note": "Proved for all bytes in release arithmetic; in debug arithmetic for ASCII names and, more generally, for any set of labels no two of which overflow (C09_calm_partial); debug builds panic on some non-ASCII names (C09_refuted_debug); C09_debug_exact_partial says exactly when."
  },
  {
   "property": "C10",
   "status": "partial",
   "theorems": [
    "C10_is_subdomain_complete_partial",
    "C10_is_subdomain_exact_partial",
    "C10_refuted"
   ],
   "note": "If direction proved, exact behaviour characterised; the only-if direction is false of the code (C10_refuted: ab. is reported to be below b.)."
  },
  {
   "property": "C11",
   "status": "proved",
   "theorems": [
    "C11_concat_all",
    "C11_concat",
    "C11_empty_list_panics"
   ],
   "note": ""
  },
  {
   "property": "C12",
   "status": "partial",
   "theorems": [
    "C12_split",
    "C12_parent",
    "C12_parent_debug_partial",
    "C12_parent_refuted",
    "C12_strip_left",
    "C12_into_ancestor",
    "C12_strip_right",
    "C12_into_child",
    "C12_cut_and_concat",
    "C12_split_usize_partial",
    "C12_split_usize_refuted",
    "C12_parent_usize"
   ],
   "note": "All operations proved for all arguments (split, parent, strip_*, concat...). False in two corners: in a debug build parent(level) with level > label_count panics instead of returning an error (C12_parent_refuted; in a release build it errors, C12_parent), and split(i, k) panics in both builds when i + k does not fit into a usize (C12_split_usize_refuted), e.g. split(1, usize::MAX)."
  },
  {
   "property": "C13",
   "status": "proved",
   "theorems": [
    "C13_reverse",
    "C13_reverse_involutive"
   ],
   "note": ""
  },
  {
   "property": "C14",
   "status": "proved",
   "theorems": [
    "C14_as_lowercase",
    "C14_canonical_form"
   ],
   "note": ""
  },
  {
   "property": "C15",
   "status": "proved",
   "theorems": [
    "C15_predicates"
   ],
   "note": ""
  },
  {
   "property": "C16",
   "status": "proved",
   "theorems": [
    "C16_new_never_panics",
    "C16_label_sequence_never_panics"
   ],
   "note": ""
  },
  {
   "property": "C17",
   "status": "partial",
   "theorems": [
    "C17_grammar_partial",
    "C17_refuted",
    "C17_escapes_exact_partial"
   ],
   "note": "Backslash-free grammar proved in both directions, as claimed. Escapes do not mean in the code what the claim says (C17_refuted); C17_escapes_exact_partial says for every text exactly which name or error it gives (reading rule in SpecEsc.v)."
  },
  {
   "property": "C18",
   "status": "partial",
   "theorems": [
    "C18_round_trip_exact_partial",
    "C18_display_parse_round_trip_partial",
    "C18_display_text",
    "C18_refuted"
   ],
   "note": "Display specified for all names. The round trip holds for exactly those names none of whose characters needs an escape (C18_round_trip_exact_partial, an equivalence); for all others it fails (C18_refuted) because the parser mishandles escapes."
  },
  {
   "property": "C19",
   "status": "proved",
   "theorems": [
    "C19_name_display_ascii",
    "C19_string_ascii",
    "C19_hex_ascii"
   ],
   "note": ""
  },
  {
   "property": "C20",
   "status": "partial",
   "theorems": [
    "C20_from_name",
    "C20_split",
    "C20_concat_all_partial",
    "C20_violations_are_errors",
    "C20_no_panic",
    "C20_refuted_empty",
    "C20_split_usize_partial",
    "C20_split_usize_refuted"
   ],
   "note": "split, partition/rebuild and all error cases proved for non-empty pieces whose is_absolute is truthful; the empty sequence panics (C20_refuted_empty) and a trailing NUL byte is mistaken for the root (C03_refuted_nul); split(i, k) with i + k above usize::MAX panics (C20_split_usize_refuted)."
  },
  {
   "property": "C21",
   "status": "proved",
   "theorems": [
    "C21_header_round_trip",
    "C21_header_reencode",
    "C21_header_decode"
   ],
   "note": ""
  },
  {
   "property": "C22",
   "status": "proved",
   "theorems": [
    "C22_set_flag",
    "C22_flags_distinct",
    "C22_setted_flags",
    "C22_closed"
   ],
   "note": ""
  },
  {
   "property": "C23",
   "status": "proved",
   "theorems": [
    "C23_type_code",
    "C23_type_of_code",
    "C23_type_iana",
    "C23_class_code",
    "C23_class_of_code",
    "C23_class_iana",
    "C23_opcode",
    "C23_rcode"
   ],
   "note": ""
  },
  {
   "property": "C24",
   "status": "partial",
   "theorems": [
    "C24_type_text_partial",
    "C24_cert_refuted",
    "C24_class_text",
    "C24_rcode_text",
    "C24_type_accepts",
    "C24_class_accepts",
    "C24_rcode_accepts",
    "C24_type_only_ascii_partial",
    "C24_long_s_refuted"
   ],
   "note": "Proved for every named RRType except CERT, every named RRClass and every Rcode, in any letter case; RRType::CERT prints as URI (C24_cert_refuted). The accepted texts are characterised exactly (C24_*_accepts): the spellings of the IANA mnemonic, which because of Unicode upper-casing include a long s for S and a dotless i for I (C24_long_s_refuted), so 'only case variants' holds for ASCII texts."
  },
  {
   "property": "C25",
   "status": "proved",
   "theorems": [
    "C25_response_total",
    "C25_request_total"
   ],
   "note": ""
  },
  {
   "property": "C26",
   "status": "proved",
   "theorems": [
    "C26_rdata_round_trip",
    "C26_rdata_write_safe"
   ],
   "note": ""
  },
  {
   "property": "C27",
   "status": "proved",
   "theorems": [
    "C27_exact_length",
    "C27_total"
   ],
   "note": ""
  },
  {
   "property": "C28",
   "status": "proved",
   "theorems": [
    "C28_round_trip"
   ],
   "note": ""
  },
  {
   "property": "C29",
   "status": "proved",
   "theorems": [
    "C29_reencode"
   ],
   "note": ""
  },
  {
   "property": "C30",
   "status": "proved",
   "theorems": [
    "C30_outcome"
   ],
   "note": "Every outcome for every buffer size; the panic is the subject of C31, C64 shows when rendering is complete."
  },
  {
   "property": "C31",
   "status": "partial",
   "theorems": [
    "C31_panic_window_partial",
    "C31_refuted"
   ],
   "note": "False of the code (C31_refuted): OutputBuffer::truncate(pos) refuses pos == len, so Response::truncate's unwrap panics. Proved: the panicking capacities are exactly an interval [head_size, head_size+k), k <= 255, k = 0 iff there are no records."
  },
  {
   "property": "C32",
   "status": "partial",
   "theorems": [
    "C32_sections_partial",
    "C32_refuted"
   ],
   "note": "All but the last clause proved for every accepted message (order, grouping, owner/class/TTL of the first record of each run, exactness when runs are uniform). TTL and class of later records of a run are dropped by the code (C32_refuted)."
  },
  {
   "property": "C33",
   "status": "partial",
   "theorems": [
    "C33_accepted_partial",
    "C33_opt_in_answer_refuted",
    "C33_two_opts_refuted"
   ],
   "note": "Exact acceptance condition proved (iff). The code checks only the first record of answer/authority and adjacent OPT records: C33_opt_in_answer_refuted, C33_two_opts_refuted."
  },
  {
   "property": "C34",
   "status": "partial",
   "theorems": [
    "C34_round_trip",
    "C34_decoded_partial",
    "C34_refuted"
   ],
   "note": "Round trip and exact outcome for every buffer proved; question and answer counts are enforced, the authority count is not (C34_refuted)."
  },
  {
   "property": "C35",
   "status": "proved",
   "theorems": [
    "C35_rrset_round_trip",
    "C35_same_wire",
    "C35_wire"
   ],
   "note": ""
  },
  {
   "property": "C36",
   "status": "partial",
   "theorems": [
    "C36_visible_partial",
    "C36_exact_partial",
    "C36_twice_refuted",
    "C36_hidden_refuted"
   ],
   "note": "Proved when no OPT rrset is in the additional section before and later calls leave that section alone, and exactly when get_edns sees which value is characterised (an equivalence) for all programs that do not take anything out of the additional section (C36_exact_partial). The full claim is false of the code: a second edns call keeps the first value (C36_twice_refuted); an rrset added to the additional section later hides the OPT record from get_edns (C36_hidden_refuted)."
  },
  {
   "property": "C37",
   "status": "proved",
   "theorems": [
    "C37_counts",
    "C37_consistent"
   ],
   "note": "Counts for every builder program (C37_counts, sections below 65536 records); programs without remove_rrset_by/with_section callbacks give fully consistent responses (C37_consistent), for which C27-C34 describe the bytes of to_wire."
  },
  {
   "property": "C38",
   "status": "proved",
   "theorems": [
    "C38_add",
    "C38_unique",
    "C38_history"
   ],
   "note": ""
  },
  {
   "property": "C39",
   "status": "proved",
   "theorems": [
    "C39_deque"
   ],
   "note": ""
  },
  {
   "property": "C40",
   "status": "partial",
   "theorems": [
    "C40_front_partial",
    "C40_exact_partial",
    "C40_back_refuted"
   ],
   "note": "What size_hint says and what is really left after any interleaving of next and next_back is proved exactly (C40_exact_partial): the hint counts what next has taken but not what next_back has, because it ignores back_index. So it is exact as long as only next is called (C40_front_partial) and false after a next_back (C40_back_refuted)."
  },
  {
   "property": "C41",
   "status": "partial",
   "theorems": [
    "C41_small_partial",
    "C41_large_partial",
    "C41_small_exact_partial",
    "C41_complete_partial",
    "C41_refuted"
   ],
   "note": "Exact characterisation (equal iff same owner, type and multiset of data up to case of names) for < 4 rdatas when the left one has no duplicates, and for >= 4 rdatas whose names do not overflow the octet comparison, for every sorting function with the contract of sort_unstable; C41_small_exact_partial says what is decided below 4 rdatas in all cases. False with duplicates below 4 rdatas: not symmetric (C41_refuted)."
  },
  {
   "property": "C42",
   "status": "proved",
   "theorems": [
    "C42_round_trip",
    "C42_from_hex",
    "C42_from_hex_none"
   ],
   "note": ""
  },
  {
   "property": "C43",
   "status": "proved",
   "theorems": [
    "C43_string_accepts",
    "C43_string_sound",
    "C43_string_total",
    "C43_string_round_trip",
    "C43_text_iff",
    "C43_text_total",
    "C43_text_round_trip",
    "C43_empty_refused",
    "C43_trailing_space_refused"
   ],
   "note": "Exact grammar of accepted quoted strings, round trip for every content of 1..255 octets; the empty string and white space after the last string are refused (C43_empty_refused, C43_trailing_space_refused)."
  },
  {
   "property": "C44",
   "status": "proved",
   "theorems": [
    "C44_white",
    "C44_next_words",
    "C44_next_words_from",
    "C44_words_exist_unique"
   ],
   "note": ""
  },
  {
   "property": "C45",
   "status": "partial",
   "theorems": [
    "C45_reads_exact",
    "C45_cursor_stays_inside",
    "C45_usize_partial",
    "C45_usize_refuted"
   ],
   "note": "C45_* are exact for unbounded arguments, C45_usize_partial for every usize argument whose end position fits into a usize; read_bytes(n) with pos + n above usize::MAX panics instead of failing (C45_usize_refuted)."
  },
  {
   "property": "C46",
   "status": "partial",
   "theorems": [
    "C46_bounded_log",
    "C46_usize_partial",
    "C46_skip_usize_refuted",
    "C46_at16_usize_refuted"
   ],
   "note": "C46_* are exact for unbounded arguments, C46_usize_partial for every usize argument whose end position fits into a usize; near usize::MAX skip panics (debug) or succeeds and drops written bytes (release) (C46_skip_usize_refuted), and write_u16_at panics (C46_at16_usize_refuted)."
  },
  {
   "property": "C47",
   "status": "partial",
   "theorems": [
    "C47_ascii_no_overflow",
    "C47_high_no_overflow",
    "C47_find_latest_partial",
    "C47_insert_returns_previous_partial",
    "C47_debug_any_find_partial",
    "C47_debug_any_insert_partial",
    "C47_keys",
    "C47_nonascii_release_refuted",
    "C47_nonascii_debug_refuted"
   ],
   "note": "Proved for all histories whose labels do not overflow the octet comparison (all ASCII labels, all labels over 128-255, and every mixed set without an overflowing pair; both builds), and for names of any octets in the debug build, where a call may instead panic in the overflow check (the _debug_any theorems). Outside that, false of the code: the release build loses entries (C47_nonascii_release_refuted), the debug build panics (C47_nonascii_debug_refuted), because siblings are ordered by an i8 difference."
  },
  {
   "property": "C48",
   "status": "partial",
   "theorems": [
    "C48_closest_partial",
    "C48_inserted_ancestors_found_partial",
    "C48_debug_any_closest_partial",
    "C48_debug_any_inserted_partial",
    "C48_nonascii_refuted"
   ],
   "note": "Proved for all histories whose labels do not overflow the octet comparison (all ASCII labels, all labels over 128-255, and every mixed set without an overflowing pair; both builds), and for names of any octets in the debug build, where a call may instead panic in the overflow check (the _debug_any theorems). False of the release build when octets overflow (C48_nonascii_refuted)."
  },
  {
   "property": "C49",
   "status": "partial",
   "theorems": [
    "C49_exact_partial",
    "C49_closest_partial",
    "C49_debug_any_exact_partial",
    "C49_debug_any_closest_partial",
    "C49_absent_name_refuted"
   ],
   "note": "Proved for all histories whose labels do not overflow the octet comparison (all ASCII labels, all labels over 128-255, and every mixed set without an overflowing pair; both builds), and for names of any octets in the debug build, where a call may instead panic in the overflow check (the _debug_any theorems). Removing a name that has a node clears exactly its value; a name with no enclosing node changes nothing; C49_closest_partial says what happens in all cases. False of the code: removing an absent name below a stored one removes the stored one (C49_absent_name_refuted)."
  },
  {
   "property": "C50",
   "status": "proved",
   "theorems": [
    "C50_balanced"
   ],
   "note": ""
  },
  {
   "property": "C51",
   "status": "partial",
   "theorems": [
    "C51_len_partial",
    "C51_len_at_least_partial",
    "C51_clear_exact_partial",
    "C51_clear_refuted"
   ],
   "note": "Proved for all histories without clear (any names, both builds), as an upper bound for all, and exactly across clears (C51_clear_exact_partial): the count before a clear stays in len for good. The full claim is false of the code: clear does not reset len (C51_clear_refuted)."
  },
  {
   "property": "C52",
   "status": "partial",
   "theorems": [
    "C52_clone_partial",
    "C52_debug_any_partial",
    "C52_exact_partial",
    "C52_debug_any_exact_partial",
    "C52_lost_entries_refuted",
    "C52_remove_from_clone_refuted"
   ],
   "note": "Proved for all histories whose labels do not overflow the octet comparison (all ASCII labels, all labels over 128-255, and every mixed set without an overflowing pair; both builds), and for names of any octets in the debug build, where a call may instead panic in the overflow check (the _debug_any theorems). The original is intact, the clone agrees on NotFound and on exact matches it reports, and completely for trees of one node; what the copy contains is said exactly (C52_exact_partial: the topmost entry only). False of the code: entries below the top node are lost (C52_lost_entries_refuted), cloning an empty tree dereferences null, removing from a clone walks off the tree (C52_remove_from_clone_refuted)."
  },
  {
   "property": "C53",
   "status": "proved",
   "theorems": [
    "C53_safe",
    "C53_any_names",
    "C53_links",
    "C53_debug_can_panic",
    "C53_debug_panic_is_overflow",
    "C53_debug_panic_needs",
    "C53_builds_agree"
   ],
   "note": "Proved for all histories over all legal names, both builds: the release build completes every history and all links and flags are consistent after it (C53_any_names, C53_links). The debug build does the same or stops in the overflow check of the octet subtraction (C53_debug_panic_is_overflow: with that check made an error, no pointer, index or assertion fails; C53_debug_panic_needs says which labels it takes; C53_debug_can_panic that it happens)."
  },
  {
   "property": "C54",
   "status": "partial",
   "theorems": [
    "C54_absolute_name_partial",
    "C54_debug_any_partial",
    "C54_without_pop_refuted",
    "C54_nul_refuted"
   ],
   "note": "Proved for all histories whose labels do not overflow the octet comparison (all ASCII labels, all labels over 128-255, and every mixed set without an overflowing pair; both builds), and for names of any octets in the debug build, where a call may instead panic in the overflow check (the _debug_any theorems). Needs labels that do not end in NUL, and the found node popped off the chain as the code's own users do. False without the pop (labels appear twice, C54_without_pop_refuted) and for labels ending in NUL (panic, C54_nul_refuted)."
  },
  {
   "property": "C55",
   "status": "partial",
   "theorems": [
    "C55_callbacks_partial",
    "C55_debug_any_partial",
    "C55_nul_refuted"
   ],
   "note": "Proved for every callback, for all histories whose labels do not overflow the octet comparison (all ASCII labels, all labels over 128-255, and every mixed set without an overflowing pair; both builds), and for names of any octets in the debug build, where a call may instead panic in the overflow check (the _debug_any theorems). Needs labels that do not end in NUL; with such a label it panics (C55_nul_refuted)."
  },
  {
   "property": "C56",
   "status": "proved",
   "theorems": [
    "C56_random_name"
   ],
   "note": ""
  },
  {
   "property": "C57",
   "status": "proved",
   "theorems": [
    "C57_round_trip_u8",
    "C57_round_trip_u16",
    "C57_round_trip_u32",
    "C57_printed",
    "C57_accepts",
    "C57_refuses"
   ],
   "note": ""
  },
  {
   "property": "C58",
   "status": "partial",
   "theorems": [
    "C58_every_rrset_partial",
    "C58_exact_partial",
    "C58_rrset_text_partial",
    "C58_refuted"
   ],
   "note": "Proved for every rrset whose content text can carry (text_rrset: names of plain characters, types with a readable mnemonic, non-empty binaries and strings, quoted binaries up to 255 octets), with the exact line format, and for no other rrset (C58_exact_partial, an equivalence). False outside it: C58_refuted (empty salt, CERT, empty character string, unknown class print text that does not parse). The exact line of every other record in range is given by C58_every_rrset_partial."
  },
  {
   "property": "C59",
   "status": "partial",
   "theorems": [
    "C59_from_strs_partial",
    "C59_same_owner_class_refuted"
   ],
   "note": "Exact characterisation of from_strs proved for non-empty lists: only the types are compared. The rest of the claim is false: C59_same_owner_class_refuted (owner, class and ttl of later lines are ignored; an empty list panics)."
  },
  {
   "property": "C60",
   "status": "partial",
   "theorems": [
    "C60_any_calls_no_panic_partial",
    "C60_any_calls_reset_partial",
    "C60_any_calls_plain_name_partial",
    "C60_reset_is_fresh_partial",
    "C60_truncate_partial",
    "C60_truncate_names_partial",
    "C60_truncate_refuted",
    "C60_truncate_refuted_hang",
    "C60_truncate_refuted_corrupt",
    "C60_hang_any_fuel"
   ],
   "note": "reset proved equal to a fresh renderer after every history, truncations included (C60_any_calls_reset_partial); after any calls whatever no call panics (C60_any_calls_no_panic_partial) and names written without compression are appended exactly (C60_any_calls_plain_name_partial); a truncate that cuts off no name leaves a renderer reachable without any truncation, and every later name that fits is written and decodes to itself (C60_truncate_partial, C60_truncate_names_partial). Missing because false of the code: a truncate that cuts off a name leaves stale offsets in the compression table, so later compressed writes can fail although there is room (C60_truncate_refuted), loop for ever (C60_truncate_refuted_hang) or succeed with octets that do not decode (C60_truncate_refuted_corrupt)."
  },
  {
   "property": "C61",
   "status": "partial",
   "theorems": [
    "C61_fitting_name_written_partial",
    "C61_hash_collision_refuted"
   ],
   "note": "Proved when no two different names among those written (and their ancestors) share the 32-bit hash and the length; false otherwise (C61_hash_collision_refuted: after bafz. and three bagd., the fourth bagd. is refused at length 24 of 512)."
  },
  {
   "property": "C62",
   "status": "proved",
   "theorems": [
    "C62_layout"
   ],
   "note": ""
  },
  {
   "property": "C63",
   "status": "proved",
   "theorems": [
    "C63_capacity_independent"
   ],
   "note": ""
  },
  {
   "property": "C64",
   "status": "partial",
   "theorems": [
    "C64_fits_partial",
    "C64_refuted"
   ],
   "note": "Proved unless two different names (or ancestors) in the response share hash and length; refuted otherwise (C64_refuted: 122 octets truncated in a 512-octet buffer)."
  },
  {
   "property": "C65",
   "status": "proved",
   "theorems": [
    "C65_decode",
    "C65_round_trip",
    "C65_notify",
    "C65_fits"
   ],
   "note": ""
  },
  {
   "property": "C66",
   "status": "partial",
   "theorems": [
    "C66_str",
    "C66_white",
    "C66_rrset_from_str_ascii_partial",
    "C66_rrset_from_str_panics_partial",
    "C66_rdata_from_str_partial",
    "C66_rrset_from_str_exact_partial",
    "C66_rdata_from_str_exact_partial",
    "C66_rrset_from_strs_exact_partial",
    "C66_rrset_from_strs_ends",
    "C66_time_field_partial",
    "C66_rrsig_time_refuted",
    "C66_blank_debug_refuted"
   ],
   "note": "Exact: for every text, C66_rrset_from_str_exact_partial (and the rdata and from_strs versions) say which lines panic - a blank text in debug builds, or an RRSIG line whose fields are in order up to a time of 14 bytes with a character across the end of a group of digits - and that no other text panics or loops; all ASCII text is safe (C66_rrset_from_str_ascii_partial). The full property is false: C66_rrsig_time_refuted, C66_blank_debug_refuted, and no lines at all (C59_same_owner_class_refuted)."
  },
  {
   "property": "C67",
   "status": "proved",
   "theorems": [
    "C67_display_total"
   ],
   "note": ""
  },
  {
   "property": "C68",
   "status": "partial",
   "theorems": [
    "C68_drop_frees_all_partial",
    "C68_drop_frees_reachable_partial",
    "C68_remove_leaks_refuted"
   ],
   "note": "Proved for all legal names and both builds: drop frees each node of the tree once and nothing else, and everything when no name was removed. False of the code in general: removed nodes are never freed (C68_remove_leaks_refuted)."
  },
  {
   "property": "C69",
   "status": "proved",
   "theorems": [
    "C69_decoded_response",
    "C69_decoded_request",
    "C69_response",
    "C69_request",
    "C69_notify"
   ],
   "note": "The functions of other crates that print addresses, base64 and times are a parameter."
  },
  {
   "property": "C70",
   "status": "proved",
   "theorems": [
    "C70_name_text_unambiguous"
   ],
   "note": ""
  },
  {
   "property": "C71",
   "status": "proved",
   "theorems": [
    "C71_header_text_unambiguous",
    "C71_edns_text_unambiguous"
   ],
   "note": ""
  },
  {
   "property": "C72",
   "status": "partial",
   "theorems": [
    "C72_message_text_partial",
    "C72_header_text",
    "C72_question_text",
    "C72_request_text",
    "C72_every_message_partial",
    "C72_title_line_refuted"
   ],
   "note": "The exact text of every message in range, whatever its records, is given (C72_every_message_partial; header, EDNS, question and record lines in SpecShown.v/SpecDisplay.v); that each line reads back as its record is proved for the records that text can carry (C72_message_text_partial; for exactly these, see C58_exact_partial). Every part starting on its own line is false: with EDNS the question title is on the EDNS line (C72_title_line_refuted)."
  },
  {
   "property": "C73",
   "status": "partial",
   "theorems": [
    "C73_response_text_unambiguous_partial",
    "C73_request_text_unambiguous_partial",
    "C73_refuted",
    "C73_exact_partial"
   ],
   "note": "Proved injective for messages without OPT records, with named types and classes and records that text can carry; with OPT records C73_exact_partial says exactly (an equivalence) which messages share their text: those that differ at most in what of OPT records is not printed. False otherwise: unassigned types all print as Unknown and the extended rcode is not printed (C73_refuted)."
  },
  {
   "property": "C74",
   "status": "partial",
   "theorems": [
    "C74_setters_partial",
    "C74_insert_flags_partial",
    "C74_debug_any_setters_partial",
    "C74_debug_any_insert_partial",
    "C74_non_ascii_refuted"
   ],
   "note": "Proved for all histories whose labels do not overflow the octet comparison (all ASCII labels, all labels over 128-255, and every mixed set without an overflowing pair; both builds), and for names of any octets in the debug build, where a call may instead panic in the overflow check (the _debug_any theorems). Refuted for the release build with overflowing octets, where an inserted node may not be found again (C74_non_ascii_refuted)."
  },
  {
   "property": "C75",
   "status": "partial",
   "theorems": [
    "C75_handles_partial",
    "C75_debug_any_partial",
    "C75_valueless_refuted"
   ],
   "note": "Proved for all histories whose labels do not overflow the octet comparison (all ASCII labels, all labels over 128-255, and every mixed set without an overflowing pair; both builds), and for names of any octets in the debug build, where a call may instead panic in the overflow check (the _debug_any theorems). Refuted for nodes without a value: deleting another name can take such a node out of the tree (it is then leaked, C68)."
  },
  {
   "property": "C76",
   "status": "proved",
   "theorems": [
    "C76_request",
    "C76_response",
    "C76_response_wire"
   ],
   "note": ""
  },
  {
   "property": "C77",
   "status": "partial",
   "theorems": [
    "C77_fields",
    "C77_decodes_partial",
    "C77_soa_refuted"
   ],
   "note": "Proved for NOTIFYs without SOA. Refuted with an SOA: the answer count 1 is taken over but no record is written, so the bytes never decode, for any zone, id, SOA and buffer."
  },
  {
   "property": "C78",
   "status": "proved",
   "theorems": [
    "C78_remove_mut",
    "C78_remove_mut_total",
    "C78_remove_mut_pure",
    "C78_last_write",
    "C78_remove",
    "C78_clear_with"
   ],
   "note": ""
  },
  {
   "property": "C79",
   "status": "partial",
   "theorems": [
    "C79_round_trip_partial",
    "C79_tidy_partial",
    "C79_refuted"
   ],
   "note": "Proved without remove_rrset_by, and with it up to emptied sections. Refuted exactly there: remove_rrset_by leaves Some(vec![]), which decodes to None."
  },
  {
   "property": "C80",
   "status": "partial",
   "theorems": [
    "C80_clear_partial",
    "C80_refuted"
   ],
   "note": "Refuted for opcode and rcode: they keep their values and are still encoded. Everything else is proved."
  },
  {
   "property": "C81",
   "status": "partial",
   "theorems": [
    "C81_one_partial",
    "C81_many_partial",
    "C81_exact_partial",
    "C81_many_exact_partial",
    "C81_name_partial",
    "C81_owner_refuted",
    "C81_salt_refuted"
   ],
   "note": "Exact: with nothing assumed about the text, a parsed rrset is in range if and only if every name in it has at most 255 octets and every length-prefixed binary at most 255 (C81_exact_partial, C81_many_exact_partial, C81_name_partial); text without backslash never gives a longer name (C81_one_partial). Refuted otherwise: an escaped final dot makes an owner of 256 octets, and a 256-octet NSEC3PARAM salt is accepted although its length octet cannot hold the length."
  },
  {
   "property": "C82",
   "status": "partial",
   "theorems": [
    "C82_program",
    "C82_head",
    "C82_edns_partial",
    "C82_round_trip_partial",
    "C82_refuted"
   ],
   "note": "Exact program, head and round trip proved for all texts whose names have at most 255 octets, whose hex fields fit their length octet and that are not OPT text (each proviso is needed, C81). Refuted: udp_size of 65536 or more is cut to 16 bits."
  },
  {
   "property": "C83",
   "status": "partial",
   "theorems": [
    "C83_equals",
    "C83_order_partial",
    "C83_calm_partial",
    "C83_exact_partial",
    "C83_refuted"
   ],
   "note": "Equality proved for all sequences. Total order proved for all octets that do not overflow, canonical order for ASCII; exact behaviour (signed octets, overflow) proved for all octets; refuted: panic on octets whose signed difference overflows and on the empty sequence split can leave (debug builds)."
  },
  {
   "property": "C84",
   "status": "partial",
   "theorems": [
    "C84_eq",
    "C84_order_partial",
    "C84_refuted"
   ],
   "note": "Equality proved in full; total order proved for names whose octets do not overflow. Refuted otherwise: three NS records in a cycle (release) and a panic (debug)."
  },
  {
   "property": "C85",
   "status": "partial",
   "theorems": [
    "C85_order_partial",
    "C85_refuted"
   ],
   "note": "Proved for types made by RRType::new or a mnemonic (all decoded and parsed types). Refuted: RRType::Unknown(1) compares Equal to RRType::A but is not == to it."
  },
  {
   "property": "C86",
   "status": "proved",
   "theorems": [
    "C86_views",
    "C86_equals",
    "C86_source"
   ],
   "note": "For all names and non-empty label sequences (those the API makes)."
  },
  {
   "property": "C87",
   "status": "partial",
   "theorems": [
    "C87_compare_exact_partial",
    "C87_ascii_partial",
    "C87_common_tail_spec",
    "C87_refuted"
   ],
   "note": "Count and relation proved for all octets (whenever compare returns); exact order and exact panic condition proved for all octets in both builds; canonical order proved for ASCII. Refuted in general: octets whose signed difference overflows make a debug build panic and a release build order two slices inconsistently."
  },
  {
   "property": "C88",
   "status": "partial",
   "theorems": [
    "C88_display_partial",
    "C88_from_str",
    "C88_round_trip_exact_partial",
    "C88_refuted"
   ],
   "note": "Display proved for all non-empty sequences; from_str characterised exactly for all texts; the round trip proved to hold exactly if no character needs an escape (sequences that fit a name). Refuted otherwise: the relative sequence of the label \"a.\" comes back absolute; Display of the empty sequence that split can leave panics."
  },
  {
   "property": "C89",
   "status": "proved",
   "theorems": [
    "C89_dump",
    "C89_chain_display",
    "C89_any_chain_display"
   ],
   "note": "For all octets and both builds. len() itself is C51."
  },
  {
   "property": "C90",
   "status": "partial",
   "theorems": [
    "C90_neighbour_partial",
    "C90_callbacks_partial",
    "C90_debug_any_partial",
    "C90_nonascii_refuted"
   ],
   "note": "Proved for all label sets without overflow (e.g. ASCII) in both builds and for all octets in debug builds whenever the search does not panic; with callbacks, for labels not ending in a NUL octet (cf. C54). Refuted in release builds for octets over 127 (8-bit differences are not an order)."
  },
  {
   "property": "C91",
   "status": "proved",
   "theorems": [
    "C91_stack",
    "C91_pop_returns_top"
   ],
   "note": "bottom on an empty chain does not panic: it returns whatever is in the first slot."
  },
  {
   "property": "C92",
   "status": "partial",
   "theorems": [
    "C92_response_trailing",
    "C92_request_trailing",
    "C92_response_window_partial",
    "C92_request_window_partial",
    "C92_refuted"
   ],
   "note": "Appending octets never changes the result (proved), and octets from 256 behind the end of the message on never matter (proved). Refuted for the octets just behind the message: a compression pointer to the middle of a name may start a label that runs past the last record, so two datagrams with the same message but different trailers can decode differently."
  },
  {
   "property": "C93",
   "status": "proved",
   "theorems": [
    "C93_ratio",
    "C93_counts"
   ],
   "note": ""
  },
  {
   "property": "C94",
   "status": "proved",
   "theorems": [
    "C94_name",
    "C94_response"
   ],
   "note": "No hypothesis about hash collisions: a collision may make rendering fail (C61), but never makes a name longer."
  },
  {
   "property": "C95",
   "status": "proved",
   "theorems": [
    "C95_round_trip",
    "C95_necessary",
    "C95_total_exact",
    "C95_uncompressed",
    "C95_instances"
   ],
   "note": "The eleven codecs of rdatafield, name_uncompressed included. The macro's token parsing (parser.rs) is not modelled."
  },
  {
   "property": "C96",
   "status": "proved",
   "theorems": [
    "C96_bound",
    "C96_constant",
    "C96_chain"
   ],
   "note": "The while loop cut off after k passes (SpecWork.v) gives the same answer as the uninterrupted call for every k from the bound on."
  },
  {
   "property": "C97",
   "status": "partial",
   "theorems": [
    "C97_one_line_partial",
    "C97_lines_partial",
    "C97_canonical_partial",
    "C97_exact_partial",
    "C97_refuted"
   ],
   "note": "Proved for rrsets whose names need no escaping and that neither are CERT nor sign CERT; among rrsets in range exactly these survive (C97_exact_partial). Missing because false of the code: printing and parsing a name with an escaped character doubles that character (a@b -> a@@b -> a@@@@b), and CERT is printed as URI, which is refused (C97_refuted)."
  },
  {
   "property": "C98",
   "status": "proved",
   "theorems": [
    "C98_notify_text",
    "C98_unambiguous"
   ],
   "note": ""
  },
  {
   "property": "C99",
   "status": "partial",
   "theorems": [
    "C99_request",
    "C99_notify_response",
    "C99_response_partial",
    "C99_notify_partial",
    "C99_reflexive_partial",
    "C99_equivalence_partial",
    "C99_round_trip_partial",
    "C99_refuted"
   ],
   "note": "Requests and notify responses: in full. Responses and notify requests: exactly what == decides is proved. Missing because false of the code: classes are not compared, so responses whose EDNS records differ in UDP size, DO bit and extended rcode are equal (C99_refuted); repeated records in small rrsets and overflowing octets in large ones, as in C41."
  },
  {
   "property": "C100",
   "status": "partial",
   "theorems": [
    "C100_cheapest_partial",
    "C100_low_partial",
    "C100_shape_partial",
    "C100_plain_exact",
    "C100_plain",
    "C100_bucket_refuted"
   ],
   "note": "Proved for every history in which no bucket of the table has received more than 15 names and no two different names collide in hash and length. Missing because false of the code: once 15 names fell into one of the 64 buckets further names of that bucket are never found again and are written in full each time (C100_bucket_refuted); a collision makes the lookup fail (C61)."
  },
  {
   "property": "C101",
   "status": "proved",
   "theorems": [
    "C101_round_trip",
    "C101_necessary",
    "C101_safe",
    "C101_instances"
   ],
   "note": "Values text can carry: in-range fields with names of plain characters, readable type mnemonics, non-empty binaries and strings, quoted strings of at most 255 octets (other values are C58's). External parsers through ext_ok."
  },
  {
   "property": "C102",
   "status": "proved",
   "theorems": [
    "C102_bound",
    "C102_find",
    "C102_insert",
    "C102_remove"
   ],
   "note": "find_node_ext_within / find_within (SpecTreeWork.v) give up after k passes of the loop.  C102_bound: giving up after the bound or later never changes the answer, for every callback; C102_find: the call without callback ends.  C102_insert: the same for insert (insert_within), whose search takes two passes more at most and whose repair loop at most 2 log2 (len+2) + 1.  C102_remove: remove (remove_within): at most 128 rounds, each with three walks of at most 2 log2 (len+1) passes."
  },
  {
   "property": "C103",
   "status": "proved",
   "theorems": [
    "C103_settings",
    "C103_sections"
   ],
   "note": "final (SpecBuild.v) is the value left by the last call that sets something.  remove_rrset_by and with_section take pure functions."
  },
  {
   "property": "C104",
   "status": "proved",
   "theorems": [
    "C104_accepts",
    "C104_rejects",
    "C104_ends",
    "C104_compiles",
    "C104_len",
    "C104_buf",
    "C104_runs",
    "C104_round_trip",
    "C104_source"
   ],
   "note": "MacroModel.v models the parser over abstract tokens, the emitted statements, rustc's name and type check of them (only what the emitted code uses), and their execution with an environment of local variables.  Identifiers with non-ASCII letters are taken to be refused by Ident::new.  rustc's other checks (visibility, traits in scope) are not modelled."
  },
  {
   "property": "C105",
   "status": "partial",
   "theorems": [
    "C105_one_record",
    "C105_count_partial",
    "C105_decoded_partial",
    "C105_options_refuted"
   ],
   "note": "Proved: to_wire writes exactly one record always, hence rr_count is right exactly if options is None or holds one option; every decoded Edns is such.  Refuted for options = Some(k), k <> 1: rr_count answers k (it counts options, which to_wire drops).  The model keeps of the options only their number."
  },
  {
   "property": "C106",
   "status": "partial",
   "theorems": [
    "C106_write_through_partial",
    "C106_debug_any_partial",
    "C106_shared_refuted"
   ],
   "note": "Proved for names whose labels cannot overflow in comparison (all ASCII) in both builds, and for all names in the build with overflow checks unless it panics.  Refuted: find and get_value_mut take shared references, so two results for one entry give two mutable references to the same value at once."
  },
  {
   "property": "C107",
   "status": "proved",
   "theorems": [
    "C107_text_round_trip",
    "C107_accepts",
    "C107_no_trap",
    "C107_wire"
   ],
   "note": "str::parse::<u32> is modelled in TextModel.v (parse_uint)."
  },
  {
   "property": "C108",
   "status": "proved",
   "theorems": [
    "C108_set_data",
    "C108_is_empty",
    "C108_words_then_left"
   ],
   "note": "left_str is stated for valid UTF-8 (a &str)."
  },
  {
   "property": "C109",
   "status": "partial",
   "theorems": [
    "C109_cmp_exact",
    "C109_siblings_partial",
    "C109_names_refuted",
    "C109_null_refuted",
    "C109_order_refuted"
   ],
   "note": "Proved: for any history, any names and either build cmp is exactly the comparison of the labels stored at the two nodes (relative to the node above), partial_cmp the same, == is identity of nodes; over labels that cannot overflow in comparison (all ASCII) the nodes of each level come in strictly increasing order.  Refuted: nodes of different levels compare by their relative labels only, so different nodes compare Equal (cmp not compatible with ==) and the order is not that of the names; a null handle is dereferenced; in the release build two siblings with octets over 127 can each be less than the other."
  },
  {
   "property": "C110",
   "status": "partial",
   "theorems": [
    "C110_upper",
    "C110_closest_partial",
    "C110_closest_debug_partial",
    "C110_release_refuted"
   ],
   "note": "Proved for any history, any names, either build: get_upper_node is the node that the node hangs below, and the labels of the node and of the nodes above spell the entry's name; that this is the closest stored ancestor over labels that cannot overflow (both builds) and over all names in the build with overflow checks.  Refuted for the release build with octets over 127, where the ancestor may have been inserted elsewhere."
  },
  {
   "property": "C111",
   "status": "proved",
   "theorems": [
    "C111_header",
    "C111_question",
    "C111_record",
    "C111_response",
    "C111_response_error",
    "C111_request",
    "C111_request_error"
   ],
   "note": "Both directions, and the refused inputs.  The relation is written over octets (header_at, question_at, rr_at, message_at, grouped) without the decoders; `acceptable` spells out the decoder's OPT and empty-rdata rules, which are laxer than the RFC (C33), and class and TTL of later records of a run are dropped (C32)."
  },
  {
   "property": "C112",
   "status": "partial",
   "theorems": [
    "C112_rebuild_partial",
    "C112_exact_partial",
    "C112_built_partial",
    "C112_text_wire_text_partial",
    "C112_cert_refuted",
    "C112_escape_refuted",
    "C112_size_partial"
   ],
   "note": "Proved for names without escapes and no CERT records, from decoded messages (C112_rebuild) and all the way from text to text (C112_text_wire_text); refuted for CERT (printed as URI, the line is then refused) and for names with escaped characters (the printed name parses to a longer one). C112_exact_partial: of all messages in range, exactly these are rebuilt (the printed lines given back to build make the message iff it is a text_message); C112_size_partial: with exactly one UDP size."
  },
  {
   "property": "C113",
   "status": "partial",
   "theorems": [
    "C113_no_names",
    "C113_exact_partial",
    "C113_refuted"
   ],
   "note": "Proved for the types without names, after any history (C113_no_names). False of the code for all six later types that hold names (C113_refuted): every name field is written with compression switched on. C113_exact_partial says exactly when the octets are plain, for every type, given the provisos of C100 (no hash collision, no full bucket, message within the reach of pointers): if and only if no name in the data ends in a name already in the message or in an earlier name of the same data."
  },
  {
   "property": "C114",
   "status": "proved",
   "theorems": [
    "C114_bound",
    "C114_constant"
   ],
   "note": "A table item always points at plain labels that end in the root or in one pointer to such a place (never a pointer to a pointer), so next_label follows at most one pointer. Truncation is excluded because it leaves items pointing at what was cut off: see C60_truncate_refuted_hang, C60_hang_any_fuel for the endless loop."
  },
  {
   "property": "C115",
   "status": "proved",
   "theorems": [
    "C115_bound"
   ],
   "note": "The bound is quadratic in the length because the code is: C115_ex is a response of 1033 octets that takes more than ten steps per octet."
  },
  {
   "property": "C116",
   "status": "proved",
   "theorems": [
    "C116_response",
    "C116_request",
    "C116_notify",
    "C116_notify_response",
    "C116_price"
   ],
   "note": "Writing an octet is free: the number of octets written is bounded by the message itself (C28)."
  },
  {
   "property": "C117",
   "status": "partial",
   "theorems": [
    "C117_request_partial",
    "C117_response_partial",
    "C117_refuted",
    "C117_truncated_refuted"
   ],
   "note": "Proved for requests, and for responses without records, behind any calls that write no name. False for responses with records (C117_refuted): behind two octets compression pointers are off by two, and a truncated response has its identifier and question count overwritten (C117_truncated_refuted), since truncation patches octets 2, 6, 8 and 10 of the buffer."
  },
  {
   "property": "C118",
   "status": "partial",
   "theorems": [
    "C118_outcome_partial",
    "C118_fits_partial",
    "C118_decoded_partial",
    "C118_refuted",
    "C118_reencode_partial",
    "C118_exact_partial"
   ],
   "note": "Proved for all responses whose records have data that RDLENGTH can count (65535 octets, names counted with one octet more than their own length), without any bound on the message or the buffer (C118_outcome_partial; the panic is C31's), and, without hash collisions, that such a response is written in full whenever it fits (C118_fits_partial). False otherwise (C118_refuted): any DNSKEY with a key of more than 65531 octets is reported as written, with RDLENGTH cut to 16 bits, while no octets at all decode to it (C118_decoded_partial). Decoding a message of at most 65000 octets, encoding into any buffer and decoding again gives the same response, or its head with TC (C118_reencode_partial). For records whose data holds no names the condition is exact (C118_exact_partial)."
  },
  {
   "property": "C119",
   "status": "proved",
   "theorems": [
    "C119_response",
    "C119_request",
    "C119_notify",
    "C119_calls",
    "C119_skip_shows"
   ],
   "note": "OutputBuffer::skip is excluded: what it reserves shows the old contents until it is patched (C119_skip_shows); the encoders always patch."
  },
  {
   "property": "C120",
   "status": "proved",
   "theorems": [
    "C120_response",
    "C120_request",
    "C120_reset"
   ],
   "note": "A panic is modelled as leaving the state the failing step left (as after catch_unwind)."
  }
 ]
}