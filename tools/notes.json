{
 "C03": {
  "status": "partial",
  "note": "Proved for every finite composition of API calls with text that does not end in backslash-dot and truthful LabelSequence pieces. False in general of the code: C03_refuted_text (an escaped trailing dot gives a 256-byte name), C03_refuted_relative and C03_refuted_nul (LabelSequence::concat_all returns a Name without root label)."
 },
 "C08": {
  "status": "partial",
  "note": "A total order, in both builds, on every set of labels without overflowing octets (C08_calm_partial with C08_signed_total; on ASCII it is RFC 4034's canonical order, C08_cmp_is_canonical_order_partial). A debug build answers that order or panics (C08_debug_partial). False in general: the i8 byte difference overflows (panic in debug, cyclic and not even antisymmetric order in release): C08_refuted, C08_antisymmetry_refuted. The exact outcome for arbitrary octets is C08_cmp_exact_partial; equality is right for all octets (C08_equal_partial)."
 },
 "C09": {
  "status": "partial",
  "note": "Proved for all bytes in release arithmetic; in debug arithmetic for ASCII names and, more generally, for any set of labels no two of which overflow (C09_calm_partial); debug builds panic on some non-ASCII names (C09_refuted_debug); C09_debug_exact_partial says exactly when."
 },
 "C10": {
  "status": "partial",
  "note": "If direction proved, exact behaviour characterised; the only-if direction is false of the code (C10_refuted: ab. is reported to be below b.)."
 },
 "C12": {
  "status": "partial",
  "note": "All operations proved for all arguments (split, parent, strip_*, concat...). False in two corners: in a debug build parent(level) with level > label_count panics instead of returning an error (C12_parent_refuted; in a release build it errors, C12_parent), and split(i, k) panics in both builds when i + k does not fit into a usize (C12_split_usize_refuted), e.g. split(1, usize::MAX)."
 },
 "C17": {
  "status": "partial",
  "note": "Backslash-free grammar proved in both directions, as claimed. Escapes do not mean in the code what the claim says (C17_refuted); C17_escapes_exact_partial says for every text exactly which name or error it gives (reading rule in SpecEsc.v)."
 },
 "C18": {
  "status": "partial",
  "note": "Display specified for all names. The round trip holds for exactly those names none of whose characters needs an escape (C18_round_trip_exact_partial, an equivalence); for all others it fails (C18_refuted) because the parser mishandles escapes."
 },
 "C20": {
  "status": "partial",
  "note": "split, partition/rebuild and all error cases proved for non-empty pieces whose is_absolute is truthful; the empty sequence panics (C20_refuted_empty) and a trailing NUL byte is mistaken for the root (C03_refuted_nul); split(i, k) with i + k above usize::MAX panics (C20_split_usize_refuted)."
 },
 "C60": {
  "status": "partial",
  "note": "reset proved equal to a fresh renderer after every history, truncations included (C60_any_calls_reset_partial); after any calls whatever no call panics (C60_any_calls_no_panic_partial) and names written without compression are appended exactly (C60_any_calls_plain_name_partial); a truncate that cuts off no name leaves a renderer reachable without any truncation, and every later name that fits is written and decodes to itself (C60_truncate_partial, C60_truncate_names_partial). Missing because false of the code: a truncate that cuts off a name leaves stale offsets in the compression table, so later compressed writes can fail although there is room (C60_truncate_refuted), loop for ever (C60_truncate_refuted_hang) or succeed with octets that do not decode (C60_truncate_refuted_corrupt)."
 },
 "C24": {
  "status": "partial",
  "note": "Proved for every named RRType except CERT, every named RRClass and every Rcode, in any letter case; RRType::CERT prints as URI (C24_cert_refuted). The accepted texts are characterised exactly (C24_*_accepts): the spellings of the IANA mnemonic, which because of Unicode upper-casing include a long s for S and a dotless i for I (C24_long_s_refuted), so 'only case variants' holds for ASCII texts."
 },
 "C61": {
  "status": "partial",
  "note": "Proved when no two different names among those written (and their ancestors) share the 32-bit hash and the length; false otherwise (C61_hash_collision_refuted: after bafz. and three bagd., the fourth bagd. is refused at length 24 of 512)."
 },
 "C30": {
  "status": "proved",
  "note": "Every outcome for every buffer size; the panic is the subject of C31, C64 shows when rendering is complete."
 },
 "C31": {
  "status": "partial",
  "note": "False of the code (C31_refuted): OutputBuffer::truncate(pos) refuses pos == len, so Response::truncate's unwrap panics. Proved: the panicking capacities are exactly an interval [head_size, head_size+k), k <= 255, k = 0 iff there are no records."
 },
 "C32": {
  "status": "partial",
  "note": "All but the last clause proved for every accepted message (order, grouping, owner/class/TTL of the first record of each run, exactness when runs are uniform). TTL and class of later records of a run are dropped by the code (C32_refuted)."
 },
 "C33": {
  "status": "partial",
  "note": "Exact acceptance condition proved (iff). The code checks only the first record of answer/authority and adjacent OPT records: C33_opt_in_answer_refuted, C33_two_opts_refuted."
 },
 "C34": {
  "status": "partial",
  "note": "Round trip and exact outcome for every buffer proved; question and answer counts are enforced, the authority count is not (C34_refuted)."
 },
 "C64": {
  "status": "partial",
  "note": "Proved unless two different names (or ancestors) in the response share hash and length; refuted otherwise (C64_refuted: 122 octets truncated in a 512-octet buffer)."
 },
 "C36": {
  "status": "partial",
  "note": "Proved when no OPT rrset is in the additional section before and later calls leave that section alone, and exactly when get_edns sees which value is characterised (an equivalence) for all programs that do not take anything out of the additional section (C36_exact_partial). The full claim is false of the code: a second edns call keeps the first value (C36_twice_refuted); an rrset added to the additional section later hides the OPT record from get_edns (C36_hidden_refuted)."
 },
 "C37": {
  "status": "proved",
  "note": "Counts for every builder program (C37_counts, sections below 65536 records); programs without remove_rrset_by/with_section callbacks give fully consistent responses (C37_consistent), for which C27-C34 describe the bytes of to_wire."
 },
 "C40": {
  "status": "partial",
  "note": "What size_hint says and what is really left after any interleaving of next and next_back is proved exactly (C40_exact_partial): the hint counts what next has taken but not what next_back has, because it ignores back_index. So it is exact as long as only next is called (C40_front_partial) and false after a next_back (C40_back_refuted)."
 },
 "C41": {
  "status": "partial",
  "note": "Exact characterisation (equal iff same owner, type and multiset of data up to case of names) for < 4 rdatas when the left one has no duplicates, and for >= 4 rdatas whose names do not overflow the octet comparison, for every sorting function with the contract of sort_unstable; C41_small_exact_partial says what is decided below 4 rdatas in all cases. False with duplicates below 4 rdatas: not symmetric (C41_refuted)."
 },
 "C58": {
  "status": "partial",
  "note": "Proved for every rrset whose content text can carry (text_rrset: names of plain characters, types with a readable mnemonic, non-empty binaries and strings, quoted binaries up to 255 octets), with the exact line format, and for no other rrset (C58_exact_partial, an equivalence). False outside it: C58_refuted (empty salt, CERT, empty character string, unknown class print text that does not parse). The exact line of every other record in range is given by C58_every_rrset_partial."
 },
 "C59": {
  "status": "partial",
  "note": "Exact characterisation of from_strs proved for non-empty lists: only the types are compared. The rest of the claim is false: C59_same_owner_class_refuted (owner, class and ttl of later lines are ignored; an empty list panics)."
 },
 "C66": {
  "status": "partial",
  "note": "Exact: for every text, C66_rrset_from_str_exact_partial (and the rdata and from_strs versions) say which lines panic - a blank text in debug builds, or an RRSIG line whose fields are in order up to a time of 14 bytes with a character across the end of a group of digits - and that no other text panics or loops; all ASCII text is safe (C66_rrset_from_str_ascii_partial). The full property is false: C66_rrsig_time_refuted, C66_blank_debug_refuted, and no lines at all (C59_same_owner_class_refuted)."
 },
 "C43": {
  "status": "proved",
  "note": "Exact grammar of accepted quoted strings, round trip for every content of 1..255 octets; the empty string and white space after the last string are refused (C43_empty_refused, C43_trailing_space_refused)."
 },
 "C47": {
  "status": "partial",
  "note": "Proved for all histories whose labels do not overflow the octet comparison (all ASCII labels, all labels over 128-255, and every mixed set without an overflowing pair; both builds), and for names of any octets in the debug build, where a call may instead panic in the overflow check (the _debug_any theorems). Outside that, false of the code: the release build loses entries (C47_nonascii_release_refuted), the debug build panics (C47_nonascii_debug_refuted), because siblings are ordered by an i8 difference."
 },
 "C48": {
  "status": "partial",
  "note": "Proved for all histories whose labels do not overflow the octet comparison (all ASCII labels, all labels over 128-255, and every mixed set without an overflowing pair; both builds), and for names of any octets in the debug build, where a call may instead panic in the overflow check (the _debug_any theorems). False of the release build when octets overflow (C48_nonascii_refuted)."
 },
 "C49": {
  "status": "partial",
  "note": "Proved for all histories whose labels do not overflow the octet comparison (all ASCII labels, all labels over 128-255, and every mixed set without an overflowing pair; both builds), and for names of any octets in the debug build, where a call may instead panic in the overflow check (the _debug_any theorems). Removing a name that has a node clears exactly its value; a name with no enclosing node changes nothing; C49_closest_partial says what happens in all cases. False of the code: removing an absent name below a stored one removes the stored one (C49_absent_name_refuted)."
 },
 "C51": {
  "status": "partial",
  "note": "Proved for all histories without clear (any names, both builds), as an upper bound for all, and exactly across clears (C51_clear_exact_partial): the count before a clear stays in len for good. The full claim is false of the code: clear does not reset len (C51_clear_refuted)."
 },
 "C52": {
  "status": "partial",
  "note": "Proved for all histories whose labels do not overflow the octet comparison (all ASCII labels, all labels over 128-255, and every mixed set without an overflowing pair; both builds), and for names of any octets in the debug build, where a call may instead panic in the overflow check (the _debug_any theorems). The original is intact, the clone agrees on NotFound and on exact matches it reports, and completely for trees of one node; what the copy contains is said exactly (C52_exact_partial: the topmost entry only). False of the code: entries below the top node are lost (C52_lost_entries_refuted), cloning an empty tree dereferences null, removing from a clone walks off the tree (C52_remove_from_clone_refuted)."
 },
 "C53": {
  "status": "proved",
  "note": "Proved for all histories over all legal names, both builds: the release build completes every history and all links and flags are consistent after it (C53_any_names, C53_links). The debug build does the same or stops in the overflow check of the octet subtraction (C53_debug_panic_is_overflow: with that check made an error, no pointer, index or assertion fails; C53_debug_panic_needs says which labels it takes; C53_debug_can_panic that it happens)."
 },
 "C54": {
  "status": "partial",
  "note": "Proved for all histories whose labels do not overflow the octet comparison (all ASCII labels, all labels over 128-255, and every mixed set without an overflowing pair; both builds), and for names of any octets in the debug build, where a call may instead panic in the overflow check (the _debug_any theorems). Needs labels that do not end in NUL, and the found node popped off the chain as the code's own users do. False without the pop (labels appear twice, C54_without_pop_refuted) and for labels ending in NUL (panic, C54_nul_refuted)."
 },
 "C55": {
  "status": "partial",
  "note": "Proved for every callback, for all histories whose labels do not overflow the octet comparison (all ASCII labels, all labels over 128-255, and every mixed set without an overflowing pair; both builds), and for names of any octets in the debug build, where a call may instead panic in the overflow check (the _debug_any theorems). Needs labels that do not end in NUL; with such a label it panics (C55_nul_refuted)."
 },
 "C68": {
  "status": "partial",
  "note": "Proved for all legal names and both builds: drop frees each node of the tree once and nothing else, and everything when no name was removed. False of the code in general: removed nodes are never freed (C68_remove_leaks_refuted)."
 },
 "C69": {
  "status": "proved",
  "note": "The functions of other crates that print addresses, base64 and times are a parameter."
 },
 "C70": {
  "status": "proved",
  "note": ""
 },
 "C71": {
  "status": "proved",
  "note": ""
 },
 "C72": {
  "status": "partial",
  "note": "The exact text of every message in range, whatever its records, is given (C72_every_message_partial; header, EDNS, question and record lines in SpecShown.v/SpecDisplay.v); that each line reads back as its record is proved for the records that text can carry (C72_message_text_partial; for exactly these, see C58_exact_partial). Every part starting on its own line is false: with EDNS the question title is on the EDNS line (C72_title_line_refuted)."
 },
 "C73": {
  "status": "partial",
  "note": "Proved injective for messages without OPT records, with named types and classes and records that text can carry; with OPT records C73_exact_partial says exactly (an equivalence) which messages share their text: those that differ at most in what of OPT records is not printed. False otherwise: unassigned types all print as Unknown and the extended rcode is not printed (C73_refuted)."
 },
 "C74": {
  "status": "partial",
  "note": "Proved for all histories whose labels do not overflow the octet comparison (all ASCII labels, all labels over 128-255, and every mixed set without an overflowing pair; both builds), and for names of any octets in the debug build, where a call may instead panic in the overflow check (the _debug_any theorems). Refuted for the release build with overflowing octets, where an inserted node may not be found again (C74_non_ascii_refuted)."
 },
 "C75": {
  "status": "partial",
  "note": "Proved for all histories whose labels do not overflow the octet comparison (all ASCII labels, all labels over 128-255, and every mixed set without an overflowing pair; both builds), and for names of any octets in the debug build, where a call may instead panic in the overflow check (the _debug_any theorems). Refuted for nodes without a value: deleting another name can take such a node out of the tree (it is then leaked, C68)."
 },
 "C76": {
  "status": "proved",
  "note": ""
 },
 "C77": {
  "status": "partial",
  "note": "Proved for NOTIFYs without SOA. Refuted with an SOA: the answer count 1 is taken over but no record is written, so the bytes never decode, for any zone, id, SOA and buffer."
 },
 "C78": {
  "status": "proved",
  "note": ""
 },
 "C79": {
  "status": "partial",
  "note": "Proved without remove_rrset_by, and with it up to emptied sections. Refuted exactly there: remove_rrset_by leaves Some(vec![]), which decodes to None."
 },
 "C80": {
  "status": "partial",
  "note": "Refuted for opcode and rcode: they keep their values and are still encoded. Everything else is proved."
 },
 "C81": {
  "status": "partial",
  "note": "Exact: with nothing assumed about the text, a parsed rrset is in range if and only if every name in it has at most 255 octets and every length-prefixed binary at most 255 (C81_exact_partial, C81_many_exact_partial, C81_name_partial); text without backslash never gives a longer name (C81_one_partial). Refuted otherwise: an escaped final dot makes an owner of 256 octets, and a 256-octet NSEC3PARAM salt is accepted although its length octet cannot hold the length."
 },
 "C82": {
  "status": "partial",
  "note": "Exact program, head and round trip proved for all texts whose names have at most 255 octets, whose hex fields fit their length octet and that are not OPT text (each proviso is needed, C81). Refuted: udp_size of 65536 or more is cut to 16 bits."
 },
 "C83": {
  "status": "partial",
  "note": "Equality proved for all sequences. Total order proved for all octets that do not overflow, canonical order for ASCII; exact behaviour (signed octets, overflow) proved for all octets; refuted: panic on octets whose signed difference overflows and on the empty sequence split can leave (debug builds)."
 },
 "C84": {
  "status": "partial",
  "note": "Equality proved in full; total order proved for names whose octets do not overflow. Refuted otherwise: three NS records in a cycle (release) and a panic (debug)."
 },
 "C85": {
  "status": "partial",
  "note": "Proved for types made by RRType::new or a mnemonic (all decoded and parsed types). Refuted: RRType::Unknown(1) compares Equal to RRType::A but is not == to it."
 },
 "C86": {
  "status": "proved",
  "note": "For all names and non-empty label sequences (those the API makes)."
 },
 "C87": {
  "status": "partial",
  "note": "Count and relation proved for all octets (whenever compare returns); exact order and exact panic condition proved for all octets in both builds; canonical order proved for ASCII. Refuted in general: octets whose signed difference overflows make a debug build panic and a release build order two slices inconsistently."
 },
 "C88": {
  "status": "partial",
  "note": "Display proved for all non-empty sequences; from_str characterised exactly for all texts; the round trip proved to hold exactly if no character needs an escape (sequences that fit a name). Refuted otherwise: the relative sequence of the label \"a.\" comes back absolute; Display of the empty sequence that split can leave panics."
 },
 "C89": {
  "status": "proved",
  "note": "For all octets and both builds. len() itself is C51."
 },
 "C90": {
  "status": "partial",
  "note": "Proved for all label sets without overflow (e.g. ASCII) in both builds and for all octets in debug builds whenever the search does not panic; with callbacks, for labels not ending in a NUL octet (cf. C54). Refuted in release builds for octets over 127 (8-bit differences are not an order)."
 },
 "C91": {
  "status": "proved",
  "note": "bottom on an empty chain does not panic: it returns whatever is in the first slot."
 },
 "C92": {
  "status": "partial",
  "note": "Appending octets never changes the result (proved), and octets from 256 behind the end of the message on never matter (proved). Refuted for the octets just behind the message: a compression pointer to the middle of a name may start a label that runs past the last record, so two datagrams with the same message but different trailers can decode differently."
 },
 "C93": {
  "status": "proved",
  "note": ""
 },
 "C94": {
  "status": "proved",
  "note": "No hypothesis about hash collisions: a collision may make rendering fail (C61), but never makes a name longer."
 },
 "C95": {
  "status": "proved",
  "note": "The eleven codecs of rdatafield, name_uncompressed included. The macro's token parsing (parser.rs) is not modelled."
 },
 "C96": {
  "status": "proved",
  "note": "The while loop cut off after k passes (SpecWork.v) gives the same answer as the uninterrupted call for every k from the bound on."
 },
 "C97": {
  "status": "partial",
  "note": "Proved for rrsets whose names need no escaping and that neither are CERT nor sign CERT; among rrsets in range exactly these survive (C97_exact_partial). Missing because false of the code: printing and parsing a name with an escaped character doubles that character (a@b -> a@@b -> a@@@@b), and CERT is printed as URI, which is refused (C97_refuted)."
 },
 "C98": {
  "status": "proved",
  "note": ""
 },
 "C99": {
  "status": "partial",
  "note": "Requests and notify responses: in full. Responses and notify requests: exactly what == decides is proved. Missing because false of the code: classes are not compared, so responses whose EDNS records differ in UDP size, DO bit and extended rcode are equal (C99_refuted); repeated records in small rrsets and overflowing octets in large ones, as in C41."
 },
 "C100": {
  "status": "partial",
  "note": "Proved for every history in which no bucket of the table has received more than 15 names and no two different names collide in hash and length. Missing because false of the code: once 15 names fell into one of the 64 buckets further names of that bucket are never found again and are written in full each time (C100_bucket_refuted); a collision makes the lookup fail (C61)."
 },
 "C101": {
  "status": "proved",
  "note": "Values text can carry: in-range fields with names of plain characters, readable type mnemonics, non-empty binaries and strings, quoted strings of at most 255 octets (other values are C58's). External parsers through ext_ok."
 },
 "C102": {
  "status": "proved",
  "note": "find_node_ext_within / find_within (SpecTreeWork.v) give up after k passes of the loop.  C102_bound: giving up after the bound or later never changes the answer, for every callback; C102_find: the call without callback ends.  C102_insert: the same for insert (insert_within), whose search takes two passes more at most and whose repair loop at most 2 log2 (len+2) + 1.  C102_remove: remove (remove_within): at most 128 rounds, each with three walks of at most 2 log2 (len+1) passes."
 },
 "C103": {
  "status": "proved",
  "note": "final (SpecBuild.v) is the value left by the last call that sets something.  remove_rrset_by and with_section take pure functions."
 },
 "C104": {
  "status": "proved",
  "note": "MacroModel.v models the parser over abstract tokens, the emitted statements, rustc's name and type check of them (only what the emitted code uses), and their execution with an environment of local variables.  Identifiers with non-ASCII letters are taken to be refused by Ident::new.  rustc's other checks (visibility, traits in scope) are not modelled."
 },
 "C105": {
  "status": "partial",
  "note": "Proved: to_wire writes exactly one record always, hence rr_count is right exactly if options is None or holds one option; every decoded Edns is such.  Refuted for options = Some(k), k <> 1: rr_count answers k (it counts options, which to_wire drops).  The model keeps of the options only their number."
 },
 "C106": {
  "status": "partial",
  "note": "Proved for names whose labels cannot overflow in comparison (all ASCII) in both builds, and for all names in the build with overflow checks unless it panics.  Refuted: find and get_value_mut take shared references, so two results for one entry give two mutable references to the same value at once."
 },
 "C107": {
  "status": "proved",
  "note": "str::parse::<u32> is modelled in TextModel.v (parse_uint)."
 },
 "C108": {
  "status": "proved",
  "note": "left_str is stated for valid UTF-8 (a &str)."
 },
 "C45": {
  "status": "partial",
  "note": "C45_* are exact for unbounded arguments, C45_usize_partial for every usize argument whose end position fits into a usize; read_bytes(n) with pos + n above usize::MAX panics instead of failing (C45_usize_refuted)."
 },
 "C46": {
  "status": "partial",
  "note": "C46_* are exact for unbounded arguments, C46_usize_partial for every usize argument whose end position fits into a usize; near usize::MAX skip panics (debug) or succeeds and drops written bytes (release) (C46_skip_usize_refuted), and write_u16_at panics (C46_at16_usize_refuted)."
 },
 "C109": {
  "status": "partial",
  "note": "Proved: for any history, any names and either build cmp is exactly the comparison of the labels stored at the two nodes (relative to the node above), partial_cmp the same, == is identity of nodes; over labels that cannot overflow in comparison (all ASCII) the nodes of each level come in strictly increasing order.  Refuted: nodes of different levels compare by their relative labels only, so different nodes compare Equal (cmp not compatible with ==) and the order is not that of the names; a null handle is dereferenced; in the release build two siblings with octets over 127 can each be less than the other."
 },
 "C110": {
  "status": "partial",
  "note": "Proved for any history, any names, either build: get_upper_node is the node that the node hangs below, and the labels of the node and of the nodes above spell the entry's name; that this is the closest stored ancestor over labels that cannot overflow (both builds) and over all names in the build with overflow checks.  Refuted for the release build with octets over 127, where the ancestor may have been inserted elsewhere."
 },
 "C111": {
  "status": "proved",
  "note": "Both directions, and the refused inputs.  The relation is written over octets (header_at, question_at, rr_at, message_at, grouped) without the decoders; `acceptable` spells out the decoder's OPT and empty-rdata rules, which are laxer than the RFC (C33), and class and TTL of later records of a run are dropped (C32)."
 },
 "C112": {
  "status": "partial",
  "note": "Proved for names without escapes and no CERT records, from decoded messages (C112_rebuild) and all the way from text to text (C112_text_wire_text); refuted for CERT (printed as URI, the line is then refused) and for names with escaped characters (the printed name parses to a longer one). C112_exact_partial: of all messages in range, exactly these are rebuilt (the printed lines given back to build make the message iff it is a text_message); C112_size_partial: with exactly one UDP size."
 },
 "C113": {
  "status": "partial",
  "note": "Proved for the types without names, after any history (C113_no_names). False of the code for all six later types that hold names (C113_refuted): every name field is written with compression switched on. C113_exact_partial says exactly when the octets are plain, for every type, given the provisos of C100 (no hash collision, no full bucket, message within the reach of pointers): if and only if no name in the data ends in a name already in the message or in an earlier name of the same data."
 },
 "C114": {
  "status": "proved",
  "note": "A table item always points at plain labels that end in the root or in one pointer to such a place (never a pointer to a pointer), so next_label follows at most one pointer. Truncation is excluded because it leaves items pointing at what was cut off: see C60_truncate_refuted_hang, C60_hang_any_fuel for the endless loop."
 },
 "C115": {
  "status": "proved",
  "note": "The bound is quadratic in the length because the code is: C115_ex is a response of 1033 octets that takes more than ten steps per octet."
 },
 "C116": {
  "status": "proved",
  "note": "Writing an octet is free: the number of octets written is bounded by the message itself (C28)."
 },
 "C117": {
  "status": "partial",
  "note": "Proved for requests, and for responses without records, behind any calls that write no name. False for responses with records (C117_refuted): behind two octets compression pointers are off by two, and a truncated response has its identifier and question count overwritten (C117_truncated_refuted), since truncation patches octets 2, 6, 8 and 10 of the buffer."
 },
 "C118": {
  "status": "partial",
  "note": "Proved for all responses whose records have data that RDLENGTH can count (65535 octets, names counted with one octet more than their own length), without any bound on the message or the buffer (C118_outcome_partial; the panic is C31's), and, without hash collisions, that such a response is written in full whenever it fits (C118_fits_partial). False otherwise (C118_refuted): any DNSKEY with a key of more than 65531 octets is reported as written, with RDLENGTH cut to 16 bits, while no octets at all decode to it (C118_decoded_partial). Decoding a message of at most 65000 octets, encoding into any buffer and decoding again gives the same response, or its head with TC (C118_reencode_partial). For records whose data holds no names the condition is exact (C118_exact_partial)."
 },
 "C119": {
  "status": "proved",
  "note": "OutputBuffer::skip is excluded: what it reserves shows the old contents until it is patched (C119_skip_shows); the encoders always patch."
 },
 "C120": {
  "status": "proved",
  "note": "A panic is modelled as leaving the state the failing step left (as after catch_unwind)."
 }
}