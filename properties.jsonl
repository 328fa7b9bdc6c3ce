{"id": "C01", "title": "Name::from_wire is total on arbitrary bytes", "statement": "Calling Name::from_wire on any byte buffer at any cursor position returns Ok or Err; it never panics, never reads outside the buffer and always terminates, whatever compression pointers (self-referencing, forward, chained, mutually recursive) the bytes contain; afterwards the cursor is still inside the buffer.", "quantifier": "every byte string, every start position inside it", "why_tests_cant": "hostile pointer graphs are unbounded; fuzzing samples them", "anchors": ["src/name.rs: Name::from_wire", "src/util/input_buffer.rs"]}
{"id": "C02", "title": "Name::from_wire decodes exactly the RFC 1035 wire format", "statement": "Name::from_wire succeeds iff a (possibly compressed) name whose pointers go strictly backwards and whose expanded length is <= 255 starts at the cursor; it then returns exactly the labels that the wire format denotes and leaves the cursor just after the name's own bytes (after the first pointer, if any).", "quantifier": "every byte string and start position, both directions (soundness and completeness)", "why_tests_cant": "needs equality with a specification on all inputs", "anchors": ["src/name.rs: Name::from_wire"]}
{"id": "C03", "title": "Names obtained from the API are well formed", "statement": "Every Name obtained through the public constructors and transformations (root, Name::new, from_wire, concat_all, reverse, split, parent, strip_left, strip_right, into_ancestor, into_child, as_lowercase, LabelSequence::concat_all) obeys the DNS limits: labels of 1..63 bytes, wire length <= 255, at most 128 labels, offset table consistent with the raw bytes.", "quantifier": "every finite composition of API calls starting from any text or wire input", "why_tests_cant": "closure over unbounded compositions of operations", "anchors": ["src/name.rs: Name", "src/label_sequence.rs: LabelSequence::concat_all"]}
{"id": "C04", "title": "Uncompressed wire round trip of names", "statement": "Decoding the raw bytes of a well-formed Name (followed by any other bytes, preceded by any other bytes) gives back that same Name, byte for byte, and consumes exactly its length.", "quantifier": "every well-formed name, every surrounding context", "why_tests_cant": "all names up to 255 bytes cannot be enumerated", "anchors": ["src/name.rs: Name::from_wire, raw_data"]}
{"id": "C05", "title": "Name compression is transparent", "statement": "For any sequence of names written to one MessageRender with or without compression (interleaved with any other payload writes that append bytes), every name that was written successfully decodes, at the position where it was written, to exactly the name given (case preserved) and the decoder ends exactly where the renderer ended.", "quantifier": "every sequence of write operations, every buffer capacity, every hash collision pattern of the compression table", "why_tests_cant": "depends on unbounded history and on 32-bit hash collisions", "anchors": ["src/message_render.rs: MessageRender::write_name, find_offset, add_offset, NameComparator"]}
{"id": "C06", "title": "Name equality is case-insensitive label equality", "statement": "Two well-formed names compare equal iff they have the same labels up to ASCII letter case; equality is reflexive, symmetric and transitive.", "quantifier": "all pairs/triples of well-formed names", "why_tests_cant": "universal law over all name pairs", "anchors": ["src/name.rs: impl PartialEq for Name, lower_case"]}
{"id": "C07", "title": "Hash agrees with equality", "statement": "Equal names feed identical byte streams to any Hasher (so HashMap/HashSet lookups by name are sound), and for well-formed names identical streams imply equal names.", "quantifier": "all pairs of well-formed names", "why_tests_cant": "universal over pairs", "anchors": ["src/name.rs: impl Hash for Name"]}
{"id": "C08", "title": "Ord on Name is a total order consistent with Eq", "statement": "Name::cmp never panics, is antisymmetric, transitive, total and returns Equal exactly for equal names, i.e. it can be used with BTreeMap/sort; it is the DNSSEC canonical order.", "quantifier": "all triples of well-formed names, debug and release arithmetic", "why_tests_cant": "transitivity over all triples of byte strings", "anchors": ["src/name.rs: impl Ord for Name", "src/label_slice.rs: LabelSlice::compare"]}
{"id": "C09", "title": "get_relation classifies names correctly", "statement": "get_relation(a,b) reports the number of trailing labels (root included) the two names share ignoring case, and Equal/SubDomain/SuperDomain/CommonAncestor according to whether one is a suffix of the other.", "quantifier": "all pairs of well-formed names", "why_tests_cant": "universal over pairs of label sequences", "anchors": ["src/name.rs: get_relation", "src/label_slice.rs: compare"]}
{"id": "C10", "title": "is_subdomain means label-suffix", "statement": "a.is_subdomain(b) is true iff b's labels are a (case-insensitive) suffix of a's labels.", "quantifier": "all pairs of well-formed names", "why_tests_cant": "an iff over all pairs; a test with a lucky pair cannot reveal misaligned suffixes", "anchors": ["src/name.rs: Name::is_subdomain"]}
{"id": "C11", "title": "concat joins labels", "statement": "self.concat_all(suffixes) for a non-empty list of suffixes returns the name whose labels are self's followed by the suffixes' in order when the result is at most 255 bytes, and an error otherwise; it never panics.", "quantifier": "all names and all lists of suffixes", "why_tests_cant": "unbounded argument lists", "anchors": ["src/name.rs: concat_all, concat"]}
{"id": "C12", "title": "split / parent / strip / into_* select the right labels", "statement": "split(i,k), parent(i), strip_left(k), strip_right(k), into_ancestor(k), into_child(k) return exactly the corresponding sub-list of labels (re-rooted), with an error (split, parent) or documented assertion (strip, into) exactly for out-of-range arguments; cutting a name in two and concatenating gives the name back.", "quantifier": "all names and all indices", "why_tests_cant": "all lengths and index combinations", "anchors": ["src/name.rs: split, parent, strip_left, strip_right, into_ancestor, into_child"]}
{"id": "C13", "title": "reverse reverses labels and is an involution", "statement": "reverse returns the name with the non-root labels in reverse order; reversing twice gives the original.", "quantifier": "all well-formed names", "why_tests_cant": "universal", "anchors": ["src/name.rs: reverse"]}
{"id": "C14", "title": "as_lowercase is a canonical form", "statement": "as_lowercase changes only ASCII upper-case letters inside labels, yields a name equal to the original, is idempotent, and two names are equal iff their lower-case forms are byte-identical.", "quantifier": "all well-formed names", "why_tests_cant": "universal over pairs", "anchors": ["src/name.rs: as_lowercase"]}
{"id": "C15", "title": "is_wildcard / is_root / label_count describe the labels", "statement": "is_wildcard is true iff the first label is exactly \"*\"; is_root iff there are no labels but the root; label_count and len are the number of labels (root included) and the wire length.", "quantifier": "all well-formed names", "why_tests_cant": "universal", "anchors": ["src/name.rs: is_wildcard, is_root, label_count, len"]}
{"id": "C16", "title": "Name::new never panics", "statement": "Parsing any string as a name returns Ok or Err: no assertion, index or arithmetic failure is reachable and parsing terminates.", "quantifier": "every string (every byte sequence)", "why_tests_cant": "state machine with asserts over unbounded inputs", "anchors": ["src/name.rs: string_parse, Name::new"]}
{"id": "C17", "title": "Name::new implements the presentation grammar", "statement": "Name::new(s) for text without escapes accepts exactly the dot-separated sequences of labels of 1..63 bytes with total wire length <= 255 (optional trailing dot; \".\" and \"@\" denote the root) and returns those labels; with escapes, \\c denotes the literal character c and \\DDD the byte with that decimal value.", "quantifier": "every string", "why_tests_cant": "grammar over all strings", "anchors": ["src/name.rs: string_parse"]}
{"id": "C18", "title": "Display and parse of names round trip", "statement": "Name::new(n.to_string()) == n, byte for byte.", "quantifier": "every well-formed name", "why_tests_cant": "universal over names incl. special and non-printable bytes", "anchors": ["src/label_slice.rs: impl Display", "src/name.rs: string_parse"]}
{"id": "C19", "title": "Textual output is valid ASCII/UTF-8", "statement": "Every byte produced by Display for Name/LabelSequence, by the character-string formatter and by to_hex is ASCII, so the unsafe from_utf8_unchecked conversions are sound.", "quantifier": "all label contents, all binary data", "why_tests_cant": "memory-safety obligation over all byte values and lengths", "anchors": ["src/label_slice.rs: fmt", "src/rdatafield/string_encode.rs: string_to_str", "src/util/hex.rs: to_hex"]}
{"id": "C20", "title": "LabelSequence split/concat_all partition a name", "statement": "LabelSequence::split(i,k) removes exactly labels i..i+k from the sequence and returns them; concat_all of the pieces of a name in order rebuilds that name; the final piece must be absolute and no other may be, and any violation is an error, not a panic.", "quantifier": "all names, all ways to cut them", "why_tests_cant": "unbounded cuts", "anchors": ["src/label_sequence.rs: split, concat_all, is_absolute", "src/name.rs: into_label_sequence"]}
{"id": "C21", "title": "Header wire round trip", "statement": "Header::from_wire(Header::to_wire(h)) == h for every header whose flag word uses only flag bits; decoding any 12 bytes and encoding again preserves id, counts, all seven flag bits and every assigned opcode/rcode.", "quantifier": "all headers; all 12-byte strings", "why_tests_cant": "2^96 inputs", "anchors": ["src/header.rs", "src/opcode.rs", "src/rcode.rs"]}
{"id": "C22", "title": "Header flags are independent", "statement": "set_flag/clear of one HeaderFlag makes is_flag_set report it, changes no other flag and leaves opcode, rcode, id and counts untouched; setted_flags lists exactly the set ones.", "quantifier": "all flag words and flags", "why_tests_cant": "universal", "anchors": ["src/header.rs: set_flag", "src/header_flag.rs"]}
{"id": "C23", "title": "RRType / RRClass / Opcode / Rcode numeric codes round trip", "statement": "RRType::new(v).as_u16() == v for every u16 v and RRType::new(t.as_u16()) == t for every t except an Unknown that wraps an assigned code, same for RRClass; the codes are the IANA ones; Opcode/Rcode are injective on assigned values.", "quantifier": "all 65536 codes", "why_tests_cant": "exhaustive", "anchors": ["src/rr_type.rs", "src/rr_class.rs", "src/opcode.rs", "src/rcode.rs"]}
{"id": "C24", "title": "Mnemonics round trip", "statement": "Parsing the textual form of an RRType/RRClass/Rcode in any letter case gives back the value, for every value except Unknown.", "quantifier": "all values, all case variants", "why_tests_cant": "case variants are exponentially many", "anchors": ["src/rr_type.rs: to_str, from_str", "src/rr_class.rs", "src/rcode.rs"]}
{"id": "C25", "title": "Response::from_wire is total on arbitrary bytes", "statement": "Response::from_wire and Request::from_wire on any byte string return Ok or Err: no panic, no out-of-bounds access, no endless loop.", "quantifier": "every byte string", "why_tests_cant": "hostile input space is unbounded", "anchors": ["src/response.rs: Response::from_wire, Section::from_wire", "src/request.rs", "src/rrset.rs", "src/rdata.rs"]}
{"id": "C26", "title": "RData wire round trip", "statement": "For every supported record type, decoding the bytes written by RData::to_wire (with compression, at any place in a message) yields the same RData and consumes exactly the announced rdata length.", "quantifier": "all 22 record types, all field values, all rendering histories", "why_tests_cant": "all field contents and compression contexts", "anchors": ["src/rdata.rs", "src/rdatas.rs", "src/rdatafield/wire_encode.rs", "src/rdatafield/wire_decode.rs", "rdata-derive/src/expand.rs"]}
{"id": "C27", "title": "RData::from_wire enforces RDLENGTH", "statement": "RData::from_wire(typ, buf, len) never succeeds unless exactly len bytes were consumed, and a successful result carries the requested type.", "quantifier": "every byte string, type and length", "why_tests_cant": "universal over inputs", "anchors": ["src/rdata.rs: from_wire", "rdata-derive/src/expand.rs"]}
{"id": "C28", "title": "Message wire round trip", "statement": "If Response::to_wire renders a consistent response completely, Response::from_wire of the bytes returns a response identical to the original (header, question, every rrset in order, names byte-exact).", "quantifier": "all consistent responses, all buffer capacities up to 65535", "why_tests_cant": "unbounded messages, shared compression state", "anchors": ["src/response.rs: to_wire, from_wire", "src/rrset.rs: to_wire"]}
{"id": "C29", "title": "Re-encoding a decoded message is lossless", "statement": "If from_wire accepts some bytes and the decoded response is rendered completely, decoding the rendered bytes gives the same response again.", "quantifier": "every accepted byte string", "why_tests_cant": "universal over inputs", "anchors": ["src/response.rs"]}
{"id": "C30", "title": "Truncation contract", "statement": "Whenever to_wire returns, the buffer holds either the whole message, or exactly header + question with the TC flag set, the id/opcode/rcode preserved and the three record counts zero; it returns an error exactly if not even header + question fit. Nothing else is ever produced. (That it always returns is C31.)", "quantifier": "all responses and all capacities (every point at which space runs out)", "why_tests_cant": "every possible overflow point", "anchors": ["src/response.rs: to_wire, truncate", "src/util/output_buffer.rs"]}
{"id": "C31", "title": "Response::to_wire never panics", "statement": "Rendering a consistent response into a buffer of any size returns Ok or Err, never a panic.", "quantifier": "all responses and all capacities", "why_tests_cant": "every overflow point", "anchors": ["src/response.rs: truncate", "src/util/output_buffer.rs: truncate"]}
{"id": "C32", "title": "Section decoding groups records faithfully", "statement": "Decoding a section of k records yields rrsets which, flattened, are those k records in order: consecutive records with equal owner and type are grouped, no record is lost, duplicated or reordered, and TTL and class of every record are retained.", "quantifier": "every accepted byte string", "why_tests_cant": "universal over record sequences", "anchors": ["src/response.rs: Section::from_wire", "src/rrset.rs: is_same_rrset"]}
{"id": "C33", "title": "OPT records are only accepted in the additional section, once", "statement": "A message with an OPT record in the answer or authority section, or with two OPT records, is rejected.", "quantifier": "every byte string", "why_tests_cant": "any position of the OPT record", "anchors": ["src/response.rs: Section::from_wire"]}
{"id": "C34", "title": "Requests round trip and reject non-queries", "statement": "Request::from_wire(Request::to_wire(q)) == q for requests with consistent counts; requests carrying answer or authority records, or not exactly one question, are rejected.", "quantifier": "all requests, all byte strings", "why_tests_cant": "universal", "anchors": ["src/request.rs"]}
{"id": "C35", "title": "EDNS conversion round trip", "statement": "Edns::from_rrset(e.to_rrset()) == e for every Edns without options, Edns::to_wire writes the same bytes as e.to_rrset().to_wire, and decoding those bytes gives e.", "quantifier": "all version/rcode/udp-size/DO values", "why_tests_cant": "2^33 values", "anchors": ["src/edns.rs"]}
{"id": "C36", "title": "EDNS set through the builder is visible", "statement": "After builder.edns(e) the response's get_edns returns e, whatever other builder calls precede or follow.", "quantifier": "all sequences of builder calls", "why_tests_cant": "unbounded histories", "anchors": ["src/response_builder.rs: edns, add_rrset", "src/response.rs: get_edns"]}
{"id": "C37", "title": "ResponseBuilder::done makes counts consistent", "statement": "After any sequence of builder operations followed by done, the header counts equal the number of records to_wire writes in each section.", "quantifier": "all sequences of builder operations", "why_tests_cant": "unbounded histories", "anchors": ["src/response_builder.rs", "src/response.rs: recalculate_header, Section::rr_count"]}
{"id": "C38", "title": "add_rrset never creates two rrsets with one owner and type", "statement": "Adding rrsets through the builder keeps at most one rrset per (owner, type) in a section, appends all rdata in order and touches no other section.", "quantifier": "all histories of add_rrset", "why_tests_cant": "unbounded histories", "anchors": ["src/response_builder.rs: add_rrset"]}
{"id": "C39", "title": "Response iterator is a double-ended queue over all rrsets", "statement": "Any interleaving of next and next_back on response.iter() yields each rrset exactly once, from the front and the back of answer ++ authority ++ additional, tagged with its section, and then None for ever.", "quantifier": "all responses, all schedules of next/next_back", "why_tests_cant": "all interleavings", "anchors": ["src/response_iter.rs"]}
{"id": "C40", "title": "Iterator length is exact", "statement": "ExactSizeIterator::len / size_hint equals the number of items still to be yielded at every moment.", "quantifier": "all responses, all schedules of next/next_back", "why_tests_cant": "all interleavings", "anchors": ["src/response_iter.rs: size_hint"]}
{"id": "C41", "title": "RRset equality is an equivalence that ignores order", "statement": "RRset equality is reflexive, symmetric and transitive and holds iff owner and type agree and the rdata are equal as multisets.", "quantifier": "all pairs of rrsets of any size", "why_tests_cant": "all permutations and sizes", "anchors": ["src/rrset.rs: impl PartialEq for RRset"]}
{"id": "C42", "title": "Hex codec", "statement": "from_hex(to_hex(d)) == Some(d) for all d; from_hex ignores white space, accepts both letter cases, and returns None exactly for odd digit counts or foreign characters.", "quantifier": "all byte strings", "why_tests_cant": "universal", "anchors": ["src/util/hex.rs"]}
{"id": "C43", "title": "Character-string codec", "statement": "Parsing the quoted text produced for a character-string gives back the same bytes for every content of 1..255 bytes, and likewise for TXT data with any number of strings.", "quantifier": "all byte contents", "why_tests_cant": "all contents incl. quotes, escapes, digits after escapes", "anchors": ["src/rdatafield/string_encode.rs: string_to_str, text_to_str", "src/util/string_buffer.rs: read_char_string, read_text"]}
{"id": "C44", "title": "String tokenizer", "statement": "StringBuffer::next yields exactly the maximal white-space-free substrings in order and never panics.", "quantifier": "all strings", "why_tests_cant": "universal", "anchors": ["src/util/string_buffer.rs: read_str"]}
{"id": "C45", "title": "InputBuffer never reads out of bounds", "statement": "Every InputBuffer operation keeps position <= len, returns big-endian values of exactly the bytes at the cursor, and fails without moving the cursor when too few bytes are left.", "quantifier": "all buffers and operation sequences", "why_tests_cant": "unbounded histories", "anchors": ["src/util/input_buffer.rs"]}
{"id": "C46", "title": "OutputBuffer is an append-only bounded log", "statement": "Every OutputBuffer write appends exactly its bytes (big endian) when they fit and otherwise fails without any visible effect; len never exceeds capacity and bytes already written are never changed except by write_*_at inside the written part.", "quantifier": "all operation sequences and capacities", "why_tests_cant": "unbounded histories", "anchors": ["src/util/output_buffer.rs"]}
{"id": "C47", "title": "DomainTree behaves as a map from names to values", "statement": "For any history of insert operations, find(name) reports ExactMatch with the latest value inserted under a (case-insensitively) equal name, insert returns the previous value, and names never inserted carry no value.", "quantifier": "all insertion histories, debug and release arithmetic", "why_tests_cant": "unbounded histories, rotations and node splits", "anchors": ["src/domaintree/tree.rs: insert, node_fission, insert_fixup, find_node_ext"]}
{"id": "C48", "title": "DomainTree::find returns the closest enclosing node", "statement": "find(name) returns PartialMatch with the deepest node whose name is a proper ancestor of the target when there is no exact node, and NotFound iff there is neither; any inserted ancestor is found.", "quantifier": "all trees built by any history, all targets", "why_tests_cant": "unbounded histories", "anchors": ["src/domaintree/tree.rs: find_node_ext"]}
{"id": "C49", "title": "DomainTree::remove deletes exactly the named entry", "statement": "remove(name) returns and clears the value stored under that name and leaves the values of all other names unchanged; removing an absent name changes nothing.", "quantifier": "all insert/remove histories", "why_tests_cant": "unbounded histories", "anchors": ["src/domaintree/tree.rs: remove, remove_node, remove_fixup", "src/domaintree/node.rs: exchange, connect_child"]}
{"id": "C50", "title": "DomainTree stays balanced", "statement": "After any history every level of the tree is a red-black tree: no red node has a red child, all paths have equal black height, so its height is at most 2*log2(n+1) for n siblings.", "quantifier": "all insert/remove histories", "why_tests_cant": "unbounded histories", "anchors": ["src/domaintree/tree.rs: insert_fixup, remove_fixup, left_rotate, right_rotate"]}
{"id": "C51", "title": "DomainTree::len counts nodes", "statement": "len() equals the number of nodes (terminal or not) after any history of insert/remove/clear.", "quantifier": "all histories", "why_tests_cant": "unbounded histories", "anchors": ["src/domaintree/tree.rs: len, clear"]}
{"id": "C52", "title": "DomainTree::clone is an independent equal copy", "statement": "A cloned tree answers every find like the original.", "quantifier": "all trees and all targets", "why_tests_cant": "unbounded", "anchors": ["src/domaintree/tree.rs: impl Clone", "src/domaintree/node.rs: deep_clone"]}
{"id": "C53", "title": "DomainTree pointer structure is sound", "statement": "No operation dereferences a null or dangling node pointer; parent, child, down pointers and subtree-root flags stay mutually consistent after every operation.", "quantifier": "all insert/find/remove histories", "why_tests_cant": "memory safety of unsafe code over unbounded histories", "anchors": ["src/domaintree/node.rs", "src/domaintree/tree.rs"]}
{"id": "C54", "title": "NodeChain::get_absolute_name rebuilds the stored name", "statement": "For a chain produced by find_node, get_absolute_name of the found node is the absolute name of that node.", "quantifier": "all trees and targets", "why_tests_cant": "unbounded", "anchors": ["src/domaintree/node_chain.rs: get_absolute_name", "src/label_sequence.rs: concat_all"]}
{"id": "C55", "title": "find_node_ext invokes the callback on every enabled proper ancestor", "statement": "During find_node_ext the callback runs exactly on the callback-enabled nodes that are proper ancestors of the target, top down, with their absolute names, until it returns true.", "quantifier": "all trees, targets and callbacks", "why_tests_cant": "unbounded", "anchors": ["src/domaintree/tree.rs: find_node_ext"]}
{"id": "C56", "title": "RandNameGenerator always yields a valid name", "statement": "Whatever the random source returns, the generated string parses as a Name (the unwrap cannot panic) of at most 255 wire bytes.", "quantifier": "every outcome of the random source", "why_tests_cant": "all random streams", "anchors": ["src/rand_name_generator.rs"]}
{"id": "C57", "title": "Decimal numbers in text round trip", "statement": "Parsing the decimal text of any u8/u16/u32 gives the number back; values out of range are errors.", "quantifier": "all numbers, all digit strings", "why_tests_cant": "universal", "anchors": ["src/rdatafield/string_encode.rs", "src/rdatafield/string_decode.rs", "src/rrset.rs: RRTtl"]}
{"id": "C58", "title": "RRset text round trip", "statement": "Parsing each line Display prints for an rrset gives back its owner, ttl, class, type and that rdata.", "quantifier": "all rrsets with printable content", "why_tests_cant": "universal", "anchors": ["src/rrset.rs: Display, FromStr, from_strs", "rdata-derive/src/expand.rs: derive_from_str, derive_to_str"]}
{"id": "C59", "title": "from_strs only merges records of one rrset", "statement": "RRset::from_strs succeeds only if all lines have the same owner, class and type, and then contains exactly their rdata in order.", "quantifier": "all lists of lines", "why_tests_cant": "unbounded lists", "anchors": ["src/rrset.rs: from_strs"]}
{"id": "C60", "title": "reset and truncate leave a usable renderer", "statement": "After MessageRender::reset the renderer behaves like a new one over the same buffer; after MessageRender::truncate names can again be written as long as they fit.", "quantifier": "every history of renderer calls", "why_tests_cant": "depends on unbounded histories of the compression table", "anchors": ["src/message_render.rs: reset, truncate, write_name"]}
{"id": "C61", "title": "A name that fits is written", "statement": "MessageRender::write_name (and Name::to_wire) returns Ok whenever the uncompressed encoding of the name fits into the unused part of the buffer, whatever was written before.", "quantifier": "every history of renderer calls, every name", "why_tests_cant": "depends on unbounded histories of the compression table", "anchors": ["src/message_render.rs: write_name, find_offset"]}
{"id": "C62", "title": "Record data is laid out as the RFCs say", "statement": "RData::to_wire writes the fields of each record type in the order and format its RFC gives (big-endian integers, length-prefixed character strings, names possibly compressed), with nothing between or after them.", "quantifier": "all 22 record types, all field values, all rendering histories", "why_tests_cant": "universal over values and histories", "anchors": ["rdata-derive/src/expand.rs: derive_to_wire", "src/rdatafield/wire_encode.rs", "src/rdata.rs"]}
{"id": "C63", "title": "Rendering does not depend on spare room", "statement": "If a consistent response is rendered completely into some buffer as n bytes, every buffer of at least n bytes receives exactly the same n bytes.", "quantifier": "all consistent responses, all pairs of buffers", "why_tests_cant": "universal over values and capacities", "anchors": ["src/response.rs: to_wire", "src/message_render.rs"]}
{"id": "C64", "title": "A response that fits is rendered completely", "statement": "If header, question and all records without any compression need at most as many bytes as the buffer has, to_wire renders the whole response, in at most that many bytes.", "quantifier": "all consistent responses and buffers", "why_tests_cant": "universal over values and capacities", "anchors": ["src/response.rs: to_wire, sections_to_wire", "src/message_render.rs: write_name, find_offset"]}
{"id": "C65", "title": "Notify messages decode to what they announce", "statement": "The bytes written by NotifyRequest::to_wire decode as a response with opcode Notify, the zone as the only question (type SOA) and the SOA rrset, if given, as the only answer; a buffer that is too small gives an error, never a panic.", "quantifier": "all zones, SOA rrsets and buffers", "why_tests_cant": "universal over values and capacities", "anchors": ["src/notify.rs: new, to_wire"]}
{"id": "C66", "title": "Parsing text never panics", "statement": "RRset::from_str and RData::from_str return Ok or Err for every &str and never panic.", "quantifier": "all strings", "why_tests_cant": "universal over unbounded input", "anchors": ["src/rrset.rs: FromStr", "src/rdata.rs: from_str", "src/util/string_buffer.rs", "src/rdatafield/string_decode.rs: timestamp_from_str"]}
{"id": "C67", "title": "Display of records never panics", "statement": "Formatting any rrset whose fields are in range always succeeds.", "quantifier": "all rrsets", "why_tests_cant": "universal", "anchors": ["src/rrset.rs: Display", "src/rdatafield/string_encode.rs", "src/util/hex.rs: to_hex"]}
{"id": "C68", "title": "Dropping a DomainTree frees every node once", "statement": "After any history, dropping (or clearing) the tree frees each node that was allocated for it exactly once and touches no other memory.", "quantifier": "all histories of insert, find, remove, clear and flag changes", "why_tests_cant": "memory safety of unsafe code over unbounded histories", "anchors": ["src/domaintree/tree.rs: clear, clear_recurse, Drop, remove_node"]}
{"id": "C69", "title": "Printing a message never panics", "statement": "Formatting (Display) any decoded Response or Request, and any Response, Request or NotifyRequest whose fields are in range, always succeeds.", "quantifier": "all byte strings that decode; all in-range messages", "why_tests_cant": "universal over values", "anchors": ["src/response.rs: Display for Response, Section", "src/request.rs: Display", "src/notify.rs: Display", "src/header.rs: Display", "src/edns.rs: Display"]}
{"id": "C70", "title": "Printed names are unambiguous", "statement": "Two names with the same Display text are equal (octet by octet), whatever octets their labels contain.", "quantifier": "all pairs of names", "why_tests_cant": "universal over unbounded pairs of values", "anchors": ["src/label_slice.rs: Display", "src/name.rs: Display"]}
{"id": "C71", "title": "Printed headers and EDNS lines are unambiguous", "statement": "Two headers with the same Display text have the same id, opcode, rcode, flags and counts; two Edns with the same text have the same version, DO bit and UDP size.", "quantifier": "all pairs of headers, all pairs of Edns", "why_tests_cant": "universal over pairs of values", "anchors": ["src/header.rs: Display", "src/header_flag.rs: to_str, setted_flags", "src/edns.rs: Display"]}
{"id": "C72", "title": "A printed message shows every record", "statement": "The text of a response is its header, its EDNS line if any, its question and one titled part per non-empty section; each part has one line per record other than OPT, in order, and each such line parses back (RRset::from_str) to exactly that record.", "quantifier": "all consistent responses", "why_tests_cant": "universal over values", "anchors": ["src/response.rs: Display", "src/rrset.rs: Display, FromStr"]}
{"id": "C73", "title": "Printed messages are unambiguous", "statement": "Two responses (or two requests) with the same Display text are equal.", "quantifier": "all pairs of consistent messages", "why_tests_cant": "universal over unbounded pairs of values", "anchors": ["src/response.rs: Display", "src/request.rs: Display"]}
{"id": "C74", "title": "Node values and flags are independent", "statement": "After any history, set_value, set_callback and set_wildcard on the node found under a name change exactly that component of exactly that node: every other name still shows the same handle, value, callback flag and wildcard flag. insert keeps handle and flags of an existing node; a node it creates has both flags off.", "quantifier": "all histories of calls, all names (ASCII labels), all values", "why_tests_cant": "the five flag bits share one byte that rotations, splits and removals also write; must hold after every history", "anchors": ["src/domaintree/flag.rs", "src/domaintree/node.rs: set_value, set_callback, set_wildcard", "src/domaintree/tree.rs: insert"]}
{"id": "C75", "title": "Handles of valued nodes stay valid", "statement": "The handle returned for a name that holds a value remains the handle of that name, showing the same value and flags, as long as no later call names it: whatever is inserted, removed or set under other names, nodes are moved only by relinking, never by copying values between nodes.", "quantifier": "all histories before and after, all names (ASCII labels)", "why_tests_cant": "universal over two histories", "anchors": ["src/domaintree/tree.rs: insert, remove_node, delete, node_fission", "src/domaintree/node.rs"]}
{"id": "C76", "title": "Message constructors make well-formed queries", "statement": "Request::new and Response::with_question make a message with the drawn id, exactly the RD flag, opcode Query, rcode NoError, one IN question for the given name and type, counts 1/0/0/0 and no sections; to_wire succeeds exactly when the buffer has 16 octets more than the name, and from_wire of the result gives the message back.", "quantifier": "all ids, names, types and buffers", "why_tests_cant": "universal over names, ids and buffer sizes", "anchors": ["src/request.rs: Request::new", "src/response.rs: Response::with_question", "src/header.rs: Default"]}
{"id": "C77", "title": "NotifyResponse is a decodable answer to its NOTIFY", "statement": "NotifyResponse::new keeps id, opcode, question and flags of the request and adds QR; the bytes of to_wire decode to that header and question.", "quantifier": "all notify requests (zones, ids, SOA or none) and buffers", "why_tests_cant": "universal over requests and buffers", "anchors": ["src/notify.rs: NotifyResponse::new, to_wire"]}
{"id": "C78", "title": "Builder setters: the last write wins and nothing else changes", "statement": "After any sequence of ResponseBuilder calls, id, opcode, rcode, question and each flag have the value of the last call that wrote them (or the initial one); counts do not change before done; a section that no call names is untouched; remove_rrset_by keeps exactly the rrsets its predicate rejects, in order; clear_section and with_section replace the section.", "quantifier": "all call sequences, all responses", "why_tests_cant": "universal over sequences; all flags share one word", "anchors": ["src/response_builder.rs: ResponseBuilder"]}
{"id": "C79", "title": "Builder programs survive the wire", "statement": "Whatever sequence of builder calls with in-range arguments made it, the response done() returns is encoded (if it fits) to bytes that decode to an equal response.", "quantifier": "all call sequences (add_rrset, edns, setters, remove_rrset_by with any predicate, clear_section), all buffers", "why_tests_cant": "universal over call sequences", "anchors": ["src/response_builder.rs", "src/response.rs: to_wire, from_wire"]}
{"id": "C80", "title": "Header::clear blanks a header", "statement": "After Header::clear a header has id 0, no flags, opcode Query, rcode NoError and zero counts.", "quantifier": "all headers", "why_tests_cant": "universal over headers", "anchors": ["src/header.rs: Header::clear"]}
{"id": "C81", "title": "Text that parses is in range", "statement": "Every rrset that RRset::from_str or from_strs returns can be carried by the wire format: legal names, known types and classes, every field within the range of its codec.", "quantifier": "all texts, all implementations of the address and base64 parsers that return octets", "why_tests_cant": "universal over texts", "anchors": ["src/rrset.rs: RRset::from_str, from_strs", "src/rdata.rs: RData::from_string_buffer", "src/rdatafield: field parsers"]}
{"id": "C82", "title": "response_builder::build makes the message its arguments describe", "statement": "build succeeds exactly when the name and all texts parse; the result has the question, QR and RD only, NoError, the parsed rrsets in order in their sections, the advertised UDP size, matching counts, and survives encoding and decoding.", "quantifier": "all names, types, texts, sizes", "why_tests_cant": "universal over arguments", "anchors": ["src/response_builder.rs: build"]}
{"id": "C83", "title": "Label sequences compare like names", "statement": "LabelSequence equality (case sensitive or not) holds exactly when the labels are equal (up to ASCII case); cmp is the canonical order of the labels read from the right and agrees with equality; neither panics.", "quantifier": "all well formed label sequences, absolute and relative, debug and release builds", "why_tests_cant": "universal over pairs of sequences", "anchors": ["src/label_sequence.rs: equals, PartialEq, Ord", "src/label_slice.rs: compare"]}
{"id": "C84", "title": "RData order is total and agrees with equality", "statement": "RData == holds exactly for the same type and the same fields (names up to case); cmp is a total order and Equal exactly for equal data.", "quantifier": "all in-range rdata of any types, debug and release builds", "why_tests_cant": "universal over pairs and triples; sort_unstable in RRset equality relies on it", "anchors": ["src/rdata.rs: derive(PartialEq, Ord)", "src/rdatas.rs: derives", "src/name.rs: Ord"]}
{"id": "C85", "title": "RRType order agrees with equality", "statement": "RRType cmp orders by number, and is Equal exactly for equal types.", "quantifier": "all types", "why_tests_cant": "universal over pairs of types", "anchors": ["src/rr_type.rs: Ord, derive(PartialEq), new"]}
{"id": "C86", "title": "A label slice shows exactly the labels that stripping left", "statement": "A LabelSlice made from any Name or non-empty LabelSequence and then stripped any number of times on the left or right shows exactly the labels that remain: label_count, len, data, offsets, first_label, last_label, is_empty and Display describe them and nothing else; stripping that would leave no label panics; equals is true exactly for slices that show the same labels (up to ASCII case unless case-sensitive).", "quantifier": "all names, all label sequences, all sequences of strip_left/strip_right calls with all arguments, all pairs of such slices, both case modes", "why_tests_cant": "A test strips one name a few times; the claim ranges over all names, octets and strip histories.", "anchors": ["src/label_slice.rs: LabelSlice::from_name, from_label_sequence, offsets, data, len, is_empty, label_count, equals, strip_left, strip_right, Display"]}
{"id": "C87", "title": "Comparing label slices gives order, relation and common labels", "statement": "compare on two slices (any strips, either case mode) never panics, reports the number of trailing labels in common, the relation (equal, sub, super, common ancestor, none) accordingly, and an order that is canonical DNS order.", "quantifier": "all pairs of label slices of names and sequences, all strip histories, both case modes, debug and release arithmetic", "why_tests_cant": "The claim ranges over all octets and lengths and both arithmetics; the overflow in octet differences shows only on some of them.", "anchors": ["src/label_slice.rs: LabelSlice::compare"]}
{"id": "C88", "title": "The text form of a label sequence", "statement": "Display writes the labels of a LabelSequence with dots between them and a final dot exactly if it includes the root; LabelSequence::from_str reads text, including the root exactly if the text ends in a dot; printing and reading back gives the same sequence.", "quantifier": "all label sequences, all texts", "why_tests_cant": "The claim ranges over every text and every octet; escapes and the final dot interact.", "anchors": ["src/label_sequence.rs: Display, FromStr", "src/name.rs: string_parse", "src/label_slice.rs: Display"]}
{"id": "C89", "title": "Printing a tree or a search chain shows what is stored", "statement": "DomainTree::dump prints, for every tree reachable by any history of calls, one line per node with the labels of that node, its color, its side and its flags, each tree below between its begin and end lines, and the value of len(); it never fails and changes nothing. Display of a NodeChain left by any search prints the number of nodes, the last comparison and the labels of exactly the nodes on the chain, in order.", "quantifier": "all histories of insert/remove/find/flag/clear calls with all legal names, both builds, all indentation depths, all searched names and callbacks", "why_tests_cant": "dump and Display follow raw pointers through memory; the claim ranges over every tree shape and every search, a test prints one tree.", "anchors": ["src/domaintree/tree.rs: DomainTree::dump, dump_helper, indent", "src/domaintree/node_chain.rs: Display for NodeChain"]}
{"id": "C90", "title": "The last comparison of a search names the neighbour of the name searched", "statement": "After a search, last_compared is null only for an empty tree; otherwise it is the node of the name itself, or of an enclosing name below which nothing is stored (unless a callback stopped there), or the entry just after / just before the name in the canonical order, on the side the sign of order tells; relation and common_label_count of last_compared_result say how the two names relate.", "quantifier": "all histories, all legal names searched, all callbacks, both builds", "why_tests_cant": "Which node the loop compares last depends on the shape of every level of the tree, i.e. on the whole history.", "anchors": ["src/domaintree/tree.rs: find_node, find_node_ext", "src/domaintree/node_chain.rs: NodeChain::last_compared, last_compared_result"]}
{"id": "C91", "title": "NodeChain is a stack of at most 128 nodes", "statement": "After any sequence of push and pop on a new chain: push panics exactly on a full chain (128 nodes), pop and top exactly on an empty one; pop returns and top shows the node pushed last, bottom the node pushed first; level_count is the number of nodes; last_compared stays null and last_compared_result stays as initialised.", "quantifier": "all sequences of push/pop calls with all pointers", "why_tests_cant": "The claim ranges over all call sequences, including those reusing stale array slots.", "anchors": ["src/domaintree/node_chain.rs: NodeChain::new, push, pop, top, bottom"]}
{"id": "C92", "title": "A decoded message does not depend on the octets after it", "statement": "Octets appended to a message never change what Response::from_wire / Request::from_wire returns for it; the decoder depends only on the octets of the message, i.e. those before the position where it stops.", "quantifier": "all octet sequences that decode, all trailing octets", "why_tests_cant": "Decoders read through pointers and lengths taken from the input; a test shows one trailer for one message.", "anchors": ["src/response.rs: Response::from_wire", "src/request.rs: Request::from_wire", "src/name.rs: Name::from_wire", "src/util/input_buffer.rs: InputBuffer"]}
{"id": "C93", "title": "Decoding cannot amplify", "statement": "A message of n octets that decodes has at most (n - 17) / 11 records, and the uncompressed size of the decoded message (all names written out) is at most 128 n.", "quantifier": "all octet sequences that decode", "why_tests_cant": "Compression pointers can be reused arbitrarily and counts in the header are chosen by the sender; a bound must hold for all inputs.", "anchors": ["src/response.rs: Response::from_wire", "src/response.rs: Section::from_wire", "src/name.rs: Name::from_wire"]}
{"id": "C94", "title": "Compression never lengthens", "statement": "Whatever was rendered before, rendering a name takes between 1 and its uncompressed number of octets; a rendered response - truncated or not - is at most as long as its uncompressed form.", "quantifier": "all histories of renderer calls, all names; all consistent responses, all buffers", "why_tests_cant": "The table of earlier names is the result of the whole history, and a pointer in place of a root label would lengthen.", "anchors": ["src/message_render.rs: MessageRender::write_name", "src/response.rs: Response::to_wire"]}
{"id": "C95", "title": "Derived rdata structs round-trip exactly when open-ended fields come last", "statement": "For any struct with #[derive(Rdata)] - not only the 22 of this crate - the generated to_wire/from_wire round-trip for every value and every render history if and only if no open-ended field (codec text or binary) stands before another field; the generated from_wire never panics, and on success has consumed exactly len octets, which are the encodings of the fields in order.", "quantifier": "all lists of field codecs, all values, all render histories, all octet sequences, positions and lengths", "why_tests_cant": "The struct is the macro's input: tests cover only the structs written in this crate.", "anchors": ["rdata-derive/src/expand.rs: derive_from_wire, derive_to_wire", "src/rdatafield/wire_decode.rs", "src/rdatafield/wire_encode.rs", "src/rdatas.rs"]}
{"id": "C96", "title": "Decoding a name takes bounded work", "statement": "Name::from_wire reads at most 256 + 2 min(position, 16384) octets, hence at most 33024 whatever the size of the message; chains of compression pointers do make it read more than twice the number of pointers.", "quantifier": "all octet sequences, all positions", "why_tests_cant": "The loop jumps to positions taken from the input; a test cannot show that no pointer chain makes it longer.", "anchors": ["src/name.rs: Name::from_wire"]}
{"id": "C97", "title": "Parsed text is printed in a normal form", "statement": "If RRset::from_str (or from_strs) accepts a text, then displaying the rrset gives one line per record, each in presentation format and without an inner line break, and parsing those lines again gives the same rrset, so two accepted texts mean the same rrset exactly if they print alike. This must hold however the input spelled it (white space, case of mnemonics, leading zeros, missing class).", "quantifier": "all texts accepted by the parser, both build modes, all implementations of the external parsers that meet their contract", "why_tests_cant": "The input is an arbitrary string; spellings are unbounded.", "anchors": ["src/rrset.rs: RRset::from_str, from_strs, Display", "src/rdatafield/string_decode.rs", "src/rdatafield/string_encode.rs", "src/rr_type.rs: Display", "src/name.rs: Display, Name::new"]}
{"id": "C98", "title": "A printed NOTIFY shows its zone and SOA", "statement": "The Display text of a NotifyRequest is a line naming the zone and, if it carries a SOA rrset, a line with that record in master-file form; two NotifyRequests with the same text have the same zone and the same SOA.", "quantifier": "all NotifyRequests with in-range names whose SOA rrset, if any, is one in-range SOA record of an assigned class", "why_tests_cant": "universal over unbounded pairs of values", "anchors": ["src/notify.rs: Display for NotifyRequest", "src/rrset.rs: Display", "src/name.rs: Display"]}
{"id": "C99", "title": "Messages are equal exactly if they say the same", "statement": "Request, Response, NotifyRequest and NotifyResponse values are == exactly if their headers and questions agree (names without regard to letter case) and their sections hold the same rrsets in the same order, each with the same owner, type, class and records (in any order, TTLs aside). Equality is reflexive, symmetric and transitive, and a decoded message equals the one that was encoded.", "quantifier": "all pairs (triples) of in-range messages", "why_tests_cant": "universal over unbounded pairs of values", "anchors": ["src/header.rs: derive PartialEq", "src/question.rs: derive PartialEq", "src/response.rs: derive PartialEq", "src/request.rs: derive PartialEq", "src/notify.rs: derive PartialEq", "src/rrset.rs: PartialEq for RRset, is_same_rrset"]}
{"id": "C100", "title": "Names are compressed as far as possible", "statement": "Writing a name with compression takes the fewest octets possible: if the name, or an ancestor of it, was written before within the reach of compression pointers (the first 16384 octets), the longest such part (compared octet for octet) is replaced by a two-octet pointer; otherwise, and always without compression, the name takes exactly its encoded length.", "quantifier": "all histories of renderer calls (names, numbers, bytes, skips, patches, failed calls), all names", "why_tests_cant": "universal over unbounded histories; depends on every entry of the hash table having been kept", "anchors": ["src/message_render.rs: write_name, find_offset, add_offset, NameComparator::compare"]}
{"id": "C101", "title": "Text code generated by derive(Rdata) for any struct", "statement": "For any struct with #[derive(Rdata)] whose fields that are read to the end of the text (displays text and base64) stand last, the generated Display prints the fields in order, each in its presentation format, separated by single spaces, and the generated from_str reads that text (with any white space before it) back to equal values, for all values that text can carry. For any other struct the generated from_str accepts no text at all. The generated from_str never panics or loops on non-empty text if the text is ASCII or the struct has no timestamp field. The RDATA structs of the crate are such structs, with the presentation formats of their RFCs.", "quantifier": "all lists of (codec, display) attributes, all field values, all texts, both builds, all behaviours of the external parsers meeting the contract", "why_tests_cant": "ranges over all structs a user of the derive macro may write and all their values and texts; unit tests see the structs of rdatas.rs on a few lines", "anchors": ["rdata-derive/src/expand.rs:derive_from_str", "rdata-derive/src/expand.rs:derive_to_str", "src/rdatafield/string_encode.rs", "src/rdatafield/string_decode.rs", "src/util/string_buffer.rs:StringBuffer"]}
{"id": "C102", "title": "Looking up, inserting or removing a name takes logarithmically many steps", "statement": "In any DomainTree, find, find_node and find_node_ext examine at most 2*log2(len+1) nodes per label of the name looked up (the root label counts), however the tree was built, and end; insert examines at most two more and repairs the balance in at most 2*log2(len+2)+1 steps, and ends; remove, after the same search, goes through at most 128 levels, on each of which its walks and its repair take at most 2*log2(len+1) steps, and ends.", "quantifier": "every history of public calls with names of any bytes, every name, every callback and chain, both builds", "why_tests_cant": "a bound on running time over all histories; a test can only time a few trees, and an unbalanced or cyclic tree shows up only after particular sequences of inserts and removals", "anchors": ["src/domaintree/tree.rs: DomainTree::find, find_node, find_node_ext, insert_fixup, remove_fixup"]}
{"id": "C103", "title": "Builder calls do not interfere with each other", "statement": "After any sequence of ResponseBuilder calls, id, opcode, rcode, question and each header flag have the value given by the last call that sets them (or the value before), and the content of each section is what the calls for that section alone would have produced.", "quantifier": "every sequence of builder calls, every initial response", "why_tests_cant": "quantifies over all sequences of calls; interference shows only for particular combinations and orders", "anchors": ["src/response_builder.rs: ResponseBuilder", "src/header.rs: Header::set_flag", "src/header_flag.rs: set_flag, clear_flag"]}
{"id": "C104", "title": "The derive macro accepts exactly the annotated structs, and what it emits does what the annotations say", "statement": "#[derive(Rdata)] succeeds exactly on structs with named fields each carrying the single attribute #[field(codec = \"..\", display = \"..\")]; the emitted code compiles exactly if each codec and display exists and is for the field's Rust type (and no field is called len, and only the last buf); the emitted from_wire, to_wire, from_str and Display process the fields in declaration order with the named codecs and displays, and to_wire / from_wire are inverse if open-ended fields stand last.  The 22 structs of rdatas.rs are accepted, compile, and have the layouts the other properties are proved for.", "quantifier": "every derive input (any attributes, any tokens in them, any number of fields, any field names and types), every value, every buffer", "why_tests_cant": "quantifies over all structs a user of the macro may write; the tests only exercise the 22 structs of this crate", "anchors": ["rdata-derive/src/parser.rs: RdataStruct::parse_token, Field::parse_token, parse_attr", "rdata-derive/src/expand.rs: derive, derive_from_wire, derive_to_wire, derive_from_str, derive_to_str", "rdata-derive/src/lib.rs: derive_rdata", "src/rdatas.rs: the structs"]}
{"id": "C105", "title": "Edns::rr_count is the number of records that Edns::to_wire writes", "statement": "A caller that writes an Edns itself and puts rr_count into the header gets a consistent message: to_wire writes exactly rr_count records.", "quantifier": "every Edns, every renderer state reached by any calls", "why_tests_cant": "quantifies over all Edns values and everything written before", "anchors": ["src/edns.rs: Edns::rr_count, Edns::to_wire, Edns::from_rrset"]}
{"id": "C106", "title": "Writing through FindResult::get_value_mut changes exactly the value found", "statement": "After find(name), writing through get_value_mut replaces the value of the entry of the longest suffix of name that has an entry, no other entry, value or flag changes, and nobody else has access to this value at the same time.", "quantifier": "every history of tree calls, every name, every written value", "why_tests_cant": "quantifies over all histories and names; the write goes through a raw pointer", "anchors": ["src/domaintree/tree.rs: FindResult::get_value_mut, DomainTree::find"]}
{"id": "C107", "title": "Time-to-live values survive text and wire form", "statement": "RRTtl: from_str accepts exactly the decimal numbers below 2^32 and never panics; from_str of what Display prints is the value; to_wire writes the 4 octets in network order (or fails exactly if they do not fit) and from_wire reads the value back.", "quantifier": "every TTL, every text, every renderer state reached by any calls", "why_tests_cant": "quantifies over all 2^32 values and all texts", "anchors": ["src/rrset.rs: RRTtl"]}
{"id": "C108", "title": "Buffers can be refilled and drained", "statement": "InputBuffer::set_data makes the buffer behave as a new one over the given data whatever was called before; is_empty holds exactly if it was given no data; StringBuffer: after taking n words with next, left_str gives exactly the text not consumed.", "quantifier": "every sequence of calls, all data, all texts", "why_tests_cant": "quantifies over all call sequences and texts", "anchors": ["src/util/input_buffer.rs: set_data, is_empty", "src/util/string_buffer.rs: left_str, Iterator::next"]}
{"id": "C109", "title": "Comparing handles of tree nodes", "statement": "NodePtr: == says whether two handles are of the same node; cmp and partial_cmp agree with each other and with ==, order the nodes of a tree as their names are ordered, and change nothing.", "quantifier": "every history of tree calls over any names, every two nodes of the tree, both builds", "why_tests_cant": "quantifies over all histories and all pairs of nodes; the handles are raw pointers", "anchors": ["src/domaintree/node.rs: impl Ord, PartialOrd, PartialEq for NodePtr"]}
{"id": "C110", "title": "The node above a node is its closest stored ancestor", "statement": "get_upper_node of the node of an entry is the node of the closest ancestor of its name that has an entry, null if none has; get_name gives the labels between the two.", "quantifier": "every history of tree calls, every node of the tree, both builds", "why_tests_cant": "quantifies over all histories; the walk goes through parent pointers kept up by rotations and deletions", "anchors": ["src/domaintree/node.rs: NodePtr::get_upper_node, subtree_root, parent, get_name"]}
{"id": "C111", "title": "The message decoders compute exactly what the octets say", "statement": "Response::from_wire and Request::from_wire return a message exactly if the octets describe it: header fields, flags and codes, one question and as many records as announced, cut into the longest runs of one owner and type, each collected into an rrset with the class and TTL of its first record; every other input is refused with an error. The same for a question and a single record anywhere in a message.", "quantifier": "every octet string, every message value", "why_tests_cant": "an equivalence over all octet strings and all values: tests see neither all accepted nor all refused inputs", "anchors": ["src/response.rs: Response::from_wire, Section::from_wire", "src/request.rs: Request::from_wire", "src/header.rs: Header::from_wire", "src/question.rs: Question::from_wire", "src/rrset.rs: RRset::from_wire"]}
{"id": "C112", "title": "A message can be rebuilt from its own printed text", "statement": "For a message made by response_builder::build from record texts: encode it (into a buffer it fits), decode it, print it with Display; the record lines found in the printed text, given back to build with the printed question name, type, id and UDP size, make the very same message. Printing such a message loses nothing.", "quantifier": "every message of the kind build makes (any number of rrsets and records of any type), all texts it can be made from, every buffer it fits, debug and release builds", "why_tests_cant": "a round trip through four components over all messages; tests print and reparse a handful of records", "anchors": ["src/response_builder.rs: build", "src/response.rs: Display for Response, Response::to_wire, Response::from_wire", "src/rrset.rs: RRset::from_strs, Display for RRset"]}
{"id": "C113", "title": "Names in the record data of newer types are written without compression", "statement": "RData::to_wire writes a compression pointer inside record data only for the types of RFC 1035 that hold names (NS, CNAME, SOA, PTR, MX); the data of every other type (SRV, NAPTR, DNAME, RRSIG, NSEC, RP and the types without names) is appended to the message with every name written out in full, so that software that treats the data of a type as opaque octets (RFC 3597 section 4) can copy it.", "quantifier": "all record data of every type the library knows, rendered after every possible history of renderer calls on a buffer of every size", "why_tests_cant": "whether a pointer is written depends on the whole rendering history; a test sees a handful of messages", "anchors": ["src/rdata.rs: RData::to_wire", "src/rdatafield/wire_encode.rs: name_to_wire", "src/message_render.rs: MessageRender::write_name"]}
{"id": "C114", "title": "Writing a name takes bounded work, whatever the message", "statement": "MessageRender::write_name ends after a number of steps that depends only on the name, not on the message rendered so far: a name of n labels and w octets looks at no more than (n + 1) * (3 * w + 61) octets of the message and items of the compression table, so no message, however large or full of names, makes writing a further name slow; 105728 steps are enough for every name.", "quantifier": "all names, compressed or not, after every possible history of renderer calls (writes, skips, patches of skipped octets, failed writes) on a buffer of every size; truncation excepted", "why_tests_cant": "the cost depends on the pointers and hash buckets left behind by the whole history; a test times a handful of messages", "anchors": ["src/message_render.rs: MessageRender::write_name, find_offset, NameComparator::compare, next_label"]}
{"id": "C115", "title": "Decoding a message takes bounded work", "statement": "Response::from_wire and Request::from_wire end, on every sequence of n octets, after at most (n + 1) * (257 + 2 * min(n, 16384)) steps, where every pass of the loop of Name::from_wire (the same octet may be visited again and again through compression pointers) and every other octet read is one step. No message, however it nests compression pointers, costs more.", "quantifier": "all sequences of octets of every length, well-formed messages or not, and all section counts in the header", "why_tests_cant": "the worst case is reached by chains of pointers hidden in record data and shared by many records; tests time a few ordinary messages", "anchors": ["src/response.rs: Response::from_wire", "src/request.rs: Request::from_wire", "src/rrset.rs: RRset::from_wire", "src/name.rs: Name::from_wire"]}
{"id": "C116", "title": "Rendering a message takes work bounded by its names", "statement": "Response::to_wire, Request::to_wire and the two NOTIFY messages' to_wire end, on every consistent message and every buffer (large enough or not, so also when the response is truncated), after at most the sum over the names of the message (question, owners, names in record data) of (labels + 1) * (3 * encoded length + 61) steps, where every octet of the message looked at to find a compression target and every entry of the compression table tried is one step; that is never more than 105728 for a name. The work of compression is linear in the number of names; it does not grow with what is already in the message.", "quantifier": "all consistent responses, requests and NOTIFYs, with any number of sections, record sets and records, and all buffer sizes", "why_tests_cant": "quadratic or exponential search over earlier names shows only in large messages with adversarial name patterns (full hash buckets, chains of pointers); tests render small messages and time nothing", "anchors": ["src/response.rs: Response::to_wire", "src/request.rs: Request::to_wire", "src/rrset.rs: RRset::to_wire", "src/message_render.rs: MessageRender::write_name"]}
{"id": "C117", "title": "A message rendered behind other octets", "statement": "After any calls on a fresh MessageRender (say the two octets of length that DNS over TCP puts before a message), to_wire appends to what is there exactly the octets of a message which, taken on their own, decode to the message rendered, or fails when they do not fit.", "quantifier": "all requests and consistent responses, all buffers, all histories of calls before", "why_tests_cant": "tests always render into a fresh buffer; the offsets of pointers and patched header fields are relative to the buffer, which shows only when something stands before the message", "anchors": ["src/request.rs: Request::to_wire", "src/response.rs: Response::to_wire", "src/message_render.rs: MessageRender::write_name, skip, write_u16_at", "src/header.rs: Header::to_wire"]}
{"id": "C118", "title": "Messages beyond 64 KiB", "statement": "In a buffer of any size, also beyond 65535 octets, Response::to_wire on a consistent response either writes all of it, and what it wrote decodes to it, or reports truncation (header and question with TC set), or fails because not even these fit; it never reports success for octets that do not decode to the response.", "quantifier": "all consistent responses of any size, all buffers of any size", "why_tests_cant": "16-bit lengths wrap only in messages and records larger than any a test builds; the claim is over all sizes of records, messages and buffers", "anchors": ["src/response.rs: Response::to_wire", "src/rrset.rs: RRset::to_wire (RDLENGTH)", "src/response.rs: Response::from_wire"]}
{"id": "C119", "title": "Old buffer contents never show in a message", "statement": "Encoding a response, a request or a NOTIFY, or any sequence of appending MessageRender calls, into a new renderer does not depend on what the buffer held before: in two buffers of one length the outcome is the same (complete, truncated, error or panic), and where a length is returned the octets up to it are the same.", "quantifier": "all consistent responses, all requests and NOTIFYs with names and codes in range, all sequences of appending calls, all pairs of buffers of one length with any contents", "why_tests_cant": "a leak of stale octets, or a compression lookup that reads them, shows only for particular old contents; tests use zeroed buffers, the claim is over all contents", "anchors": ["src/response.rs: Response::to_wire", "src/request.rs: Request::to_wire", "src/notify.rs: NotifyRequest::to_wire", "src/message_render.rs: MessageRender", "src/util/output_buffer.rs: OutputBuffer"]}
{"id": "C120", "title": "A renderer can be reused for any number of messages", "statement": "However a MessageRender was used before (its own writing, patching, truncating and resetting calls with arguments in range, any responses and requests rendered into it, each complete, truncated, failed or panicked), after reset() a response or request is rendered into it exactly as into a new renderer over the original buffer: same outcome, same octets.", "quantifier": "all sequences of calls and messages, all buffers, all consistent responses and all requests", "why_tests_cant": "what is left in the compression table, the hashes or the buffer depends on the whole history; tests reuse a renderer once or never", "anchors": ["src/message_render.rs: MessageRender::reset", "src/response.rs: Response::to_wire", "src/request.rs: Request::to_wire"]}
