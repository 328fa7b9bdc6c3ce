{
 "C69": [
  "Display of messages and parts (DisplayModel)",
  "totality of each part, decoded messages are consistent (C32)"
 ],
 "C70": [
  "Display for LabelSlice",
  "the escape code is a prefix code; unescaped dots separate labels"
 ],
 "C71": [
  "Display for Header and Edns",
  "delimiters do not occur in the fields; decimal text is injective; flag bits from the flag list"
 ],
 "C72": [
  "Display for Response, RRset::from_str",
  "C58 lifted over sections"
 ],
 "C73": [
  "Display for Response and Request",
  "C70-C72 and unique line splitting; records determine the grouping into rrsets"
 ],
 "C74": [
  "DomainTree on an explicit heap (TreeModel), view of a node (SpecHist2)",
  "the abstract entry table of C47: each setter replaces one entry; view reads the table"
 ],
 "C75": [
  "as C74; leaves = the calls that do not touch a name",
  "induction over the later history with the table step of each call"
 ],
 "C76": [
  "request_new, response_with_question (MsgModel)",
  "exact bytes of header and question, decoder on those bytes"
 ],
 "C77": [
  "notify_response_new, notify_response_to_wire (MsgModel)",
  "exact bytes of header and question; a section decoder started at the end of the bytes fails"
 ],
 "C78": [
  "bop_call, build over MsgModel's builder functions",
  "induction over the calls"
 ],
 "C79": [
  "as C78, with C28's encoder and decoder",
  "invariant of builder programs (every section unique and in range once empty sections are dropped), then C28"
 ],
 "C80": [
  "header_clear (CodesModel)",
  "computation"
 ],
 "C81": [
  "rrset_from_str, rrset_from_strs (TextModel)",
  "postconditions of every token reader over text whose octets satisfy a predicate"
 ],
 "C82": [
  "build_response (CtorModel)",
  "reduction to a builder program, C37, C28, C81"
 ],
 "C83": [
  "seq_equals, seq_cmp (NameModel)",
  "reduction of the comparison loop to a function on lists of labels"
 ],
 "C84": [
  "rdata_eq, rdata_cmp (EqModel)",
  "order-preserving keys, lexicographic order laws"
 ],
 "C85": [
  "rrtype_cmp, rrtype_eqb (CodesModel)",
  "type_ok inversion"
 ],
 "C86": [
  "SliceModel.v on top of NameModel.v (label_slice.rs in full); SpecSlice.v describes slices by lists of labels.",
  "invariant: the slice's window is a window of the label list; induction over the strip history."
 ],
 "C87": [
  "sl_compare of NameModel.v in both arithmetics and both case modes.",
  "refinement of the loop to a comparison of label lists; SpecSlice.slice_order states the outcome."
 ],
 "C88": [
  "seq_display of SliceModel.v, seq_from_str of NameModel.v; SpecEsc.v/SpecSlice.v give the reading rule.",
  "from the exact theorem on string_parse (C17)."
 ],
 "C89": [
  "DumpModel.v (the octets printed are returned; printing to stdout is assumed not to fail); SpecDump.v and SpecChain.v give the text as a function of the picture of the memory.",
  "induction over the picture; every pointer of the chain is shown to be a node of the tree by an invariant of the search loop."
 ],
 "C90": [
  "find_loop of TreeModel.v; SpecLast.v states the result in terms of the entries of the tree and the order of names.",
  "zipper invariant of the search loop: everything left of the path is before the name, everything right of it after."
 ],
 "C91": [
  "chain_* of TreeModel.v; SpecChain.v runs the same calls on a list.",
  "simulation by a list, induction over the calls."
 ],
 "C92": [
  "response_from_buf/request_from_buf of MsgModel.v with the position where they stop; SpecLocal.v: agreement of two octet sequences up to an index.",
  "a locality predicate on readers, closed under bind, down to names (a name reads at most 256 octets from any backward target)."
 ],
 "C93": [
  "MsgModel.v; plain_size and all_records of SpecMsg.v.",
  "from the exact grammar of accepted messages (C32): every name takes 1 octet (root) or at least 2 for at most 255."
 ],
 "C94": [
  "RenderModel.v, MsgModel.v; SpecBuf.v histories; plain_size of SpecMsg.v.",
  "invariant of the compression table; size bounds composed along the encoder."
 ],
 "C95": [
  "DeriveModel.v: the generated code as a function of the list of codecs; C95_instances identifies the 22 structs of RDataModel.v as instances.",
  "induction over the list of codecs, from the field lemmas used for C26/C27; for the converse, the field behind an open-ended one always decodes as empty."
 ],
 "C96": [
  "fw_loop of NameModel.v with an explicit number of passes.",
  "a measure that every pass decreases; induction along the chain for the lower bound."
 ],
 "C97": [
  "TextModel.v (rrset_from_str, rrset_from_strs, rrset_display) with the external parsers as a parameter.",
  "an invariant of everything the text decoder can return (TextProofs8.v) shows that the hypotheses of C58 hold, then C58 and C59."
 ],
 "C98": [
  "DisplayModel.v (notify_display) with TextModel.v (rrset_display).",
  "explicit form of the SOA line; names and numbers contain no separators, so the text splits uniquely."
 ],
 "C99": [
  "MsgEqModel.v (derived comparisons) over EqModel.v; sort_unstable is a parameter with its contract.",
  "composition of the exact results for rrsets (C41) and names (C06)."
 ],
 "C100": [
  "RenderModel.v (write_name with its table, as it is).",
  "completeness invariant over histories: every suffix written within reach has an entry in its bucket, and every entry stands for a suffix written; the search takes the longest."
 ],
 "C101": [
  "DeriveModel.v (derived_display, derived_from_str over an arbitrary list of (codec, display) attributes), TextModel.v",
  "induction over the fields with the per-field round trip; a field read to the end leaves the buffer at its end, where every reader fails"
 ],
 "C102": [
  "TreeModel.v (find_loop, insert_loop, insert_fixup_loop, remove_loop, remove_fixup), SpecTreeWork.v",
  "every level of a reached tree has height at most 2 log2 (nodes + 1) (C50's invariant); each descent strips at least one label of the target; induction on the passes; for insert: fuel monotonicity, and a split adds one node to a path of at most that height"
 ],
 "C103": [
  "MsgModel.v (builder methods), SpecBuild.v",
  "frame lemmas for each call, induction on the sequence"
 ],
 "C104": [
  "MacroModel.v, DeriveModel.v, SpecMacro.v",
  "inversion of the token parser; the emitted program as a function of the parsed fields; induction on the fields with the local environment as invariant; C95 for the round trip"
 ],
 "C105": [
  "MsgModel.v (edns_to_wire, edns_rr_count), SpecAccess.v (records_at)",
  "C35's exact octets; decoding advances, so the number of records between two positions is unique"
 ],
 "C106": [
  "FindMutModel.v, TreeModel.v, SpecFindMut.v, SpecHist2.v",
  "the find specification (C48) and the invariant of the memory picture (C53) with the store of the found node"
 ],
 "C107": [
  "AccessModel.v",
  "C57 lemmas; logs_u32 (C36 machinery) and decodes_u32"
 ],
 "C108": [
  "AccessModel.v, TextModel.v, SpecAccess.v",
  "induction on the calls and on the words"
 ],
 "C109": [
  "NodeModel.v, TreeModel.v, SpecNode.v",
  "the memory invariant (C53) and the exact comparison of label sequences (C83)"
 ],
 "C110": [
  "TreeModel.v (get_upper_node, subtree_root), SpecNode.v",
  "the memory picture determines parent pointers and subtree-root flags; siblings differ in the label closest to the root"
 ],
 "C111": [
  "MsgModel.v, SpecMsg.v, SpecExact.v",
  "soundness and completeness of each decoder (C25-C33) and uniqueness of the cut into longest runs"
 ],
 "C112": [
  "DisplayModel.v, CtorModel.v, MsgModel.v, TextModel.v, SpecRebuild.v",
  "display of each rrset as a block of lines that from_strs maps back (C58), add_rrset on distinct rrsets appends (C38), the header flags determine the flag word, then composition with C82 and C28"
 ],
 "C113": [
  "RenderModel.v, RDataModel.v, SpecOpaque.v",
  "the writes of a record's fields extend the history (C05); a field without a name appends its octets; a name that takes its full length was written without a pointer; name_step of C100 decides the length; lengths add up"
 ],
 "C114": [
  "RenderModel.v, SpecRenderWork.v (the same functions with a budget: one unit for every octet of the message looked at and every table item tried)",
  "invariant over histories: every item of the table points at a run (induction over the history); amortised cost over the name buffer: every step is paid for by an octet of the name or by an item (at most 15 per bucket)"
 ],
 "C115": [
  "MsgModel.v, SpecDecodeWork.v (the same decoders with a budget)",
  "every read consumes at least one octet for each price paid (a name pays at most 257 + 2 * min(n, 16384) and consumes at least one octet); composed along the decoders, induction over fields and sections"
 ],
 "C116": [
  "MsgModel.v, SpecMsgWork.v (the same encoders with a budget), SpecRenderWork.v",
  "C114's bound for a name, composed along the encoders with the invariant that every table entry points at a run of plain labels (kept by skipping and patching RDLENGTH); induction over fields, records and sections"
 ],
 "C117": [
  "MsgModel.v, RenderModel.v",
  "the invariant of histories without names composed with header and question; the decoders of C34 on the octets appended; refutations by computation"
 ],
 "C118": [
  "MsgModel.v, SpecBig.v",
  "the rendering invariant of C28 with the bound on the buffer replaced by one on each record's data; for the refutation, every decoded record has at most 65535 octets of data (soundness of decoding), and C64 makes the rendering succeed"
 ],
 "C119": [
  "RenderModel.v, MsgModel.v, SpecStale.v",
  "two-run simulation of C63 in both directions, with the exact panic window of C31 and the explicit octets of a truncated message"
 ],
 "C120": [
  "RenderModel.v, MsgModel.v, SpecAnyCalls.v, SpecReuse.v",
  "a weak invariant of the renderer kept by every call and every encoder whatever its outcome (sizes of the tables and the buffer), enough for reset to give a new renderer; then C119"
 ]
}