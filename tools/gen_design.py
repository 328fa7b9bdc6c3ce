#!/usr/bin/env python3
"""Writes /verif/DESIGN.md: fixed text below plus one line per property (model, method, status, theorems)."""
import json
P = [json.loads(l) for l in open('/verif/properties.jsonl')]
M = {c['property']: c for c in json.load(open('/verif/MANIFEST.json'))['claims']}
# property -> (what is modelled, how it is proved)
H = {
'C01': ('Name::from_wire as a fuelled loop over InputBuffer', 'fuel measure 2*pos + 259: pointers strictly decrease, labels add up to at most 255; no index out of range by an invariant on the loop state'),
'C02': ('same', 'soundness and completeness against the inductive wire relation of SpecName (RFC 1035 4.1.4)'),
'C03': ('every public constructor and transformation of Name', 'induction over a syntax of API calls (SpecApi); each operation preserves well-formedness'),
'C04': ('Name::from_wire', 'the wire relation holds of the raw bytes at any place'),
'C05': ('MessageRender with hash table, packed items, the shared cursor of find_offset', 'invariant: every table entry denotes a name in the output; induction over any sequence of writes'),
'C06': ('PartialEq for Name', 'both while loops refined to label lists'), 'C07': ('Hash for Name (bytes fed to the hasher)', 'as C06'),
'C08': ('Ord for Name, i8 arithmetic in both build modes', 'refinement to lexicographic order of reversed lower-cased label lists'),
'C09': ('LabelSlice::compare', 'refinement to the number of common trailing labels'),
'C10': ('is_subdomain', 'exact characterisation: byte suffix that need not start at a label'),
'C11': ('concat_all, concat', 'refinement to ++ on label lists'), 'C12': ('split, parent, strip_*, into_*', 'refinement to firstn/skipn on label lists'),
'C13': ('reverse', 'refinement to rev'), 'C14': ('as_lowercase', 'refinement to map lower'), 'C15': ('is_wildcard, is_root, label_count, len', 'case analysis on labels'),
'C16': ('string_parse state machine', 'invariant of the machine, at most 6 passes per character'), 'C17': ('string_parse', 'simulation of the grammar of SpecName'),
'C18': ('Display for LabelSlice, string_parse', 'exact text of Display for every name; round trip for names without escapes'),
'C19': ('Display, string_to_str, to_hex', 'every emitted byte is below 128'), 'C20': ('LabelSequence', 'refinement to label lists'),
'C21': ('Header::from_wire/to_wire', 'bit lemmas on 16-bit words'), 'C22': ('set/clear/is_flag_set, setted_flags', 'bit lemmas'), 'C23': ('code tables', 'case analysis, for all u16'), 'C24': ('mnemonics in any letter case', 'table injectivity'),
'C25': ('Response/Request::from_wire with all sub-decoders', 'safety predicate composed through the monad'), 'C26': ('RData::to_wire, from_wire through field schemas', 'codec composition over any message context'),
'C27': ('RData::from_wire', 'length accounting through the fields'), 'C28': ('Response::to_wire, from_wire', 'composition of C05 and C26'), 'C29': ('same', 'decoded responses are consistent, then C28'),
'C30': ('to_wire with failing writes, truncate', 'all outcomes enumerated'), 'C31': ('same', 'size arithmetic: the panic window'), 'C32': ('Section::from_wire', 'grouping specification by induction over records'), 'C33': ('same', 'exact acceptance condition'), 'C34': ('Request', 'as C28'),
'C35': ('Edns', 'bit lemmas'), 'C36': ('ResponseBuilder::edns, get_edns', 'induction over builder programs'), 'C37': ('ResponseBuilder', 'induction over builder programs'), 'C38': ('add_rrset', 'uniqueness invariant over histories'),
'C39': ('ResponseIter', 'refinement to a deque'), 'C40': ('size_hint', 'induction over next calls'), 'C41': ('PartialEq for RRset, any sort_unstable', 'permutation reasoning from the contract of sorting'),
'C42': ('from_hex, to_hex', 'list induction'), 'C43': ('read_char_string, read_text, string_to_str', 'grammar relation'), 'C44': ('StringBuffer::next', 'list induction'), 'C45': ('InputBuffer', 'operation sequences'), 'C46': ('OutputBuffer', 'operation sequences against an abstract log'),
'C47': ('DomainTree with raw pointers in a memory', 'separation of the pointer structure from a functional tree (TreeProofs), BST order on labels, abstract map over histories'),
'C48': ('find', 'search in the functional tree'), 'C49': ('remove', 'as C47'), 'C50': ('insert/remove with both fixups and rotations', 'red-black invariant through the pointer code, height bound'), 'C51': ('len', 'counting over histories'), 'C52': ('clone', 'copy lemma on the memory'),
'C53': ('all pointer operations', 'no step of a reachable history dereferences null/freed memory; links and flags consistent'), 'C54': ('NodeChain', 'chain invariant of find_loop'), 'C55': ('find_node_ext', 'callbacks compared with the list of proper ancestors'),
'C56': ('RandNameGenerator over any stream of draws', 'loop invariant'), 'C57': ('Display/FromStr of unsigned integers', 'induction on digits'), 'C58': ('Display/FromStr of RRset', 'field-wise round trip with tokenizer'), 'C59': ('from_strs', 'exact characterisation'),
'C60': ('reset, truncate', 'reset equals new; refutation for truncate'), 'C61': ('write_name', 'liveness: search cannot fail without hash collisions'), 'C62': ('RData::to_wire', 'layout relation per field'), 'C63': ('Response::to_wire', 'two runs in lock step'), 'C64': ('same', 'size bound without compression + C61'),
'C65': ('NotifyRequest', 'as C28'), 'C66': ('RRset/RData::from_str', 'safety predicate; all panics located'), 'C67': ('Display of RRset', 'totality'), 'C68': ('Drop/clear', 'frees each node once'),
}
try: H.update({k: tuple(v) for k, v in json.load(open('/verif/tools/design_more.json')).items()})
except FileNotFoundError: pass
out = open('/verif/tools/design_head.md').read()
out += '\n## Per property: what is modelled, how it is proved, status\n\n| id | title | modelled | method | status | theorems |\n|----|----|----|----|----|----|\n'
for p in P:
    i = p['id']; h = H.get(i, ('', '')); c = M[i]
    out += f"| {i} | {p['title']} | {h[0]} | {h[1]} | {c['status']} | {', '.join(c['theorems'])} |\n"
out += '\n## Notes on partial properties and behaviour of the code found on the way\n\n'
for p in P:
    c = M[p['id']]
    if c.get('note'): out += f"* **{p['id']}** ({p['title']}): {c['note']}\n"
open('/verif/DESIGN.md', 'w').write(out)
