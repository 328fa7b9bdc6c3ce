# Formal model of r53 in Rocq (Coq 8.16.1)

English statements are in properties.jsonl, machine-readable status in MANIFEST.json.  (This file is written by
tools/gen_design.py from tools/design_head.md, MANIFEST.json and tools/notes.json.)

## Layout (rocq/theories)

* `Base.v`      result type (`Ok | Err | Panic | Hang`), state monad, list/byte helpers.
* `*Model.v`    executable Gallina models, no proofs; every definition cites the file and lines of /repo it models.
* `Spec*.v`     small specifications that do not use the models' helpers: labels, wire relation, canonical order, presentation
                grammar, buffers as logs, record layout, section grouping, maps, red-black trees, histories.
* `*Proofs*.v`, `TreePure*.v`, `*Lemmas.v`, `PermTac.v`   lemmas and proofs.
* `ExtInstance.v`  a concrete instance of the foreign functions (see below), used for non-vacuity examples.
* `Prop*.v`     only the property theorems `Cnn_...`, each closed by `exact`, followed by `Print Assumptions` and by `Example`s that
                show a concrete, non-trivial case meeting the hypotheses.

`_partial` marks a theorem that proves only part of its property, `_refuted` a theorem that exhibits inputs on which the model of the
code violates the property as stated (the code has a bug there, or the natural expectation is wrong).

## Trusted base

* The Coq 8.16.1 kernel, including its virtual machine (`vm_compute` is used in examples, refutations and finite sweeps).
* `Print Assumptions` after every property theorem prints "Closed under the global context": no axioms.  `vcheck` lists seven
  `Coq.ssr.ssrunder.Under_rel.*` constants as library axioms: they are module parameters inside Coq's own ssreflect support
  library, loaded with `lia`/`ssreflect` dependencies; no theorem rests on them.
* No axioms, functors, module types, `Admitted`, `Unset Guard Checking` or plugins.
* The reading of the Rust source into Gallina (the model).  `tools/cites.py` prints every definition next to the lines it cites,
  `tools/uncited.py` lists the functions of /repo that no definition cites.
* The English reading of the specifications in `Spec*.v`.

## Modelling conventions

* `u8/u16/u32` are `N` with explicit range predicates and explicit truncation (`as_u8`, `as_u16`, `as_u32`); `usize` is `nat`
  (unbounded; subtraction below zero is `Panic`). Overflow of usize additions with caller-supplied arguments (split, parent, read_bytes,
  skip, write_u16_at) is modelled separately in `UsizeModel.v`, for 16/32/64-bit targets and both build modes; all other usize sums are
  bounded by the size of objects in memory, so they cannot overflow.
* `&mut self` functions return the new state, also on failure (`M S A := S -> res A * S`), so what a failed write leaves behind is
  visible to the caller.
* `anyhow` errors are the single value `Err`; their messages are not modelled.  `panic!`, `assert!`, `unwrap`, `expect`, index or slice
  out of range, arithmetic overflow and (in the tree) dereferencing a null, freed or never allocated pointer are `Panic`.
* Loops are structural where possible; otherwise they take explicit fuel, running out of it is `Hang`, and the theorems prove that it does not
  happen (or, where it does, that it happens for every fuel: C60_hang_any_fuel).
* Where a reachable state can overflow, the build mode is a parameter `md` (`Debug` = panic, `Release` = wrap); elsewhere overflow is
  `Panic` and proved unreachable.
* Strings are their UTF-8 octets.

## What is modelled

* src/util: input_buffer, output_buffer, hex, string_buffer.
* src/name.rs, label_slice.rs, label_sequence.rs: all functions except accessors of Name and LabelSequence that return a field.
* src/message_render.rs: all of it (hash table, packed items, comparison through pointers in the output).
* src/header.rs, header_flag.rs, opcode.rs, rcode.rs, rr_class.rs, rr_type.rs, question.rs.
* src/rdata.rs, rdatas.rs, rdatafield/*: the derive macro rdata-derive/src/expand.rs generates straight-line code from field
  attributes; it is modelled as an interpreter over the table of (codec, display) attributes of every struct.
* src/rrset.rs, response.rs, request.rs, notify.rs, edns.rs, response_builder.rs, response_iter.rs.
* src/domaintree/*: flag, node, node_chain, tree with a memory of nodes.  Addresses are never reused (a freed node that is touched
  again is `Panic`, so reuse cannot hide anything).  Callbacks of find_node_ext are pure functions.
* src/rand_name_generator.rs over an arbitrary stream of random draws.
* Display of all types, including messages (DisplayModel.v), `DomainTree::dump` and search chains (DumpModel.v).

## What is not modelled, or only through a contract

* Code of other crates, as fields of the record `ext` (TextModel.v): std's Ipv4Addr/Ipv6Addr parsing and printing, base64,
  time's calendar.  Theorems that need their behaviour assume the contract `ext_ok` (SpecText.v: printing yields white-space-free ASCII
  and parsing inverts printing); ExtInstance.v proves that a concrete instance satisfies it.  In that instance the IPv4/IPv6 parser and
  printer are those of std (StdNet.v, written from library/core/src/net/parser.rs and ip_addr.rs; that source is not in /repo), base64 is RFC 4648
  and the calendar is the proleptic Gregorian one.
* `slice::sort_unstable`: any function meeting the contract `sorts` (SpecEq.v: returns a permutation, sorted by the element order).
* `str::to_uppercase` is modelled for ASCII letters and for every other Unicode character whose upper-case form is ASCII (U+017F long s, U+0131 dotless i, sharp s, the ligatures U+FB00-FB06); all other characters are left alone, which is indistinguishable because the result is only compared with ASCII mnemonics.
* `rand`: arbitrary values.  `Hasher`: the bytes fed to it.
* Not modelled: examples/dig.rs, the fuzz target, syn's parsing of source text into the derive input (MacroModel.v starts from
  fields, attributes and tokens), rustc beyond the name and type checks of the emitted code, trivial field accessors and re-exports, allocation failure, the Debug formatting.
* Undefined behaviour other than invalid dereference/double free (aliasing rules of raw pointers and `&mut`) is not modelled.
