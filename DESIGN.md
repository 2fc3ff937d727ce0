# Formal model of seriese-A.T. in Rocq (Coq 8.16.1)

The repository is a small x86-64 assembler: `at-x64` (instruction encoder),
`at-mac` (Mach-O record codecs), `at-obj` (object model and Mach-O writer),
`at-asm` (source parser, assembler state machine, command line).
All four crates are modelled, function by function, as total computable Gallina
functions over `Z`, `list`, `option` and records.

## Modelling conventions

* Integers are `Z`; a value of Rust type `uN`/`iN` is a `Z` in that range (the
  well-formedness predicates say so).  Arithmetic that can overflow in the code is
  modelled with an explicit build profile `Debug | Release`: overflow panics in
  `Debug` and wraps in `Release`.  Casts (`as`) always wrap.
* `str`/`String` is a list of Unicode scalar values; `as_bytes`/`len` go through a
  UTF-8 encoder; reading text goes through a UTF-8 decoder.
* A panic (`panic!`, `unwrap`, `assert!`, index out of range, `unimplemented!`) is the
  explicit value `Panic`.  `process::exit` is a separate outcome of the assembler.
* `&mut` functions return the new value. `Write` sinks are modelled by the list of
  bytes written, together with whether the writer panicked (so partial output
  before a panic is visible).  `Read` sources are byte lists; the rest of the
  list is returned.
* The host's endianness (`NativeEndian`, `cfg(target_endian)`) is a parameter.

## Trusted base

* Coq 8.16.1's kernel (`coqc`; `vm_compute` is used, `native_compute` is not).
* **Axioms: none.**  `Print Assumptions` follows every theorem in the `Props*.v` files and
  answers `Closed under the global context` for each of them.  No `Axiom`, `Parameter`,
  `Admitted`, no functor, no module type, no plugin; `Variable` occurs only inside sections.
  The only axioms that `coqchk` lists are those of the library file `Coq.ssr.ssrunder`
  (`Under_rel.*`), which Coq's `ssreflect`-aware prelude loads; no theorem uses them.
* The reading of the Rust code: the definitions in `Base.v`, `Str.v`, `X64.v`, `Mac.v`, `Obj.v`,
  `Asm.v`, `Assembler.v`, `Cli.v`, `Sink.v`, `Dbg.v`, `Derive.v`, `Os.v`,
  `Chunk.v`, `Talk.v`,
  `Equal.v`, `Says.v`.  Each cites the file and lines it models.  The code was
  read, never run.
* The specifications `Spec*.v`: what the instruction set, the file format, the language and
  the command line are meant to be.  They use the data types of the model (instructions, records,
  objects, `asm`, `world`) and general vocabulary (`zlen`, `utf8`, string equality).  The functions of the
  model they mention are `bytecode_of`, to say which bytes an instruction emits (`emits`; C01-C03 and
  C08 tie these bytes to the independent decoder and machine), `read_from`, to say what a run is, and
  `format`, to say that a field prints as its value does on its own (C92).

### Modelled

| code | where | remarks |
|---|---|---|
| `at-x64/src/reg.rs`, `mem.rs`, `bytes.rs`, `encoder/`, `instruction/` | `X64.v` | all instructions, all registers, all operand forms |
| `at-mac/src/*.rs` | `Mac.v` | every record's reader and writer, flags, relocation types, string table, `MachO` header/load-command reading |
| `at-obj/src/object.rs`, `num.rs`, `macho.rs` | `Obj.v` | the whole writer, both profiles, both host byte orders |
| `at-asm/src/parsers/**` | `Asm.v` | every `ParseStr` implementation with its messages |
| `at-asm/src/assembler.rs`, `reader.rs` | `Assembler.v` | state machine, line reading, UTF-8 check, line count |
| `at-asm/src/main.rs` | `Cli.v` | argument handling, `with_extension`, file effects, exit status |
| at-mac: the hand-written `Debug` formatters; std: `debug_list`, `debug_set`, `Debug for char` on ASCII | `Dbg.v` | no formatter flags other than `#` |
| all crates: the derived `Debug` formatters of 43 types; std: the `Debug` builders, `PadAdapter`, `Debug for str`, integers, `Option` | `Derive.v` | no formatter flags other than `#`; which characters `Debug for str` writes as `\u{..}` is a parameter (it depends on std's version) |
| `main.rs`, on files that fail; std: `write_all` | `Sink.v` | an interrupted call is repeated and changes nothing |
| `main.rs` on arguments that are bytes (`std::env::args`); `Vec::with_capacity` in at-mac `load_command/mod.rs` | `Os.v` | how many records room is asked for, not what the allocator answers |
| at-mac readers and `at-asm/src/reader.rs` on sources that deliver their bytes in pieces; std: `read_exact`, `BufReader::read_line` | `Chunk.v` | a piece longer than asked for stays ready; the size of the buffer only bounds the pieces |
| `main.rs`: the calls it makes and their order, `eprintln!` | `Talk.v` | a message is one event; each `write` offers some of the bytes still to be written, how many is left open |
| `#[derive(PartialEq)]` of all crates | `Equal.v` | what the derivation expands to: discriminants, then fields in order; strings by their UTF-8 bytes |
| the `panic!` and `unimplemented!` messages of at-mac, at-asm and at-x64 | `Says.v` | the readers of `Mac.v`, the loop of `Assembler.v` and `Encoder::encode` once more, with the message; C99_agree and C99_encoder tie them together |
| std: `char::is_whitespace`, `str::{trim, split, split_once, split_whitespace, trim_start_matches}`, `from_str_radix`, `from_utf8`, `u64::to_string`, `Path::with_extension` | `Str.v`, `Asm.v`, `Cli.v` | as documented by std for the calls that occur |

### Simplified or not modelled

* Memory exhaustion and `Vec`/`String` capacity overflow.  How much room the readers ask for is
  modelled (C93); the allocator's answer, which may abort the process, is not.
* In general a `Write` sink accepts everything and a `Read` source is a byte list, a short read being the
  end of the list.  `Sink.v` adds sinks and sources that fail (C80; a directory as input is a source
  that fails at once), `Chunk.v` sources that deliver any pieces (C95).  The file system has slots (C54).
* In `Cli.v` and `Sink.v` arguments are strings; `Os.v` adds arguments that are any bytes (C94).
* The unused constant `MAX_SECT`.
* The messages of panics are those given in at-mac, at-asm and at-x64 (C99); what the standard library says
  (`unwrap`, `assert!`, overflow) is not modelled.
  Elsewhere a panic is only the status 101.
* In `gen_symtab_command` two overflow panics that cannot be told apart may happen in
  another order (noted at the definitions).
* `Vec<Flag>`/`Vec<SectionAttr>` are lists; the order in which the code produces them is kept.

## What the proofs showed about the code

Refuted properties (`_refuted` theorems have witnesses; the `_partial`/`_exact` theorem beside
each says exactly what does hold):

| id | behaviour |
|---|---|
| C02 | memory displacements 128..=256 are emitted as a sign-extended byte (256 even as 0), and those >= 2^31 become negative |
| C09 | `push 128`..`push 255` and `push N` with N >= 2^31 push another number |
| C12 | equality of flag lists is not preserved by a round trip, only the set is |
| C18 | a stab symbol's type byte loses its low five bits when written again |
| C31 | symbols defined in an empty section are missing from the file |
| C32 | absolute symbols are written with a section ordinal instead of NO_SECT |
| C34 | the segment's `filesize` can exceed its `vmsize` |
| C37 | words after a complete `mov`/`push`/`ret`/`syscall` are silently ignored |
| C41 | `;` inside a string literal starts a comment and makes the line an error |
| C54 | the output is truncated before the input is read: a failing run destroys the old output, and naming the same file twice destroys the source |
| C55 | a reference to a symbol of another file makes the writer panic; there are no undefined symbols |
| C58 | a header of the other byte order is written back mixed: swapped magic, native fields |
| C59 | objects beyond 4 GiB are written with truncated offsets (debug builds panic unless a single part is beyond 4 GiB) |
| C65 | a label may be defined twice; the first definition in `.text`, else in `.data`, counts |
| C66 | `global` of a name that is not defined is silently ignored |
| C84 | PC-relative relocations are written with the type for absolute ones (`X86_64_RELOC_UNSIGNED`), which linkers refuse |
| C86 | a load command read and written again loses what stands after the first NUL of a name; a name that is not ASCII is read but makes the writer panic |
| C93 | 72 bytes can make the load command reader ask for room for 53,687,090 sections (debug) or 2^32 - 1 (release, where the size check wraps) |
| C98 | records that differ in the order or repetition of flags or attributes, or in NULs at the end of a name, are written as the same bytes but are not `==` |

Further observations proved on the way: `mov rax, eax`, `mov rax, [rdi]` and `mov rax,` become
relocations against symbols of these (possibly empty) names (C42, C60); a lone `:` defines a symbol with the empty name (C44);
`ret db 5` is data (C60); a tab after `mov` is refused (C67); a blank before a comma in a data list is
refused (C38); an expression that overflows i64 panics in debug builds (C36, C72);
a name containing NUL resolves to the empty name (C29); when a relocation cannot be resolved the
file has already been partly written (C30); relocation addresses beyond 2^31 become negative in
release builds (C51).

## Files

| file | content |
|---|---|
| `Base.v` | results, profiles, machine integers, little/big-endian bytes |
| `Str.v` | Unicode strings, white space, split/trim, UTF-8 (std functions used by the code) |
| `X64.v`, `Mac.v`, `Obj.v` | at-x64, at-mac, at-obj |
| `Asm.v`, `Assembler.v`, `Cli.v` | at-asm |
| `SpecX86.v` | x86-64 decoder and machine (Intel SDM) |
| `SpecMacho.v`, `SpecObj.v` | Mach-O records by byte offset; a relocatable file for an object by absolute position |
| `SpecAsm.v`, `SpecDiag.v` | the source language and what a program denotes; which message belongs to which fault |
| `SpecRun.v`, `SpecCli.v`, `SpecMeta.v` | runs and sessions; the command line; relations between two sources |
| `SpecLink.v` | a linker that knows only the file format, and what linking a program should give |
| `SpecMore.v` | Apple's relocation codes; UTF-8 from the Unicode standard |
| `PfX64.v` `PfX86.v` `PfX64Top.v` / `PropsX64.v` | encoder: C01-C06, C08, C56 |
| `PfBytes.v` `PfStr.v` `PfMac*.v` / `PropsMac.v` | codecs: C10-C22, C57, C58 |
| `PfObj*.v` `PfBig.v` / `PropsObj.v` | object model and writer: C23-C34, C59 |
| `PfTok.v` `PfAsm.v` `PfData.v` `PfLine*.v` `PfRun*.v` `PfEnd.v` `PfTop*.v` `PfCli.v` / `PropsAsm.v` | assembler and command line: C07, C09, C35-C55, C60 |
| `PfDiag*.v` `PfMore.v` / `PropsDiag.v` `PropsMore.v` | diagnostics C67; single parsers C68; relocation codes C69; UTF-8 C70; parts of C06, C07 |
| `PfLink.v` `PfGo.v` `PfWhole.v` / `PropsLink.v` | linking and running: C61-C66 |
| `PfBoth.v` / `PropsRun.v` | exit status C71; debug against release C72 |
| `PfMeta.v` / `PropsMeta.v` | edits C73, interleaving C74, renaming C75, growth C76 |
| `SpecEnc.v` `PfEnc.v` / `PropsEnc.v` | instruction builder C77; REX, ModRM and SIB setters C78 |
| `SpecProg.v` `PfProg.v` / `PropsProg.v` | programs with stores and jumps C79 |
| `Sink.v` `PfSink.v` / `PropsSink.v` | files that fail C80 |
| `SpecSamples.v` `PfSamples.v` / `PropsSamples.v` | the sample programs of at-asm/tests, byte for byte C81 |
| `Dbg.v` `SpecDbg.v` `PfDbg.v` / `PropsDbg.v` | `Debug` output of at-mac C82 |
| `SpecNet.v` `PfNet.v` / `PropsNet.v` | several object files linked with each other C83, C84 |
| `SpecRead.v` `PfRead.v` / `PropsRead.v` | load commands as read, sequences of them, and written again C85, C86 |
| `SpecLoss.v` `PfLoss.v` / `PropsLoss.v` | what a written file keeps of an object, of a source C87 |
| `SpecForm.v` `PfForm*.v` / `PropsForm.v` | standard form of statements and sources, the objects that can be assembled C88-C89 |
| `SpecSize.v` `PfSize.v` / `PropsSize.v` | what the length of the source bounds C90 |
| `SpecAddr.v` `PfAddr.v` / `PropsAddr.v` | addresses and pushed numbers that can be expressed C91 |
| `Derive.v` `SpecDerive.v` `PfDerive.v` `PfDerive2.v` `PfDerive3.v` `PfDerive4.v` / `PropsDerive.v` | derived `Debug` output of all crates C92 |
| `Os.v` `SpecOs.v` `PfOs.v` / `PropsOs.v` | arguments as bytes, room for records C93-C94 |
| `Chunk.v` `SpecChunk.v` `PfChunk.v` / `PropsChunk.v` | sources in pieces C95 |
| `Talk.v` `SpecTalk.v` `PfTalk.v` `PfTalk2.v` `PfTalk3.v` / `PropsTalk.v` | the conversation with the operating system C96 |
| `Equal.v` `SpecEqual.v` `PfEqual.v` … `PfEqual4.v` / `PropsEqual.v` | derived `==` C97, and bytes written C98 |
| `Says.v` `SpecSays.v` `PfSays.v` `PfSays2.v` `PfSays3.v` `PfSays4.v` / `PropsSays.v` | what panics say C99 |
| `SpecLocal.v` `PfLocal.v` `PfLocal2.v` / `PropsLocal.v` | a change of a number changes its own bytes only C100 |
| `SpecRename.v` `PfRename.v` / `PropsRename.v` | names of the same length C101 |
| `SpecShift.v` `PfShift.v` / `PropsShift.v` | an inserted line C102 |
| `SpecChecks.v` | the specifications themselves: vectors for decoder and machine, determinacy, extreme values |
| `Tests.v` | the 33 unit tests of the repository, replayed assertion for assertion on the model |

`Props*.v` hold the property theorems only: each is `exact lemma`, followed by
`Print Assumptions` and a concrete example.  `MANIFEST.json` lists them by property.
`seeded/LOG.jsonl` records the wrong programs the theorems were tried against.
Most entries are rebuilds: `failed_lemmas` has the first proof that broke and `failed` the property theorems that rest on it,
so they show that a proof breaks, not that the theorem is false of the edit; those marked as negations show the latter.
Entries noted as inconclusive ran out of time.

## Plan per property

| id | modelled | proof |
|---|---|---|
| C01, C03 | X64 encoder; SpecX86 decoder | case analysis on instructions and registers, symbolic immediates; induction over sequences |
| C02 | same, memory operands | exact characterisation of the displacement the CPU sees; refutation witness |
| C04, C05, C06, C07 | X64, BytesAtMost, names | case analysis; list lemmas |
| C08, C09 | SpecX86 machine | computation of the step on symbolic state |
| C10-C17, C19, C21, C22 | Mac codecs, parametric in both hosts' endianness | byte-codec lemmas composed field by field |
| C12 | Flags/SectionAttrs | bit-set induction over the 32 (24) bits |
| C18 | NTypeField | exact loss + refutation |
| C20 | StringTable | induction over pushes |
| C23 | NumExt | division lemmas |
| C24-C29, C33 | Obj writer; SpecMacho | list-slice algebra over the concatenated file |
| C30 | Obj writer | iff by analysing each panic site |
| C31, C32, C34 | Obj writer | refutation + exact positive theorem |
| C35-C44 | Asm parsers; SpecAsm printer with arbitrary layout | parse of print, for every layout |
| C45-C51 | Assembler state machine | invariants by induction over lines, refinement to SpecAsm |
| C52 | all | composition |
| C53, C54 | Cli: argument vector, path extension, two-file file system | case analysis; refutations |
| C55 | Assembler + Obj | refutation for every such source |
| C56, C63 | SpecX86 machine | simulation: straight-line runs, runs of a linked file up to a system call |
| C57, C58 | Mac header codecs | exact bytes + refutation |
| C60, C67, C68 | Asm parsers; SpecAsm, SpecDiag | equivalences: accepted texts, messages, unambiguity |
| C61, C62, C65, C66 | whole pipeline; SpecLink | relocation by relocation over the written file |
| C64, C71 | Cli + everything | case analysis of every way a run can end |
| C69, C70 | Mac, Str; SpecMore | case analysis; induction over bytes |
| C72 | everything, both profiles | a simulation "debug panics or agrees" through every function |
| C73-C76 | Assembler | simulation up to the line number; permutation of sections; renaming; monotonicity |
| C77, C78 | Encoder builder; SpecEnc | induction over the calls; decoder round trip; enumeration of bytes |
| C79 | SpecX86 machine, SpecProg | induction over steps: the code stays intact, the next instruction is decoded |
| C80 | Sink | `write_all` reaches every prefix; case analysis of the run |
| C81 | SpecSamples, SpecLink, SpecX86 machine | the statements of each file, then one step of the machine per instruction |
| C82 | SpecDbg: Rust literals, layouts, names of loader.h | texts of entries are prefix-free |
| C83, C84 | SpecNet: a linker for several files | symbol by symbol and relocation by relocation over the written files |
| C85, C86 | SpecRead: accepted commands, sequences of commands, tidied name fields | a command as pieces: raw bytes and name fields with their offsets |
| C87 | SpecLoss: objects up to the section of undefined symbols; outputs of sources | from C24-C27: every part of the object is read off the file |
| C88 | SpecForm: `sayable` statements, `spells` | by cases on the grammar; `spells` is functional and accepted |
| C89 | SpecForm: shape of objects, without programs | from the program to the object by prefixes; from the object by cutting its bytes at labels and references |
| C90 | SpecSize: total length of the inputs, the stops of a line without sizes | a bound per accepted line, summed; then C64, C71, C72 and C87 without their size conditions |
| C91 | SpecAddr: the instruction set's addresses and their value, a constant pushed in every state | operands evaluated in the states with all registers 0 and with one register 1; memory filled with 0s and with 1s |
| C92 | SpecDerive: Rust string literals, decimal numbers, Apple's field names and names of codes, Intel's register names | a text splits in one way into name, opener, fields and closer, by induction over the tree of builder calls |
| C93 | SpecOs: the fixed parts of the commands (SpecMacho) and their counts | the readers' exact characterisation (C57, C85); witnesses by computation |
| C94 | SpecOs: UTF-8 (SpecMore); SpecCli on bytes | ASCII bytes occur in UTF-8 only as ASCII characters, so splitting at `/` and `.` commutes with encoding |
| C95 | SpecChunk: the bytes that pieces make up | induction over the pieces; a line of the bytes is a line of the pieces; a line feed at the end of a line changes nothing (C40) |
| C96 | SpecTalk: order of calls, files with positions, operating systems given by their answers; SpecCli | the reading loop determines how many answers it takes; then C95; a working file system delivers pieces of the file and stores what it takes at the end |
| C97 | Coq's equality; SpecDerive; SpecEqual: `made`, how a `BytesAtMost` can come about, `rest_zero` | each derived `eq` decides equality; C92 for the text; `made` keeps the array zero past the length |
| C98 | SpecEqual: `alike` (names up to final NULs, flags as sets), `plain`, `fits_fields`, `read_value` | fixed-size fields split equal outputs; each field is injective in its range; the flag words are bit sets (C12) |
| C99 | SpecSays: `upper_hex`, which field of the input is named; SpecDiag `decimal`; SpecMacho fields; SpecRun `passes` | forgetting the messages gives the old readers; only the named branch has a message, all else is quiet; the lowest unknown attribute bit stops the loop |
| C100 | SpecLocal: `same_shape`, `overlaid`, `alike_stmt`, `place_after`; SpecObj `pos_data`; SpecAsm `source_is` | the writer run on two objects side by side; everything outside the contents depends on lengths only |
| C101 | SpecRename: `ren_object`, `same_width`, `strings`; SpecMeta `renamed`; SpecObj `pos_strs`, `names` | the file as in C24-C28, equal up to the strings; searches for names commute with an injective renaming |
| C102 | SpecShift: `nameless`, `inserted`, `move_symbol`, `move_reloc`; SpecAsm `during`, `last_sect`, `small` | the object of C35 ff. as a function of the statements; offsets after the line are sums with one more term |

Every property is expressible in the model, none is "not applicable".
