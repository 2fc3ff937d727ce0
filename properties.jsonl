{"id": "C01", "title": "Every register/immediate instruction encodes to bytes the CPU decodes as that instruction", "statement": "For each Mov/Push/Pop/Ret/Syscall instruction without a memory operand, bytecode() returns bytes which an x86-64 decoder (legacy prefix, REX, opcode, ModRM, immediate, as in the Intel manual) decodes to exactly that operation, operand size, register numbers and immediate, consuming exactly those bytes whatever follows them.", "quantifier": "all instructions without a memory operand, all 16 registers of each width, all immediates of the declared width, all following bytes", "why_tests_cant": "The existing tests pin a dozen literal encodings; the space is 16x16 register pairs times 2^64 immediates, and unambiguity quantifies over arbitrary following bytes.", "anchors": ["at-x64/src/instruction/mov.rs: Mov::bytecode", "at-x64/src/instruction/push.rs: Push::bytecode", "at-x64/src/instruction/pop.rs: Pop::bytecode", "at-x64/src/instruction/ret.rs", "at-x64/src/instruction/syscall.rs", "at-x64/src/encoder/mod.rs: Encoder::encode", "at-x64/src/encoder/bytecode.rs: ByteCode::to_bytes"]}
{"id": "C02", "title": "Memory operands address [base + index*2^scale + displacement] exactly as documented", "statement": "For Mov<Mem64,Reg64> and Lea<Reg64,Mem64>, decoding bytecode() gives the same base, index, scale and the same displacement the Mem64 value holds (index RSP meaning no index). This is FALSE of the code for displacements 128..=256 (emitted as a sign-extended 8-bit value) and for displacements >= 2^31 (sign-extended 32-bit); the proved theorem characterises exactly which displacements are right and what the CPU sees otherwise.", "quantifier": "all Mem64 values (RegOffset, RipOffset, Sib with any base/index/scale<=3) and all u32 displacements, all registers", "why_tests_cant": "Unit tests only use displacement 0 and 42; the failing range is a boundary in a 2^32 space crossed with the RBP/R13/RSP/R12 special cases.", "anchors": ["at-x64/src/mem.rs: Mem64", "at-x64/src/encoder/mod.rs: impl RegMemLike for Mem64", "at-x64/src/instruction/lea.rs: Lea::bytecode", "at-x64/src/instruction/mov.rs: impl Instruction for Mov<Mem64, Reg64>"]}
{"id": "C03", "title": "A stream of emitted instructions disassembles uniquely", "statement": "Concatenating bytecode() of any sequence of instructions yields bytes that disassemble, from the start, to that same sequence with nothing left over; no emitted encoding is a proper prefix of another.", "quantifier": "all finite sequences of instructions, all operands", "why_tests_cant": "Ranges over unbounded sequences; a prefix clash would only show for particular neighbours.", "anchors": ["at-x64/src/instruction/mod.rs: Instruction::bytecode", "at-x64/src/encoder/mod.rs: Encoder::encode"]}
{"id": "C04", "title": "Instruction encoding never panics and never exceeds 15 bytes", "statement": "bytecode() returns between 1 and 15 bytes for every instruction value, and panics only for a Mem64::Sib value built directly with scale > 3; values built through Mem64::sib panic at construction instead.", "quantifier": "all instruction values, including Mem64::Sib values constructed directly with any u8 scale", "why_tests_cant": "Absence of panics over all operand combinations is a universal claim.", "anchors": ["at-x64/src/encoder/bytecode.rs: ByteCode::to_bytes", "at-x64/src/encoder/bytecode.rs: ModRM, Sib::new", "at-x64/src/mem.rs: Mem64::sib", "at-x64/src/bytes.rs: BytesAtMost::with_len"]}
{"id": "C05", "title": "offset_to_imm_bytes points at the immediate", "statement": "For Mov<Reg32,u32> and Mov<Reg64,u64>, the bytes of bytecode() from offset_to_imm_bytes() to the end are exactly the little-endian immediate (4 resp. 8 bytes), and changing the immediate changes only those bytes.", "quantifier": "all registers and all pairs of immediates", "why_tests_cant": "The relocation machinery relies on it for every register and every immediate; tests check only lengths for two registers.", "anchors": ["at-x64/src/instruction/mov.rs: offset_to_imm_bytes"]}
{"id": "C06", "title": "BytesAtMost conversions hold exactly the given bytes and equality is content equality", "statement": "Building BytesAtMost<MAX> from an array or an integer succeeds iff the content fits in MAX bytes; len and as_ref then give exactly the array / the little-endian bytes; two values built this way (and mutated only through as_mut) are == iff their as_ref slices are equal.", "quantifier": "all MAX, all arrays and integers, all sequences of writes through as_mut", "why_tests_cant": "Const-generic capacity and hidden tail bytes make this a claim over all sizes and histories.", "anchors": ["at-x64/src/bytes.rs: BytesAtMost"]}
{"id": "C07", "title": "Register names parse and print inversely and never collide", "statement": "Printing a Reg64/Reg32/Reg16 with Display and parsing it with the operand parser gives that register back; a string parses as at most one register across all three widths; every string that parses prints back to itself.", "quantifier": "all registers and all strings", "why_tests_cant": "The 'no other string parses' half ranges over all strings.", "anchors": ["at-x64/src/reg.rs: Display impls", "at-asm/src/parsers/reg.rs: ParseStr impls"]}
{"id": "C08", "title": "Executing emitted code performs the documented operation", "statement": "On an abstract x86-64 machine (16 registers, byte memory), fetching and executing the bytes of one instruction performs its documented effect: moves of 64/32/16 bits (with 32-bit zero extension and 16-bit merging), stores, lea, push/pop through RSP, and leaves all other registers and memory unchanged.", "quantifier": "all instructions, operands and machine states", "why_tests_cant": "Ranges over all machine states.", "anchors": ["at-x64/src/instruction/mov.rs", "at-x64/src/instruction/push.rs", "at-x64/src/instruction/pop.rs", "at-x64/src/instruction/lea.rs"]}
{"id": "C09", "title": "`push N` pushes the value N", "statement": "Assembling the source line `push N` yields code that pushes the 64-bit value N. FALSE of the code for 128 <= N <= 255 and for N >= 2^31, where the CPU sign-extends the immediate; proved exactly for all other N.", "quantifier": "all N below 2^32 and all machine states", "why_tests_cant": "The failing ranges are boundaries in a 2^32 space, and the effect is visible only in CPU semantics.", "anchors": ["at-asm/src/parsers/instruction/push.rs: parse_str", "at-x64/src/instruction/push.rs"]}
{"id": "C10", "title": "Header64 written on any host is read back on any host", "statement": "Header64::write_into on a host of either endianness, followed by Header64::read_from on a host of either endianness, returns the same CPU type, file type, counts and flags bits, detects the writer's endianness, and reports Magic64/Cigam64 according to whether the two hosts agree; exactly 32 bytes are written and consumed.", "quantifier": "all headers with magic Magic64 or Magic, both writer and reader endiannesses, all trailing bytes", "why_tests_cant": "No test machine of the other endianness is available; field values range over 2^32 each.", "anchors": ["at-mac/src/header.rs: Header64::read_from, write_into", "at-mac/src/io.rs: ReadExt, WriteExt, Endian"]}
{"id": "C11", "title": "Header64::read_from accepts exactly the supported headers", "statement": "read_from returns a value iff the input has 32 bytes whose magic is a native or swapped 32/64-bit Mach-O magic, whose CPU type/subtype is x86 or x86-64 'all', whose file type is 1..8 or 10 and whose flag bits are all known; otherwise it panics. The values returned are the fields at their documented offsets.", "quantifier": "all byte strings, both host endiannesses", "why_tests_cant": "Rejection of every other input is a universal claim.", "anchors": ["at-mac/src/header.rs: Header64::read_from, Magic, CpuType, FileType, Flags"]}
{"id": "C12", "title": "Flag and attribute sets survive the wire as sets", "statement": "For header Flags and SectionAttrs: to_u32 sets exactly the bits of the members; from_u32 returns each set bit exactly once in increasing order; hence from_u32(to_u32(f)) has the same members as f for every insertion order and multiplicity. Structural equality (derived Eq on the Vec) is NOT preserved for unsorted or duplicated insertions, such as the attributes the object writer itself pushes.", "quantifier": "all sequences of pushed flags/attributes, all u32 words", "why_tests_cant": "All insertion orders and multiplicities.", "anchors": ["at-mac/src/header.rs: Flags::from_u32, to_u32", "at-mac/src/load_command/segment64.rs: SectionAttrs::from_u32, to_u32"]}
{"id": "C13", "title": "Segment and section headers round-trip on any pair of hosts", "statement": "SegmentCommand64 and Section64 write_into then read_from_in with the writer's endianness returns an equal value (attributes as sets), with exactly 72 resp. 80 bytes written and consumed, whenever the names are NUL-free ASCII of at most 16 bytes and cmdsize = 72 + 80*nsects.", "quantifier": "all field values in their integer ranges, both endiannesses, all trailing bytes", "why_tests_cant": "64-bit fields and all names.", "anchors": ["at-mac/src/load_command/segment64.rs: SegmentCommand64, Section64", "at-mac/src/io.rs: read_fixed_size_string, write_fixed_size_string"]}
{"id": "C14", "title": "Symtab and dysymtab commands round-trip in both directions", "statement": "Writing then reading returns the same command (24 resp. 80 bytes); reading any input that is accepted and writing it on a host of that endianness reproduces the consumed bytes; input with a wrong command number or size panics.", "quantifier": "all field values, all byte strings, both endiannesses", "why_tests_cant": "Twenty independent 32-bit fields; a swapped pair of fields with equal test values would pass a unit test.", "anchors": ["at-mac/src/load_command/symtab.rs", "at-mac/src/load_command/dysymtab.rs"]}
{"id": "C15", "title": "Build-version commands and packed versions round-trip", "statement": "Version::from_u32 and to_u32 are mutually inverse on all 2^32 words (major.minor.release packed 16.8.8); BuildVersionCommand and BuildToolVersion write/read round-trip and inconsistent cmdsize is rejected.", "quantifier": "all versions, all u32 words, all commands", "why_tests_cant": "2^32 words; shift/mask errors hide in untested fields.", "anchors": ["at-mac/src/load_command/build_version.rs"]}
{"id": "C16", "title": "Load commands round-trip and occupy exactly cmd_size bytes", "statement": "For every LoadCommand whose counts agree with its lists, write_into emits exactly cmd_size() bytes starting with cmd(), and read_from_in in the writer's endianness returns an equal command and leaves the rest of the input untouched; a sequence of load commands reads back in order.", "quantifier": "all load commands of the four kinds with any number of sections/tools, sequences of commands, both endiannesses", "why_tests_cant": "Unbounded numbers of sections, tools and commands.", "anchors": ["at-mac/src/load_command/mod.rs: LoadCommand::read_from_in, write_into, cmd, cmd_size"]}
{"id": "C17", "title": "Symbol-table entries round-trip", "statement": "NList64 write_into then read_from_in in the writer's endianness returns the same entry and uses 16 bytes, for every NTypeField value and all integer fields.", "quantifier": "all NList64 values, both endiannesses, all trailing bytes", "why_tests_cant": "64-bit value field, all type/flag combinations.", "anchors": ["at-mac/src/nlist.rs: NList64, NTypeField"]}
{"id": "C18", "title": "Re-emitting a symbol-table entry preserves its bytes", "statement": "Reading an entry that is accepted and writing it back on a host of that endianness reproduces the 16 bytes. FALSE of the code for debugging (stab) entries: their low five type bits are dropped. Proved for all non-stab entries, with the exact loss characterised for stab entries.", "quantifier": "all 16-byte inputs accepted by read_from_in", "why_tests_cant": "2^128 inputs; the loss happens only for particular type bytes.", "anchors": ["at-mac/src/nlist.rs: NTypeField::from_u8, to_u8"]}
{"id": "C19", "title": "Relocation entries round-trip in both directions, in both bit-field layouts", "statement": "Reading any 8 bytes in either endianness always succeeds, and writing the result on a host of that endianness reproduces them; writing an entry and reading it back gives the same entry iff r_symbolnum < 2^24 and r_type < 16.", "quantifier": "all 2^64 inputs, all RelocationInfo values, both endiannesses", "why_tests_cant": "Bit-field overlap is invisible unless all bit patterns are considered.", "anchors": ["at-mac/src/reloc.rs: RelocationInfo::read_from_in, write_into"]}
{"id": "C20", "title": "String table lookups return the pushed strings", "statement": "After any sequence of push_with_null of NUL-free ASCII strings, get at the offset where a string was pushed returns that string, get(0) is empty, iter yields the strings in order (plus one trailing empty string), len is 1 + the sum of (length+1), and a non-ASCII push panics; the bytes are accepted by From<Vec<u8>>, and a push never changes what any earlier offset reads.", "quantifier": "all sequences of pushes, all valid offsets", "why_tests_cant": "All histories of pushes.", "anchors": ["at-mac/src/string_table.rs: StringTable"]}
{"id": "C21", "title": "Fixed-size name fields", "statement": "write_fixed_size_string(s, n) panics iff s is not ASCII or longer than n, otherwise writes exactly n bytes: s followed by zeros; read_fixed_size_string returns the bytes before the first NUL and consumes exactly n bytes; the two are inverse exactly for NUL-free ASCII strings of at most n bytes.", "quantifier": "all strings, sizes and inputs", "why_tests_cant": "All strings, including boundary length n and embedded NULs.", "anchors": ["at-mac/src/io.rs: read_fixed_size_string, write_fixed_size_string"]}
{"id": "C22", "title": "Truncated input is always rejected", "statement": "Reading any header, load command, symbol or relocation from an input shorter than the record panics rather than returning a value.", "quantifier": "all record kinds and all truncation points of all inputs", "why_tests_cant": "All truncation points of all inputs.", "anchors": ["at-mac/src/io.rs: ReadExt", "at-mac/src/header.rs", "at-mac/src/load_command/mod.rs", "at-mac/src/nlist.rs", "at-mac/src/reloc.rs"]}
{"id": "C23", "title": "Alignment arithmetic", "statement": "aligned(a) is the least multiple of a that is >= self and padding(a) is the unique p < a with self+p a multiple of a, whenever the result fits; otherwise (overflow in a debug build, or a = 0) it panics.", "quantifier": "all values and alignments of each integer type, both build profiles", "why_tests_cant": "Full 64-bit domain, overflow edges.", "anchors": ["at-obj/src/num.rs: NumExt"]}
{"id": "C24", "title": "Mach-O header and load commands describe the file", "statement": "For every object that fits in 4 GiB, the file produced by macho::write_into starts with an x86-64 MH_OBJECT header with two load commands whose sizes add up to size_of_cmds; the segment command's file offset/size and section count, and the symtab command's symoff/nsyms/stroff/strsize are the true positions and counts in that very file.", "quantifier": "all objects (any bytes, symbols, relocations, bss size), both host endiannesses", "why_tests_cant": "The offsets depend on all section sizes, symbol counts and name lengths together.", "anchors": ["at-obj/src/macho.rs: write_into, gen_header64, gen_segment_command64, gen_symtab_command"]}
{"id": "C25", "title": "Section contents are where the section headers say", "statement": "For each non-empty section, in order text, data, bss, there is one section header naming it (__TEXT,__text / __DATA,__data / __DATA,__bss) with its size and address; for text and data, the file slice at the header's offset with the header's size is exactly the section's bytes; bss is zerofill with no file contents.", "quantifier": "all objects", "why_tests_cant": "Any sizes, including misaligned ones and empty sections.", "anchors": ["at-obj/src/macho.rs: gen_section64s, gen_section64_from_text, gen_section64_from_data, gen_section64_from_bss, write_section_data_into"]}
{"id": "C26", "title": "Symbol table entries describe the symbols", "statement": "The symbol table has one entry per symbol of the non-empty sections, in order; resolving each entry's string index in the file's string table gives the symbol's name; kind, external bit, section ordinal and value (section address + offset for Ref) are those of the symbol; this holds also with duplicate names.", "quantifier": "all objects whose symbol names are NUL-free ASCII", "why_tests_cant": "Names of any content, duplicates and prefixes of each other.", "anchors": ["at-obj/src/macho.rs: gen_nlist64s, gen_string_table"]}
{"id": "C27", "title": "Relocation entries resolve to the named symbol", "statement": "Each section header's reloff/nreloc designates one relocation entry per relocation of that section, in order, with its address, length and pcrel flag, extern set, and a symbol number designating the first symbol-table entry whose name is the relocation's symbol.", "quantifier": "all objects with fewer than 2^24 symbols, all relocations", "why_tests_cant": "Indices depend on all preceding symbols and names.", "anchors": ["at-obj/src/macho.rs: gen_relocation_infos, get_sym_idx"]}
{"id": "C28", "title": "File regions are disjoint, ordered and cover the file", "statement": "Header, commands, section data (padded to 8 with zero bytes), relocations, symbols and strings follow each other without gap or overlap, and the file ends exactly at stroff + strsize.", "quantifier": "all objects", "why_tests_cant": "Any combination of sizes.", "anchors": ["at-obj/src/macho.rs: write_into"]}
{"id": "C29", "title": "The crate's own readers read back what it writes", "statement": "Running Header64::read_from, LoadCommand::read_from_in twice, RelocationInfo/NList64 readers and StringTable::from over the produced file consumes it completely and returns the generated header, commands, relocations, symbols and strings.", "quantifier": "all objects, all pairs of writing and reading host endianness", "why_tests_cant": "Cross-module agreement for all objects.", "anchors": ["at-obj/src/macho.rs: write_into", "at-mac/src/header.rs", "at-mac/src/load_command/mod.rs"]}
{"id": "C30", "title": "write_into fails exactly on unrepresentable objects", "statement": "macho::write_into panics iff some symbol name of a non-empty section is not ASCII, some relocation names no symbol of a non-empty section, or has len > 3 (sizes and addresses being in range); otherwise it succeeds. No other object makes it panic.", "quantifier": "all objects within size bounds, both build profiles", "why_tests_cant": "Iff over all objects.", "anchors": ["at-obj/src/macho.rs: write_into", "at-mac/src/string_table.rs: push_with_null"]}
{"id": "C31", "title": "Every symbol of the object appears in the output symbol table", "statement": "Each symbol of the object is present in the file's symbol table. FALSE of the code: symbols of an empty section (e.g. a label in a section without data, or any .bss label of the assembler) are silently dropped; proved exactly for symbols of non-empty sections.", "quantifier": "all objects", "why_tests_cant": "Needs all objects; the loss is silent.", "anchors": ["at-obj/src/object.rs: Sections::iter", "at-obj/src/macho.rs: gen_nlist64s"]}
{"id": "C32", "title": "Absolute symbols are emitted with NO_SECT", "statement": "An Abs symbol's entry has n_sect = NO_SECT as the documentation of NType::Abs requires. FALSE of the code: the section ordinal is written.", "quantifier": "all objects with an Abs symbol", "why_tests_cant": "Universal over objects.", "anchors": ["at-obj/src/macho.rs: gen_nlist64s", "at-mac/src/nlist.rs: NType"]}
{"id": "C33", "title": "Sections occupy disjoint consecutive address ranges covering the segment", "statement": "Section address ranges [addr, addr+size) are consecutive from 0 without overlap and end at the segment's vmsize; every Ref symbol whose offset lies within its section has an n_value inside its own section's range.", "quantifier": "all objects with total size below 2^64", "why_tests_cant": "All size combinations.", "anchors": ["at-obj/src/macho.rs: gen_section64s, gen_segment_command64, gen_nlist64s"]}
{"id": "C34", "title": "The segment's file size does not exceed its memory size", "statement": "filesize <= vmsize for the emitted segment, as the Mach-O format requires. FALSE of the code when the data is not a multiple of 8 bytes and there is no bss to make up for the padding.", "quantifier": "all objects", "why_tests_cant": "Universal over sizes.", "anchors": ["at-obj/src/macho.rs: gen_segment_command64"]}
{"id": "C35", "title": "Numeric literals parse to their value or are rejected", "statement": "A decimal literal, or a hexadecimal literal after 0x, parses at type uN iff its value is below 2^N, and parses to that value; any string containing another character (apart from one leading +, or repeated 0x prefixes) is not a number.", "quantifier": "all strings, all four widths", "why_tests_cant": "All strings and the overflow boundaries.", "anchors": ["at-asm/src/parsers/num.rs: impl_parse_str"]}
{"id": "C36", "title": "Immediate expressions evaluate to their arithmetic value", "statement": "`a`, `a + b` and `a - b` evaluate to a, a+b, a-b modulo 2^64 whenever the signed 64-bit arithmetic does not overflow, with any amount of whitespace around tokens; on overflow a debug build panics and a release build wraps; malformed expressions are errors.", "quantifier": "all literal pairs, both operators, all whitespace, both build profiles", "why_tests_cant": "2^128 operand pairs and overflow edges.", "anchors": ["at-asm/src/parsers/expr.rs: Expr::try_parse_str"]}
{"id": "C37", "title": "Malformed trailing text in an operand or line is rejected", "statement": "Extra tokens after a complete expression, push operand, ret or syscall are reported as errors. FALSE of the code: they are silently ignored (`mov rax, 1 + 2 + 3` assembles as 3).", "quantifier": "all lines", "why_tests_cant": "Universal over trailing text.", "anchors": ["at-asm/src/parsers/expr.rs", "at-asm/src/parsers/instruction/push.rs", "at-asm/src/parsers/instruction/mod.rs"]}
{"id": "C38", "title": "Data directives emit little-endian numbers of the declared width", "statement": "db/dw/dd/dq with a list of numbers, each followed by one comma or blank and any further blanks, emits each number in 1/2/4/8 little-endian bytes in order, and rejects the line iff some number does not fit or the list is not of this form (in particular a blank before a comma is rejected).", "quantifier": "all lists of numbers, all widths, all layouts", "why_tests_cant": "Unbounded lists.", "anchors": ["at-asm/src/parsers/data.rs: Data::try_parse_str, write_num, DataDefIter"]}
{"id": "C39", "title": "String data is emitted verbatim, zero-padded to the unit", "statement": "A quoted string in db/dw/dd/dq emits its UTF-8 bytes followed by the least number of zero bytes making the length a multiple of the unit (1/2/4/8), and strings may contain blanks and commas and be mixed with numbers.", "quantifier": "all strings without quote or semicolon, all widths, all mixes", "why_tests_cant": "All strings and lengths.", "anchors": ["at-asm/src/parsers/data.rs: write_str, DataDefIter"]}
{"id": "C40", "title": "Blank layout and comments do not change a line's meaning", "statement": "Leading/trailing white space, and everything from the first `;`, do not change what a line parses to; a line of only white space and comment is empty.", "quantifier": "all lines, all white space, all comments", "why_tests_cant": "Universal over strings.", "anchors": ["at-asm/src/parsers/line.rs: Line::parse_str"]}
{"id": "C41", "title": "A semicolon inside a string literal is data", "statement": "A string literal containing `;` is emitted verbatim. FALSE of the code: the comment stripper cuts the line there and every such line with an otherwise open quote is rejected.", "quantifier": "all string literals containing a semicolon", "why_tests_cant": "Universal over strings.", "anchors": ["at-asm/src/parsers/line.rs: Line::parse_str"]}
{"id": "C42", "title": "mov lines assemble to the mov they spell", "statement": "`mov R, E`, `mov R, S` and `mov R, symbol` with any blanks around the operands assemble to the corresponding Mov encoding; immediates that do not fit 32/16-bit destinations are rejected; a symbol operand yields a zero immediate and a relocation for that symbol at the immediate's offset with the immediate's length, non-pc-relative.", "quantifier": "all registers, immediates, symbols, layouts", "why_tests_cant": "All operands and layouts.", "anchors": ["at-asm/src/parsers/instruction/mov.rs: parse_str"]}
{"id": "C43", "title": "push, ret and syscall lines assemble to what they spell", "statement": "`push R`, `push N`, `ret`, `syscall` assemble to the corresponding encoding, choosing the 8-bit form iff N < 256; N >= 2^32 and other operands are rejected.", "quantifier": "all registers, all N, all layouts", "why_tests_cant": "All operands.", "anchors": ["at-asm/src/parsers/instruction/push.rs", "at-asm/src/parsers/instruction/mod.rs"]}
{"id": "C44", "title": "Directives and labels are recognised", "statement": "`section .text|.data|.bss`, `global NAME`, `NAME:` and `NAME dX ...` lines are recognised with the given name whatever the layout; unknown sections, missing or extra words are errors.", "quantifier": "all names and layouts", "why_tests_cant": "All names.", "anchors": ["at-asm/src/parsers/section.rs", "at-asm/src/parsers/global_symbol.rs", "at-asm/src/parsers/line.rs", "at-asm/src/parsers/data.rs: split_parts"]}
{"id": "C45", "title": "Labels get the offset of what follows them", "statement": "After assembling any accepted source, each label's symbol is in the section current at its definition with address equal to the number of bytes emitted to that section by earlier lines, in source order.", "quantifier": "all accepted sources (any number of lines, any interleaving of sections)", "why_tests_cant": "Unbounded sources and section switches.", "anchors": ["at-asm/src/assembler.rs: Assembler::read_from, SectionMut"]}
{"id": "C46", "title": "Each section's bytes are the concatenation of its lines", "statement": "After assembling any accepted source, the text (data) section's bytes are the concatenation in source order of the bytes of the lines assembled while that section was current; a source starts in .text.", "quantifier": "all accepted sources", "why_tests_cant": "Unbounded sources and interleavings.", "anchors": ["at-asm/src/assembler.rs: Assembler::read_from"]}
{"id": "C47", "title": "A symbol is external iff it is declared global", "statement": "After assembling, a symbol is marked external iff some `global` line, before or after the definition, in this or an earlier read_from call, names it.", "quantifier": "all sources and sequences of read_from calls", "why_tests_cant": "All orders of declaration and definition.", "anchors": ["at-asm/src/assembler.rs: Assembler::read_from"]}
{"id": "C48", "title": "The first bad line is reported", "statement": "If any line is rejected by the parser, the process exits with status 1 reporting the 1-based number (counted across read_from calls) and message of the first such line, unless an earlier line ended the process; nothing after it is processed.", "quantifier": "all sources", "why_tests_cant": "All positions and contents.", "anchors": ["at-asm/src/assembler.rs: Assembler::read_from"]}
{"id": "C49", "title": "Assembling in pieces equals assembling the whole", "statement": "Calling read_from on A then B leaves the assembler in the same state as one call on A followed by B, when A is empty or ends with a newline.", "quantifier": "all splits of all sources", "why_tests_cant": "All splits.", "anchors": ["at-asm/src/assembler.rs: Assembler::read_from", "at-asm/src/reader.rs: next_line"]}
{"id": "C50", "title": "Nothing is ever emitted into .bss", "statement": "Data or an instruction while .bss is current ends the process with status 1 (or a panic when the instruction carries a relocation); in every reachable assembler state the bss section has size 0.", "quantifier": "all sources and states", "why_tests_cant": "All reachable states.", "anchors": ["at-asm/src/assembler.rs: SectionMut::write_bytes, push_reloc"]}
{"id": "C51", "title": "Relocations point inside emitted zero immediates", "statement": "In every reachable assembler state with sections below 2^31 bytes, each relocation's field [addr, addr+2^len) lies inside its section and the bytes there are zero, fields of one section are pairwise disjoint and in increasing order.", "quantifier": "all accepted sources", "why_tests_cant": "All sources; invariants over history.", "anchors": ["at-asm/src/assembler.rs: Assembler::read_from", "at-asm/src/parsers/instruction/mov.rs"]}
{"id": "C52", "title": "End to end: source text to object file", "statement": "For every accepted source whose relocations are all to labels of non-empty sections, assembling and writing produces a file in which the text section slice disassembles to the source's instructions (when only instructions are in .text), each label of a non-empty section has a symbol entry with its name and address, and each symbolic mov has a relocation resolving to it.", "quantifier": "all such sources", "why_tests_cant": "Whole pipeline over unbounded inputs.", "anchors": ["at-asm/src/assembler.rs", "at-obj/src/macho.rs"]}
{"id": "C53", "title": "Command line handling", "statement": "With arguments [prog, IN], [prog, -o, OUT, IN] or [prog, IN, -o, OUT] the tool uses IN and OUT, OUT defaulting to IN with extension o; fewer or more remaining arguments exit with status 1; `-o` as last argument panics.", "quantifier": "all argument vectors", "why_tests_cant": "All argument vectors.", "anchors": ["at-asm/src/main.rs: Config::init"]}
{"id": "C54", "title": "A failed run leaves no misleading output and the input is never modified", "statement": "If assembling fails, the output file is left untouched; the input file is never changed. FALSE of the code: the output is truncated before parsing, a failing write leaves a partial file, and an input named *.o without -o is overwritten; proved: the input is unchanged whenever the two paths differ.", "quantifier": "all argument vectors, file contents and failure points", "why_tests_cant": "All failure points.", "anchors": ["at-asm/src/main.rs: main", "at-obj/src/macho.rs: write_into"]}
{"id": "C55", "title": "References to symbols defined elsewhere can be assembled", "statement": "A mov of a symbol not defined in this source produces an object with an undefined-symbol entry. FALSE of the code: no undefined entry is ever created and writing the object panics for every such source.", "quantifier": "all sources with a symbolic mov to an undefined name", "why_tests_cant": "Universal over sources.", "anchors": ["at-asm/src/assembler.rs", "at-obj/src/macho.rs: get_sym_idx"]}
{"id": "C56", "title": "A straight-line program runs instruction by instruction with the documented effects", "statement": "If the concatenated bytes of a sequence of register moves, lea and pop instructions are in memory at the instruction pointer, executing as many steps as there are instructions performs the documented effect of each in order, leaves memory unchanged, and leaves the instruction pointer right after the code.", "quantifier": "all sequences of such instructions and all initial machine states", "why_tests_cant": "Universal over programs and machine states; unit tests compare bytes of single instructions.", "anchors": ["at-x64/src/instruction/mov.rs", "at-x64/src/instruction/lea.rs", "at-x64/src/instruction/pop.rs"]}
{"id": "C57", "title": "Every Mach-O record has the documented on-disk layout", "statement": "Header, segment, section, symtab, dysymtab, build-version, build-tool, nlist_64 and relocation_info records written by the library have each field at the offset, width and byte order given in <mach-o/loader.h>, <mach-o/nlist.h> and <mach-o/reloc.h>; reading returns exactly the fields at those offsets, and accepts exactly the inputs whose command number, size and enumerated fields are valid.", "quantifier": "all values of the record types, all byte strings, both endiannesses, both build profiles", "why_tests_cant": "A round-trip test cannot see a layout error made symmetrically in reader and writer; the layout must hold for every field value.", "anchors": ["at-mac/src/header.rs", "at-mac/src/load_command/segment64.rs", "at-mac/src/load_command/symtab.rs", "at-mac/src/load_command/dysymtab.rs", "at-mac/src/load_command/build_version.rs", "at-mac/src/nlist.rs", "at-mac/src/reloc.rs"]}
{"id": "C58", "title": "Re-emitting a parsed header preserves its bytes", "statement": "Reading an accepted Mach-O header and writing it back reproduces its 32 bytes. FALSE of the code for headers of the other byte order: the magic is kept swapped but the other fields are written in host order, so the result is not even readable. Proved for native headers, with the exact bytes written characterised for swapped ones.", "quantifier": "all 32-byte inputs accepted by Header64::read_from, both host endiannesses", "why_tests_cant": "Ranges over all accepted headers; a test on the native byte order passes.", "anchors": ["at-mac/src/header.rs: Header64::read_from, Header64::write_into"]}
{"id": "C59", "title": "Objects beyond 4 GiB are rejected, not mis-described", "statement": "macho::write_into never reports success for a file whose header fields disagree with its contents, including when the contents exceed the format's 32-bit offsets. FALSE of the code: `len() as u32` truncates silently even in a debug build, so a 2^32-byte text section is written with filesize 0 and symbol and string offsets pointing into the section.", "quantifier": "all objects, both build profiles and host endiannesses", "why_tests_cant": "A test would need a 4 GiB object.", "anchors": ["at-obj/src/object.rs: SectionRef::file_size", "at-obj/src/macho.rs: gen_segment_command64, gen_symtab_command"]}
{"id": "C60", "title": "The accepted line language is exactly the documented one and unambiguous", "statement": "A line is accepted by the parser iff its part before the first `;` is a statement of the source language as specified independently (sections, globals, labels, data, mov, push, ret, syscall); every accepted line has exactly one meaning and the parser returns it. The specification records surprising members: `mov rax, eax` and `mov rax, [rdi]` are moves of a symbol of that name, `:` defines a symbol with the empty name, `ret db 5` is data labelled `ret`.", "quantifier": "all strings, both build profiles", "why_tests_cant": "Universal over all strings; tests sample a few lines.", "anchors": ["at-asm/src/parsers/line.rs: ParseStr for Line", "at-asm/src/parsers/instruction/mod.rs"]}
{"id": "C61", "title": "Linking a written file yields the program with addresses filled in", "statement": "For every source the command turns into an object file (below the format's size limits, NUL-free), a linker that follows the Mach-O format only -- reads the load commands, symbol table and relocation entries and adds symbol addresses into the named fields -- produces for each non-empty section exactly the concatenation of the statements' encodings in which each `mov reg, symbol` is the encoding of `mov reg, imm` with imm the final address of that label (mod 2^64 or 2^32).", "quantifier": "all sources, both byte orders, all section placements, both build profiles", "why_tests_cant": "Depends on symbol order, duplicate names, section ordinals, field offsets and bit packing for unboundedly many programs and placements.", "anchors": ["at-obj/src/macho.rs", "at-asm/src/assembler.rs", "at-asm/src/parsers/instruction/mov.rs"]}
{"id": "C62", "title": "Exactly the global names resolve, to their label's address", "statement": "Looking a name up among the external symbols of a written file finds an address iff the source declares it global and defines it in a non-empty section, and the address is that of its first label.", "quantifier": "all sources, all names, both byte orders", "why_tests_cant": "Universal over names and programs.", "anchors": ["at-obj/src/macho.rs", "at-asm/src/assembler.rs"]}
{"id": "C63", "title": "Linked code runs as the source says", "statement": "Starting a processor at a global label of the linked and loaded file executes the following source statements one by one with their documented effects (symbolic operands being addresses), through pushes and system calls, up to a `ret`, provided the stack area used does not overlap the code and the kernel preserves code, stack pointer and next instruction.", "quantifier": "all sources, initial machine states, kernels", "why_tests_cant": "End-to-end behaviour over all programs and machine states.", "anchors": ["at-x64/src/instruction/mod.rs: Instruction::bytecode", "at-asm/src/assembler.rs", "at-obj/src/macho.rs"]}
{"id": "C64", "title": "The command succeeds exactly on valid, linkable sources", "statement": "With input and output files distinct and accessible, the command exits with status 0 iff every line of the source is a statement of the language, nothing is written to .bss, labels are ASCII and every symbolic operand is a written label; the output file is then the linkable file of C61/C62.", "quantifier": "all source files (NUL-free, within format limits), both profiles", "why_tests_cant": "An equivalence over all source texts.", "anchors": ["at-asm/src/main.rs", "at-asm/src/assembler.rs"]}
{"id": "C65", "title": "A label defined twice is rejected", "statement": "A source that defines the same label twice is rejected with a diagnostic.", "quantifier": "all sources", "why_tests_cant": "Universal over sources.", "anchors": ["at-asm/src/assembler.rs"]}
{"id": "C66", "title": "Every name declared global is in the symbol table", "statement": "If a source declares `global n`, the object file has an external symbol n (defined or undefined).", "quantifier": "all sources", "why_tests_cant": "Universal over sources.", "anchors": ["at-asm/src/assembler.rs"]}
{"id": "C67", "title": "The message for a bad line is the one of its first fault", "statement": "A line is refused with message m iff the diagnostics table (a relation over the text of the line: which fault of an operand, expression, data item, section, global or opcode gives which text) assigns m to it; every line either parses, panics on an overflowing expression or has exactly one message.", "quantifier": "all lines, both profiles", "why_tests_cant": "An equivalence between an infinite set of faulty texts and their messages.", "anchors": ["at-asm/src/parsers/"]}
{"id": "C68", "title": "Every parser called on its own accepts its format and reports its own fault", "statement": "Each ParseStr implementation (registers of three widths, numbers of four widths, expressions, section and global directives, data, instructions, lines) returns the value its format defines, or exactly the message the format's fault table gives, and panics only on the i64 overflow of an expression.", "quantifier": "all strings, both profiles", "why_tests_cant": "Equivalences over all strings for every parser.", "anchors": ["at-asm/src/parsers/"]}
{"id": "C69", "title": "Relocation types use Apple's codes", "statement": "X86RelocType and X86_64RelocType convert to and from exactly the codes of mach-o/reloc.h and mach-o/x86_64/reloc.h; other numbers are refused.", "quantifier": "all u8 values, all types", "why_tests_cant": "Covers the whole code space, including refusals.", "anchors": ["at-mac/src/reloc.rs"]}
{"id": "C70", "title": "Text is decoded and encoded as UTF-8", "statement": "Bytes are accepted as text iff they are well-formed UTF-8 (shortest form, no surrogates, at most U+10FFFF), giving the one scalar sequence they encode; strings are written as their UTF-8 encoding.", "quantifier": "all byte strings and all strings", "why_tests_cant": "Infinitely many byte strings.", "anchors": ["at-asm/src/reader.rs", "at-asm/src/parsers/data.rs"]}
{"id": "C71", "title": "The exit status says how a run ended", "statement": "The command exits with status 0 iff every line is a statement and the program is linkable, 1 iff some line (the first bad one) is refused with a diagnostic, which is then exactly what is printed, and 101 iff a line crashes the parser or the accepted program is not linkable; no other status ever occurs.", "quantifier": "all argument lists, worlds and sources, both profiles", "why_tests_cant": "Classifies every run of the command, including those no test reaches.", "anchors": ["at-asm/src/main.rs", "at-asm/src/assembler.rs: read_from"]}
{"id": "C72", "title": "A debug build that does not panic does what a release build does", "statement": "If the debug build (overflow checks on) parses a line, reads a source, writes an object, reads a load command or runs the command without panicking, the release build gives exactly the same result.", "quantifier": "all inputs of each entry point", "why_tests_cant": "Compares two builds on every input.", "anchors": ["at-asm/src/main.rs", "at-asm/src/assembler.rs", "at-obj/src/macho.rs"]}
{"id": "C73", "title": "Comments, blank lines and indentation do not matter", "statement": "Adding or removing lines that are blank up to a comment, changing white space around a statement, or changing comments leaves the assembled object, the written file and the exit status of the command unchanged.", "quantifier": "all sources and all such edits, both profiles (fewer than 2^32 lines in debug builds)", "why_tests_cant": "Relates infinitely many pairs of sources.", "anchors": ["at-asm/src/assembler.rs: read_from", "at-asm/src/parsers/line.rs", "at-asm/src/main.rs"]}
{"id": "C74", "title": "Interleaving of sections does not matter", "statement": "Two sources that put the same statements into each section in the same order and declare the same names global give the same object, however the sections are interleaved and wherever the global lines stand; one is accepted iff the other is (within the size limits of debug builds).", "quantifier": "all pairs of sources", "why_tests_cant": "Relates infinitely many pairs of sources.", "anchors": ["at-asm/src/assembler.rs"]}
{"id": "C75", "title": "Labels can be renamed consistently", "statement": "Renaming labels by any function injective on the names of a program changes neither the linked contents of any section nor the address found under a (renamed) global name.", "quantifier": "all programs, renamings and load addresses", "why_tests_cant": "Relates infinitely many pairs of sources and quantifies over renamings.", "anchors": ["at-asm/src/assembler.rs", "at-obj/src/macho.rs"]}
{"id": "C76", "title": "Reading more text only adds to the object", "statement": "From any assembler state, reading further text keeps every byte, relocation and symbol already there, in place; new ones are appended, and symbols can only become external.", "quantifier": "all states and texts, both profiles", "why_tests_cant": "Invariant over all states, including ones reached by no test.", "anchors": ["at-asm/src/assembler.rs: read_from"]}
{"id": "C77", "title": "The instruction builder encodes what its calls say", "statement": "For every chain of builder calls (last call of a kind wins) the result is prefix, REX (present iff one of its bits is needed, with the bits of the registers used), opcode (given as bytes or as a little-endian number), ModRM/SIB/displacement that the CPU decodes back to the given register (or opcode extension) and operand, and the little-endian immediate. It panics exactly if an opcode argument has more than 3 bytes, an immediate more than 8, an extension exceeds 7, a scale exceeds 3, an 8-byte immediate comes without REX.W, or the total exceeds 15 bytes.", "quantifier": "all sequences of builder calls with all arguments", "why_tests_cant": "Sequences of calls and 64-bit arguments are unbounded; unit tests only use the fixed chains of the existing instructions.", "anchors": ["at-x64/src/encoder/mod.rs: Encoder", "at-x64/src/encoder/bytecode.rs: ByteCode"]}
{"id": "C78", "title": "Setters of REX, ModRM and SIB touch only their field", "statement": "Setting a REX bit changes that bit of any byte and no other; setting mode, reg or rm of any ModRM byte changes that field and no other and panics iff the value does not fit; a SIB byte holds its three fields; the accessors of a 64-bit register form the ModRM byte of that register.", "quantifier": "all bytes, all field values, all registers", "why_tests_cant": "The unit tests reach the setters only from a fresh byte.", "anchors": ["at-x64/src/encoder/bytecode.rs: Rex, ModRM, Sib", "at-x64/src/reg.rs: Reg64"]}
{"id": "C79", "title": "Programs with stores and jumps run as documented", "statement": "A processor executing encoded instructions, or the linked text of a source, follows the listing instruction by instruction with the documented effects - through stores, stack operations, returns to any instruction and system calls, for any number of steps - as long as each next instruction is one of the listing and does not write onto the code.", "quantifier": "all instruction lists and sources, numbers of steps, machine states and kernels", "why_tests_cant": "Programs can loop for ever and reach unboundedly many states.", "anchors": ["at-x64/src/instruction/mod.rs: Instruction::bytecode", "at-asm/src/assembler.rs", "at-obj/src/macho.rs"]}
{"id": "C80", "title": "Failing files make the command fail, never lie", "statement": "When reading the source or writing the output fails at any point, the command ends normally iff it would have without the failure and the failure came after the last byte; if it does not panic it behaves exactly as without the failure; and every file is then a prefix of what it would have been.", "quantifier": "all command lines, file systems, and points of failure; all behaviours of a Write sink", "why_tests_cant": "A failing disk can strike at any byte and take any chunk sizes.", "anchors": ["at-asm/src/main.rs: main", "at-asm/src/reader.rs: next_line", "at-mac/src/io.rs: WriteExt", "at-obj/src/macho.rs: write_into"]}
{"id": "C81", "title": "The repository's sample programs do what their headers say", "statement": "Assembled by the command in either build and on either byte order, linked at any addresses and entered at _main on any machine: minimum.s and many_mov.s return to their caller with 24 and 42 in ax, having changed no memory and only the registers they name; reloc_hello_world.s and simple_hello_world.s first ask the kernel to write exactly their text to descriptor 1, and then, if the kernel returns with the code and stack pointer intact, to exit with 0.", "quantifier": "all command lines naming the sample, builds, byte orders, load addresses, machine states, kernels", "why_tests_cant": "at-asm/tests/run.sh runs each program once, on one machine, at the address the linker happened to choose.", "anchors": ["at-asm/tests/minimum.s", "at-asm/tests/many_mov.s", "at-asm/tests/reloc_hello_world.s", "at-asm/tests/simple_hello_world.s", "at-asm/src/main.rs: main"]}
{"id": "C82", "title": "Debug output of string tables, flags and attributes is exact", "statement": "The Debug output of a string table, on one line or pretty-printed, is a list with one Rust literal per byte in order (an empty string for NUL, otherwise the character); that of the flags or section attributes read from a word is a set with one name per set bit in ascending order, each the camel-case form of the constant of <mach-o/loader.h> for that bit. Two values with the same output are equal, in either layout.", "quantifier": "all string tables, all 32-bit words, all lists of flags and attributes, both layouts", "why_tests_cant": "Tables, words and lists are unbounded, and no unit test looks at the output.", "anchors": ["at-mac/src/string_table.rs: Debug for StringTable", "at-mac/src/header.rs: Debug for Flags", "at-mac/src/load_command/segment64.rs: Debug for SectionAttrs"]}
{"id": "C83", "title": "Written objects link with each other", "statement": "When several objects are written and the files are linked at any addresses, each section becomes its bytes (zeros for bss) with every reference replaced, at its width, by the old number plus the value of what it names: the section's new address plus the offset, the absolute number, or, for an undefined symbol, the value of the first external definition of that name in the files. Exactly the external definitions are visible to other files. A section links if and only if each reference is absolute, lies inside the section and names something defined. The order of the files does not matter unless two of them define a name differently. An assembled file links among others as it does alone, and shows exactly its global labels.", "quantifier": "all lists of representable objects, all addresses, both byte orders, both build profiles", "why_tests_cant": "Object files, their symbols and addresses are unbounded, and no test links files.", "anchors": ["at-obj/src/macho.rs: write_into, gen_nlist64s, gen_relocation_infos", "at-obj/src/object.rs: Object", "at-asm/src/assembler.rs: Assembler::write_into"]}
{"id": "C84", "title": "PC-relative references link", "statement": "A reference with pcrel set, inside its section and to a defined symbol, is written so that a linker accepts the file.", "quantifier": "all objects with a PC-relative reference", "why_tests_cant": "The repository has no linker and no test with a PC-relative reference.", "anchors": ["at-obj/src/macho.rs: gen_relocation_infos (r_type)"]}
{"id": "C85", "title": "Load commands are read exactly as laid out", "statement": "Reading a load command succeeds iff the input starts with an LC_SEGMENT_64, LC_SYMTAB, LC_DYSYMTAB or LC_BUILD_VERSION command in the layout of <mach-o/loader.h>, whose size and counts agree; the value is then the command that stands there and exactly its bytes are consumed. Every other command number is refused. The same holds for any number of commands in a row.", "quantifier": "all inputs, both byte orders, both build profiles, all numbers of commands", "why_tests_cant": "Inputs are unbounded; the unit tests read one file.", "anchors": ["at-mac/src/load_command/mod.rs: LoadCommand::read_from_in", "at-mac/src/load_command/segment64.rs", "at-mac/src/load_command/build_version.rs"]}
{"id": "C86", "title": "A load command that was read is written back as it was", "statement": "Writing a load command that was read from a file gives exactly the bytes it was read from, on a machine of the file's byte order.", "quantifier": "all inputs that are accepted, both byte orders, both build profiles", "why_tests_cant": "The set of accepted inputs is unbounded; the unit tests write only what they built.", "anchors": ["at-mac/src/load_command/mod.rs: LoadCommand::read_from_in, write_into", "at-mac/src/io.rs: read_fixed_size_string, write_fixed_size_string"]}
{"id": "C87", "title": "A written file determines what was written", "statement": "If two objects are written as the same file, they have the same non-empty sections with the same contents, references and defined symbols, and the same symbols in the same order (only the section an undefined symbol was listed under is not recorded), and the hosts have the same byte order; conversely such objects give the same file, or the same failure, in every build. So two assembled sources give the same file iff they have the same bytes, labels, visibility and references in each section.", "quantifier": "all pairs of representable objects with clean names and at most 2^24 symbols; all pairs of sources; both byte orders; both build profiles", "why_tests_cant": "A statement about all pairs of objects.", "anchors": ["at-obj/src/macho.rs: write_into", "at-obj/src/object.rs: Object", "at-asm/src/assembler.rs: Assembler::write_into"]}
{"id": "C88", "title": "Every statement has a standard spelling and every source a standard form", "statement": "The statements that lines of text can mean are exactly those of a short list: directives with a name of the allowed form, labels without white space, data of any bytes, register and immediate moves with an immediate of the register's width, symbolic moves with a trimmed operand that is neither an expression nor a register, pushes, ret and syscall. Each has exactly one standard spelling, which every build reads as this statement, and different statements are spelled differently. Every source that is read has exactly one standard form, one such line for each of its lines, and assembling that form ends in the same state.", "quantifier": "all statements, all lines, all sources, both build profiles", "why_tests_cant": "The set of texts with the same meaning is unbounded.", "anchors": ["at-asm/src/parsers/line.rs: Line::parse_str", "at-asm/src/parsers/data.rs", "at-asm/src/parsers/instruction/mov.rs: parse_str", "at-asm/src/assembler.rs: Assembler::read_from"]}
{"id": "C89", "title": "The assembler produces exactly these objects", "statement": "An object is the result of some source iff each byte section holds any bytes in which every reference is the zero field of a mov of that width, the movs follow each other without overlap, in order, each label lies outside them and labels are in the order of their addresses, references are absolute with an operand that can be written, bss has size 0 and only labels at 0, names are label names, and each name is external everywhere or nowhere, the empty name never.", "quantifier": "all objects with sections below 2^31 bytes and fewer than 2^29 symbols, both build profiles", "why_tests_cant": "Both the objects and the sources that could give them are unbounded sets; that nothing else can be produced is a statement about all sources.", "anchors": ["at-asm/src/assembler.rs: Assembler::read_from, SectionMut", "at-asm/src/parsers/line.rs: Line::parse_str", "at-obj/src/object.rs: Object"]}
{"id": "C90", "title": "Sources up to 16 MiB need no further conditions on sizes", "statement": "A source assembles to at most 4 times its length in bytes. If the inputs are together at most 2^24 bytes, every offset and count in the object fits its field and the debug arithmetic on sizes cannot overflow; so the exit status is 0 iff every line is a statement, none writes to .bss and the labels can be linked, 101 iff a first line is not UTF-8, overflows an expression (debug), or is a symbolic mov in .bss, or the labels cannot be linked, 1 otherwise with the exact line number; a file written has at most 29 times the source's length + 296 bytes and links to the intended program. Debug and release builds then behave identically, failing runs included, unless an overflowing expression is reached.", "quantifier": "all sources up to 2^24 bytes, all worlds and arguments, both build profiles and byte orders", "why_tests_cant": "The bounds relate the length of every accepted source to the sizes of what is produced; tests only try some sources, and none near a limit.", "anchors": ["at-asm/src/main.rs: main", "at-asm/src/assembler.rs: Assembler::read_from, Assembler::write_into", "at-asm/src/parsers/line.rs: Line::parse_str", "at-obj/src/macho.rs: write_into"]}
{"id": "C91", "title": "Exactly these addresses have an operand, exactly these numbers can be pushed", "statement": "Of the addresses of the instruction set ([base + index * 2^scale + disp32], [RIP + disp32]), exactly those have a Mem64 operand whose displacement is not 128..256, or that have no base register, or whose base is other than RSP and there is no index, or whose index is the base with scale 0; for each of them a given operand works for lea and for stores, in every state. In particular [rsp + 128] has none. The 64-bit constants a library instruction pushes are exactly the signed 32-bit numbers; those that some source line pushes are the same without 128..255.", "quantifier": "all base/index registers, scales, signed 32-bit displacements, operands, machine states; all 64-bit constants and all source lines, both build profiles", "why_tests_cant": "That no operand and no source line works is a statement about all of them and all machine states.", "anchors": ["at-x64/src/mem.rs: Mem64", "at-x64/src/encoder/mod.rs: RmLike for Mem64", "at-x64/src/instruction/lea.rs", "at-x64/src/instruction/mov.rs", "at-x64/src/instruction/push.rs", "at-asm/src/parsers/instruction/push.rs: parse_str"]}
{"id": "C92", "title": "Derived Debug output determines the value", "statement": "For each of the 43 types with Debug output, `{:?}` and `{:#?}` print different values differently. `{:?}` prints one line whatever the strings hold, and no control character of a string reaches the output of either. Structs show each field under its name (for Mach-O records the name and order of Apple's headers) with integers in decimal and strings as Rust literals that denote them; enumerations read from a number show the name Apple's headers give that number; registers show their assembly name in capitals. The two layouts differ only in white space and commas; in `{:#?}` every entry stands on lines of its own, four spaces further in than what it belongs to.", "quantifier": "all values of all types, both layouts, all choices std may make of characters to escape", "why_tests_cant": "Values, in particular strings and lists, are unbounded, and injectivity speaks of all pairs; assertion messages of tests rely on it.", "anchors": ["at-x64/src/reg.rs", "at-x64/src/mem.rs", "at-mac/src/header.rs", "at-mac/src/load_command/mod.rs", "at-mac/src/nlist.rs", "at-mac/src/reloc.rs", "at-obj/src/object.rs: Symbol", "at-asm/src/parsers/mod.rs: ParseError", "at-asm/src/parsers/data.rs: Data"]}
{"id": "C93", "title": "Reading a load command makes room only for what the input holds", "statement": "While a load command is read, room is made at most once, for as many records as the command counts, and only after its fixed part has been accepted. When the command is then read completely the input holds all these records, so the room is in proportion to the input. It should be so for every input; in fact 72 bytes suffice to make the reader ask for room for 53,687,090 sections in a debug build and 4,294,967,295 in a release build, which are also the largest amounts.", "quantifier": "all byte sequences, both byte orders, both profiles", "why_tests_cant": "The count is read from the input; a test shows one count, not that no other input asks for more, and the worst case aborts the process for lack of memory.", "anchors": ["at-mac/src/load_command/mod.rs: LoadCommand::read_from_in", "at-mac/src/load_command/segment64.rs: SegmentCommand64::read_from_in", "at-mac/src/load_command/build_version.rs: BuildVersionCommand::read_from_in"]}
{"id": "C94", "title": "Arguments are handled byte for byte, or refused before any file is touched", "statement": "If every command-line argument is UTF-8, the paths that are opened are the bytes of the arguments, the default output path differs from the input path only in its extension, and the run is the one the command line describes. If any argument, the program's own name included, is not UTF-8, the program ends with status 101 before it opens a file.", "quantifier": "all lists of byte-string arguments, all file systems, both profiles, both host byte orders", "why_tests_cant": "File names are arbitrary bytes; cutting a name at a byte that is part of a longer character would only show for particular names.", "anchors": ["at-asm/src/main.rs: main", "at-asm/src/main.rs: Config::init"]}
{"id": "C95", "title": "How the input is cut into reads does not matter", "statement": "A file, pipe or other source may hand over its bytes in pieces of any sizes, with interrupted calls in between. The assembler does with them what it does with all the bytes at once, and every reader of at-mac returns the same value, stops at the same byte and panics on the same inputs. An end of file between two lines ends the assembly; an end of file within a line acts as a line feed and what the source delivers later is still read; an error ends the program after the lines before it.", "quantifier": "all sequences of answers to `read` (pieces of any size, interruptions, ends of file, errors), all assembler states, all inputs, both profiles, both byte orders", "why_tests_cant": "Test files are read in one piece; where a pipe cuts its data depends on timing.", "anchors": ["at-asm/src/reader.rs: next_line", "at-asm/src/assembler.rs: Assembler::read_from", "at-mac/src/io.rs: ReadExt", "at-mac/src/load_command/mod.rs: LoadCommand::read_from_in"]}
{"id": "C96", "title": "The calls the program makes, whatever the operating system answers", "statement": "The program opens the input named by the command line for reading, then the output for writing, then reads, and only when the whole input was read and accepted it writes; a message comes last and instead of writing. No other file is opened, what was not read could not have changed the result, the bytes that were written are at every end of the program the beginning of the object file, and status 0 means that all of it was written. After a failure (a file that cannot be opened, an error of a read or write, a write that takes nothing) no further call is made and the program panics; without one the result depends on the command line and on what was read only. Whatever the answers are (if the operating system does not interrupt or deliver forever), the program ends. On a file system that works the result is that of C53, C54 and C94, however reads and writes are cut.", "quantifier": "all argument lists, all sequences of answers to open, read, write and to writing a message, all file systems, both profiles, both host byte orders", "why_tests_cant": "Failures of the operating system cannot be produced at will in a test, and the order of calls is not visible in the resulting files.", "anchors": ["at-asm/src/main.rs: main", "at-asm/src/reader.rs: next_line", "at-asm/src/assembler.rs: Assembler::read_from, write_into"]}
{"id": "C97", "title": "`==` compares content, as Debug shows it", "statement": "`==` holds between two values exactly when they are the same value, which is exactly when `{:?}` (and `{:#?}`) print the same text: a failed `assert_eq!` never prints two equal texts. It is an equivalence relation. Although `BytesAtMost` compares its whole array, two of them obtained from its constructors, from the encoder or by writing through `as_mut` compare equal exactly when their bytes up to the length are equal, because the room after them is always zero.", "quantifier": "all pairs of values of all types with a derived `PartialEq`, all instructions and encoder states, all arrays and writes", "why_tests_cant": "Tests use `==` to compare; whether `==` itself overlooks a field, or sees one that nothing shows, is a question about all pairs.", "anchors": ["at-x64/src/bytes.rs: BytesAtMost", "at-x64/src/encoder/bytecode.rs: ByteCode::to_bytes", "at-mac/src/header.rs", "at-mac/src/load_command/mod.rs: LoadCommand", "at-obj/src/object.rs: Symbol"]}
{"id": "C98", "title": "Records are equal exactly when they are written as the same bytes", "statement": "Two records of the same type that compare equal are written as the same bytes, and records written as the same bytes compare equal. The second half is false of the code: flags and section attributes are kept as lists, so their order and repetition are seen by `==` but not written, and a name's final NULs vanish in the padding. These are the only exceptions, for records that fit their fields, and what the readers return is never one.", "quantifier": "all pairs of records of the ten types with a writer, both byte orders", "why_tests_cant": "Round-trip tests compare records or bytes of examples; that no two different records share their bytes is about all pairs.", "anchors": ["at-mac/src/header.rs: Header64::write_into, Flags", "at-mac/src/load_command/segment64.rs: Section64::write_into, SectionAttrs", "at-mac/src/io.rs: write_fixed_size_string, read_fixed_size_string", "at-mac/src/reloc.rs: RelocationInfo", "at-mac/src/nlist.rs: NList64"]}
{"id": "C99", "title": "A panic message names the offending number", "statement": "When a reader stops with a message of its own, the message names the number of the file that no variant has: the section type or the lowest unknown section attribute in hexadecimal, the platform, tool, symbol type, debug symbol or relocation type in decimal; an unknown processor, a fat file and an unknown load command are reported as such. It happens exactly when the fields before it are readable and that number is unknown, and the first bad record is the one reported. The assembler's only message of this kind is for a symbolic mov in .bss, a string table's for a name that is not ASCII, the instruction builder's for a 64-bit immediate without REX.W whose other arguments are fine.", "quantifier": "all inputs, both byte orders, host orders and build profiles; all sources", "why_tests_cant": "Which of several faults is reported, and with which number, depends on the whole prefix of the input; tests with should_panic look at single inputs and mostly not at the message.", "anchors": ["at-mac/src/load_command/segment64.rs: SectionType::from_u32, SectionAttr::from_u32, SectionAttrs::from_u32", "at-mac/src/load_command/build_version.rs: Platform::from_u32, Tool::from_u32", "at-mac/src/load_command/mod.rs: LoadCommand::read_from_in", "at-mac/src/nlist.rs: NTypeField::from_u8, NType::from_u8, DebugSymbol::from_u8", "at-mac/src/header.rs: Header64::read_from, CpuType::from_i32_i32", "at-mac/src/reloc.rs: X86RelocType::from_u8, X86_64RelocType::from_u8", "at-mac/src/string_table.rs: StringTable::push_with_null", "at-asm/src/assembler.rs: push_reloc", "at-x64/src/encoder/mod.rs: Encoder::encode"]}
{"id": "C100", "title": "A changed number changes only its own bytes of the file", "statement": "If two objects differ only in the values of the bytes of .text and .data, not in their number, nor in symbols, relocations or .bss, the writer does the same for both and the files differ only where those bytes are, the rest of each file being the same. For sources: if in one line a number or a string is replaced by another of the same encoded length, the second source is accepted as well, and its file is the first one with the bytes of that statement replaced at their place, nothing else moved or changed. Of an instruction only the bytes of the number change.", "quantifier": "all pairs of objects of the same shape; all pairs of sources whose statements have the same sizes and names; both host orders and build profiles", "why_tests_cant": "Tests compare one output with one expectation; that no header, offset, symbol or relocation depends on the values of the contents is about all pairs of inputs.", "anchors": ["at-obj/src/macho.rs: write_into", "at-asm/src/assembler.rs: Assembler::read_from, exec_line, push_reloc, write_into", "at-x64/src/instruction/mov.rs: Mov::bytecode", "at-x64/src/instruction/push.rs: Push::bytecode"]}
{"id": "C101", "title": "Names of the same length change the strings of the file and nothing else", "statement": "If the names of an object are replaced, consistently and without making two names one, by ASCII names of the same lengths, the file written is the same up to the string table, and the string table has the new names in the places of the old ones: no offset, symbol entry or relocation entry depends on what a name is. For sources: the same for two sources that differ in such names.", "quantifier": "all objects that fit the format and are written; all renamings of that kind; all pairs of sources; both host orders and build profiles", "why_tests_cant": "The writer finds string offsets and symbol numbers by searching for the text of names; that the search never depends on the text except through equality is about all pairs of name sets.", "anchors": ["at-obj/src/macho.rs: write_into, gen_string_table, get_strx, gen_nlist64s, get_sym_idx, gen_relocation_infos", "at-asm/src/assembler.rs: Assembler::read_from, write_into"]}
{"id": "C102", "title": "A line inserted moves what follows it in its section by its size, and nothing else", "statement": "If a line that names nothing (data without a label, an instruction without a symbol, an empty line) is inserted into a source, in .text or .data, the bytes of that section are the old ones with the bytes of the line inserted at its place; the symbols and relocations of the lines before it stay, those of the lines after it have their addresses raised by its size and are otherwise the same, in the same order; the bytes, symbols and relocations of the other sections and the size of .bss are unchanged.", "quantifier": "all pairs of sources, all places in .text or .data, all such lines, both build profiles; sections below 2^31 bytes", "why_tests_cant": "Offsets are running sums over all lines read so far, in two sections that may be left and entered again; a test fixes one source.", "anchors": ["at-asm/src/assembler.rs: Assembler::read_from, exec_line, push_reloc", "at-obj/src/object.rs: BytesSection"]}
