(** Model of the derived `Debug` formatters of all four crates.  A derived formatter hands the
    name and the fields, in the order of declaration, to std's builders; a value is first turned
    into the tree of these calls, then printed.  [alt] tells `{:#?}` from `{:?}`. *)
From Coq Require Import String.
From Verif Require Import Base Str X64 Mac Dbg Obj Asm.

(** ** std *)

(** the builders: `debug_tuple`, `debug_struct`, `debug_list`, `debug_set` *)
Inductive dkind := KTuple | KStruct | KList | KSet.
(** numbers, booleans and fieldless variants; strings; the rest with names of fields for KStruct *)
Inductive dval :=
| DvAtom (text : str)
| DvStr (s : str)
| DvNode (k : dkind) (name : str) (entries : list (str * dval)).

(** std `PadAdapter`: four spaces at the beginning of each line *)
Fixpoint pad (on_newline : bool) (t : str) : str :=
  match t with
  | [] => []
  | c :: t' => (if on_newline then lit "    " else []) ++ c :: pad (c =? 10) t'
  end.
(** the builders' output; no struct or tuple without fields and no tuple of one element without
    a name occurs *)
Definition dbg_open (k : dkind) (name : str) : str :=
  match k with
  | KTuple => name ++ lit "(" | KStruct => name ++ lit " {" | KList => lit "[" | KSet => lit "{"
  end.
Definition dbg_close (k : dkind) : str :=
  match k with KTuple => lit ")" | KStruct => lit "}" | KList => lit "]" | KSet => lit "}" end.
Definition dbg_gap (k : dkind) : str := match k with KStruct => lit " " | _ => [] end.
Definition dbg_label (k : dkind) (field : str) : str :=
  match k with KStruct => field ++ lit ": " | _ => [] end.
Definition dbg_node (alt : bool) (k : dkind) (name : str) (es : list str) : str :=
  dbg_open k name ++
  match es with
  | [] => []
  | _ => if alt then 10 :: flat_map (fun e => pad true (e ++ lit "," ++ [10])) es
         else dbg_gap k ++ join_comma es ++ dbg_gap k
  end ++ dbg_close k.

(** std `{:x}` below 16^[fuel] *)
Fixpoint hex_digits (fuel : nat) (n : Z) (acc : str) : str :=
  match fuel with
  | O => acc
  | S f => if n <? 16 then hex_digit n :: acc else hex_digits f (n / 16) (hex_digit (n mod 16) :: acc)
  end.
(** std `Debug for str`.  Which characters are written as `\u{..}` depends on std's tables, which
    change with its version; [esc i c] tells it for the character [c] at index [i], NUL included
    (`\0` or `\u{0}`).  Everything said is for all [esc]. *)
Definition policy := nat -> Z -> bool.
Definition esc_char (esc : bool) (c : Z) : str :=
  if c =? 9 then lit "\t"
  else if c =? 13 then lit "\r"
  else if c =? 10 then lit "\n"
  else if (c =? 34) || (c =? 92) then 92 :: [c]
  else if esc then lit "\u{" ++ hex_digits 6 c [] ++ lit "}"
  else if c =? 0 then lit "\0"
  else [c].
Fixpoint esc_str (esc : policy) (i : nat) (s : str) : str :=
  match s with [] => [] | c :: s' => esc_char (esc i c) c ++ esc_str esc (S i) s' end.

Fixpoint debug (esc : policy) (alt : bool) (v : dval) : str :=
  match v with
  | DvAtom t => t
  | DvStr s => 34 :: esc_str esc 0 s ++ [34]
  | DvNode k name es =>
      dbg_node alt k name (map (fun e => dbg_label k (fst e) ++ debug esc alt (snd e)) es)
  end.

(** std `Debug` of integers and bool *)
Definition dv_num (n : Z) : dval := DvAtom (if n <? 0 then 45 :: show_u64 (- n) else show_u64 n).
Definition dv_bool (b : bool) : dval := DvAtom (lit (if b then "true" else "false")).
Definition dv_unit (name : string) : dval := DvAtom (lit name).
Definition unlabelled (l : list dval) : list (str * dval) := map (fun v => ([], v)) l.
Definition dv_tuple (name : string) (l : list dval) : dval := DvNode KTuple (lit name) (unlabelled l).
Definition dv_list (l : list dval) : dval := DvNode KList [] (unlabelled l).
Definition dv_set (l : list dval) : dval := DvNode KSet [] (unlabelled l).
Definition dv_struct (name : string) (l : list (string * dval)) : dval :=
  DvNode KStruct (lit name) (map (fun e => (lit (fst e), snd e)) l).
(** std `Debug for Option` *)
Definition dv_option {A} (f : A -> dval) (o : option A) : dval :=
  match o with Some a => dv_tuple "Some" [f a] | None => dv_unit "None" end.

(** a field and its value *)
Local Notation "( n => v )" := (@pair string dval n%string v).

(** ** at-x64 *)

(** reg.rs:22-56 *)
Definition dv_reg64 (r : reg64) : dval :=
  dv_unit match r with
  | RAX => "RAX" | RDI => "RDI" | RSI => "RSI" | RDX => "RDX" | RCX => "RCX" | RBP => "RBP" | RSP => "RSP"
  | RBX => "RBX" | R8 => "R8" | R9 => "R9" | R10 => "R10" | R11 => "R11" | R12 => "R12" | R13 => "R13"
  | R14 => "R14" | R15 => "R15"
  end.
(** reg.rs:130-164 *)
Definition dv_reg32 (r : reg32) : dval :=
  dv_unit match r with
  | EAX => "EAX" | EDI => "EDI" | ESI => "ESI" | EDX => "EDX" | ECX => "ECX" | EBP => "EBP" | ESP => "ESP"
  | EBX => "EBX" | R8D => "R8D" | R9D => "R9D" | R10D => "R10D" | R11D => "R11D" | R12D => "R12D"
  | R13D => "R13D" | R14D => "R14D" | R15D => "R15D"
  end.
(** reg.rs:221-255 *)
Definition dv_reg16 (r : reg16) : dval :=
  dv_unit match r with
  | AX => "AX" | DI => "DI" | SI => "SI" | DX => "DX" | CX => "CX" | BP => "BP" | SP => "SP" | BX => "BX"
  | R8W => "R8W" | R9W => "R9W" | R10W => "R10W" | R11W => "R11W" | R12W => "R12W" | R13W => "R13W"
  | R14W => "R14W" | R15W => "R15W"
  end.
(** reg.rs:312-346 *)
Definition dv_reg8 (r : reg8) : dval :=
  dv_unit match r with
  | AL => "AL" | DIL => "DIL" | SIL => "SIL" | DL => "DL" | CL => "CL" | BPL => "BPL" | SPL => "SPL"
  | BL => "BL" | R8B => "R8B" | R9B => "R9B" | R10B => "R10B" | R11B => "R11B" | R12B => "R12B"
  | R13B => "R13B" | R14B => "R14B" | R15B => "R15B"
  end.
(** reg.rs:3-9 *)
Definition dv_reg (r : reg) : dval :=
  match r with
  | Reg64 r => dv_tuple "Reg64" [dv_reg64 r]
  | Reg32 r => dv_tuple "Reg32" [dv_reg32 r]
  | Reg16 r => dv_tuple "Reg16" [dv_reg16 r]
  | Reg8 r => dv_tuple "Reg8" [dv_reg8 r]
  end.
(** mem.rs:3-26 *)
Definition dv_mem64 (m : mem64) : dval :=
  match m with
  | RegOffset r d => dv_tuple "RegOffset" [dv_reg64 r; dv_num d]
  | RipOffset d => dv_tuple "RipOffset" [dv_num d]
  | MSib b d i s =>
      dv_struct "Sib" [("base" => dv_option dv_reg64 b); ("disp" => dv_num d);
                       ("index" => dv_reg64 i); ("scale" => dv_num s)]
  end.
(** bytes.rs:3-7 *)
Definition dv_bam (b : bam) : dval :=
  dv_struct "BytesAtMost" [("bytes" => dv_list (map dv_num (bam_bytes b)));
                           ("len" => dv_num (Z.of_nat (bam_len b)))].

(** ** at-mac *)

(** io.rs:4-8 *)
Definition dv_endian (e : endian) : dval := dv_unit match e with Little => "Little" | Big => "Big" end.
(** header.rs:76-96 *)
Definition dv_magic (m : magic) : dval :=
  dv_unit match m with
  | Magic64 => "Magic64" | Cigam64 => "Cigam64" | Magic32 => "Magic" | Cigam32 => "Cigam"
  | FatMagic => "FatMagic" | FatCigam => "FatCigam"
  end.
(** header.rs:112-126 *)
Definition dv_cpu_sub_x86 (s : cpu_sub_x86) : dval := dv_unit match s with X86All => "All" end.
Definition dv_cpu_sub_x86_64 (s : cpu_sub_x86_64) : dval := dv_unit match s with X86_64All => "All" end.
Definition dv_cpu_type (c : cpu_type) : dval :=
  match c with
  | CpuX86 s => dv_tuple "X86" [dv_cpu_sub_x86 s]
  | CpuX86_64 s => dv_tuple "X86_64" [dv_cpu_sub_x86_64 s]
  end.
(** header.rs:155-167 *)
Definition dv_file_type (f : file_type) : dval :=
  dv_unit match f with
  | FtObject => "Object" | FtExecute => "Execute" | FtFVMLib => "FVMLib" | FtCore => "Core"
  | FtPreload => "Preload" | FtDylib => "Dylib" | FtDylinker => "Dylinker" | FtBundle => "Bundle"
  | FtDsym => "Dsym"
  end.
(** header.rs:179-198, and 248-252 written by hand *)
Definition dv_flag (f : flag) : dval := DvAtom (dbg_flag f).
Definition dv_flags (l : list flag) : dval := dv_set (map dv_flag l).
(** header.rs:10-19 *)
Definition dv_header64 (x : header64) : dval :=
  dv_struct "Header64"
    [("magic" => dv_magic (h_magic x)); ("cpu_type" => dv_cpu_type (h_cpu x));
     ("file_type" => dv_file_type (h_file_type x)); ("n_cmds" => dv_num (h_ncmds x));
     ("size_of_cmds" => dv_num (h_size_of_cmds x)); ("flags" => dv_flags (h_flags x));
     ("reserved" => dv_num (h_reserved x))].
(** load_command/segment64.rs:9-33 *)
Definition dv_segment64 (x : segment64) : dval :=
  dv_struct "SegmentCommand64"
    [("cmd" => dv_num (sg_cmd x)); ("cmdsize" => dv_num (sg_cmdsize x));
     ("segname" => DvStr (sg_segname x)); ("vmaddr" => dv_num (sg_vmaddr x));
     ("vmsize" => dv_num (sg_vmsize x)); ("fileoff" => dv_num (sg_fileoff x));
     ("filesize" => dv_num (sg_filesize x)); ("maxprot" => dv_num (sg_maxprot x));
     ("initprot" => dv_num (sg_initprot x)); ("nsects" => dv_num (sg_nsects x));
     ("flags" => dv_num (sg_flags x))].
(** load_command/segment64.rs:173-182 *)
Definition dv_section_type (t : section_type) : dval :=
  dv_unit match t with
  | StRegular => "Regular" | StZerofill => "Zerofill" | StCstringLiterals => "CstringLiterals"
  | StFourByteLiterals => "FourByteLiterals" | StEightByteLiterals => "EightByteLiterals"
  | StLiteralPointers => "LiteralPointers" | StCoalesced => "Coalesced"
  end.
(** load_command/segment64.rs:196-222, and 271-275 written by hand *)
Definition dv_attr (a : section_attr) : dval := DvAtom (dbg_attr a).
Definition dv_attrs (l : list section_attr) : dval := dv_set (map dv_attr l).
(** load_command/segment64.rs:90-115; `flags` is a pair *)
Definition dv_section64 (x : section64) : dval :=
  dv_struct "Section64"
    [("sectname" => DvStr (sc_sectname x)); ("segname" => DvStr (sc_segname x));
     ("addr" => dv_num (sc_addr x)); ("size" => dv_num (sc_size x));
     ("offset" => dv_num (sc_offset x)); ("align" => dv_num (sc_align x));
     ("reloff" => dv_num (sc_reloff x)); ("nreloc" => dv_num (sc_nreloc x));
     ("flags" => dv_tuple "" [dv_attrs (sc_attrs x); dv_section_type (sc_type x)]);
     ("reserved1" => dv_num (sc_reserved1 x)); ("reserved2" => dv_num (sc_reserved2 x));
     ("reserved3" => dv_num (sc_reserved3 x))].
(** load_command/symtab.rs:4-17 *)
Definition dv_symtab (x : symtab) : dval :=
  dv_struct "SymtabCommand"
    [("cmd" => dv_num (st_cmd x)); ("cmdsize" => dv_num (st_cmdsize x));
     ("symoff" => dv_num (st_symoff x)); ("nsyms" => dv_num (st_nsyms x));
     ("stroff" => dv_num (st_stroff x)); ("strsize" => dv_num (st_strsize x))].
(** load_command/dysymtab.rs:42-82 *)
Definition dv_dysymtab (x : dysymtab) : dval :=
  dv_struct "DysymtabCommand"
    [("cmd" => dv_num (dy_cmd x)); ("cmdsize" => dv_num (dy_cmdsize x));
     ("ilocalsym" => dv_num (dy_ilocalsym x)); ("nlocalsym" => dv_num (dy_nlocalsym x));
     ("iextdefsym" => dv_num (dy_iextdefsym x)); ("nextdefsym" => dv_num (dy_nextdefsym x));
     ("iundefsym" => dv_num (dy_iundefsym x)); ("nundefsym" => dv_num (dy_nundefsym x));
     ("tocoff" => dv_num (dy_tocoff x)); ("ntoc" => dv_num (dy_ntoc x));
     ("modtaboff" => dv_num (dy_modtaboff x)); ("nmodtab" => dv_num (dy_nmodtab x));
     ("extrefsymoff" => dv_num (dy_extrefsymoff x)); ("nextrefsyms" => dv_num (dy_nextrefsyms x));
     ("indirectsymoff" => dv_num (dy_indirectsymoff x));
     ("nindirectsyms" => dv_num (dy_nindirectsyms x));
     ("extreloff" => dv_num (dy_extreloff x)); ("nextrel" => dv_num (dy_nextrel x));
     ("locreloff" => dv_num (dy_locreloff x)); ("nlocrel" => dv_num (dy_nlocrel x))].
(** load_command/build_version.rs:66-78 *)
Definition dv_platform (x : platform) : dval :=
  dv_unit match x with
  | MacOS => "MacOS" | IOS => "IOS" | TvOS => "TvOS" | WatchOS => "WatchOS" | BridgeOS => "BridgeOS"
  | MacCatalyst => "MacCatalyst" | IOSSimulator => "IOSSimulator" | TvOSSimulator => "TvOSSimulator"
  | WatchOSSimulator => "WatchOSSimulator" | Driverkit => "Driverkit"
  end.
(** load_command/build_version.rs:90-95 *)
Definition dv_version (v : version) : dval :=
  dv_struct "Version"
    [("major" => dv_num (v_major v)); ("minor" => dv_num (v_minor v));
     ("release" => dv_num (v_release v))].
(** load_command/build_version.rs:9-20 *)
Definition dv_build_version (x : build_version) : dval :=
  dv_struct "BuildVersionCommand"
    [("cmd" => dv_num (bv_cmd x)); ("cmdsize" => dv_num (bv_cmdsize x));
     ("platform" => dv_platform (bv_platform x)); ("minos" => dv_version (bv_minos x));
     ("sdk" => dv_version (bv_sdk x)); ("ntools" => dv_num (bv_ntools x))].
(** load_command/build_version.rs:142-147 *)
Definition dv_tool (t : tool) : dval :=
  dv_unit match t with Clang => "Clang" | Swift => "Swift" | LD => "LD" end.
(** load_command/build_version.rs:119-123 *)
Definition dv_build_tool (x : build_tool) : dval :=
  dv_struct "BuildToolVersion" [("tool" => dv_tool (bt_tool x)); ("version" => dv_num (bt_version x))].
(** load_command/mod.rs:17-23 *)
Definition dv_load_command (c : load_command) : dval :=
  match c with
  | LcSegment64 c ss => dv_tuple "Segment64" [dv_segment64 c; dv_list (map dv_section64 ss)]
  | LcSymtab c => dv_tuple "Symtab" [dv_symtab c]
  | LcDysymtab c => dv_tuple "Dysymtab" [dv_dysymtab c]
  | LcBuildVersion c ts => dv_tuple "BuildVersion" [dv_build_version c; dv_list (map dv_build_tool ts)]
  end.
(** nlist.rs:110-127 *)
Definition dv_n_type (t : n_type) : dval :=
  dv_unit match t with Undf => "Undf" | Abs => "Abs" | Sect => "Sect" | Pbud => "Pbud" | Indr => "Indr" end.
(** nlist.rs:140-144 *)
Definition dv_debug_symbol (d : debug_symbol) : dval := dv_unit match d with Gsym => "Gsym" end.
(** nlist.rs:63-74 *)
Definition dv_n_type_field (t : n_type_field) : dval :=
  match t with
  | Norm p t x =>
      dv_struct "Norm" [("n_pext" => dv_bool p); ("n_type" => dv_n_type t); ("n_ext" => dv_bool x)]
  | Stab d => dv_tuple "Stab" [dv_debug_symbol d]
  end.
(** nlist.rs:6-29 *)
Definition dv_nlist64 (x : nlist64) : dval :=
  dv_struct "NList64"
    [("n_strx" => dv_num (nl_strx x)); ("n_type" => dv_n_type_field (nl_type x));
     ("n_sect" => dv_num (nl_sect x)); ("n_desc" => dv_num (nl_desc x));
     ("n_value" => dv_num (nl_value x))].
(** reloc.rs:116-126 *)
Definition dv_reloc_length (l : reloc_length) : dval :=
  dv_unit match l with LenByte => "Byte" | LenWord => "Word" | LenLong => "Long" | LenQuad => "Quad" end.
(** reloc.rs:6-28 *)
Definition dv_reloc_info (x : reloc_info) : dval :=
  dv_struct "RelocationInfo"
    [("r_address" => dv_num (r_address x)); ("r_symbolnum" => dv_num (r_symbolnum x));
     ("r_pcrel" => dv_bool (r_pcrel x)); ("r_length" => dv_reloc_length (r_length x));
     ("r_extern" => dv_bool (r_extern x)); ("r_type" => dv_num (r_type x))].
(** reloc.rs:138-146 *)
Definition dv_x86_reloc (t : x86_reloc) : dval :=
  dv_unit match t with
  | RtVanilla => "Vanilla" | RtPair => "Pair" | RtSectdiff => "Sectdiff" | RtPbLaPtr => "PbLaPtr"
  | RtLocalSectdiff => "LocalSectdiff" | RtTlv32 => "Tlv"
  end.
(** reloc.rs:166-188 *)
Definition dv_x86_64_reloc (t : x86_64_reloc) : dval :=
  dv_unit match t with
  | RtUnsigned => "Unsigned" | RtSigned => "Signed" | RtBranch => "Branch" | RtGotLoad => "GotLoad"
  | RtGot => "Got" | RtSubtractor => "Subtractor" | RtSigned1 => "Signed1" | RtSigned2 => "Signed2"
  | RtSigned4 => "Signed4" | RtTlv => "Tlv"
  end.

(** ** at-obj *)

(** object.rs:188-193 *)
Definition dv_symbol (y : symbol) : dval :=
  match y with
  | SyUndef n => dv_struct "Undef" [("name" => DvStr n)]
  | SyAbs n v x => dv_struct "Abs" [("name" => DvStr n); ("val" => dv_num v); ("ext" => dv_bool x)]
  | SyRef n a x => dv_struct "Ref" [("name" => DvStr n); ("addr" => dv_num a); ("ext" => dv_bool x)]
  end.

(** ** at-asm *)

(** parsers/section.rs:3-8 *)
Definition dv_sect (s : sect) : dval := dv_unit match s with SText => "Text" | SData => "Data" | SBss => "Bss" end.
(** parsers/data.rs:5-9 *)
Definition dv_data (d : data) : dval :=
  dv_struct "Data" [("label" => dv_option DvStr (da_label d));
                    ("bytes" => dv_list (map dv_num (da_bytes d)))].
(** parsers/global_symbol.rs:3-4; the model keeps the name *)
Definition dv_global_symbol (n : str) : dval := dv_tuple "GlobalSymbol" [DvStr n].
(** parsers/mod.rs:22-25; the model keeps the message *)
Definition dv_parse_error (msg : str) : dval := dv_struct "ParseError" [("msg" => DvStr msg)].
(** parsers/expr.rs:4-5; the model keeps the number *)
Definition dv_expr (n : Z) : dval := dv_tuple "Expr" [dv_num n].

(** ** the values of all these types *)
Inductive value :=
| VReg64 (x : reg64) | VReg32 (x : reg32) | VReg16 (x : reg16) | VReg8 (x : reg8) | VReg (x : reg)
| VMem64 (x : mem64) | VBytes (x : bam) | VEndian (x : endian) | VMagic (x : magic)
| VCpuSubX86 (x : cpu_sub_x86) | VCpuSubX86_64 (x : cpu_sub_x86_64) | VCpuType (x : cpu_type)
| VFileType (x : file_type) | VFlag (x : flag) | VFlags (x : list flag) | VHeader64 (x : header64)
| VSegment64 (x : segment64) | VSectionType (x : section_type) | VAttr (x : section_attr)
| VAttrs (x : list section_attr) | VSection64 (x : section64) | VSymtab (x : symtab)
| VDysymtab (x : dysymtab) | VPlatform (x : platform) | VVersion (x : version)
| VBuildVersion (x : build_version) | VTool (x : tool) | VBuildTool (x : build_tool)
| VLoadCommand (x : load_command) | VNType (x : n_type) | VDebugSymbol (x : debug_symbol)
| VNTypeField (x : n_type_field) | VNList64 (x : nlist64) | VRelocLength (x : reloc_length)
| VRelocInfo (x : reloc_info) | VX86Reloc (x : x86_reloc) | VX86_64Reloc (x : x86_64_reloc)
| VSymbol (x : symbol) | VSect (x : sect) | VData (x : data) | VGlobalSymbol (x : str)
| VParseError (x : str) | VExpr (x : Z).
Definition tree (v : value) : dval :=
  match v with
  | VReg64 x => dv_reg64 x | VReg32 x => dv_reg32 x | VReg16 x => dv_reg16 x | VReg8 x => dv_reg8 x
  | VReg x => dv_reg x | VMem64 x => dv_mem64 x | VBytes x => dv_bam x | VEndian x => dv_endian x
  | VMagic x => dv_magic x | VCpuSubX86 x => dv_cpu_sub_x86 x | VCpuSubX86_64 x => dv_cpu_sub_x86_64 x
  | VCpuType x => dv_cpu_type x | VFileType x => dv_file_type x | VFlag x => dv_flag x
  | VFlags x => dv_flags x | VHeader64 x => dv_header64 x | VSegment64 x => dv_segment64 x
  | VSectionType x => dv_section_type x | VAttr x => dv_attr x | VAttrs x => dv_attrs x
  | VSection64 x => dv_section64 x | VSymtab x => dv_symtab x | VDysymtab x => dv_dysymtab x
  | VPlatform x => dv_platform x | VVersion x => dv_version x | VBuildVersion x => dv_build_version x
  | VTool x => dv_tool x | VBuildTool x => dv_build_tool x | VLoadCommand x => dv_load_command x
  | VNType x => dv_n_type x | VDebugSymbol x => dv_debug_symbol x | VNTypeField x => dv_n_type_field x
  | VNList64 x => dv_nlist64 x | VRelocLength x => dv_reloc_length x | VRelocInfo x => dv_reloc_info x
  | VX86Reloc x => dv_x86_reloc x | VX86_64Reloc x => dv_x86_64_reloc x | VSymbol x => dv_symbol x
  | VSect x => dv_sect x | VData x => dv_data x | VGlobalSymbol x => dv_global_symbol x
  | VParseError x => dv_parse_error x | VExpr x => dv_expr x
  end.
(** `format!("{:?}", v)`, with [alt] `format!("{:#?}", v)` *)
Definition format (esc : policy) (alt : bool) (v : value) : str := debug esc alt (tree v).
