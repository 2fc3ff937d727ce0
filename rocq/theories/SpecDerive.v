(** What `{:?}` and `{:#?}` must do. *)
From Coq Require Import String.
From Verif Require Import Base Str X64 Mac SpecMacho Obj SpecObj Asm SpecAsm SpecDbg SpecDiag Derive.

(** the type of a value *)
Definition type_of (v : value) : Z :=
  match v with
  | VReg64 _ => 1 | VReg32 _ => 2 | VReg16 _ => 3 | VReg8 _ => 4 | VReg _ => 5 | VMem64 _ => 6
  | VBytes _ => 7 | VEndian _ => 8 | VMagic _ => 9 | VCpuSubX86 _ => 10 | VCpuSubX86_64 _ => 11
  | VCpuType _ => 12 | VFileType _ => 13 | VFlag _ => 14 | VFlags _ => 15 | VHeader64 _ => 16
  | VSegment64 _ => 17 | VSectionType _ => 18 | VAttr _ => 19 | VAttrs _ => 20 | VSection64 _ => 21
  | VSymtab _ => 22 | VDysymtab _ => 23 | VPlatform _ => 24 | VVersion _ => 25 | VBuildVersion _ => 26
  | VTool _ => 27 | VBuildTool _ => 28 | VLoadCommand _ => 29 | VNType _ => 30 | VDebugSymbol _ => 31
  | VNTypeField _ => 32 | VNList64 _ => 33 | VRelocLength _ => 34 | VRelocInfo _ => 35
  | VX86Reloc _ => 36 | VX86_64Reloc _ => 37 | VSymbol _ => 38 | VSect _ => 39 | VData _ => 40
  | VGlobalSymbol _ => 41 | VParseError _ => 42 | VExpr _ => 43
  end.
(** the values the Rust types admit *)
Definition value_ok (v : value) : Prop :=
  match v with
  | VMem64 m => mem_ok m
  | VBytes b => bytes_ok (bam_bytes b) /\ inu 64 (Z.of_nat (bam_len b))
  | VHeader64 x => header_rng x
  | VSegment64 x => segment_rng x
  | VSection64 x => section_rng x
  | VSymtab x => symtab_rng x
  | VDysymtab x => dysymtab_rng x
  | VVersion x => version_rng x
  | VBuildVersion x => build_version_rng x
  | VBuildTool x => build_tool_rng x
  | VLoadCommand (LcSegment64 c ss) => segment_rng c /\ Forall section_rng ss
  | VLoadCommand (LcSymtab c) => symtab_rng c
  | VLoadCommand (LcDysymtab c) => dysymtab_rng c
  | VLoadCommand (LcBuildVersion c ts) => build_version_rng c /\ Forall build_tool_rng ts
  | VNList64 x => nlist_rng x
  | VRelocInfo x => reloc_rng x
  | VSymbol y => symbol_rng y
  | VData d => bytes_ok (da_bytes d) /\ match da_label d with Some n => str_ok n | None => True end
  | VGlobalSymbol s | VParseError s => str_ok s
  | VExpr n => inu 64 n
  | _ => True
  end.

(** std escapes the ASCII control characters in strings *)
Definition escapes_control (esc : policy) : Prop := forall i c, 1 <= c < 32 \/ c = 127 -> esc i c = true.
Definition control (c : Z) : Prop := c < 32 \/ c = 127.

(** ** the names of coded values, in Apple's headers without their prefix *)
(** <mach-o/loader.h> MH_* *)
Definition mh_filetype (n : Z) : option str :=
  option_map lit match n with
  | 1 => Some "OBJECT" | 2 => Some "EXECUTE" | 3 => Some "FVMLIB" | 4 => Some "CORE" | 5 => Some "PRELOAD"
  | 6 => Some "DYLIB" | 7 => Some "DYLINKER" | 8 => Some "BUNDLE" | 10 => Some "DSYM" | _ => None
  end%string.
(** PLATFORM_*, TOOL_* *)
Definition platform_name (n : Z) : option str :=
  option_map lit match n with
  | 1 => Some "MACOS" | 2 => Some "IOS" | 3 => Some "TVOS" | 4 => Some "WATCHOS" | 5 => Some "BRIDGEOS"
  | 6 => Some "MACCATALYST" | 7 => Some "IOSSIMULATOR" | 8 => Some "TVOSSIMULATOR"
  | 9 => Some "WATCHOSSIMULATOR" | 10 => Some "DRIVERKIT" | _ => None
  end%string.
Definition tool_name (n : Z) : option str :=
  option_map lit match n with 1 => Some "CLANG" | 2 => Some "SWIFT" | 3 => Some "LD" | _ => None end%string.
(** S_*; S_4BYTE_LITERALS and S_8BYTE_LITERALS in words *)
Definition s_type_name (n : Z) : option str :=
  option_map lit match n with
  | 0 => Some "REGULAR" | 1 => Some "ZEROFILL" | 2 => Some "CSTRING_LITERALS" | 3 => Some "FOUR_BYTE_LITERALS"
  | 4 => Some "EIGHT_BYTE_LITERALS" | 5 => Some "LITERAL_POINTERS" | 11 => Some "COALESCED" | _ => None
  end%string.
(** <mach-o/nlist.h> N_*, <mach-o/stab.h> N_GSYM *)
Definition n_type_name (n : Z) : option str :=
  option_map lit match n with
  | 0 => Some "UNDF" | 2 => Some "ABS" | 14 => Some "SECT" | 12 => Some "PBUD" | 10 => Some "INDR" | 32 => Some "GSYM"
  | _ => None
  end%string.
(** <mach-o/reloc.h> GENERIC_RELOC_*, <mach-o/x86_64/reloc.h> X86_64_RELOC_* *)
Definition generic_reloc_name (n : Z) : option str :=
  option_map lit match n with
  | 0 => Some "VANILLA" | 1 => Some "PAIR" | 2 => Some "SECTDIFF" | 3 => Some "PB_LA_PTR" | 4 => Some "LOCAL_SECTDIFF"
  | 5 => Some "TLV" | _ => None
  end%string.
Definition x86_64_reloc_name (n : Z) : option str :=
  option_map lit match n with
  | 0 => Some "UNSIGNED" | 1 => Some "SIGNED" | 2 => Some "BRANCH" | 3 => Some "GOT_LOAD" | 4 => Some "GOT"
  | 5 => Some "SUBTRACTOR" | 6 => Some "SIGNED_1" | 7 => Some "SIGNED_2" | 8 => Some "SIGNED_4" | 9 => Some "TLV"
  | _ => None
  end%string.
(** MH_MAGIC_64 etc. without MH_, FAT_MAGIC, FAT_CIGAM *)
Definition magic_name (n : Z) : option str :=
  option_map lit match n with
  | 0xfeedfacf => Some "MAGIC_64" | 0xcffaedfe => Some "CIGAM_64" | 0xfeedface => Some "MAGIC" | 0xcefaedfe => Some "CIGAM"
  | 0xcafebabe => Some "FAT_MAGIC" | 0xbebafeca => Some "FAT_CIGAM" | _ => None
  end%string.
(** <mach-o/reloc.h>, comment on r_length *)
Definition r_length_name (n : Z) : option str :=
  option_map lit match n with 0 => Some "BYTE" | 1 => Some "WORD" | 2 => Some "LONG" | 3 => Some "QUAD" | _ => None end%string.
(** CPU_SUBTYPE_X86_ALL, CPU_SUBTYPE_X86_64_ALL *)
Definition cpu_subtype_name (n : Z) : option str := match n with 3 => Some (lit "ALL") | _ => None end.

(** ** Rust string literals (The Rust Reference, tokens) *)
Inductive str_char : str -> Z -> Prop :=
| sc_plain c : c <> 34 -> c <> 92 -> c <> 10 -> c <> 13 -> str_char [c] c
| sc_quote : str_char (lit "\""") 34
| sc_backslash : str_char (lit "\\") 92
| sc_tab : str_char (lit "\t") 9
| sc_lf : str_char (lit "\n") 10
| sc_cr : str_char (lit "\r") 13
| sc_nul : str_char (lit "\0") 0
| sc_unicode ds n : hex_val ds n -> ds <> [] -> str_char (lit "\u{" ++ ds ++ lit "}") n.
Inductive str_chars : str -> str -> Prop :=
| scs_nil : str_chars [] []
| scs_cons t c ts s : str_char t c -> str_chars ts s -> str_chars (t ++ ts) (c :: s).
Definition string_literal (t s : str) : Prop := exists b, str_chars b s /\ t = [34] ++ b ++ [34].

(** ** records: fields of at-mac's structs as in Apple's headers, in their order *)
Inductive fval :=
| FNum (n : Z) | FBool (b : bool) | FStr (s : str) | FOpt (o : option fval) | FList (l : list fval)
| FPair (a b : fval) | FOther (t : str).
(** entries between an opening and a closing: on one line, or each on lines of its own, four
    spaces further in and followed by a comma *)
Definition lines : str -> list str := split (Z.eqb 10).
Definition block (alt : bool) (opening closing : str) (es : list str) (text : str) : Prop :=
  if alt && Nat.ltb 0 (length es) then
    lines text = [opening] ++ flat_map (fun e => map (app (lit "    ")) (lines (e ++ lit ","))) es ++ [closing]
  else listed false opening closing es text.
Inductive shown (alt : bool) : fval -> str -> Prop :=
| sh_num n t : 0 <= n -> decimal n t -> shown alt (FNum n) t
| sh_neg n t : n < 0 -> decimal (- n) t -> shown alt (FNum n) (lit "-" ++ t)
| sh_true : shown alt (FBool true) (lit "true")
| sh_false : shown alt (FBool false) (lit "false")
| sh_str s t : string_literal t s -> shown alt (FStr s) t
| sh_some v t u : shown alt v t -> block alt (lit "Some(") (lit ")") [t] u -> shown alt (FOpt (Some v)) u
| sh_none : shown alt (FOpt None) (lit "None")
| sh_list l ts t : Forall2 (shown alt) l ts -> block alt (lit "[") (lit "]") ts t -> shown alt (FList l) t
| sh_pair a b ta tb t : shown alt a ta -> shown alt b tb -> block alt (lit "(") (lit ")") [ta; tb] t -> shown alt (FPair a b) t
| sh_other t : shown alt (FOther t) t.
Definition record_text (alt : bool) (name : string) (fields : list string) (ts : list str) (text : str) : Prop :=
  let es := map (fun e => lit (fst e) ++ lit ": " ++ snd e) (combine fields ts) in
  if alt then block true (lit name ++ lit " {") (lit "}") es text
  else listed false (lit name ++ lit " { ") (lit " }") es text.
Definition record_of (esc : policy) (alt : bool) (v : value) : option (string * list string * list fval) :=
  let sub w := FOther (format esc alt w) in
  match v with
  | VSegment64 x => Some ("SegmentCommand64",
      ["cmd"; "cmdsize"; "segname"; "vmaddr"; "vmsize"; "fileoff"; "filesize"; "maxprot"; "initprot"; "nsects"; "flags"],
      [FNum (sg_cmd x); FNum (sg_cmdsize x); FStr (sg_segname x); FNum (sg_vmaddr x); FNum (sg_vmsize x);
       FNum (sg_fileoff x); FNum (sg_filesize x); FNum (sg_maxprot x); FNum (sg_initprot x); FNum (sg_nsects x);
       FNum (sg_flags x)])
  | VSection64 x => Some ("Section64",
      ["sectname"; "segname"; "addr"; "size"; "offset"; "align"; "reloff"; "nreloc"; "flags"; "reserved1"; "reserved2"; "reserved3"],
      [FStr (sc_sectname x); FStr (sc_segname x); FNum (sc_addr x); FNum (sc_size x); FNum (sc_offset x);
       FNum (sc_align x); FNum (sc_reloff x); FNum (sc_nreloc x);
       FPair (sub (VAttrs (sc_attrs x))) (sub (VSectionType (sc_type x)));
       FNum (sc_reserved1 x); FNum (sc_reserved2 x); FNum (sc_reserved3 x)])
  | VSymtab x => Some ("SymtabCommand", ["cmd"; "cmdsize"; "symoff"; "nsyms"; "stroff"; "strsize"],
      [FNum (st_cmd x); FNum (st_cmdsize x); FNum (st_symoff x); FNum (st_nsyms x); FNum (st_stroff x); FNum (st_strsize x)])
  | VDysymtab x => Some ("DysymtabCommand",
      ["cmd"; "cmdsize"; "ilocalsym"; "nlocalsym"; "iextdefsym"; "nextdefsym"; "iundefsym"; "nundefsym"; "tocoff"; "ntoc";
       "modtaboff"; "nmodtab"; "extrefsymoff"; "nextrefsyms"; "indirectsymoff"; "nindirectsyms"; "extreloff"; "nextrel";
       "locreloff"; "nlocrel"],
      [FNum (dy_cmd x); FNum (dy_cmdsize x); FNum (dy_ilocalsym x); FNum (dy_nlocalsym x); FNum (dy_iextdefsym x);
       FNum (dy_nextdefsym x); FNum (dy_iundefsym x); FNum (dy_nundefsym x); FNum (dy_tocoff x); FNum (dy_ntoc x);
       FNum (dy_modtaboff x); FNum (dy_nmodtab x); FNum (dy_extrefsymoff x); FNum (dy_nextrefsyms x);
       FNum (dy_indirectsymoff x); FNum (dy_nindirectsyms x); FNum (dy_extreloff x); FNum (dy_nextrel x);
       FNum (dy_locreloff x); FNum (dy_nlocrel x)])
  | VVersion x => Some ("Version", ["major"; "minor"; "release"], [FNum (v_major x); FNum (v_minor x); FNum (v_release x)])
  | VBuildVersion x => Some ("BuildVersionCommand", ["cmd"; "cmdsize"; "platform"; "minos"; "sdk"; "ntools"],
      [FNum (bv_cmd x); FNum (bv_cmdsize x); sub (VPlatform (bv_platform x)); sub (VVersion (bv_minos x));
       sub (VVersion (bv_sdk x)); FNum (bv_ntools x)])
  | VBuildTool x => Some ("BuildToolVersion", ["tool"; "version"], [sub (VTool (bt_tool x)); FNum (bt_version x)])
  | VNList64 x => Some ("NList64", ["n_strx"; "n_type"; "n_sect"; "n_desc"; "n_value"],
      [FNum (nl_strx x); sub (VNTypeField (nl_type x)); FNum (nl_sect x); FNum (nl_desc x); FNum (nl_value x)])
  | VRelocInfo x => Some ("RelocationInfo", ["r_address"; "r_symbolnum"; "r_pcrel"; "r_length"; "r_extern"; "r_type"],
      [FNum (r_address x); FNum (r_symbolnum x); FBool (r_pcrel x); sub (VRelocLength (r_length x));
       FBool (r_extern x); FNum (r_type x)])
  | VMem64 (MSib b d i s) => Some ("Sib", ["base"; "disp"; "index"; "scale"],
      [FOpt (option_map (fun r => sub (VReg64 r)) b);
       FNum d; sub (VReg64 i); FNum s])
  | VSymbol (SyUndef n) => Some ("Undef", ["name"], [FStr n])
  | VSymbol (SyAbs n a x) => Some ("Abs", ["name"; "val"; "ext"], [FStr n; FNum a; FBool x])
  | VSymbol (SyRef n a x) => Some ("Ref", ["name"; "addr"; "ext"], [FStr n; FNum a; FBool x])
  | VParseError s => Some ("ParseError", ["msg"], [FStr s])
  | VHeader64 x => Some ("Header64", ["magic"; "cpu_type"; "file_type"; "n_cmds"; "size_of_cmds"; "flags"; "reserved"],
      [sub (VMagic (h_magic x)); sub (VCpuType (h_cpu x)); sub (VFileType (h_file_type x)); FNum (h_ncmds x);
       FNum (h_size_of_cmds x); sub (VFlags (h_flags x)); FNum (h_reserved x)])
  | VNTypeField (Norm p t x) => Some ("Norm", ["n_pext"; "n_type"; "n_ext"], [FBool p; sub (VNType t); FBool x])
  | VBytes x => Some ("BytesAtMost", ["bytes"; "len"], [FList (map FNum (bam_bytes x)); FNum (Z.of_nat (bam_len x))])
  | VData x => Some ("Data", ["label"; "bytes"], [FOpt (option_map FStr (da_label x)); FList (map FNum (da_bytes x))])
  | _ => None
  end%string.
(** variants and structs without names of fields *)
Definition tuple_of (esc : policy) (alt : bool) (v : value) : option (string * list fval) :=
  let sub w := FOther (format esc alt w) in
  match v with
  | VReg (Reg64 r) => Some ("Reg64", [sub (VReg64 r)])
  | VReg (Reg32 r) => Some ("Reg32", [sub (VReg32 r)])
  | VReg (Reg16 r) => Some ("Reg16", [sub (VReg16 r)])
  | VReg (Reg8 r) => Some ("Reg8", [sub (VReg8 r)])
  | VCpuType (CpuX86 s) => Some ("X86", [sub (VCpuSubX86 s)])
  | VCpuType (CpuX86_64 s) => Some ("X86_64", [sub (VCpuSubX86_64 s)])
  | VMem64 (RegOffset r d) => Some ("RegOffset", [sub (VReg64 r); FNum d])
  | VMem64 (RipOffset d) => Some ("RipOffset", [FNum d])
  | VLoadCommand (LcSegment64 c ss) =>
      Some ("Segment64", [sub (VSegment64 c); FList (map (fun x => sub (VSection64 x)) ss)])
  | VLoadCommand (LcSymtab c) => Some ("Symtab", [sub (VSymtab c)])
  | VLoadCommand (LcDysymtab c) => Some ("Dysymtab", [sub (VDysymtab c)])
  | VLoadCommand (LcBuildVersion c ts) =>
      Some ("BuildVersion", [sub (VBuildVersion c); FList (map (fun x => sub (VBuildTool x)) ts)])
  | VNTypeField (Stab d) => Some ("Stab", [sub (VDebugSymbol d)])
  | VGlobalSymbol s => Some ("GlobalSymbol", [FStr s])
  | VExpr n => Some ("Expr", [FNum n])
  | _ => None
  end%string.

(** ** `{:#?}` and `{:?}` differ in white space and commas *)
Definition solid (c : Z) : bool := negb ((c =? 10) || (c =? 32) || (c =? 44)).
