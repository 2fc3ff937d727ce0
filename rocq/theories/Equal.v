(** Model of the derived `PartialEq` of all four crates (`==` and `assert_eq!`).  A derived `eq`
    compares the discriminants, then the fields in the order of declaration. *)
From Verif Require Import Base Str X64 Mac Obj Asm Derive.

(** ** std *)

(** slices, arrays and `Vec`: the lengths, then element by element *)
Definition eq_list {A} (eq : A -> A -> bool) (l l' : list A) : bool :=
  Nat.eqb (length l) (length l') && forallb (fun p => eq (fst p) (snd p)) (combine l l').
(** `str` and `String`: as the slices of their bytes *)
Definition eq_str (a b : str) : bool := eq_list Z.eqb (utf8 a) (utf8 b).
Definition eq_option {A} (eq : A -> A -> bool) (a b : option A) : bool :=
  match a, b with Some x, Some y => eq x y | None, None => true | _, _ => false end.
(** fieldless enums, by the discriminant *)
Definition eq_disc {A} (disc : A -> Z) (a b : A) : bool := disc a =? disc b.

(** ** at-x64 *)

(** reg.rs:22-56, discriminants in the order of declaration *)
Definition disc_reg64 (r : reg64) : Z :=
  match r with
  | RAX => 0 | RDI => 1 | RSI => 2 | RDX => 3 | RCX => 4 | RBP => 5 | RSP => 6 | RBX => 7
  | R8 => 8 | R9 => 9 | R10 => 10 | R11 => 11 | R12 => 12 | R13 => 13 | R14 => 14 | R15 => 15
  end.
Definition eq_reg64 : reg64 -> reg64 -> bool := eq_disc disc_reg64.
(** reg.rs:130-164, discriminants in the order of declaration *)
Definition disc_reg32 (r : reg32) : Z :=
  match r with
  | EAX => 0 | EDI => 1 | ESI => 2 | EDX => 3 | ECX => 4 | EBP => 5 | ESP => 6 | EBX => 7
  | R8D => 8 | R9D => 9 | R10D => 10 | R11D => 11 | R12D => 12 | R13D => 13 | R14D => 14 | R15D => 15
  end.
Definition eq_reg32 : reg32 -> reg32 -> bool := eq_disc disc_reg32.
(** reg.rs:221-255, discriminants in the order of declaration *)
Definition disc_reg16 (r : reg16) : Z :=
  match r with
  | AX => 0 | DI => 1 | SI => 2 | DX => 3 | CX => 4 | BP => 5 | SP => 6 | BX => 7
  | R8W => 8 | R9W => 9 | R10W => 10 | R11W => 11 | R12W => 12 | R13W => 13 | R14W => 14 | R15W => 15
  end.
Definition eq_reg16 : reg16 -> reg16 -> bool := eq_disc disc_reg16.
(** reg.rs:312-346, discriminants in the order of declaration *)
Definition disc_reg8 (r : reg8) : Z :=
  match r with
  | AL => 0 | DIL => 1 | SIL => 2 | DL => 3 | CL => 4 | BPL => 5 | SPL => 6 | BL => 7
  | R8B => 8 | R9B => 9 | R10B => 10 | R11B => 11 | R12B => 12 | R13B => 13 | R14B => 14 | R15B => 15
  end.
Definition eq_reg8 : reg8 -> reg8 -> bool := eq_disc disc_reg8.
(** reg.rs:3-9 *)
Definition eq_reg (a b : reg) : bool :=
  match a, b with
  | Reg64 x, Reg64 y => eq_reg64 x y
  | Reg32 x, Reg32 y => eq_reg32 x y
  | Reg16 x, Reg16 y => eq_reg16 x y
  | Reg8 x, Reg8 y => eq_reg8 x y
  | _, _ => false
  end.
(** mem.rs:3-26 *)
Definition eq_mem64 (a b : mem64) : bool :=
  match a, b with
  | RegOffset r d, RegOffset r' d' => eq_reg64 r r' && (d =? d')
  | RipOffset d, RipOffset d' => d =? d'
  | MSib b d i s, MSib b' d' i' s' => eq_option eq_reg64 b b' && (d =? d') && eq_reg64 i i' && (s =? s')
  | _, _ => false
  end.
(** bytes.rs:3-7 *)
Definition eq_bam (a b : bam) : bool := eq_list Z.eqb (bam_bytes a) (bam_bytes b) && Nat.eqb (bam_len a) (bam_len b).

(** ** at-mac *)

(** io.rs:4-8 *)
Definition eq_endian : endian -> endian -> bool := eq_disc (fun e => match e with Little => 0 | Big => 1 end).
(** header.rs:76-96 *)
Definition eq_magic : magic -> magic -> bool := eq_disc magic_to_u32.
(** header.rs:112-126 *)
Definition eq_cpu_sub_x86 : cpu_sub_x86 -> cpu_sub_x86 -> bool := eq_disc cpu_sub_x86_n.
Definition eq_cpu_sub_x86_64 : cpu_sub_x86_64 -> cpu_sub_x86_64 -> bool := eq_disc cpu_sub_x86_64_n.
Definition eq_cpu_type (a b : cpu_type) : bool :=
  match a, b with
  | CpuX86 s, CpuX86 t => eq_cpu_sub_x86 s t
  | CpuX86_64 s, CpuX86_64 t => eq_cpu_sub_x86_64 s t
  | _, _ => false
  end.
(** header.rs:155-167 *)
Definition eq_file_type : file_type -> file_type -> bool := eq_disc file_type_to_u32.
(** header.rs:179-198, 210-213; `Flags` is a `Vec` *)
Definition eq_flag : flag -> flag -> bool := eq_disc flag_to_u32.
Definition eq_flags : list flag -> list flag -> bool := eq_list eq_flag.
(** header.rs:10-19 *)
Definition eq_header64 (x y : header64) : bool :=
  eq_magic (h_magic x) (h_magic y) && eq_cpu_type (h_cpu x) (h_cpu y) &&
  eq_file_type (h_file_type x) (h_file_type y) && (h_ncmds x =? h_ncmds y) &&
  (h_size_of_cmds x =? h_size_of_cmds y) && eq_flags (h_flags x) (h_flags y) &&
  (h_reserved x =? h_reserved y).
(** load_command/segment64.rs:9-33 *)
Definition eq_segment64 (x y : segment64) : bool :=
  (sg_cmd x =? sg_cmd y) && (sg_cmdsize x =? sg_cmdsize y) && eq_str (sg_segname x) (sg_segname y) &&
  (sg_vmaddr x =? sg_vmaddr y) && (sg_vmsize x =? sg_vmsize y) && (sg_fileoff x =? sg_fileoff y) &&
  (sg_filesize x =? sg_filesize y) && (sg_maxprot x =? sg_maxprot y) &&
  (sg_initprot x =? sg_initprot y) && (sg_nsects x =? sg_nsects y) && (sg_flags x =? sg_flags y).
(** load_command/segment64.rs:173-182 *)
Definition eq_section_type : section_type -> section_type -> bool := eq_disc section_type_to_u32.
(** load_command/segment64.rs:196-222, 235-238 *)
Definition eq_attr : section_attr -> section_attr -> bool := eq_disc section_attr_to_u32.
Definition eq_attrs : list section_attr -> list section_attr -> bool := eq_list eq_attr.
(** load_command/segment64.rs:90-115; `flags` is a pair *)
Definition eq_section64 (x y : section64) : bool :=
  eq_str (sc_sectname x) (sc_sectname y) && eq_str (sc_segname x) (sc_segname y) &&
  (sc_addr x =? sc_addr y) && (sc_size x =? sc_size y) && (sc_offset x =? sc_offset y) &&
  (sc_align x =? sc_align y) && (sc_reloff x =? sc_reloff y) && (sc_nreloc x =? sc_nreloc y) &&
  eq_attrs (sc_attrs x) (sc_attrs y) && eq_section_type (sc_type x) (sc_type y) &&
  (sc_reserved1 x =? sc_reserved1 y) && (sc_reserved2 x =? sc_reserved2 y) &&
  (sc_reserved3 x =? sc_reserved3 y).
(** load_command/symtab.rs:4-17 *)
Definition eq_symtab (x y : symtab) : bool :=
  (st_cmd x =? st_cmd y) && (st_cmdsize x =? st_cmdsize y) && (st_symoff x =? st_symoff y) &&
  (st_nsyms x =? st_nsyms y) && (st_stroff x =? st_stroff y) && (st_strsize x =? st_strsize y).
(** load_command/dysymtab.rs:42-82 *)
Definition eq_dysymtab (x y : dysymtab) : bool :=
  (dy_cmd x =? dy_cmd y) && (dy_cmdsize x =? dy_cmdsize y) && (dy_ilocalsym x =? dy_ilocalsym y) &&
  (dy_nlocalsym x =? dy_nlocalsym y) && (dy_iextdefsym x =? dy_iextdefsym y) &&
  (dy_nextdefsym x =? dy_nextdefsym y) && (dy_iundefsym x =? dy_iundefsym y) &&
  (dy_nundefsym x =? dy_nundefsym y) && (dy_tocoff x =? dy_tocoff y) && (dy_ntoc x =? dy_ntoc y) &&
  (dy_modtaboff x =? dy_modtaboff y) && (dy_nmodtab x =? dy_nmodtab y) &&
  (dy_extrefsymoff x =? dy_extrefsymoff y) && (dy_nextrefsyms x =? dy_nextrefsyms y) &&
  (dy_indirectsymoff x =? dy_indirectsymoff y) && (dy_nindirectsyms x =? dy_nindirectsyms y) &&
  (dy_extreloff x =? dy_extreloff y) && (dy_nextrel x =? dy_nextrel y) &&
  (dy_locreloff x =? dy_locreloff y) && (dy_nlocrel x =? dy_nlocrel y).
(** load_command/build_version.rs:66-78 *)
Definition eq_platform : platform -> platform -> bool := eq_disc platform_to_u32.
(** load_command/build_version.rs:90-95 *)
Definition eq_version (x y : version) : bool :=
  (v_major x =? v_major y) && (v_minor x =? v_minor y) && (v_release x =? v_release y).
(** load_command/build_version.rs:9-20 *)
Definition eq_build_version (x y : build_version) : bool :=
  (bv_cmd x =? bv_cmd y) && (bv_cmdsize x =? bv_cmdsize y) &&
  eq_platform (bv_platform x) (bv_platform y) && eq_version (bv_minos x) (bv_minos y) &&
  eq_version (bv_sdk x) (bv_sdk y) && (bv_ntools x =? bv_ntools y).
(** load_command/build_version.rs:142-147 *)
Definition eq_tool : tool -> tool -> bool := eq_disc tool_to_u32.
(** load_command/build_version.rs:119-123 *)
Definition eq_build_tool (x y : build_tool) : bool :=
  eq_tool (bt_tool x) (bt_tool y) && (bt_version x =? bt_version y).
(** load_command/mod.rs:17-23 *)
Definition eq_load_command (a b : load_command) : bool :=
  match a, b with
  | LcSegment64 c ss, LcSegment64 d ts => eq_segment64 c d && eq_list eq_section64 ss ts
  | LcSymtab c, LcSymtab d => eq_symtab c d
  | LcDysymtab c, LcDysymtab d => eq_dysymtab c d
  | LcBuildVersion c ss, LcBuildVersion d ts => eq_build_version c d && eq_list eq_build_tool ss ts
  | _, _ => false
  end.
(** nlist.rs:110-127 *)
Definition eq_n_type : n_type -> n_type -> bool := eq_disc n_type_to_u8.
(** nlist.rs:140-144 *)
Definition eq_debug_symbol : debug_symbol -> debug_symbol -> bool := eq_disc debug_symbol_to_u8.
(** nlist.rs:63-74 *)
Definition eq_n_type_field (a b : n_type_field) : bool :=
  match a, b with
  | Norm p t x, Norm p' t' x' => Bool.eqb p p' && eq_n_type t t' && Bool.eqb x x'
  | Stab d, Stab d' => eq_debug_symbol d d'
  | _, _ => false
  end.
(** nlist.rs:6-29 *)
Definition eq_nlist64 (x y : nlist64) : bool :=
  (nl_strx x =? nl_strx y) && eq_n_type_field (nl_type x) (nl_type y) && (nl_sect x =? nl_sect y) &&
  (nl_desc x =? nl_desc y) && (nl_value x =? nl_value y).
(** reloc.rs:116-126 *)
Definition eq_reloc_length : reloc_length -> reloc_length -> bool := eq_disc reloc_length_to_u32.
(** reloc.rs:6-28 *)
Definition eq_reloc_info (x y : reloc_info) : bool :=
  (r_address x =? r_address y) && (r_symbolnum x =? r_symbolnum y) &&
  Bool.eqb (r_pcrel x) (r_pcrel y) && eq_reloc_length (r_length x) (r_length y) &&
  Bool.eqb (r_extern x) (r_extern y) && (r_type x =? r_type y).
(** reloc.rs:138-146, 166-188 *)
Definition eq_x86_reloc : x86_reloc -> x86_reloc -> bool := eq_disc x86_reloc_to_u8.
Definition eq_x86_64_reloc : x86_64_reloc -> x86_64_reloc -> bool := eq_disc x86_64_reloc_to_u8.

(** ** at-obj *)

(** object.rs:188-193 *)
Definition eq_symbol (a b : symbol) : bool :=
  match a, b with
  | SyUndef n, SyUndef m => eq_str n m
  | SyAbs n v x, SyAbs m w y => eq_str n m && (v =? w) && Bool.eqb x y
  | SyRef n v x, SyRef m w y => eq_str n m && (v =? w) && Bool.eqb x y
  | _, _ => false
  end.

(** ** at-asm *)

(** parsers/section.rs:3-8 *)
Definition eq_sect : sect -> sect -> bool := eq_disc (fun s => match s with SText => 0 | SData => 1 | SBss => 2 end).
(** parsers/data.rs:5-9 *)
Definition eq_data (a b : data) : bool :=
  eq_option eq_str (da_label a) (da_label b) && eq_list Z.eqb (da_bytes a) (da_bytes b).
(** parsers/global_symbol.rs:3-4, parsers/mod.rs:22-25, parsers/expr.rs:4-5 have one field: [eq_str]
    or [=?] *)

(** ** `a == b` for values of one of these types *)
Definition eq_value (a b : value) : bool :=
  match a, b with
  | VReg64 x, VReg64 y => eq_reg64 x y
  | VReg32 x, VReg32 y => eq_reg32 x y
  | VReg16 x, VReg16 y => eq_reg16 x y
  | VReg8 x, VReg8 y => eq_reg8 x y
  | VReg x, VReg y => eq_reg x y
  | VMem64 x, VMem64 y => eq_mem64 x y
  | VBytes x, VBytes y => eq_bam x y
  | VEndian x, VEndian y => eq_endian x y
  | VMagic x, VMagic y => eq_magic x y
  | VCpuSubX86 x, VCpuSubX86 y => eq_cpu_sub_x86 x y
  | VCpuSubX86_64 x, VCpuSubX86_64 y => eq_cpu_sub_x86_64 x y
  | VCpuType x, VCpuType y => eq_cpu_type x y
  | VFileType x, VFileType y => eq_file_type x y
  | VFlag x, VFlag y => eq_flag x y
  | VFlags x, VFlags y => eq_flags x y
  | VHeader64 x, VHeader64 y => eq_header64 x y
  | VSegment64 x, VSegment64 y => eq_segment64 x y
  | VSectionType x, VSectionType y => eq_section_type x y
  | VAttr x, VAttr y => eq_attr x y
  | VAttrs x, VAttrs y => eq_attrs x y
  | VSection64 x, VSection64 y => eq_section64 x y
  | VSymtab x, VSymtab y => eq_symtab x y
  | VDysymtab x, VDysymtab y => eq_dysymtab x y
  | VPlatform x, VPlatform y => eq_platform x y
  | VVersion x, VVersion y => eq_version x y
  | VBuildVersion x, VBuildVersion y => eq_build_version x y
  | VTool x, VTool y => eq_tool x y
  | VBuildTool x, VBuildTool y => eq_build_tool x y
  | VLoadCommand x, VLoadCommand y => eq_load_command x y
  | VNType x, VNType y => eq_n_type x y
  | VDebugSymbol x, VDebugSymbol y => eq_debug_symbol x y
  | VNTypeField x, VNTypeField y => eq_n_type_field x y
  | VNList64 x, VNList64 y => eq_nlist64 x y
  | VRelocLength x, VRelocLength y => eq_reloc_length x y
  | VRelocInfo x, VRelocInfo y => eq_reloc_info x y
  | VX86Reloc x, VX86Reloc y => eq_x86_reloc x y
  | VX86_64Reloc x, VX86_64Reloc y => eq_x86_64_reloc x y
  | VSymbol x, VSymbol y => eq_symbol x y
  | VSect x, VSect y => eq_sect x y
  | VData x, VData y => eq_data x y
  | VGlobalSymbol x, VGlobalSymbol y => eq_str x y
  | VParseError x, VParseError y => eq_str x y
  | VExpr x, VExpr y => Z.eqb x y
  | _, _ => false
  end.
