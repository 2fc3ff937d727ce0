(** Model of the crate `at-mac`: Mach-O records, their readers and writers.
    Paths are relative to /repo/at-mac/src.  Writers take the endianness [h] of the
    host (`NativeEndian`); readers take the endianness they are called with. *)
From Coq Require Import String.
From Verif Require Import Base Str.

(** ** io.rs *)

(** io.rs:31-50 `ReadExt::read_*_in` *)
Definition read_uint (n : nat) (e : endian) : reader Z :=
  bs <~ read_exact n ; rret (val_of e bs).
Definition read_u8 : reader Z := read_uint 1 Little.
Definition read_u16 (e : endian) : reader Z := read_uint 2 e.
Definition read_u32 (e : endian) : reader Z := read_uint 4 e.
Definition read_u64 (e : endian) : reader Z := read_uint 8 e.
Definition read_i32 (e : endian) : reader Z := n <~ read_u32 e ; rret (wrapi 32 n).

(** io.rs:52-59 `read_fixed_size_string` *)
Definition read_fixed_size_string (size : nat) : reader str :=
  buf <~ read_exact size ;
  rlift (unwrap (from_utf8 (hd [] (split (fun b => b =? 0) buf)))).

(** io.rs:64-83 `WriteExt::write_*` on a host of endianness [h] *)
Definition write_u8 (n : Z) : wr := wemit (bytes_of Little 1 n).
Definition write_u16 (h : endian) (n : Z) : wr := wemit (bytes_of h 2 n).
Definition write_u32 (h : endian) (n : Z) : wr := wemit (bytes_of h 4 n).
Definition write_u64 (h : endian) (n : Z) : wr := wemit (bytes_of h 8 n).
Definition write_i32 (h : endian) (n : Z) : wr := wemit (bytes_of h 4 (wrapu 32 n)).

(** io.rs:85-96 `write_fixed_size_string`; after the assertions every char is one byte,
    so `buf[i] = c as u8` never goes out of range *)
Definition write_fixed_size_string (s : str) (size : nat) : wr :=
  if str_is_ascii s && (str_len s <=? Z.of_nat size)
  then wemit (map (wrapu 8) s ++ repeat 0 (size - length s))
  else wpanic.

(** ** `#[derive(FromPrimitive)]` (num-derive; header.rs:76,118,123,155,179, segment64.rs:173,196,
    build_version.rs:66,142, reloc.rs:116, nlist.rs:110,140): compare with each discriminant in turn *)
Definition from_prim {A} (disc : A -> Z) (all : list A) (n : Z) : option A :=
  find (fun a => disc a =? n) all.

(** ** header.rs *)

(** header.rs:76-96 `enum Magic` *)
Inductive magic := Magic64 | Cigam64 | Magic32 | Cigam32 | FatMagic | FatCigam.
Definition magic_to_u32 (m : magic) : Z :=
  match m with
  | Magic64 => 0xfeedfacf
  | Cigam64 => 0xcffaedfe
  | Magic32 => 0xfeedface
  | Cigam32 => 0xcefaedfe
  | FatMagic => 0xcafebabe
  | FatCigam => 0xbebafeca
  end.
Definition all_magic := [Magic64; Cigam64; Magic32; Cigam32; FatMagic; FatCigam].
(** header.rs:99-105 `from_u32_checked`, `from_u32` *)
Definition magic_from_u32 (n : Z) : res magic := unwrap (from_prim magic_to_u32 all_magic n).

(** header.rs:112-126 `enum CpuType` (both subtype enums have the single value All = 3) *)
Inductive cpu_sub_x86 := X86All.
Inductive cpu_sub_x86_64 := X86_64All.
Inductive cpu_type := CpuX86 (s : cpu_sub_x86) | CpuX86_64 (s : cpu_sub_x86_64).
Definition cpu_sub_x86_n (s : cpu_sub_x86) : Z := match s with X86All => 3 end.
Definition cpu_sub_x86_64_n (s : cpu_sub_x86_64) : Z := match s with X86_64All => 3 end.

(** header.rs:129-131 *)
Definition CPU_ARCH_ABI64 : Z := 0x01000000.
Definition CPU_TYPE_X86 : Z := 7.
Definition CPU_TYPE_X86_64 : Z := Z.lor CPU_TYPE_X86 CPU_ARCH_ABI64.

(** header.rs:133-145 *)
Definition cpu_from (t s : Z) : res cpu_type :=
  if t =? CPU_TYPE_X86 then
    s' <- unwrap (from_prim cpu_sub_x86_n [X86All] s) ;; Ok (CpuX86 s')
  else if t =? CPU_TYPE_X86_64 then
    s' <- unwrap (from_prim cpu_sub_x86_64_n [X86_64All] s) ;; Ok (CpuX86_64 s')
  else Panic.
(** header.rs:147-152 *)
Definition cpu_to (c : cpu_type) : Z * Z :=
  match c with
  | CpuX86 s => (CPU_TYPE_X86, cpu_sub_x86_n s)
  | CpuX86_64 s => (CPU_TYPE_X86_64, cpu_sub_x86_64_n s)
  end.

(** header.rs:155-177 `enum FileType` *)
Inductive file_type :=
| FtObject | FtExecute | FtFVMLib | FtCore | FtPreload | FtDylib | FtDylinker | FtBundle | FtDsym.
Definition file_type_to_u32 (f : file_type) : Z :=
  match f with
  | FtObject => 1 | FtExecute => 2 | FtFVMLib => 3 | FtCore => 4 | FtPreload => 5
  | FtDylib => 6 | FtDylinker => 7 | FtBundle => 8 | FtDsym => 0xA
  end.
Definition all_file_type :=
  [FtObject; FtExecute; FtFVMLib; FtCore; FtPreload; FtDylib; FtDylinker; FtBundle; FtDsym].
Definition file_type_from_u32 (n : Z) : res file_type :=
  unwrap (from_prim file_type_to_u32 all_file_type n).

(** header.rs:179-208 `enum Flag` *)
Inductive flag :=
| NoUndefs | IncrLink | DyldLink | BindAtLoad | PreBound | SplitSegs | TwoLevel | ForceFlat
| NoMultiDefs | NoFixPreBinding | PreBindable | AllModsBound | SubsectionsViaSymbols
| Canonical | Pie | HasTlvDescriptors.
Definition flag_to_u32 (f : flag) : Z :=
  match f with
  | NoUndefs => 0x000001 | IncrLink => 0x000002 | DyldLink => 0x000004
  | BindAtLoad => 0x000008 | PreBound => 0x000010 | SplitSegs => 0x000020
  | TwoLevel => 0x000080 | ForceFlat => 0x000100 | NoMultiDefs => 0x000200
  | NoFixPreBinding => 0x000400 | PreBindable => 0x000800 | AllModsBound => 0x001000
  | SubsectionsViaSymbols => 0x002000 | Canonical => 0x004000 | Pie => 0x200000
  | HasTlvDescriptors => 0x800000
  end.
Definition all_flag :=
  [NoUndefs; IncrLink; DyldLink; BindAtLoad; PreBound; SplitSegs; TwoLevel; ForceFlat;
   NoMultiDefs; NoFixPreBinding; PreBindable; AllModsBound; SubsectionsViaSymbols;
   Canonical; Pie; HasTlvDescriptors].
Definition flag_from_u32 (n : Z) : res flag := unwrap (from_prim flag_to_u32 all_flag n).

(** the loop body of header.rs:226-232 and segment64.rs:253-258: collect the set bits
    [is] of [n] through [from] *)
Fixpoint bits_from {A} (from : Z -> res A) (n : Z) (is : list Z) : res (list A) :=
  match is with
  | [] => Ok []
  | i :: is' =>
      let b := Z.land n (Z.shiftl 1 i) in
      if negb (b =? 0) then
        f <- from b ;; fs <- bits_from from n is' ;; Ok (f :: fs)
      else bits_from from n is'
  end.
Definition zrange (lo : Z) (n : nat) : list Z := map (fun k => lo + Z.of_nat k) (seq 0 n).

(** header.rs:210-246 `Flags`: a Vec of flags; `0..=31` *)
Definition flags_from_u32 (n : Z) : res (list flag) := bits_from flag_from_u32 n (zrange 0 32).
Definition flags_to_u32 (fs : list flag) : Z :=
  fold_left (fun n f => Z.lor n (flag_to_u32 f)) fs 0.

(** header.rs:10-19 `Header64` *)
Record header64 := {
  h_magic : magic;
  h_cpu : cpu_type;
  h_file_type : file_type;
  h_ncmds : Z;
  h_size_of_cmds : Z;
  h_flags : list flag;
  h_reserved : Z
}.
Definition HEADER_SIZE : Z := 0x20.

(** header.rs:24-60 `Header64::read_from` on a host of endianness [h]; `Endian::NATIVE` is
    [h], `Endian::REVERSE` is [swap h] (io.rs:10-20) *)
Definition read_header64 (h : endian) : reader (header64 * endian) :=
  magic_n <~ read_u32 h ;
  m <~ rlift (magic_from_u32 magic_n) ;
  e <~ rlift (match m with
              | Magic64 | Magic32 => Ok h
              | Cigam64 | Cigam32 => Ok (swap h)
              | _ => Panic
              end) ;
  cpu_type_n <~ read_i32 e ;
  cpu_subtype_n <~ read_i32 e ;
  cpu <~ rlift (cpu_from cpu_type_n cpu_subtype_n) ;
  file_type_n <~ read_u32 e ;
  ft <~ rlift (file_type_from_u32 file_type_n) ;
  ncmds <~ read_u32 e ;
  size_of_cmds <~ read_u32 e ;
  flags_n <~ read_u32 e ;
  flags <~ rlift (flags_from_u32 flags_n) ;
  reserved <~ read_u32 e ;
  rret ({| h_magic := m; h_cpu := cpu; h_file_type := ft; h_ncmds := ncmds;
           h_size_of_cmds := size_of_cmds; h_flags := flags; h_reserved := reserved |}, e).

(** header.rs:62-72 `Header64::write_into` *)
Definition write_header64 (h : endian) (x : header64) : wr :=
  write_u32 h (magic_to_u32 (h_magic x)) >>>
  write_i32 h (fst (cpu_to (h_cpu x))) >>>
  write_i32 h (snd (cpu_to (h_cpu x))) >>>
  write_u32 h (file_type_to_u32 (h_file_type x)) >>>
  write_u32 h (h_ncmds x) >>>
  write_u32 h (h_size_of_cmds x) >>>
  write_u32 h (flags_to_u32 (h_flags x)) >>>
  write_u32 h (h_reserved x).

(** ** load_command/segment64.rs *)

(** load_command/segment64.rs:10-33 `SegmentCommand64` *)
Record segment64 := {
  sg_cmd : Z;
  sg_cmdsize : Z;
  sg_segname : str;
  sg_vmaddr : Z;
  sg_vmsize : Z;
  sg_fileoff : Z;
  sg_filesize : Z;
  sg_maxprot : Z;
  sg_initprot : Z;
  sg_nsects : Z;
  sg_flags : Z
}.
(** load_command/segment64.rs:36-41 *)
Definition SEGMENT_TYPE : Z := 0x19.
Definition SEGMENT_SIZE : Z := 0x48.

(** load_command/segment64.rs:174-194 `SectionType` *)
Inductive section_type :=
| StRegular | StZerofill | StCstringLiterals | StFourByteLiterals | StEightByteLiterals
| StLiteralPointers | StCoalesced.
Definition section_type_to_u32 (t : section_type) : Z :=
  match t with
  | StRegular => 0 | StZerofill => 1 | StCstringLiterals => 2 | StFourByteLiterals => 3
  | StEightByteLiterals => 4 | StLiteralPointers => 5 | StCoalesced => 0xB
  end.
Definition all_section_type :=
  [StRegular; StZerofill; StCstringLiterals; StFourByteLiterals; StEightByteLiterals;
   StLiteralPointers; StCoalesced].
Definition SECTION_TYPE_MASK : Z := 0x000000ff.
Definition section_type_from_u32 (n : Z) : res section_type :=
  unwrap (from_prim section_type_to_u32 all_section_type n).

(** load_command/segment64.rs:197-233 `SectionAttr` *)
Inductive section_attr :=
| PureInstructions | NoToc | StripStaticSyms | LiveSupport | AttrDebug | SomeInstructions
| ExtReloc | LocReloc.
Definition section_attr_to_u32 (a : section_attr) : Z :=
  match a with
  | PureInstructions => 0x80000000 | NoToc => 0x40000000 | StripStaticSyms => 0x20000000
  | LiveSupport => 0x08000000 | AttrDebug => 0x02000000 | SomeInstructions => 0x00000400
  | ExtReloc => 0x00000200 | LocReloc => 0x00000100
  end.
Definition all_section_attr :=
  [PureInstructions; NoToc; StripStaticSyms; LiveSupport; AttrDebug; SomeInstructions;
   ExtReloc; LocReloc].
Definition section_attr_from_u32 (n : Z) : res section_attr :=
  unwrap (from_prim section_attr_to_u32 all_section_attr n).

(** load_command/segment64.rs:235-269 `SectionAttrs`; `8..=31` *)
Definition SECTION_ATTRS_MASK : Z := 0xffffff00.
Definition section_attrs_from_u32 (n : Z) : res (list section_attr) :=
  bits_from section_attr_from_u32 n (zrange 8 24).
Definition section_attrs_to_u32 (l : list section_attr) : Z :=
  fold_left (fun n a => Z.lor n (section_attr_to_u32 a)) l 0.

(** load_command/segment64.rs:91-115 `Section64` *)
Record section64 := {
  sc_sectname : str;
  sc_segname : str;
  sc_addr : Z;
  sc_size : Z;
  sc_offset : Z;
  sc_align : Z;
  sc_reloff : Z;
  sc_nreloc : Z;
  sc_attrs : list section_attr;
  sc_type : section_type;
  sc_reserved1 : Z;
  sc_reserved2 : Z;
  sc_reserved3 : Z
}.
Definition SECTION_SIZE : Z := 0x50.

(** load_command/segment64.rs:43-73 `SegmentCommand64::read_from_in`.  The size check at
    line 58 is u32 arithmetic and depends on the build profile. *)
Definition read_segment64 (p : profile) (e : endian) : reader segment64 :=
  cmd <~ read_u32 e ;
  _ <~ rlift (rassert (cmd =? SEGMENT_TYPE)) ;
  cmdsize <~ read_u32 e ;
  segname <~ read_fixed_size_string 16 ;
  vmaddr <~ read_u64 e ;
  vmsize <~ read_u64 e ;
  fileoff <~ read_u64 e ;
  filesize <~ read_u64 e ;
  maxprot <~ read_i32 e ;
  initprot <~ read_i32 e ;
  nsects <~ read_u32 e ;
  flags <~ read_u32 e ;
  prod <~ rlift (chku p 32 (nsects * SECTION_SIZE)) ;
  size <~ rlift (chku p 32 (SEGMENT_SIZE + prod)) ;
  _ <~ rlift (rassert (cmdsize =? size)) ;
  rret {| sg_cmd := cmd; sg_cmdsize := cmdsize; sg_segname := segname; sg_vmaddr := vmaddr;
          sg_vmsize := vmsize; sg_fileoff := fileoff; sg_filesize := filesize;
          sg_maxprot := maxprot; sg_initprot := initprot; sg_nsects := nsects;
          sg_flags := flags |}.

(** load_command/segment64.rs:75-87 `SegmentCommand64::write_into` *)
Definition write_segment64 (h : endian) (x : segment64) : wr :=
  write_u32 h (sg_cmd x) >>>
  write_u32 h (sg_cmdsize x) >>>
  write_fixed_size_string (sg_segname x) 16 >>>
  write_u64 h (sg_vmaddr x) >>>
  write_u64 h (sg_vmsize x) >>>
  write_u64 h (sg_fileoff x) >>>
  write_u64 h (sg_filesize x) >>>
  write_i32 h (sg_maxprot x) >>>
  write_i32 h (sg_initprot x) >>>
  write_u32 h (sg_nsects x) >>>
  write_u32 h (sg_flags x).

(** load_command/segment64.rs:120-152 `Section64::read_from_in` *)
Definition read_section64 (e : endian) : reader section64 :=
  sectname <~ read_fixed_size_string 16 ;
  segname <~ read_fixed_size_string 16 ;
  addr <~ read_u64 e ;
  size <~ read_u64 e ;
  offset <~ read_u32 e ;
  align <~ read_u32 e ;
  reloff <~ read_u32 e ;
  nreloc <~ read_u32 e ;
  flags_n <~ read_u32 e ;
  ty <~ rlift (section_type_from_u32 (Z.land flags_n SECTION_TYPE_MASK)) ;
  attrs <~ rlift (section_attrs_from_u32 (Z.land flags_n SECTION_ATTRS_MASK)) ;
  reserved1 <~ read_u32 e ;
  reserved2 <~ read_u32 e ;
  reserved3 <~ read_u32 e ;
  rret {| sc_sectname := sectname; sc_segname := segname; sc_addr := addr; sc_size := size;
          sc_offset := offset; sc_align := align; sc_reloff := reloff; sc_nreloc := nreloc;
          sc_attrs := attrs; sc_type := ty; sc_reserved1 := reserved1;
          sc_reserved2 := reserved2; sc_reserved3 := reserved3 |}.

(** load_command/segment64.rs:154-170 `Section64::write_into` *)
Definition write_section64 (h : endian) (x : section64) : wr :=
  write_fixed_size_string (sc_sectname x) 16 >>>
  write_fixed_size_string (sc_segname x) 16 >>>
  write_u64 h (sc_addr x) >>>
  write_u64 h (sc_size x) >>>
  write_u32 h (sc_offset x) >>>
  write_u32 h (sc_align x) >>>
  write_u32 h (sc_reloff x) >>>
  write_u32 h (sc_nreloc x) >>>
  write_u32 h (Z.lor (section_attrs_to_u32 (sc_attrs x)) (section_type_to_u32 (sc_type x))) >>>
  write_u32 h (sc_reserved1 x) >>>
  write_u32 h (sc_reserved2 x) >>>
  write_u32 h (sc_reserved3 x).

(** ** load_command/symtab.rs *)

(** load_command/symtab.rs:5-17 *)
Record symtab := {
  st_cmd : Z;
  st_cmdsize : Z;
  st_symoff : Z;
  st_nsyms : Z;
  st_stroff : Z;
  st_strsize : Z
}.
Definition SYMTAB_TYPE : Z := 0x2.
Definition SYMTAB_SIZE : Z := 0x18.

(** load_command/symtab.rs:24-44 *)
Definition read_symtab (e : endian) : reader symtab :=
  cmd <~ read_u32 e ;
  _ <~ rlift (rassert (cmd =? SYMTAB_TYPE)) ;
  cmdsize <~ read_u32 e ;
  _ <~ rlift (rassert (cmdsize =? SYMTAB_SIZE)) ;
  symoff <~ read_u32 e ;
  nsyms <~ read_u32 e ;
  stroff <~ read_u32 e ;
  strsize <~ read_u32 e ;
  rret {| st_cmd := cmd; st_cmdsize := cmdsize; st_symoff := symoff; st_nsyms := nsyms;
          st_stroff := stroff; st_strsize := strsize |}.

(** load_command/symtab.rs:46-53 *)
Definition write_symtab (h : endian) (x : symtab) : wr :=
  write_u32 h (st_cmd x) >>>
  write_u32 h (st_cmdsize x) >>>
  write_u32 h (st_symoff x) >>>
  write_u32 h (st_nsyms x) >>>
  write_u32 h (st_stroff x) >>>
  write_u32 h (st_strsize x).

(** ** load_command/dysymtab.rs *)

(** load_command/dysymtab.rs:43-82 *)
Record dysymtab := {
  dy_cmd : Z; dy_cmdsize : Z;
  dy_ilocalsym : Z; dy_nlocalsym : Z;
  dy_iextdefsym : Z; dy_nextdefsym : Z;
  dy_iundefsym : Z; dy_nundefsym : Z;
  dy_tocoff : Z; dy_ntoc : Z;
  dy_modtaboff : Z; dy_nmodtab : Z;
  dy_extrefsymoff : Z; dy_nextrefsyms : Z;
  dy_indirectsymoff : Z; dy_nindirectsyms : Z;
  dy_extreloff : Z; dy_nextrel : Z;
  dy_locreloff : Z; dy_nlocrel : Z
}.
Definition DYSYMTAB_TYPE : Z := 0xB.
Definition DYSYMTAB_SIZE : Z := 0x50.

(** load_command/dysymtab.rs:89-137 *)
Definition read_dysymtab (e : endian) : reader dysymtab :=
  cmd <~ read_u32 e ;
  _ <~ rlift (rassert (cmd =? DYSYMTAB_TYPE)) ;
  cmdsize <~ read_u32 e ;
  _ <~ rlift (rassert (cmdsize =? DYSYMTAB_SIZE)) ;
  ilocalsym <~ read_u32 e ;
  nlocalsym <~ read_u32 e ;
  iextdefsym <~ read_u32 e ;
  nextdefsym <~ read_u32 e ;
  iundefsym <~ read_u32 e ;
  nundefsym <~ read_u32 e ;
  tocoff <~ read_u32 e ;
  ntoc <~ read_u32 e ;
  modtaboff <~ read_u32 e ;
  nmodtab <~ read_u32 e ;
  extrefsymoff <~ read_u32 e ;
  nextrefsyms <~ read_u32 e ;
  indirectsymoff <~ read_u32 e ;
  nindirectsyms <~ read_u32 e ;
  extreloff <~ read_u32 e ;
  nextrel <~ read_u32 e ;
  locreloff <~ read_u32 e ;
  nlocrel <~ read_u32 e ;
  rret {| dy_cmd := cmd; dy_cmdsize := cmdsize; dy_ilocalsym := ilocalsym;
          dy_nlocalsym := nlocalsym; dy_iextdefsym := iextdefsym;
          dy_nextdefsym := nextdefsym; dy_iundefsym := iundefsym;
          dy_nundefsym := nundefsym; dy_tocoff := tocoff; dy_ntoc := ntoc;
          dy_modtaboff := modtaboff; dy_nmodtab := nmodtab;
          dy_extrefsymoff := extrefsymoff; dy_nextrefsyms := nextrefsyms;
          dy_indirectsymoff := indirectsymoff; dy_nindirectsyms := nindirectsyms;
          dy_extreloff := extreloff; dy_nextrel := nextrel; dy_locreloff := locreloff;
          dy_nlocrel := nlocrel |}.

(** load_command/dysymtab.rs:139-160 *)
Definition write_dysymtab (h : endian) (x : dysymtab) : wr :=
  write_u32 h (dy_cmd x) >>>
  write_u32 h (dy_cmdsize x) >>>
  write_u32 h (dy_ilocalsym x) >>>
  write_u32 h (dy_nlocalsym x) >>>
  write_u32 h (dy_iextdefsym x) >>>
  write_u32 h (dy_nextdefsym x) >>>
  write_u32 h (dy_iundefsym x) >>>
  write_u32 h (dy_nundefsym x) >>>
  write_u32 h (dy_tocoff x) >>>
  write_u32 h (dy_ntoc x) >>>
  write_u32 h (dy_modtaboff x) >>>
  write_u32 h (dy_nmodtab x) >>>
  write_u32 h (dy_extrefsymoff x) >>>
  write_u32 h (dy_nextrefsyms x) >>>
  write_u32 h (dy_indirectsymoff x) >>>
  write_u32 h (dy_nindirectsyms x) >>>
  write_u32 h (dy_extreloff x) >>>
  write_u32 h (dy_nextrel x) >>>
  write_u32 h (dy_locreloff x) >>>
  write_u32 h (dy_nlocrel x).

(** ** load_command/build_version.rs *)

(** load_command/build_version.rs:66-88 `Platform` *)
Inductive platform :=
| MacOS | IOS | TvOS | WatchOS | BridgeOS | MacCatalyst | IOSSimulator | TvOSSimulator
| WatchOSSimulator | Driverkit.
Definition platform_to_u32 (x : platform) : Z :=
  match x with
  | MacOS => 1 | IOS => 2 | TvOS => 3 | WatchOS => 4 | BridgeOS => 5 | MacCatalyst => 6
  | IOSSimulator => 7 | TvOSSimulator => 8 | WatchOSSimulator => 9 | Driverkit => 10
  end.
Definition all_platform :=
  [MacOS; IOS; TvOS; WatchOS; BridgeOS; MacCatalyst; IOSSimulator; TvOSSimulator;
   WatchOSSimulator; Driverkit].
Definition platform_from_u32 (n : Z) : res platform :=
  unwrap (from_prim platform_to_u32 all_platform n).

(** load_command/build_version.rs:90-95 `Version`: u16, u8, u8 *)
Record version := { v_major : Z; v_minor : Z; v_release : Z }.
(** load_command/build_version.rs:99-108 *)
Definition version_from_u32 (n : Z) : version :=
  {| v_major := wrapu 16 (Z.shiftr (Z.land n 0xFFFF0000) 16);
     v_minor := wrapu 8 (Z.shiftr (Z.land n 0x0000FF00) 8);
     v_release := wrapu 8 (Z.land n 0x000000FF) |}.
(** load_command/build_version.rs:110-116; u32 shifts drop high bits *)
Definition version_to_u32 (v : version) : Z :=
  Z.lor (Z.lor (Z.lor 0 (wrapu 32 (Z.shiftl (v_major v) 16)))
               (wrapu 32 (Z.shiftl (v_minor v) 8)))
        (v_release v).

(** load_command/build_version.rs:10-20 *)
Record build_version := {
  bv_cmd : Z;
  bv_cmdsize : Z;
  bv_platform : platform;
  bv_minos : version;
  bv_sdk : version;
  bv_ntools : Z
}.
Definition BUILD_VERSION_TYPE : Z := 0x32.
Definition BUILD_VERSION_SIZE : Z := 0x18.
Definition BUILD_TOOL_SIZE : Z := 0x8.

(** load_command/build_version.rs:142-157 `Tool` *)
Inductive tool := Clang | Swift | LD.
Definition tool_to_u32 (t : tool) : Z := match t with Clang => 1 | Swift => 2 | LD => 3 end.
Definition all_tool := [Clang; Swift; LD].
Definition tool_from_u32 (n : Z) : res tool := unwrap (from_prim tool_to_u32 all_tool n).

(** load_command/build_version.rs:119-123 *)
Record build_tool := { bt_tool : tool; bt_version : Z }.

(** load_command/build_version.rs:27-54 *)
Definition read_build_version (p : profile) (e : endian) : reader build_version :=
  cmd <~ read_u32 e ;
  _ <~ rlift (rassert (cmd =? BUILD_VERSION_TYPE)) ;
  cmdsize <~ read_u32 e ;
  platform_n <~ read_u32 e ;
  pl <~ rlift (platform_from_u32 platform_n) ;
  minos_n <~ read_u32 e ;
  sdk_n <~ read_u32 e ;
  ntools <~ read_u32 e ;
  prod <~ rlift (chku p 32 (BUILD_TOOL_SIZE * ntools)) ;
  size <~ rlift (chku p 32 (BUILD_VERSION_SIZE + prod)) ;
  _ <~ rlift (rassert (cmdsize =? size)) ;
  rret {| bv_cmd := cmd; bv_cmdsize := cmdsize; bv_platform := pl;
          bv_minos := version_from_u32 minos_n; bv_sdk := version_from_u32 sdk_n;
          bv_ntools := ntools |}.

(** load_command/build_version.rs:56-63 *)
Definition write_build_version (h : endian) (x : build_version) : wr :=
  write_u32 h (bv_cmd x) >>>
  write_u32 h (bv_cmdsize x) >>>
  write_u32 h (platform_to_u32 (bv_platform x)) >>>
  write_u32 h (version_to_u32 (bv_minos x)) >>>
  write_u32 h (version_to_u32 (bv_sdk x)) >>>
  write_u32 h (bv_ntools x).

(** load_command/build_version.rs:128-134 *)
Definition read_build_tool (e : endian) : reader build_tool :=
  tool_n <~ read_u32 e ;
  t <~ rlift (tool_from_u32 tool_n) ;
  v <~ read_u32 e ;
  rret {| bt_tool := t; bt_version := v |}.

(** load_command/build_version.rs:136-139 *)
Definition write_build_tool (h : endian) (x : build_tool) : wr :=
  write_u32 h (tool_to_u32 (bt_tool x)) >>>
  write_u32 h (bt_version x).

(** ** load_command/mod.rs *)

(** load_command/mod.rs:18-23 *)
Inductive load_command :=
| LcSegment64 (c : segment64) (sections : list section64)
| LcSymtab (c : symtab)
| LcDysymtab (c : dysymtab)
| LcBuildVersion (c : build_version) (tools : list build_tool).

(** load_command/mod.rs:26-35 *)
Definition lc_cmd (l : load_command) : Z :=
  match l with
  | LcSegment64 c _ => sg_cmd c
  | LcSymtab c => st_cmd c
  | LcDysymtab c => dy_cmd c
  | LcBuildVersion c _ => bv_cmd c
  end.

(** load_command/mod.rs:37-46 *)
Definition lc_cmd_size (l : load_command) : Z :=
  match l with
  | LcSegment64 c _ => sg_cmdsize c
  | LcSymtab c => st_cmdsize c
  | LcDysymtab c => dy_cmdsize c
  | LcBuildVersion c _ => bv_cmdsize c
  end.

(** load_command/mod.rs:48-91.  The command number is read, written back to a 4-byte buffer
    in the same byte order and chained in front of the rest. *)
Definition read_load_command (p : profile) (e : endian) : reader load_command := fun l =>
  match read_u32 e l with
  | Panic => Panic
  | Ok (cmd, l') =>
      let l'' := bytes_of e 4 cmd ++ l' in
      (if cmd =? SEGMENT_TYPE then
         c <~ read_segment64 p e ;
         sections <~ read_many (Z.to_nat (sg_nsects c)) (read_section64 e) ;
         rret (LcSegment64 c sections)
       else if cmd =? SYMTAB_TYPE then
         c <~ read_symtab e ; rret (LcSymtab c)
       else if cmd =? DYSYMTAB_TYPE then
         c <~ read_dysymtab e ; rret (LcDysymtab c)
       else if cmd =? BUILD_VERSION_TYPE then
         c <~ read_build_version p e ;
         tools <~ read_many (Z.to_nat (bv_ntools c)) (read_build_tool e) ;
         rret (LcBuildVersion c tools)
       else rlift Panic) l''
  end.

(** load_command/mod.rs:93-116 *)
Definition write_load_command (h : endian) (x : load_command) : wr :=
  match x with
  | LcSegment64 c sections => write_segment64 h c >>> wlist (map (write_section64 h) sections)
  | LcSymtab c => write_symtab h c
  | LcDysymtab c => write_dysymtab h c
  | LcBuildVersion c tools => write_build_version h c >>> wlist (map (write_build_tool h) tools)
  end.

(** ** nlist.rs *)

(** nlist.rs:111-137 `NType` *)
Inductive n_type := Undf | Abs | Sect | Pbud | Indr.
Definition n_type_to_u8 (t : n_type) : Z :=
  match t with Undf => 0 | Abs => 2 | Sect => 0xe | Pbud => 0xc | Indr => 0xa end.
Definition all_n_type := [Undf; Abs; Sect; Pbud; Indr].
Definition n_type_from_u8 (n : Z) : res n_type := unwrap (from_prim n_type_to_u8 all_n_type n).

(** nlist.rs:141-154 `DebugSymbol` *)
Inductive debug_symbol := Gsym.
Definition debug_symbol_to_u8 (d : debug_symbol) : Z := match d with Gsym => 0x20 end.
Definition debug_symbol_from_u8 (n : Z) : res debug_symbol :=
  unwrap (from_prim debug_symbol_to_u8 [Gsym] n).

(** nlist.rs:64-74 `NTypeField` *)
Inductive n_type_field :=
| Norm (n_pext : bool) (nt : n_type) (n_ext : bool)
| Stab (d : debug_symbol).

(** nlist.rs:77-80 *)
Definition N_STAB_MASK : Z := 0xe0.
Definition N_PEXT_MASK : Z := 0x10.
Definition N_TYPE_MASK : Z := 0x0e.
Definition N_EXT_MASK : Z := 0x01.

(** nlist.rs:82-96 *)
Definition n_type_field_from_u8 (n : Z) : res n_type_field :=
  let n_stab := Z.land n N_STAB_MASK in
  if n_stab =? 0 then
    nt <- n_type_from_u8 (Z.land n N_TYPE_MASK) ;;
    Ok (Norm (Z.land n N_PEXT_MASK =? N_PEXT_MASK) nt (Z.land n N_EXT_MASK =? N_EXT_MASK))
  else
    d <- debug_symbol_from_u8 n_stab ;; Ok (Stab d).

(** nlist.rs:98-107 *)
Definition n_type_field_to_u8 (f : n_type_field) : Z :=
  match f with
  | Norm pext nt ext =>
      Z.lor (Z.lor (b2z pext * N_PEXT_MASK) (n_type_to_u8 nt)) (b2z ext * N_EXT_MASK)
  | Stab d => debug_symbol_to_u8 d
  end.

(** nlist.rs:7-29 `NList64` *)
Record nlist64 := {
  nl_strx : Z;
  nl_type : n_type_field;
  nl_sect : Z;
  nl_desc : Z;
  nl_value : Z
}.
Definition NLIST_SIZE : Z := 0x10.
Definition NO_SECT : Z := 0.

(** nlist.rs:37-52 *)
Definition read_nlist64 (e : endian) : reader nlist64 :=
  strx <~ read_u32 e ;
  ty_n <~ read_u8 ;
  ty <~ rlift (n_type_field_from_u8 ty_n) ;
  sect <~ read_u8 ;
  desc <~ read_u16 e ;
  value <~ read_u64 e ;
  rret {| nl_strx := strx; nl_type := ty; nl_sect := sect; nl_desc := desc; nl_value := value |}.

(** nlist.rs:54-60 *)
Definition write_nlist64 (h : endian) (x : nlist64) : wr :=
  write_u32 h (nl_strx x) >>>
  write_u8 (n_type_field_to_u8 (nl_type x)) >>>
  write_u8 (nl_sect x) >>>
  write_u16 h (nl_desc x) >>>
  write_u64 h (nl_value x).

(** ** reloc.rs *)

(** reloc.rs:117-136 `RelocLength` *)
Inductive reloc_length := LenByte | LenWord | LenLong | LenQuad.
Definition reloc_length_to_u32 (l : reloc_length) : Z :=
  match l with LenByte => 0 | LenWord => 1 | LenLong => 2 | LenQuad => 3 end.
Definition all_reloc_length := [LenByte; LenWord; LenLong; LenQuad].
Definition reloc_length_from_u32 (n : Z) : res reloc_length :=
  unwrap (from_prim reloc_length_to_u32 all_reloc_length n).

(** reloc.rs:7-28 `RelocationInfo` *)
Record reloc_info := {
  r_address : Z;
  r_symbolnum : Z;
  r_pcrel : bool;
  r_length : reloc_length;
  r_extern : bool;
  r_type : Z
}.
Definition RELOC_SIZE : Z := 8.

(** reloc.rs:34-79 *)
Definition read_reloc_info (e : endian) : reader reloc_info :=
  addr <~ read_i32 e ;
  infos <~ read_u32 e ;
  match e with
  | Little =>
      len <~ rlift (reloc_length_from_u32 (Z.shiftr (Z.land infos 0x06000000) 25)) ;
      rret {| r_address := addr;
              r_symbolnum := Z.land infos 0x00FFFFFF;
              r_pcrel := 0 <? Z.land infos 0x01000000;
              r_length := len;
              r_extern := 0 <? Z.land infos 0x08000000;
              r_type := wrapu 8 (Z.shiftr (Z.land infos 0xF0000000) 28) |}
  | Big =>
      len <~ rlift (reloc_length_from_u32 (Z.shiftr (Z.land infos 0x00000060) 5)) ;
      rret {| r_address := addr;
              r_symbolnum := Z.shiftr (Z.land infos 0xFFFFFF00) 8;
              r_pcrel := 0 <? Z.land infos 0x00000080;
              r_length := len;
              r_extern := 0 <? Z.land infos 0x00000010;
              r_type := wrapu 8 (Z.land infos 0x0000000F) |}
  end.

(** reloc.rs:85-96 (little-endian hosts) and reloc.rs:102-113 (big-endian hosts) *)
Definition write_reloc_info (h : endian) (x : reloc_info) : wr :=
  write_i32 h (r_address x) >>>
  write_u32 h
    match h with
    | Little =>
        Z.lor (Z.lor (Z.lor (Z.lor (Z.lor 0 (r_symbolnum x))
          (b2z (r_pcrel x) * 0x01000000))
          (wrapu 32 (Z.shiftl (reloc_length_to_u32 (r_length x)) 25)))
          (b2z (r_extern x) * 0x08000000))
          (wrapu 32 (Z.shiftl (r_type x) 28))
    | Big =>
        Z.lor (Z.lor (Z.lor (Z.lor (Z.lor 0 (wrapu 32 (Z.shiftl (r_symbolnum x) 8)))
          (b2z (r_pcrel x) * 0x00000080))
          (wrapu 32 (Z.shiftl (reloc_length_to_u32 (r_length x)) 5)))
          (b2z (r_extern x) * 0x00000010))
          (r_type x)
    end.

(** reloc.rs:139-164 `X86RelocType` *)
Inductive x86_reloc := RtVanilla | RtPair | RtSectdiff | RtPbLaPtr | RtLocalSectdiff | RtTlv32.
Definition x86_reloc_to_u8 (t : x86_reloc) : Z :=
  match t with
  | RtVanilla => 0 | RtPair => 1 | RtSectdiff => 2 | RtPbLaPtr => 3 | RtLocalSectdiff => 4
  | RtTlv32 => 5
  end.
Definition x86_reloc_from_u8 (n : Z) : res x86_reloc :=
  match n with
  | 0 => Ok RtVanilla | 1 => Ok RtPair | 2 => Ok RtSectdiff | 3 => Ok RtPbLaPtr
  | 4 => Ok RtLocalSectdiff | 5 => Ok RtTlv32
  | _ => Panic
  end.

(** reloc.rs:167-210 `X86_64RelocType` *)
Inductive x86_64_reloc :=
| RtUnsigned | RtSigned | RtBranch | RtGotLoad | RtGot | RtSubtractor | RtSigned1 | RtSigned2
| RtSigned4 | RtTlv.
Definition x86_64_reloc_to_u8 (t : x86_64_reloc) : Z :=
  match t with
  | RtUnsigned => 0 | RtSigned => 1 | RtBranch => 2 | RtGotLoad => 3 | RtGot => 4
  | RtSubtractor => 5 | RtSigned1 => 6 | RtSigned2 => 7 | RtSigned4 => 8 | RtTlv => 9
  end.
Definition x86_64_reloc_from_u8 (n : Z) : res x86_64_reloc :=
  match n with
  | 0 => Ok RtUnsigned | 1 => Ok RtSigned | 2 => Ok RtBranch | 3 => Ok RtGotLoad
  | 4 => Ok RtGot | 5 => Ok RtSubtractor | 6 => Ok RtSigned1 | 7 => Ok RtSigned2
  | 8 => Ok RtSigned4 | 9 => Ok RtTlv
  | _ => Panic
  end.

(** ** string_table.rs *)

(** string_table.rs:3-5: the table is its bytes *)
Definition stab := list Z.
Definition is_nul (b : Z) : bool := b =? 0.

(** string_table.rs:8-10 `with_null` *)
Definition stab_with_null : stab := [0].

(** string_table.rs:12-15 `get` *)
Definition stab_get (t : stab) (idx : nat) : res str :=
  if Nat.leb idx (length t)
  then unwrap (from_utf8 (hd [] (split is_nul (skipn idx t))))
  else Panic.

(** string_table.rs:17-25 `push_with_null` *)
Definition stab_push (t : stab) (s : str) : res stab :=
  if str_is_ascii s then Ok (t ++ map (wrapu 8) s ++ [0]) else Panic.

(** string_table.rs:27-29 `len` *)
Definition stab_len (t : stab) : nat := length t.

(** string_table.rs:31-36 `iter` (the strings are produced lazily; consuming them all
    panics if one is not UTF-8) *)
Definition stab_iter (t : stab) : res (list str) :=
  mapM (fun b => unwrap (from_utf8 b)) (skipn 1 (split is_nul t)).

(** string_table.rs:45-53 `From<Vec<u8>>` *)
Definition stab_from_vec (d : list Z) : res stab :=
  _ <- rassert (match d with 0 :: _ => true | _ => false end) ;;
  _ <- rassert (match rev d with 0 :: _ => true | _ => false end) ;;
  _ <- rassert (forallb (fun n => (n =? 0) || is_ascii n) d) ;;
  Ok d.
