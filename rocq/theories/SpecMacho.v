(** Independent description of Mach-O data: fields at byte offsets.
    Sources: <mach-o/loader.h>, <mach-o/nlist.h>, <mach-o/reloc.h>. *)
From Coq Require Import String.
From Verif Require Import Base Str Mac.

(** ** Slices and integers in a file *)

(** [n] bytes of [l] from offset [off] *)
Definition slice {A} (off n : nat) (l : list A) : list A := firstn n (skipn off l).

(** positional value, most significant byte first *)
Fixpoint msb_val (acc : Z) (l : list Z) : Z :=
  match l with
  | [] => acc
  | b :: l' => msb_val (acc * 256 + b) l'
  end.
(** value of bytes in byte order [e] *)
Definition uint (e : endian) (l : list Z) : Z :=
  match e with Big => msb_val 0 l | Little => msb_val 0 (rev l) end.
(** two's complement reading of an unsigned [n]-bit value *)
Definition signed (n x : Z) : Z := if x <? 2 ^ (n - 1) then x else x - 2 ^ n.

(** the unsigned field of [n] bytes at offset [off] *)
Definition fld (e : endian) (off n : nat) (l : list Z) : Z := uint e (slice off n l).
(** the signed 32-bit field *)
Definition fld_i32 (e : endian) (off : nat) (l : list Z) : Z := signed 32 (fld e off 4 l).
(** characters before the first NUL of the [n]-byte name field at [off], as bytes *)
Fixpoint until_nul (l : list Z) : list Z :=
  match l with
  | [] => []
  | b :: l' => if b =? 0 then [] else b :: until_nul l'
  end.
Definition fld_name (off n : nat) (l : list Z) : list Z := until_nul (slice off n l).

Example fld_ex : fld Little 1 2 [9; 0x34; 0x12; 9] = 0x1234 /\ fld Big 1 2 [9; 0x34; 0x12; 9] = 0x3412
  /\ fld_i32 Big 0 [0xFF; 0xFF; 0xFF; 0xFE] = -2
  /\ fld_name 0 4 [0x61; 0x62; 0; 0x63] = [0x61; 0x62].
Proof. repeat split. Qed.

(** ** Numbers of the format *)

(** [k; k+1; ...], [n] numbers *)
Fixpoint count_from (k : Z) (n : nat) : list Z :=
  match n with O => [] | S n' => k :: count_from (k + 1) n' end.

(** bit numbers of the header flags (MH_ constants) *)
Definition flag_bit (f : flag) : Z :=
  match f with
  | NoUndefs => 0 | IncrLink => 1 | DyldLink => 2 | BindAtLoad => 3 | PreBound => 4
  | SplitSegs => 5 | TwoLevel => 7 | ForceFlat => 8 | NoMultiDefs => 9 | NoFixPreBinding => 10
  | PreBindable => 11 | AllModsBound => 12 | SubsectionsViaSymbols => 13 | Canonical => 14
  | Pie => 21 | HasTlvDescriptors => 23
  end.
(** bit numbers of the section attributes (S_ATTR_ constants) *)
Definition attr_bit (a : section_attr) : Z :=
  match a with
  | LocReloc => 8 | ExtReloc => 9 | SomeInstructions => 10 | AttrDebug => 25 | LiveSupport => 27
  | StripStaticSyms => 29 | NoToc => 30 | PureInstructions => 31
  end.
(** the word whose set bits are those numbered by the members of the list *)
Definition is_bitset {A} (bit : A -> Z) (l : list A) (w : Z) : Prop :=
  forall i, 0 <= i -> (Z.testbit w i = true <-> exists a, In a l /\ bit a = i).
(** the list of the set bits among [is], in that order *)
Definition bits_in (w : Z) (is : list Z) : list Z := filter (Z.testbit w) is.

Definition magic_num (m : magic) : Z :=
  match m with
  | Magic64 => 0xFEEDFACF | Magic32 => 0xFEEDFACE | Cigam64 => 0xCFFAEDFE | Cigam32 => 0xCEFAEDFE
  | FatMagic => 0xCAFEBABE | FatCigam => 0xBEBAFECA
  end.
(** CPU_TYPE_I386 = 7, CPU_ARCH_ABI64 = 0x01000000; CPU_SUBTYPE_X86_ALL = 3 *)
Definition cpu_nums (c : cpu_type) : Z * Z :=
  match c with CpuX86 _ => (7, 3) | CpuX86_64 _ => (0x01000007, 3) end.
(** MH_OBJECT ... MH_DSYM *)
Definition file_type_num (f : file_type) : Z :=
  match f with
  | FtObject => 1 | FtExecute => 2 | FtFVMLib => 3 | FtCore => 4 | FtPreload => 5 | FtDylib => 6
  | FtDylinker => 7 | FtBundle => 8 | FtDsym => 10
  end.
(** S_REGULAR ... *)
Definition section_type_num (t : section_type) : Z :=
  match t with
  | StRegular => 0 | StZerofill => 1 | StCstringLiterals => 2 | StFourByteLiterals => 3
  | StEightByteLiterals => 4 | StLiteralPointers => 5 | StCoalesced => 11
  end.
Definition platform_num (x : platform) : Z :=
  match x with
  | MacOS => 1 | IOS => 2 | TvOS => 3 | WatchOS => 4 | BridgeOS => 5 | MacCatalyst => 6
  | IOSSimulator => 7 | TvOSSimulator => 8 | WatchOSSimulator => 9 | Driverkit => 10
  end.
Definition tool_num (t : tool) : Z := match t with Clang => 1 | Swift => 2 | LD => 3 end.
(** N_UNDF, N_ABS, N_SECT, N_PBUD, N_INDR *)
Definition n_type_num (t : n_type) : Z :=
  match t with Undf => 0 | Abs => 2 | Indr => 10 | Pbud => 12 | Sect => 14 end.
Definition reloc_length_num (l : reloc_length) : Z :=
  match l with LenByte => 0 | LenWord => 1 | LenLong => 2 | LenQuad => 3 end.
(** X.Y.Z packed as 16.8.8 bits *)
Definition version_num (v : version) : Z := v_major v * 65536 + v_minor v * 256 + v_release v.
Definition bit01 (b : bool) : Z := if b then 1 else 0.

(** ** Records in a file: the record [x] is at offset [o] of [l], in byte order [e] *)

(** struct mach_header_64; the magic as read in byte order [e] is [m] *)
Definition header_at (e : endian) (o : nat) (l : list Z) (m : Z) (x : header64) : Prop :=
  (o + 32 <= length l)%nat /\
  fld e o 4 l = m /\
  fld e (o + 4) 4 l = fst (cpu_nums (h_cpu x)) /\
  fld e (o + 8) 4 l = snd (cpu_nums (h_cpu x)) /\
  fld e (o + 12) 4 l = file_type_num (h_file_type x) /\
  fld e (o + 16) 4 l = h_ncmds x /\
  fld e (o + 20) 4 l = h_size_of_cmds x /\
  is_bitset flag_bit (h_flags x) (fld e (o + 24) 4 l) /\
  fld e (o + 28) 4 l = h_reserved x.

(** struct segment_command_64 *)
Definition segment_at (e : endian) (o : nat) (l : list Z) (x : segment64) : Prop :=
  (o + 72 <= length l)%nat /\
  fld e o 4 l = sg_cmd x /\
  fld e (o + 4) 4 l = sg_cmdsize x /\
  fld_name (o + 8) 16 l = utf8 (sg_segname x) /\
  fld e (o + 24) 8 l = sg_vmaddr x /\
  fld e (o + 32) 8 l = sg_vmsize x /\
  fld e (o + 40) 8 l = sg_fileoff x /\
  fld e (o + 48) 8 l = sg_filesize x /\
  fld_i32 e (o + 56) l = sg_maxprot x /\
  fld_i32 e (o + 60) l = sg_initprot x /\
  fld e (o + 64) 4 l = sg_nsects x /\
  fld e (o + 68) 4 l = sg_flags x.

(** struct section_64 *)
Definition section_at (e : endian) (o : nat) (l : list Z) (x : section64) : Prop :=
  (o + 80 <= length l)%nat /\
  fld_name o 16 l = utf8 (sc_sectname x) /\
  fld_name (o + 16) 16 l = utf8 (sc_segname x) /\
  fld e (o + 32) 8 l = sc_addr x /\
  fld e (o + 40) 8 l = sc_size x /\
  fld e (o + 48) 4 l = sc_offset x /\
  fld e (o + 52) 4 l = sc_align x /\
  fld e (o + 56) 4 l = sc_reloff x /\
  fld e (o + 60) 4 l = sc_nreloc x /\
  fld e (o + 64) 4 l mod 256 = section_type_num (sc_type x) /\
  is_bitset attr_bit (sc_attrs x) (256 * (fld e (o + 64) 4 l / 256)) /\
  fld e (o + 68) 4 l = sc_reserved1 x /\
  fld e (o + 72) 4 l = sc_reserved2 x /\
  fld e (o + 76) 4 l = sc_reserved3 x.

(** struct symtab_command *)
Definition symtab_at (e : endian) (o : nat) (l : list Z) (x : symtab) : Prop :=
  (o + 24 <= length l)%nat /\
  fld e o 4 l = st_cmd x /\
  fld e (o + 4) 4 l = st_cmdsize x /\
  fld e (o + 8) 4 l = st_symoff x /\
  fld e (o + 12) 4 l = st_nsyms x /\
  fld e (o + 16) 4 l = st_stroff x /\
  fld e (o + 20) 4 l = st_strsize x.

(** struct dysymtab_command *)
Definition dysymtab_at (e : endian) (o : nat) (l : list Z) (x : dysymtab) : Prop :=
  (o + 80 <= length l)%nat /\
  fld e o 4 l = dy_cmd x /\
  fld e (o + 4) 4 l = dy_cmdsize x /\
  fld e (o + 8) 4 l = dy_ilocalsym x /\
  fld e (o + 12) 4 l = dy_nlocalsym x /\
  fld e (o + 16) 4 l = dy_iextdefsym x /\
  fld e (o + 20) 4 l = dy_nextdefsym x /\
  fld e (o + 24) 4 l = dy_iundefsym x /\
  fld e (o + 28) 4 l = dy_nundefsym x /\
  fld e (o + 32) 4 l = dy_tocoff x /\
  fld e (o + 36) 4 l = dy_ntoc x /\
  fld e (o + 40) 4 l = dy_modtaboff x /\
  fld e (o + 44) 4 l = dy_nmodtab x /\
  fld e (o + 48) 4 l = dy_extrefsymoff x /\
  fld e (o + 52) 4 l = dy_nextrefsyms x /\
  fld e (o + 56) 4 l = dy_indirectsymoff x /\
  fld e (o + 60) 4 l = dy_nindirectsyms x /\
  fld e (o + 64) 4 l = dy_extreloff x /\
  fld e (o + 68) 4 l = dy_nextrel x /\
  fld e (o + 72) 4 l = dy_locreloff x /\
  fld e (o + 76) 4 l = dy_nlocrel x.

(** struct build_version_command, struct build_tool_version *)
Definition build_version_at (e : endian) (o : nat) (l : list Z) (x : build_version) : Prop :=
  (o + 24 <= length l)%nat /\
  fld e o 4 l = bv_cmd x /\
  fld e (o + 4) 4 l = bv_cmdsize x /\
  fld e (o + 8) 4 l = platform_num (bv_platform x) /\
  fld e (o + 12) 4 l = version_num (bv_minos x) /\
  fld e (o + 16) 4 l = version_num (bv_sdk x) /\
  fld e (o + 20) 4 l = bv_ntools x.
Definition build_tool_at (e : endian) (o : nat) (l : list Z) (x : build_tool) : Prop :=
  (o + 8 <= length l)%nat /\
  fld e o 4 l = tool_num (bt_tool x) /\
  fld e (o + 4) 4 l = bt_version x.

(** n_type byte: N_STAB 0xe0, N_PEXT 0x10, N_TYPE 0x0e, N_EXT 0x01; stab entries N_GSYM = 0x20 *)
Definition n_type_byte (f : n_type_field) (b : Z) : Prop :=
  match f with
  | Norm pext t ext => b = 16 * bit01 pext + n_type_num t + bit01 ext
  | Stab Gsym => 32 <= b < 64
  end.
(** struct nlist_64 *)
Definition nlist_at (e : endian) (o : nat) (l : list Z) (x : nlist64) : Prop :=
  (o + 16 <= length l)%nat /\
  fld e o 4 l = nl_strx x /\
  n_type_byte (nl_type x) (fld e (o + 4) 1 l) /\
  fld e (o + 5) 1 l = nl_sect x /\
  fld e (o + 6) 2 l = nl_desc x /\
  fld e (o + 8) 8 l = nl_value x.

(** struct relocation_info: C bit fields r_symbolnum:24, r_pcrel:1, r_length:2, r_extern:1,
    r_type:4, allocated from the least significant bit on little-endian targets and from the
    most significant bit on big-endian ones *)
Definition reloc_word (e : endian) (x : reloc_info) : Z :=
  match e with
  | Little => r_symbolnum x + 2 ^ 24 * bit01 (r_pcrel x) + 2 ^ 25 * reloc_length_num (r_length x)
              + 2 ^ 27 * bit01 (r_extern x) + 2 ^ 28 * r_type x
  | Big => 2 ^ 8 * r_symbolnum x + 2 ^ 7 * bit01 (r_pcrel x) + 2 ^ 5 * reloc_length_num (r_length x)
           + 2 ^ 4 * bit01 (r_extern x) + r_type x
  end.
Definition reloc_at (e : endian) (o : nat) (l : list Z) (x : reloc_info) : Prop :=
  (o + 8 <= length l)%nat /\
  fld_i32 e o l = r_address x /\
  fld e (o + 4) 4 l = reloc_word e x.

(** ** Values of the API types: every field in the range of its integer type *)
Definition header_rng (x : header64) : Prop :=
  inu 32 (h_ncmds x) /\ inu 32 (h_size_of_cmds x) /\ inu 32 (h_reserved x).
Definition segment_rng (x : segment64) : Prop :=
  inu 32 (sg_cmd x) /\ inu 32 (sg_cmdsize x) /\ str_ok (sg_segname x) /\
  inu 64 (sg_vmaddr x) /\ inu 64 (sg_vmsize x) /\ inu 64 (sg_fileoff x) /\
  inu 64 (sg_filesize x) /\ ini 32 (sg_maxprot x) /\ ini 32 (sg_initprot x) /\
  inu 32 (sg_nsects x) /\ inu 32 (sg_flags x).
Definition section_rng (x : section64) : Prop :=
  str_ok (sc_sectname x) /\ str_ok (sc_segname x) /\ inu 64 (sc_addr x) /\ inu 64 (sc_size x) /\
  inu 32 (sc_offset x) /\ inu 32 (sc_align x) /\ inu 32 (sc_reloff x) /\ inu 32 (sc_nreloc x) /\
  inu 32 (sc_reserved1 x) /\ inu 32 (sc_reserved2 x) /\ inu 32 (sc_reserved3 x).
Definition symtab_rng (x : symtab) : Prop :=
  inu 32 (st_cmd x) /\ inu 32 (st_cmdsize x) /\ inu 32 (st_symoff x) /\ inu 32 (st_nsyms x) /\
  inu 32 (st_stroff x) /\ inu 32 (st_strsize x).
Definition dysymtab_rng (x : dysymtab) : Prop :=
  inu 32 (dy_cmd x) /\ inu 32 (dy_cmdsize x) /\ inu 32 (dy_ilocalsym x) /\
  inu 32 (dy_nlocalsym x) /\ inu 32 (dy_iextdefsym x) /\ inu 32 (dy_nextdefsym x) /\
  inu 32 (dy_iundefsym x) /\ inu 32 (dy_nundefsym x) /\ inu 32 (dy_tocoff x) /\
  inu 32 (dy_ntoc x) /\ inu 32 (dy_modtaboff x) /\ inu 32 (dy_nmodtab x) /\
  inu 32 (dy_extrefsymoff x) /\ inu 32 (dy_nextrefsyms x) /\ inu 32 (dy_indirectsymoff x) /\
  inu 32 (dy_nindirectsyms x) /\ inu 32 (dy_extreloff x) /\ inu 32 (dy_nextrel x) /\
  inu 32 (dy_locreloff x) /\ inu 32 (dy_nlocrel x).
Definition version_rng (v : version) : Prop :=
  inu 16 (v_major v) /\ inu 8 (v_minor v) /\ inu 8 (v_release v).
Definition build_version_rng (x : build_version) : Prop :=
  inu 32 (bv_cmd x) /\ inu 32 (bv_cmdsize x) /\ version_rng (bv_minos x) /\
  version_rng (bv_sdk x) /\ inu 32 (bv_ntools x).
Definition build_tool_rng (x : build_tool) : Prop := inu 32 (bt_version x).
Definition nlist_rng (x : nlist64) : Prop :=
  inu 32 (nl_strx x) /\ inu 8 (nl_sect x) /\ inu 16 (nl_desc x) /\ inu 64 (nl_value x).
(** RelocationInfo's fields are i32, u32 and u8 *)
Definition reloc_rng (x : reloc_info) : Prop :=
  ini 32 (r_address x) /\ inu 32 (r_symbolnum x) /\ inu 8 (r_type x).
(** ... and those that fit the bit fields *)
Definition reloc_fits (x : reloc_info) : Prop := inu 24 (r_symbolnum x) /\ inu 4 (r_type x).

(** a name that fits a 16-byte field: NUL-free ASCII of at most 16 characters *)
Definition name16 (s : str) : Prop := Forall (fun c => 1 <= c < 128) s /\ (length s <= 16)%nat.

(** a size of the form base + unit*n computed in u32: in a debug build it must fit *)
Definition cmdsize_ok (p : profile) (base unit n size : Z) : Prop :=
  match p with
  | Debug => size = base + unit * n
  | Release => size = (base + unit * n) mod 2 ^ 32
  end.

(** ** Attribute and flag lists in bit order, once each *)
Definition attr_order : list section_attr :=
  [LocReloc; ExtReloc; SomeInstructions; AttrDebug; LiveSupport; StripStaticSyms; NoToc;
   PureInstructions].
Definition flag_order : list flag :=
  [NoUndefs; IncrLink; DyldLink; BindAtLoad; PreBound; SplitSegs; TwoLevel; ForceFlat;
   NoMultiDefs; NoFixPreBinding; PreBindable; AllModsBound; SubsectionsViaSymbols; Canonical;
   Pie; HasTlvDescriptors].
Definition mem_bit {A} (bit : A -> Z) (a : A) (l : list A) : bool :=
  existsb (fun b => bit b =? bit a) l.
Definition sort_attrs (l : list section_attr) : list section_attr :=
  filter (fun a => mem_bit attr_bit a l) attr_order.
Definition sort_flags (l : list flag) : list flag :=
  filter (fun f => mem_bit flag_bit f l) flag_order.
(** the section with its attribute list in bit order *)
Definition section_canon (x : section64) : section64 :=
  {| sc_sectname := sc_sectname x; sc_segname := sc_segname x; sc_addr := sc_addr x;
     sc_size := sc_size x; sc_offset := sc_offset x; sc_align := sc_align x;
     sc_reloff := sc_reloff x; sc_nreloc := sc_nreloc x; sc_attrs := sort_attrs (sc_attrs x);
     sc_type := sc_type x; sc_reserved1 := sc_reserved1 x; sc_reserved2 := sc_reserved2 x;
     sc_reserved3 := sc_reserved3 x |}.

(** byte order denoted by a magic number read on a host [h] *)
Definition magic_endian (h : endian) (m : magic) (e : endian) : Prop :=
  match m with
  | Magic64 | Magic32 => e = h
  | Cigam64 | Cigam32 => e = swap h
  | FatMagic | FatCigam => False
  end.
(** the same magic seen from a host of the other byte order *)
Definition magic_swap (m : magic) : magic :=
  match m with
  | Magic64 => Cigam64 | Cigam64 => Magic64 | Magic32 => Cigam32 | Cigam32 => Magic32
  | FatMagic => FatCigam | FatCigam => FatMagic
  end.

(** ** Load commands *)

(** consecutive records of [size] bytes each from offset [o] *)
Fixpoint list_at {A} (rec_at : nat -> A -> Prop) (size : nat) (o : nat) (xs : list A) : Prop :=
  match xs with
  | [] => True
  | x :: xs' => rec_at o x /\ list_at rec_at size (o + size) xs'
  end.
Definition lc_at (e : endian) (o : nat) (l : list Z) (c : load_command) : Prop :=
  match c with
  | LcSegment64 s ss =>
      segment_at e o l s /\ list_at (fun o' x => section_at e o' l x) 80 (o + 72) ss
  | LcSymtab s => symtab_at e o l s
  | LcDysymtab s => dysymtab_at e o l s
  | LcBuildVersion b ts =>
      build_version_at e o l b /\ list_at (fun o' x => build_tool_at e o' l x) 8 (o + 24) ts
  end.
(** number of bytes of a load command *)
Definition lc_len (c : load_command) : nat :=
  match c with
  | LcSegment64 _ ss => 72 + 80 * length ss
  | LcSymtab _ => 24
  | LcDysymtab _ => 80
  | LcBuildVersion _ ts => 24 + 8 * length ts
  end.
(** a well-formed command: right command number, size and counts, fields in range, names fit *)
Definition lc_wf (c : load_command) : Prop :=
  match c with
  | LcSegment64 s ss =>
      segment_rng s /\ name16 (sg_segname s) /\ sg_cmd s = 0x19 /\ sg_nsects s = zlen ss /\
      sg_cmdsize s = 72 + 80 * zlen ss /\
      Forall (fun x => section_rng x /\ name16 (sc_sectname x) /\ name16 (sc_segname x)) ss
  | LcSymtab s => symtab_rng s /\ st_cmd s = 0x2 /\ st_cmdsize s = 24
  | LcDysymtab s => dysymtab_rng s /\ dy_cmd s = 0xB /\ dy_cmdsize s = 80
  | LcBuildVersion b ts =>
      build_version_rng b /\ bv_cmd b = 0x32 /\ bv_ntools b = zlen ts /\
      bv_cmdsize b = 24 + 8 * zlen ts /\ Forall build_tool_rng ts
  end.
Definition lc_canon (c : load_command) : load_command :=
  match c with
  | LcSegment64 s ss => LcSegment64 s (map section_canon ss)
  | _ => c
  end.

(** ** String tables: successive pushes, bytes they take, NUL-free ASCII strings *)
Fixpoint push_all (t : stab) (ss : list str) : res stab :=
  match ss with
  | [] => Ok t
  | s :: ss' => t' <- stab_push t s ;; push_all t' ss'
  end.
Definition strs_size (ss : list str) : nat := fold_right (fun s n => length s + 1 + n)%nat 0%nat ss.
Definition clean (s : str) : Prop := Forall (fun c => 1 <= c < 128) s.
Definition ascii_str (s : str) : Prop := Forall (fun c => 0 <= c < 128) s.
