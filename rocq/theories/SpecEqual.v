(** When records must be written as the same bytes. *)
From Coq Require Import Sorting.Sorted.
From Verif Require Import Base Str X64 Mac SpecMacho Obj SpecObj Asm Derive SpecDerive Equal.

(** what `write_into` of a record type writes; None for types without it *)
Definition write_value (h : endian) (v : value) : option wr :=
  match v with
  | VHeader64 x => Some (write_header64 h x)
  | VSegment64 x => Some (write_segment64 h x)
  | VSection64 x => Some (write_section64 h x)
  | VSymtab x => Some (write_symtab h x)
  | VDysymtab x => Some (write_dysymtab h x)
  | VBuildVersion x => Some (write_build_version h x)
  | VBuildTool x => Some (write_build_tool h x)
  | VLoadCommand x => Some (write_load_command h x)
  | VNList64 x => Some (write_nlist64 h x)
  | VRelocInfo x => Some (write_reloc_info h x)
  | _ => None
  end.

(** ** equal but for what the format cannot hold *)
(** names of 16 bytes are filled up with NULs *)
Definition alike_name (s t : str) : Prop := exists i j, s ++ repeat 0 i = t ++ repeat 0 j.
(** flags and attributes are bits: no order, no repetition *)
Definition alike_set {A} (l m : list A) : Prop := forall a, In a l <-> In a m.
Definition alike_header (x y : header64) : Prop :=
  h_magic x = h_magic y /\ h_cpu x = h_cpu y /\ h_file_type x = h_file_type y /\ h_ncmds x = h_ncmds y /\
  h_size_of_cmds x = h_size_of_cmds y /\ alike_set (h_flags x) (h_flags y) /\ h_reserved x = h_reserved y.
Definition alike_segment (x y : segment64) : Prop :=
  alike_name (sg_segname x) (sg_segname y) /\
  sg_cmd x = sg_cmd y /\ sg_cmdsize x = sg_cmdsize y /\ sg_vmaddr x = sg_vmaddr y /\ sg_vmsize x = sg_vmsize y /\
  sg_fileoff x = sg_fileoff y /\ sg_filesize x = sg_filesize y /\ sg_maxprot x = sg_maxprot y /\
  sg_initprot x = sg_initprot y /\ sg_nsects x = sg_nsects y /\ sg_flags x = sg_flags y.
Definition alike_section (x y : section64) : Prop :=
  alike_name (sc_sectname x) (sc_sectname y) /\ alike_name (sc_segname x) (sc_segname y) /\
  alike_set (sc_attrs x) (sc_attrs y) /\ sc_type x = sc_type y /\
  sc_addr x = sc_addr y /\ sc_size x = sc_size y /\ sc_offset x = sc_offset y /\ sc_align x = sc_align y /\
  sc_reloff x = sc_reloff y /\ sc_nreloc x = sc_nreloc y /\
  sc_reserved1 x = sc_reserved1 y /\ sc_reserved2 x = sc_reserved2 y /\ sc_reserved3 x = sc_reserved3 y.
Definition alike (v w : value) : Prop :=
  match v, w with
  | VHeader64 x, VHeader64 y => alike_header x y
  | VSegment64 x, VSegment64 y => alike_segment x y
  | VSection64 x, VSection64 y => alike_section x y
  | VLoadCommand (LcSegment64 x l), VLoadCommand (LcSegment64 y m) => alike_segment x y /\ Forall2 alike_section l m
  | _, _ => v = w
  end.

(** values that fit their fields: r_symbolnum and r_type are bit fields, and a load command's number
    is that of its type *)
Definition fits_fields (v : value) : Prop :=
  match v with
  | VRelocInfo x => reloc_fits x
  | VLoadCommand (LcSegment64 c _) => sg_cmd c = 0x19
  | VLoadCommand (LcSymtab c) => st_cmd c = 0x2
  | VLoadCommand (LcDysymtab c) => dy_cmd c = 0xB
  | VLoadCommand (LcBuildVersion c _) => bv_cmd c = 0x32
  | _ => True
  end.

(** values with names that do not end in NUL, and with flags and attributes in the order of their
    bits; the readers return no others *)
Definition plain_name (s : str) : Prop := forall t, s <> t ++ [0].
Definition plain_section (x : section64) : Prop :=
  plain_name (sc_sectname x) /\ plain_name (sc_segname x) /\ StronglySorted Z.lt (map attr_bit (sc_attrs x)).
Definition plain (v : value) : Prop :=
  match v with
  | VHeader64 x => StronglySorted Z.lt (map flag_bit (h_flags x))
  | VSegment64 x => plain_name (sg_segname x)
  | VSection64 x => plain_section x
  | VLoadCommand (LcSegment64 x l) => plain_name (sg_segname x) /\ Forall plain_section l
  | _ => True
  end.

(** ** BytesAtMost: the room past the end is zero *)
Definition rest_zero (max : nat) (b : bam) : Prop :=
  exists l, (length l <= max)%nat /\ bam_bytes b = l ++ repeat 0 (max - length l) /\ bam_len b = length l.
(** how code outside bytes.rs can come by a `BytesAtMost`: the constructors, then writes through `as_mut` *)
Inductive made (max : nat) : bam -> Prop :=
| made_with_len n b : bam_with_len max n = Ok b -> made max b
| made_array a b : bam_from_array max a = Ok b -> made max b
| made_u8 n b : bam_from_u8 max n = Ok b -> made max b
| made_u16 n b : bam_from_u16 max n = Ok b -> made max b
| made_u32 n b : bam_from_u32 max n = Ok b -> made max b
| made_u64 n b : bam_from_u64 max n = Ok b -> made max b
| made_put b bs : made max b -> (length bs <= bam_len b)%nat -> made max (bam_put b bs)
| made_set b k v c : made max b -> bam_set b k v = Ok c -> made max c.

(** the readers, one per record *)
Definition read_value (p : profile) (h : endian) (v : value) (bs rest : list Z) : Prop :=
  match v with
  | VHeader64 x => exists e, read_header64 h bs = Ok ((x, e), rest)
  | VSegment64 x => read_segment64 p h bs = Ok (x, rest)
  | VSection64 x => read_section64 h bs = Ok (x, rest)
  | VSymtab x => read_symtab h bs = Ok (x, rest)
  | VDysymtab x => read_dysymtab h bs = Ok (x, rest)
  | VBuildVersion x => read_build_version p h bs = Ok (x, rest)
  | VBuildTool x => read_build_tool h bs = Ok (x, rest)
  | VLoadCommand x => read_load_command p h bs = Ok (x, rest)
  | VNList64 x => read_nlist64 h bs = Ok (x, rest)
  | VRelocInfo x => read_reloc_info h bs = Ok (x, rest)
  | _ => False
  end.
