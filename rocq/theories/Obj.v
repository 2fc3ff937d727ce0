(** Model of at-obj: the object model (object.rs), alignment arithmetic (num.rs) and the
    Mach-O writer (macho.rs).  [p] is the build profile (overflow checks), [h] the
    endianness of the host. *)
From Coq Require String.
Import String.StringSyntax.
From Verif Require Import Base Str Mac.

(** ** object.rs *)

(** object.rs:178-186 `Reloc` *)
Record reloc := {
  rl_addr : Z;       (* i32 *)
  rl_symbol : str;
  rl_pcrel : bool;
  rl_len : Z         (* u8 *)
}.

(** object.rs:188-193 `Symbol` *)
Inductive symbol :=
| SyUndef (name : str)
| SyAbs (name : str) (val : Z) (ext : bool)
| SyRef (name : str) (addr : Z) (ext : bool).

(** object.rs:196-202 `Symbol::name` *)
Definition sym_name (s : symbol) : str :=
  match s with SyUndef n => n | SyAbs n _ _ => n | SyRef n _ _ => n end.

(** object.rs:132-136 `TextSection` and object.rs:148-152 `DataSection` (same fields) *)
Record bsection := {
  bs_bytes : list Z;
  bs_symbols : list symbol;
  bs_relocs : list reloc
}.
(** object.rs:164-167 `BssSection` *)
Record bss_section := {
  bss_size : Z;      (* u64 *)
  bss_symbols : list symbol
}.
(** object.rs:1-3, 39-43 `Object`, `Sections` *)
Record object := {
  o_text : bsection;
  o_data : bsection;
  o_bss : bss_section
}.

(** object.rs:139-145, 155-161, 170-175, 6-14 `new` *)
Definition bsection_new : bsection := {| bs_bytes := []; bs_symbols := []; bs_relocs := [] |}.
Definition bss_new : bss_section := {| bss_size := 0; bss_symbols := [] |}.
Definition object_new : object :=
  {| o_text := bsection_new; o_data := bsection_new; o_bss := bss_new |}.

(** object.rs:20-27 `symbols` *)
Definition obj_symbols (o : object) : list symbol :=
  bs_symbols (o_text o) ++ bs_symbols (o_data o) ++ bss_symbols (o_bss o).

(** object.rs:29-36 `symbols_mut`, with the update [f] applied through each `&mut` *)
Definition obj_symbols_update (f : symbol -> symbol) (o : object) : object :=
  {| o_text := {| bs_bytes := bs_bytes (o_text o); bs_symbols := map f (bs_symbols (o_text o));
                  bs_relocs := bs_relocs (o_text o) |};
     o_data := {| bs_bytes := bs_bytes (o_data o); bs_symbols := map f (bs_symbols (o_data o));
                  bs_relocs := bs_relocs (o_data o) |};
     o_bss := {| bss_size := bss_size (o_bss o); bss_symbols := map f (bss_symbols (o_bss o)) |} |}.

(** object.rs:61-65 `SectionRef` *)
Inductive section_ref :=
| RText (t : bsection)
| RData (d : bsection)
| RBss (b : bss_section).

(** object.rs:68-76 `vm_size` (usize is 64 bits) *)
Definition sr_vm_size (s : section_ref) : Z :=
  match s with
  | RText t => zlen (bs_bytes t)
  | RData d => zlen (bs_bytes d)
  | RBss b => bss_size b
  end.
(** object.rs:78-80 `is_empty` *)
Definition sr_is_empty (s : section_ref) : bool := sr_vm_size s =? 0.
(** object.rs:82-92 `file_data` *)
Definition sr_file_data (s : section_ref) : list Z :=
  match s with RText t => bs_bytes t | RData d => bs_bytes d | RBss _ => [] end.
(** object.rs:94-96 `file_size` *)
Definition sr_file_size (s : section_ref) : Z := wrapu 32 (zlen (sr_file_data s)).
(** object.rs:98-106 `symbols` *)
Definition sr_symbols (s : section_ref) : list symbol :=
  match s with RText t => bs_symbols t | RData d => bs_symbols d | RBss b => bss_symbols b end.
(** object.rs:108-118 `relocs` *)
Definition sr_relocs (s : section_ref) : list reloc :=
  match s with RText t => bs_relocs t | RData d => bs_relocs d | RBss _ => [] end.

(** object.rs:47-54 `Sections::iter` *)
Definition sections_iter (o : object) : list section_ref :=
  filter (fun s => negb (sr_is_empty s)) [RText (o_text o); RData (o_data o); RBss (o_bss o)].
(** object.rs:56-58 `Sections::len` *)
Definition sections_len (o : object) : Z := wrapu 32 (zlen (sections_iter o)).

(** ** num.rs, at an unsigned type of [n] bits *)

Definition addu (p : profile) (n a b : Z) : res Z := chku p n (a + b).
Definition mulu (p : profile) (n a b : Z) : res Z := chku p n (a * b).
Definition subu (p : profile) (n a b : Z) : res Z := chku p n (a - b).

(** num.rs:14-16 `aligned`; division by zero panics in every profile *)
Definition aligned (p : profile) (n self align : Z) : res Z :=
  if align =? 0 then Panic
  else q <- addu p n (self / align) (b2z (0 <? self mod align)) ;; mulu p n q align.
(** num.rs:18-20 `padding` *)
Definition padding (p : profile) (n self align : Z) : res Z :=
  a <- aligned p n self align ;; subu p n a self.

(** ** macho.rs *)

(** The `SIZE` and `TYPE` constants are those of at-mac (Mac.v). *)

(** macho.rs:105-109,127-131,232-236 `sections.iter().map(|s| s.file_size()).sum::<u32>()` *)
Definition file_sizes_sum (p : profile) (o : object) : res Z :=
  sumu p 32 (map sr_file_size (sections_iter o)).

(** macho.rs:79-91 *)
Definition gen_header64 (p : profile) (o : object) : res header64 :=
  m <- mulu p 32 (sections_len o) SECTION_SIZE ;;
  a <- addu p 32 SEGMENT_SIZE m ;;
  s <- addu p 32 a SYMTAB_SIZE ;;
  Ok {| h_magic := Magic64;
        h_cpu := CpuX86_64 X86_64All;
        h_file_type := FtObject;
        h_ncmds := 2;
        h_size_of_cmds := s;
        h_flags := [];
        h_reserved := 0 |}.

(** `Header64::SIZE + SegmentCommand64::SIZE + sections.len() * Section64::SIZE
    + SymtabCommand::SIZE` (macho.rs:101-104, 122-125, 228-231) *)
Definition data_start_of (p : profile) (o : object) : res Z :=
  a <- addu p 32 HEADER_SIZE SEGMENT_SIZE ;;
  m <- mulu p 32 (sections_len o) SECTION_SIZE ;;
  b <- addu p 32 a m ;;
  addu p 32 b SYMTAB_SIZE.

(** macho.rs:93-118 *)
Definition gen_segment_command64 (p : profile) (o : object) : res segment64 :=
  m <- mulu p 32 (sections_len o) SECTION_SIZE ;;
  cmdsize <- addu p 32 SEGMENT_SIZE m ;;
  vmsize <- sumu p 64 (map sr_vm_size (sections_iter o)) ;;
  fileoff <- data_start_of p o ;;
  fs <- file_sizes_sum p o ;;
  filesize <- aligned p 32 fs 8 ;;
  Ok {| sg_cmd := SEGMENT_TYPE;
        sg_cmdsize := cmdsize;
        sg_segname := [];
        sg_vmaddr := 0;
        sg_vmsize := vmsize;
        sg_fileoff := fileoff;
        sg_filesize := filesize;
        sg_maxprot := 7;
        sg_initprot := 7;
        sg_nsects := sections_len o;
        sg_flags := 0 |}.

(** macho.rs:162-185 *)
Definition gen_section64_from_text (t : bsection) (addr offset reloff : Z) : section64 :=
  {| sc_sectname := lit "__text";
     sc_segname := lit "__TEXT";
     sc_addr := addr;
     sc_size := zlen (bs_bytes t);
     sc_offset := offset;
     sc_align := 0;
     sc_reloff := reloff;
     sc_nreloc := wrapu 32 (zlen (bs_relocs t));
     sc_attrs := [SomeInstructions; PureInstructions] ++
                 (if nonempty (bs_relocs t) then [LocReloc; ExtReloc] else []);
     sc_type := StRegular;
     sc_reserved1 := 0; sc_reserved2 := 0; sc_reserved3 := 0 |}.

(** macho.rs:187-208 *)
Definition gen_section64_from_data (d : bsection) (addr offset reloff : Z) : section64 :=
  {| sc_sectname := lit "__data";
     sc_segname := lit "__DATA";
     sc_addr := addr;
     sc_size := zlen (bs_bytes d);
     sc_offset := offset;
     sc_align := 0;
     sc_reloff := reloff;
     sc_nreloc := wrapu 32 (zlen (bs_relocs d));
     sc_attrs := if nonempty (bs_relocs d) then [LocReloc; ExtReloc] else [];
     sc_type := StRegular;
     sc_reserved1 := 0; sc_reserved2 := 0; sc_reserved3 := 0 |}.

(** macho.rs:210-225 *)
Definition gen_section64_from_bss (b : bss_section) (addr : Z) : section64 :=
  {| sc_sectname := lit "__bss";
     sc_segname := lit "__DATA";
     sc_addr := addr;
     sc_size := bss_size b;
     sc_offset := 0;
     sc_align := 0;
     sc_reloff := 0;
     sc_nreloc := 0;
     sc_attrs := [];
     sc_type := StZerofill;
     sc_reserved1 := 0; sc_reserved2 := 0; sc_reserved3 := 0 |}.

(** macho.rs:152-160 *)
Definition gen_section64 (s : section_ref) (addr offset reloff : Z) : section64 :=
  match s with
  | RText t => gen_section64_from_text t addr offset reloff
  | RData d => gen_section64_from_data d addr offset reloff
  | RBss b => gen_section64_from_bss b addr
  end.

(** macho.rs:134-149: the closure with its three running counters *)
Fixpoint gen_sections_loop (p : profile) (ss : list section_ref)
    (vmaddr data_start reloc_start : Z) : res (list section64) :=
  match ss with
  | [] => Ok []
  | s :: ss' =>
      vmaddr' <- addu p 64 vmaddr (sr_vm_size s) ;;
      data_start' <- addu p 32 data_start (sr_file_size s) ;;
      m <- mulu p 32 RELOC_SIZE (wrapu 32 (zlen (sr_relocs s))) ;;
      reloc_start' <- addu p 32 reloc_start m ;;
      rest <- gen_sections_loop p ss' vmaddr' data_start' reloc_start' ;;
      Ok (gen_section64 s vmaddr data_start reloc_start :: rest)
  end.
(** macho.rs:120-150 *)
Definition gen_section64s (p : profile) (o : object) : res (list section64) :=
  data_start <- data_start_of p o ;;
  fs <- file_sizes_sum p o ;;
  al <- aligned p 32 fs 8 ;;
  reloc_start <- addu p 32 data_start al ;;
  gen_sections_loop p (sections_iter o) 0 data_start reloc_start.

(** macho.rs:253-258: one section's contribution to strsize *)
Definition names_size (p : profile) (ss : list symbol) : res Z :=
  ls <- mapM (fun s => addu p 32 (wrapu 32 (str_len (sym_name s))) 1) ss ;;
  sumu p 32 ls.
(** macho.rs:227-270 (the lengths are mapped and summed element by element in the code;
    mapping first changes only which of two overflow panics comes first) *)
Definition gen_symtab_command (p : profile) (o : object) : res symtab :=
  ds <- data_start_of p o ;;
  fs <- file_sizes_sum p o ;;
  al <- aligned p 32 fs 8 ;;
  a <- addu p 32 ds al ;;
  nr <- sumu p 32 (map (fun s => wrapu 32 (zlen (sr_relocs s))) (sections_iter o)) ;;
  m <- mulu p 32 nr RELOC_SIZE ;;
  symoff <- addu p 32 a m ;;
  nsyms <- sumu p 32 (map (fun s => wrapu 32 (zlen (sr_symbols s))) (sections_iter o)) ;;
  m' <- mulu p 32 nsyms NLIST_SIZE ;;
  stroff <- addu p 32 symoff m' ;;
  sizes <- mapM (fun s => names_size p (sr_symbols s)) (sections_iter o) ;;
  sz <- sumu p 32 sizes ;;
  strsize <- addu p 32 sz 1 ;;
  Ok {| st_cmd := SYMTAB_TYPE;
        st_cmdsize := SYMTAB_SIZE;
        st_symoff := symoff;
        st_nsyms := nsyms;
        st_stroff := stroff;
        st_strsize := strsize |}.

(** macho.rs:272-281 *)
Fixpoint write_data_loop (p : profile) (ss : list section_ref) (file_size : Z) (k : Z -> wr) : wr :=
  match ss with
  | [] => k file_size
  | s :: ss' =>
      wemit (sr_file_data s) >>>
      wbind (addu p 32 file_size (sr_file_size s)) (fun fs => write_data_loop p ss' fs k)
  end.
Definition write_section_data_into (p : profile) (o : object) : wr :=
  write_data_loop p (sections_iter o) 0 (fun file_size =>
    wbind (padding p 32 file_size 8) (fun n =>
      if n <=? 7 then wemit (repeat 0 (Z.to_nat n)) else wpanic)).

(** macho.rs:283-291 *)
Fixpoint stab_push_all (t : stab) (names : list str) : res stab :=
  match names with
  | [] => Ok t
  | s :: names' => t' <- stab_push t s ;; stab_push_all t' names'
  end.
Definition gen_string_table (o : object) : res stab :=
  stab_push_all stab_with_null (flat_map (fun s => map sym_name (sr_symbols s)) (sections_iter o)).

(** macho.rs:294-305 `get_strx`; [pieces] are the remaining items of `stab.iter()`, produced
    lazily *)
Fixpoint get_strx_loop (p : profile) (pieces : list (list Z)) (name : str) (idx : Z) : res Z :=
  match pieces with
  | [] => Ok idx
  | b :: pieces' =>
      s <- unwrap (from_utf8 b) ;;
      idx' <- addu p 32 idx 1 ;;
      if str_eqb s name then Ok idx'
      else
        idx'' <- addu p 32 idx' (wrapu 32 (str_len s)) ;;
        get_strx_loop p pieces' name idx''
  end.
Definition get_strx (p : profile) (t : stab) (name : str) : res Z :=
  get_strx_loop p (skipn 1 (split is_nul t)) name 0.

(** macho.rs:311-347: the entry of one symbol of the section with 0-based index [i] *)
Definition gen_nlist64 (p : profile) (sections : list section64) (t : stab) (i : nat) (sym : symbol)
    : res nlist64 :=
  let idx := Z.of_nat i + 1 in
  match sym with
  | SyUndef name =>
      strx <- get_strx p t name ;;
      Ok {| nl_strx := strx; nl_type := Norm false Undf true; nl_sect := 0; nl_desc := 0;
            nl_value := 0 |}
  | SyAbs name val ext =>
      strx <- get_strx p t name ;;
      Ok {| nl_strx := strx; nl_type := Norm false Abs ext; nl_sect := wrapu 8 idx; nl_desc := 0;
            nl_value := val |}
  | SyRef name addr ext =>
      strx <- get_strx p t name ;;
      sect <- unwrap (nth_error sections i) ;;
      v <- addu p 64 (sc_addr sect) addr ;;
      Ok {| nl_strx := strx; nl_type := Norm false Sect ext; nl_sect := wrapu 8 idx; nl_desc := 0;
            nl_value := v |}
  end.
(** macho.rs:309-350 *)
Fixpoint gen_nlists_loop (p : profile) (sections : list section64) (t : stab) (i : nat)
    (ss : list section_ref) : res (list nlist64) :=
  match ss with
  | [] => Ok []
  | s :: ss' =>
      a <- mapM (gen_nlist64 p sections t i) (sr_symbols s) ;;
      b <- gen_nlists_loop p sections t (S i) ss' ;;
      Ok (a ++ b)
  end.
Definition gen_nlist64s (p : profile) (o : object) (sections : list section64) (t : stab)
    : res (list nlist64) :=
  gen_nlists_loop p sections t 0 (sections_iter o).

(** macho.rs:358-365 `get_sym_idx` *)
Fixpoint get_sym_idx_loop (symbols : list nlist64) (t : stab) (name : str) (idx : Z) : res Z :=
  match symbols with
  | [] => Panic
  | sym :: symbols' =>
      s <- stab_get t (Z.to_nat (nl_strx sym)) ;;
      if str_eqb s name then Ok (wrapu 32 idx)
      else get_sym_idx_loop symbols' t name (idx + 1)
  end.
Definition get_sym_idx (symbols : list nlist64) (t : stab) (name : str) : res Z :=
  get_sym_idx_loop symbols t name 0.

(** macho.rs:371-380 *)
Definition gen_relocation_info (symbols : list nlist64) (t : stab) (r : reloc) : res reloc_info :=
  num <- get_sym_idx symbols t (rl_symbol r) ;;
  len <- reloc_length_from_u32 (rl_len r) ;;
  Ok {| r_address := rl_addr r;
        r_symbolnum := num;
        r_pcrel := rl_pcrel r;
        r_length := len;
        r_extern := true;
        r_type := x86_64_reloc_to_u8 RtUnsigned |}.
(** macho.rs:353-386 *)
Definition gen_relocation_infos (o : object) (symbols : list nlist64) (t : stab)
    : res (list reloc_info) :=
  mapM (gen_relocation_info symbols t) (flat_map sr_relocs (sections_iter o)).

(** macho.rs:42-75 `write_into` *)
Definition macho_write_into (p : profile) (h : endian) (o : object) : wr :=
  wbind (gen_header64 p o) (write_header64 h) >>>
  wbind (gen_segment_command64 p o) (write_segment64 h) >>>
  wbind (gen_section64s p o) (fun sections =>
    wlist (map (write_section64 h) sections) >>>
    wbind (gen_symtab_command p o) (write_symtab h) >>>
    write_section_data_into p o >>>
    wbind (gen_string_table o) (fun t =>
    wbind (gen_nlist64s p o sections t) (fun symbols =>
      wbind (gen_relocation_infos o symbols t) (fun relocs =>
        wlist (map (write_reloc_info h) relocs)) >>>
      wlist (map (write_nlist64 h) symbols) >>>
      wemit t))).
