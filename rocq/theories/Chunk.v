(** Reading from a source that delivers its bytes in pieces: std's `read_exact` and
    `BufReader::read_line` on any sequence of answers of the operating system, and the readers of
    at-mac and at-asm on such sources.  Paths are relative to /repo. *)
From Verif Require Import Base Str X64 Mac Obj Asm Assembler Cli Sink.

(** An answer to a call of `read`: bytes (none: end of file), `ErrorKind::Interrupted`, or another
    error.  After the answers of the list every call meets the end of file. *)
Inductive answer := Got (bs : list Z) | Interrupted | Failed.

(** ** std *)

(** std::io::Read::read_exact, then `unwrap` (at-mac/src/io.rs:31-59): calls `read` for what is missing until nothing is.
    An answer longer than what was asked for is the beginning of what lies ready. *)
Definition creader (A : Type) := list answer -> res (A * list answer).
Fixpoint c_exact_from (src : list answer) (n : nat) {struct src} : res (list Z * list answer) :=
  match n with
  | O => Ok ([], src)
  | S _ =>
      match src with
      | [] => Panic
      | Interrupted :: s => c_exact_from s n
      | Failed :: _ => Panic
      | Got bs :: s =>
          match bs with
          | [] => Panic
          | _ =>
              if Nat.ltb n (length bs) then Ok (firstn n bs, Got (skipn n bs) :: s)
              else match c_exact_from s (n - length bs) with
                   | Ok (x, s') => Ok (bs ++ x, s')
                   | Panic => Panic
                   end
          end
      end
  end.
Definition c_exact (n : nat) : creader (list Z) := fun src => c_exact_from src n.
Definition cret {A} (a : A) : creader A := fun src => Ok (a, src).
Definition cbind {A B} (m : creader A) (k : A -> creader B) : creader B :=
  fun src => match m src with Ok (a, s) => k a s | Panic => Panic end.
Definition clift {A} (m : res A) : creader A :=
  fun src => match m with Ok a => Ok (a, src) | Panic => Panic end.
Notation "x <+ m ; k" := (cbind m (fun x => k)) (at level 61, m at next level, right associativity).
Fixpoint c_many {A} (n : nat) (m : creader A) : creader (list A) :=
  match n with
  | O => cret []
  | S n' => a <+ m ; l <+ c_many n' m ; cret (a :: l)
  end.

(** memchr for the line feed: what is up to it, and the rest *)
Fixpoint cut (buf : list Z) : option (list Z * list Z) :=
  match buf with
  | [] => None
  | b :: t =>
      if b =? 10 then Some ([b], t)
      else match cut t with Some (x, y) => Some (b :: x, y) | None => None end
  end.
(** std::io::BufRead::read_until, in `read_line` at at-asm/src/reader.rs:19, on a BufReader whose buffer holds [buf]; [acc] is what was read of
    the line.  Result (None: error), the buffer and the source.  `fill_buf` calls `read` when the
    buffer is empty; the size of the buffer bounds the answers, which is not needed here. *)
Fixpoint read_until (acc buf : list Z) (src : list answer) : option (list Z) * (list Z * list answer) :=
  match cut buf with
  | Some (x, rest) => (Some (acc ++ x), (rest, src))
  | None =>
      match src with
      | [] => (Some (acc ++ buf), ([], []))
      | Interrupted :: s => read_until (acc ++ buf) [] s
      | Failed :: s => (None, ([], s))
      | Got [] :: s => (Some (acc ++ buf), ([], s))
      | Got bs :: s => read_until (acc ++ buf) bs s
      end
  end.

(** ** at-asm *)

(** at-asm/src/reader.rs:16-24 `next_line`, without the UTF-8 check, which is in [exec_raw] *)
Definition next_line (st : list Z * list answer) : outcome (option (list Z)) * (list Z * list answer) :=
  match read_until [] (fst st) (snd st) with
  | (None, st') => (Crash, st')
  | (Some [], st') => (Done None, st')
  | (Some l, st') => (Done (Some l), st')
  end.
(** at-asm/src/assembler.rs:41-94, the loop; [fuel] bounds the number of lines (C95_fuel) *)
Fixpoint read_loop (fuel : nat) (p : profile) (a : asm) (st : list Z * list answer) : outcome asm :=
  match fuel with
  | O => Crash
  | S f =>
      match next_line st with
      | (Done None, _) => Done a
      | (Done (Some raw), st') => obind (exec_raw p a raw) (fun a => read_loop f p a st')
      | (Exit c e, _) => Exit c e
      | (Crash, _) => Crash
      end
  end.
(** more than the number of bytes, hence of lines *)
Definition weight (src : list answer) : nat :=
  fold_right (fun x n => S (match x with Got bs => length bs | _ => O end + n)) 1%nat src.
(** at-asm/src/assembler.rs:38-108 `read_from` *)
Definition read_chunks (p : profile) (a : asm) (src : list answer) : outcome asm :=
  obind (read_loop (weight src) p a ([], src)) (fun a => Done (mark_ext a)).

(** ** at-mac: as in Mac.v, on such sources *)

(** at-mac/src/io.rs:31-50 *)
Definition c_uint (n : nat) (e : endian) : creader Z := bs <+ c_exact n ; cret (val_of e bs).
Definition c_u8 : creader Z := c_uint 1 Little.
Definition c_u16 (e : endian) : creader Z := c_uint 2 e.
Definition c_u32 (e : endian) : creader Z := c_uint 4 e.
Definition c_u64 (e : endian) : creader Z := c_uint 8 e.
Definition c_i32 (e : endian) : creader Z := n <+ c_u32 e ; cret (wrapi 32 n).
(** at-mac/src/io.rs:52-59 *)
Definition c_fixed_size_string (size : nat) : creader str :=
  buf <+ c_exact size ;
  clift (unwrap (from_utf8 (hd [] (split (fun b => b =? 0) buf)))).

(** at-mac/src/header.rs:24-60 `Header64::read_from` on a host of endianness [h]; `Endian::NATIVE` is
    [h], `Endian::REVERSE` is [swap h] (io.rs:10-20) *)
Definition c_header64 (h : endian) : creader (header64 * endian) :=
  magic_n <+ c_u32 h ;
  m <+ clift (magic_from_u32 magic_n) ;
  e <+ clift (match m with
              | Magic64 | Magic32 => Ok h
              | Cigam64 | Cigam32 => Ok (swap h)
              | _ => Panic
              end) ;
  cpu_type_n <+ c_i32 e ;
  cpu_subtype_n <+ c_i32 e ;
  cpu <+ clift (cpu_from cpu_type_n cpu_subtype_n) ;
  file_type_n <+ c_u32 e ;
  ft <+ clift (file_type_from_u32 file_type_n) ;
  ncmds <+ c_u32 e ;
  size_of_cmds <+ c_u32 e ;
  flags_n <+ c_u32 e ;
  flags <+ clift (flags_from_u32 flags_n) ;
  reserved <+ c_u32 e ;
  cret ({| h_magic := m; h_cpu := cpu; h_file_type := ft; h_ncmds := ncmds;
           h_size_of_cmds := size_of_cmds; h_flags := flags; h_reserved := reserved |}, e).

(** at-mac/src/load_command/segment64.rs:43-73 `SegmentCommand64::read_from_in`.  The size check at
    line 58 is u32 arithmetic and depends on the build profile. *)
Definition c_segment64 (p : profile) (e : endian) : creader segment64 :=
  cmd <+ c_u32 e ;
  _ <+ clift (rassert (cmd =? SEGMENT_TYPE)) ;
  cmdsize <+ c_u32 e ;
  segname <+ c_fixed_size_string 16 ;
  vmaddr <+ c_u64 e ;
  vmsize <+ c_u64 e ;
  fileoff <+ c_u64 e ;
  filesize <+ c_u64 e ;
  maxprot <+ c_i32 e ;
  initprot <+ c_i32 e ;
  nsects <+ c_u32 e ;
  flags <+ c_u32 e ;
  prod <+ clift (chku p 32 (nsects * SECTION_SIZE)) ;
  size <+ clift (chku p 32 (SEGMENT_SIZE + prod)) ;
  _ <+ clift (rassert (cmdsize =? size)) ;
  cret {| sg_cmd := cmd; sg_cmdsize := cmdsize; sg_segname := segname; sg_vmaddr := vmaddr;
          sg_vmsize := vmsize; sg_fileoff := fileoff; sg_filesize := filesize;
          sg_maxprot := maxprot; sg_initprot := initprot; sg_nsects := nsects;
          sg_flags := flags |}.

(** at-mac/src/load_command/segment64.rs:120-152 `Section64::read_from_in` *)
Definition c_section64 (e : endian) : creader section64 :=
  sectname <+ c_fixed_size_string 16 ;
  segname <+ c_fixed_size_string 16 ;
  addr <+ c_u64 e ;
  size <+ c_u64 e ;
  offset <+ c_u32 e ;
  align <+ c_u32 e ;
  reloff <+ c_u32 e ;
  nreloc <+ c_u32 e ;
  flags_n <+ c_u32 e ;
  ty <+ clift (section_type_from_u32 (Z.land flags_n SECTION_TYPE_MASK)) ;
  attrs <+ clift (section_attrs_from_u32 (Z.land flags_n SECTION_ATTRS_MASK)) ;
  reserved1 <+ c_u32 e ;
  reserved2 <+ c_u32 e ;
  reserved3 <+ c_u32 e ;
  cret {| sc_sectname := sectname; sc_segname := segname; sc_addr := addr; sc_size := size;
          sc_offset := offset; sc_align := align; sc_reloff := reloff; sc_nreloc := nreloc;
          sc_attrs := attrs; sc_type := ty; sc_reserved1 := reserved1;
          sc_reserved2 := reserved2; sc_reserved3 := reserved3 |}.

(** at-mac/src/load_command/symtab.rs:24-44 *)
Definition c_symtab (e : endian) : creader symtab :=
  cmd <+ c_u32 e ;
  _ <+ clift (rassert (cmd =? SYMTAB_TYPE)) ;
  cmdsize <+ c_u32 e ;
  _ <+ clift (rassert (cmdsize =? SYMTAB_SIZE)) ;
  symoff <+ c_u32 e ;
  nsyms <+ c_u32 e ;
  stroff <+ c_u32 e ;
  strsize <+ c_u32 e ;
  cret {| st_cmd := cmd; st_cmdsize := cmdsize; st_symoff := symoff; st_nsyms := nsyms;
          st_stroff := stroff; st_strsize := strsize |}.

(** at-mac/src/load_command/dysymtab.rs:89-137 *)
Definition c_dysymtab (e : endian) : creader dysymtab :=
  cmd <+ c_u32 e ;
  _ <+ clift (rassert (cmd =? DYSYMTAB_TYPE)) ;
  cmdsize <+ c_u32 e ;
  _ <+ clift (rassert (cmdsize =? DYSYMTAB_SIZE)) ;
  ilocalsym <+ c_u32 e ;
  nlocalsym <+ c_u32 e ;
  iextdefsym <+ c_u32 e ;
  nextdefsym <+ c_u32 e ;
  iundefsym <+ c_u32 e ;
  nundefsym <+ c_u32 e ;
  tocoff <+ c_u32 e ;
  ntoc <+ c_u32 e ;
  modtaboff <+ c_u32 e ;
  nmodtab <+ c_u32 e ;
  extrefsymoff <+ c_u32 e ;
  nextrefsyms <+ c_u32 e ;
  indirectsymoff <+ c_u32 e ;
  nindirectsyms <+ c_u32 e ;
  extreloff <+ c_u32 e ;
  nextrel <+ c_u32 e ;
  locreloff <+ c_u32 e ;
  nlocrel <+ c_u32 e ;
  cret {| dy_cmd := cmd; dy_cmdsize := cmdsize; dy_ilocalsym := ilocalsym;
          dy_nlocalsym := nlocalsym; dy_iextdefsym := iextdefsym;
          dy_nextdefsym := nextdefsym; dy_iundefsym := iundefsym;
          dy_nundefsym := nundefsym; dy_tocoff := tocoff; dy_ntoc := ntoc;
          dy_modtaboff := modtaboff; dy_nmodtab := nmodtab;
          dy_extrefsymoff := extrefsymoff; dy_nextrefsyms := nextrefsyms;
          dy_indirectsymoff := indirectsymoff; dy_nindirectsyms := nindirectsyms;
          dy_extreloff := extreloff; dy_nextrel := nextrel; dy_locreloff := locreloff;
          dy_nlocrel := nlocrel |}.

(** at-mac/src/load_command/build_version.rs:27-54 *)
Definition c_build_version (p : profile) (e : endian) : creader build_version :=
  cmd <+ c_u32 e ;
  _ <+ clift (rassert (cmd =? BUILD_VERSION_TYPE)) ;
  cmdsize <+ c_u32 e ;
  platform_n <+ c_u32 e ;
  pl <+ clift (platform_from_u32 platform_n) ;
  minos_n <+ c_u32 e ;
  sdk_n <+ c_u32 e ;
  ntools <+ c_u32 e ;
  prod <+ clift (chku p 32 (BUILD_TOOL_SIZE * ntools)) ;
  size <+ clift (chku p 32 (BUILD_VERSION_SIZE + prod)) ;
  _ <+ clift (rassert (cmdsize =? size)) ;
  cret {| bv_cmd := cmd; bv_cmdsize := cmdsize; bv_platform := pl;
          bv_minos := version_from_u32 minos_n; bv_sdk := version_from_u32 sdk_n;
          bv_ntools := ntools |}.

(** at-mac/src/load_command/build_version.rs:128-134 *)
Definition c_build_tool (e : endian) : creader build_tool :=
  tool_n <+ c_u32 e ;
  t <+ clift (tool_from_u32 tool_n) ;
  v <+ c_u32 e ;
  cret {| bt_tool := t; bt_version := v |}.

(** at-mac/src/nlist.rs:37-52 *)
Definition c_nlist64 (e : endian) : creader nlist64 :=
  strx <+ c_u32 e ;
  ty_n <+ c_u8 ;
  ty <+ clift (n_type_field_from_u8 ty_n) ;
  sect <+ c_u8 ;
  desc <+ c_u16 e ;
  value <+ c_u64 e ;
  cret {| nl_strx := strx; nl_type := ty; nl_sect := sect; nl_desc := desc; nl_value := value |}.

(** at-mac/src/reloc.rs:34-79 *)
Definition c_reloc_info (e : endian) : creader reloc_info :=
  addr <+ c_i32 e ;
  infos <+ c_u32 e ;
  match e with
  | Little =>
      len <+ clift (reloc_length_from_u32 (Z.shiftr (Z.land infos 0x06000000) 25)) ;
      cret {| r_address := addr;
              r_symbolnum := Z.land infos 0x00FFFFFF;
              r_pcrel := 0 <? Z.land infos 0x01000000;
              r_length := len;
              r_extern := 0 <? Z.land infos 0x08000000;
              r_type := wrapu 8 (Z.shiftr (Z.land infos 0xF0000000) 28) |}
  | Big =>
      len <+ clift (reloc_length_from_u32 (Z.shiftr (Z.land infos 0x00000060) 5)) ;
      cret {| r_address := addr;
              r_symbolnum := Z.shiftr (Z.land infos 0xFFFFFF00) 8;
              r_pcrel := 0 <? Z.land infos 0x00000080;
              r_length := len;
              r_extern := 0 <? Z.land infos 0x00000010;
              r_type := wrapu 8 (Z.land infos 0x0000000F) |}
  end.

(** at-mac/src/load_command/mod.rs:48-91; the four bytes are chained in front (lines 53-59), where
    they are an answer of their own *)
Definition c_load_command (p : profile) (e : endian) : creader load_command := fun src =>
  match c_u32 e src with
  | Panic => Panic
  | Ok (cmd, src') =>
      (if cmd =? SEGMENT_TYPE then
         c <+ c_segment64 p e ;
         sections <+ c_many (Z.to_nat (sg_nsects c)) (c_section64 e) ;
         cret (LcSegment64 c sections)
       else if cmd =? SYMTAB_TYPE then
         c <+ c_symtab e ; cret (LcSymtab c)
       else if cmd =? DYSYMTAB_TYPE then
         c <+ c_dysymtab e ; cret (LcDysymtab c)
       else if cmd =? BUILD_VERSION_TYPE then
         c <+ c_build_version p e ;
         tools <+ c_many (Z.to_nat (bv_ntools c)) (c_build_tool e) ;
         cret (LcBuildVersion c tools)
       else clift Panic) (Got (bytes_of e 4 cmd) :: src')
  end.
