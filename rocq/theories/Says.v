(** What the panics of at-mac, at-asm and at-x64 say.  The readers of Mac.v, the line effects of
    Assembler.v and the encoder of X64.v, with the message of a panic.  Paths are relative to /repo. *)
From Coq Require String.
Import String.StringSyntax.
From Verif Require Import Base Str X64 Mac Obj Asm Assembler.

(** The message of a panic: given in the code, or made up by the standard library (`unwrap`,
    `assert!`, integer overflow, ...), which is not modelled *)
Inductive why := Said (msg : str) | Std.
Inductive say (A : Type) := Val (a : A) | Dies (w : why).
Arguments Val {A} a.
Arguments Dies {A} w.
(** sequencing: a panic ends the call it happens in
    (at-mac/src/load_command/segment64.rs:131-132) *)
Definition sbind {A B} (m : say A) (k : A -> say B) : say B :=
  match m with Val a => k a | Dies w => Dies w end.
(** a panic of the standard library (e.g. `unwrap`, at-mac/src/io.rs:31-59) *)
Definition quiet_res {A} (m : res A) : say A := match m with Ok a => Val a | Panic => Dies Std end.
(** `unwrap_or_else(|| panic!(..))` (at-mac/src/load_command/segment64.rs:188,227,
    at-mac/src/load_command/build_version.rs:82,151, at-mac/src/nlist.rs:131,148) *)
Definition or_panic {A} (o : option A) (msg : str) : say A :=
  match o with Some a => Val a | None => Dies (Said msg) end.

(** Readers as in Base.v, with the message (at-mac/src/load_command/segment64.rs:120-152):
    [sr_lift] is a conversion that reads nothing, [sr_quiet] a read that dies only with a
    message of the standard library *)
Definition sreader (A : Type) := list Z -> say (A * list Z).
Definition sr_ret {A} (a : A) : sreader A := fun l => Val (a, l).
Definition sr_bind {A B} (m : sreader A) (k : A -> sreader B) : sreader B :=
  fun l => match m l with Val (a, l') => k a l' | Dies w => Dies w end.
Definition sr_lift {A} (m : say A) : sreader A := fun l => sbind m (fun a => Val (a, l)).
Definition sr_quiet {A} (m : reader A) : sreader A := fun l => quiet_res (m l).
Notation "x <! m ; k" := (sr_bind m (fun x => k)) (at level 61, m at next level, right associativity).
(** at-mac/src/load_command/mod.rs:66-68, 84-86 *)
Fixpoint sr_many {A} (n : nat) (m : sreader A) : sreader (list A) :=
  match n with
  | O => sr_ret []
  | S n' => a <! m ; l <! sr_many n' m ; sr_ret (a :: l)
  end.

(** `{:X}` of a u32: at most 8 digits (at-mac/src/load_command/segment64.rs:188,227) *)
Definition upper_digit (n : Z) : Z := if n <? 10 then 48 + n else 55 + n.
(** {:X}, from the last digit (at-mac/src/load_command/segment64.rs:188,227) *)
Fixpoint upper_digits (fuel : nat) (n : Z) (acc : str) : str :=
  match fuel with
  | O => acc
  | S f => if n <? 16 then upper_digit n :: acc else upper_digits f (n / 16) (upper_digit (n mod 16) :: acc)
  end.
(** at-mac/src/load_command/segment64.rs:188,227 *)
Definition show_upper (n : Z) : str := upper_digits 8 n [].

(** ** at-mac *)

(** at-mac/src/header.rs:133-145 *)
Definition s_cpu (t s : Z) : say cpu_type :=
  if (t =? CPU_TYPE_X86) || (t =? CPU_TYPE_X86_64) then quiet_res (cpu_from t s)
  else Dies (Said (lit "Unsupported cpu type")).
(** at-mac/src/header.rs:24-60; `unimplemented!()` at line 30 *)
Definition s_header64 (h : endian) : sreader (header64 * endian) :=
  magic_n <! sr_quiet (read_u32 h) ;
  m <! sr_lift (quiet_res (magic_from_u32 magic_n)) ;
  e <! sr_lift (match m with
                | Magic64 | Magic32 => Val h
                | Cigam64 | Cigam32 => Val (swap h)
                | _ => Dies (Said (lit "not implemented"))
                end) ;
  cpu_type_n <! sr_quiet (read_i32 e) ;
  cpu_subtype_n <! sr_quiet (read_i32 e) ;
  cpu <! sr_lift (s_cpu cpu_type_n cpu_subtype_n) ;
  rest <! sr_quiet (file_type_n <~ read_u32 e ;
                    ft <~ rlift (file_type_from_u32 file_type_n) ;
                    ncmds <~ read_u32 e ;
                    size_of_cmds <~ read_u32 e ;
                    flags_n <~ read_u32 e ;
                    flags <~ rlift (flags_from_u32 flags_n) ;
                    reserved <~ read_u32 e ;
                    rret {| h_magic := m; h_cpu := cpu; h_file_type := ft; h_ncmds := ncmds;
                            h_size_of_cmds := size_of_cmds; h_flags := flags; h_reserved := reserved |}) ;
  sr_ret (rest, e).

(** at-mac/src/load_command/segment64.rs:187-189 *)
Definition s_section_type (n : Z) : say section_type :=
  or_panic (from_prim section_type_to_u32 all_section_type n) (lit "Unsupported section type 0x" ++ show_upper n).
(** at-mac/src/load_command/segment64.rs:225-228 *)
Definition s_section_attr (n : Z) : say section_attr :=
  or_panic (from_prim section_attr_to_u32 all_section_attr n) (lit "Unsupported section attribute 0x" ++ show_upper n).
(** at-mac/src/load_command/segment64.rs:251-260 *)
Fixpoint s_bits {A} (from : Z -> say A) (n : Z) (is : list Z) : say (list A) :=
  match is with
  | [] => Val []
  | i :: is' =>
      let b := Z.land n (Z.shiftl 1 i) in
      if negb (b =? 0) then sbind (from b) (fun f => sbind (s_bits from n is') (fun fs => Val (f :: fs)))
      else s_bits from n is'
  end.
(** at-mac/src/load_command/segment64.rs:120-152 *)
Definition s_section64 (e : endian) : sreader section64 :=
  sectname <! sr_quiet (read_fixed_size_string 16) ;
  segname <! sr_quiet (read_fixed_size_string 16) ;
  addr <! sr_quiet (read_u64 e) ;
  size <! sr_quiet (read_u64 e) ;
  offset <! sr_quiet (read_u32 e) ;
  align <! sr_quiet (read_u32 e) ;
  reloff <! sr_quiet (read_u32 e) ;
  nreloc <! sr_quiet (read_u32 e) ;
  flags_n <! sr_quiet (read_u32 e) ;
  ty <! sr_lift (s_section_type (Z.land flags_n SECTION_TYPE_MASK)) ;
  attrs <! sr_lift (s_bits s_section_attr (Z.land flags_n SECTION_ATTRS_MASK) (zrange 8 24)) ;
  reserved1 <! sr_quiet (read_u32 e) ;
  reserved2 <! sr_quiet (read_u32 e) ;
  reserved3 <! sr_quiet (read_u32 e) ;
  sr_ret {| sc_sectname := sectname; sc_segname := segname; sc_addr := addr; sc_size := size;
            sc_offset := offset; sc_align := align; sc_reloff := reloff; sc_nreloc := nreloc;
            sc_attrs := attrs; sc_type := ty; sc_reserved1 := reserved1;
            sc_reserved2 := reserved2; sc_reserved3 := reserved3 |}.

(** at-mac/src/load_command/build_version.rs:81-83 *)
Definition s_platform (n : Z) : say platform :=
  or_panic (from_prim platform_to_u32 all_platform n) (lit "Invalid platform number " ++ show_u64 n).
(** at-mac/src/load_command/build_version.rs:27-54 *)
Definition s_build_version (p : profile) (e : endian) : sreader build_version :=
  cmd <! sr_quiet (read_u32 e) ;
  _ <! sr_lift (quiet_res (rassert (cmd =? BUILD_VERSION_TYPE))) ;
  cmdsize <! sr_quiet (read_u32 e) ;
  platform_n <! sr_quiet (read_u32 e) ;
  pl <! sr_lift (s_platform platform_n) ;
  minos_n <! sr_quiet (read_u32 e) ;
  sdk_n <! sr_quiet (read_u32 e) ;
  ntools <! sr_quiet (read_u32 e) ;
  prod <! sr_lift (quiet_res (chku p 32 (BUILD_TOOL_SIZE * ntools))) ;
  size <! sr_lift (quiet_res (chku p 32 (BUILD_VERSION_SIZE + prod))) ;
  _ <! sr_lift (quiet_res (rassert (cmdsize =? size))) ;
  sr_ret {| bv_cmd := cmd; bv_cmdsize := cmdsize; bv_platform := pl;
            bv_minos := version_from_u32 minos_n; bv_sdk := version_from_u32 sdk_n;
            bv_ntools := ntools |}.
(** at-mac/src/load_command/build_version.rs:150-152 *)
Definition s_tool (n : Z) : say tool :=
  or_panic (from_prim tool_to_u32 all_tool n) (lit "Unsupported tool number " ++ show_u64 n).
(** at-mac/src/load_command/build_version.rs:128-134 *)
Definition s_build_tool (e : endian) : sreader build_tool :=
  tool_n <! sr_quiet (read_u32 e) ;
  t <! sr_lift (s_tool tool_n) ;
  v <! sr_quiet (read_u32 e) ;
  sr_ret {| bt_tool := t; bt_version := v |}.

(** at-mac/src/load_command/mod.rs:48-91; `unimplemented!()` at line 89 *)
Definition s_load_command (p : profile) (e : endian) : sreader load_command := fun l =>
  match read_u32 e l with
  | Panic => Dies Std
  | Ok (cmd, l') =>
      let l'' := bytes_of e 4 cmd ++ l' in
      (if cmd =? SEGMENT_TYPE then
         c <! sr_quiet (read_segment64 p e) ;
         sections <! sr_many (Z.to_nat (sg_nsects c)) (s_section64 e) ;
         sr_ret (LcSegment64 c sections)
       else if cmd =? SYMTAB_TYPE then
         c <! sr_quiet (read_symtab e) ; sr_ret (LcSymtab c)
       else if cmd =? DYSYMTAB_TYPE then
         c <! sr_quiet (read_dysymtab e) ; sr_ret (LcDysymtab c)
       else if cmd =? BUILD_VERSION_TYPE then
         c <! s_build_version p e ;
         tools <! sr_many (Z.to_nat (bv_ntools c)) (s_build_tool e) ;
         sr_ret (LcBuildVersion c tools)
       else sr_lift (Dies (Said (lit "not implemented")))) l''
  end.

(** at-mac/src/nlist.rs:130-132 *)
Definition s_n_type (n : Z) : say n_type :=
  or_panic (from_prim n_type_to_u8 all_n_type n) (lit "Invalid n_type number " ++ show_u64 n).
(** at-mac/src/nlist.rs:147-149 *)
Definition s_debug_symbol (n : Z) : say debug_symbol :=
  or_panic (from_prim debug_symbol_to_u8 [Gsym] n) (lit "Unsupported debug symbol " ++ show_u64 n).
(** at-mac/src/nlist.rs:82-96 *)
Definition s_n_type_field (n : Z) : say n_type_field :=
  let n_stab := Z.land n N_STAB_MASK in
  if n_stab =? 0 then
    sbind (s_n_type (Z.land n N_TYPE_MASK)) (fun nt =>
    Val (Norm (Z.land n N_PEXT_MASK =? N_PEXT_MASK) nt (Z.land n N_EXT_MASK =? N_EXT_MASK)))
  else sbind (s_debug_symbol n_stab) (fun d => Val (Stab d)).
(** at-mac/src/nlist.rs:37-52 *)
Definition s_nlist64 (e : endian) : sreader nlist64 :=
  strx <! sr_quiet (read_u32 e) ;
  ty_n <! sr_quiet read_u8 ;
  ty <! sr_lift (s_n_type_field ty_n) ;
  sect <! sr_quiet read_u8 ;
  desc <! sr_quiet (read_u16 e) ;
  value <! sr_quiet (read_u64 e) ;
  sr_ret {| nl_strx := strx; nl_type := ty; nl_sect := sect; nl_desc := desc; nl_value := value |}.

(** at-mac/src/reloc.rs:153-163 *)
Definition s_x86_reloc (n : Z) : say x86_reloc :=
  match x86_reloc_from_u8 n with
  | Ok t => Val t
  | Panic => Dies (Said (show_u64 n ++ lit " is not a valid x86 reloc type"))
  end.
(** at-mac/src/reloc.rs:195-209 *)
Definition s_x86_64_reloc (n : Z) : say x86_64_reloc :=
  match x86_64_reloc_from_u8 n with
  | Ok t => Val t
  | Panic => Dies (Said (show_u64 n ++ lit " is not a valid x86_64 reloc type"))
  end.

(** at-mac/src/string_table.rs:17-25 *)
Definition s_stab_push (t : stab) (s : str) : say stab :=
  match stab_push t s with Ok t' => Val t' | Panic => Dies (Said (lit "could not push non-ascii char")) end.

(** ** at-asm *)

(** How a call ends, with the message of a panic (at-asm/src/assembler.rs:48,148,160) *)
Inductive soutcome (A : Type) := SDone (a : A) | SExit (code : Z) (err : str) | SCrash (w : why).
Arguments SDone {A} a.
Arguments SExit {A} code err.
Arguments SCrash {A} w.
(** at-asm/src/assembler.rs:41-94: what ends a line ends the call *)
Definition sobind {A B} (m : soutcome A) (k : A -> soutcome B) : soutcome B :=
  match m with SDone a => k a | SExit c e => SExit c e | SCrash w => SCrash w end.
Definition so_quiet {A} (m : outcome A) : soutcome A :=
  match m with Done a => SDone a | Exit c e => SExit c e | Crash => SCrash Std end.
(** at-asm/src/assembler.rs:142-150 *)
Definition s_push_reloc (a : asm) (r : reloc) : soutcome asm :=
  match push_reloc a r with
  | Done a' => SDone a' | Exit c e => SExit c e
  | Crash => SCrash (Said (lit "relocation entry in bss section is not supported"))
  end.
(** at-asm/src/assembler.rs:52-93 *)
Definition s_exec_line (p : profile) (a : asm) (l : line) : soutcome asm :=
  match l with
  | LInst i =>
      sobind
        match in_reloc i with
        | Some lr =>
            sobind (so_quiet (olift (chki p 32 (wrapi 32 (cur_size a) + lr_offset lr))))
              (fun addr => s_push_reloc a {| rl_addr := addr; rl_symbol := lr_symbol lr;
                                             rl_pcrel := lr_pcrel lr; rl_len := lr_len lr |})
        | None => SDone a
        end
        (fun a => so_quiet (write_bytes a (bam_ref (in_bytes i))))
  | l => so_quiet (exec_line p a l)
  end.
(** at-asm/src/assembler.rs:41-94, one line, as [exec_raw] *)
Definition s_exec_raw (p : profile) (a : asm) (raw : list Z) : soutcome asm :=
  match from_utf8 raw with
  | None => SCrash Std
  | Some s =>
      sobind (so_quiet (olift (chku p 32 (as_line a + 1)))) (fun n =>
      let a := set_line a n in
      match line_parse p s with
      | POk l => s_exec_line p a l
      | PErr msg => SExit 1 (lit "error at line " ++ show_u64 (as_line a) ++ lit ": " ++ msg ++ [10])
      | PPanic => SCrash Std
      end)
  end.
(** at-asm/src/assembler.rs:41-94, the loop *)
Fixpoint s_exec_all (p : profile) (a : asm) (raws : list (list Z)) : soutcome asm :=
  match raws with
  | [] => SDone a
  | r :: rs => sobind (s_exec_raw p a r) (fun a => s_exec_all p a rs)
  end.
(** at-asm/src/assembler.rs:38-108 *)
Definition s_read_from (p : profile) (a : asm) (input : list Z) : soutcome asm :=
  sobind (s_exec_all p a (raw_lines input)) (fun a => SDone (mark_ext a)).

(** ** at-x64 *)

(** at-x64/src/encoder/mod.rs:105-128, the part of [encode] about the ModRM byte *)
Definition modrm_part (e : encoder) (rex : option Z) (opcode nodisp : bam) : res bytecode :=
  match en_modrm e with
  | Some (r, rm) =>
      m <- modrm_set_reg modrm_new (rl_reg r) ;;
      m <- modrm_set_mode m (rm_mode rm) ;;
      m <- modrm_set_rm m (rm_rm rm) ;;
      let rex := if rl_rex_r r then Some (rex_set_r (rex_or_new rex) true) else rex in
      let rex := if rm_rex_b rm then Some (rex_set_b (rex_or_new rex) true) else rex in
      sib <- rm_sib rm ;;
      let rex := if rm_rex_x rm then Some (rex_set_x (rex_or_new rex) true) else rex in
      disp <- rm_disp rm ;;
      Ok {| bc_prefix := en_prefix e; bc_rex := rex; bc_opcode := opcode;
            bc_modrm := Some m; bc_sib := sib; bc_disp := disp; bc_imm := nodisp |}
  | None =>
      Ok {| bc_prefix := en_prefix e; bc_rex := rex; bc_opcode := opcode;
            bc_modrm := None; bc_sib := None; bc_disp := nodisp; bc_imm := nodisp |}
  end.
(** at-x64/src/encoder/mod.rs:85-137 *)
Definition s_encode (e : encoder) : say bam :=
  sbind (quiet_res (en_opcode e)) (fun opcode =>
  sbind (quiet_res (en_imm e)) (fun imm =>
  sbind (quiet_res (bam_with_len 4 0)) (fun nodisp =>
  let rex := if en_rex_w e then Some (rex_set_w rex_new true) else None in
  let rex := if en_rex_b e then Some (rex_set_b (rex_or_new rex) true) else rex in
  sbind (quiet_res (modrm_part e rex opcode nodisp)) (fun bc =>
  if Nat.eqb (bam_len imm) 8 && negb (en_rex_w e)
  then Dies (Said (lit "64bit immediate value is only valid on 64bit operand mode"))
  else quiet_res (to_bytes {| bc_prefix := bc_prefix bc; bc_rex := bc_rex bc; bc_opcode := bc_opcode bc;
              bc_modrm := bc_modrm bc; bc_sib := bc_sib bc; bc_disp := bc_disp bc;
              bc_imm := imm |}))))).
