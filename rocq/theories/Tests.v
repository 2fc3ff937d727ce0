(** The project's own unit tests, replayed on the model.

    The [Example]s transcribe the 33 `#[test]` functions of /repo, assertion for assertion
    (related functions of one file are joined), so that the model gives on the author's
    inputs the answers the author expects of the code.  Nothing else depends on this file. *)
From Coq Require Import List ZArith Bool.
From Verif Require Import Base Str X64 Mac Asm.
From Coq Require String.
Import ListNotations.
Import String.StringSyntax.
Local Open Scope Z_scope.

Local Notation "i ==> bs" :=
  (match bytecode_of i with Ok b => Some (bam_ref b) | Panic => None end = Some bs)
  (at level 70, only parsing).

(** ** at-x64 *)

(** instruction/lea.rs:23-57 *)
Example t_lea :
  Lea64 RAX (mem_reg RDI) ==> [0x48; 0x8D; 0x07] /\
  Lea64 RAX (mem_reg_offset RDI 42) ==> [0x48; 0x8D; 0x47; 0x2A] /\
  Lea64 RSP (mem_reg RSP) ==> [0x48; 0x8D; 0x24; 0x24] /\
  Lea64 RAX (mem_reg RSP) ==> [0x48; 0x8D; 0x04; 0x24] /\
  Lea64 RDI (mem_rip_offset 42) ==> [0x48; 0x8D; 0x3D; 0x2A; 0; 0; 0] /\
  (exists m, mem_sib (Some RAX) 0 RDI 1 = Ok m /\ Lea64 RDI m ==> [0x48; 0x8D; 0x3C; 0x78]) /\
  (exists m, mem_sib None 0 RDI 1 = Ok m /\
             Lea64 RDI m ==> [0x48; 0x8D; 0x3C; 0x7D; 0; 0; 0; 0]).
Proof. repeat split; try (eexists; split); reflexivity. Qed.

(** instruction/mov.rs:117-253, memory destination *)
Example t_mov_mem :
  MovMR64 (mem_reg RDI) RAX ==> [0x48; 0x89; 0x07] /\
  MovMR64 (mem_reg_offset RDI 42) RAX ==> [0x48; 0x89; 0x47; 0x2A] /\
  MovMR64 (mem_rip_offset 42) RAX ==> [0x48; 0x89; 0x05; 0x2A; 0; 0; 0] /\
  (exists m, mem_sib (Some RBP) 42 RAX 3 = Ok m /\
             MovMR64 m R13 ==> [0x4C; 0x89; 0x6C; 0xC5; 0x2A]).
Proof. repeat split; try (eexists; split); reflexivity. Qed.

(** instruction/mov.rs tests, register to register *)
Example t_mov_reg :
  MovRR16 AX DI ==> [0x66; 0x89; 0xF8] /\
  MovRR16 R9W SP ==> [0x66; 0x41; 0x89; 0xE1] /\
  MovRR16 R15W R10W ==> [0x66; 0x45; 0x89; 0xD7] /\
  MovRR32 EAX ESP ==> [0x89; 0xE0] /\
  MovRR32 R15D ESP ==> [0x41; 0x89; 0xE7] /\
  MovRR32 R15D R8D ==> [0x45; 0x89; 0xC7] /\
  MovRR64 RDI RAX ==> [0x48; 0x89; 0xC7] /\
  MovRR64 R8 RAX ==> [0x49; 0x89; 0xC0] /\
  MovRR64 R8 R9 ==> [0x4D; 0x89; 0xC8].
Proof. repeat split; reflexivity. Qed.

(** instruction/mov.rs tests, immediates, with the length assertions of the 32- and 64-bit
    ones *)
Example t_mov_imm :
  MovRI16 AX 42 ==> [0x66; 0xB8; 0x2A; 0] /\
  MovRI16 R9W 11 ==> [0x66; 0x41; 0xB9; 0x0B; 0] /\
  MovRI32 EDI 420 ==> [0xBF; 0xA4; 0x01; 0; 0] /\
  MovRI32 R15D 109 ==> [0x41; 0xBF; 0x6D; 0; 0; 0] /\
  MovRI64 RSP 42 ==> [0x48; 0xBC; 0x2A; 0; 0; 0; 0; 0; 0; 0] /\
  MovRI64 R14 42 ==> [0x49; 0xBE; 0x2A; 0; 0; 0; 0; 0; 0; 0] /\
  offset_to_imm32 EDI + 4 = 5 /\ offset_to_imm32 R15D + 4 = 6 /\
  offset_to_imm64 RSP + 8 = 10 /\ offset_to_imm64 R14 + 8 = 10.
Proof. repeat split; reflexivity. Qed.

(** instruction/pop.rs:37-68 and instruction/push.rs:63-121 *)
Example t_stack :
  PopR16 DI ==> [0x66; 0x5F] /\ PopR16 R15W ==> [0x66; 0x41; 0x5F] /\
  PopR64 RDI ==> [0x5F] /\ PopR64 R15 ==> [0x41; 0x5F] /\
  PushI8 42 ==> [0x6A; 0x2A] /\ PushI16 420 ==> [0x66; 0x68; 0xA4; 0x01] /\
  PushI32 420 ==> [0x68; 0xA4; 0x01; 0; 0] /\
  PushR16 AX ==> [0x66; 0x50] /\ PushR16 R10W ==> [0x66; 0x41; 0x52] /\
  PushR64 RAX ==> [0x50] /\ PushR64 R10 ==> [0x41; 0x52].
Proof. repeat split; reflexivity. Qed.

(** ** at-mac: write, check the length, read back.  `Endian::NATIVE` is the host's order. *)

Definition written {A} (w : endian -> A -> wr) (r : endian -> reader A) (size : Z) (x : A)
  : Prop :=
  forall h, exists bs, w h x = (bs, true) /\ Z.of_nat (length bs) = size /\
                       r h bs = Ok (x, []).

Ltac roundtrip := intros [|]; eexists; repeat split; vm_compute; reflexivity.

(** header.rs tests; `read_from` takes no byte order and also returns the one it found *)
Example t_header64 : forall h,
  let x := {| h_magic := Magic64; h_cpu := CpuX86_64 X86_64All; h_file_type := FtObject;
              h_ncmds := 2; h_size_of_cmds := 42; h_flags := []; h_reserved := 0 |} in
  exists bs, write_header64 h x = (bs, true) /\ Z.of_nat (length bs) = HEADER_SIZE /\
             read_header64 h bs = Ok ((x, h), []).
Proof. roundtrip. Qed.

(** load_command/build_version.rs tests *)
Example t_build_version : forall p,
  written write_build_version (read_build_version p) BUILD_VERSION_SIZE
    {| bv_cmd := BUILD_VERSION_TYPE; bv_cmdsize := BUILD_VERSION_SIZE; bv_platform := MacOS;
       bv_minos := {| v_major := 3; v_minor := 10; v_release := 42 |};
       bv_sdk := {| v_major := 1; v_minor := 11; v_release := 13 |}; bv_ntools := 0 |}.
Proof. intros [|]; roundtrip. Qed.
Example t_build_tool :
  written write_build_tool read_build_tool BUILD_TOOL_SIZE
    {| bt_tool := Clang; bt_version := 42 |}.
Proof. roundtrip. Qed.

(** load_command/dysymtab.rs tests *)
Example t_dysymtab :
  written write_dysymtab read_dysymtab DYSYMTAB_SIZE
    {| dy_cmd := DYSYMTAB_TYPE; dy_cmdsize := DYSYMTAB_SIZE;
       dy_ilocalsym := 0; dy_nlocalsym := 2; dy_iextdefsym := 3; dy_nextdefsym := 4;
       dy_iundefsym := 5; dy_nundefsym := 9; dy_tocoff := 8; dy_ntoc := 5;
       dy_modtaboff := 8; dy_nmodtab := 5; dy_extrefsymoff := 0; dy_nextrefsyms := 2;
       dy_indirectsymoff := 3; dy_nindirectsyms := 6; dy_extreloff := 8; dy_nextrel := 9;
       dy_locreloff := 0; dy_nlocrel := 2 |}.
Proof. roundtrip. Qed.

(** load_command/segment64.rs tests *)
Example t_segment64 : forall p,
  written write_segment64 (read_segment64 p) SEGMENT_SIZE
    {| sg_cmd := SEGMENT_TYPE; sg_cmdsize := SEGMENT_SIZE + SECTION_SIZE; sg_segname := [];
       sg_vmaddr := 0; sg_vmsize := 42; sg_fileoff := 100; sg_filesize := 42;
       sg_maxprot := 7; sg_initprot := 7; sg_nsects := 1; sg_flags := 0 |}.
Proof. intros [|]; roundtrip. Qed.
Example t_section64 :
  written write_section64 read_section64 SECTION_SIZE
    {| sc_sectname := lit "__TEXT,__text"; sc_segname := []; sc_addr := 0; sc_size := 42;
       sc_offset := 100; sc_align := 0; sc_reloff := 53; sc_nreloc := 1; sc_attrs := [];
       sc_type := StRegular; sc_reserved1 := 0; sc_reserved2 := 0; sc_reserved3 := 0 |}.
Proof. roundtrip. Qed.

(** load_command/symtab.rs tests *)
Example t_symtab :
  written write_symtab read_symtab SYMTAB_SIZE
    {| st_cmd := SYMTAB_TYPE; st_cmdsize := SYMTAB_SIZE; st_symoff := 42; st_nsyms := 1;
       st_stroff := 100; st_strsize := 7 |}.
Proof. roundtrip. Qed.

(** nlist.rs tests *)
Example t_nlist64 :
  written write_nlist64 read_nlist64 NLIST_SIZE
    {| nl_strx := 42; nl_type := Norm false Sect true; nl_sect := 2; nl_desc := 0;
       nl_value := 42 |}.
Proof. roundtrip. Qed.

(** reloc.rs tests *)
Example t_reloc_info :
  written write_reloc_info read_reloc_info RELOC_SIZE
    {| r_address := 42; r_symbolnum := 0x00323100; r_pcrel := true; r_length := LenByte;
       r_extern := false; r_type := x86_64_reloc_to_u8 RtUnsigned |}.
Proof. roundtrip. Qed.

(** string_table.rs tests: `get_index_0_always_return_empty_string`, `get_string_from_vec`,
    `get_string` *)
Example t_string_table :
  let data := [0x00; 0x5f; 0x6d; 0x61; 0x69; 0x6e; 0x00] in
  (t <- stab_from_vec data ;; stab_get t 0) = Ok [] /\
  (t <- stab_push stab_with_null (lit "hoge") ;; stab_get t 0) = Ok [] /\
  (t <- stab_from_vec data ;; stab_get t 1) = Ok (lit "_main") /\
  (t <- stab_from_vec data ;; stab_get t 2) = Ok (lit "main") /\
  (t <- stab_push stab_with_null (lit "hoge") ;; stab_get t 1) = Ok (lit "hoge").
Proof. repeat split; vm_compute; reflexivity. Qed.

(** ** at-asm *)

Definition label_of (s : str) : presult (option str) :=
  pbind (data_try s) (fun o =>
    match o with Some d => POk (da_label d) | None => PPanic end).
Definition bytes_of (s : str) : presult (list Z) :=
  pbind (data_try s) (fun o =>
    match o with Some d => POk (da_bytes d) | None => PPanic end).

(** parsers/data.rs tests *)
Example t_data :
  label_of (lit "db 0x42") = POk None /\
  bytes_of (lit "db 0x42,42,0x11") = POk [0x42; 42; 0x11] /\
  label_of (lit "hoge db 0x42") = POk (Some (lit "hoge")) /\
  bytes_of (lit "dw 0x12, 0x34") = POk [0x12; 0x00; 0x34; 0x00] /\
  bytes_of (lit "dd 0x12, 0x34") = POk [0x12; 0; 0; 0; 0x34; 0; 0; 0] /\
  bytes_of (lit "db " ++ quoted (lit "Hello, World")) =
    POk [0x48; 0x65; 0x6c; 0x6c; 0x6f; 0x2c; 0x20; 0x57; 0x6f; 0x72; 0x6c; 0x64] /\
  label_of (lit "mdb db 0x42") = POk (Some (lit "mdb")) /\
  bytes_of (lit "db " ++ quoted (lit "Hello") ++ lit ", 0x42") =
    POk [0x48; 0x65; 0x6c; 0x6c; 0x6f; 0x42] /\
  bytes_of (lit "dd " ++ quoted (lit "Hello") ++ lit ", 0x42") =
    POk [0x48; 0x65; 0x6c; 0x6c; 0x6f; 0; 0; 0; 0x42; 0; 0; 0].
Proof. repeat split; vm_compute; reflexivity. Qed.

(** parsers/expr.rs tests.  The builds agree on these inputs. *)
Example t_expr : forall p,
  expr_parse p (lit "0x200000 + 4") = POk (0x200000 + 4) /\
  expr_parse p (lit "200000 - 4") = POk (200000 - 4) /\
  expr_parse p (lit "0x200 + 0x15") = POk (0x200 + 0x15).
Proof. intros [|]; repeat split; vm_compute; reflexivity. Qed.

(** parsers/section.rs tests: `should_ok_some`, `should_ok_none`, `should_err` *)
Example t_section :
  section_parse (lit "section .text") = POk SText /\
  section_parse (lit "section .data") = POk SData /\
  section_parse (lit "section .bss") = POk SBss /\
  section_try (lit "mov rax, 42") = POk None /\
  section_try (lit "hoge") = POk None /\
  (exists m, section_try (lit "section .hoge") = PErr m) /\
  (exists m, section_try (lit "section .text .data") = PErr m).
Proof. repeat split; try eexists; vm_compute; reflexivity. Qed.

(** parsers/instruction/mov.rs tests *)
Example t_mov_parse : forall p,
  let same raw i := match mov_parse p raw, bytecode_of i with
                    | POk r, Ok b => bam_ref (in_bytes r) = bam_ref b
                    | _, _ => False
                    end in
  same (lit "mov eax, 42") (MovRI32 EAX 42) /\
  same (lit "mov eax, esp") (MovRR32 EAX ESP) /\
  same (lit "mov cx, r8w") (MovRR16 CX R8W) /\
  same (lit "mov rax, rcx") (MovRR64 RAX RCX) /\
  same (lit "mov rax, 0x200004") (MovRI64 RAX 0x200004) /\
  same (lit "mov rax, 0x200000 + 4") (MovRI64 RAX 0x200004).
Proof.
  intros [|]; vm_compute; repeat split; reflexivity.
Qed.
