(** C99: what panics say. *)
From Coq Require String.
Import String.StringSyntax.
From Verif Require Import Base Str SpecAsm SpecDiag Mac SpecMacho SpecMore SpecOs X64 SpecX86 SpecEnc Asm Assembler SpecRun Says SpecSays PfSays PfSays2 PfSays3 PfSays4.

(** Apart from the message the readers and the assembler of Says.v are those of Mac.v and
    Assembler.v *)
Theorem C99_agree : forall p e l, forget (s_header64 e l) = read_header64 e l /\ forget (s_load_command p e l) = read_load_command p e l /\
  forget (s_section64 e l) = read_section64 e l /\ forget (s_build_version p e l) = read_build_version p e l /\
  forget (s_build_tool e l) = read_build_tool e l /\ forget (s_nlist64 e l) = read_nlist64 e l /\
  (forall n, forget (s_x86_reloc n) = x86_reloc_from_u8 n /\ forget (s_x86_64_reloc n) = x86_64_reloc_from_u8 n) /\
  (forall t s, forget (s_stab_push t s) = stab_push t s) /\
  (forall a, sforget (s_read_from p a l) = read_from p a l).
Proof. exact top_C99_agree. Qed.
Print Assumptions C99_agree.

(** The records of a file *)
Theorem C99_records : forall p e l x, bytes_ok l ->
  (s_load_command p e l = Dies (Said x) <-> load_command_says p e l x) /\
  (s_section64 e l = Dies (Said x) <-> section_says e 0 l x) /\
  (s_build_version p e l = Dies (Said x) <-> build_version_says e 0 l x) /\
  (s_build_tool e l = Dies (Said x) <-> build_tool_says e 0 l x) /\
  (s_nlist64 e l = Dies (Said x) <-> nlist_says e 0 l x).
Proof. exact top_C99_records. Qed.
Print Assumptions C99_records.
(** bits 11 and 12 are both unknown; a section type 0x1B; platform 11; n_type 4 with the external bit *)
Example C99_records_case : forall p,
  let sect f := repeat 0 64 ++ f ++ repeat 0 12 in
  s_section64 Little (sect [0; 0x18; 0; 0]) = Dies (Said (lit "Unsupported section attribute 0x800")) /\
  s_section64 Little (sect [0x1B; 0x18; 0; 0]) = Dies (Said (lit "Unsupported section type 0x1B")) /\
  s_section64 Little (sect [0x0B; 0x07; 0; 0xEA]) <> Dies Std /\
  s_load_command p Big [0; 0; 0; 0x32; 0; 0; 0; 0; 0; 0; 0; 11] = Dies (Said (lit "Invalid platform number 11")) /\
  s_load_command p Big [0; 0; 0; 0x32; 0; 0; 0; 0; 0; 0; 0; 10] = Dies Std /\
  s_load_command p Big [0; 0; 0; 1] = Dies (Said (lit "not implemented")) /\
  s_build_tool Little [4; 0; 0; 0] = Dies (Said (lit "Unsupported tool number 4")) /\
  s_nlist64 Little [0; 0; 0; 0; 5] = Dies (Said (lit "Invalid n_type number 4")) /\
  s_nlist64 Little [0; 0; 0; 0; 0x64] = Dies (Said (lit "Unsupported debug symbol 96")).
Proof. intros []; repeat split; try discriminate; vm_compute; reflexivity. Qed.

(** The header: the cpu type is blamed in the order of the file, whatever the host *)
Theorem C99_header : forall h l x, bytes_ok l -> (s_header64 h l = Dies (Said x) <-> header_says h l x).
Proof. exact top_C99_header. Qed.
Print Assumptions C99_header.
Example C99_header_case : forall h,
  s_header64 h [0xCF; 0xFA; 0xED; 0xFE; 12; 0; 0; 1; 0; 0; 0; 0] = Dies (Said (lit "Unsupported cpu type")) /\
  s_header64 h [0xCF; 0xFA; 0xED; 0xFE; 7; 0; 0; 1; 0; 0; 0; 0] = Dies Std /\
  s_header64 h [0xCA; 0xFE; 0xBA; 0xBE] = Dies (Said (lit "not implemented")).
Proof. intros []; repeat split; vm_compute; reflexivity. Qed.

(** Relocation types *)
Theorem C99_reloc : forall n x, 0 <= n < 256 ->
  (s_x86_reloc n = Dies (Said x) <-> 6 <= n /\ exists ds, decimal n ds /\ x = ds ++ lit " is not a valid x86 reloc type") /\
  (s_x86_64_reloc n = Dies (Said x) <-> 10 <= n /\ exists ds, decimal n ds /\ x = ds ++ lit " is not a valid x86_64 reloc type").
Proof. exact top_C99_reloc. Qed.
Print Assumptions C99_reloc.
Example C99_reloc_case : s_x86_reloc 6 = Dies (Said (lit "6 is not a valid x86 reloc type")) /\ s_x86_64_reloc 6 = Val RtSigned1
  /\ s_x86_64_reloc 255 = Dies (Said (lit "255 is not a valid x86_64 reloc type")).
Proof. repeat split. Qed.

(** Names that are not ASCII *)
Theorem C99_push : forall t s x, str_ok s ->
  (s_stab_push t s = Dies (Said x) <-> (exists c, In c s /\ 128 <= c) /\ x = lit "could not push non-ascii char").
Proof. exact top_C99_push. Qed.
Print Assumptions C99_push.
Example C99_push_case : s_stab_push [0] [0x61; 0xE9] = Dies (Said (lit "could not push non-ascii char")) /\ s_stab_push [0] [0x61] = Val [0; 0x61; 0].
Proof. repeat split. Qed.

(** The assembler has one message of its own: a symbolic mov in .bss *)
Theorem C99_bss : forall p l ls x, bytes_ok l -> source_lines l ls ->
  (s_read_from p asm_new l = SCrash (Said x) <-> bss_reference p ls /\ x = lit "relocation entry in bss section is not supported").
Proof. exact top_C99_bss. Qed.
Print Assumptions C99_bss.
Example C99_bss_case : forall p,
  s_read_from p asm_new (lit "section .bss" ++ [10] ++ lit "mov rax, x") = SCrash (Said (lit "relocation entry in bss section is not supported")) /\
  s_read_from p asm_new (lit "section .bss" ++ [10] ++ lit "mov rax, 1") = SExit 1 (lit "error: can't write data to .bss section" ++ [10]) /\
  s_read_from p asm_new [0xFF] = SCrash Std.
Proof. intros []; repeat split; vm_compute; reflexivity. Qed.

(** The instruction builder has one message: a 64-bit immediate needs REX.W.  Arguments that are too
    long and bad ModRM operands die before it, without a message of their own *)
Theorem C99_encoder : forall cs x, Forall call_rng cs ->
  forget (s_built cs) = built cs /\ (s_built cs = Dies (Said x) <-> encoder_says cs x).
Proof. exact top_C99_encoder. Qed.
Print Assumptions C99_encoder.
Example C99_encoder_case :
  let op := SetOpcode (ImmBytes [0xB8]) in
  s_built [op; SetImm (Imm64 5)] = Dies (Said (lit "64bit immediate value is only valid on 64bit operand mode")) /\
  s_built [op; SetImm (Imm64 5); SetModRM (OpExt 8) (ArgReg64 RAX)] = Dies Std /\
  s_built [op; SetImm (Imm64 5); SetModRM (OpExt 7) (ArgMem (RipOffset 300)); SetB true; SetPrefix 0x66]
    = Dies (Said (lit "64bit immediate value is only valid on 64bit operand mode")) /\
  s_built [op; SetImm (ImmBytes (repeat 0 9))] = Dies Std /\
  s_built [op; SetImm (Imm64 5); SetImm (Imm8 5)] <> Dies Std /\
  (exists b, s_built [op; SetImm (Imm64 5); SetW true] = Val b).
Proof. repeat split; try (now vm_compute); try discriminate. eexists. vm_compute. reflexivity. Qed.
