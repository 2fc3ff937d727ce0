(** Property theorems: C68 (the parsers called on their own), C69 (relocation types), C70 (UTF-8), and
    further parts of C06 and C07. *)
From Coq Require String.
Import String.StringSyntax.
From Verif Require Import Base Str X64 SpecX86 Mac Obj Asm SpecAsm SpecDiag SpecMore PfX64 PfTok PfLine2 PfDiag PfDiag2 PfMore.

(** ** C06, C07 *)
Theorem C06_is_empty : forall max b, bam_built max b -> (bam_is_empty b = true <-> bam_ref b = []).
Proof. exact top_C06_empty. Qed.
Print Assumptions C06_is_empty.
Example C06_empty_case : exists a b, bam_from_array 4 [] = Ok a /\ bam_is_empty a = true /\
  bam_from_u8 4 0 = Ok b /\ bam_is_empty b = false.
Proof. eexists. eexists. repeat split; reflexivity. Qed.
Theorem C07_display : forall r, show_reg r = name_of r.
Proof. exact top_C07_display. Qed.
Print Assumptions C07_display.
Theorem C07_display_injective : forall r r', show_reg r = show_reg r' -> r = r'.
Proof. exact top_C07_display_inj. Qed.
Print Assumptions C07_display_injective.
Example C07_display_case : map show_reg [Reg8 SPL; Reg16 SP; Reg32 R13D; Reg64 R13; Reg8 R13B] =
  [lit "spl"; lit "sp"; lit "r13d"; lit "r13"; lit "r13b"].
Proof. reflexivity. Qed.

(** ** C68: each parser on its own *)
Theorem C68_registers : forall s m,
  (reg64_parse s = PErr m <-> (forall r, s <> name64 r) /\ m = lit "error: invalid 64bit register : " ++ s) /\
  (reg32_parse s = PErr m <-> (forall r, s <> name32 r) /\ m = lit "error: invalid 32bit register : " ++ s) /\
  (reg16_parse s = PErr m <-> (forall r, s <> name16 r) /\ m = lit "error: invalid 16bit register : " ++ s).
Proof. exact top_C68_reg. Qed.
Print Assumptions C68_registers.
Theorem C68_numbers : forall bits name s,
  In (bits, name) [(64, lit "u64"); (32, lit "u32"); (16, lit "u16"); (8, lit "u8")] ->
  (forall n, num_parse bits s = POk n <-> number bits s n) /\
  (forall m, num_parse bits s = PErr m <-> not_number bits s /\ m = s ++ lit " is invalid " ++ name) /\
  num_parse bits s <> PPanic.
Proof. exact top_C68_num. Qed.
Print Assumptions C68_numbers.
Theorem C68_expression : forall p s,
  (forall n, expr_parse p s = POk n <-> exists ts, words s ts /\ expr_value p ts n) /\
  (forall m, expr_parse p s = PErr m <->
     (exists ts, words s ts /\ expr_error ts m) \/ not_expr s /\ m = lit "invalid expr format") /\
  (expr_parse p s = PPanic <-> p = Debug /\ exists ts, words s ts /\ expr_overflow ts).
Proof. exact top_C68_expr. Qed.
Print Assumptions C68_expression.
Theorem C68_section : forall s,
  (forall x, section_parse s = POk x <-> words s [lit "section"; sect_name x]) /\
  (forall m, section_parse s = PErr m <-> section_error s m) /\ section_parse s <> PPanic.
Proof. exact top_C68_section. Qed.
Print Assumptions C68_section.
Theorem C68_global : forall s,
  (forall n, global_parse s = POk n <-> words s [lit "global"; n]) /\
  (forall m, global_parse s = PErr m <-> global_error s m) /\ global_parse s <> PPanic.
Proof. exact top_C68_global. Qed.
Print Assumptions C68_global.
Theorem C68_data : forall s,
  (forall d, data_parse s = POk d <->
     exists u text its, data_text s (da_label d) u text /\ items_text text its /\ items_bytes u its (da_bytes d)) /\
  (forall m, data_parse s = PErr m <-> data_error s m) /\ data_parse s <> PPanic.
Proof. exact top_C68_data. Qed.
Print Assumptions C68_data.
Theorem C68_instruction : forall p s,
  (forall i, inst_parse p s = POk i -> exists st, inst_text p s st /\ means st (LInst i)) /\
  (forall st, inst_text p s st -> exists i, inst_parse p s = POk i /\ means st (LInst i)) /\
  (forall m, inst_parse p s = PErr m <-> inst_error p s m) /\
  (inst_parse p s = PPanic <->
     p = Debug /\ exists d o ts, mov_body s d o /\ is_reg_name d /\ words o ts /\ expr_overflow ts).
Proof. exact top_C68_inst. Qed.
Print Assumptions C68_instruction.
Theorem C68_line_try : forall p s,
  (forall l, line_try p s = POk (Some l) <-> line_parse p s = POk l) /\ line_try p s <> POk None /\
  (forall m, line_try p s = PErr m <-> line_parse p s = PErr m) /\ (line_try p s = PPanic <-> line_parse p s = PPanic).
Proof. exact top_C68_line_try. Qed.
Print Assumptions C68_line_try.
Example C68_case : forall p,
  reg32_parse (lit "rax") = PErr (lit "error: invalid 32bit register : rax") /\
  num_parse 8 (lit "256") = PErr (lit "256 is invalid u8") /\ num_parse 8 (lit "0xff") = POk 255 /\
  num_parse 16 (lit "-1") = PErr (lit "-1 is invalid u16") /\
  expr_parse p (lit "msg") = PErr (lit "invalid expr format") /\ expr_parse p (lit "8 - 3") = POk 5 /\
  section_parse (lit "ret") = PErr (lit "invalid section declaration") /\
  section_parse (lit "section .bss") = POk SBss /\
  global_parse (lit "ret") = PErr (lit "invalid global symbol definition") /\
  global_parse (lit " global _main ") = POk (lit "_main") /\
  data_parse (lit "db") = PErr (lit "invalid data format") /\
  data_parse (lit "section dw 258") = POk {| da_label := Some (lit "section"); da_bytes := [2; 1] |} /\
  inst_parse p (lit "db 5") = PErr (lit "unrecognized opcode") /\
  inst_bytes (inst_parse p (lit "ret db 5")) = Some [0xc3].
Proof. intro p; repeat split; destruct p; vm_compute; reflexivity. Qed.

(** ** C69: relocation types *)
Theorem C69_x86_64 : forall n t,
  (x86_64_reloc_from_u8 n = Ok t <-> In (n, t) x86_64_codes) /\ (x86_64_reloc_to_u8 t = n <-> In (n, t) x86_64_codes).
Proof. exact x86_64_codes_spec. Qed.
Print Assumptions C69_x86_64.
Theorem C69_x86 : forall n t,
  (x86_reloc_from_u8 n = Ok t <-> In (n, t) x86_codes) /\ (x86_reloc_to_u8 t = n <-> In (n, t) x86_codes).
Proof. exact x86_codes_spec. Qed.
Print Assumptions C69_x86.
Example C69_case : x86_64_reloc_from_u8 9 = Ok RtTlv /\ x86_64_reloc_from_u8 10 = Panic /\ x86_reloc_from_u8 5 = Ok RtTlv32 /\
  x86_reloc_from_u8 6 = Panic.
Proof. repeat split. Qed.

(** ** C70: text is UTF-8 *)
Theorem C70_decode : forall bs s, bytes_ok bs -> (from_utf8 bs = Some s <-> utf8_text s bs).
Proof. exact top_C70_decode. Qed.
Print Assumptions C70_decode.
Theorem C70_encode : forall s bs, str_ok s -> (utf8 s = bs <-> utf8_text s bs).
Proof. exact top_C70_encode. Qed.
Print Assumptions C70_encode.
Theorem C70_unique : forall bs s s', utf8_text s bs -> utf8_text s' bs -> s = s'.
Proof. exact top_C70_unique. Qed.
Print Assumptions C70_unique.
(** "é€𐍈"; an overlong slash, a surrogate and 0x110000 are rejected *)
Example C70_case : from_utf8 [0xc3; 0xa9; 0xe2; 0x82; 0xac; 0xf0; 0x90; 0x8d; 0x88] = Some [0xe9; 0x20ac; 0x10348] /\
  from_utf8 [0xc0; 0xaf] = None /\ from_utf8 [0xed; 0xa0; 0x80] = None /\ from_utf8 [0xf4; 0x90; 0x80; 0x80] = None /\
  from_utf8 [0xe2; 0x82] = None.
Proof. repeat split. Qed.
