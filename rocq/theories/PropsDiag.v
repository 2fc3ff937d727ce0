(** Property theorems for the diagnostics of the assembler: C67.  SpecDiag.v says which message
    belongs to which line, without the parsers. *)
From Coq Require String.
Import String.StringSyntax.
From Verif Require Import Base Str X64 SpecX86 Obj Asm SpecAsm SpecDiag PfTok PfLine2 PfDiag.

(** ** C67: the message for a bad line *)

Theorem C67_message : forall p s msg, line_parse p s = PErr msg <-> line_reports p s msg.
Proof. exact top_C67. Qed.
Print Assumptions C67_message.

(** a line is a statement, or gets a message, or (debug builds only) its expression overflows *)
Theorem C67_cases : forall p s,
  (exists body st, line_text s body /\ accepts p body st) \/ (exists msg, line_reports p s msg) \/
  (p = Debug /\ exists body d o ts, line_text s body /\ mov_body body d o /\ is_reg_name d /\ words o ts /\ expr_overflow ts).
Proof. exact top_C67_cases. Qed.
Print Assumptions C67_cases.

Theorem C67_only_one : forall p s msg, line_reports p s msg ->
  (forall m, line_reports p s m -> m = msg) /\ (forall body st, line_text s body -> ~ accepts p body st) /\
  (p = Debug -> forall body d o ts, line_text s body -> mov_body body d o -> is_reg_name d -> words o ts -> ~ expr_overflow ts).
Proof. exact top_C67_one. Qed.
Print Assumptions C67_only_one.

(** every message, on a line that gets it *)
Example C67_case : forall p,
  Forall (fun x => line_parse p (fst x) = PErr (snd x))
    [ (lit "section", lit "section name is expected"); (lit "section .rodata", lit "unrecognized section .rodata");
      (lit "section .text x", lit "expected end of line after section declaration");
      (lit "global", lit "symbol name is expected"); (lit "global a b", lit "expected end of line after global symbol definition");
      (lit "a: ret", lit "error: expected end of line."); (lit "msg db ""abc", lit "unclosed "" found");
      (lit "db 1,,2", lit " is invalid u64"); (lit "db 1, x", lit "x is invalid u64"); (lit "db 0x100", lit "256 is not a 8 bit number");
      (lit "x dw 5 70000", lit "70000 is not a 16 bit number"); (lit "dd 4294967296", lit "4294967296 is not a 32 bit number");
      (lit "mov", lit "invalid mov instruction format"); (lit "mov rax", lit "invalid mov instruction format");
      (lit "mov	rax, 5", lit "not mov opcode"); (lit "mov al, 5", lit "invalid first operand");
      (lit "mov rax, - 5", lit "unary op is not supported"); (lit "mov rax, 5 5", lit "expected + or -");
      (lit "mov rax, 5 +", lit "rhs not found"); (lit "mov rax, 5 + x", lit "invalid rhs");
      (lit "mov eax, 0x100000000", lit "4294967296 is not 32bit"); (lit "mov r8w, 65535 + 1", lit "65536 is not 16bit");
      (lit "mov ax, msg", lit "invalid second operand"); (lit "push", lit "error: operand is expected after push opcode");
      (lit "push eax", lit "error: invalid push operand : eax"); (lit "add rax, 1", lit "unrecognized line") ].
Proof. intro p; repeat (constructor; [destruct p; vm_compute; reflexivity|]); constructor. Qed.
Example C67_case2 : forall p, line_reports p (lit "db 0x100") (lit "256 is not a 8 bit number") /\
  line_reports p (lit "mov ax, msg ; address") (lit "invalid second operand").
Proof. intro p; split; apply top_C67; destruct p; vm_compute; reflexivity. Qed.
