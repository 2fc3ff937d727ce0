(** Property theorems for the assembler (at-asm): parsers, assembler, command line.
    C07, C09, C35-C55, C60. *)
From Coq Require String.
Import String.StringSyntax.
From Coq Require Import Sorted.
From Verif Require Import Base Str X64 SpecX86 Mac SpecMacho Obj SpecObj Asm SpecAsm Assembler SpecRun Cli SpecCli
  PfTok PfDiag PfRun PfRun3 PfRun5 PfEnd PfTop PfTop2 PfCli.

(** tactics for concrete texts *)
Ltac wds := apply split_words; vm_compute; reflexivity.
Ltac nmb := apply num_try_iff; vm_compute; reflexivity.
Ltac is_in := match goal with |- In _ _ => idtac | |- space _ => idtac end; vm_compute; repeat first [left; reflexivity | right].
Ltac not_in := vm_compute; intuition congruence.
Ltac blk := match goal with |- blank _ => idtac end; unfold blank; repeat (constructor; [is_in|]); constructor.
Ltac as_text t := match goal with |- accepts ?p ?s ?st => replace s with t by (vm_compute; reflexivity) end.
Ltac ltext := split; [not_in | first [left; reflexivity | right; eexists; reflexivity]].
Ltac nolbl := let n := fresh in let E := fresh in
  intros n E; apply (f_equal (fun l => last l 0)) in E; rewrite last_last in E; vm_compute in E; discriminate E.

(** ** C07: register names *)
Theorem C07_names : (forall r, show_reg64 r = name64 r) /\ (forall r, show_reg32 r = name32 r) /\ (forall r, show_reg16 r = name16 r).
Proof. exact top_C07_names. Qed.
Print Assumptions C07_names.
Theorem C07_parse64 : forall s r,
  reg64_try s = Some r <-> s = show_reg64 r.
Proof. exact top_C07_64. Qed.
Print Assumptions C07_parse64.
Theorem C07_parse32 : forall s r,
  reg32_try s = Some r <-> s = show_reg32 r.
Proof. exact top_C07_32. Qed.
Print Assumptions C07_parse32.
Theorem C07_parse16 : forall s r,
  reg16_try s = Some r <-> s = show_reg16 r.
Proof. exact top_C07_16. Qed.
Print Assumptions C07_parse16.
Theorem C07_no_collision : forall s,
  (reg64_try s <> None -> reg32_try s = None /\ reg16_try s = None) /\
  (reg32_try s <> None -> reg64_try s = None /\ reg16_try s = None) /\
  (reg16_try s <> None -> reg64_try s = None /\ reg32_try s = None).
Proof. exact top_C07_once. Qed.
Print Assumptions C07_no_collision.
Theorem C07_parsers : forall s,
  (forall r, reg64_parse s = POk r <-> s = show_reg64 r) /\ (forall r, reg32_parse s = POk r <-> s = show_reg32 r) /\
  (forall r, reg16_parse s = POk r <-> s = show_reg16 r).
Proof. exact top_C07_parse. Qed.
Print Assumptions C07_parsers.
Example C07_case : reg64_parse (lit "r13") = POk R13 /\ reg32_parse (lit "r13d") = POk R13D /\ reg16_parse (lit "sp") = POk SP /\
  reg64_try (lit "R13") = None /\ reg64_try (lit "r16") = None /\ name64 R13 = lit "r13" /\ reg16_try (lit "eax") = None.
Proof. repeat split. Qed.

(** ** C35: numbers *)
Theorem C35_accepted : forall bits s v,
  num_try bits s = Some v <-> number bits s v.
Proof. exact top_C35_iff. Qed.
Print Assumptions C35_accepted.
Theorem C35_literal : forall bits s v,
  literal s v ->
  num_parse bits s = if v <? 2 ^ bits then POk v else PErr (s ++ lit " is invalid " ++ uint_name bits).
Proof. exact top_C35_literal. Qed.
Print Assumptions C35_literal.
Theorem C35_one_value : forall b b' s v v',
  number b s v -> number b' s v' -> v = v'.
Proof. exact top_C35_value_unique. Qed.
Print Assumptions C35_one_value.
Theorem C35_characters : forall bits s v,
  number bits s v ->
  s <> [] /\ Forall (fun c => 48 <= c <= 57 \/ 97 <= c <= 102 \/ 65 <= c <= 70 \/ c = 120 \/ c = 43) s.
Proof. exact top_C35_chars. Qed.
Print Assumptions C35_characters.
Theorem C35_print : forall n,
  0 <= n < 2 ^ 64 -> num_parse 64 (show_u64 n) = POk n.
Proof. exact top_C35_print. Qed.
Print Assumptions C35_print.
Example C35_case : literal (lit "0x1fF") 511 /\ num_parse 8 (lit "0x1fF") = PErr (lit "0x1fF is invalid u8") /\
  num_parse 16 (lit "0x1fF") = POk 511 /\ num_parse 64 (lit "18446744073709551616") = PErr (lit "18446744073709551616 is invalid u64") /\
  num_try 8 (lit "255") = Some 255 /\ num_try 8 (lit "256") = None /\ num_try 8 (lit "12a") = None /\ num_try 32 (lit "0x0x+1f") = Some 31.
Proof.
  split; [|repeat split; vm_compute; reflexivity].
  right. exists (lit "1fF"). split; [reflexivity|].
  change (lit "1fF") with ((([49] ++ [102]) ++ [70])). change 511 with ((1 * 16 + 15) * 16 + 15).
  apply num_snoc; [apply num_snoc; [apply num_one|]|].
  - apply (dig_09 16 1); split || idtac; reflexivity || (vm_compute; congruence) || (split; vm_compute; congruence).
  - apply (dig_af 16 15); reflexivity || (split; vm_compute; congruence).
  - apply (dig_AF 16 15); reflexivity || (split; vm_compute; congruence).
Qed.

(** ** C36: immediate expressions *)
Theorem C36_value_and_panic : forall p s ts,
  words s ts ->
  (forall n, expr_parse p s = POk n <-> expr_value p ts n) /\
  (expr_parse p s = PPanic <-> p = Debug /\ expr_overflow ts).
Proof. exact top_C36. Qed.
Print Assumptions C36_value_and_panic.
Theorem C36_add : forall p w0 t1 w1 w2 t2 w3 a b,
  blank w0 -> blank w1 -> blank w2 -> blank w3 -> w1 <> [] -> w2 <> [] ->
  number 64 t1 a -> number 64 t2 b ->
  expr_parse p (w0 ++ t1 ++ w1 ++ lit "+" ++ w2 ++ t2 ++ w3) =
    match p with
    | Release => POk ((a + b) mod 2 ^ 64)
    | Debug => if (- 2 ^ 63 <=? signed64 a + signed64 b) && (signed64 a + signed64 b <? 2 ^ 63)
               then POk ((a + b) mod 2 ^ 64) else PPanic
    end.
Proof. exact top_C36_add. Qed.
Print Assumptions C36_add.
Theorem C36_sub : forall p w0 t1 w1 w2 t2 w3 a b,
  blank w0 -> blank w1 -> blank w2 -> blank w3 -> w1 <> [] -> w2 <> [] ->
  number 64 t1 a -> number 64 t2 b ->
  expr_parse p (w0 ++ t1 ++ w1 ++ lit "-" ++ w2 ++ t2 ++ w3) =
    match p with
    | Release => POk ((a - b) mod 2 ^ 64)
    | Debug => if negb (b =? 2 ^ 63) && (- 2 ^ 63 <=? signed64 a - signed64 b) && (signed64 a - signed64 b <? 2 ^ 63)
               then POk ((a - b) mod 2 ^ 64) else PPanic
    end.
Proof. exact top_C36_sub. Qed.
Print Assumptions C36_sub.
Theorem C36_error : forall p s ts,
  words s ts -> (forall n, ~ expr_value p ts n) -> ~ (p = Debug /\ expr_overflow ts) ->
  exists e, expr_parse p s = PErr e.
Proof. exact top_C36_error. Qed.
Print Assumptions C36_error.
Example C36_case : expr_parse Debug (lit "0x2000000  +   4") = POk 33554436 /\ expr_parse Debug (lit "3 - 5") = POk (2 ^ 64 - 2) /\
  expr_parse Debug (lit "0x7fffffffffffffff + 1") = PPanic /\ expr_parse Release (lit "0x7fffffffffffffff + 1") = POk (2 ^ 63) /\
  (exists e, expr_parse Debug (lit "3 -") = PErr e) /\ words (lit "0x2000000  +   4") [lit "0x2000000"; lit "+"; lit "4"] /\
  expr_value Debug [lit "0x2000000"; lit "+"; lit "4"] 33554436.
Proof.
  split; [vm_compute; reflexivity|]. split; [vm_compute; reflexivity|]. split; [vm_compute; reflexivity|]. split; [vm_compute; reflexivity|].
  split; [eexists; vm_compute; reflexivity|]. split; [wds|].
  apply (ev_add Debug (lit "0x2000000") (lit "4") 33554432 4 []); [nmb|nmb|]. intros _. vm_compute. intuition congruence.
Qed.

(** ** C37: trailing words.  The full statement (they are errors) is false; what happens to them *)
Theorem C37_expression_partial : forall p s s' t1 t2 t3 more,
  words s (t1 :: t2 :: t3 :: more) -> words s' [t1; t2; t3] ->
  expr_try p s = expr_try p s'.
Proof. exact top_C37_expr. Qed.
Print Assumptions C37_expression_partial.
Theorem C37_push_partial : forall s s' t more,
  words s (lit "push" :: t :: more) -> words s' [lit "push"; t] -> push_parse s = push_parse s'.
Proof. exact top_C37_push. Qed.
Print Assumptions C37_push_partial.
Theorem C37_ret_partial : forall p s body more,
  line_text s body -> words body (lit "ret" :: more) ->
  (forall u t l, more <> unit_name u :: t :: l) ->
  exists i, line_parse p s = POk (LInst i) /\ means (StInstr Ret) (LInst i).
Proof. exact top_C37_ret. Qed.
Print Assumptions C37_ret_partial.
Theorem C37_syscall_partial : forall p s body more,
  line_text s body -> words body (lit "syscall" :: more) ->
  (forall u t l, more <> unit_name u :: t :: l) ->
  exists i, line_parse p s = POk (LInst i) /\ means (StInstr Syscall) (LInst i).
Proof. exact top_C37_syscall. Qed.
Print Assumptions C37_syscall_partial.
Theorem C37_refuted : exists s s' l, words s [lit "mov"; lit "rax,"; lit "1"; lit "+"; lit "2"; lit "+"; lit "3"] /\
  words s' [lit "mov"; lit "rax,"; lit "1"; lit "+"; lit "2"] /\
  (forall p, line_parse p s = POk l /\ line_parse p s' = POk l) /\ means (StInstr (MovRI64 RAX 3)) l.
Proof.
  exists (lit "mov rax, 1 + 2 + 3"), (lit "mov rax, 1 + 2").
  exists (LInst {| in_bytes := match bytecode_of (MovRI64 RAX 3) with Ok b => b | Panic => {| bam_bytes := []; bam_len := 0 |} end; in_reloc := None |}).
  split; [wds|]. split; [wds|]. split; [intros []; split; vm_compute; reflexivity|].
  split; [eexists; split; vm_compute; reflexivity|reflexivity].
Qed.
Print Assumptions C37_refuted.
Example C37_case : line_parse Debug (lit "ret 5 6") = line_parse Debug (lit "ret") /\
  line_parse Debug (lit "push rax rbx") = line_parse Debug (lit "push rax") /\
  line_parse Debug (lit "syscall me") = line_parse Debug (lit "syscall") /\ line_parse Debug (lit "ret db 5") <> line_parse Debug (lit "ret").
Proof. repeat split; vm_compute; (reflexivity || discriminate). Qed.

(** ** C38: numbers in data lines *)
Theorem C38_emitted : forall p s body lbl u text its bs,
  line_text s body -> data_line body lbl u text -> items_text text its ->
  items_bytes u its bs -> line_parse p s = POk (LData {| da_label := lbl; da_bytes := bs |}).
Proof. exact top_C38. Qed.
Print Assumptions C38_emitted.
Theorem C38_rejected : forall p s body lbl u text,
  line_text s body -> data_line body lbl u text ->
  (forall its, items_text text its -> ~ Forall (fits_unit u) its) -> exists e, line_parse p s = PErr e.
Proof. exact top_C38_reject. Qed.
Print Assumptions C38_rejected.
(** a blank before a comma is an error *)
Example C38_case : let s := lit "  tbl  dw 1,  0x102 , 3 ; table" in let body := lit "  tbl  dw 1,  0x102 , 3 " in
  line_text s body /\ data_line body (Some (lit "tbl")) DW (lit "1,  0x102 , 3") /\
  line_parse Debug s = PErr (lit " is invalid u64").
Proof.
  cbv zeta. split; [ltext|]. split; [|vm_compute; reflexivity].
  split; [|split; [discriminate|split; [discriminate|nolbl]]].
  exists [32; 32], 32, [32], 32, [], [32]. split; [reflexivity|]. split; [split; [discriminate|repeat (constructor; [not_in|]); constructor]|].
  split; [intros [] E; discriminate E|]. split; [blk|]. split; [is_in|]. split; [blk|]. split; [is_in|]. split; [blk|]. split; [blk|].
  split; [discriminate|]. split; not_in.
Qed.
Example C38_case2 : line_parse Debug (lit "  tbl  dw 1,  0x102, 3 ; table") = POk (LData {| da_label := Some (lit "tbl"); da_bytes := [1; 0; 2; 1; 3; 0] |}) /\
  items_text (lit "1,  0x102, 3") [INum 1; INum 258; INum 3] /\ items_bytes DW [INum 1; INum 258; INum 3] [1; 0; 2; 1; 3; 0] /\
  (exists e, line_parse Debug (lit "db 1, 256") = PErr e) /\ ~ Forall (fits_unit DB) [INum 1; INum 256].
Proof.
  split; [vm_compute; reflexivity|]. split.
  { apply (it_num (lit "1") 1 44 [32; 32] (lit "0x102, 3")); [nmb|right; reflexivity|blk|not_in|].
    apply (it_num (lit "0x102") 258 44 [32] (lit "3")); [nmb|right; reflexivity|blk|not_in|]. apply it_last. nmb. }
  split.
  { exists [[1; 0]; [2; 1]; [3; 0]]. split; [|reflexivity].
    repeat (constructor; [split; [vm_compute; reflexivity|split; [reflexivity|split; [repeat (constructor; [vm_compute; intuition congruence|]); constructor|reflexivity]]]|]).
    constructor. }
  split; [eexists; vm_compute; reflexivity|]. intro F. inversion F as [|? ? _ F']; subst. inversion F' as [|? ? H _]; subst.
  vm_compute in H. discriminate H.
Qed.

(** ** C39: strings in data lines (mixed with numbers: C38_emitted) *)
Theorem C39_string : forall p s body lbl u x,
  line_text s body -> ~ In 34 x -> data_line body lbl u (34 :: x ++ [34]) ->
  exists k, (k < unit_size u)%nat /\ Nat.modulo (length (utf8 x) + k) (unit_size u) = 0%nat /\
    line_parse p s = POk (LData {| da_label := lbl; da_bytes := utf8 x ++ repeat 0 k |}).
Proof. exact top_C39. Qed.
Print Assumptions C39_string.
Example C39_case : line_parse Debug (lit "msg dd ""a, b"", 7") = POk (LData {| da_label := Some (lit "msg"); da_bytes := [97; 44; 32; 98; 7; 0; 0; 0] |}) /\
  line_parse Debug (lit "dw ""abc""") = POk (LData {| da_label := None; da_bytes := [97; 98; 99; 0] |}) /\
  line_parse Debug (lit "db " ++ [34; 0x3042; 34]) = POk (LData {| da_label := None; da_bytes := [0xE3; 0x81; 0x82] |}) /\
  data_line (lit "dw ""abc""") None DW (34 :: lit "abc" ++ [34]) /\
  items_text (lit """a, b"", 7") [IStr (lit "a, b"); INum 7].
Proof.
  split; [vm_compute; reflexivity|]. split; [vm_compute; reflexivity|]. split; [vm_compute; reflexivity|]. split.
  - exists [], 32, [], []. split; [reflexivity|]. split; [blk|]. split; [is_in|]. split; [blk|]. split; [blk|]. split; [discriminate|]. split; not_in.
  - apply (it_str (lit "a, b") [44; 32] (lit "7")); [not_in| | |].
    + constructor; [right; reflexivity|]. constructor; [left; is_in|constructor].
    + cbn. unfold delim, space. vm_compute. intuition congruence.
    + apply it_last. nmb.
Qed.

(** ** C40: blanks and comments *)
Theorem C40_blanks : forall p w1 s w2,
  blank w1 -> blank w2 -> line_parse p (w1 ++ s ++ w2) = line_parse p s.
Proof. exact top_C40_blank. Qed.
Print Assumptions C40_blanks.
Theorem C40_comment : forall p body c,
  ~ In 59 body -> line_parse p (body ++ 59 :: c) = line_parse p body.
Proof. exact top_C40_comment. Qed.
Print Assumptions C40_comment.
Theorem C40_empty : forall p s,
  line_parse p s = POk LEmpty <-> exists body, line_text s body /\ blank body.
Proof. exact top_C40_empty. Qed.
Print Assumptions C40_empty.
Example C40_case : blank [32; 9; 0x3000] /\
  line_parse Debug ([32; 9; 0x3000] ++ lit "section .data" ++ [13; 10]) = POk (LSection SData) /\
  line_parse Debug (lit "section .data ; db 5 ; x") = POk (LSection SData) /\ line_parse Debug (lit "  ; nothing") = POk LEmpty.
Proof. split; [blk|]. repeat split; vm_compute; reflexivity. Qed.

(** ** C41: semicolons in strings.  The full statement (they are data) is false: every such line is an error *)
Theorem C41_rejected_partial : forall p s lbl u text its,
  data_line s lbl u text -> items_text text its ->
  (exists x, In (IStr x) its /\ In 59 x) -> (forall n, lbl = Some n -> ~ In 59 n) -> exists e, line_parse p s = PErr e.
Proof. exact top_C41. Qed.
Print Assumptions C41_rejected_partial.
Theorem C41_refuted : exists s text its bs, data_line s None DB text /\ items_text text its /\ items_bytes DB its bs /\
  forall p, exists e, line_parse p s = PErr e.
Proof.
  exists (lit "db ""a;b"""), (lit """a;b"""), [IStr (lit "a;b")], (lit "a;b"). split.
  { exists [], 32, [], []. split; [reflexivity|]. split; [blk|]. split; [is_in|]. split; [blk|]. split; [blk|]. split; [discriminate|]. split; not_in. }
  split.
  { apply (it_str (lit "a;b") [] []); [not_in|constructor|exact I|constructor]. }
  split.
  { exists [lit "a;b"]. split; [|reflexivity]. constructor; [|constructor]. exists 0%nat. split; [reflexivity|]. split; [apply Nat.ltb_lt; reflexivity|reflexivity]. }
  intros []; eexists; vm_compute; reflexivity.
Qed.
Print Assumptions C41_refuted.

(** ** C42: mov lines *)
Theorem C42_mov : forall p s body d o st,
  line_text s body -> mov_body body d o -> mov_operands p d o st ->
  exists i, line_parse p s = POk (LInst i) /\ means st (LInst i).
Proof. exact top_C42. Qed.
Print Assumptions C42_mov.
Theorem C42_rejected : forall p s body d o,
  line_text s body -> mov_body body d o -> is_reg_name d ->
  (forall st, ~ mov_operands p d o st) -> ~ (p = Debug /\ exists ts, words o ts /\ expr_overflow ts) ->
  exists e, line_parse p s = PErr e.
Proof. exact top_C42_reject. Qed.
Print Assumptions C42_rejected.
Theorem C42_too_large : forall p s body d o ts n,
  line_text s body -> mov_body body d o -> words o ts -> expr_value p ts n ->
  ((exists r, d = name32 r) /\ 2 ^ 32 <= n \/ (exists r, d = name16 r) /\ 2 ^ 16 <= n) -> exists e, line_parse p s = PErr e.
Proof. exact top_C42_fit. Qed.
Print Assumptions C42_too_large.
Theorem C42_nothing_else : forall p s body t ts l,
  line_text s body -> words body (lit "mov" :: t :: ts) ->
  (forall u t' r, t :: ts <> unit_name u :: t' :: r) ->
  line_parse p s = POk l -> exists d o st, mov_body body d o /\ mov_operands p d o st /\ means st l.
Proof. exact top_C42_only. Qed.
Print Assumptions C42_nothing_else.
Example C42_case :
  (forall p, exists i, line_parse p (lit "  mov  eax ,  0x10 + 2 ; x") = POk (LInst i) /\ bam_ref (in_bytes i) = [0xB8; 0x12; 0; 0; 0] /\ in_reloc i = None) /\
  (forall p, exists i, line_parse p (lit "mov r9, msg") = POk (LInst i) /\ bam_ref (in_bytes i) = [0x49; 0xB9; 0; 0; 0; 0; 0; 0; 0; 0] /\
     in_reloc i = Some {| lr_offset := 2; lr_symbol := lit "msg"; lr_pcrel := false; lr_len := 3 |}) /\
  (forall p, exists e, line_parse p (lit "mov ax, 0x10000") = PErr e) /\
  mov_body (lit "  mov  eax ,  0x10 + 2 ") (lit "eax") (lit "0x10 + 2") /\
  mov_operands Debug (lit "eax") (lit "0x10 + 2") (StInstr (MovRI32 EAX 18)).
Proof.
  split; [intros []; eexists; (split; [vm_compute; reflexivity|split; vm_compute; reflexivity])|].
  split; [intros []; eexists; (split; [vm_compute; reflexivity|split; vm_compute; reflexivity])|].
  split; [intros []; eexists; vm_compute; reflexivity|]. split.
  - exists [32; 32], [32], [32], [32; 32], [32]. split; [reflexivity|]. repeat (split; [blk|]). split; [split; not_in|]. split; [not_in|]. split; not_in.
  - change (lit "eax") with (name32 EAX). apply (mo_imm32 Debug EAX _ [lit "0x10"; lit "+"; lit "2"] 18); [wds| |vm_compute; reflexivity].
    apply (ev_add Debug (lit "0x10") (lit "2") 16 2 []); [nmb|nmb|]. intros _. vm_compute. intuition congruence.
Qed.

(** ** C43: push, ret, syscall (ret and syscall: C37_ret_partial and C37_syscall_partial, which also cover the plain lines) *)
Theorem C43_push : forall p s body o more,
  line_text s body -> words body (lit "push" :: o :: more) ->
  (forall u t l, o :: more <> unit_name u :: t :: l) ->
  (forall r, o = name64 r -> exists i, line_parse p s = POk (LInst i) /\ means (StInstr (PushR64 r)) (LInst i)) /\
  (forall n, number 32 o n ->
     exists i, line_parse p s = POk (LInst i) /\ means (StInstr (if n <? 256 then PushI8 n else PushI32 n)) (LInst i)) /\
  ((forall r, o <> name64 r) -> (forall n, ~ number 32 o n) ->
     line_parse p s = PErr (lit "error: invalid push operand : " ++ o)).
Proof. exact top_C43_push. Qed.
Print Assumptions C43_push.
Theorem C43_no_operand : forall p s body,
  line_text s body -> words body [lit "push"] ->
  line_parse p s = PErr (lit "error: operand is expected after push opcode").
Proof. exact top_C43_no_operand. Qed.
Print Assumptions C43_no_operand.
Theorem C43_ret : forall p s body more, line_text s body -> words body (lit "ret" :: more) ->
  (forall u t l, more <> unit_name u :: t :: l) -> exists i, line_parse p s = POk (LInst i) /\ means (StInstr Ret) (LInst i).
Proof. exact top_C37_ret. Qed.
Print Assumptions C43_ret.
Theorem C43_syscall : forall p s body more, line_text s body -> words body (lit "syscall" :: more) ->
  (forall u t l, more <> unit_name u :: t :: l) -> exists i, line_parse p s = POk (LInst i) /\ means (StInstr Syscall) (LInst i).
Proof. exact top_C37_syscall. Qed.
Print Assumptions C43_syscall.
Example C43_case : forall p,
  (exists i, line_parse p (lit " push r12") = POk (LInst i) /\ bam_ref (in_bytes i) = [0x41; 0x54]) /\
  (exists i, line_parse p (lit "push 255") = POk (LInst i) /\ bam_ref (in_bytes i) = [0x6A; 255]) /\
  (exists i, line_parse p (lit "push 256") = POk (LInst i) /\ bam_ref (in_bytes i) = [0x68; 0; 1; 0; 0]) /\
  line_parse p (lit "push 4294967296") = PErr (lit "error: invalid push operand : 4294967296") /\
  (exists i, line_parse p (lit "ret") = POk (LInst i) /\ bam_ref (in_bytes i) = [0xC3]) /\
  (exists i, line_parse p (lit "syscall") = POk (LInst i) /\ bam_ref (in_bytes i) = [0x0F; 5]) /\
  words (lit " push r12") [lit "push"; lit "r12"] /\ line_text (lit " push r12") (lit " push r12").
Proof.
  intros []; repeat match goal with |- _ /\ _ => split | |- exists _, _ => eexists | |- words _ _ => wds | |- line_text _ _ => ltext | |- _ => vm_compute; reflexivity end.
Qed.

(** ** C09: push N.  The full statement (the CPU pushes N) is false; what it pushes, and exactly when that is N *)
Theorem C09_pushed_partial : forall p s body o more n,
  line_text s body -> words body (lit "push" :: o :: more) ->
  (forall u t l, o :: more <> unit_name u :: t :: l) -> number 32 o n ->
  exists i, line_parse p s = POk (LInst i) /\ in_reloc i = None /\
    forall m, mach_ok m -> code_at m (bam_ref (in_bytes i)) ->
    exists m', step m = Next m' /\ regs m' rsp = (regs m rsp - 8) mod 2 ^ 64 /\
      load 8 (mem m') (regs m' rsp) = pushed n mod 2 ^ 64 /\
      (pushed n mod 2 ^ 64 = n <-> n < 128 \/ 256 <= n < 2 ^ 31).
Proof. exact top_C09. Qed.
Print Assumptions C09_pushed_partial.
(** a machine about to execute the code of `push 200` *)
Definition ex_push : mach := {| regs := fun _ => 4096; mem := fun a => if a =? 0 then 0x6A else if a =? 1 then 200 else 0; rip := 0 |}.
Theorem C09_refuted : exists i m m', (forall p, line_parse p (lit "push 200") = POk (LInst i)) /\ mach_ok m /\
  code_at m (bam_ref (in_bytes i)) /\ step m = Next m' /\ load 8 (mem m') (regs m' rsp) = 2 ^ 64 - 56.
Proof.
  exists {| in_bytes := match bytecode_of (PushI8 200) with Ok b => b | Panic => {| bam_bytes := []; bam_len := 0 |} end; in_reloc := None |}, ex_push.
  eexists. split; [intros []; vm_compute; reflexivity|]. split.
  { unfold mach_ok, ex_push, W64. cbn [regs mem rip]. split; [intro; split; [|reflexivity]; vm_compute; congruence|].
    split; [|split; [|reflexivity]; vm_compute; congruence].
    intro a. destruct (a =? 0); [split; [|reflexivity]; vm_compute; congruence|]. destruct (a =? 1); (split; [|reflexivity]; vm_compute; congruence). }
  split; [vm_compute; reflexivity|]. split; [reflexivity|]. vm_compute. reflexivity.
Qed.
Print Assumptions C09_refuted.
Example C09_case : pushed 127 = 127 /\ pushed 128 = -128 /\ pushed 255 = -1 /\ pushed 256 = 256 /\ pushed (2 ^ 31) = - 2 ^ 31 /\
  words (lit "push 127") [lit "push"; lit "127"] /\ number 32 (lit "127") 127.
Proof. repeat match goal with |- _ /\ _ => split | |- words _ _ => wds | |- number _ _ _ => nmb | |- _ => vm_compute; reflexivity end. Qed.

(** ** C44: directives and labels *)
Theorem C44_section : forall p s x,
  line_parse p s = POk (LSection x) <->
  exists body, line_text s body /\ words body [lit "section"; sect_name x].
Proof. exact top_C44_section. Qed.
Print Assumptions C44_section.
Theorem C44_global : forall p s n,
  line_parse p s = POk (LGlobal n) <->
  exists body, line_text s body /\ words body [lit "global"; n].
Proof. exact top_C44_global. Qed.
Print Assumptions C44_global.
Theorem C44_label : forall p s n,
  line_parse p s = POk (LSymbol n) <->
  exists body k, line_text s body /\ words body [n ++ repeat 58 (S k)] /\ forall n', n <> n' ++ [58].
Proof. exact top_C44_label. Qed.
Print Assumptions C44_label.
Theorem C44_data : forall p s d,
  line_parse p s = POk (LData d) <->
  exists body u text its, line_text s body /\ data_line body (da_label d) u text /\ items_text text its /\ items_bytes u its (da_bytes d).
Proof. exact top_C44_data. Qed.
Print Assumptions C44_data.
Theorem C44_bad_section : forall p s body ts,
  line_text s body -> words body (lit "section" :: ts) ->
  (forall x, ts <> [sect_name x]) -> exists e, line_parse p s = PErr e.
Proof. exact top_C44_bad_section. Qed.
Print Assumptions C44_bad_section.
Theorem C44_bad_global : forall p s body ts,
  line_text s body -> words body (lit "global" :: ts) ->
  (forall n, ts <> [n]) -> exists e, line_parse p s = PErr e.
Proof. exact top_C44_bad_global. Qed.
Print Assumptions C44_bad_global.
Theorem C44_bad_label : forall p s body n t ts,
  line_text s body -> words body ((n ++ [58]) :: t :: ts) ->
  line_parse p s = PErr (lit "error: expected end of line.").
Proof. exact top_C44_bad_label. Qed.
Print Assumptions C44_bad_label.
Theorem C44_unknown : forall p s body t ts,
  line_text s body -> words body (t :: ts) -> (forall n, t <> n ++ [58]) ->
  ~ In t [lit "section"; lit "global"; lit "mov"; lit "push"; lit "ret"; lit "syscall"] -> (forall u, t <> unit_name u) ->
  (forall u t' l, ts <> unit_name u :: t' :: l) -> line_parse p s = PErr (lit "unrecognized line").
Proof. exact top_C44_unknown. Qed.
Print Assumptions C44_unknown.
Example C44_case : forall p,
  line_parse p (lit "	section   .bss ") = POk (LSection SBss) /\ line_parse p (lit "global _main") = POk (LGlobal (lit "_main")) /\
  line_parse p (lit " _main: ; x") = POk (LSymbol (lit "_main")) /\ line_parse p (lit "x db 1") = POk (LData {| da_label := Some (lit "x"); da_bytes := [1] |}) /\
  (exists e, line_parse p (lit "section .rodata") = PErr e) /\ (exists e, line_parse p (lit "global a b") = PErr e) /\
  line_parse p (lit "a: b") = PErr (lit "error: expected end of line.") /\ line_parse p (lit "add rax, 1") = PErr (lit "unrecognized line").
Proof. intros []; repeat match goal with |- _ /\ _ => split | |- exists _, _ => eexists | |- _ => vm_compute; reflexivity end. Qed.

(** ** C60: the accepted language *)
Theorem C60_accepted : forall p s body,
  line_text s body ->
  (exists l, line_parse p s = POk l) <-> (exists st, accepts p body st).
Proof. exact top_C60. Qed.
Print Assumptions C60_accepted.
Theorem C60_meaning : forall p s body l st,
  line_text s body -> line_parse p s = POk l -> accepts p body st -> means st l.
Proof. exact top_C60_meaning. Qed.
Print Assumptions C60_meaning.
Theorem C60_unambiguous : forall p s st st',
  accepts p s st -> accepts p s st' -> st = st'.
Proof. exact accepts_det. Qed.
Print Assumptions C60_unambiguous.
Example C60_case : accepts Debug (lit "mov rax, eax") (StMovSym64 RAX (lit "eax")) /\ accepts Debug (lit ":") (StLabel []) /\
  (forall p, exists i, line_parse p (lit "mov rax, eax") = POk (LInst i) /\
     in_reloc i = Some {| lr_offset := 2; lr_symbol := lit "eax"; lr_pcrel := false; lr_len := 3 |}) /\
  (forall p, line_parse p (lit ":") = POk (LSymbol [])).
Proof.
  split.
  { as_text ([] ++ lit "mov " ++ [] ++ name64 RAX ++ [] ++ 44 :: [32] ++ lit "eax" ++ []). apply ac_mov; try blk; [split; not_in|].
    apply mo_sym64.
    - right. exists (lit "eax"), []. split; [wds|]. split; [discriminate|]. split; [discriminate|].
      intros n N. apply num_try_iff in N. vm_compute in N. discriminate N.
    - intros [] E; discriminate E. }
  split.
  { apply (ac_label Debug _ [] 0); [wds|]. intros [|] E; discriminate E. }
  split; [intros []; eexists; split; vm_compute; reflexivity|]. intros []; vm_compute; reflexivity.
Qed.

(** ** A source for the examples: text and data interleaved, a symbolic mov, a global declared
    after its label *)
Definition ex_source : list Z := utf8 (
  lit "start:" ++ [10] ++ lit "  mov rsi, msg ; address" ++ [10] ++ lit "section .data" ++ [10] ++
  lit "n dd 7" ++ [10] ++ lit "msg db ""Hi"", 10" ++ [10] ++ lit "section .text" ++ [10] ++
  lit "global start" ++ [10] ++ lit "  push 5" ++ [10] ++ lit "fin: " ++ [10] ++ lit "  ret").
Definition ex_prog : prog :=
  [ (StLabel (lit "start"), []); (StMovSym64 RSI (lit "msg"), [0x48; 0xBE; 0; 0; 0; 0; 0; 0; 0; 0]); (StSection SData, []);
    (StData (Some (lit "n")) [7; 0; 0; 0], [7; 0; 0; 0]); (StData (Some (lit "msg")) [72; 105; 10], [72; 105; 10]);
    (StSection SText, []); (StGlobal (lit "start"), []); (StInstr (PushI8 5), [0x6A; 5]); (StLabel (lit "fin"), []);
    (StInstr Ret, [0xC3]) ].
Definition ex_state (p : profile) : asm := match read_from p asm_new ex_source with Done a => a | _ => asm_new end.
Lemma ascii_ok s : forallb (fun c => (0 <=? c) && (c <? 128)) s = true -> str_ok s.
Proof.
  intro H. apply Forall_forall. intros c I. rewrite forallb_forall in H. apply H in I. apply Bool.andb_true_iff in I.
  destruct I as [I1 I2]. apply Z.leb_le in I1. apply Z.ltb_lt in I2. unfold ischar. lia.
Qed.
Lemma bytes_dec l : forallb (fun c => (0 <=? c) && (c <? 256)) l = true -> bytes_ok l.
Proof.
  intro H. apply Forall_forall. intros c I. rewrite forallb_forall in H. apply H in I. apply Bool.andb_true_iff in I.
  destruct I as [I1 I2]. apply Z.leb_le in I1. apply Z.ltb_lt in I2. unfold isbyte. lia.
Qed.
Lemma nonul_dec l : forallb (fun c => negb (c =? 0)) l = true -> ~ In 0 l.
Proof. intros H I. rewrite forallb_forall in H. apply H in I. discriminate I. Qed.
Ltac line_ex s b := exists s, b; split; [vm_compute; reflexivity|]; split; [apply ascii_ok; vm_compute; reflexivity|]; split; [ltext|split].
Lemma ex_session p : session p [ex_source] (ex_state p).
Proof. apply (ses_read p [] asm_new); [constructor|]. destruct p; vm_compute; reflexivity. Qed.
Lemma ex_sources p : sources_are p [ex_source] ex_prog.
Proof.
  exists [ex_prog]. split; [|cbn [concat]; now rewrite app_nil_r]. constructor; [|constructor].
  exists (raw_lines ex_source). split; [apply raw_lines_spec|].
  replace (raw_lines ex_source) with
    [ lit "start:" ++ [10]; lit "  mov rsi, msg ; address" ++ [10]; lit "section .data" ++ [10]; lit "n dd 7" ++ [10];
      lit "msg db ""Hi"", 10" ++ [10]; lit "section .text" ++ [10]; lit "global start" ++ [10]; lit "  push 5" ++ [10];
      lit "fin: " ++ [10]; lit "  ret" ] by (vm_compute; reflexivity).
  unfold ex_prog. repeat apply Forall2_cons; [| | | | | | | | | |apply Forall2_nil].
  - line_ex (lit "start:" ++ [10]) (lit "start:" ++ [10]); [apply (ac_label p _ (lit "start") 0); [wds|nolbl]|reflexivity].
  - line_ex (lit "  mov rsi, msg ; address" ++ [10]) (lit "  mov rsi, msg "); [|eexists; split; vm_compute; reflexivity].
    as_text ([32; 32] ++ lit "mov " ++ [] ++ name64 RSI ++ [] ++ 44 :: [32] ++ lit "msg" ++ [32]). apply ac_mov; try blk; [split; not_in|]. apply mo_sym64.
    + right. exists (lit "msg"), []. split; [wds|]. split; [discriminate|]. split; [discriminate|].
      intros n N. apply num_try_iff in N. vm_compute in N. discriminate N.
    + intros [] E; discriminate E.
  - line_ex (lit "section .data" ++ [10]) (lit "section .data" ++ [10]); [apply ac_section; wds|reflexivity].
  - line_ex (lit "n dd 7" ++ [10]) (lit "n dd 7" ++ [10]); [|reflexivity].
    as_text ([] ++ lit "n" ++ 32 :: [] ++ unit_name DD ++ 32 :: [] ++ lit "7" ++ [10]).
    eapply (ac_data_label p [] (lit "n") 32 [] DD 32 [] (lit "7") [10] [INum 7]); [blk| |discriminate|discriminate|nolbl| |is_in|blk|is_in|blk|discriminate| |blk| |].
    + split; [discriminate|]. repeat (constructor; [not_in|]); constructor.
    + intros [] E; discriminate E.
    + split; not_in.
    + apply it_last. nmb.
    + exists [[7; 0; 0; 0]]. split; [|reflexivity]. constructor; [|constructor].
      split; [vm_compute; reflexivity|split; [reflexivity|split; [apply bytes_dec; reflexivity|reflexivity]]].
  - line_ex (lit "msg db ""Hi"", 10" ++ [10]) (lit "msg db ""Hi"", 10" ++ [10]); [|reflexivity].
    as_text ([] ++ lit "msg" ++ 32 :: [] ++ unit_name DB ++ 32 :: [] ++ lit """Hi"", 10" ++ [10]).
    eapply (ac_data_label p [] (lit "msg") 32 [] DB 32 [] (lit """Hi"", 10") [10] [IStr (lit "Hi"); INum 10]); [blk| |discriminate|discriminate|nolbl| |is_in|blk|is_in|blk|discriminate| |blk| |].
    + split; [discriminate|]. repeat (constructor; [not_in|]); constructor.
    + intros [] E; discriminate E.
    + split; not_in.
    + apply (it_str (lit "Hi") [44; 32] (lit "10")); [not_in| | |].
      * constructor; [right; reflexivity|]. constructor; [left; is_in|constructor].
      * cbn. unfold delim, space. vm_compute. intuition congruence.
      * apply it_last. nmb.
    + exists [lit "Hi"; [10]]. split; [|reflexivity]. constructor.
      * exists 0%nat. split; [reflexivity|]. split; [apply Nat.ltb_lt; reflexivity|reflexivity].
      * constructor; [|constructor]. split; [vm_compute; reflexivity|split; [reflexivity|split; [apply bytes_dec; reflexivity|reflexivity]]].
  - line_ex (lit "section .text" ++ [10]) (lit "section .text" ++ [10]); [apply ac_section; wds|reflexivity].
  - line_ex (lit "global start" ++ [10]) (lit "global start" ++ [10]); [apply ac_global; wds|reflexivity].
  - line_ex (lit "  push 5" ++ [10]) (lit "  push 5" ++ [10]); [|eexists; split; vm_compute; reflexivity].
    apply (ac_push8 p _ (lit "5") 5 []); [wds|nmb].
  - line_ex (lit "fin: " ++ [10]) (lit "fin: " ++ [10]); [apply (ac_label p _ (lit "fin") 0); [wds|nolbl]|reflexivity].
  - line_ex (lit "  ret") (lit "  ret"); [|eexists; split; vm_compute; reflexivity].
    apply (ac_ret p _ []); [wds|discriminate].
Qed.
Lemma ex_bytes : Forall bytes_ok [ex_source] /\ Forall (fun i => ~ In 0 i) [ex_source].
Proof. split; (constructor; [|constructor]); [apply bytes_dec|apply nonul_dec]; vm_compute; reflexivity. Qed.

(** ** Runs: what the assembler state is after any sequence of sources *)
Theorem session_state : forall p ins a,
  Forall bytes_ok ins -> session p ins a ->
  exists pr, sources_are p ins pr /\ bss_clean pr /\ assembled pr a.
Proof. exact top_session. Qed.
Print Assumptions session_state.
Theorem session_exists : forall p ins pr,
  Forall bytes_ok ins -> sources_are p ins pr -> bss_clean pr -> size_ok p pr ->
  exists a, session p ins a /\ assembled pr a.
Proof. exact top_session_complete. Qed.
Print Assumptions session_exists.

(** ** C45: labels *)
Theorem C45_labels : forall p ins a pr,
  Forall bytes_ok ins -> session p ins a -> sources_are p ins pr ->
  forall pre st bs post n, pr = pre ++ (st, bs) :: post -> stmt_label st = Some n ->
  let s := last_sect SText pre in
  nth_error (sec_symbols (as_obj a) s) (label_count (during s SText pre)) =
    Some (SyRef n (zlen (out_bytes (during s SText pre))) (is_global pr n)).
Proof. exact top_C45. Qed.
Print Assumptions C45_labels.
Theorem C45_nothing_else : forall p ins a pr,
  Forall bytes_ok ins -> session p ins a -> sources_are p ins pr ->
  forall s j y, nth_error (sec_symbols (as_obj a) s) j = Some y ->
  exists pre st bs post n, pr = pre ++ (st, bs) :: post /\ stmt_label st = Some n /\ last_sect SText pre = s /\
    j = label_count (during s SText pre) /\ y = SyRef n (zlen (out_bytes (during s SText pre))) (is_global pr n).
Proof. exact top_C45_only. Qed.
Print Assumptions C45_nothing_else.
Example C45_case : forall p, session p [ex_source] (ex_state p) /\ sources_are p [ex_source] ex_prog /\
  sec_symbols (as_obj (ex_state p)) SText = [SyRef (lit "start") 0 true; SyRef (lit "fin") 12 false] /\
  sec_symbols (as_obj (ex_state p)) SData = [SyRef (lit "n") 0 false; SyRef (lit "msg") 4 false].
Proof. intro p. split; [apply ex_session|]. split; [apply ex_sources|]. destruct p; split; vm_compute; reflexivity. Qed.

(** ** C46: section contents *)
Theorem C46_contents : forall p ins a pr,
  Forall bytes_ok ins -> session p ins a -> sources_are p ins pr ->
  sec_bytes (as_obj a) SText = out_bytes (during SText SText pr) /\ sec_bytes (as_obj a) SData = out_bytes (during SData SText pr) /\
  as_sect a = last_sect SText pr.
Proof. exact top_C46. Qed.
Print Assumptions C46_contents.
Example C46_case : forall p,
  sec_bytes (as_obj (ex_state p)) SText = [0x48; 0xBE; 0; 0; 0; 0; 0; 0; 0; 0; 0x6A; 5; 0xC3] /\
  sec_bytes (as_obj (ex_state p)) SData = [7; 0; 0; 0; 72; 105; 10] /\ as_sect (ex_state p) = SText.
Proof. intros []; repeat split; vm_compute; reflexivity. Qed.

(** ** C47: global *)
Theorem C47_external : forall p ins a pr,
  Forall bytes_ok ins -> session p ins a -> sources_are p ins pr ->
  forall s y, In y (sec_symbols (as_obj a) s) ->
  exists n off g, y = SyRef n off g /\ (g = true <-> exists bs, In (StGlobal n, bs) pr).
Proof. exact top_C47. Qed.
Print Assumptions C47_external.
Example C47_case : In (StGlobal (lit "start"), []) ex_prog /\
  forall p, In (SyRef (lit "start") 0 true) (sec_symbols (as_obj (ex_state p)) SText) /\ In (SyRef (lit "fin") 12 false) (sec_symbols (as_obj (ex_state p)) SText).
Proof. split; [is_in|]. intros []; split; is_in. Qed.

(** ** How reading a source ends, exactly *)
Theorem ends_done : forall p ins a pr input ls,
  Forall bytes_ok ins -> bytes_ok input -> session p ins a -> sources_are p ins pr ->
  source_lines input ls ->
  forall a', read_from p a input = Done a' <-> exists pr', passes p pr ls pr' /\ assembled pr' a'.
Proof. exact top_done. Qed.
Print Assumptions ends_done.
Theorem ends_exit : forall p ins a pr input ls,
  Forall bytes_ok ins -> bytes_ok input -> session p ins a -> sources_are p ins pr ->
  source_lines input ls ->
  forall c e, read_from p a input = Exit c e <->
    c = 1 /\ exists good bad rest pr', ls = good ++ bad :: rest /\ passes p pr good pr' /\ ends_with_error p pr' bad e.
Proof. exact top_exit. Qed.
Print Assumptions ends_exit.
Theorem ends_panic : forall p ins a pr input ls,
  Forall bytes_ok ins -> bytes_ok input -> session p ins a -> sources_are p ins pr ->
  source_lines input ls ->
  read_from p a input = Crash <->
    exists good bad rest pr', ls = good ++ bad :: rest /\ passes p pr good pr' /\ crashes p pr' bad.
Proof. exact top_crash. Qed.
Print Assumptions ends_panic.

(** ** C48: the first bad line *)
Theorem C48_reported : forall p ins a pr input good bad rest prs s msg,
  Forall bytes_ok ins -> bytes_ok input -> session p ins a -> sources_are p ins pr ->
  source_lines input (good ++ bad :: rest) -> Forall2 (line_is p) good prs ->
  bss_clean (pr ++ prs) -> size_ok p (pr ++ prs) -> zlen pr + zlen good + 1 < 2 ^ 32 ->
  bad = utf8 s -> str_ok s -> line_reports p s msg ->
  exists err, bad_line_report (zlen pr + zlen good + 1) msg err /\ read_from p a input = Exit 1 err.
Proof. exact top_C48. Qed.
Print Assumptions C48_reported.
Example C48_case : forall p, line_reports p (lit "mov ax, 70000" ++ [10]) (lit "70000 is not 16bit") /\
  read_from p asm_new (utf8 (lit "ret" ++ [10] ++ lit "; ok" ++ [10] ++ lit "mov ax, 70000" ++ [10] ++ lit "bogus")) =
    Exit 1 (lit "error at line 3: 70000 is not 16bit" ++ [10]).
Proof. intro p. split; [apply top_C67|]; destruct p; vm_compute; reflexivity. Qed.

(** ** C49: assembling in pieces *)
Theorem C49_pieces : forall p a x y,
  x = [] \/ (exists x', x = x' ++ [10]) ->
  read_from p a (x ++ y) = obind (read_from p a x) (fun a' => read_from p a' y).
Proof. exact top_C49. Qed.
Print Assumptions C49_pieces.
Example C49_case : forall p, exists x y, ex_source = x ++ y /\ (exists x', x = x' ++ [10]) /\ y <> [] /\
  read_from p asm_new ex_source = obind (read_from p asm_new x) (fun a => read_from p a y).
Proof.
  intro p. exists (firstn 32 ex_source), (skipn 32 ex_source). split; [symmetry; apply firstn_skipn|].
  split; [exists (firstn 31 ex_source); vm_compute; reflexivity|]. split; [vm_compute; discriminate|]. destruct p; vm_compute; reflexivity.
Qed.

(** ** C50: .bss stays empty *)
Theorem C50_size : forall p ins a,
  Forall bytes_ok ins -> session p ins a -> bss_size (o_bss (as_obj a)) = 0.
Proof. exact top_C50_size. Qed.
Print Assumptions C50_size.
Theorem C50_ends : forall p ins a pr input good bad rest prs x,
  Forall bytes_ok ins -> bytes_ok input -> session p ins a -> sources_are p ins pr ->
  source_lines input (good ++ bad :: rest) -> Forall2 (line_is p) good prs ->
  bss_clean (pr ++ prs) -> size_ok p (pr ++ prs ++ [x]) ->
  line_is p bad x -> last_sect SText (pr ++ prs) = SBss -> stmt_writes (fst x) = true ->
  read_from p a input = match stmt_reloc (fst x) with None => Exit 1 bss_msg | Some _ => Crash end.
Proof. exact top_C50. Qed.
Print Assumptions C50_ends.
Example C50_case : forall p, read_from p asm_new (utf8 (lit "section .bss" ++ [10] ++ lit "buf:" ++ [10] ++ lit "db 0")) =
    Exit 1 (lit "error: can't write data to .bss section" ++ [10]) /\
  read_from p asm_new (utf8 (lit "section .bss" ++ [10] ++ lit "mov rax, buf")) = Crash /\
  last_sect SText [(StSection SBss, []); (StLabel (lit "buf"), [])] = SBss.
Proof. intros []; repeat split; vm_compute; reflexivity. Qed.

(** ** C51: relocations *)
Theorem C51_fields : forall p ins a,
  Forall bytes_ok ins -> session p ins a ->
  forall s, zlen (sec_bytes (as_obj a) s) < 2 ^ 31 ->
  Forall (fun r => rl_pcrel r = false /\ exists pre post,
      sec_bytes (as_obj a) s = pre ++ repeat 0 (Z.to_nat (2 ^ rl_len r)) ++ post /\ rl_addr r = zlen pre)
    (sec_relocs_of (as_obj a) s) /\
  StronglySorted rbefore (sec_relocs_of (as_obj a) s).
Proof. exact top_C51. Qed.
Print Assumptions C51_fields.
Example C51_case : forall p, sec_relocs_of (as_obj (ex_state p)) SText = [{| rl_addr := 2; rl_symbol := lit "msg"; rl_pcrel := false; rl_len := 3 |}] /\
  zlen (sec_bytes (as_obj (ex_state p)) SText) = 13.
Proof. intros []; split; vm_compute; reflexivity. Qed.

(** ** C52: from source to object file *)
Theorem C52_written : forall p h ins a pr,
  Forall bytes_ok ins -> Forall (fun i => ~ In 0 i) ins -> session p ins a -> sources_are p ins pr ->
  fits (object_of pr) ->
  (snd (asm_write_into p h a) = true <->
   (forall n, written_label pr n -> Forall (fun c => c < 128) n) /\ (forall n, refers pr n -> written_label pr n)).
Proof. exact top_C52_written. Qed.
Print Assumptions C52_written.
Theorem C52_file : forall p h ins a pr f,
  Forall bytes_ok ins -> Forall (fun i => ~ In 0 i) ins -> session p ins a -> sources_are p ins pr ->
  fits (object_of pr) -> small pr -> zlen (syms (object_of pr)) <= 2 ^ 24 -> asm_write_into p h a = (f, true) ->
  forall s, s <> SBss -> let l := during s SText pr in out_bytes l <> [] ->
  exists i x, section_at h (pos_sections + 80 * i) f x /\ sc_sectname x = sec_name s /\ sc_segname x = seg_name s /\
    slice (Z.to_nat (sc_offset x)) (Z.to_nat (sc_size x)) f = out_bytes l /\ sc_nreloc x = zlen (out_relocs 0 l) /\
    (forall n off, In (n, off) (out_labels 0 l) ->
       exists j e, (j < length (syms (object_of pr)))%nat /\ nlist_at h (pos_syms (object_of pr) + 16 * j) f e /\
         until_nul (skipn (pos_strs (object_of pr) + Z.to_nat (nl_strx e)) f) = n /\
         nl_type e = Norm false Sect (is_global pr n) /\ nl_sect e = Z.of_nat (S i) /\ nl_value e = sc_addr x + off) /\
    (forall m n k off, nth_error (out_relocs 0 l) m = Some (n, k, off) ->
       exists j e, reloc_at h (Z.to_nat (sc_reloff x) + 8 * m) f
           {| r_address := off; r_symbolnum := Z.of_nat j; r_pcrel := false;
              r_length := reloc_len_of k; r_extern := true; r_type := 0 |} /\
         nlist_at h (pos_syms (object_of pr) + 16 * j) f e /\
         until_nul (skipn (pos_strs (object_of pr) + Z.to_nat (nl_strx e)) f) = n).
Proof. exact top_C52. Qed.
Print Assumptions C52_file.
Theorem C52_disassembly : forall p ins pr s,
  sources_are p ins pr ->
  Forall (fun x => is_data (fst x) = false) (during s SText pr) ->
  decode_all (length (out_bytes (during s SText pr))) (out_bytes (during s SText pr)) =
    Some (flat_map (fun x => stmt_ops (fst x)) (during s SText pr)).
Proof. exact top_C52_decode. Qed.
Print Assumptions C52_disassembly.
Lemma ex_fits : fits (object_of ex_prog).
Proof. split; [split; vm_compute; reflexivity|]. split; [vm_compute; reflexivity|]. repeat (constructor; [vm_compute; reflexivity|]). constructor. Qed.
Example C52_case : forall p h, let o := object_of ex_prog in
  Forall bytes_ok [ex_source] /\ Forall (fun i => ~ In 0 i) [ex_source] /\ session p [ex_source] (ex_state p) /\ sources_are p [ex_source] ex_prog /\
  as_obj (ex_state p) = o /\ fits o /\ small ex_prog /\ snd (asm_write_into p h (ex_state p)) = true /\
  slice 288 20 (fst (asm_write_into p h (ex_state p))) = out_bytes (during SText SText ex_prog) ++ out_bytes (during SData SText ex_prog).
Proof.
  intros p h. cbv zeta. destruct ex_bytes as [B1 B2]. split; [exact B1|]. split; [exact B2|]. split; [apply ex_session|]. split; [apply ex_sources|].
  split; [destruct p; vm_compute; reflexivity|]. split; [exact ex_fits|]. split; [split; vm_compute; reflexivity|].
  split; destruct p, h; vm_compute; reflexivity.
Qed.
Example C52_case_ops : decode_all 13 (out_bytes (during SText SText ex_prog)) = Some [OMovImm 64 6 0; OPushImm 64 5; ORet].
Proof. vm_compute. reflexivity. Qed.

(** ** C55: symbols defined elsewhere.  The full statement (they become undefined symbols) is false: writing always panics *)
Theorem C55_panics_partial : forall p h ins a pr n,
  Forall bytes_ok ins -> Forall (fun i => ~ In 0 i) ins -> session p ins a -> sources_are p ins pr ->
  fits (object_of pr) -> refers pr n -> ~ written_label pr n -> snd (asm_write_into p h a) = false.
Proof. exact top_C55. Qed.
Print Assumptions C55_panics_partial.
Theorem C55_no_undefined_partial : forall p ins a,
  Forall bytes_ok ins -> session p ins a ->
  forall n, ~ In (SyUndef n) (obj_symbols (as_obj a)).
Proof. exact top_C55_no_undef. Qed.
Print Assumptions C55_no_undefined_partial.
Theorem C55_refuted : exists src, forall p h, exists a, read_from p asm_new src = Done a /\ snd (asm_write_into p h a) = false /\
  as_obj a = object_of [(StMovSym64 RAX (lit "exit"), [0x48; 0xB8; 0; 0; 0; 0; 0; 0; 0; 0])].
Proof.
  exists (utf8 (lit "mov rax, exit")). intros p h.
  exists (match read_from p asm_new (utf8 (lit "mov rax, exit")) with Done a => a | _ => asm_new end).
  split; [destruct p; vm_compute; reflexivity|]. split; [destruct p, h; vm_compute; reflexivity|destruct p; vm_compute; reflexivity].
Qed.
Print Assumptions C55_refuted.

(** ** C53: the command line *)
Theorem C53_command : forall args o,
  command args o <-> config_init args = o.
Proof. exact top_C53. Qed.
Print Assumptions C53_command.
Theorem C53_object_path : forall path out,
  object_path path out <-> with_extension_o path = out.
Proof. exact top_C53_path. Qed.
Print Assumptions C53_object_path.
Example C53_case :
  config_init [lit "at-asm"; lit "dir.d/a.b.s"] = Done {| cf_output := lit "dir.d/a.b.o"; cf_input := lit "dir.d/a.b.s" |} /\
  config_init [lit "at-asm"; lit "-o"; lit "x"; lit "a.s"] = Done {| cf_output := lit "x"; cf_input := lit "a.s" |} /\
  config_init [lit "at-asm"; lit "a.s"; lit "-o"; lit "x"] = Done {| cf_output := lit "x"; cf_input := lit "a.s" |} /\
  config_init [lit "at-asm"; lit "a.s"; lit "-o"] = Crash /\ status (config_init [lit "at-asm"]) = 1 /\
  status (config_init [lit "at-asm"; lit "a.s"; lit "b.s"]) = 1 /\
  with_extension_o (lit "/a/b.s/.") = lit "/a/b.o" /\ with_extension_o (lit "a/.s") = lit "a/.s.o" /\ with_extension_o (lit "..") = lit "..".
Proof. repeat split; vm_compute; reflexivity. Qed.

(** ** C54: files.  The full statement (a failed run changes no file) is false; what changes, exactly *)
Theorem C54_other_files : forall p h args w s,
  (forall cf, config_init args = Done cf -> w_slot w (cf_output cf) <> Some s) ->
  w_data (fst (main p h args w)) s = w_data w s.
Proof. exact top_C54_others. Qed.
Print Assumptions C54_other_files.
Theorem C54_input : forall p h args w cf i,
  config_init args = Done cf -> w_slot w (cf_input cf) = Some i ->
  w_slot w (cf_output cf) <> Some i -> w_data (fst (main p h args w)) i = w_data w i.
Proof. exact top_C54_input. Qed.
Print Assumptions C54_input.
Theorem C54_output_partial : forall p h args w cf i o src,
  config_init args = Done cf -> w_slot w (cf_input cf) = Some i ->
  w_data w i = Some src -> w_slot w (cf_output cf) = Some o -> i <> o ->
  match read_from p asm_new src with
  | Done a => w_data (fst (main p h args w)) o = Some (fst (asm_write_into p h a)) /\
      snd (main p h args w) = if snd (asm_write_into p h a) then Done tt else Crash
  | Exit c e => w_data (fst (main p h args w)) o = Some [] /\ snd (main p h args w) = Exit c e
  | Crash => w_data (fst (main p h args w)) o = Some [] /\ snd (main p h args w) = Crash
  end.
Proof. exact top_C54_output. Qed.
Print Assumptions C54_output_partial.
Theorem C54_same_file_partial : forall p h args w cf i src,
  config_init args = Done cf -> w_slot w (cf_input cf) = Some i ->
  w_data w i = Some src -> w_slot w (cf_output cf) = Some i ->
  w_data (fst (main p h args w)) i = Some (fst (asm_write_into Debug h asm_new)) /\ snd (main p h args w) = Done tt.
Proof. exact top_C54_same. Qed.
Print Assumptions C54_same_file_partial.
Theorem C54_refused : forall p h args w,
  (forall cf i o src, config_init args = Done cf -> w_slot w (cf_input cf) = Some i -> w_data w i = Some src ->
     w_slot w (cf_output cf) <> Some o) ->
  fst (main p h args w) = w /\ snd (main p h args w) <> Done tt.
Proof. exact top_C54_refused. Qed.
Print Assumptions C54_refused.
(** a.s holds [src], a.o holds [old] *)
Definition ex_world (src old : list Z) : world :=
  {| w_slot := fun n => if str_eqb n (lit "a.s") then Some 1 else if str_eqb n (lit "a.o") then Some 2 else None;
     w_data := fun k => if k =? 1 then Some src else if k =? 2 then Some old else None |}.
Theorem C54_refuted : forall p h,
  (exists args w old, snd (main p h args w) <> Done tt /\ old <> [] /\ w_data w 2 = Some old /\ w_data (fst (main p h args w)) 2 = Some []) /\
  (exists args w old bs, snd (main p h args w) = Crash /\ old <> [] /\ bs <> [] /\ w_data w 2 = Some old /\ w_data (fst (main p h args w)) 2 = Some bs) /\
  (exists args w cf src, config_init args = Done cf /\ cf_input cf = lit "a.o" /\ snd (main p h args w) = Done tt /\
     w_data w 2 = Some src /\ w_data (fst (main p h args w)) 2 <> Some src).
Proof.
  intros p h. split; [|split].
  - exists [lit "at-asm"; lit "a.s"], (ex_world (utf8 (lit "bogus")) [1; 2; 3]), [1; 2; 3].
    split; [destruct p; vm_compute; discriminate|]. split; [discriminate|]. split; [reflexivity|]. destruct p; vm_compute; reflexivity.
  - exists [lit "at-asm"; lit "a.s"], (ex_world (utf8 (lit "mov rax, exit")) [1; 2; 3]), [1; 2; 3].
    exists (match w_data (fst (main p h [lit "at-asm"; lit "a.s"] (ex_world (utf8 (lit "mov rax, exit")) [1; 2; 3]))) 2 with Some b => b | None => [] end).
    split; [destruct p, h; vm_compute; reflexivity|]. split; [discriminate|]. split; [destruct p, h; vm_compute; discriminate|].
    split; [reflexivity|]. destruct p, h; vm_compute; reflexivity.
  - exists [lit "at-asm"; lit "a.o"], (ex_world [] (utf8 (lit "ret"))), {| cf_output := lit "a.o"; cf_input := lit "a.o" |}, (utf8 (lit "ret")).
    split; [reflexivity|]. split; [reflexivity|]. split; [destruct p, h; vm_compute; reflexivity|]. split; [reflexivity|].
    destruct p, h; vm_compute; discriminate.
Qed.
Print Assumptions C54_refuted.
Example C54_case : forall p h, let r := main p h [lit "at-asm"; lit "a.s"] (ex_world ex_source [1; 2; 3]) in
  snd r = Done tt /\ w_data (fst r) 1 = Some ex_source /\ w_data (fst r) 2 = Some (fst (asm_write_into p h (ex_state p))).
Proof. intros p h. cbv zeta. split; [|split]; destruct p, h; vm_compute; reflexivity. Qed.
