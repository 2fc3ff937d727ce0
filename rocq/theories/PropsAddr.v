(** C91: which addresses and which pushed numbers can be expressed. *)
From Coq Require String.
Import String.StringSyntax.
From Verif Require Import Base Str X64 SpecX86 Asm SpecAsm SpecAddr PfAddr.

(** an address has an operand exactly when it is [expressible] *)
Theorem C91_addresses : forall w, want_ok w ->
  (exists m, mem_ok m /\ mem_scale_ok m /\ lea_gives m w) <-> expressible w.
Proof. exact top_C91_addresses. Qed.
Print Assumptions C91_addresses.
(** and this is one, in loads of the address and in stores *)
Theorem C91_operand : forall w, want_ok w -> expressible w ->
  mem_ok (operand_for w) /\ mem_scale_ok (operand_for w) /\
  lea_gives (operand_for w) w /\ store_goes (operand_for w) w.
Proof. exact top_C91_operand. Qed.
Print Assumptions C91_operand.
(** the constructors make the operands they are named after, with the displacement as a u32 *)
Theorem C91_constructors : forall r d, - 2 ^ 31 <= d < 2 ^ 31 ->
  (~ (128 <= d <= 256) ->
   lea_gives (mem_reg_offset r (d mod 2 ^ 32)) (WReg (Some r) None d) /\ store_goes (mem_reg_offset r (d mod 2 ^ 32)) (WReg (Some r) None d)) /\
  lea_gives (mem_rip_offset (d mod 2 ^ 32)) (WRip d) /\ store_goes (mem_rip_offset (d mod 2 ^ 32)) (WRip d) /\
  lea_gives (mem_reg r) (WReg (Some r) None 0) /\ store_goes (mem_reg r) (WReg (Some r) None 0).
Proof. exact top_C91_constructors. Qed.
Print Assumptions C91_constructors.
(** not every address of the instruction set has one: [rsp + 128] *)
Theorem C91_no_operand : exists w, want_ok w /\
  forall m, mem_ok m -> mem_scale_ok m -> ~ lea_gives m w.
Proof.
  exists (WReg (Some RSP) None 128). assert (O : want_ok (WReg (Some RSP) None 128)) by (cbn; lia).
  split; [exact O|]. intros m A B C.
  assert (X : expressible (WReg (Some RSP) None 128)) by (apply (top_C91_addresses _ O); eauto).
  cbn [expressible] in X. destruct X as [X|[X|[[_ X]|(r & _ & X)]]]; try congruence. lia.
Qed.
Print Assumptions C91_no_operand.

(** the constants some instruction of the library pushes *)
Theorem C91_push_instr : forall v, in_i64 v ->
  (exists i bs, instr_ok i /\ emits i bs /\ pushes bs v) <-> - 2 ^ 31 <= v < 2 ^ 31.
Proof. exact top_C91_push_instr. Qed.
Print Assumptions C91_push_instr.
(** the constants some source line pushes *)
Theorem C91_push : forall p v, in_i64 v ->
  (exists s i, line_parse p s = POk (LInst i) /\ pushes (bam_ref (in_bytes i)) v) <->
  - 2 ^ 31 <= v < 2 ^ 31 /\ ~ (128 <= v <= 255).
Proof. exact top_C91_push. Qed.
Print Assumptions C91_push.

(** lea rcx, with [rax + 200], [rax + rax + 200], [rbx + rcx*4 - 8], [rbx + rcx*4 + 257];
    [rbx + rcx*4 + 200] has no operand *)
Example C91_case :
  asm_bytes (Lea64 RCX (operand_for (WReg (Some RAX) None 200))) = Some [0x48; 0x8D; 0x0C; 0x05; 200; 0; 0; 0] /\
  asm_bytes (Lea64 RCX (operand_for (WReg (Some RAX) (Some (RAX, 0)) 200))) = Some [0x48; 0x8D; 0x0C; 0x45; 200; 0; 0; 0] /\
  asm_bytes (Lea64 RCX (operand_for (WReg (Some RBX) (Some (RCX, 2)) (-8)))) = Some [0x48; 0x8D; 0x8C; 0x8B; 0xF8; 0xFF; 0xFF; 0xFF] /\
  asm_bytes (Lea64 RCX (operand_for (WReg (Some RBX) (Some (RCX, 2)) 257))) = Some [0x48; 0x8D; 0x8C; 0x8B; 1; 1; 0; 0] /\
  ~ expressible (WReg (Some RBX) (Some (RCX, 2)) 200) /\
  expressible (WReg (Some RBX) (Some (RCX, 2)) 257) /\ expressible (WReg None (Some (RCX, 2)) 200).
Proof.
  do 4 (split; [vm_compute; reflexivity|]). cbn [expressible]. split; [|split; [left; lia|right; now left]].
  intros [X|[X|[[X _]|(r & E1 & E2)]]]; [lia|discriminate|discriminate|congruence].
Qed.
(** `push 4294967295` pushes -1, `push 127` pushes 127; no line pushes 200, though PushI32 200 would *)
Example C91_push_case : forall p,
  (exists s i, line_parse p s = POk (LInst i) /\ pushes (bam_ref (in_bytes i)) (-1)) /\
  (exists s i, line_parse p s = POk (LInst i) /\ pushes (bam_ref (in_bytes i)) 127) /\
  ~ (exists s i, line_parse p s = POk (LInst i) /\ pushes (bam_ref (in_bytes i)) 200) /\
  (exists i bs, instr_ok i /\ emits i bs /\ pushes bs 200).
Proof.
  intros p. split; [apply C91_push; unfold in_i64; lia|]. split; [apply C91_push; unfold in_i64; lia|].
  split; [intros X; apply C91_push in X; unfold in_i64; lia|apply C91_push_instr; unfold in_i64; lia].
Qed.
