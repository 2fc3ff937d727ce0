(** Properties of the instruction builder. *)
From Verif Require Import Base X64 SpecX86 SpecEnc PfEnc.

(** C77: what a chain of builder calls encodes to, and when it panics *)
Theorem C77_build cs : Forall call_rng cs -> encodable cs ->
  exists b opc tail imm,
    built cs = Ok b /\
    bam_ref b = match the_prefix cs with Some p => [p] | None => [] end
                ++ rex_bytes (the_rex cs) ++ opc ++ tail ++ imm /\
    bytes_ok (bam_ref b) /\ length (bam_ref b) = built_len cs /\
    imm_is (the_opcode cs) opc /\ imm_is (the_imm cs) imm /\
    match the_modrm cs with
    | None => tail = []
    | Some (r, m) => length tail = rm_len m /\
        forall rest, dec_modrm (operand_rex cs m) (tail ++ rest) = Some (reg_num r, rm_seen m, rest)
    end.
Proof. exact (top_C77_build cs). Qed.

Theorem C77_panics cs : Forall call_rng cs -> (built cs = Panic <-> ~ encodable cs).
Proof. exact (top_C77_panics cs). Qed.

(** add qword [r12+0x100000+r9*8], 0x7f *)
Definition add_calls : list call :=
  [SetOpcode (ImmBytes [0x81]); SetW true; SetModRM (OpExt 0) (ArgMem (MSib (Some R12) 0x100000 R9 3));
   SetImm (Imm32 5); SetOpcode (ImmBytes [0x83]); SetImm (Imm8 0x7f)].
Example C77_build_ex :
  Forall call_rng add_calls /\ encodable add_calls /\ built_len add_calls = 9%nat /\
  match built add_calls with
  | Ok b => bam_ref b = [0x4B; 0x83; 0x84; 0xCC; 0; 0; 0x10; 0; 0x7f]
  | Panic => False
  end.
Proof.
  split; [|split; [|split; [reflexivity|reflexivity]]].
  - repeat constructor; cbn; try lia; unfold isbyte; lia.
  - unfold encodable. split; [|split; [|split; [|split]]].
    + intros l H. cbn in H. repeat (destruct H as [H|H]; [try discriminate H; injection H as <-; cbn; lia|]). destruct H.
    + intros l H. cbn in H. repeat (destruct H as [H|H]; [try discriminate H; injection H as <-; cbn; lia|]). destruct H.
    + intros r m H. injection H as <- <-. cbn. lia.
    + intro. reflexivity.
    + vm_compute. lia.
Qed.

(** each way to fail *)
Example C77_panics_ex :
  built [SetOpcode (ImmBytes [1; 2; 3; 4]); SetOpcode (ImmBytes [1])] = Panic /\
  built [SetOpcode (ImmBytes [0x90]); SetImm (Imm64 1)] = Panic /\
  built [SetOpcode (ImmBytes [0x90]); SetModRM (OpExt 8) (ArgReg64 RAX)] = Panic /\
  built [SetOpcode (ImmBytes [0x90]); SetModRM (OpReg16 R9W) (ArgMem (MSib None 0 RAX 4))] = Panic /\
  built [SetOpcode (Imm32 0x90)] = Panic /\ built [SetOpcode (Imm16 0x050F)] <> Panic /\
  built [SetPrefix 0x66; SetW true; SetOpcode (ImmBytes [1; 2; 3]); SetImm (Imm64 1);
         SetModRM (OpExt 7) (ArgMem (RegOffset RSP 1))] = Panic /\
  built [SetPrefix 0x66; SetW true; SetOpcode (ImmBytes [1; 2]); SetImm (Imm64 1);
         SetModRM (OpExt 7) (ArgMem (RegOffset RSP 1))] <> Panic.
Proof. vm_compute. repeat split; discriminate. Qed.

(** C78: setters of REX, ModRM and SIB *)
Theorem C78_rex x v : inu 8 x ->
  bit_set 3 v x (rex_set_w x v) /\ bit_set 2 v x (rex_set_r x v) /\
  bit_set 1 v x (rex_set_x x v) /\ bit_set 0 v x (rex_set_b x v).
Proof. exact (top_C78_rex x v). Qed.
Example C78_rex_ex : rex_set_w 0x4F false = 0x47 /\ rex_set_b 0x4F false = 0x4E /\ rex_set_x 0x40 true = 0x42.
Proof. repeat split; reflexivity. Qed.

Theorem C78_modrm mode r rm mode' r' rm' :
  0 <= mode <= 3 -> 0 <= r <= 7 -> 0 <= rm <= 7 ->
  (0 <= mode' -> modrm_set_mode (modrm_byte mode r rm) mode' = if mode' <=? 3 then Ok (modrm_byte mode' r rm) else Panic) /\
  (0 <= r' -> modrm_set_reg (modrm_byte mode r rm) r' = if r' <=? 7 then Ok (modrm_byte mode r' rm) else Panic) /\
  (0 <= rm' -> modrm_set_rm (modrm_byte mode r rm) rm' = if rm' <=? 7 then Ok (modrm_byte mode r rm') else Panic).
Proof. exact (top_C78_modrm mode r rm mode' r' rm'). Qed.
Example C78_modrm_ex :
  modrm_set_reg 0xFF 2 = Ok 0xD7 /\ modrm_set_mode 0xFF 1 = Ok 0x7F /\ modrm_set_rm 0xFF 0 = Ok 0xF8
  /\ modrm_set_rm 0xFF 8 = Panic.
Proof. repeat split; reflexivity. Qed.

Theorem C78_sib s i b : 0 <= s -> 0 <= i -> 0 <= b ->
  sib_new s i b = if (s <=? 3) && (i <=? 7) && (b <=? 7) then Ok (64 * s + 8 * i + b) else Panic.
Proof. exact (top_C78_sib s i b). Qed.
Example C78_sib_ex : sib_new 2 5 1 = Ok 0xA9 /\ sib_new 4 0 0 = Panic /\ sib_new 0 8 0 = Panic.
Proof. repeat split; reflexivity. Qed.

(** a new REX byte is 0100 with all four bits clear, a new ModRM byte has all fields zero *)
Theorem C78_new w r x b :
  rex_set_b (rex_set_x (rex_set_r (rex_set_w rex_new w) r) x) b = 0x40 + 8 * bit w + 4 * bit r + 2 * bit x + bit b /\
  modrm_new = modrm_byte 0 0 0.
Proof. split; [now destruct w, r, x, b|reflexivity]. Qed.
Print Assumptions C78_new.
Example C78_new_ex : modrm_set_mode modrm_new 3 = Ok 0xC0 /\ rex_set_w rex_new true = 0x48.
Proof. repeat split; reflexivity. Qed.

(** the accessors of a register make the ModRM byte of `op a, b` on two registers *)
Theorem C78_regs a b rest :
  dec_modrm {| rw := 1; rr := bit (rex_r_bit a); rx := 0; rb := bit (rex_b_bit b) |}
            (modrm_byte (mode_bits b) (reg_bits a) (rm_bits b) :: rest)
  = Some (hw64 a, RmReg (hw64 b), rest).
Proof. exact (top_C78_regs a b rest). Qed.
Example C78_regs_ex : modrm_byte (mode_bits RBX) (reg_bits R10) (rm_bits RBX) = 0xD3 /\ rex_r_bit R10 = true
  /\ rex_b_bit RBX = false.
Proof. repeat split; reflexivity. Qed.

Print Assumptions C77_build.
Print Assumptions C77_panics.
Print Assumptions C78_rex.
Print Assumptions C78_modrm.
Print Assumptions C78_sib.
Print Assumptions C78_regs.
