(** The instruction builder of at-x64 (encoder/mod.rs): what a chain of builder calls must
    produce, in terms of Intel's instruction format (SpecX86). *)
From Verif Require Import Base X64 SpecX86.

(** ** Builder calls *)

(** the two operands of a ModRM byte: a register or an opcode extension; a register or memory *)
Inductive regop := OpReg64 (r : reg64) | OpReg32 (r : reg32) | OpReg16 (r : reg16) | OpExt (n : Z).
Inductive rmarg := ArgReg64 (r : reg64) | ArgReg32 (r : reg32) | ArgReg16 (r : reg16) | ArgMem (m : mem64).
(** what `opcode` and `imm` take: the conversions into `BytesAtMost` *)
Inductive immarg := ImmBytes (l : list Z) | Imm8 (n : Z) | Imm16 (n : Z) | Imm32 (n : Z) | Imm64 (n : Z).
Inductive call :=
| SetPrefix (p : Z)
| SetW (w : bool)
| SetB (b : bool)
| SetOpcode (o : immarg)
| SetModRM (r : regop) (m : rmarg)
| SetImm (i : immarg).

(** integer ranges guaranteed by the Rust types *)
Definition call_rng (c : call) : Prop :=
  match c with
  | SetModRM r m =>
      match r with OpExt n => inu 8 n | _ => True end /\ match m with ArgMem m => mem_ok m | _ => True end
  | SetPrefix p => inu 8 p
  | SetOpcode i | SetImm i =>
      match i with
      | ImmBytes l => bytes_ok l
      | Imm8 n => inu 8 n
      | Imm16 n => inu 16 n
      | Imm32 n => inu 32 n
      | Imm64 n => inu 64 n
      end
  | _ => True
  end.

(** ** The calls on the model *)

Definition reg_like (r : regop) : reglike :=
  match r with OpReg64 r => rl64 r | OpReg32 r => rl32 r | OpReg16 r => rl16 r | OpExt n => rl_u8 n end.
Definition rm_like (m : rmarg) : regmemlike :=
  match m with ArgReg64 r => rm64 r | ArgReg32 r => rm32 r | ArgReg16 r => rm16 r | ArgMem m => rm_mem m end.
Definition imm_bam (max : nat) (i : immarg) : res bam :=
  match i with
  | ImmBytes l => bam_from_array max l
  | Imm8 n => bam_from_u8 max n
  | Imm16 n => bam_from_u16 max n
  | Imm32 n => bam_from_u32 max n
  | Imm64 n => bam_from_u64 max n
  end.
Definition call_on (e : encoder) (c : call) : encoder :=
  match c with
  | SetPrefix p => enc_prefix p e
  | SetW w => enc_rex_w w e
  | SetB b => enc_rex_b b e
  | SetOpcode i => enc_opcode_from (imm_bam 3 i) e
  | SetModRM r m => enc_modrm (reg_like r) (rm_like m) e
  | SetImm i => enc_imm (imm_bam 8 i) e
  end.
(** `Encoder::new()`, the calls (each converts its argument at once), `encode()` *)
Fixpoint calls_on (e : encoder) (cs : list call) : res encoder :=
  match cs with
  | [] => Ok e
  | c :: cs' =>
      let e := call_on e c in
      _ <- en_opcode e ;; _ <- en_imm e ;; calls_on e cs'
  end.
Definition built (cs : list call) : res bam := e <- calls_on enc_new cs ;; encode e.

(** ** What they mean *)

(** the argument of the last call of a kind *)
Fixpoint last_call {A} (f : call -> option A) (cs : list call) : option A :=
  match cs with
  | [] => None
  | c :: cs' => match last_call f cs' with Some a => Some a | None => f c end
  end.
Definition the_prefix := last_call (fun c => match c with SetPrefix p => Some p | _ => None end).
Definition w_flag (cs : list call) : bool :=
  match last_call (fun c => match c with SetW w => Some w | _ => None end) cs with Some w => w | None => false end.
Definition b_flag (cs : list call) : bool :=
  match last_call (fun c => match c with SetB b => Some b | _ => None end) cs with Some b => b | None => false end.
Definition the_opcode (cs : list call) : immarg :=
  match last_call (fun c => match c with SetOpcode i => Some i | _ => None end) cs with Some i => i | None => ImmBytes [] end.
Definition the_modrm := last_call (fun c => match c with SetModRM r m => Some (r, m) | _ => None end).
Definition the_imm (cs : list call) : immarg :=
  match last_call (fun c => match c with SetImm i => Some i | _ => None end) cs with Some i => i | None => ImmBytes [] end.

(** number of the register, or the extension *)
Definition reg_num (r : regop) : Z :=
  match r with OpReg64 r => hw64 r | OpReg32 r => hw32 r | OpReg16 r => hw16 r | OpExt n => n end.
(** the operand the CPU sees *)
Definition rm_seen (m : rmarg) : SpecX86.rmop :=
  match m with
  | ArgReg64 r => RmReg (hw64 r)
  | ArgReg32 r => RmReg (hw32 r)
  | ArgReg16 r => RmReg (hw16 r)
  | ArgMem m => RmMem (doc_addr m (cpu_disp m))
  end.
(** register numbers of the operand that go with REX.B and REX.X *)
Definition b_num (m : rmarg) : Z :=
  match m with
  | ArgReg64 r => hw64 r
  | ArgReg32 r => hw32 r
  | ArgReg16 r => hw16 r
  | ArgMem (RegOffset r _) => hw64 r
  | ArgMem (MSib (Some b) _ _ _) => hw64 b
  | ArgMem _ => 0
  end.
Definition x_num (m : rmarg) : Z := match m with ArgMem (MSib _ _ i _) => hw64 i | _ => 0 end.

(** bytes of ModRM, SIB and displacement: a base numbered 4 modulo 8 needs a SIB byte, one
    numbered 5 modulo 8 needs a displacement *)
Definition disp_len (r : reg64) (d : Z) : nat :=
  if d =? 0 then (if hw64 r mod 8 =? 5 then 1 else 0) else if d <=? 256 then 1 else 4.
Definition rm_len (m : rmarg) : nat :=
  match m with
  | ArgMem (RegOffset r d) => 1 + (if hw64 r mod 8 =? 4 then 1 else 0) + disp_len r d
  | ArgMem (RipOffset _) => 5
  | ArgMem (MSib None _ _ _) => 6
  | ArgMem (MSib (Some b) d _ _) => 2 + disp_len b d
  | _ => 1
  end.
Definition imm_len (i : immarg) : nat :=
  match i with ImmBytes l => length l | Imm8 _ => 1 | Imm16 _ => 2 | Imm32 _ => 4 | Imm64 _ => 8 end.
(** little-endian *)
Definition imm_is (i : immarg) (bs : list Z) : Prop :=
  length bs = imm_len i /\
  match i with ImmBytes l => bs = l | Imm8 n | Imm16 n | Imm32 n | Imm64 n => bytes_ok bs /\ lev bs = n end.

(** REX prefix 0100WRXB, present when a bit is set *)
Definition bit (b : bool) : Z := if b then 1 else 0.
Definition the_rex (cs : list call) : rex :=
  {| rw := bit (w_flag cs);
     rr := match the_modrm cs with Some (r, _) => reg_num r / 8 | None => 0 end;
     rx := match the_modrm cs with Some (_, m) => x_num m / 8 | None => 0 end;
     rb := bit (b_flag cs || match the_modrm cs with Some (_, m) => 8 <=? b_num m | None => false end) |}.
Definition rex_bytes (x : rex) : list Z :=
  let n := 8 * rw x + 4 * rr x + 2 * rx x + rb x in if n =? 0 then [] else [64 + n].

(** the same with the REX.B bit of the operand alone: `rex_b` is for a register in the opcode *)
Definition operand_rex (cs : list call) (m : rmarg) : rex :=
  {| rw := rw (the_rex cs); rr := rr (the_rex cs); rx := rx (the_rex cs); rb := b_num m / 8 |}.

(** total length *)
Definition built_len (cs : list call) : nat :=
  (match the_prefix cs with Some _ => 1 | None => 0 end + length (rex_bytes (the_rex cs)) + imm_len (the_opcode cs)
   + match the_modrm cs with Some (_, m) => rm_len m | None => 0 end + imm_len (the_imm cs))%nat.

(** no call is given too many bytes, the extension has 3 bits and the scale 2, a 64-bit
    immediate has REX.W, and there are at most 15 bytes *)
Definition encodable (cs : list call) : Prop :=
  (forall i, In (SetOpcode i) cs -> (imm_len i <= 3)%nat) /\
  (forall i, In (SetImm i) cs -> (imm_len i <= 8)%nat) /\
  (forall r m, the_modrm cs = Some (r, m) ->
     match r with OpExt n => n <= 7 | _ => True end /\ match m with ArgMem m => mem_scale_ok m | _ => True end) /\
  (imm_len (the_imm cs) = 8%nat -> w_flag cs = true) /\ (built_len cs <= 15)%nat.

(** ** Single bits and fields *)

(** [y] is [x] with bit [k] set to [v] *)
Definition bit_set (k : Z) (v : bool) (x y : Z) : Prop :=
  inu 8 y /\ forall i, 0 <= i < 8 -> Z.testbit y i = if i =? k then v else Z.testbit x i.
(** ModRM: two bits of mode, three of reg, three of rm *)
Definition modrm_byte (mode r rm : Z) : Z := 64 * mode + 8 * r + rm.
