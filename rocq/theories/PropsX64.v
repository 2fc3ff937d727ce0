(** Properties of the encoder (at-x64): C01-C06, C08, C56.  Theorems only. *)
From Verif Require Import Base X64 SpecX86 PfX64 PfX86 PfX64Top.

(** C01: every instruction without a memory operand encodes to bytes the CPU decodes as that
    operation, operand size, registers and immediate, consuming exactly those bytes. *)
Theorem C01_encode_decode : forall i rest,
  instr_ok i -> instr_mem i = None ->
  exists bs, emits i bs /\ decode (bs ++ rest) = Some (doc_op i, rest).
Proof. exact top_C01. Qed.
Print Assumptions C01_encode_decode.

Example C01_nontrivial : instr_ok (MovRI16 R13W 0xBEEF) /\ instr_mem (MovRI16 R13W 0xBEEF) = None
  /\ emits (MovRI16 R13W 0xBEEF) [0x66; 0x41; 0xBD; 0xEF; 0xBE]
  /\ doc_op (MovRI16 R13W 0xBEEF) = OMovImm 16 13 0xBEEF.
Proof.
  split; [unfold instr_ok, inu; lia|]. split; [reflexivity|]. split; [|reflexivity].
  eexists; split; vm_compute; reflexivity.
Qed.

(** C02: full statement "the decoded displacement is the one held" is false (next theorem);
    this is what the CPU decodes for every memory operand: same base, index and scale, and the
    displacement [cpu_disp m], which equals the documented one exactly when [disp_exact m]. *)
Theorem C02_memory_operand_partial : forall i m rest,
  instr_ok i -> instr_mem i = Some m -> mem_scale_ok m ->
  exists bs, emits i bs /\ decode (bs ++ rest) = Some (doc_op_with i (cpu_disp m) 0, rest).
Proof. exact top_C02. Qed.
Print Assumptions C02_memory_operand_partial.

Theorem C02_exact_iff : forall i m rest,
  instr_ok i -> instr_mem i = Some m -> mem_scale_ok m ->
  exists bs, emits i bs /\ (decode (bs ++ rest) = Some (doc_op i, rest) <-> disp_exact m).
Proof. exact top_C02_iff. Qed.
Print Assumptions C02_exact_iff.

Theorem C02_wrong_values : forall m, mem_ok m ->
  cpu_disp m = mem_disp m
  \/ (128 <= mem_disp m <= 256 /\ cpu_disp m = mem_disp m - 256)
  \/ (2 ^ 31 <= mem_disp m /\ cpu_disp m = mem_disp m - 2 ^ 32).
Proof. exact cpu_disp_value. Qed.
Print Assumptions C02_wrong_values.

(** lea rax, [rbx+128] is emitted as lea rax, [rbx-128] *)
Theorem C02_refuted :
  exists i m bs, instr_ok i /\ instr_mem i = Some m /\ emits i bs /\
    decode bs <> Some (doc_op i, []) /\
    decode bs = Some (OLea 64 0 {| a_base := BReg 3; a_index := None; a_disp := -128 |}, []).
Proof. exact top_C02_refuted. Qed.
Print Assumptions C02_refuted.

Example C02_nontrivial :
  let m := MSib (Some R13) 300 R12 3 in
  instr_ok (MovMR64 m R9) /\ mem_scale_ok m /\ disp_exact m
  /\ emits (MovMR64 m R9) [0x4F; 0x89; 0x8C; 0xE5; 0x2C; 0x01; 0; 0].
Proof.
  cbv zeta. split; [unfold instr_ok, mem_ok, inu; lia|]. split; [cbn; lia|]. split; [cbn; lia|].
  eexists; split; vm_compute; reflexivity.
Qed.

(** C03: any sequence of instructions disassembles to that sequence, nothing left over; no
    encoding is a proper prefix of another, and equal encodings are the same operation. *)
Theorem C03_stream : forall is bss fuel,
  Forall instr_ok is -> Forall2 emits is bss -> (length (concat bss) <= fuel)%nat ->
  decode_all fuel (concat bss) = Some (map cpu_op is).
Proof. exact top_C03. Qed.
Print Assumptions C03_stream.

Theorem C03_prefix_free : forall i j a b l,
  instr_ok i -> instr_ok j -> emits i a -> emits j b -> b = a ++ l -> l = [] /\ cpu_op i = cpu_op j.
Proof. exact top_C03_prefix. Qed.
Print Assumptions C03_prefix_free.

Example C03_nontrivial :
  let is := [PushR64 RBP; MovRR64 RBP RSP; Lea64 RDI (RipOffset 16); Syscall; PopR64 RBP; Ret] in
  Forall instr_ok is /\ exists bss, Forall2 emits is bss /\
  decode_all 64 (concat bss) =
    Some [OPush 64 5; OMovStore 64 (RmReg 5) 4;
          OLea 64 7 {| a_base := BRip; a_index := None; a_disp := 16 |}; OSyscall; OPop 64 5; ORet].
Proof.
  cbv zeta. split; [repeat constructor; unfold inu; lia|].
  exists [[0x55]; [0x48; 0x89; 0xE5]; [0x48; 0x8D; 0x3D; 16; 0; 0; 0]; [0x0F; 0x05]; [0x5D]; [0xC3]].
  split; [|reflexivity].
  repeat (constructor; [eexists; split; vm_compute; reflexivity|]). constructor.
Qed.

(** C04: encoding returns 1 to 15 bytes, or panics and then the value is a Mem64::Sib with
    scale above 3 (built directly); such values always panic; Mem64::sib rejects them. *)
Theorem C04_total : forall i, instr_ok i ->
  match bytecode_of i with
  | Ok b => (1 <= length (bam_ref b) <= 15)%nat /\ bytes_ok (bam_ref b)
            /\ bam_len b = length (bam_ref b)
  | Panic => exists b d ix s, instr_mem i = Some (MSib b d ix s) /\ 3 < s
  end.
Proof. exact top_C04. Qed.
Print Assumptions C04_total.

Theorem C04_bad_scale_panics : forall i b d ix s,
  instr_ok i -> instr_mem i = Some (MSib b d ix s) -> 3 < s -> bytecode_of i = Panic.
Proof. exact top_C04_panic. Qed.
Print Assumptions C04_bad_scale_panics.

Theorem C04_constructor_checks : forall b d ix s,
  mem_sib b d ix s = if s <=? 3 then Ok (MSib b d ix s) else Panic.
Proof. exact top_C04_ctor. Qed.
Print Assumptions C04_constructor_checks.

Example C04_nontrivial :
  instr_ok (Lea64 RAX (MSib None 5 RBX 4)) /\ bytecode_of (Lea64 RAX (MSib None 5 RBX 4)) = Panic
  /\ exists b, bytecode_of (Lea64 R15 (MSib (Some R15) 70000 R15 3)) = Ok b
               /\ length (bam_ref b) = 8%nat.
Proof.
  split; [unfold instr_ok, mem_ok, inu; lia|]. split; [reflexivity|].
  eexists; split; vm_compute; reflexivity.
Qed.

(** C05: from offset_to_imm_bytes() on, the bytes are the little-endian immediate; the bytes
    before it do not depend on the immediate. *)
Theorem C05_offset32 : forall r n bs, emits (MovRI32 r n) bs -> inu 32 n ->
  skipn (Z.to_nat (offset_to_imm32 r)) bs = le_bytes 4 n /\
  (forall n' bs', inu 32 n' -> emits (MovRI32 r n') bs' ->
     firstn (Z.to_nat (offset_to_imm32 r)) bs' = firstn (Z.to_nat (offset_to_imm32 r)) bs).
Proof. exact top_C05_32. Qed.
Print Assumptions C05_offset32.

Theorem C05_offset64 : forall r n bs, emits (MovRI64 r n) bs -> inu 64 n ->
  skipn (Z.to_nat (offset_to_imm64 r)) bs = le_bytes 8 n /\
  (forall n' bs', inu 64 n' -> emits (MovRI64 r n') bs' ->
     firstn (Z.to_nat (offset_to_imm64 r)) bs' = firstn (Z.to_nat (offset_to_imm64 r)) bs).
Proof. exact top_C05_64. Qed.
Print Assumptions C05_offset64.

(** [le_bytes] is the little-endian representation: the inverse of the spec's [lev] *)
Theorem C05_le_bytes_meaning : forall n x,
  length (le_bytes n x) = n /\ bytes_ok (le_bytes n x)
  /\ (inu (8 * Z.of_nat n) x -> lev (le_bytes n x) = x).
Proof.
  exact (fun n x => conj (le_bytes_length n x) (conj (le_bytes_ok n x) (lev_le_bytes_id n x))).
Qed.
Print Assumptions C05_le_bytes_meaning.

Example C05_nontrivial :
  emits (MovRI32 R9D 0x01020304) [0x41; 0xB9; 4; 3; 2; 1] /\ offset_to_imm32 R9D = 2
  /\ inu 32 0x01020304.
Proof.
  split; [eexists; split; vm_compute; reflexivity|]. split; [reflexivity|unfold inu; lia].
Qed.

(** C06: BytesAtMost<MAX> *)
Theorem C06_from_array : forall max a,
  (exists b, bam_from_array max a = Ok b /\ bam_ref b = a /\ bam_len b = length a)
  <-> (length a <= max)%nat.
Proof. exact top_C06_array. Qed.
Print Assumptions C06_from_array.

Theorem C06_from_int : forall max n,
  ((exists b, bam_from_u8 max n = Ok b /\ bam_ref b = [n] /\ bam_len b = 1%nat)
     <-> (1 <= max)%nat) /\
  ((exists b, bam_from_u16 max n = Ok b /\ bam_ref b = le_bytes 2 n /\ bam_len b = 2%nat)
     <-> (2 <= max)%nat) /\
  ((exists b, bam_from_u32 max n = Ok b /\ bam_ref b = le_bytes 4 n /\ bam_len b = 4%nat)
     <-> (4 <= max)%nat) /\
  ((exists b, bam_from_u64 max n = Ok b /\ bam_ref b = le_bytes 8 n /\ bam_len b = 8%nat)
     <-> (8 <= max)%nat).
Proof. exact top_C06_int. Qed.
Print Assumptions C06_from_int.

Theorem C06_as_mut : forall max b k v, bam_built max b ->
  ((k < bam_len b)%nat ->
     exists b', bam_set b k v = Ok b' /\ bam_len b' = bam_len b /\
       bam_ref b' = firstn k (bam_ref b) ++ v :: skipn (S k) (bam_ref b)) /\
  ((bam_len b <= k)%nat -> bam_set b k v = Panic).
Proof. exact top_C06_set. Qed.
Print Assumptions C06_as_mut.

Theorem C06_equality : forall max a b,
  bam_built max a -> bam_built max b -> (a = b <-> bam_ref a = bam_ref b).
Proof. exact bam_eq_iff. Qed.
Print Assumptions C06_equality.

Example C06_nontrivial :
  exists a b, bam_from_u16 4 0x0102 = Ok a /\ bam_set a 0 7 = Ok b /\ bam_ref b = [7; 1]
              /\ bam_built 4 b /\ bam_from_array 4 [7; 1] = Ok b.
Proof.
  destruct (bam_from_u16 4 0x0102) as [a|] eqn:Ea; [|discriminate].
  destruct (bam_set a 0 7) as [b|] eqn:Eb.
  2:{ exfalso. vm_compute in Ea. inversion Ea; subst a. discriminate. }
  exists a, b. split; [reflexivity|]. split; [exact Eb|].
  assert (Hb : bam_built 4 b).
  { eapply bb_set; [|exact Eb]. eapply bb_u16. exact Ea. }
  vm_compute in Ea. inversion Ea; subst a. vm_compute in Eb. inversion Eb; subst b.
  split; [reflexivity|]. split; [exact Hb|reflexivity].
Qed.

(** C08: executing the emitted bytes of one instruction has its documented effect (memory
    operands: at the displacement the CPU sees, which by C02 is the documented one when
    [disp_exact]). *)
Theorem C08_execution : forall i bs s,
  instr_ok i -> emits i bs -> mach_ok s -> code_at s bs ->
  match step s with
  | Next s' =>
      i <> Syscall /\
      effect i (match instr_mem i with Some m => cpu_disp m | None => 0 end) (push_value i)
             (Z.of_nat (length bs)) s s'
  | SysCall s' => i = Syscall /\ effect i 0 0 (Z.of_nat (length bs)) s s'
  | Fault => False
  end.
Proof. exact top_C08. Qed.
Print Assumptions C08_execution.

Theorem C08_memory_exact : forall i m bs s,
  instr_ok i -> emits i bs -> mach_ok s -> code_at s bs ->
  instr_mem i = Some m -> disp_exact m ->
  exists s', step s = Next s' /\ effect i (mem_disp m) 0 (Z.of_nat (length bs)) s s'.
Proof. exact top_C08_exact. Qed.
Print Assumptions C08_memory_exact.

(** C56: a straight-line program of register moves, lea and pop runs instruction by
    instruction, each with its documented effect. *)
Theorem C56_straight_line : forall is bss s,
  Forall instr_ok is -> Forall straight is -> Forall2 emits is bss ->
  mach_ok s -> code_at s (concat bss) ->
  exists s', steps (length is) s = Next s' /\ runs is s s' /\ mem_same s s' /\
             rip s' = (rip s + Z.of_nat (length (concat bss))) mod W64.
Proof. exact top_straight. Qed.
Print Assumptions C56_straight_line.

(** a machine state with the code of `mov rbx, rax; lea rcx, [rbx+8]` at address 16 *)
Definition ex_code : list Z := [0x48; 0x89; 0xC3; 0x48; 0x8D; 0x4B; 0x08].
Definition ex_mach : mach :=
  {| regs := fun r => if r =? 0 then 1000 else 0;
     mem := fun a => nth (Z.to_nat (a - 16)) ex_code 0; rip := 16 |}.
Example C08_nontrivial :
  mach_ok ex_mach /\ code_at ex_mach (firstn 3 ex_code)
  /\ emits (MovRR64 RBX RAX) (firstn 3 ex_code) /\ emits (Lea64 RCX (RegOffset RBX 8)) (skipn 3 ex_code)
  /\ code_at ex_mach ex_code /\ disp_exact (RegOffset RBX 8)
  /\ exists s', steps 2 ex_mach = Next s' /\ regs s' (hw64 RCX) = 1008.
Proof.
  split.
  { split; [|split].
    - intros r. cbn [regs ex_mach]. unfold W64. destruct (r =? 0); lia.
    - intros a. cbn [mem ex_mach]. unfold ex_code.
      generalize (Z.to_nat (a - 16)). intros n. destruct (Nat.lt_ge_cases n 7) as [H|H].
      + do 7 (destruct n as [|n]; [cbn; lia|]). exfalso; lia.
      + rewrite nth_overflow by (cbn [length]; lia). lia.
    - cbn. unfold W64. lia. }
  split; [vm_compute; reflexivity|].
  split; [eexists; split; vm_compute; reflexivity|].
  split; [eexists; split; vm_compute; reflexivity|].
  split; [vm_compute; reflexivity|].
  split; [cbn; lia|].
  eexists; split; vm_compute; reflexivity.
Qed.
