(** An independent description of the x86-64 instructions used by the assembler: a decoder
    and a machine, written from the Intel SDM (vol. 2, ch. 2: instruction format, table 2-2
    and 2-3 for ModRM/SIB; the entries MOV, LEA, PUSH, POP, RET, SYSCALL) and not from the
    repository.  It works on register numbers and bytes and shares no code with the encoder;
    only the last part, which says what each Rust instruction value documents itself to mean,
    mentions the Rust types. *)
From Verif Require Import Base X64.

(** ** Bytes to numbers *)

(** value of little-endian bytes, first byte least significant *)
Fixpoint lev (l : list Z) : Z :=
  match l with [] => 0 | b :: l' => b + 256 * lev l' end.

(** two's complement value of [n]-bit [x] *)
Definition sext (n x : Z) : Z := if x <? 2 ^ (n - 1) then x else x - 2 ^ n.

Definition take (n : nat) (l : list Z) : option (list Z * list Z) :=
  if Nat.ltb (length l) n then None else Some (firstn n l, skipn n l).

Definition obind {A B} (o : option A) (k : A -> option B) : option B :=
  match o with Some a => k a | None => None end.

(** ** Decoded instructions *)

Inductive base := BNone | BReg (r : Z) | BRip.
(** effective address: base + index * 2^scale + disp *)
Record addr := { a_base : base; a_index : option (Z * Z); a_disp : Z }.

Inductive rmop := RmReg (r : Z) | RmMem (a : addr).

(** operand width in bits, then operands *)
Inductive op :=
| OMovStore (w : Z) (dst : rmop) (src : Z)
| OMovLoad (w : Z) (dst : Z) (src : rmop)
| OMovImm (w : Z) (dst : Z) (imm : Z)
| OLea (w : Z) (dst : Z) (a : addr)
| OPushImm (w : Z) (imm : Z)          (* imm is signed *)
| OPush (w : Z) (r : Z)
| OPop (w : Z) (r : Z)
| ORet
| OSyscall.

(** ** Decoder *)

Record rex := { rw : Z; rr : Z; rx : Z; rb : Z }.
Definition no_rex : rex := {| rw := 0; rr := 0; rx := 0; rb := 0 |}.

(** 0100WRXB *)
Definition dec_rex (l : list Z) : rex * list Z :=
  match l with
  | b :: l' =>
      if b / 16 =? 4
      then ({| rw := (b / 8) mod 2; rr := (b / 4) mod 2; rx := (b / 2) mod 2; rb := b mod 2 |}, l')
      else (no_rex, l)
  | [] => (no_rex, l)
  end.

Definition dec_disp (n : nat) (l : list Z) : option (Z * list Z) :=
  match n with
  | O => Some (0, l)
  | _ => obind (take n l) (fun '(d, l') => Some (sext (8 * Z.of_nat n) (lev d), l'))
  end.

Definition disp_size (mode : Z) : nat :=
  if mode =? 1 then 1%nat else if mode =? 2 then 4%nat else 0%nat.

(** ModRM (+ SIB) (+ displacement), 64-bit mode *)
Definition dec_modrm (x : rex) (l : list Z) : option (Z * rmop * list Z) :=
  match l with
  | [] => None
  | m :: l1 =>
      let mode := m / 64 in
      let reg := (m / 8) mod 8 + 8 * rr x in
      let rm := m mod 8 in
      if mode =? 3 then Some (reg, RmReg (rm + 8 * rb x), l1)
      else if rm =? 4 then
        match l1 with
        | [] => None
        | s :: l2 =>
            let idx := (s / 8) mod 8 + 8 * rx x in
            let ix := if idx =? 4 then None else Some (idx, s / 64) in
            if (s mod 8 =? 5) && (mode =? 0) then
              obind (dec_disp 4 l2) (fun '(d, l3) =>
                Some (reg, RmMem {| a_base := BNone; a_index := ix; a_disp := d |}, l3))
            else
              obind (dec_disp (disp_size mode) l2) (fun '(d, l3) =>
                Some (reg, RmMem {| a_base := BReg (s mod 8 + 8 * rb x); a_index := ix;
                                    a_disp := d |}, l3))
        end
      else if (rm =? 5) && (mode =? 0) then
        obind (dec_disp 4 l1) (fun '(d, l2) =>
          Some (reg, RmMem {| a_base := BRip; a_index := None; a_disp := d |}, l2))
      else
        obind (dec_disp (disp_size mode) l1) (fun '(d, l2) =>
          Some (reg, RmMem {| a_base := BReg (rm + 8 * rb x); a_index := None; a_disp := d |}, l2))
  end.

(** operand size of an ordinary instruction / of an instruction defaulting to 64 bits *)
Definition opsize (p66 : bool) (x : rex) : Z :=
  if rw x =? 1 then 64 else if p66 then 16 else 32.
Definition opsize64 (p66 : bool) (x : rex) : Z :=
  if rw x =? 1 then 64 else if p66 then 16 else 64.

Definition dec_imm (n : nat) (l : list Z) : option (Z * list Z) :=
  obind (take n l) (fun '(d, l') => Some (lev d, l')).

Definition dec_op (p66 : bool) (x : rex) (l : list Z) : option (op * list Z) :=
  match l with
  | [] => None
  | o :: l1 =>
      let w := opsize p66 x in
      let w64 := opsize64 p66 x in
      if o =? 0x0F then
        match l1 with
        | b :: l2 => if b =? 0x05 then Some (OSyscall, l2) else None
        | [] => None
        end
      else if o =? 0x89 then
        obind (dec_modrm x l1) (fun '(r, rm, l2) => Some (OMovStore w rm r, l2))
      else if o =? 0x8B then
        obind (dec_modrm x l1) (fun '(r, rm, l2) => Some (OMovLoad w r rm, l2))
      else if o =? 0x8D then
        obind (dec_modrm x l1) (fun '(r, rm, l2) =>
          match rm with RmMem a => Some (OLea w r a, l2) | RmReg _ => None end)
      else if o / 8 =? 0x17 then            (* B8+r *)
        obind (dec_imm (Z.to_nat (w / 8)) l1) (fun '(n, l2) =>
          Some (OMovImm w (o mod 8 + 8 * rb x) n, l2))
      else if o =? 0x68 then
        let n := if w64 =? 16 then 2%nat else 4%nat in
        obind (dec_imm n l1) (fun '(v, l2) =>
          Some (OPushImm w64 (sext (8 * Z.of_nat n) v), l2))
      else if o =? 0x6A then
        obind (dec_imm 1 l1) (fun '(v, l2) => Some (OPushImm w64 (sext 8 v), l2))
      else if o / 8 =? 0x0A then Some (OPush w64 (o mod 8 + 8 * rb x), l1)   (* 50+r *)
      else if o / 8 =? 0x0B then Some (OPop w64 (o mod 8 + 8 * rb x), l1)    (* 58+r *)
      else if o =? 0xC3 then Some (ORet, l1)
      else None
  end.

(** one instruction: optional 66, optional REX, opcode and operands *)
Definition decode (l : list Z) : option (op * list Z) :=
  let '(p66, l1) := match l with
                    | b :: l' => if b =? 0x66 then (true, l') else (false, l)
                    | [] => (false, l)
                    end in
  let '(x, l2) := dec_rex l1 in
  dec_op p66 x l2.

(** disassembly of a whole byte string; the fuel is any number at least its length *)
Fixpoint decode_all (fuel : nat) (l : list Z) : option (list op) :=
  match l with
  | [] => Some []
  | _ =>
      match fuel with
      | O => None
      | S f =>
          obind (decode l) (fun '(o, l') =>
            obind (decode_all f l') (fun os => Some (o :: os)))
      end
  end.

(** ** Machine *)

Record mach := { regs : Z -> Z; mem : Z -> Z; rip : Z }.

Definition W64 : Z := 2 ^ 64.

(** [n] bytes of memory from address [a] *)
Fixpoint fetch (n : nat) (f : Z -> Z) (a : Z) : list Z :=
  match n with
  | O => []
  | S n' => f (a mod W64) :: fetch n' f (a + 1)
  end.

(** [k]-th byte of [v] *)
Definition byte_of (v k : Z) : Z := (v / 2 ^ (8 * k)) mod 256.

Definition load (n : nat) (f : Z -> Z) (a : Z) : Z := lev (fetch n f a).
Definition store (n : nat) (f : Z -> Z) (a v : Z) : Z -> Z :=
  fun x => let k := (x - a) mod W64 in
           if k <? Z.of_nat n then byte_of v k else f x.

Definition upd (f : Z -> Z) (r v : Z) : Z -> Z := fun x => if x =? r then v else f x.

(** writing a register: 64 bits replace, 32 bits zero-extend, 16 bits merge *)
Definition set_reg (w : Z) (f : Z -> Z) (r v : Z) : Z -> Z :=
  upd f r (if w =? 16 then f r / 2 ^ 16 * 2 ^ 16 + v mod 2 ^ 16
           else if w =? 32 then v mod 2 ^ 32
           else v mod W64).

Definition ea (s : mach) (next : Z) (a : addr) : Z :=
  (match a_base a with BNone => 0 | BReg r => regs s r | BRip => next end
   + match a_index a with None => 0 | Some (i, sc) => regs s i * 2 ^ sc end
   + a_disp a) mod W64.

Definition rsp : Z := 4.
Definition nbytes (w : Z) : nat := Z.to_nat (w / 8).

(** [SysCall s]: control goes to the kernel, [s] being the state handed to it *)
Inductive outcome := Next (s : mach) | SysCall (s : mach) | Fault.

Definition push (s : mach) (next w v : Z) : mach :=
  let sp := (regs s rsp - w / 8) mod W64 in
  {| regs := upd (regs s) rsp sp; mem := store (nbytes w) (mem s) sp v; rip := next |}.

Definition exec (o : op) (next : Z) (s : mach) : outcome :=
  match o with
  | OMovStore w (RmReg d) r =>
      Next {| regs := set_reg w (regs s) d (regs s r); mem := mem s; rip := next |}
  | OMovStore w (RmMem a) r =>
      Next {| regs := regs s; mem := store (nbytes w) (mem s) (ea s next a) (regs s r);
              rip := next |}
  | OMovLoad w d (RmReg r) =>
      Next {| regs := set_reg w (regs s) d (regs s r); mem := mem s; rip := next |}
  | OMovLoad w d (RmMem a) =>
      Next {| regs := set_reg w (regs s) d (load (nbytes w) (mem s) (ea s next a));
              mem := mem s; rip := next |}
  | OMovImm w d n => Next {| regs := set_reg w (regs s) d n; mem := mem s; rip := next |}
  | OLea w d a => Next {| regs := set_reg w (regs s) d (ea s next a); mem := mem s; rip := next |}
  | OPushImm w n => Next (push s next w (n mod W64))
  | OPush w r => Next (push s next w (regs s r))
  | OPop w r =>
      let v := load (nbytes w) (mem s) (regs s rsp) in
      let f := upd (regs s) rsp ((regs s rsp + w / 8) mod W64) in
      Next {| regs := set_reg w f r v; mem := mem s; rip := next |}
  | ORet =>
      let v := load 8 (mem s) (regs s rsp) in
      Next {| regs := upd (regs s) rsp ((regs s rsp + 8) mod W64); mem := mem s; rip := v |}
  | OSyscall => SysCall {| regs := regs s; mem := mem s; rip := next |}
  end.

(** fetch at most 15 bytes, decode, execute *)
Definition step (s : mach) : outcome :=
  match decode (fetch 15 (mem s) (rip s)) with
  | Some (o, rest) => exec o ((rip s + (15 - Z.of_nat (length rest))) mod W64) s
  | None => Fault
  end.

(** run straight-line code for [n] instructions *)
Fixpoint steps (n : nat) (s : mach) : outcome :=
  match n with
  | O => Next s
  | S n' => match step s with Next s' => steps n' s' | o => o end
  end.

(** ** What the instruction values of the crate document themselves to be *)

(** hardware numbers of the registers (SDM table 3-1 and 2-4) *)
Definition hw64 (r : reg64) : Z :=
  match r with
  | RAX => 0 | RCX => 1 | RDX => 2 | RBX => 3 | RSP => 4 | RBP => 5 | RSI => 6 | RDI => 7
  | R8 => 8 | R9 => 9 | R10 => 10 | R11 => 11 | R12 => 12 | R13 => 13 | R14 => 14 | R15 => 15
  end.
Definition hw32 (r : reg32) : Z :=
  match r with
  | EAX => 0 | ECX => 1 | EDX => 2 | EBX => 3 | ESP => 4 | EBP => 5 | ESI => 6 | EDI => 7
  | R8D => 8 | R9D => 9 | R10D => 10 | R11D => 11 | R12D => 12 | R13D => 13 | R14D => 14
  | R15D => 15
  end.
Definition hw16 (r : reg16) : Z :=
  match r with
  | AX => 0 | CX => 1 | DX => 2 | BX => 3 | SP => 4 | BP => 5 | SI => 6 | DI => 7
  | R8W => 8 | R9W => 9 | R10W => 10 | R11W => 11 | R12W => 12 | R13W => 13 | R14W => 14
  | R15W => 15
  end.

(** the address a Mem64 value documents (mem.rs doc comments), with displacement [d];
    index RSP means no index *)
Definition doc_index (i : reg64) (s : Z) : option (Z * Z) :=
  match i with RSP => None | _ => Some (hw64 i, s) end.
Definition doc_addr (m : mem64) (d : Z) : addr :=
  match m with
  | RegOffset r _ => {| a_base := BReg (hw64 r); a_index := None; a_disp := d |}
  | RipOffset _ => {| a_base := BRip; a_index := None; a_disp := d |}
  | MSib None _ i s => {| a_base := BNone; a_index := doc_index i s; a_disp := d |}
  | MSib (Some b) _ i s => {| a_base := BReg (hw64 b); a_index := doc_index i s; a_disp := d |}
  end.
(** the displacement it holds *)
Definition mem_disp (m : mem64) : Z :=
  match m with RegOffset _ d => d | RipOffset d => d | MSib _ d _ _ => d end.

(** the operation an instruction value documents, with displacement [d] in its memory
    operand (if any) and pushing the signed value [n] (if it is a push of an immediate) *)
Definition doc_op_with (i : instr) (d n : Z) : op :=
  match i with
  | MovMR64 m s => OMovStore 64 (RmMem (doc_addr m d)) (hw64 s)
  | MovRR16 a b => OMovStore 16 (RmReg (hw16 a)) (hw16 b)
  | MovRR32 a b => OMovStore 32 (RmReg (hw32 a)) (hw32 b)
  | MovRR64 a b => OMovStore 64 (RmReg (hw64 a)) (hw64 b)
  | MovRI16 r k => OMovImm 16 (hw16 r) k
  | MovRI32 r k => OMovImm 32 (hw32 r) k
  | MovRI64 r k => OMovImm 64 (hw64 r) k
  | PushI8 _ => OPushImm 64 n
  | PushI16 _ => OPushImm 16 n
  | PushI32 _ => OPushImm 64 n
  | PushR16 r => OPush 16 (hw16 r)
  | PushR64 r => OPush 64 (hw64 r)
  | PopR16 r => OPop 16 (hw16 r)
  | PopR64 r => OPop 64 (hw64 r)
  | Lea64 r m => OLea 64 (hw64 r) (doc_addr m d)
  | Ret => ORet
  | Syscall => OSyscall
  end.

Definition instr_mem (i : instr) : option mem64 :=
  match i with MovMR64 m _ => Some m | Lea64 _ m => Some m | _ => None end.

(** sign-extended immediate of a push: PUSH imm8/imm16/imm32 take signed immediates *)
Definition push_value (i : instr) : Z :=
  match i with
  | PushI8 n => sext 8 n
  | PushI16 n => sext 16 n
  | PushI32 n => sext 32 n
  | _ => 0
  end.

(** [doc_op i]: with the displacement the memory operand holds *)
Definition doc_op (i : instr) : op :=
  doc_op_with i (match instr_mem i with Some m => mem_disp m | None => 0 end) (push_value i).

(** the displacement the CPU sees for the emitted bytes: what the code does, not what it
    documents.  Displacements 0..256 of a based operand go through one byte. *)
Definition cpu_disp (m : mem64) : Z :=
  match m with
  | RegOffset _ d | MSib (Some _) d _ _ =>
      if d <=? 256 then sext 8 (d mod 256) else sext 32 d
  | RipOffset d | MSib None d _ _ => sext 32 d
  end.
(** the displacements for which the two agree *)
Definition disp_exact (m : mem64) : Prop :=
  match m with
  | RegOffset _ d | MSib (Some _) d _ _ => d < 128 \/ 256 < d < 2 ^ 31
  | RipOffset d | MSib None d _ _ => d < 2 ^ 31
  end.
Definition cpu_op (i : instr) : op :=
  doc_op_with i (match instr_mem i with Some m => cpu_disp m | None => 0 end) (push_value i).

(** ** Documented effects of the instruction values on the machine *)

Definition mach_ok (s : mach) : Prop :=
  (forall r, 0 <= regs s r < W64) /\ (forall a, 0 <= mem s a < 256) /\ 0 <= rip s < W64.

(** registers other than those in [l] are unchanged *)
Definition regs_but (l : list Z) (s s' : mach) : Prop :=
  forall r, ~ In r l -> regs s' r = regs s r.
(** memory is unchanged *)
Definition mem_same (s s' : mach) : Prop := forall a, mem s' a = mem s a.
(** memory outside the [n] bytes from [a] is unchanged *)
Definition mem_but (n : nat) (a : Z) (s s' : mach) : Prop :=
  forall x, Z.of_nat n <= (x - a) mod W64 -> mem s' x = mem s x.

(** the address a memory operand denotes in state [s], [next] being the address of the
    following instruction: [reg + disp], [RIP + disp], [base + index * 2^scale + disp] *)
Definition doc_ea (s : mach) (next : Z) (m : mem64) (d : Z) : Z :=
  match m with
  | RegOffset r _ => (regs s (hw64 r) + d) mod W64
  | RipOffset _ => (next + d) mod W64
  | MSib b _ i sc =>
      (match b with Some b => regs s (hw64 b) | None => 0 end
       + match i with RSP => 0 | _ => regs s (hw64 i) * 2 ^ sc end + d) mod W64
  end.

(** [effect i d n len s s']: executing [i] ([len] bytes long, displacement [d], pushed
    value [n]) takes [s] to [s'] *)
Definition effect (i : instr) (d n len : Z) (s s' : mach) : Prop :=
  let next := (rip s + len) mod W64 in
  match i with
  | MovRR64 a b =>
      regs s' (hw64 a) = regs s (hw64 b) /\ regs_but [hw64 a] s s' /\ mem_same s s' /\ rip s' = next
  | MovRR32 a b =>
      regs s' (hw32 a) = regs s (hw32 b) mod 2 ^ 32 /\ regs_but [hw32 a] s s' /\ mem_same s s'
      /\ rip s' = next
  | MovRR16 a b =>
      regs s' (hw16 a) mod 2 ^ 16 = regs s (hw16 b) mod 2 ^ 16
      /\ regs s' (hw16 a) / 2 ^ 16 = regs s (hw16 a) / 2 ^ 16
      /\ regs_but [hw16 a] s s' /\ mem_same s s' /\ rip s' = next
  | MovRI64 a k =>
      regs s' (hw64 a) = k /\ regs_but [hw64 a] s s' /\ mem_same s s' /\ rip s' = next
  | MovRI32 a k =>
      regs s' (hw32 a) = k /\ regs_but [hw32 a] s s' /\ mem_same s s' /\ rip s' = next
  | MovRI16 a k =>
      regs s' (hw16 a) mod 2 ^ 16 = k
      /\ regs s' (hw16 a) / 2 ^ 16 = regs s (hw16 a) / 2 ^ 16
      /\ regs_but [hw16 a] s s' /\ mem_same s s' /\ rip s' = next
  | MovMR64 m r =>
      let a := doc_ea s next m d in
      load 8 (mem s') a = regs s (hw64 r) /\ mem_but 8 a s s' /\ regs_but [] s s' /\ rip s' = next
  | Lea64 r m =>
      regs s' (hw64 r) = doc_ea s next m d /\ regs_but [hw64 r] s s' /\ mem_same s s'
      /\ rip s' = next
  | PushI8 _ | PushI32 _ =>
      regs s' rsp = (regs s rsp - 8) mod W64 /\ load 8 (mem s') (regs s' rsp) = n mod W64
      /\ mem_but 8 (regs s' rsp) s s' /\ regs_but [rsp] s s' /\ rip s' = next
  | PushI16 _ =>
      regs s' rsp = (regs s rsp - 2) mod W64 /\ load 2 (mem s') (regs s' rsp) = n mod 2 ^ 16
      /\ mem_but 2 (regs s' rsp) s s' /\ regs_but [rsp] s s' /\ rip s' = next
  | PushR64 r =>
      regs s' rsp = (regs s rsp - 8) mod W64 /\ load 8 (mem s') (regs s' rsp) = regs s (hw64 r)
      /\ mem_but 8 (regs s' rsp) s s' /\ regs_but [rsp] s s' /\ rip s' = next
  | PushR16 r =>
      regs s' rsp = (regs s rsp - 2) mod W64
      /\ load 2 (mem s') (regs s' rsp) = regs s (hw16 r) mod 2 ^ 16
      /\ mem_but 2 (regs s' rsp) s s' /\ regs_but [rsp] s s' /\ rip s' = next
  | PopR64 r =>
      regs s' (hw64 r) = load 8 (mem s) (regs s rsp)
      /\ (r <> RSP -> regs s' rsp = (regs s rsp + 8) mod W64)
      /\ regs_but [hw64 r; rsp] s s' /\ mem_same s s' /\ rip s' = next
  | PopR16 r =>
      regs s' (hw16 r) mod 2 ^ 16 = load 2 (mem s) (regs s rsp)
      /\ (r <> SP -> regs s' (hw16 r) / 2 ^ 16 = regs s (hw16 r) / 2 ^ 16)
      /\ (r <> SP -> regs s' rsp = (regs s rsp + 2) mod W64)
      /\ regs_but [hw16 r; rsp] s s' /\ mem_same s s' /\ rip s' = next
  | Ret =>
      rip s' = load 8 (mem s) (regs s rsp) /\ regs s' rsp = (regs s rsp + 8) mod W64
      /\ regs_but [rsp] s s' /\ mem_same s s'
  | Syscall => regs_but [] s s' /\ mem_same s s' /\ rip s' = next
  end.

(** bytecode() returned, and its as_ref() is [bs] *)
Definition emits (i : instr) (bs : list Z) : Prop :=
  exists b, bytecode_of i = Ok b /\ bam_ref b = bs.

(** code bytes in memory at the instruction pointer *)
Definition code_at (s : mach) (bs : list Z) : Prop := fetch (length bs) (mem s) (rip s) = bs.

(** straight-line execution: each instruction in turn has its documented effect *)
Inductive runs : list instr -> mach -> mach -> Prop :=
| runs_nil s : runs [] s s
| runs_cons i is bs s s1 s2 :
    emits i bs ->
    effect i (match instr_mem i with Some m => cpu_disp m | None => 0 end) (push_value i)
           (Z.of_nat (length bs)) s s1 ->
    runs is s1 s2 -> runs (i :: is) s s2.

(** instructions that neither write memory nor leave straight-line code *)
Definition straight (i : instr) : Prop :=
  match i with
  | MovRR16 _ _ | MovRR32 _ _ | MovRR64 _ _ | MovRI16 _ _ | MovRI32 _ _ | MovRI64 _ _
  | PopR16 _ | PopR64 _ | Lea64 _ _ => True
  | _ => False
  end.

(** the scale a SIB byte can hold; `Mem64::sib` checks it, the enum constructor does not *)
Definition mem_scale_ok (m : mem64) : Prop :=
  match m with MSib _ _ _ s => s <= 3 | _ => True end.

(** `BytesAtMost` values obtainable through the public interface *)
Inductive bam_built (max : nat) : bam -> Prop :=
| bb_len n b : bam_with_len max n = Ok b -> bam_built max b
| bb_array a b : bam_from_array max a = Ok b -> bam_built max b
| bb_u8 n b : bam_from_u8 max n = Ok b -> bam_built max b
| bb_u16 n b : bam_from_u16 max n = Ok b -> bam_built max b
| bb_u32 n b : bam_from_u32 max n = Ok b -> bam_built max b
| bb_u64 n b : bam_from_u64 max n = Ok b -> bam_built max b
| bb_set b b' k v : bam_built max b -> bam_set b k v = Ok b' -> bam_built max b'.

(** ** Examples: the decoder on encodings taken from the SDM's format, by hand *)
Example dec_ex1 : decode [0x48; 0x89; 0xE5; 0x90] =
  Some (OMovStore 64 (RmReg 5) 4, [0x90]).                       (* mov rbp, rsp *)
Proof. reflexivity. Qed.
Example dec_ex2 : decode [0x48; 0x8B; 0x44; 0x24; 0xF8] =
  Some (OMovLoad 64 0 (RmMem {| a_base := BReg 4; a_index := None; a_disp := -8 |}), []).
Proof. reflexivity. Qed.                                       (* mov rax, [rsp-8] *)
Example dec_ex3 : decode [0x4A; 0x8D; 0x04; 0xA5; 1; 0; 0; 0] =
  Some (OLea 64 0 {| a_base := BNone; a_index := Some (12, 2); a_disp := 1 |}, []).
Proof. reflexivity. Qed.                                       (* lea rax, [r12*4+1] *)
Example dec_ex4 : decode [0x6A; 0xFF] = Some (OPushImm 64 (-1), []).
Proof. reflexivity. Qed.
