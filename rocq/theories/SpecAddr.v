(** What can be expressed: the addresses for which there is a memory operand, the constants for
    which there is a push. *)
From Coq Require String.
Import String.StringSyntax.
From Verif Require Import Base Str X64 SpecX86.

(** An address of the instruction set (SDM vol. 1, 3.7.5): [base + index * 2^scale + disp], the
    index being any register but RSP, or [RIP + disp]; disp is a signed 32-bit number. *)
Inductive want :=
| WReg (base : option reg64) (index : option (reg64 * Z)) (disp : Z)
| WRip (disp : Z).
Definition want_ok (w : want) : Prop :=
  match w with
  | WReg _ ix d => - 2 ^ 31 <= d < 2 ^ 31 /\
      match ix with Some (i, sc) => i <> RSP /\ 0 <= sc <= 3 | None => True end
  | WRip d => - 2 ^ 31 <= d < 2 ^ 31
  end.
(** its value, [next] being the address of the following instruction *)
Definition want_ea (f : Z -> Z) (next : Z) (w : want) : Z :=
  match w with
  | WReg b ix d =>
      (match b with Some r => f (hw64 r) | None => 0 end
       + match ix with Some (i, sc) => f (hw64 i) * 2 ^ sc | None => 0 end + d) mod 2 ^ 64
  | WRip d => (next + d) mod 2 ^ 64
  end.

(** [m] in a lea, whatever the destination and the state, gives the address [w] *)
Definition lea_gives (m : mem64) (w : want) : Prop :=
  forall dst, exists bs, emits (Lea64 dst m) bs /\
  forall s, mach_ok s -> code_at s bs ->
  exists s', step s = Next s' /\
    regs s' (hw64 dst) = want_ea (regs s) (rip s + Z.of_nat (length bs)) w /\
    regs_but [hw64 dst] s s' /\ mem_same s s'.
(** [m] in a store writes the source register to the eight bytes at [w] and nothing else *)
Definition store_goes (m : mem64) (w : want) : Prop :=
  forall src, exists bs, emits (MovMR64 m src) bs /\
  forall s, mach_ok s -> code_at s bs ->
  exists s', step s = Next s' /\
    let a := want_ea (regs s) (rip s + Z.of_nat (length bs)) w in
    load 8 (mem s') a = regs s (hw64 src) /\ mem_but 8 a s s' /\ regs_but [] s s'.

(** The addresses for which there is an operand: those without a displacement of 128..256, and
    with such a displacement those that can do without a base. *)
Definition expressible (w : want) : Prop :=
  match w with
  | WRip _ => True
  | WReg b ix d =>
      ~ (128 <= d <= 256) \/ b = None \/ (ix = None /\ b <> Some RSP)
      \/ (exists r, b = Some r /\ ix = Some (r, 0))
  end.
(** which operand to use *)
Definition u32_of (d : Z) : Z := d mod 2 ^ 32.
Definition operand_for (w : want) : mem64 :=
  match w with
  | WRip d => RipOffset (u32_of d)
  | WReg None None d => MSib None (u32_of d) RSP 0
  | WReg None (Some (i, sc)) d => MSib None (u32_of d) i sc
  | WReg (Some b) None d =>
      if (128 <=? d) && (d <=? 256) then MSib None d b 0 else RegOffset b (u32_of d)
  | WReg (Some b) (Some (i, sc)) d =>
      if (128 <=? d) && (d <=? 256) then MSib None d b 1 else MSib (Some b) (u32_of d) i sc
  end.

(** the code [bs] pushes the number [v], whatever the state *)
Definition pushes (bs : list Z) (v : Z) : Prop :=
  forall s, mach_ok s -> code_at s bs ->
  exists s', step s = Next s' /\ regs s' rsp = (regs s rsp - 8) mod 2 ^ 64 /\
    load 8 (mem s') (regs s' rsp) = v mod 2 ^ 64.
