(** Programs with stores and jumps: what executing a listing of instructions means. *)
From Verif Require Import Base Str X64 SpecX86 Mac SpecMacho Obj Asm SpecAsm SpecLink.

(** the memory an instruction of [len] bytes writes in state [s]: address and number of bytes *)
Definition written (i : instr) (len : Z) (s : mach) : Z * Z :=
  match i with
  | PushI8 _ | PushI32 _ | PushR64 _ => (regs s rsp - 8, 8)
  | PushI16 _ | PushR16 _ => (regs s rsp - 2, 2)
  | MovMR64 m _ => (doc_ea s ((rip s + len) mod W64) m (cpu_disp m), 8)
  | _ => (0, 0)
  end.

(** a listing says which instruction, of how many bytes, is at an address *)
Definition listing := Z -> instr -> Z -> Prop.
(** instructions with their bytes, one after the other from address [lo] *)
Definition code_listing (lo : Z) (l : list (instr * list Z)) : listing := fun a i len =>
  exists l1 bs l2, l = l1 ++ (i, bs) :: l2 /\ a = (lo + zlen (flat_map snd l1)) mod W64 /\ len = zlen bs.
(** the instructions of a source program's text, put at address [lo], names standing for [addr] *)
Definition text_listing (lo : Z) (addr : str -> option Z) (text : list (stmt * list Z)) : listing := fun a i len =>
  exists l1 st bs l2, text = l1 ++ (st, bs) :: l2 /\ linked_instr addr st = [i] /\
    a = (lo + zlen (out_bytes l1)) mod W64 /\ len = zlen bs.

(** [n] times the instruction the listing has at the instruction pointer takes effect; jumps
    are followed and system calls served by the kernel [os] *)
Inductive follows (os : mach -> mach) (at_ : listing) : nat -> mach -> mach -> Prop :=
| fo_none s : follows os at_ 0 s s
| fo_step n i len s s1 s2 : i <> Syscall -> at_ (rip s) i len ->
    effect i (match instr_mem i with Some m => cpu_disp m | None => 0 end) (push_value i) len s s1 ->
    follows os at_ n s1 s2 -> follows os at_ (S n) s s2
| fo_sys n len s s1 s2 : at_ (rip s) Syscall len -> effect Syscall 0 0 len s s1 ->
    follows os at_ n (os s1) s2 -> follows os at_ (S n) s s2.

(** the kernel leaves the [n] bytes from [a] unchanged *)
Definition leaves (os : mach -> mach) (a n : Z) : Prop := forall s, mach_ok s ->
  mach_ok (os s) /\ forall i, 0 <= i < n -> mem (os s) ((a + i) mod W64) = mem s ((a + i) mod W64).
(** ... and comes back to the next instruction *)
Definition resumes (os : mach -> mach) : Prop := forall s, rip (os s) = rip s.
(** an instruction of the listing is next, and does not write onto the [n] bytes from [a] *)
Definition may_go (at_ : listing) (a n : Z) (s : mach) : Prop :=
  exists i len, at_ (rip s) i len /\ apart a n (fst (written i len s)) (snd (written i len s)).
