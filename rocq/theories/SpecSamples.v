(** The sample programs of the repository (at-asm/tests), byte for byte, and what their headers
    and comments say about them. *)
From Coq Require String.
Import String.StringSyntax.
From Verif Require Import Base Str X64 SpecX86 Mac Obj Asm Assembler Cli SpecCli SpecLink.

Definition text_file (l : list str) : list Z := utf8 (flat_map (fun s => s ++ [10]) l).
(** at-asm/tests/minimum.s *)
Definition minimum_s : list Z := text_file
 [ lit ";; TEST: Exit Code ""24"""; []; lit "global _main"; lit "_main:"; lit "  mov ax, 24"; lit "  ret" ].
(** at-asm/tests/many_mov.s *)
Definition many_mov_s : list Z := text_file
 [ lit ";; TEST: Exit Code ""42"""; []; lit "global _main"; lit "_main:"; lit "  mov edi, 42"; lit "  mov r8d, edi";
   lit "  mov cx, r8w"; lit "  mov rax, rcx"; lit "  ret" ].
(** at-asm/tests/reloc_hello_world.s; one comment ends with three Japanese characters *)
Definition reloc_hello_s : list Z := text_file
 [ lit ";; TEST: Exit Code ""0"""; lit ";; TEST: STDOUT ""Hello, World!!"""; []; lit "section .text"; lit "global _main"; lit "_main:";
   lit "  mov rax, 0x2000000 + 4    ;sys_write"; lit "  mov rdi, 1 ; stdout";
   lit "  mov rsi, msg ; lea rsi, [rel msg] " ++ [0x3067; 0x3082; 0x53EF];
   lit "  mov rdx, 14"; lit "  syscall"; []; lit "  mov rax, 0x2000000 + 1    ;sys_exit"; lit "  mov rdi, 0"; lit "  syscall"; [];
   lit "section .data"; lit "  msg db  ""Hello, World!!""" ].
(** at-asm/tests/simple_hello_world.s *)
Definition simple_hello_s : list Z := text_file
 [ lit ";; TEST: Exit Code ""0"""; lit ";; TEST: STDOUT ""Hello world!"""; []; lit "section .text"; lit "global _main"; lit "_main:";
   lit "  ; prepare data"; lit "  push 0x21646c72  ; ""!dlr"""; lit "  mov rax, 0x6f77206f6c6c6548 ; ""ow olleH"""; lit "  push rax"; [];
   lit "  ; write syscall"; lit "  mov rsi, rsp"; lit "  mov rdi, 1"; lit "  mov rdx, 12"; lit "  mov rax, 0x2000004"; lit "  syscall"; [];
   lit "  ; exit syscall"; lit "  mov rax, 0x2000001"; lit "  mov rdi, 0"; lit "  syscall" ].

(** The command assembles the source [src]; the file it writes, linked at any addresses and loaded
    into any machine, behaves as [P] says when it is entered at `_main`. *)
Definition main_does (p : profile) (h : endian) (src : list Z)
  (P : list Z -> Z -> (mach -> mach) -> mach -> Prop) : Prop :=
  forall args w cf i o, config_init args = Done cf -> w_slot w (cf_input cf) = Some i -> w_data w i = Some src ->
  w_slot w (cf_output cf) = Some o -> i <> o ->
  status (snd (main p h args w)) = 0 /\ exists f, w_data (fst (main p h args w)) o = Some f /\
  forall loc, exists entry text, lookup h f loc (lit "_main") = Some entry /\ link h f loc 1 = Some text /\
  forall os s, mach_ok s -> loaded h f loc s -> rip s = entry mod W64 -> P text (loc 1) os s.

(** after [n] instructions the program makes a system call, handing the kernel state [t] *)
Definition calls (os : mach -> mach) (n : nat) (s t : mach) : Prop :=
  exists s1, go os n s = Some s1 /\ step s1 = SysCall t.
(** the system calls of macOS (class 2 in the upper bits): number in rax, arguments in rdi, rsi, rdx *)
Definition asks_write (t : mach) (fd : Z) (bytes : list Z) : Prop :=
  regs t 0 = 0x2000004 /\ regs t 7 = fd /\ regs t 2 = zlen bytes /\ fetch (length bytes) (mem t) (regs t 6) = bytes.
Definition asks_exit (t : mach) (code : Z) : Prop := regs t 0 = 0x2000001 /\ regs t 7 = code.
(** after [n] instructions the program is back at its caller, registers outside [l] unchanged, and
    [ax] is the low 16 bits of the result *)
Definition returns (os : mach -> mach) (n : nat) (s : mach) (l : list Z) (ax : Z) : Prop :=
  exists t, go os n s = Some t /\ rip t = load 8 (mem s) (regs s rsp) /\ regs t rsp = (regs s rsp + 8) mod W64 /\
    regs t 0 mod 2 ^ 16 = ax /\ regs_but (rsp :: l) s t /\ mem_same s t.
