(** Property theorems for linking and running what the command writes: C61-C66.  The linker and
    the machine are those of SpecLink.v and SpecX86.v, written from the file format and the
    processor manual. *)
From Coq Require String.
Import String.StringSyntax.
From Verif Require Import Base Str X64 SpecX86 Mac SpecMacho Obj SpecObj Asm SpecAsm Assembler SpecRun Cli SpecCli SpecLink
  PfX64 PfX86 PfX64Top PfRun PfRun3 PfRun5 PfEnd PfCli PfLink PfGo PfWhole PropsAsm.


(** ** C61: linking gives every statement's bytes with symbolic operands replaced by addresses *)

Theorem C61_linked : forall p h ins a pr f loc,
  Forall bytes_ok ins -> Forall (fun i => ~ In 0 i) ins -> session p ins a -> sources_are p ins pr ->
  fits (object_of pr) -> small pr -> zlen (syms (object_of pr)) <= 2 ^ 24 -> asm_write_into p h a = (f, true) ->
  forall s, s <> SBss -> out_bytes (during s SText pr) <> [] ->
  exists bss, Forall2 (linked_stmt (label_addr loc pr)) (during s SText pr) bss /\ link h f loc (ordinal pr s) = Some (concat bss).
Proof. exact top_C61. Qed.
Print Assumptions C61_linked.

(** text at 0x1000, data at 0x2000; the file of [ex_source] *)
Definition ex_loc (k : Z) : Z := if k =? 1 then 0x1000 else 0x2000.
Definition ex_file (p : profile) (h : endian) : list Z := fst (asm_write_into p h (ex_state p)).
Lemma ex_written p h : asm_write_into p h (ex_state p) = (ex_file p h, true).
Proof. unfold ex_file. destruct p, h; vm_compute; reflexivity. Qed.
Lemma ex_small : small ex_prog /\ zlen (syms (object_of ex_prog)) <= 2 ^ 24.
Proof. split; [split; vm_compute; reflexivity|vm_compute; discriminate]. Qed.
Example C61_case : forall p h,
  link h (ex_file p h) ex_loc 1 = Some [0x48; 0xBE; 0x04; 0x20; 0; 0; 0; 0; 0; 0; 0x6A; 5; 0xC3] /\
  link h (ex_file p h) ex_loc 2 = Some [7; 0; 0; 0; 72; 105; 10] /\ link h (ex_file p h) ex_loc 3 = None /\
  exists bss, Forall2 (linked_stmt (label_addr ex_loc ex_prog)) (during SText SText ex_prog) bss /\
    concat bss = [0x48; 0xBE; 0x04; 0x20; 0; 0; 0; 0; 0; 0; 0x6A; 5; 0xC3].
Proof.
  intros p h. destruct ex_bytes as [B1 B2]. destruct ex_small as [S1 S2].
  assert (L : link h (ex_file p h) ex_loc 1 = Some [0x48; 0xBE; 0x04; 0x20; 0; 0; 0; 0; 0; 0; 0x6A; 5; 0xC3]) by (destruct p, h; vm_compute; reflexivity).
  split; [exact L|]. split; [destruct p, h; vm_compute; reflexivity|]. split; [destruct p, h; vm_compute; reflexivity|].
  destruct (C61_linked p h [ex_source] (ex_state p) ex_prog (ex_file p h) ex_loc B1 B2 (ex_session p) (ex_sources p) ex_fits S1 S2 (ex_written p h)
    SText ltac:(discriminate) ltac:(vm_compute; discriminate)) as (bss & H & E). exists bss. split; [exact H|].
  change (ordinal ex_prog SText) with 1 in E. rewrite L in E. injection E as E. now symmetry.
Qed.


(** ** C62: exactly the global names can be looked up, and give the label's address *)

Theorem C62_lookup : forall p h ins a pr f loc n,
  Forall bytes_ok ins -> Forall (fun i => ~ In 0 i) ins -> session p ins a -> sources_are p ins pr ->
  fits (object_of pr) -> asm_write_into p h a = (f, true) ->
  lookup h f loc n = if is_global pr n then label_addr loc pr n else None.
Proof. exact top_C62. Qed.
Print Assumptions C62_lookup.

Example C62_case : forall p h,
  lookup h (ex_file p h) ex_loc (lit "start") = Some 0x1000 /\ lookup h (ex_file p h) ex_loc (lit "fin") = None /\
  is_global ex_prog (lit "start") = true /\ is_global ex_prog (lit "fin") = false /\
  label_addr ex_loc ex_prog (lit "fin") = Some 0x100C.
Proof. intros p h. repeat (split; [destruct p, h; vm_compute; reflexivity|]). destruct p, h; vm_compute; reflexivity. Qed.


(** ** C63: code with pushes and system calls runs as documented; so does a linked file entered at a global label *)

Theorem C63_code : forall os is bss s,
  Forall instr_ok is -> Forall plain is -> Forall2 emits is bss -> mach_ok s -> code_at s (concat bss) ->
  serves os (rip s) (zlen (concat bss)) -> apart (rip s) (zlen (concat bss)) (regs s rsp - stack_use is) (stack_use is) -> stack_use is <= W64 ->
  exists s', go os (length is) s = Some s' /\ traced os is s s' /\ rip s' = (rip s + zlen (concat bss)) mod W64 /\
    regs s' rsp = (regs s rsp - stack_use is) mod W64.
Proof. exact top_go. Qed.
Print Assumptions C63_code.

Theorem C63_linked_file : forall p h ins a pr f loc,
  Forall bytes_ok ins -> Forall (fun i => ~ In 0 i) ins -> session p ins a -> sources_are p ins pr ->
  fits (object_of pr) -> small pr -> zlen (syms (object_of pr)) <= 2 ^ 24 -> asm_write_into p h a = (f, true) ->
  forall n l1 lab l2 l3, let text := during SText SText pr in
  text = l1 ++ (StLabel n, lab) :: l2 ++ l3 -> (forall y, In y l1 -> stmt_label (fst y) <> Some n) -> is_global pr n = true ->
  out_bytes text <> [] -> Forall (fun x => is_data (fst x) = false) l2 ->
  let is := flat_map (fun x => linked_instr (label_addr loc pr) (fst x)) l2 in Forall plain is ->
  exists v, lookup h f loc n = Some v /\
  forall os s, mach_ok s -> loaded h f loc s -> rip s = v mod W64 -> serves os (loc 1) (zlen (out_bytes text)) ->
    stack_use is <= W64 -> apart (loc 1) (zlen (out_bytes text)) (regs s rsp - stack_use is) (stack_use is) ->
  exists s', go os (length is) s = Some s' /\ traced os is s s' /\ rip s' = (v + zlen (out_bytes l2)) mod W64 /\
    regs s' rsp = (regs s rsp - stack_use is) mod W64 /\
    (forall r l3', l3 = (StInstr Ret, r) :: l3' -> exists s'', step s' = Next s'' /\ effect Ret 0 0 1 s' s'').
Proof. exact top_C63. Qed.
Print Assumptions C63_linked_file.

(** a machine with the linked [ex_source] loaded, a return address 0x4242 on the stack *)
Definition ex_image (p : profile) (h : endian) (a : Z) : Z :=
  let put (k : Z) := match link h (ex_file p h) ex_loc k with Some bs => nth (Z.to_nat (a - ex_loc k)) bs 0 | None => 0 end in
  if (0x1000 <=? a) && (a <? 0x1800) then put 1 else if (0x2000 <=? a) && (a <? 0x2800) then put 2
  else if (a =? 0x8000) || (a =? 0x8001) then 0x42 else 0.
Definition ex_start (p : profile) (h : endian) : mach :=
  {| regs := fun r => if r =? rsp then 0x8000 else 0; mem := ex_image p h; rip := 0x1000 |}.
(** the address of "Hi" in rsi, 5 pushed; `ret` then takes the 5 for its return address *)
Example C63_case : forall p h, let is := [MovRI64 RSI 0x2004; PushI8 5] in
  during SText SText ex_prog = [] ++ (StLabel (lit "start"), []) :: firstn 4 (skipn 1 (during SText SText ex_prog)) ++ [(StInstr Ret, [0xC3])] /\
  flat_map (fun x => linked_instr (label_addr ex_loc ex_prog) (fst x)) (firstn 4 (skipn 1 (during SText SText ex_prog))) = is /\
  Forall plain is /\ stack_use is = 8 /\ apart (ex_loc 1) 13 (0x8000 - 8) 8 /\
  option_map (fun s => (regs s 6, regs s rsp, rip s, load 8 (mem s) (regs s rsp), fetch 3 (mem s) (regs s 6))) (go (fun s => s) 2 (ex_start p h))
    = Some (0x2004, 0x7FF8, 0x100C, 5, [72; 105; 10]) /\
  option_map (fun s => (regs s rsp, rip s)) (go (fun s => s) 3 (ex_start p h)) = Some (0x8000, 5).
Proof.
  intros p h. cbv zeta. split; [vm_compute; reflexivity|]. split; [vm_compute; reflexivity|].
  split; [constructor; [cbn; discriminate|constructor; [exact I|constructor]]|]. split; [reflexivity|].
  split; [intros i j Hi Hj; change (ex_loc 1) with 0x1000; unfold W64; rewrite !Z.mod_small by lia; lia|].
  split; destruct p, h; vm_compute; reflexivity.
Qed.


(** ** C64: a run succeeds exactly for sources of the language that can be linked, and then writes their file *)

Theorem C64_success : forall p h args w cf i o src,
  config_init args = Done cf -> w_slot w (cf_input cf) = Some i ->
  w_data w i = Some src -> w_slot w (cf_output cf) = Some o -> i <> o -> bytes_ok src -> ~ In 0 src ->
  (forall pr, sources_are p [src] pr -> fits (object_of pr) /\ size_ok p pr) ->
  (status (snd (main p h args w)) = 0 <-> exists pr, sources_are p [src] pr /\ bss_clean pr /\ linkable pr).
Proof. exact top_C64. Qed.
Print Assumptions C64_success.

Theorem C64_file : forall p h args w cf i o src pr,
  config_init args = Done cf -> w_slot w (cf_input cf) = Some i ->
  w_data w i = Some src -> w_slot w (cf_output cf) = Some o -> i <> o -> bytes_ok src -> ~ In 0 src ->
  sources_are p [src] pr -> fits (object_of pr) -> small pr -> zlen (syms (object_of pr)) <= 2 ^ 24 ->
  status (snd (main p h args w)) = 0 ->
  exists f, w_data (fst (main p h args w)) o = Some f /\ forall loc,
    (forall n, lookup h f loc n = if is_global pr n then label_addr loc pr n else None) /\
    (forall s, s <> SBss -> out_bytes (during s SText pr) <> [] ->
      exists bss, Forall2 (linked_stmt (label_addr loc pr)) (during s SText pr) bss /\ link h f loc (ordinal pr s) = Some (concat bss)).
Proof. exact top_C64_file. Qed.
Print Assumptions C64_file.

Definition nl (l : list str) : list Z := utf8 (flat_map (fun s => s ++ [10]) l).
(** at-asm/tests/reloc_hello_world.s *)
Definition hello : list Z := nl
 [ lit ";; TEST: Exit Code ""0"""; []; lit "section .text"; lit "global _main"; lit "_main:";
   lit "  mov rax, 0x2000000 + 4    ;sys_write"; lit "  mov rdi, 1 ; stdout"; lit "  mov rsi, msg ; lea rsi, [rel msg]";
   lit "  mov rdx, 14"; lit "  syscall"; []; lit "  mov rax, 0x2000000 + 1    ;sys_exit"; lit "  mov rdi, 0"; lit "  syscall"; [];
   lit "section .data"; lit "  msg db  ""Hello, World!!""" ].
(** at-asm/tests/simple_hello_world.s *)
Definition hello2 : list Z := nl
 [ lit "section .text"; lit "global _main"; lit "_main:"; lit "  ; prepare data"; lit "  push 0x21646c72  ; ""!dlr""";
   lit "  mov rax, 0x6f77206f6c6c6548 ; ""ow olleH"""; lit "  push rax"; []; lit "  ; write syscall"; lit "  mov rsi, rsp";
   lit "  mov rdi, 1"; lit "  mov rdx, 12"; lit "  mov rax, 0x2000004"; lit "  syscall"; []; lit "  ; exit syscall";
   lit "  mov rax, 0x2000001"; lit "  mov rdi, 0"; lit "  syscall" ].
(** at-asm/tests/minimum.s, many_mov.s *)
Definition minimum : list Z := nl [ lit ";; TEST: Exit Code ""24"""; []; lit "global _main"; lit "_main:"; lit "  mov ax, 24"; lit "  ret" ].
Definition many_mov : list Z := nl
 [ lit "global _main"; lit "_main:"; lit "  mov edi, 42"; lit "  mov r8d, edi"; lit "  mov cx, r8w"; lit "  mov rax, rcx"; lit "  ret" ].
(** assemble with the command, link, load, start at _main *)
Definition run_command (p : profile) (src : list Z) : option (list Z) :=
  let r := main p Little [lit "at-asm"; lit "a.s"] (ex_world src [1; 2; 3]) in
  if status (snd r) =? 0 then w_data (fst r) 2 else None.
Definition load_file (f : list Z) : option mach :=
  match link Little f ex_loc 1, lookup Little f ex_loc (lit "_main") with
  | Some text, Some start =>
      let data := match link Little f ex_loc 2 with Some d => d | None => [] end in
      Some {| regs := fun r => if r =? rsp then 0x8000 else 0xDEADBEEF0000;
              mem := fun a => if (0x1000 <=? a) && (a <? 0x2000) then nth (Z.to_nat (a - 0x1000)) text 0
                              else if (0x2000 <=? a) && (a <? 0x3000) then nth (Z.to_nat (a - 0x2000)) data 0
                              else if (a =? 0x8000) || (a =? 0x8001) then 0x42 else 0;
              rip := start |}
  | _, _ => None
  end.
Definition run_to {A} (view : mach -> A) (n : nat) (p : profile) (src : list Z) : option A :=
  match run_command p src with
  | Some f => match load_file f with Some s => option_map view (go (fun s => s) n s) | None => None end
  | None => None
  end.
(** write(1, "Hello, World!!", 14) then exit(0) *)
Example hello_runs : forall p,
  run_to (fun s => (regs s 0, regs s 7, fetch 14 (mem s) (regs s 6), regs s 2)) 5 p hello = Some (0x2000004, 1, utf8 (lit "Hello, World!!"), 14) /\
  run_to (fun s => (regs s 0, regs s 7)) 8 p hello = Some (0x2000001, 0).
Proof. intro p. destruct p; split; vm_compute; reflexivity. Qed.
Example hello2_runs : forall p,
  run_to (fun s => (regs s 0, regs s 7, fetch 12 (mem s) (regs s 6), regs s 2)) 8 p hello2 = Some (0x2000004, 1, utf8 (lit "Hello world!"), 12) /\
  run_to (fun s => (regs s 0, regs s 7)) 11 p hello2 = Some (0x2000001, 0).
Proof. intro p. destruct p; split; vm_compute; reflexivity. Qed.
(** back at the caller with the exit code in al; the other bytes of rax are not set *)
Example minimum_runs : forall p, run_to (fun s => (regs s 0 mod 2 ^ 16, rip s, regs s rsp)) 2 p minimum = Some (24, 0x4242, 0x8008).
Proof. intro p. destruct p; vm_compute; reflexivity. Qed.
Example many_mov_runs : forall p, run_to (fun s => (regs s 0 mod 2 ^ 16, rip s, regs s rsp)) 5 p many_mov = Some (42, 0x4242, 0x8008).
Proof. intro p. destruct p; vm_compute; reflexivity. Qed.
Example C64_case : forall p h, let w := ex_world ex_source [1; 2; 3] in
  config_init [lit "at-asm"; lit "a.s"] = Done {| cf_output := lit "a.o"; cf_input := lit "a.s" |} /\
  w_slot w (lit "a.s") = Some 1 /\ w_slot w (lit "a.o") = Some 2 /\ status (snd (main p h [lit "at-asm"; lit "a.s"] w)) = 0 /\
  (forall pr, sources_are p [ex_source] pr -> fits (object_of pr) /\ size_ok p pr).
Proof.
  intros p h. cbv zeta. split; [vm_compute; reflexivity|]. split; [reflexivity|]. split; [reflexivity|].
  split; [destruct p, h; vm_compute; reflexivity|]. intros pr H.
  assert (pr = ex_prog) by (eapply sources_are_fun; [exact H|apply ex_sources]). subst pr. split; [apply ex_fits|].
  intros _. split; [apply ex_small|vm_compute; reflexivity].
Qed.


(** ** C65: a label defined twice.  The full statement (such a source is rejected) is false; what it means instead *)

Theorem C65_first_counts_partial : forall loc pr n,
  let text := during SText SText pr in let data := during SData SText pr in
  (forall l1 x l2, text = l1 ++ x :: l2 -> out_bytes text <> [] -> stmt_label (fst x) = Some n ->
     (forall y, In y l1 -> stmt_label (fst y) <> Some n) -> label_addr loc pr n = Some (loc 1 + zlen (out_bytes l1))) /\
  (forall l1 x l2, data = l1 ++ x :: l2 -> out_bytes data <> [] -> stmt_label (fst x) = Some n ->
     (forall y, In y text -> out_bytes text <> [] -> stmt_label (fst y) <> Some n) -> (forall y, In y l1 -> stmt_label (fst y) <> Some n) ->
     label_addr loc pr n = Some (loc (ordinal pr SData) + zlen (out_bytes l1))) /\
  ((forall y, In y text -> stmt_label (fst y) <> Some n) -> (forall y, In y data -> stmt_label (fst y) <> Some n) -> label_addr loc pr n = None).
Proof. exact top_C65. Qed.
Print Assumptions C65_first_counts_partial.

Definition twice : list Z := nl [ lit "section .data"; lit "x db 1"; lit "section .text"; lit "mov rax, x"; lit "x:"; lit "global x"; lit "ret"; lit "x:" ].
Theorem C65_refuted : exists src, forall p, exists f, run_command p src = Some f /\
  (exists pre l1 mid l2 post, src = pre ++ l1 ++ mid ++ l2 ++ post /\ l1 = utf8 (lit "x:" ++ [10]) /\ l2 = l1) /\
  link Little f ex_loc 1 = Some [0x48; 0xB8; 0x0A; 0x10; 0; 0; 0; 0; 0; 0; 0xC3] /\ lookup Little f ex_loc (lit "x") = Some 0x100A.
Proof.
  exists twice. intro p. exists (match run_command p twice with Some f => f | None => [] end).
  split; [destruct p; vm_compute; reflexivity|]. split.
  - exists (utf8 (lit "section .data" ++ [10] ++ lit "x db 1" ++ [10] ++ lit "section .text" ++ [10] ++ lit "mov rax, x" ++ [10])), (utf8 (lit "x:" ++ [10])),
      (utf8 (lit "global x" ++ [10] ++ lit "ret" ++ [10])), (utf8 (lit "x:" ++ [10])), [].
    split; [vm_compute; reflexivity|]. split; reflexivity.
  - split; destruct p; vm_compute; reflexivity.
Qed.
Print Assumptions C65_refuted.
Example C65_case : label_addr ex_loc ex_prog (lit "msg") = Some 0x2004 /\
  label_addr ex_loc (firstn 5 ex_prog ++ [(StLabel (lit "fin"), [])] ++ skipn 5 ex_prog) (lit "fin") = Some 0x100C.
Proof. split; vm_compute; reflexivity. Qed.


(** ** C66: `global` of a name that is not defined.  The full statement (the name is in the file's symbol table) is false *)

Theorem C66_not_found_partial : forall p h ins a pr f loc n,
  Forall bytes_ok ins -> Forall (fun i => ~ In 0 i) ins -> session p ins a -> sources_are p ins pr ->
  fits (object_of pr) -> asm_write_into p h a = (f, true) ->
  (lookup h f loc n = None <-> is_global pr n = false \/ ~ written_label pr n).
Proof. exact top_C66. Qed.
Print Assumptions C66_not_found_partial.

Theorem C66_refuted : exists src n, forall p, exists f, run_command p src = Some f /\
  (exists pre post, src = pre ++ utf8 (lit "global " ++ n ++ [10]) ++ post) /\ forall loc, lookup Little f loc n = None.
Proof.
  exists (nl [lit "global start"; lit "strat:"; lit "ret"]), (lit "start"). intro p.
  exists (match run_command p (nl [lit "global start"; lit "strat:"; lit "ret"]) with Some f => f | None => [] end).
  split; [destruct p; vm_compute; reflexivity|]. split; [exists [], (nl [lit "strat:"; lit "ret"]); vm_compute; reflexivity|].
  intro loc. destruct p; vm_compute; reflexivity.
Qed.
Print Assumptions C66_refuted.
