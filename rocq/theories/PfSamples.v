(** Proofs: the sample programs of the repository. *)
From Coq Require String.
Import String.StringSyntax.
From Verif Require Import Base Str X64 SpecX86 Mac SpecMacho Obj SpecObj Asm SpecAsm Assembler SpecRun Cli SpecCli SpecLink SpecProg SpecSamples.
From Verif Require Import PfX64 PfX86 PfX64Top PfStr PfTok PfObj PfRun PfRun3 PfRun5 PfEnd PfCli PfLink PfGo PfWhole PfProg PropsAsm.

(** ** Entering a linked program at `_main` *)

Definition code_ok (is : list instr) : Prop := Forall (fun i => instr_ok i /\ instr_scale_ok i) is.
Lemma sample_enter p h src pr l1 lab l2 a (P : list Z -> Z -> (mach -> mach) -> mach -> Prop) :
  bytes_ok src -> ~ In 0 src -> sources_are p [src] pr -> fits (object_of pr) -> small pr -> zlen (syms (object_of pr)) <= 2 ^ 24 ->
  read_from p asm_new src = Done a -> snd (asm_write_into p h a) = true ->
  let text := during SText SText pr in let data := during SData SText pr in
  text = l1 ++ (StLabel (lit "_main"), lab) :: l2 -> out_bytes l1 = [] -> (forall y, In y l1 -> stmt_label (fst y) <> Some (lit "_main")) ->
  is_global pr (lit "_main") = true -> out_bytes text <> [] -> Forall (fun x => is_data (fst x) = false) text ->
  (forall loc os s, let is := flat_map (fun x => linked_instr (label_addr loc pr) (fst x)) text in
     code_ok is -> mach_ok s -> fetch (length (seq_bytes is)) (mem s) (loc 1) = seq_bytes is -> rip s = loc 1 mod W64 ->
     (out_bytes data <> [] -> exists bss, Forall2 (linked_stmt (label_addr loc pr)) data bss /\
        fetch (length (concat bss)) (mem s) (loc (ordinal pr SData)) = concat bss) ->
     P (seq_bytes is) (loc 1) os s) ->
  main_does p h src P.
Proof.
  intros B Z0 Sr Ft Sm Ls R Wr text data Et E1 Nf Gl Eb Dt H args w cf i o C I D O N.
  assert (Bs : Forall bytes_ok [src]) by (constructor; [exact B|constructor]).
  assert (Zs : Forall (fun i => ~ In 0 i) [src]) by (constructor; [exact Z0|constructor]).
  pose proof (top_C54_output p h args w cf i o src C I D O N) as M. rewrite R, Wr in M. destruct M as [Mo M].
  split; [now rewrite M|]. pose proof (proj2 (session_one p src a) R) as S0.
  destruct (asm_write_into p h a) as [f ok] eqn:Ew. cbn [fst snd] in *. subst ok. exists f. split; [exact Mo|]. intro loc.
  pose proof (sources_are_wf _ _ _ Sr) as W. pose proof (wf_during SText SText pr W) as Wd.
  pose proof (during_forall _ SText SText pr (sources_instr_ok _ _ _ Sr)) as Io.
  destruct (top_C61 p h [src] a pr f loc Bs Zs S0 Sr Ft Sm Ls Ew SText ltac:(discriminate) Eb) as (bss & H2 & Lk).
  change (ordinal pr SText) with 1 in Lk.
  assert (D3 : Forall (fun x => is_data (fst x) = false /\ (forall i, fst x = StInstr i -> instr_ok i)) text).
  { apply Forall_forall. intros xx Ix. split; [exact (proj1 (Forall_forall _ _) Dt xx Ix)|exact (proj1 (Forall_forall _ _) Io xx Ix)]. }
  destruct (linked_code _ _ _ Wd D3 H2) as [Code Ok]. fold text in Code, Ok. rewrite Code in Lk.
  exists (loc 1), (seq_bytes (flat_map (fun x => linked_instr (label_addr loc pr) (fst x)) text)).
  split; [|split; [exact Lk|]].
  { rewrite (top_C62 p h [src] a pr f loc (lit "_main") Bs Zs S0 Sr Ft Ew), Gl.
    rewrite (text_label_addr loc pr (lit "_main") l1 _ l2 Et Eb eq_refl Nf), E1. change (zlen []) with 0. now rewrite Z.add_0_r. }
  intros os s Hm Ld Hr. apply H; [exact Ok|exact Hm|exact (Ld 1 _ Lk)|exact Hr|].
  intro Ed. destruct (top_C61 p h [src] a pr f loc Bs Zs S0 Sr Ft Sm Ls Ew SData ltac:(discriminate) Ed) as (bd & H3 & Lk3).
  exists bd. split; [exact H3|exact (Ld _ _ Lk3)].
Qed.

(** ** One instruction of the code *)

Lemma seq_app a b : seq_bytes (a ++ b) = seq_bytes a ++ seq_bytes b.
Proof. unfold seq_bytes. now rewrite map_app, concat_app. Qed.
Definition at_pos (lo : Z) (is is0 : list instr) (s : mach) : Prop :=
  mach_ok s /\ fetch (length (seq_bytes is)) (mem s) lo = seq_bytes is /\ rip s = (lo + zlen (seq_bytes is0)) mod W64.

Lemma code_step lo is is0 i rest s : code_ok is -> is = is0 ++ i :: rest -> at_pos lo is is0 s ->
  apart lo (zlen (seq_bytes is)) (fst (written i (zlen (instr_bytes i)) s)) (snd (written i (zlen (instr_bytes i)) s)) ->
  exists s1, step s = (if match i with Syscall => true | _ => false end then SysCall s1 else Next s1) /\
    effect i (match instr_mem i with Some m => cpu_disp m | None => 0 end) (push_value i) (zlen (instr_bytes i)) s s1 /\
    mach_ok s1 /\ fetch (length (seq_bytes is)) (mem s1) lo = seq_bytes is /\ (i <> Ret -> at_pos lo is (is0 ++ [i]) s1).
Proof.
  intros Ok E (Hm & Hf & Hr) Ap.
  set (at_ := fun a j len => a = rip s /\ j = i /\ len = zlen (instr_bytes i)).
  assert (L : listed lo (seq_bytes is) at_).
  { intros a0 j len (-> & -> & ->). unfold code_ok in Ok. rewrite E in Ok. apply Forall_app in Ok. destruct Ok as [_ Ok]. inversion_clear Ok as [|? ? [O1 O2] _].
    split; [exact O1|]. split; [exact O2|]. split; [reflexivity|]. exists (length (seq_bytes is0)), (seq_bytes rest). rewrite E, seq_app.
    split; [rewrite app_length; lia|]. split; [exact Hr|]. rewrite skipn_app, skipn_all, Nat.sub_diag. reflexivity. }
  destruct (listed_step (fun t => t) lo (seq_bytes is) at_ s L) as (j & len & (_ & -> & ->) & s1 & X).
  - intros t Ht. split; [exact Ht|reflexivity].
  - exact Hm.
  - exact Hf.
  - exists i, (zlen (instr_bytes i)). split; [repeat split|exact Ap].
  - exists s1.
    assert (Pos : forall d n, i <> Ret -> effect i d n (zlen (instr_bytes i)) s s1 -> rip s1 = (lo + zlen (seq_bytes (is0 ++ [i]))) mod W64).
    { intros d n Nr X1. rewrite (effect_rip _ _ _ _ _ _ Nr X1), Hr, Zplus_mod_idemp_l, seq_app. unfold seq_bytes at 3. cbn [map concat]. rewrite app_nil_r.
      f_equal. unfold zlen. rewrite app_length. lia. }
    destruct X as [(Ni & St & X & M & F)|(-> & St & X & M & F)].
    + split; [rewrite St; destruct i; try reflexivity; congruence|]. split; [exact X|]. split; [exact M|]. split; [exact F|].
      intro Nr. split; [exact M|]. split; [exact F|]. exact (Pos _ _ Nr X).
    + split; [exact St|]. split; [exact X|]. split; [exact M|]. split; [exact F|]. intro Nr. split; [exact M|]. split; [exact F|]. exact (Pos _ _ Nr X).
Qed.
Lemma apart_none lo n b : apart lo n b 0.
Proof. intros i j Hi Hj. lia. Qed.
(** the kernel returns to the code *)
Lemma served_pos os lo is is0 s : serves os lo (zlen (seq_bytes is)) -> at_pos lo is is0 s -> at_pos lo is is0 (os s).
Proof.
  intros Sv (Hm & Hf & Hr). destruct (Sv s Hm) as (Mo & Ro & _ & Me). split; [exact Mo|]. split; [|now rewrite Ro].
  etransitivity; [|exact Hf]. apply fetch_ext. intros k Hk. apply Me. exact Hk.
Qed.
Lemma go_step os n s s1 s2 : go os n s = Some s1 -> step s1 = Next s2 -> go os (S n) s = Some s2.
Proof. intros G St. now rewrite go_snoc, G, St. Qed.
Lemma go_sys os n s s1 s2 : go os n s = Some s1 -> step s1 = SysCall s2 -> go os (S n) s = Some (os s2).
Proof. intros G St. now rewrite go_snoc, G, St. Qed.

(** ** The programs *)

Lemma str_dec s : forallb (fun c => ((0 <=? c) && (c <? 0xD800)) || ((0xE000 <=? c) && (c <? 0x110000))) s = true -> str_ok s.
Proof.
  intro H. apply Forall_forall. intros c I. rewrite forallb_forall in H. apply H in I. unfold ischar.
  apply Bool.orb_true_iff in I. destruct I as [I|I]; apply Bool.andb_true_iff in I; destruct I as [I1 I2];
    apply Z.leb_le in I1; apply Z.ltb_lt in I2; lia.
Qed.
Ltac sline s b := exists s, b; split; [vm_compute; reflexivity|]; split; [apply str_dec; vm_compute; reflexivity|]; split; [ltext|split].
Ltac emit := eexists; split; vm_compute; reflexivity.
Ltac s_empty s b := sline s b; [apply ac_empty; wds|reflexivity].
Ltac s_sect s b := sline s b; [apply ac_section; wds|reflexivity].
Ltac s_global s b := sline s b; [apply ac_global; wds|reflexivity].
Ltac s_label s b n := sline s b; [apply (ac_label _ _ n 0); [wds|nolbl]|reflexivity].
Ltac s_syscall s b := sline s b; [apply (ac_syscall _ _ []); [wds|discriminate]|emit].
Ltac s_ret s b := sline s b; [apply (ac_ret _ _ []); [wds|discriminate]|emit].
(** [pre ++ "mov " ++ d ++ "," ++ " " ++ o ++ post] *)
Ltac s_mov s b d o post := sline s b; [|emit];
  as_text ([32; 32] ++ lit "mov " ++ [] ++ d ++ [] ++ 44 :: [32] ++ o ++ post); apply ac_mov; [blk|blk|blk|blk|split; not_in|blk|].
Ltac num1 := eapply ev_num; nmb.

Definition minimum_prog : prog :=
  [ (StEmpty, []); (StEmpty, []); (StGlobal (lit "_main"), []); (StLabel (lit "_main"), []);
    (StInstr (MovRI16 AX 24), [0x66; 0xB8; 24; 0]); (StInstr Ret, [0xC3]) ].
Lemma minimum_sources p : sources_are p [minimum_s] minimum_prog.
Proof.
  exists [minimum_prog]. split; [|cbn [concat]; now rewrite app_nil_r]. constructor; [|constructor].
  exists (raw_lines minimum_s). split; [apply raw_lines_spec|].
  replace (raw_lines minimum_s) with (map utf8
    [ lit ";; TEST: Exit Code ""24""" ++ [10]; [10]; lit "global _main" ++ [10]; lit "_main:" ++ [10]; lit "  mov ax, 24" ++ [10]; lit "  ret" ++ [10] ])
    by (vm_compute; reflexivity).
  unfold minimum_prog. cbn [map]. repeat apply Forall2_cons; [| | | | | |apply Forall2_nil].
  - s_empty (lit ";; TEST: Exit Code ""24""" ++ [10]) (@nil Z).
  - s_empty [10] [10].
  - s_global (lit "global _main" ++ [10]) (lit "global _main" ++ [10]).
  - s_label (lit "_main:" ++ [10]) (lit "_main:" ++ [10]) (lit "_main").
  - s_mov (lit "  mov ax, 24" ++ [10]) (lit "  mov ax, 24" ++ [10]) (name16 AX) (lit "24") [10].
    apply (mo_imm16 p AX _ [lit "24"] 24); [wds|num1|reflexivity].
  - s_ret (lit "  ret" ++ [10]) (lit "  ret" ++ [10]).
Qed.
Definition many_mov_prog : prog :=
  [ (StEmpty, []); (StEmpty, []); (StGlobal (lit "_main"), []); (StLabel (lit "_main"), []);
    (StInstr (MovRI32 EDI 42), [0xBF; 42; 0; 0; 0]); (StInstr (MovRR32 R8D EDI), [0x41; 0x89; 0xF8]);
    (StInstr (MovRR16 CX R8W), [0x66; 0x44; 0x89; 0xC1]); (StInstr (MovRR64 RAX RCX), [0x48; 0x89; 0xC8]); (StInstr Ret, [0xC3]) ].
Lemma many_mov_sources p : sources_are p [many_mov_s] many_mov_prog.
Proof.
  exists [many_mov_prog]. split; [|cbn [concat]; now rewrite app_nil_r]. constructor; [|constructor].
  exists (raw_lines many_mov_s). split; [apply raw_lines_spec|].
  replace (raw_lines many_mov_s) with (map utf8
    [ lit ";; TEST: Exit Code ""42""" ++ [10]; [10]; lit "global _main" ++ [10]; lit "_main:" ++ [10]; lit "  mov edi, 42" ++ [10];
      lit "  mov r8d, edi" ++ [10]; lit "  mov cx, r8w" ++ [10]; lit "  mov rax, rcx" ++ [10]; lit "  ret" ++ [10] ])
    by (vm_compute; reflexivity).
  unfold many_mov_prog. cbn [map]. repeat apply Forall2_cons; [| | | | | | | | |apply Forall2_nil].
  - s_empty (lit ";; TEST: Exit Code ""42""" ++ [10]) (@nil Z).
  - s_empty [10] [10].
  - s_global (lit "global _main" ++ [10]) (lit "global _main" ++ [10]).
  - s_label (lit "_main:" ++ [10]) (lit "_main:" ++ [10]) (lit "_main").
  - s_mov (lit "  mov edi, 42" ++ [10]) (lit "  mov edi, 42" ++ [10]) (name32 EDI) (lit "42") [10].
    apply (mo_imm32 p EDI _ [lit "42"] 42); [wds|num1|reflexivity].
  - s_mov (lit "  mov r8d, edi" ++ [10]) (lit "  mov r8d, edi" ++ [10]) (name32 R8D) (name32 EDI) [10]. apply mo_reg32.
  - s_mov (lit "  mov cx, r8w" ++ [10]) (lit "  mov cx, r8w" ++ [10]) (name16 CX) (name16 R8W) [10]. apply mo_reg16.
  - s_mov (lit "  mov rax, rcx" ++ [10]) (lit "  mov rax, rcx" ++ [10]) (name64 RAX) (name64 RCX) [10]. apply mo_reg64.
  - s_ret (lit "  ret" ++ [10]) (lit "  ret" ++ [10]).
Qed.
Definition hello_bytes : list Z := utf8 (lit "Hello, World!!").
Definition reloc_hello_prog : prog :=
  [ (StEmpty, []); (StEmpty, []); (StEmpty, []); (StSection SText, []); (StGlobal (lit "_main"), []); (StLabel (lit "_main"), []);
    (StInstr (MovRI64 RAX 0x2000004), [0x48; 0xB8; 4; 0; 0; 2; 0; 0; 0; 0]); (StInstr (MovRI64 RDI 1), [0x48; 0xBF; 1; 0; 0; 0; 0; 0; 0; 0]);
    (StMovSym64 RSI (lit "msg"), [0x48; 0xBE; 0; 0; 0; 0; 0; 0; 0; 0]); (StInstr (MovRI64 RDX 14), [0x48; 0xBA; 14; 0; 0; 0; 0; 0; 0; 0]);
    (StInstr Syscall, [0x0F; 0x05]); (StEmpty, []); (StInstr (MovRI64 RAX 0x2000001), [0x48; 0xB8; 1; 0; 0; 2; 0; 0; 0; 0]);
    (StInstr (MovRI64 RDI 0), [0x48; 0xBF; 0; 0; 0; 0; 0; 0; 0; 0]); (StInstr Syscall, [0x0F; 0x05]); (StEmpty, []); (StSection SData, []);
    (StData (Some (lit "msg")) hello_bytes, hello_bytes) ].
Lemma reloc_hello_sources p : sources_are p [reloc_hello_s] reloc_hello_prog.
Proof.
  exists [reloc_hello_prog]. split; [|cbn [concat]; now rewrite app_nil_r]. constructor; [|constructor].
  exists (raw_lines reloc_hello_s). split; [apply raw_lines_spec|].
  replace (raw_lines reloc_hello_s) with (map (fun s => utf8 (s ++ [10]))
    [ lit ";; TEST: Exit Code ""0"""; lit ";; TEST: STDOUT ""Hello, World!!"""; []; lit "section .text"; lit "global _main"; lit "_main:";
      lit "  mov rax, 0x2000000 + 4    ;sys_write"; lit "  mov rdi, 1 ; stdout";
      lit "  mov rsi, msg ; lea rsi, [rel msg] " ++ [0x3067; 0x3082; 0x53EF];
      lit "  mov rdx, 14"; lit "  syscall"; []; lit "  mov rax, 0x2000000 + 1    ;sys_exit"; lit "  mov rdi, 0"; lit "  syscall"; [];
      lit "section .data"; lit "  msg db  ""Hello, World!!""" ])
    by (vm_compute; reflexivity).
  unfold reloc_hello_prog. cbn [map]. repeat apply Forall2_cons; [| | | | | | | | | | | | | | | | | |apply Forall2_nil].
  - s_empty (lit ";; TEST: Exit Code ""0""" ++ [10]) (@nil Z).
  - s_empty (lit ";; TEST: STDOUT ""Hello, World!!""" ++ [10]) (@nil Z).
  - s_empty [10] [10].
  - s_sect (lit "section .text" ++ [10]) (lit "section .text" ++ [10]).
  - s_global (lit "global _main" ++ [10]) (lit "global _main" ++ [10]).
  - s_label (lit "_main:" ++ [10]) (lit "_main:" ++ [10]) (lit "_main").
  - s_mov (lit "  mov rax, 0x2000000 + 4    ;sys_write" ++ [10]) (lit "  mov rax, 0x2000000 + 4    ") (name64 RAX) (lit "0x2000000 + 4") (lit "    ").
    apply (mo_imm64 p RAX _ [lit "0x2000000"; lit "+"; lit "4"] 0x2000004); [wds|].
    apply (ev_add p (lit "0x2000000") (lit "4") 0x2000000 4 []); [nmb|nmb|]. intros _. vm_compute. intuition discriminate.
  - s_mov (lit "  mov rdi, 1 ; stdout" ++ [10]) (lit "  mov rdi, 1 ") (name64 RDI) (lit "1") [32].
    apply (mo_imm64 p RDI _ [lit "1"] 1); [wds|num1].
  - s_mov (lit "  mov rsi, msg ; lea rsi, [rel msg] " ++ [0x3067; 0x3082; 0x53EF] ++ [10]) (lit "  mov rsi, msg ") (name64 RSI) (lit "msg") [32].
    apply mo_sym64.
    + right. exists (lit "msg"), []. split; [wds|]. split; [discriminate|]. split; [discriminate|].
      intros n N. apply num_try_iff in N. vm_compute in N. discriminate N.
    + intros [] E; discriminate E.
  - s_mov (lit "  mov rdx, 14" ++ [10]) (lit "  mov rdx, 14" ++ [10]) (name64 RDX) (lit "14") [10].
    apply (mo_imm64 p RDX _ [lit "14"] 14); [wds|num1].
  - s_syscall (lit "  syscall" ++ [10]) (lit "  syscall" ++ [10]).
  - s_empty [10] [10].
  - s_mov (lit "  mov rax, 0x2000000 + 1    ;sys_exit" ++ [10]) (lit "  mov rax, 0x2000000 + 1    ") (name64 RAX) (lit "0x2000000 + 1") (lit "    ").
    apply (mo_imm64 p RAX _ [lit "0x2000000"; lit "+"; lit "1"] 0x2000001); [wds|].
    apply (ev_add p (lit "0x2000000") (lit "1") 0x2000000 1 []); [nmb|nmb|]. intros _. vm_compute. intuition discriminate.
  - s_mov (lit "  mov rdi, 0" ++ [10]) (lit "  mov rdi, 0" ++ [10]) (name64 RDI) (lit "0") [10].
    apply (mo_imm64 p RDI _ [lit "0"] 0); [wds|num1].
  - s_syscall (lit "  syscall" ++ [10]) (lit "  syscall" ++ [10]).
  - s_empty [10] [10].
  - s_sect (lit "section .data" ++ [10]) (lit "section .data" ++ [10]).
  - sline (lit "  msg db  ""Hello, World!!""" ++ [10]) (lit "  msg db  ""Hello, World!!""" ++ [10]); [|reflexivity].
    as_text ([32; 32] ++ lit "msg" ++ 32 :: [] ++ unit_name DB ++ 32 :: [32] ++ lit """Hello, World!!""" ++ [10]).
    eapply (ac_data_label p [32; 32] (lit "msg") 32 [] DB 32 [32] (lit """Hello, World!!""") [10] [IStr (lit "Hello, World!!")]);
      [blk| |discriminate|discriminate|nolbl| |is_in|blk|is_in|blk|discriminate| |blk| |].
    + split; [discriminate|]. repeat (constructor; [not_in|]); constructor.
    + intros [] E; discriminate E.
    + split; not_in.
    + apply (it_str (lit "Hello, World!!") [] []); [not_in|constructor|exact I|constructor].
    + exists [hello_bytes]. split; [|reflexivity]. constructor; [|constructor].
      exists 0%nat. split; [reflexivity|]. split; [apply Nat.ltb_lt; reflexivity|reflexivity].
Qed.
Definition simple_hello_prog : prog :=
  [ (StEmpty, []); (StEmpty, []); (StEmpty, []); (StSection SText, []); (StGlobal (lit "_main"), []); (StLabel (lit "_main"), []); (StEmpty, []);
    (StInstr (PushI32 0x21646c72), [0x68; 0x72; 0x6c; 0x64; 0x21]);
    (StInstr (MovRI64 RAX 0x6f77206f6c6c6548), [0x48; 0xB8; 0x48; 0x65; 0x6c; 0x6c; 0x6f; 0x20; 0x77; 0x6f]); (StInstr (PushR64 RAX), [0x50]);
    (StEmpty, []); (StEmpty, []); (StInstr (MovRR64 RSI RSP), [0x48; 0x89; 0xE6]); (StInstr (MovRI64 RDI 1), [0x48; 0xBF; 1; 0; 0; 0; 0; 0; 0; 0]);
    (StInstr (MovRI64 RDX 12), [0x48; 0xBA; 12; 0; 0; 0; 0; 0; 0; 0]); (StInstr (MovRI64 RAX 0x2000004), [0x48; 0xB8; 4; 0; 0; 2; 0; 0; 0; 0]);
    (StInstr Syscall, [0x0F; 0x05]); (StEmpty, []); (StEmpty, []); (StInstr (MovRI64 RAX 0x2000001), [0x48; 0xB8; 1; 0; 0; 2; 0; 0; 0; 0]);
    (StInstr (MovRI64 RDI 0), [0x48; 0xBF; 0; 0; 0; 0; 0; 0; 0; 0]); (StInstr Syscall, [0x0F; 0x05]) ].
Lemma simple_hello_sources p : sources_are p [simple_hello_s] simple_hello_prog.
Proof.
  exists [simple_hello_prog]. split; [|cbn [concat]; now rewrite app_nil_r]. constructor; [|constructor].
  exists (raw_lines simple_hello_s). split; [apply raw_lines_spec|].
  replace (raw_lines simple_hello_s) with (map (fun s => utf8 (s ++ [10]))
    [ lit ";; TEST: Exit Code ""0"""; lit ";; TEST: STDOUT ""Hello world!"""; []; lit "section .text"; lit "global _main"; lit "_main:";
      lit "  ; prepare data"; lit "  push 0x21646c72  ; ""!dlr"""; lit "  mov rax, 0x6f77206f6c6c6548 ; ""ow olleH"""; lit "  push rax"; [];
      lit "  ; write syscall"; lit "  mov rsi, rsp"; lit "  mov rdi, 1"; lit "  mov rdx, 12"; lit "  mov rax, 0x2000004"; lit "  syscall"; [];
      lit "  ; exit syscall"; lit "  mov rax, 0x2000001"; lit "  mov rdi, 0"; lit "  syscall" ])
    by (vm_compute; reflexivity).
  unfold simple_hello_prog. cbn [map]. repeat apply Forall2_cons; [| | | | | | | | | | | | | | | | | | | | | |apply Forall2_nil].
  - s_empty (lit ";; TEST: Exit Code ""0""" ++ [10]) (@nil Z).
  - s_empty (lit ";; TEST: STDOUT ""Hello world!""" ++ [10]) (@nil Z).
  - s_empty [10] [10].
  - s_sect (lit "section .text" ++ [10]) (lit "section .text" ++ [10]).
  - s_global (lit "global _main" ++ [10]) (lit "global _main" ++ [10]).
  - s_label (lit "_main:" ++ [10]) (lit "_main:" ++ [10]) (lit "_main").
  - s_empty (lit "  ; prepare data" ++ [10]) [32; 32].
  - sline (lit "  push 0x21646c72  ; ""!dlr""" ++ [10]) (lit "  push 0x21646c72  "); [|emit].
    apply (ac_push32 p _ (lit "0x21646c72") 0x21646c72 []); [wds|nmb|discriminate].
  - s_mov (lit "  mov rax, 0x6f77206f6c6c6548 ; ""ow olleH""" ++ [10]) (lit "  mov rax, 0x6f77206f6c6c6548 ") (name64 RAX) (lit "0x6f77206f6c6c6548") [32].
    apply (mo_imm64 p RAX _ [lit "0x6f77206f6c6c6548"] 0x6f77206f6c6c6548); [wds|num1].
  - sline (lit "  push rax" ++ [10]) (lit "  push rax" ++ [10]); [apply (ac_push_reg p _ RAX []); wds|emit].
  - s_empty [10] [10].
  - s_empty (lit "  ; write syscall" ++ [10]) [32; 32].
  - s_mov (lit "  mov rsi, rsp" ++ [10]) (lit "  mov rsi, rsp" ++ [10]) (name64 RSI) (name64 RSP) [10]. apply mo_reg64.
  - s_mov (lit "  mov rdi, 1" ++ [10]) (lit "  mov rdi, 1" ++ [10]) (name64 RDI) (lit "1") [10].
    apply (mo_imm64 p RDI _ [lit "1"] 1); [wds|num1].
  - s_mov (lit "  mov rdx, 12" ++ [10]) (lit "  mov rdx, 12" ++ [10]) (name64 RDX) (lit "12") [10].
    apply (mo_imm64 p RDX _ [lit "12"] 12); [wds|num1].
  - s_mov (lit "  mov rax, 0x2000004" ++ [10]) (lit "  mov rax, 0x2000004" ++ [10]) (name64 RAX) (lit "0x2000004") [10].
    apply (mo_imm64 p RAX _ [lit "0x2000004"] 0x2000004); [wds|num1].
  - s_syscall (lit "  syscall" ++ [10]) (lit "  syscall" ++ [10]).
  - s_empty [10] [10].
  - s_empty (lit "  ; exit syscall" ++ [10]) [32; 32].
  - s_mov (lit "  mov rax, 0x2000001" ++ [10]) (lit "  mov rax, 0x2000001" ++ [10]) (name64 RAX) (lit "0x2000001") [10].
    apply (mo_imm64 p RAX _ [lit "0x2000001"] 0x2000001); [wds|num1].
  - s_mov (lit "  mov rdi, 0" ++ [10]) (lit "  mov rdi, 0" ++ [10]) (name64 RDI) (lit "0") [10].
    apply (mo_imm64 p RDI _ [lit "0"] 0); [wds|num1].
  - s_syscall (lit "  syscall" ++ [10]) (lit "  syscall" ++ [10]).
Qed.

(** ** What they do *)

Ltac stp Ok i is0 rest s P s' St X Q :=
  destruct (code_step _ _ is0 i rest s Ok eq_refl P ltac:(exact (apart_none _ _ _))) as (s' & St & X & _ & _ & Q);
  try specialize (Q ltac:(discriminate)); cbn [app] in Q; cbn [effect instr_mem push_value] in X; cbn iota in St.
Lemma start_pos lo is s : mach_ok s -> fetch (length (seq_bytes is)) (mem s) lo = seq_bytes is -> rip s = lo mod W64 -> at_pos lo is [] s.
Proof. intros M F R. split; [exact M|]. split; [exact F|]. change (zlen (seq_bytes [])) with 0. now rewrite Z.add_0_r. Qed.
Ltac files := first [ apply bytes_dec; vm_compute; reflexivity | apply nonul_dec; vm_compute; reflexivity ].
Ltac fitp := split; [split; vm_compute; reflexivity|]; split; [vm_compute; reflexivity|];
  match goal with |- Forall ?f ?l => let l' := eval vm_compute in l in change (Forall f l') end; repeat (apply Forall_cons; [vm_compute; reflexivity|]); apply Forall_nil.
Definition read_state (p : profile) (src : list Z) : asm := match read_from p asm_new src with Done a => a | _ => asm_new end.
Ltac enter p h src pr n sources :=
  apply (sample_enter p h src pr (firstn n (during SText SText pr)) [] (skipn (S n) (during SText SText pr)) (read_state p src));
    [files|files|apply sources|fitp|split; vm_compute; reflexivity|vm_compute; discriminate|destruct p; vm_compute; reflexivity
    |destruct p, h; vm_compute; reflexivity|reflexivity|reflexivity
    |let y := fresh in let I := fresh in intros y I; cbn in I; intuition (subst; discriminate)|reflexivity|vm_compute; discriminate
    |repeat (apply Forall_cons; [reflexivity|]); apply Forall_nil|].
Ltac notin := let H := fresh in intro H; cbn in H; unfold rsp in H; intuition discriminate.
Lemma go0 os s : go os 0 s = Some s.
Proof. reflexivity. Qed.
Lemma load_same s s' n a : mem_same s s' -> load n (mem s') a = load n (mem s) a.
Proof. intro H. unfold load. f_equal. apply fetch_ext. intros; apply H. Qed.

Lemma top_C81_minimum p h : main_does p h minimum_s (fun text lo os s => returns os 2 s [0] 24).
Proof.
  enter p h minimum_s minimum_prog 3%nat minimum_sources.
  intros loc os s. change (flat_map _ _) with [MovRI16 AX 24; Ret]. set (is := [MovRI16 AX 24; Ret]). intros is' Ok Hm Hf Hr _. subst is'.
  pose proof (start_pos _ _ _ Hm Hf Hr) as P0.
  stp Ok (MovRI16 AX 24) (@nil instr) [Ret] s P0 s1 St1 X1 P1. stp Ok Ret [MovRI16 AX 24] (@nil instr) s1 P1 s2 St2 X2 P2. clear P2.
  destruct X1 as (A1 & A2 & A3 & A4 & A5). destruct X2 as (B1 & B2 & B3 & B4).
  exists s2. split; [exact (go_step _ _ _ _ _ (go_step _ _ _ _ _ (go0 os s) St1) St2)|].
  assert (Rs : regs s1 rsp = regs s rsp) by (apply A3; notin).
  split; [rewrite B1, Rs; now apply load_same|]. split; [now rewrite B2, Rs|].
  split; [rewrite (B3 0) by notin; exact A1|].
  split; [|intro x; now rewrite B4, A4]. intros r Nr. cbn in Nr. rewrite (B3 r) by (cbn; intuition). apply A3. cbn. intuition.
Qed.
Lemma top_C81_many_mov p h : main_does p h many_mov_s (fun text lo os s => returns os 5 s [0; 1; 7; 8] 42).
Proof.
  enter p h many_mov_s many_mov_prog 3%nat many_mov_sources.
  intros loc os s. change (flat_map _ _) with [MovRI32 EDI 42; MovRR32 R8D EDI; MovRR16 CX R8W; MovRR64 RAX RCX; Ret].
  set (is := [MovRI32 EDI 42; MovRR32 R8D EDI; MovRR16 CX R8W; MovRR64 RAX RCX; Ret]). intros is' Ok Hm Hf Hr _. subst is'.
  pose proof (start_pos _ _ _ Hm Hf Hr) as P0.
  stp Ok (MovRI32 EDI 42) (@nil instr) (skipn 1 is) s P0 s1 St1 X1 P1.
  stp Ok (MovRR32 R8D EDI) (firstn 1 is) (skipn 2 is) s1 P1 s2 St2 X2 P2.
  stp Ok (MovRR16 CX R8W) (firstn 2 is) (skipn 3 is) s2 P2 s3 St3 X3 P3.
  stp Ok (MovRR64 RAX RCX) (firstn 3 is) (skipn 4 is) s3 P3 s4 St4 X4 P4.
  stp Ok Ret (firstn 4 is) (@nil instr) s4 P4 s5 St5 X5 P5. clear P0 P1 P2 P3 P4 P5.
  destruct X1 as (A1 & A2 & A3 & _). destruct X2 as (B1 & B2 & B3 & _). destruct X3 as (C1 & _ & C2 & C3 & _).
  destruct X4 as (D1 & D2 & D3 & _). destruct X5 as (E1 & E2 & E3 & E4).
  exists s5. split; [exact (go_step _ _ _ _ _ (go_step _ _ _ _ _ (go_step _ _ _ _ _ (go_step _ _ _ _ _ (go_step _ _ _ _ _ (go0 os s) St1) St2) St3) St4) St5)|].
  assert (Ms : mem_same s s4) by (intro x; now rewrite D3, C3, B3, A3).
  assert (Rs : regs s4 rsp = regs s rsp) by (rewrite (D2 rsp), (C2 rsp), (B2 rsp), (A2 rsp) by notin; reflexivity).
  split; [rewrite E1, Rs; now apply load_same|]. split; [now rewrite E2, Rs|].
  split.
  { rewrite (E3 0) by notin. change (hw64 RAX) with 0 in D1. rewrite D1. change (hw64 RCX) with (hw16 CX). rewrite C1.
    change (hw16 R8W) with (hw32 R8D). rewrite B1, A1. reflexivity. }
  split; [|intro x; now rewrite E4, Ms].
  intros r Nr. cbn in Nr. rewrite (E3 r), (D2 r), (C2 r), (B2 r), (A2 r) by (cbn; intuition). reflexivity.
Qed.

(** the pair of instructions and the call that end both of the other programs *)
Lemma exit_part os lo is is0 s0 n s : code_ok is -> is = is0 ++ [MovRI64 RAX 0x2000001; MovRI64 RDI 0; Syscall] -> at_pos lo is is0 s ->
  go os n s0 = Some s -> exists t, calls os (n + 2) s0 t /\ asks_exit t 0.
Proof.
  intros Ok E P G.
  destruct (code_step _ _ is0 (MovRI64 RAX 0x2000001) [MovRI64 RDI 0; Syscall] s Ok E P (apart_none _ _ _)) as (s1 & St1 & X1 & _ & _ & P1).
  specialize (P1 ltac:(discriminate)).
  assert (E1 : is = (is0 ++ [MovRI64 RAX 0x2000001]) ++ [MovRI64 RDI 0; Syscall]) by (rewrite <- app_assoc; exact E).
  destruct (code_step _ _ _ (MovRI64 RDI 0) [Syscall] s1 Ok E1 P1 (apart_none _ _ _)) as (s2 & St2 & X2 & _ & _ & P2).
  specialize (P2 ltac:(discriminate)).
  assert (E2 : is = ((is0 ++ [MovRI64 RAX 0x2000001]) ++ [MovRI64 RDI 0]) ++ [Syscall]) by (rewrite <- !app_assoc; exact E).
  destruct (code_step _ _ _ Syscall [] s2 Ok E2 P2 (apart_none _ _ _)) as (s3 & St3 & X3 & _).
  cbn [effect instr_mem push_value] in X1, X2, X3. destruct X1 as (A1 & A2 & _). destruct X2 as (B1 & B2 & _). destruct X3 as (C1 & _).
  exists s3. split.
  - exists s2. split; [|exact St3]. rewrite Nat.add_comm. exact (go_step _ _ _ _ _ (go_step _ _ _ _ _ G St1) St2).
  - split.
    + rewrite (C1 0), (B2 0) by notin. exact A1.
    + rewrite (C1 7) by notin. exact B1.
Qed.

Lemma top_C81_reloc p h : main_does p h reloc_hello_s (fun text lo os s =>
  exists t1, calls os 4 s t1 /\ asks_write t1 1 (utf8 (lit "Hello, World!!")) /\
  (serves os lo (zlen text) -> exists t2, calls os 7 s t2 /\ asks_exit t2 0)).
Proof.
  enter p h reloc_hello_s reloc_hello_prog 4%nat reloc_hello_sources.
  intros loc os s. 
  assert (Ei : flat_map (fun x => linked_instr (label_addr loc reloc_hello_prog) (fst x)) (during SText SText reloc_hello_prog) =
    [MovRI64 RAX 0x2000004; MovRI64 RDI 1; MovRI64 RSI ((loc 2 + 0) mod 2 ^ 64); MovRI64 RDX 14; Syscall; MovRI64 RAX 0x2000001; MovRI64 RDI 0; Syscall]) by reflexivity.
  rewrite Ei. clear Ei. rewrite Z.add_0_r. set (v := loc 2 mod 2 ^ 64). 
  set (is := [MovRI64 RAX 0x2000004; MovRI64 RDI 1; MovRI64 RSI v; MovRI64 RDX 14; Syscall; MovRI64 RAX 0x2000001; MovRI64 RDI 0; Syscall]).
  intros is' Ok Hm Hf Hr Dt. subst is'.
  assert (Da : fetch (length hello_bytes) (mem s) v = hello_bytes).
  { destruct (Dt ltac:(vm_compute; discriminate)) as (bss & F2 & Fd). change (ordinal reloc_hello_prog SData) with 2 in Fd.
    change (during SData SText reloc_hello_prog) with [(StData (Some (lit "msg")) hello_bytes, hello_bytes)] in F2.
    inversion F2 as [|? y ? bs' L1 F2' E1 E2]. subst bss. inversion F2'. subst bs'. unfold linked_stmt in L1. cbn [fst snd] in L1. subst y.
    unfold v. change (2 ^ 64) with W64. rewrite fetch_mod. exact Fd. }
  clear Dt. pose proof (start_pos _ _ _ Hm Hf Hr) as P0.
  stp Ok (MovRI64 RAX 0x2000004) (@nil instr) (skipn 1 is) s P0 s1 St1 X1 P1.
  stp Ok (MovRI64 RDI 1) (firstn 1 is) (skipn 2 is) s1 P1 s2 St2 X2 P2.
  stp Ok (MovRI64 RSI v) (firstn 2 is) (skipn 3 is) s2 P2 s3 St3 X3 P3.
  stp Ok (MovRI64 RDX 14) (firstn 3 is) (skipn 4 is) s3 P3 s4 St4 X4 P4.
  stp Ok Syscall (firstn 4 is) (skipn 5 is) s4 P4 s5 St5 X5 P5. clear P0 P1 P2 P3 P4.
  destruct X1 as (A1 & A2 & A3 & _). destruct X2 as (B1 & B2 & B3 & _). destruct X3 as (C1 & C2 & C3 & _).
  destruct X4 as (D1 & D2 & D3 & _). destruct X5 as (E1 & E2 & _).
  pose proof (go_step _ _ _ _ _ (go_step _ _ _ _ _ (go_step _ _ _ _ _ (go_step _ _ _ _ _ (go0 os s) St1) St2) St3) St4) as G.
  exists s5. split; [exists s4; split; [exact G|exact St5]|]. split.
  - split; [rewrite (E1 0), (D2 0), (C2 0), (B2 0) by notin; exact A1|].
    split; [rewrite (E1 7), (D2 7), (C2 7) by notin; exact B1|].
    split; [rewrite (E1 2) by notin; exact D1|].
    replace (regs s5 6) with v by (rewrite (E1 6), (D2 6) by notin; symmetry; exact C1).
    etransitivity; [|exact Da]. apply fetch_ext. intros k _. now rewrite E2, D3, C3, B3, A3.
  - intro Sv. exact (exit_part os (loc 1) is (firstn 5 is) s 5 (os s5) Ok eq_refl (served_pos _ _ _ _ _ Sv P5) (go_sys _ _ _ _ _ G St5)).
Qed.

Lemma fetch_of_load n m a bs : (forall x, 0 <= m x < 256) -> load n m a = lev bs -> length bs = n -> bytes_ok bs -> fetch n m a = bs.
Proof.
  intros Hm L Ln Bb. rewrite <- (le_bytes_lev n bs Bb Ln), <- L. unfold load. symmetry. apply le_bytes_lev; [|apply fetch_length].
  clear -Hm. revert a. induction n as [|n IH]; intro a; cbn [fetch]; [constructor|]. constructor; [apply Hm|apply IH].
Qed.
Lemma top_C81_simple p h : main_does p h simple_hello_s (fun text lo os s =>
  apart lo (zlen text) (regs s rsp - 16) 16 ->
  exists t1, calls os 7 s t1 /\ asks_write t1 1 (utf8 (lit "Hello world!")) /\
  (serves os lo (zlen text) -> exists t2, calls os 10 s t2 /\ asks_exit t2 0)).
Proof.
  enter p h simple_hello_s simple_hello_prog 4%nat simple_hello_sources.
  intros loc os s. change (flat_map _ _) with
    [PushI32 0x21646c72; MovRI64 RAX 0x6f77206f6c6c6548; PushR64 RAX; MovRR64 RSI RSP; MovRI64 RDI 1; MovRI64 RDX 12; MovRI64 RAX 0x2000004; Syscall;
     MovRI64 RAX 0x2000001; MovRI64 RDI 0; Syscall].
  set (is := [PushI32 _; _; _; _; _; _; _; _; _; _; _]).
  intros is' Ok Hm Hf Hr _ Ap. subst is'.
  pose proof (start_pos _ _ _ Hm Hf Hr) as P0.
  assert (Ap1 : apart (loc 1) (zlen (seq_bytes is)) (regs s rsp - 8) 8).
  { intros i j Hi Hj. replace (regs s rsp - 8 + j) with (regs s rsp - 16 + (8 + j)) by lia. apply Ap; lia. }
  destruct (code_step _ _ [] (PushI32 0x21646c72) (skipn 1 is) s Ok eq_refl P0 Ap1) as (s1 & St1 & X1 & M1 & _ & P1).
  specialize (P1 ltac:(discriminate)). cbn [effect instr_mem push_value app] in X1, P1. destruct X1 as (A1 & A2 & A3 & A4 & _).
  stp Ok (MovRI64 RAX 0x6f77206f6c6c6548) (firstn 1 is) (skipn 2 is) s1 P1 s2 St2 X2 P2. destruct X2 as (B1 & B2 & B3 & _).
  assert (R2 : regs s2 rsp = (regs s rsp - 8) mod W64) by (rewrite (B2 rsp) by notin; exact A1).
  assert (Ap2 : apart (loc 1) (zlen (seq_bytes is)) (regs s2 rsp - 8) 8).
  { rewrite R2. apply apart_mod. rewrite Zminus_mod_idemp_l. apply apart_mod.
    intros i j Hi Hj. replace (regs s rsp - 8 - 8 + j) with (regs s rsp - 16 + j) by lia. apply Ap; lia. }
  destruct (code_step _ _ (firstn 2 is) (PushR64 RAX) (skipn 3 is) s2 Ok eq_refl P2 Ap2) as (s3 & St3 & X3 & M3 & _ & P3).
  specialize (P3 ltac:(discriminate)). cbn [effect instr_mem push_value app] in X3, P3. destruct X3 as (C1 & C2 & C3 & C4 & _).
  stp Ok (MovRR64 RSI RSP) (firstn 3 is) (skipn 4 is) s3 P3 s4 St4 X4 P4.
  stp Ok (MovRI64 RDI 1) (firstn 4 is) (skipn 5 is) s4 P4 s5 St5 X5 P5.
  stp Ok (MovRI64 RDX 12) (firstn 5 is) (skipn 6 is) s5 P5 s6 St6 X6 P6.
  stp Ok (MovRI64 RAX 0x2000004) (firstn 6 is) (skipn 7 is) s6 P6 s7 St7 X7 P7.
  stp Ok Syscall (firstn 7 is) (skipn 8 is) s7 P7 s8 St8 X8 P8. clear P0 P1 P2 P3 P4 P5 P6 P7.
  destruct X4 as (D1 & D2 & D3 & _). destruct X5 as (E1 & E2 & E3 & _). destruct X6 as (F1 & F2 & F3 & _). destruct X7 as (G1 & G2 & G3 & _).
  destruct X8 as (H1 & H2 & _).
  pose proof (go_step _ _ _ _ _ (go_step _ _ _ _ _ (go_step _ _ _ _ _ (go_step _ _ _ _ _ (go_step _ _ _ _ _ (go_step _ _ _ _ _ (go_step _ _ _ _ _
    (go0 os s) St1) St2) St3) St4) St5) St6) St7) as G.
  exists s8. split; [exists s7; split; [exact G|exact St8]|]. split.
  - split; [rewrite (H1 0) by notin; exact G1|].
    split; [rewrite (H1 7), (G2 7), (F2 7) by notin; exact E1|].
    split; [rewrite (H1 2), (G2 2) by notin; exact F1|].
    replace (regs s8 6) with (regs s3 rsp) by (rewrite (H1 6), (G2 6), (F2 6), (E2 6) by notin; symmetry; exact D1).
    transitivity (fetch 12 (mem s3) (regs s3 rsp)); [apply fetch_ext; intros k _; now rewrite H2, G3, F3, E3, D3|].
    change 12%nat with (8 + 4)%nat. rewrite fetch_app. change (utf8 (lit "Hello world!")) with (utf8 (lit "Hello wo") ++ utf8 (lit "rld!")). f_equal.
    + apply fetch_of_load; [apply M3| |reflexivity|apply bytes_dec; reflexivity]. rewrite C2, B1. reflexivity.
    + assert (Q : fetch 8 (mem s1) (regs s1 rsp) = utf8 (lit "rld!") ++ [0; 0; 0; 0]).
      { apply fetch_of_load; [apply M1| |reflexivity|apply bytes_dec; reflexivity]. rewrite A2. reflexivity. }
      change 8%nat with (4 + 4)%nat in Q. rewrite fetch_app in Q. apply app_inv_length in Q; [|apply fetch_length]. destruct Q as [Q _].
      rewrite <- Q. change (Z.of_nat (4 + 4)) with 8.
      replace (fetch 4 (mem s1) (regs s1 rsp)) with (fetch 4 (mem s1) (regs s3 rsp + 8)).
      * apply fetch_ext. intros k Hk. rewrite C3; [apply B3|]. rewrite Zminus_mod_idemp_l.
        replace (regs s3 rsp + 8 + k - regs s3 rsp) with (8 + k) by lia. unfold W64. rewrite Z.mod_small; lia.
      * rewrite <- (fetch_mod 4 (mem s1) (regs s3 rsp + 8)), <- (fetch_mod 4 (mem s1) (regs s1 rsp)). f_equal.
        rewrite C1, (B2 rsp) by notin. rewrite Zplus_mod_idemp_l. f_equal. lia.
  - intro Sv. exact (exit_part os (loc 1) is (firstn 8 is) s 8 (os s8) Ok eq_refl (served_pos _ _ _ _ _ Sv P8) (go_sys _ _ _ _ _ G St8)).
Qed.
