(** Property theorems for the sample programs of the repository: C81. *)
From Coq Require String.
Import String.StringSyntax.
From Verif Require Import Base Str X64 SpecX86 Mac SpecMacho Obj SpecObj Asm SpecAsm Assembler SpecRun Cli SpecCli SpecLink SpecProg SpecSamples
  PfX64 PfX86 PfX64Top PfTok PfRun PfRun3 PfRun5 PfEnd PfCli PfLink PfGo PfWhole PropsAsm PropsLink PfProg PropsProg PfSamples.


(** ** C81: the sample programs do what their headers say, in every build, at every address, on every machine *)

Theorem C81_minimum : forall p h, main_does p h minimum_s (fun text lo os s => returns os 2 s [0] 24).
Proof. exact top_C81_minimum. Qed.
Print Assumptions C81_minimum.

Theorem C81_many_mov : forall p h, main_does p h many_mov_s (fun text lo os s => returns os 5 s [0; 1; 7; 8] 42).
Proof. exact top_C81_many_mov. Qed.
Print Assumptions C81_many_mov.

Theorem C81_reloc_hello_world : forall p h, main_does p h reloc_hello_s (fun text lo os s =>
  exists t1, calls os 4 s t1 /\ asks_write t1 1 (utf8 (lit "Hello, World!!")) /\
  (serves os lo (zlen text) -> exists t2, calls os 7 s t2 /\ asks_exit t2 0)).
Proof. exact top_C81_reloc. Qed.
Print Assumptions C81_reloc_hello_world.

Theorem C81_simple_hello_world : forall p h, main_does p h simple_hello_s (fun text lo os s =>
  apart lo (zlen text) (regs s rsp - 16) 16 ->
  exists t1, calls os 7 s t1 /\ asks_write t1 1 (utf8 (lit "Hello world!")) /\
  (serves os lo (zlen text) -> exists t2, calls os 10 s t2 /\ asks_exit t2 0)).
Proof. exact top_C81_simple. Qed.
Print Assumptions C81_simple_hello_world.

(** a machine with a linked file in memory, text at 0x1000 and data at 0x2000 *)
Definition sample_file (p : profile) (h : endian) (src : list Z) : list Z := fst (asm_write_into p h (read_state p src)).
Definition bytes_of (o : option (list Z)) : list Z := match o with Some l => l | None => [] end.
Definition machine_with (text data : list Z) : mach :=
  {| regs := fun r => if r =? rsp then 0x8000 else 0xDEADBEEF;
     mem := fun a => if (0x1000 <=? a) && (a <? 0x2000) then nth (Z.to_nat (a - 0x1000)) text 0
                     else if (0x2000 <=? a) && (a <? 0x3000) then nth (Z.to_nat (a - 0x2000)) data 0
                     else if (a =? 0x8000) || (a =? 0x8001) then 0x42 else 0;
     rip := 0x1000 |}.
Lemma machine_with_ok text data : bytes_ok text -> bytes_ok data -> mach_ok (machine_with text data).
Proof.
  intros T D. split; [|split]; cbn [regs mem rip machine_with].
  - intro r. unfold W64. destruct (r =? rsp); lia.
  - intro a. destruct ((0x1000 <=? a) && (a <? 0x2000)); [now apply nth_byte|]. destruct ((0x2000 <=? a) && (a <? 0x3000)); [now apply nth_byte|].
    destruct ((a =? 0x8000) || (a =? 0x8001)); lia.
  - unfold W64; lia.
Qed.
(** the linked text of `reloc_hello_world.s` *)
Definition reloc_linked : list Z :=
  [ 0x48; 0xB8; 4; 0; 0; 2; 0; 0; 0; 0; 0x48; 0xBF; 1; 0; 0; 0; 0; 0; 0; 0; 0x48; 0xBE; 0; 0x20; 0; 0; 0; 0; 0; 0;
    0x48; 0xBA; 14; 0; 0; 0; 0; 0; 0; 0; 0x0F; 0x05; 0x48; 0xB8; 1; 0; 0; 2; 0; 0; 0; 0; 0x48; 0xBF; 0; 0; 0; 0; 0; 0; 0; 0; 0x0F; 0x05 ].
Lemma some_inj {A} (x y : A) : Some x = Some y -> x = y.
Proof. intro H. now injection H. Qed.
(** the command's file for `reloc_hello_world.s` is loaded, and makes both system calls *)
Example C81_case : forall p h, let f := sample_file p h reloc_hello_s in
  let s := machine_with (bytes_of (link h f ex_loc 1)) (bytes_of (link h f ex_loc 2)) in let os := fun t : mach => t in
  mach_ok s /\ loaded h f ex_loc s /\ lookup h f ex_loc (lit "_main") = Some 0x1000 /\ rip s = 0x1000 /\
  apart 0x1000 0x40 (0x8000 - 16) 16 /\ length (bytes_of (link h f ex_loc 1)) = 0x40%nat /\
  exists t1 t2, calls os 4 s t1 /\ asks_write t1 1 (utf8 (lit "Hello, World!!")) /\ calls os 7 s t2 /\ asks_exit t2 0.
Proof.
  intros p h f.
  assert (L1 : link h f ex_loc 1 = Some reloc_linked) by (unfold f; destruct p, h; vm_compute; reflexivity).
  assert (L2 : link h f ex_loc 2 = Some hello_bytes) by (unfold f; destruct p, h; vm_compute; reflexivity).
  assert (Sp : seg_pos h f = Some 32%nat) by (unfold f; destruct p, h; vm_compute; reflexivity).
  assert (Ns : fld h (32 + 64) 4 f = 2) by (unfold f; destruct p, h; vm_compute; reflexivity).
  assert (Lm : lookup h f ex_loc (lit "_main") = Some 0x1000) by (unfold f; destruct p, h; vm_compute; reflexivity).
  assert (Wd : w_data (fst (main p h [lit "at-asm"; lit "a.s"] (ex_world reloc_hello_s [1; 2; 3]))) 2 = Some f) by (unfold f; destruct p, h; vm_compute; reflexivity).
  clearbody f. rewrite L1, L2. cbn [bytes_of]. set (s := machine_with reloc_linked hello_bytes). set (os := fun t : mach => t).
  assert (M : mach_ok s) by (apply machine_with_ok; apply bytes_dec; reflexivity).
  assert (Ld : loaded h f ex_loc s).
  { intros k bs E. destruct (Z.eq_dec k 1) as [->|K1]; [rewrite L1 in E; apply some_inj in E; subst bs; vm_compute; reflexivity|].
    destruct (Z.eq_dec k 2) as [->|K2]; [rewrite L2 in E; apply some_inj in E; subst bs; vm_compute; reflexivity|].
    exfalso. revert E. unfold link. rewrite Sp. cbv zeta. rewrite Ns.
    destruct (1 <=? k) eqn:E1; [|discriminate]. destruct (k <=? 2) eqn:E2; [|discriminate]. lia. }
  split; [exact M|]. split; [exact Ld|]. split; [exact Lm|]. split; [reflexivity|].
  split; [apply apart_dec; vm_compute; intuition discriminate|]. split; [reflexivity|].
  destruct (C81_reloc_hello_world p h [lit "at-asm"; lit "a.s"] (ex_world reloc_hello_s [1; 2; 3]) {| cf_input := lit "a.s"; cf_output := lit "a.o" |} 1 2
    ltac:(vm_compute; reflexivity) ltac:(vm_compute; reflexivity) ltac:(vm_compute; reflexivity) ltac:(vm_compute; reflexivity) ltac:(discriminate)) as (_ & f' & Ef & H).
  rewrite Wd in Ef. apply some_inj in Ef. subst f'.
  destruct (H ex_loc) as (e & text & Le & Lt & K). rewrite Lm in Le. apply some_inj in Le. rewrite L1 in Lt. apply some_inj in Lt. subst e text.
  destruct (K os s M Ld eq_refl) as (t1 & T1 & T2 & T3). destruct T3 as (t2 & T3 & T4).
  { intros t Mt. repeat split; apply Mt. }
  exists t1, t2. repeat (split; [assumption|]). assumption.
Qed.
