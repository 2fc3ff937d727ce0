(** Property theorems for running programs with stores and jumps: C79. *)
From Coq Require String.
Import String.StringSyntax.
From Verif Require Import Base Str X64 SpecX86 Mac SpecMacho Obj SpecObj Asm SpecAsm Assembler SpecRun Cli SpecCli SpecLink SpecProg
  PfX64 PfX86 PfX64Top PfTok PfRun PfRun3 PfRun5 PfEnd PfCli PfLink PfGo PfWhole PropsAsm PropsLink PfProg.


(** ** C79: encoded instructions run as documented, whatever they store and wherever they return to *)

Theorem C79_code : forall os l lo s N, Forall (fun x => instr_ok (fst x) /\ emits (fst x) (snd x)) l ->
  let code := flat_map snd l in let at_ := code_listing lo l in
  leaves os lo (zlen code) -> mach_ok s -> fetch (length code) (mem s) lo = code ->
  (forall n s1, (n < N)%nat -> go os n s = Some s1 -> follows os at_ n s s1 -> may_go at_ lo (zlen code) s1) ->
  exists s', go os N s = Some s' /\ follows os at_ N s s' /\ mach_ok s' /\ fetch (length code) (mem s') lo = code.
Proof. exact top_C79. Qed.
Print Assumptions C79_code.

Theorem C79_line : forall os is bss s,
  Forall instr_ok is -> ~ In Ret is -> Forall2 emits is bss -> mach_ok s -> code_at s (concat bss) ->
  leaves os (rip s) (zlen (concat bss)) -> resumes os ->
  (forall is1 i is2 bs s1, is = is1 ++ i :: is2 -> emits i bs -> go os (length is1) s = Some s1 -> traced os is1 s s1 ->
     apart (rip s) (zlen (concat bss)) (fst (written i (zlen bs) s1)) (snd (written i (zlen bs) s1))) ->
  exists s', go os (length is) s = Some s' /\ traced os is s s' /\ mach_ok s' /\ rip s' = (rip s + zlen (concat bss)) mod W64.
Proof. exact top_C79_line. Qed.
Print Assumptions C79_line.

Theorem C79_file : forall p h ins a pr f loc,
  Forall bytes_ok ins -> Forall (fun i => ~ In 0 i) ins -> session p ins a -> sources_are p ins pr ->
  fits (object_of pr) -> small pr -> zlen (syms (object_of pr)) <= 2 ^ 24 -> asm_write_into p h a = (f, true) ->
  let text := during SText SText pr in let n := zlen (out_bytes text) in
  let at_ := text_listing (loc 1) (label_addr loc pr) text in
  out_bytes text <> [] ->
  forall os s N, leaves os (loc 1) n -> mach_ok s -> loaded h f loc s ->
  (forall k s1, (k < N)%nat -> go os k s = Some s1 -> follows os at_ k s s1 -> may_go at_ (loc 1) n s1) ->
  exists s', go os N s = Some s' /\ follows os at_ N s s' /\ mach_ok s' /\
    exists bs, link h f loc 1 = Some bs /\ zlen bs = n /\ fetch (length bs) (mem s') (loc 1) = bs.
Proof. exact top_C79_file. Qed.
Print Assumptions C79_file.

(** a store beside the code, then a pop of what was stored *)
Definition ex_store : list (instr * list Z) :=
  [(MovRR64 RSP RAX, [0x48; 0x89; 0xC4]); (MovMR64 (RegOffset RAX 0) RBX, [0x48; 0x89; 0x18]); (PopR64 RCX, [0x59])].
Definition ex_store_start : mach :=
  {| regs := fun r => if r =? 0 then 0x100C else if r =? 3 then 0x77 else 0;
     mem := fun a => if (0x1000 <=? a) && (a <? 0x1007) then nth (Z.to_nat (a - 0x1000)) (flat_map snd ex_store) 0 else 0; rip := 0x1000 |}.
Lemma nth_byte l k : bytes_ok l -> 0 <= nth k l 0 < 256.
Proof. intro H. destruct (nth_in_or_default k l 0) as [I| ->]; [exact (proj1 (Forall_forall _ _) H _ I)|lia]. Qed.
Lemma ex_store_ok : mach_ok ex_store_start.
Proof.
  split; [|split]; cbn [regs mem rip ex_store_start].
  - intro r. unfold W64. destruct (r =? 0), (r =? 3); lia.
  - intro a. destruct (_ && _); [|lia]. apply nth_byte, bytes_dec. reflexivity.
  - unfold W64; lia.
Qed.
Lemma apart_dec a n b m : 0 <= a -> a + n <= W64 -> 0 <= b -> b + m <= W64 -> a + n <= b \/ b + m <= a -> apart a n b m.
Proof. intros A1 A2 B1 B2 H i j Hi Hj. rewrite !Z.mod_small by lia. lia. Qed.
Example C79_line_case : let os := fun s : mach => s in let s := ex_store_start in let is := map fst ex_store in
  (forall is1 i is2 bs s1, is = is1 ++ i :: is2 -> emits i bs -> go os (length is1) s = Some s1 -> traced os is1 s s1 ->
     apart 0x1000 7 (fst (written i (zlen bs) s1)) (snd (written i (zlen bs) s1))) /\
  (exists s', go os 3 s = Some s' /\ traced os is s s' /\ rip s' = 0x1007 /\ regs s' 1 = 0x77 /\ regs s' rsp = 0x1014).
Proof.
  intros os s is.
  assert (H : forall is1 i is2 bs s1, is = is1 ++ i :: is2 -> emits i bs -> go os (length is1) s = Some s1 -> traced os is1 s s1 ->
     apart 0x1000 7 (fst (written i (zlen bs) s1)) (snd (written i (zlen bs) s1))).
  { intros is1 i is2 bs s1 E _ G _. unfold is, ex_store in E. cbn [map fst] in E.
    destruct is1 as [|x [|x1 [|x2 is1]]]; cbn [app] in E; [injection E as <- _|injection E as _ <- _|injection E as _ _ <- _|destruct is1; discriminate E];
      cbn [written fst snd]; [apply apart_dec; unfold W64; lia| |apply apart_dec; unfold W64; lia].
    cbn [length] in G. assert (R : regs s1 0 = 0x100C).
    { assert (R := f_equal (option_map (fun t => regs t 0)) G). vm_compute in R. injection R as R. now symmetry. }
    unfold doc_ea, hw64. rewrite R. apply apart_dec; vm_compute; intuition discriminate. }
  split; [exact H|].
  destruct (C79_line os is (map snd ex_store) s) as (s' & G & T & _ & R).
  - repeat (constructor; [cbn; unfold inu; try lia; exact I|]); constructor.
  - cbn. intuition discriminate.
  - repeat (constructor; [eexists; split; [vm_compute; reflexivity|reflexivity]|]); constructor.
  - exact ex_store_ok.
  - vm_compute. reflexivity.
  - intros t Ht. split; [exact Ht|reflexivity].
  - intro t. reflexivity.
  - exact H.
  - exists s'. split; [exact G|]. split; [exact T|]. split; [exact R|].
    assert (Q := f_equal (option_map (fun t => (regs t 1, regs t rsp))) G). vm_compute in Q. injection Q as Q1 Q2. split; symmetry; assumption.
Qed.

(** a program that jumps to its start for ever *)
Definition loop_source : list Z := utf8 (lit "l:" ++ [10] ++ lit "  mov rax, l" ++ [10] ++ lit "  push rax" ++ [10] ++ lit "  ret").
Definition loop_prog : prog :=
  [ (StLabel (lit "l"), []); (StMovSym64 RAX (lit "l"), [0x48; 0xB8; 0; 0; 0; 0; 0; 0; 0; 0]); (StInstr (PushR64 RAX), [0x50]);
    (StInstr Ret, [0xC3]) ].
Definition loop_state (p : profile) : asm := match read_from p asm_new loop_source with Done a => a | _ => asm_new end.
Lemma loop_session p : session p [loop_source] (loop_state p).
Proof. apply (ses_read p [] asm_new); [constructor|]. destruct p; vm_compute; reflexivity. Qed.
Lemma loop_sources p : sources_are p [loop_source] loop_prog.
Proof.
  exists [loop_prog]. split; [|cbn [concat]; now rewrite app_nil_r]. constructor; [|constructor].
  exists (raw_lines loop_source). split; [apply raw_lines_spec|].
  replace (raw_lines loop_source) with [ lit "l:" ++ [10]; lit "  mov rax, l" ++ [10]; lit "  push rax" ++ [10]; lit "  ret" ] by (vm_compute; reflexivity).
  unfold loop_prog. repeat apply Forall2_cons; [| | | |apply Forall2_nil].
  - line_ex (lit "l:" ++ [10]) (lit "l:" ++ [10]); [apply (ac_label p _ (lit "l") 0); [wds|nolbl]|reflexivity].
  - line_ex (lit "  mov rax, l" ++ [10]) (lit "  mov rax, l" ++ [10]); [|eexists; split; vm_compute; reflexivity].
    as_text ([32; 32] ++ lit "mov " ++ [] ++ name64 RAX ++ [] ++ 44 :: [32] ++ lit "l" ++ [10]). apply ac_mov; try blk; [split; not_in|]. apply mo_sym64.
    + right. exists (lit "l"), []. split; [wds|]. split; [discriminate|]. split; [discriminate|].
      intros n N. apply num_try_iff in N. vm_compute in N. discriminate N.
    + intros [] E; discriminate E.
  - line_ex (lit "  push rax" ++ [10]) (lit "  push rax" ++ [10]); [|eexists; split; vm_compute; reflexivity].
    apply (ac_push_reg p _ RAX []). wds.
  - line_ex (lit "  ret") (lit "  ret"); [|eexists; split; vm_compute; reflexivity].
    apply (ac_ret p _ []); [wds|discriminate].
Qed.
Definition loop_file (p : profile) (h : endian) : list Z := fst (asm_write_into p h (loop_state p)).
Definition loop_code : list Z := [0x48; 0xB8; 0; 0x10; 0; 0; 0; 0; 0; 0; 0x50; 0xC3].
Definition loop_start : mach :=
  {| regs := fun r => if r =? rsp then 0x8000 else 0;
     mem := fun a => if (0x1000 <=? a) && (a <? 0x100C) then nth (Z.to_nat (a - 0x1000)) loop_code 0 else 0; rip := 0x1000 |}.
(** the three states the program is in over and over *)
Definition loop_inv (s : mach) : Prop :=
  rip s = 0x1000 /\ regs s rsp = 0x8000 \/ rip s = 0x100A /\ regs s rsp = 0x8000 /\ regs s 0 = 0x1000 \/
  rip s = 0x100B /\ regs s rsp = 0x7FF8 /\ load 8 (mem s) 0x7FF8 = 0x1000.
Definition loop_listing : listing := text_listing 0x1000 (label_addr ex_loc loop_prog) (during SText SText loop_prog).
Lemma loop_listed a i len : loop_listing a i len ->
  a = 0x1000 /\ i = MovRI64 RAX 0x1000 /\ len = 10 \/ a = 0x100A /\ i = PushR64 RAX /\ len = 1 \/ a = 0x100B /\ i = Ret /\ len = 1.
Proof.
  intros (l1 & st & bs & l2 & E & L & -> & ->). change (during SText SText loop_prog) with loop_prog in E. unfold loop_prog in E.
  destruct l1 as [|x [|x1 [|x2 [|x3 l1]]]]; cbn [app] in E;
    [injection E as <- <- _|injection E as <- <- <- _|injection E as <- <- <- <- _|injection E as <- <- <- <- <- _|destruct l1; discriminate E].
  - discriminate L.
  - left. vm_compute in L. injection L as <-. vm_compute. auto.
  - right; left. injection L as <-. vm_compute. auto.
  - right; right. injection L as <-. vm_compute. auto.
Qed.
Lemma loop_listing_at : loop_listing 0x1000 (MovRI64 RAX 0x1000) 10 /\ loop_listing 0x100A (PushR64 RAX) 1 /\ loop_listing 0x100B Ret 1.
Proof.
  split; [|split].
  - exists (firstn 1 loop_prog), (StMovSym64 RAX (lit "l")), [0x48; 0xB8; 0; 0; 0; 0; 0; 0; 0; 0], (skipn 2 loop_prog). repeat split.
  - exists (firstn 2 loop_prog), (StInstr (PushR64 RAX)), [0x50], (skipn 3 loop_prog). repeat split.
  - exists (firstn 3 loop_prog), (StInstr Ret), [0xC3], []. repeat split.
Qed.
Lemma loop_keeps os n s s' : follows os loop_listing n s s' -> loop_inv s -> loop_inv s'.
Proof.
  intro F. induction F as [s|n i len s s1 s2 Ni A E F IH|n len s s1 s2 A E F IH]; intro V; [exact V| |].
  - apply IH. clear F IH s2. unfold loop_inv in V |- *.
    destruct (loop_listed _ _ _ A) as [(R & -> & ->)|[(R & -> & ->)|(R & -> & ->)]]; cbn [effect instr_mem] in E.
    + destruct E as (E1 & E2 & E3 & E4). right; left. rewrite E4, R. split; [reflexivity|].
      destruct V as [(_ & V)|[(V & _)|(V & _)]]; [|rewrite R in V; discriminate V|rewrite R in V; discriminate V].
      split; [|exact E1]. rewrite <- V. apply E2. cbn. unfold rsp. intuition discriminate.
    + destruct E as (E1 & E2 & E3 & E4 & E5). right; right. rewrite E5, R. split; [reflexivity|].
      destruct V as [(V & _)|[(_ & V & V0)|(V & _)]]; [rewrite R in V; discriminate V| |rewrite R in V; discriminate V].
      rewrite V in E1. split; [exact E1|]. rewrite E1 in E2. change (hw64 RAX) with 0 in E2. rewrite V0 in E2. exact E2.
    + destruct E as (E1 & E2 & E3 & E4). left.
      destruct V as [(V & _)|[(V & _)|(_ & V & V0)]]; [rewrite R in V; discriminate V|rewrite R in V; discriminate V|].
      rewrite V in E1, E2. split; [now rewrite E1|exact E2].
  - destruct (loop_listed _ _ _ A) as [(_ & X & _)|[(_ & X & _)|(_ & X & _)]]; discriminate X.
Qed.
Lemma loop_may s : loop_inv s -> may_go loop_listing 0x1000 12 s.
Proof.
  destruct loop_listing_at as (L1 & L2 & L3).
  intros [(R & _)|[(R & V & _)|(R & _)]]; unfold may_go; rewrite R.
  - eexists _, _. split; [exact L1|]. apply apart_dec; vm_compute; intuition discriminate.
  - eexists _, _. split; [exact L2|]. cbn [written fst snd]. rewrite V. apply apart_dec; vm_compute; intuition discriminate.
  - eexists _, _. split; [exact L3|]. apply apart_dec; vm_compute; intuition discriminate.
Qed.
Example C79_file_case : forall p h N, exists s', go (fun s => s) N loop_start = Some s' /\ follows (fun s => s) loop_listing N loop_start s' /\
  loop_inv s' /\ link h (loop_file p h) ex_loc 1 = Some loop_code /\ fetch 12 (mem s') 0x1000 = loop_code.
Proof.
  intros p h N.
  assert (L : link h (loop_file p h) ex_loc 1 = Some loop_code) by (destruct p, h; vm_compute; reflexivity).
  assert (V0 : loop_inv loop_start) by (left; split; reflexivity).
  destruct (C79_file p h [loop_source] (loop_state p) loop_prog (loop_file p h) ex_loc) with (os := fun s : mach => s) (s := loop_start) (N := N)
    as (s' & G & F & _ & bs & Lb & _ & Fb).
  - constructor; [|constructor]. apply bytes_dec. vm_compute. reflexivity.
  - constructor; [|constructor]. apply nonul_dec. vm_compute. reflexivity.
  - apply loop_session.
  - apply loop_sources.
  - split; [split; vm_compute; reflexivity|]. split; [vm_compute; reflexivity|]. repeat (constructor; [vm_compute; reflexivity|]). constructor.
  - split; vm_compute; reflexivity.
  - vm_compute; discriminate.
  - unfold loop_file. destruct p, h; vm_compute; reflexivity.
  - vm_compute; discriminate.
  - intros t Ht. split; [exact Ht|reflexivity].
  - split; [|split]; cbn [regs mem rip loop_start]; [intro r; unfold W64; destruct (r =? rsp); lia| |unfold W64; lia].
    intro b. destruct (_ && _); [|lia]. apply nth_byte, bytes_dec. reflexivity.
  - intros k bs E. destruct (Z.eq_dec k 1) as [->|N1]; [rewrite L in E; injection E as <-; vm_compute; reflexivity|].
    exfalso. revert E. unfold link. replace (seg_pos h (loop_file p h)) with (Some 32%nat) by (destruct p, h; vm_compute; reflexivity). cbv zeta.
    replace (fld h (32 + 64) 4 (loop_file p h)) with 1 by (destruct p, h; vm_compute; reflexivity).
    destruct (1 <=? k) eqn:E1; [|discriminate]. destruct (k <=? 1) eqn:E2; [|discriminate]. lia.
  - intros k s1 _ _ F. apply loop_may. exact (loop_keeps _ _ _ _ F V0).
  - exists s'. split; [exact G|]. split; [exact F|]. split; [exact (loop_keeps _ _ _ _ F V0)|]. split; [exact L|].
    rewrite L in Lb. injection Lb as <-. exact Fb.
Qed.
(** its instructions alone: once round and into the second round *)
Definition loop_list : list (instr * list Z) :=
  [(MovRI64 RAX 0x1000, [0x48; 0xB8; 0; 0x10; 0; 0; 0; 0; 0; 0]); (PushR64 RAX, [0x50]); (Ret, [0xC3])].
Lemma loop_list_ok : Forall (fun x => instr_ok (fst x) /\ emits (fst x) (snd x)) loop_list.
Proof.
  constructor; [split; [cbn; unfold inu; lia|eexists; split; [vm_compute; reflexivity|reflexivity]]|].
  constructor; [split; [exact I|eexists; split; [vm_compute; reflexivity|reflexivity]]|].
  constructor; [split; [exact I|eexists; split; [vm_compute; reflexivity|reflexivity]]|]. constructor.
Qed.
Example C79_code_case : let os := fun s : mach => s in let at_ := code_listing 0x1000 loop_list in
  (forall n s1, (n < 4)%nat -> go os n loop_start = Some s1 -> follows os at_ n loop_start s1 -> may_go at_ 0x1000 12 s1) /\
  exists s', go os 4 loop_start = Some s' /\ follows os at_ 4 loop_start s' /\ rip s' = 0x100A /\ regs s' rsp = 0x8000.
Proof.
  intros os at_.
  assert (L : at_ 0x1000 (MovRI64 RAX 0x1000) 10 /\ at_ 0x100A (PushR64 RAX) 1 /\ at_ 0x100B Ret 1).
  { split; [|split].
    - exists [], [0x48; 0xB8; 0; 0x10; 0; 0; 0; 0; 0; 0], (skipn 1 loop_list). repeat split.
    - exists (firstn 1 loop_list), [0x50], (skipn 2 loop_list). repeat split.
    - exists (firstn 2 loop_list), [0xC3], []. repeat split. }
  assert (H : forall n s1, (n < 4)%nat -> go os n loop_start = Some s1 -> follows os at_ n loop_start s1 -> may_go at_ 0x1000 12 s1).
  { intros n s1 Hn G _. destruct L as (L1 & L2 & L3).
    assert (Q := f_equal (option_map (fun t => (rip t, regs t rsp))) G). unfold option_map at 2 in Q.
    change rsp with 4 in Q. remember (rip s1) as r1 eqn:E1. remember (regs s1 4) as r2 eqn:E2.
    destruct n as [|[|[|[|n]]]]; [| | | |lia]; vm_compute in Q; injection Q as Q1 Q2; unfold may_go; rewrite <- E1, <- Q1; eexists _, _;
      (split; [first [exact L1|exact L2|exact L3]|]); cbn [written fst snd]; change rsp with 4; rewrite <- ?E2, <- ?Q2; apply apart_dec; vm_compute; intuition discriminate. }
  split; [exact H|]. destruct (C79_code os loop_list 0x1000 loop_start 4) as (s' & G & F & _).
  - exact loop_list_ok.
  - intros t Ht. split; [exact Ht|reflexivity].
  - split; [|split]; cbn [regs mem rip loop_start]; [intro r; unfold W64; destruct (r =? rsp); lia| |unfold W64; lia].
    intro b. destruct (_ && _); [|lia]. apply nth_byte, bytes_dec. reflexivity.
  - vm_compute. reflexivity.
  - exact H.
  - exists s'. split; [exact G|]. split; [exact F|].
    assert (Q := f_equal (option_map (fun t => (rip t, regs t rsp))) G). vm_compute in Q. injection Q as Q1 Q2. split; symmetry; assumption.
Qed.
