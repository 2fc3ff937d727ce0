(** Property theorems for what a change of a number or a string changes in the file: C100. *)
From Coq Require String.
Import String.StringSyntax.
From Verif Require Import Base Str X64 SpecX86 Mac SpecMacho Obj SpecObj Asm SpecAsm Assembler SpecRun SpecLocal PropsObj PropsAsm PfRun PfLocal PfLocal2.

(** ** C100: the contents of the sections show in the file only at their own place *)

(** objects of the same shape: the writer does the same for both, and every byte that differs is one of
    the contents at its place.  This is for all objects, whether they fit the format or not, and also
    for what is written before a panic *)
Theorem C100_object : forall p h o o' f b, same_shape o o' -> object_rng o -> macho_write_into p h o = (f, b) ->
  exists f', macho_write_into p h o' = (f', b) /\ overlaid (pos_data o) (contents o) (contents o') f f' /\
    (b = true -> exists A B, length A = pos_data o /\ f = A ++ contents o ++ B /\ f' = A ++ contents o' ++ B).
Proof. exact top_C100_object. Qed.
Print Assumptions C100_object.

(** sources whose statements have the same sizes and names, line by line *)
Theorem C100_source : forall p h src src' pr pr' a f b, bytes_ok src -> bytes_ok src' ->
  source_is p src pr -> source_is p src' pr' -> Forall2 alike_stmt pr pr' ->
  read_from p asm_new src = Done a -> asm_write_into p h a = (f, b) ->
  exists a' f', read_from p asm_new src' = Done a' /\ same_shape (as_obj a) (as_obj a') /\
    asm_write_into p h a' = (f', b) /\ overlaid (pos_data (as_obj a)) (contents (as_obj a)) (contents (as_obj a')) f f'.
Proof. exact top_C100_source. Qed.
Print Assumptions C100_source.

(** one line: the bytes of its statement are replaced, the rest of the file stays *)
Theorem C100_line : forall p h src src' pre x y post a f, bytes_ok src -> bytes_ok src' ->
  source_is p src (pre ++ x :: post) -> source_is p src' (pre ++ y :: post) -> alike_stmt x y ->
  read_from p asm_new src = Done a -> asm_write_into p h a = (f, true) ->
  exists a' A B, read_from p asm_new src' = Done a' /\
    length A = (pos_data (as_obj a) + place_after pre (pre ++ x :: post))%nat /\
    f = A ++ snd x ++ B /\ asm_write_into p h a' = (A ++ snd y ++ B, true).
Proof. exact top_C100_line. Qed.
Print Assumptions C100_line.

(** instructions that differ in a number are such statements, and only the bytes of the number differ *)
Theorem C100_numbers :
  (forall r n n' bs bs', inu 64 n -> inu 64 n' -> emits (MovRI64 r n) bs -> emits (MovRI64 r n') bs' ->
     alike_stmt (StInstr (MovRI64 r n), bs) (StInstr (MovRI64 r n'), bs') /\
     exists q, bs = q ++ le_bytes 8 n /\ bs' = q ++ le_bytes 8 n') /\
  (forall r n n' bs bs', inu 32 n -> inu 32 n' -> emits (MovRI32 r n) bs -> emits (MovRI32 r n') bs' ->
     alike_stmt (StInstr (MovRI32 r n), bs) (StInstr (MovRI32 r n'), bs') /\
     exists q, bs = q ++ le_bytes 4 n /\ bs' = q ++ le_bytes 4 n') /\
  (forall r n n' bs bs', inu 16 n -> inu 16 n' -> emits (MovRI16 r n) bs -> emits (MovRI16 r n') bs' ->
     alike_stmt (StInstr (MovRI16 r n), bs) (StInstr (MovRI16 r n'), bs') /\
     exists q, bs = q ++ le_bytes 2 n /\ bs' = q ++ le_bytes 2 n') /\
  (forall n n' bs bs', inu 8 n -> inu 8 n' -> emits (PushI8 n) bs -> emits (PushI8 n') bs' ->
     alike_stmt (StInstr (PushI8 n), bs) (StInstr (PushI8 n'), bs') /\ exists q, bs = q ++ [n] /\ bs' = q ++ [n']) /\
  (forall n n' bs bs', inu 32 n -> inu 32 n' -> emits (PushI32 n) bs -> emits (PushI32 n') bs' ->
     alike_stmt (StInstr (PushI32 n), bs) (StInstr (PushI32 n'), bs') /\
     exists q, bs = q ++ le_bytes 4 n /\ bs' = q ++ le_bytes 4 n') /\
  (forall l d d', length d = length d' -> alike_stmt (StData l d, d) (StData l d', d')).
Proof. exact top_C100_numbers. Qed.
Print Assumptions C100_numbers.

(** ** Examples *)

(** `push 100` for `push 5` *)
Definition ex_source100 : list Z := utf8 (
  lit "start:" ++ [10] ++ lit "  mov rsi, msg ; address" ++ [10] ++ lit "section .data" ++ [10] ++
  lit "n dd 7" ++ [10] ++ lit "msg db ""Hi"", 10" ++ [10] ++ lit "section .text" ++ [10] ++
  lit "global start" ++ [10] ++ lit "  push 100" ++ [10] ++ lit "fin: " ++ [10] ++ lit "  ret").
Definition ex_state100 (p : profile) : asm := match read_from p asm_new ex_source100 with Done a => a | _ => asm_new end.
Lemma ex_source_is p : source_is p ex_source (firstn 7 ex_prog ++ (StInstr (PushI8 5), [0x6A; 5]) :: skipn 8 ex_prog) /\
  source_is p ex_source100 (firstn 7 ex_prog ++ (StInstr (PushI8 100), [0x6A; 100]) :: skipn 8 ex_prog).
Proof.
  destruct (ex_sources p) as (prs & F & E). inversion F as [|? pr ? ? S F1]; subst. inversion F1; subst. cbn [concat] in E. rewrite app_nil_r in E.
  subst pr. split; [exact S|]. destruct S as (ls & Sl & Fl).
  apply raw_lines_iff in Sl. subst ls.
  exists (raw_lines ex_source100). split; [apply raw_lines_spec|].
  set (l1 := firstn 7 (raw_lines ex_source)). set (l2 := skipn 8 (raw_lines ex_source)).
  replace (raw_lines ex_source100) with (l1 ++ (lit "  push 100" ++ [10]) :: l2) by (vm_compute; reflexivity).
  replace (raw_lines ex_source) with (l1 ++ (lit "  push 5" ++ [10]) :: l2) in Fl by (vm_compute; reflexivity).
  change ex_prog with (firstn 7 ex_prog ++ (StInstr (PushI8 5), [0x6A; 5]) :: skipn 8 ex_prog) in Fl.
  apply Forall2_app_inv_l in Fl. destruct Fl as (m1 & m2 & F2 & F3 & E).
  assert (Q : length m1 = 7%nat) by (rewrite <- (rel_length _ _ _ F2); vm_compute; reflexivity).
  assert (m1 = firstn 7 ex_prog /\ m2 = skipn 7 ex_prog) as [-> ->].
  { change (firstn 7 ex_prog ++ (StInstr (PushI8 5), [0x6A; 5]) :: skipn 8 ex_prog) with ex_prog in E. rewrite E.
    split; [rewrite firstn_app, Q, firstn_all2, Nat.sub_diag, app_nil_r by lia; reflexivity|].
    rewrite skipn_app, Q, Nat.sub_diag, skipn_all2 by lia. reflexivity. }
  apply Forall2_app; [exact F2|]. inversion F3 as [|? ? ? ? _ F4]; subst. constructor; [|exact F4].
  line_ex (lit "  push 100" ++ [10]) (lit "  push 100" ++ [10]); [|eexists; split; vm_compute; reflexivity].
  apply (ac_push8 p _ (lit "100") 100 []); [wds|nmb].
Qed.
Example C100_case : forall p h,
  bytes_ok ex_source /\ bytes_ok ex_source100 /\
  alike_stmt (StInstr (PushI8 5), [0x6A; 5]) (StInstr (PushI8 100), [0x6A; 100]) /\
  read_from p asm_new ex_source = Done (ex_state p) /\ read_from p asm_new ex_source100 = Done (ex_state100 p) /\
  let f := fst (asm_write_into p h (ex_state p)) in let f' := fst (asm_write_into p h (ex_state100 p)) in
  snd (asm_write_into p h (ex_state p)) = true /\ length f = length f' /\ pos_data (as_obj (ex_state p)) = 288%nat /\
  place_after (firstn 7 ex_prog) ex_prog = 10%nat /\
  firstn 299 f = firstn 299 f' /\ nth 299 f 0 = 5 /\ nth 299 f' 0 = 100 /\ skipn 300 f = skipn 300 f'.
Proof.
  intros p h. split; [apply bytes_dec; vm_compute; reflexivity|]. split; [apply bytes_dec; vm_compute; reflexivity|].
  split; [repeat split; discriminate|]. destruct p, h; vm_compute; repeat split; reflexivity.
Qed.
(** what the theorem for one line says of it *)
Example C100_use : forall p h, exists a' A B, read_from p asm_new ex_source100 = Done a' /\ length A = 298%nat /\
  asm_write_into p h (ex_state p) = (A ++ [0x6A; 5] ++ B, true) /\ asm_write_into p h a' = (A ++ [0x6A; 100] ++ B, true).
Proof.
  intros p h. destruct (ex_source_is p) as [S S']. destruct (C100_case p h) as (B1 & B2 & Al & R & _ & W & _).
  destruct (asm_write_into p h (ex_state p)) as [f b] eqn:E. cbn [snd] in W. subst b.
  destruct (C100_line p h _ _ _ _ _ _ _ f B1 B2 S S' Al R E) as (a' & A & B & R' & L & F & W'). exists a', A, B.
  split; [exact R'|]. split; [rewrite L; destruct p; vm_compute; reflexivity|]. cbn [snd] in *. split; [now rewrite <- F|exact W'].
Qed.
(** a data byte of an object of its own *)
Example C100_object_case : forall p h, let o b := {| o_text := {| bs_bytes := [0xC3]; bs_symbols := [SyRef (lit "f") 0 true]; bs_relocs := [] |};
     o_data := {| bs_bytes := [1; b; 3]; bs_symbols := []; bs_relocs := [] |};
     o_bss := {| bss_size := 4; bss_symbols := [] |} |} in
  same_shape (o 2) (o 9) /\ ~ same_shape (o 2) ex_object /\ pos_data (o 2) = 368%nat /\
  let f := fst (macho_write_into p h (o 2)) in let f' := fst (macho_write_into p h (o 9)) in
  firstn 370 f = firstn 370 f' /\ nth 370 f 0 = 2 /\ nth 370 f' 0 = 9 /\ skipn 371 f = skipn 371 f'.
Proof.
  intros p h. cbv zeta. split; [repeat split|]. split; [intros (L & _); discriminate L|]. destruct p, h; vm_compute; repeat split; reflexivity.
Qed.
