(** Property theorem for an inserted line: C102. *)
From Coq Require String.
Import String.StringSyntax.
From Verif Require Import Base Str X64 SpecX86 Obj SpecObj Asm SpecAsm Assembler SpecRun SpecShift
  PfRun PropsObj PropsAsm PropsMeta PfShift.

(** ** C102: a line inserted moves what follows it in its section by its size, and nothing else *)

Theorem C102_inserted_line : forall p ins ins' a a' pre x post, Forall bytes_ok ins -> Forall bytes_ok ins' ->
  session p ins a -> sources_are p ins (pre ++ post) -> session p ins' a' -> sources_are p ins' (pre ++ x :: post) ->
  nameless x -> small (pre ++ x :: post) -> last_sect SText pre <> SBss ->
  let s := last_sect SText pre in
  inserted (zlen (out_bytes (during s SText pre))) (snd x) (sect_part s (as_obj a)) (sect_part s (as_obj a')) /\
  (forall s', s' <> s -> sect_part s' (as_obj a') = sect_part s' (as_obj a)) /\ o_bss (as_obj a') = o_bss (as_obj a).
Proof. exact top_C102. Qed.
Print Assumptions C102_inserted_line.

(** ** Example: `push 7` after the first label *)
Definition longer_lines : list str :=
  [ lit "start:" ++ [10]; lit "  push 7" ++ [10]; lit "  mov rsi, msg" ++ [10]; lit "section .data" ++ [10]; lit "n dd 7" ++ [10];
    lit "msg db ""Hi"", 10" ++ [10]; lit "section .text" ++ [10]; lit "global start" ++ [10]; lit "  push 5" ++ [10];
    lit "fin:" ++ [10]; lit "  ret" ].
Definition longer_source : list Z := utf8 (concat longer_lines).
Definition longer_prog : prog := firstn 1 ex_prog ++ (StInstr (PushI8 7), [0x6A; 7]) :: skipn 1 ex_prog.
Definition longer_state (p : profile) : asm := match read_from p asm_new longer_source with Done a => a | _ => asm_new end.
Lemma longer_sources p : sources_are p [longer_source] longer_prog.
Proof.
  exists [longer_prog]. split; [|cbn [concat]; now rewrite app_nil_r]. constructor; [|constructor].
  exists (map utf8 longer_lines). split; [apply raw_lines_iff; vm_compute; reflexivity|].
  unfold longer_lines, longer_prog, ex_prog. cbn [map firstn skipn app].
  repeat first [apply Forall2_nil | apply Forall2_cons; [destruct p; line_of|]].
Qed.
Example C102_case : forall p, session p [longer_source] (longer_state p) /\
  let t := o_text (as_obj (ex_state p)) in let t' := o_text (as_obj (longer_state p)) in
  bs_bytes t' = [0x6A; 7] ++ bs_bytes t /\
  bs_symbols t = [SyRef (lit "start") 0 true; SyRef (lit "fin") 12 false] /\
  bs_symbols t' = [SyRef (lit "start") 0 true; SyRef (lit "fin") 14 false] /\
  map rl_addr (bs_relocs t) = [2] /\ map rl_addr (bs_relocs t') = [4].
Proof.
  intro p. split; [apply (ses_read p [] asm_new); [constructor|]; destruct p; vm_compute; reflexivity|].
  destruct p; vm_compute; repeat split; reflexivity.
Qed.
(** the theorem on the example *)
Example C102_use : forall p a a', session p [ex_source] a -> session p [longer_source] a' ->
  inserted 0 [0x6A; 7] (o_text (as_obj a)) (o_text (as_obj a')) /\ o_data (as_obj a') = o_data (as_obj a).
Proof.
  intros p a a' S S'. destruct (C102_inserted_line p [ex_source] [longer_source] a a' (firstn 1 ex_prog)
    (StInstr (PushI8 7), [0x6A; 7]) (skipn 1 ex_prog)) as (I & O & _).
  - constructor; [|constructor]. apply bytes_dec. vm_compute. reflexivity.
  - constructor; [|constructor]. apply bytes_dec. vm_compute. reflexivity.
  - exact S.
  - apply ex_sources.
  - exact S'.
  - apply longer_sources.
  - repeat split; discriminate.
  - split; vm_compute; reflexivity.
  - discriminate.
  - cbv zeta in I, O. replace (last_sect SText (firstn 1 ex_prog)) with SText in I, O by reflexivity.
    replace (zlen (out_bytes (during SText SText (firstn 1 ex_prog)))) with 0 in I by reflexivity. cbn [sect_part snd] in I.
    split; [exact I|]. specialize (O SData ltac:(discriminate)). cbn [sect_part] in O. exact O.
Qed.
