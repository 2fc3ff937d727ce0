(** Property theorems for names replaced by others of the same length: C101. *)
From Coq Require String.
Import String.StringSyntax.
From Verif Require Import Base Str X64 SpecX86 Mac SpecMacho Obj SpecObj Asm SpecAsm Assembler SpecRun Cli SpecCli SpecLink SpecMeta SpecRename
  PfRun PropsObj PropsAsm PropsLink PfMeta PropsMeta PfRename.

(** ** C101: names of the same length change the strings of the file and nothing else *)

Theorem C101_object : forall p h o f F, object_rng o -> fits o -> clean_names o -> object_rng (ren_object f o) ->
  same_width f (names o) -> macho_write_into p h o = (F, true) ->
  exists A, length A = pos_strs o /\ F = A ++ strings (names o) /\
    macho_write_into p h (ren_object f o) = (A ++ strings (map f (names o)), true).
Proof. exact top_C101_object. Qed.
Print Assumptions C101_object.

Theorem C101_source : forall p h ins ins' a a' pr f F,
  Forall bytes_ok ins -> Forall (fun i => ~ In 0 i) ins -> session p ins a -> sources_are p ins pr ->
  Forall bytes_ok ins' -> session p ins' a' -> sources_are p ins' (renamed f pr) ->
  same_width f (names_in pr) -> fits (object_of pr) -> asm_write_into p h a = (F, true) ->
  exists A, length A = pos_strs (object_of pr) /\ F = A ++ strings (names (object_of pr)) /\
    asm_write_into p h a' = (A ++ strings (map f (names (object_of pr))), true).
Proof. exact top_C101_source. Qed.
Print Assumptions C101_source.

(** ** Examples: all names in capitals *)
Definition upcase : str -> str := map (fun c => c - 32).
Definition upcase_source : list Z := utf8 (
  lit "START:" ++ [10] ++ lit "  mov rsi, MSG" ++ [10] ++ lit "section .data" ++ [10] ++
  lit "N dd 7" ++ [10] ++ lit "MSG db ""Hi"", 10" ++ [10] ++ lit "section .text" ++ [10] ++
  lit "global START" ++ [10] ++ lit "  push 5" ++ [10] ++ lit "FIN:" ++ [10] ++ lit "  ret").
Definition upcase_state (p : profile) : asm := match read_from p asm_new upcase_source with Done a => a | _ => asm_new end.
Lemma upcase_sources p : sources_are p [upcase_source] (renamed upcase ex_prog).
Proof.
  exists [renamed upcase ex_prog]. split; [|cbn [concat]; now rewrite app_nil_r]. constructor; [|constructor].
  exists (raw_lines upcase_source). split; [apply raw_lines_spec|].
  replace (raw_lines upcase_source) with (map utf8
    [ lit "START:" ++ [10]; lit "  mov rsi, MSG" ++ [10]; lit "section .data" ++ [10]; lit "N dd 7" ++ [10];
      lit "MSG db ""Hi"", 10" ++ [10]; lit "section .text" ++ [10]; lit "global START" ++ [10]; lit "  push 5" ++ [10];
      lit "FIN:" ++ [10]; lit "  ret" ]) by (vm_compute; reflexivity).
  unfold renamed, ex_prog. cbn [map fst snd rename_stmt].
  repeat first [apply Forall2_nil | apply Forall2_cons; [destruct p; line_of|]].
Qed.
Lemma upcase_width : same_width upcase (names_in ex_prog).
Proof.
  split.
  - intros x y _ _. unfold upcase. revert y. induction x as [|c x IH]; intros [|d y] E; try discriminate; [reflexivity|].
    injection E as E1 E2. f_equal; [lia|now apply IH].
  - intros n I. vm_compute in I. repeat (destruct I as [<-|I]; [split; [repeat constructor; vm_compute; congruence|reflexivity]|]). destruct I.
Qed.
Example C101_case : forall p h,
  session p [upcase_source] (upcase_state p) /\ snd (asm_write_into p h (ex_state p)) = true /\
  let F := fst (asm_write_into p h (ex_state p)) in let F' := fst (asm_write_into p h (upcase_state p)) in
  firstn (pos_strs (object_of ex_prog)) F = firstn (pos_strs (object_of ex_prog)) F' /\
  skipn (pos_strs (object_of ex_prog)) F = [0] ++ lit "start" ++ [0] ++ lit "fin" ++ [0] ++ lit "n" ++ [0] ++ lit "msg" ++ [0] /\
  skipn (pos_strs (object_of ex_prog)) F' = [0] ++ lit "START" ++ [0] ++ lit "FIN" ++ [0] ++ lit "N" ++ [0] ++ lit "MSG" ++ [0].
Proof.
  intros p h. split; [apply (ses_read p [] asm_new); [constructor|]; destruct p; vm_compute; reflexivity|].
  destruct p, h; vm_compute; repeat split; reflexivity.
Qed.
(** two names made one: the symbol entries change as well *)
Example C101_merged : forall p h, ~ same_width (fun _ => lit "x") (names ex_object) /\
  let o y := {| o_text := {| bs_bytes := [0xC3]; bs_symbols := [SyRef (lit "a") 0 false; SyRef y 1 false]; bs_relocs := [] |};
     o_data := bsection_new; o_bss := bss_new |} in
  firstn (pos_strs (o (lit "b"))) (fst (macho_write_into p h (o (lit "a")))) <> firstn (pos_strs (o (lit "b"))) (fst (macho_write_into p h (o (lit "b")))).
Proof.
  intros p h. split.
  - intros [J _]. specialize (J (lit "start") (lit "exit")). vm_compute in J.
    discriminate J; [now left|right; now left|reflexivity].
  - destruct p, h; vm_compute; discriminate.
Qed.
(** the theorem on the example *)
Example C101_use : forall p h, exists A, length A = pos_strs (object_of ex_prog) /\
  fst (asm_write_into p h (ex_state p)) = A ++ strings (names (object_of ex_prog)) /\
  fst (asm_write_into p h (upcase_state p)) = A ++ strings (map upcase (names (object_of ex_prog))).
Proof.
  intros p h. destruct (C101_case p h) as (S' & W & _). destruct (asm_write_into p h (ex_state p)) as [F b] eqn:E. cbn [snd] in W. subst b.
  destruct (C101_source p h [ex_source] [upcase_source] (ex_state p) (upcase_state p) ex_prog upcase F) as (A & L & E1 & E2).
  - repeat constructor; vm_compute; congruence.
  - constructor; [|constructor]. apply nonul_dec. vm_compute. reflexivity.
  - apply ex_session.
  - apply ex_sources.
  - repeat constructor; vm_compute; congruence.
  - exact S'.
  - apply upcase_sources.
  - apply upcase_width.
  - split; [split; vm_compute; reflexivity|]. split; [vm_compute; reflexivity|].
    let t := constr:(syms (object_of ex_prog)) in let v := eval vm_compute in t in replace t with v by (vm_compute; reflexivity).
    repeat (apply Forall_cons; [vm_compute; reflexivity|]). apply Forall_nil.
  - exact E.
  - exists A. split; [exact L|]. split; [exact E1|]. rewrite E2. reflexivity.
Qed.
