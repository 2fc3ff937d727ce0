(** Property theorems about pairs of sources: edits that do not matter (C73), rearranged
    sections (C74), renamed labels (C75), and appended text (C76). *)
From Coq Require String.
Import String.StringSyntax.
From Verif Require Import Base Str X64 SpecX86 Mac Obj SpecObj Asm SpecAsm Assembler SpecRun Cli SpecCli SpecLink SpecMeta
  PfRun PropsAsm PropsLink PfMeta.

(** ** C73: comments, blank lines and white space around statements do not matter *)
Theorem C73_object : forall p src src' ls ls' a,
  source_lines src ls -> source_lines src' ls' -> edited ls ls' ->
  (p = Debug -> zlen ls < 2 ^ 32 /\ zlen ls' < 2 ^ 32) ->
  read_from p asm_new src = Done a ->
  exists a', read_from p asm_new src' = Done a' /\ as_obj a' = as_obj a /\ as_sect a' = as_sect a /\ as_ext a' = as_ext a.
Proof. exact top_C73_read. Qed.
Print Assumptions C73_object.
Theorem C73_run : forall p h args w w' cf i o src src' ls ls',
  config_init args = Done cf -> w_slot w (cf_input cf) = Some i -> w_slot w (cf_output cf) = Some o ->
  same_but i src src' w w' -> source_lines src ls -> source_lines src' ls' -> edited ls ls' ->
  (p = Debug -> zlen ls < 2 ^ 32 /\ zlen ls' < 2 ^ 32) ->
  status (snd (main p h args w')) = status (snd (main p h args w)) /\
  (forall k, k <> i \/ k = o -> w_data (fst (main p h args w')) k = w_data (fst (main p h args w)) k).
Proof. exact top_C73_main. Qed.
Print Assumptions C73_run.
Definition plain_lines : list str := [lit "start:" ++ [10]; lit "mov rax, 5" ++ [10]; [10]; lit "ret"].
Definition pretty_lines : list str :=
  [lit "; program" ++ [10]; lit "start:  ; entry" ++ [10]; lit "   mov rax, 5   ; exit code" ++ [10]; lit "  ret" ++ [10]; lit "   ;; end"].
Ltac str := apply ascii_ok; vm_compute; reflexivity.
Example C73_case : forall p h,
  source_lines (utf8 (concat plain_lines)) (map utf8 plain_lines) /\
  source_lines (utf8 (concat pretty_lines)) (map utf8 pretty_lines) /\
  edited (map utf8 plain_lines) (map utf8 pretty_lines) /\
  same_but 1 (utf8 (concat plain_lines)) (utf8 (concat pretty_lines)) (ex_world (utf8 (concat plain_lines)) []) (ex_world (utf8 (concat pretty_lines)) []) /\
  status (snd (main p h [lit "at-asm"; lit "a.s"] (ex_world (utf8 (concat pretty_lines)) []))) = 0.
Proof.
  intros p h.
  split; [apply PfRun.raw_lines_iff; vm_compute; reflexivity|].
  split; [apply PfRun.raw_lines_iff; vm_compute; reflexivity|].
  split; [|split; [|destruct p, h; vm_compute; reflexivity]].
  - unfold plain_lines, pretty_lines. cbn [map].
    apply (ed_more _ []); [str|ltext|blk|].
    apply ed_style. { exists (lit "start:" ++ [10]), (lit "start:  ; entry" ++ [10]), (lit "start:"), [], [10], [], (lit "  ").
      split; [reflexivity|]. split; [reflexivity|]. split; [str|]. split; [str|]. split; [blk|]. split; [blk|]. split; [blk|]. split; [blk|]. split; ltext. }
    apply ed_style. { exists (lit "mov rax, 5" ++ [10]), (lit "   mov rax, 5   ; exit code" ++ [10]), (lit "mov rax, 5"), [], [10], (lit "   "), (lit "   ").
      split; [reflexivity|]. split; [reflexivity|]. split; [str|]. split; [str|]. split; [blk|]. split; [blk|]. split; [blk|]. split; [blk|]. split; ltext. }
    apply (ed_less _ [10]); [str|ltext|blk|].
    apply ed_style. { exists (lit "ret"), (lit "  ret" ++ [10]), (lit "ret"), [], [], (lit "  "), [10].
      split; [reflexivity|]. split; [reflexivity|]. split; [str|]. split; [str|]. split; [blk|]. split; [blk|]. split; [blk|]. split; [blk|]. split; ltext. }
    apply (ed_more _ (lit "   ")); [str|ltext|blk|]. apply ed_nil.
  - split; [reflexivity|]. split; [reflexivity|]. split; [reflexivity|]. intros k K. cbn. destruct (Z.eqb_spec k 1); [congruence|reflexivity].
Qed.

(** ** C74: only what each section receives and which names are global matters *)
Theorem C74_same : forall p p' ins ins' a a' pr pr',
  Forall bytes_ok ins -> Forall bytes_ok ins' -> session p ins a -> session p' ins' a' ->
  sources_are p ins pr -> sources_are p' ins' pr' -> same_code pr pr' -> as_obj a' = as_obj a.
Proof. exact top_C74_same. Qed.
Print Assumptions C74_same.
Theorem C74_accepted : forall p ins ins' a pr pr',
  Forall bytes_ok ins -> Forall bytes_ok ins' -> session p ins a ->
  sources_are p ins pr -> sources_are p ins' pr' -> same_code pr pr' -> size_ok p pr' ->
  exists a', session p ins' a' /\ as_obj a' = as_obj a.
Proof. exact top_C74. Qed.
Print Assumptions C74_accepted.

(** the statements of [ex_source], grouped by section *)
Definition grouped_lines : list str :=
  [lit "global start" ++ [10]; lit "section .data" ++ [10]; lit "n dd 7" ++ [10]; lit "msg db ""Hi"", 10" ++ [10]; lit "section .text" ++ [10];
   lit "start:" ++ [10]; lit "mov rsi, msg" ++ [10]; lit "push 5" ++ [10]; lit "fin:" ++ [10]; lit "ret" ++ [10]].
Definition grouped_prog : prog :=
  [ (StGlobal (lit "start"), []); (StSection SData, []);
    (StData (Some (lit "n")) [7; 0; 0; 0], [7; 0; 0; 0]); (StData (Some (lit "msg")) [72; 105; 10], [72; 105; 10]);
    (StSection SText, []); (StLabel (lit "start"), []); (StMovSym64 RSI (lit "msg"), [0x48; 0xBE; 0; 0; 0; 0; 0; 0; 0; 0]);
    (StInstr (PushI8 5), [0x6A; 5]); (StLabel (lit "fin"), []); (StInstr Ret, [0xC3]) ].
Ltac line_of := eapply line_is_of; [str|vm_compute; reflexivity| |cbn; unfold inu; repeat split; lia|];
  [cbn; try reflexivity; (split; [eexists; split; vm_compute; reflexivity|reflexivity])
  |cbn; first [reflexivity | eexists; split; vm_compute; reflexivity]].
Lemma grouped_sources p : sources_are p [utf8 (concat grouped_lines)] grouped_prog.
Proof.
  exists [grouped_prog]. split; [|cbn [concat]; now rewrite app_nil_r]. constructor; [|constructor].
  exists (map utf8 grouped_lines). split; [apply PfRun.raw_lines_iff; vm_compute; reflexivity|].
  unfold grouped_lines, grouped_prog. cbn [map].
  repeat first [apply Forall2_nil | apply Forall2_cons; [destruct p; line_of|]].
Qed.
Example C74_case : forall p, sources_are p [ex_source] ex_prog /\ sources_are p [utf8 (concat grouped_lines)] grouped_prog /\
  same_code ex_prog grouped_prog /\ session p [ex_source] (ex_state p).
Proof.
  intro p. split; [apply ex_sources|]. split; [apply grouped_sources|]. split; [|apply ex_session].
  split; [intros []; reflexivity|]. intro n. cbn. tauto.
Qed.

(** ** C75: consistently renaming labels changes nothing but their names *)
Theorem C75_renamed : forall p h ins ins' a a' pr f F F' loc,
  Forall bytes_ok ins -> Forall (fun i => ~ In 0 i) ins -> session p ins a -> sources_are p ins pr ->
  Forall bytes_ok ins' -> Forall (fun i => ~ In 0 i) ins' -> session p ins' a' -> sources_are p ins' (renamed f pr) ->
  injective_on f (names_in pr) -> small pr ->
  fits (object_of pr) -> zlen (syms (object_of pr)) <= 2 ^ 24 -> asm_write_into p h a = (F, true) ->
  fits (object_of (renamed f pr)) -> zlen (syms (object_of (renamed f pr))) <= 2 ^ 24 -> asm_write_into p h a' = (F', true) ->
  (forall s, s <> SBss -> out_bytes (during s SText pr) <> [] -> link h F' loc (ordinal pr s) = link h F loc (ordinal pr s)) /\
  (forall n, In n (names_in pr) -> lookup h F' loc (f n) = lookup h F loc n).
Proof. exact top_C75. Qed.
Print Assumptions C75_renamed.
Definition ex_rename (n : str) : str := lit "my_" ++ n.
Definition renamed_source : list Z := utf8 (
  lit "my_start:" ++ [10] ++ lit "  mov rsi, my_msg" ++ [10] ++ lit "section .data" ++ [10] ++
  lit "my_n dd 7" ++ [10] ++ lit "my_msg db ""Hi"", 10" ++ [10] ++ lit "section .text" ++ [10] ++
  lit "global my_start" ++ [10] ++ lit "  push 5" ++ [10] ++ lit "my_fin:" ++ [10] ++ lit "  ret").
Definition renamed_state (p : profile) : asm := match read_from p asm_new renamed_source with Done a => a | _ => asm_new end.
Lemma renamed_sources p : sources_are p [renamed_source] (renamed ex_rename ex_prog).
Proof.
  exists [renamed ex_rename ex_prog]. split; [|cbn [concat]; now rewrite app_nil_r]. constructor; [|constructor].
  exists (raw_lines renamed_source). split; [apply raw_lines_spec|].
  replace (raw_lines renamed_source) with (map utf8
    [ lit "my_start:" ++ [10]; lit "  mov rsi, my_msg" ++ [10]; lit "section .data" ++ [10]; lit "my_n dd 7" ++ [10];
      lit "my_msg db ""Hi"", 10" ++ [10]; lit "section .text" ++ [10]; lit "global my_start" ++ [10]; lit "  push 5" ++ [10];
      lit "my_fin:" ++ [10]; lit "  ret" ]) by (vm_compute; reflexivity).
  unfold renamed, ex_prog. cbn [map fst snd rename_stmt].
  repeat first [apply Forall2_nil | apply Forall2_cons; [destruct p; line_of|]].
Qed.
Example C75_case : forall p h,
  session p [renamed_source] (renamed_state p) /\ sources_are p [renamed_source] (renamed ex_rename ex_prog) /\
  injective_on ex_rename (names_in ex_prog) /\ fits (object_of (renamed ex_rename ex_prog)) /\
  snd (asm_write_into p h (renamed_state p)) = true /\
  link h (fst (asm_write_into p h (renamed_state p))) ex_loc 1 = link h (ex_file p h) ex_loc 1 /\
  lookup h (fst (asm_write_into p h (renamed_state p))) ex_loc (lit "my_start") = Some 0x1000.
Proof.
  intros p h.
  split; [apply (ses_read p [] asm_new); [constructor|]; destruct p; vm_compute; reflexivity|].
  split; [apply renamed_sources|]. split; [intros x y _ _ E; exact (app_inv_head _ _ _ E)|].
  split; [|destruct p, h; vm_compute; repeat split; reflexivity].
  split; [split; vm_compute; reflexivity|]. split; [vm_compute; reflexivity|]. 
  let t := constr:(syms (object_of (renamed ex_rename ex_prog))) in let v := eval vm_compute in t in replace t with v by (vm_compute; reflexivity).
  repeat (apply Forall_cons; [vm_compute; reflexivity|]). apply Forall_nil.
Qed.

(** ** C76: reading more text only adds to the object *)
Theorem C76_grows : forall p a input b, read_from p a input = Done b -> grows (as_obj a) (as_obj b).
Proof. exact top_C76. Qed.
Print Assumptions C76_grows.
Example C76_case : forall p, exists b, read_from p (ex_state p) (utf8 (lit "more:" ++ [10] ++ lit "global fin" ++ [10] ++ lit "ret")) = Done b /\
  bs_bytes (o_text (as_obj b)) = bs_bytes (o_text (as_obj (ex_state p))) ++ [0xC3] /\
  bs_symbols (o_text (as_obj b)) = [SyRef (lit "start") 0 true; SyRef (lit "fin") 12 true; SyRef (lit "more") 13 false].
Proof. intro p. eexists. split; [destruct p; vm_compute; reflexivity|]. destruct p; split; vm_compute; reflexivity. Qed.
