(** Property theorems for the standard form of statements and sources and for the objects that
    can be assembled: C88, C89. *)
From Coq Require String.
Import String.StringSyntax.
From Coq Require Import Sorted.
From Verif Require Import Base Str X64 SpecX86 Obj Asm SpecAsm Assembler SpecRun SpecForm PropsAsm PfAsm PfDiag PfForm PfForm2.

(** ** C88: every statement has a standard spelling and every source a standard form *)

(** the statements of lines are exactly these *)
Theorem C88_sayable : forall p st,
  (exists s body, str_ok s /\ one_line s /\ line_text s body /\ accepts p body st) <-> sayable st.
Proof. exact top_C88_sayable. Qed.
Print Assumptions C88_sayable.

(** each has one standard spelling, a line that is read as this statement by every build *)
Theorem C88_spelling : forall st, sayable st ->
  exists s, spells st s /\ (forall s', spells st s' -> s' = s) /\ line_chars s /\ forall p, accepts p s st.
Proof. exact top_C88_spelling. Qed.
Print Assumptions C88_spelling.

(** different statements are spelled differently *)
Theorem C88_unique : forall st st' s, sayable st -> sayable st' -> spells st s -> spells st' s -> st = st'.
Proof. exact top_C88_unique. Qed.
Print Assumptions C88_unique.

(** every source has one standard form, with the same statements for every build *)
Theorem C88_source : forall p input pr, source_is p input pr ->
  exists src, standard pr src /\ (forall src', standard pr src' -> src' = src) /\ bytes_ok src /\
    forall p', source_is p' src pr.
Proof. exact top_C88_source. Qed.
Print Assumptions C88_source.

(** reading the standard form ends in the same state, also with the other build if the sizes allow it *)
Theorem C88_run : forall p input a, bytes_ok input -> read_from p asm_new input = Done a ->
  exists pr src, source_is p input pr /\ standard pr src /\ bytes_ok src /\ read_from p asm_new src = Done a /\
    forall p', size_ok p' pr -> read_from p' asm_new src = Done a.
Proof. exact top_C88_run. Qed.
Print Assumptions C88_run.

(** ** C89: the objects that can be assembled *)

(** some source gives the object iff it has this shape *)
Theorem C89_image : forall p o, countable o -> (assembles p o <-> producible o).
Proof. exact top_C89_image. Qed.
Print Assumptions C89_image.

(** the number of symbols does not matter for what is excluded *)
Theorem C89_shape : forall p o, assembles p o ->
  zlen (bs_bytes (o_text o)) < 2 ^ 31 -> zlen (bs_bytes (o_data o)) < 2 ^ 31 -> producible o.
Proof. exact top_C89_shape. Qed.
Print Assumptions C89_shape.

(** ** Examples *)

Ltac lns := match goal with |- line_chars _ => apply line_chars_dec; vm_compute; reflexivity end.
Ltac dcm := match goal with |- decimal ?n _ => exact (show_decimal n ltac:(split; [discriminate|reflexivity])) end.

(** the standard form of the source of the other examples *)
Definition ex_standard : list Z := utf8 (
  lit "start:" ++ [10] ++ lit "mov rsi, msg" ++ [10] ++ lit "section .data" ++ [10] ++
  lit "n db 7, 0, 0, 0" ++ [10] ++ lit "msg db 72, 105, 10" ++ [10] ++ lit "section .text" ++ [10] ++
  lit "global start" ++ [10] ++ lit "push 5" ++ [10] ++ lit "fin:" ++ [10] ++ lit "ret" ++ [10]).
Example C88_ex_standard : standard ex_prog ex_standard /\
  forall p, read_from p asm_new ex_standard = read_from p asm_new ex_source.
Proof.
  split; [|intros []; vm_compute; reflexivity].
  exists [ lit "start:"; lit "mov rsi, msg"; lit "section .data"; lit "n db 7, 0, 0, 0"; lit "msg db 72, 105, 10"; lit "section .text";
    lit "global start"; lit "push 5"; lit "fin:"; lit "ret" ].
  split; [|vm_compute; reflexivity]. unfold ex_prog. repeat apply Forall2_cons; [| | | | | | | | | |apply Forall2_nil]; cbn [fst].
  - exact (sp_label (lit "start")).
  - exact (sp_sym64 RSI (lit "msg")).
  - exact (sp_section SData).
  - apply (sp_data_label (lit "n") [7; 0; 0; 0] (lit "7, 0, 0, 0")). apply (bt_more 7 0 [0; 0] (lit "7") (lit "0, 0, 0")); [dcm|].
    apply (bt_more 0 0 [0] (lit "0") (lit "0, 0")); [dcm|]. apply (bt_more 0 0 [] (lit "0") (lit "0")); [dcm|]. apply bt_one. dcm.
  - apply (sp_data_label (lit "msg") [72; 105; 10] (lit "72, 105, 10")). apply (bt_more 72 105 [10] (lit "72") (lit "105, 10")); [dcm|].
    apply (bt_more 105 10 [] (lit "105") (lit "10")); [dcm|]. apply bt_one. dcm.
  - exact (sp_section SText).
  - exact (sp_global (lit "start")).
  - apply (sp_push8 5 (lit "5")). dcm.
  - exact (sp_label (lit "fin")).
  - exact sp_ret.
Qed.
(** one text may spell several statements, of which only one can be written *)
Example C88_ex_spellings : spells (StGlobal (lit "x:")) (lit "global x:") /\ spells (StLabel (lit "global x")) (lit "global x:") /\
  sayable (StGlobal (lit "x:")) /\ ~ sayable (StLabel (lit "global x")).
Proof.
  split; [exact (sp_global (lit "x:"))|]. split; [exact (sp_label (lit "global x"))|]. split.
  - split; [lns|]. split; [discriminate|]. repeat (constructor; [not_in|]). constructor.
  - intros (_ & F & _). rewrite Forall_forall in F. apply (F 32); [is_in|is_in].
Qed.
(** no label of data has these names, no byte is 256, small pushes are short, and registers and expressions are not symbols *)
Example C88_ex_not : ~ sayable (StData (Some (lit "global")) [1]) /\ ~ sayable (StData (Some (lit "dw")) [1]) /\
  ~ sayable (StData None [256]) /\ ~ sayable (StInstr (PushI32 255)) /\ sayable (StInstr (PushI8 255)) /\
  ~ sayable (StMovSym64 RAX (lit "rbx")) /\ ~ sayable (StMovSym64 RAX (lit "1 + 1")).
Proof.
  split; [intros (_ & _ & _ & _ & H & _); now apply H|]. split; [intros (_ & _ & _ & _ & _ & H); now apply (H DW)|].
  split; [intros (H & _); apply Forall_inv in H; unfold isbyte in H; lia|]. split; [cbn; lia|]. split; [cbn; lia|].
  split; [intros (_ & _ & _ & H); now apply (H RBX)|]. intros (_ & _ & H & _). apply (expr_none Debug) in H. vm_compute in H. discriminate H.
Qed.

(** `f: mov rax, x` with an external f and a local x at the end, and data *)
Definition obj_of (n : Z) (e : bool) : object :=
  {| o_text := {| bs_bytes := [0x48; 0xB8; 0; 0; 0; 0; 0; 0; 0; 0]; bs_symbols := [SyRef (lit "f") n e; SyRef (lit "x") 10 false];
                  bs_relocs := [{| rl_addr := 2; rl_symbol := lit "x"; rl_pcrel := false; rl_len := 3 |}] |};
     o_data := {| bs_bytes := [1]; bs_symbols := []; bs_relocs := [] |};
     o_bss := {| bss_size := 0; bss_symbols := [SyRef (lit "f") 0 true] |} |}.
Lemma obj_countable n e : countable (obj_of n e).
Proof. repeat split; reflexivity. Qed.
Ltac nm := match goal with |- label_name _ => split; [lns|]; split; [repeat (constructor; [not_in|]); constructor|nolbl] end.
Example C89_ex_yes : forall p, assembles p (obj_of 0 true).
Proof.
  intro p. apply (C89_image p _ (obj_countable 0 true)).
  assert (M : mov_at (bs_bytes (o_text (obj_of 0 true))) {| rl_addr := 2; rl_symbol := lit "x"; rl_pcrel := false; rl_len := 3 |}).
  { split; [reflexivity|]. exists [], [0x48; 0xB8], []. split; [reflexivity|]. split; [reflexivity|]. left. split; [reflexivity|]. split.
    - split; [lns|]. split; [split; not_in|]. split; [apply (expr_none Debug); vm_compute; reflexivity|]. intros []; vm_compute; discriminate.
    - exists 0x48, 0xB8. split; [reflexivity|]. split; [now left|]. lia. }
  split; [|split; [|split; [|split]]].
  - split; [apply bytes_dec; vm_compute; reflexivity|]. split; [constructor; [exact M|constructor]|]. split; [repeat constructor|].
    split; [|repeat constructor; cbn; lia].
    constructor; [|constructor; [|constructor]]; cbn [label_at]; (split; [nm|]); (split; [vm_compute; split; discriminate|]); (constructor; [|constructor]); unfold mov_start, mov_end; cbn; lia.
  - split; [apply bytes_dec; vm_compute; reflexivity|]. repeat constructor.
  - reflexivity.
  - constructor; [|constructor]. cbn [label_at]. split; [nm|]. split; [lia|constructor].
  - exists (fun n => match n with [102] => true | _ => false end). split; [reflexivity|]. repeat constructor.
Qed.
(** a label inside the instruction cannot be; nor a name that is external in one section only *)
Example C89_ex_no : forall p, ~ assembles p (obj_of 5 true) /\ ~ assembles p (obj_of 0 false).
Proof.
  intro p. split; intro A; apply (C89_image p _ (obj_countable _ _)) in A.
  - destruct A as ((_ & _ & _ & F & _) & _). apply Forall_inv in F. destruct F as (_ & _ & F). apply Forall_inv in F. unfold mov_start, mov_end in F. cbn in F. lia.
  - destruct A as (_ & _ & _ & _ & ext & _ & F). cbn in F. inversion F as [|? ? E1 F1]; subst. inversion F1 as [|? ? _ F2]; subst. inversion F2 as [|? ? E2 _]; subst.
    congruence.
Qed.
