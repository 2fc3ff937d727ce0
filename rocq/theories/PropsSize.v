(** What the length of the source bounds. *)
From Coq Require String.
Import String.StringSyntax.
From Verif Require Import Base Str X64 SpecX86 Mac SpecMacho Obj SpecObj Asm SpecAsm SpecDiag Assembler SpecRun Cli SpecLink SpecSize PropsAsm PfStr PfRun2 PfLine2 PfMeta PfSize.

(** ** C90: sources up to 16 MiB need no further conditions on sizes *)
Theorem C90_bytes : forall p input pr, source_is p input pr -> zlen (out_bytes pr) <= 4 * zlen input.
Proof. exact top_C90_bytes. Qed.
Print Assumptions C90_bytes.
Theorem C90_sizes : forall p ins pr, sources_are p ins pr -> ordinary ins ->
  fits (object_of pr) /\ small pr /\ zlen (syms (object_of pr)) <= 2 ^ 24 /\ zlen pr <= 2 ^ 24 /\ forall p', size_ok p' pr.
Proof. exact top_C90_sizes. Qed.
Print Assumptions C90_sizes.
Theorem C90_status : forall p h args w cf i o src ls,
  config_init args = Done cf -> w_slot w (cf_input cf) = Some i ->
  w_data w i = Some src -> w_slot w (cf_output cf) = Some o -> i <> o -> bytes_ok src -> ~ In 0 src ->
  zlen src <= 2 ^ 24 -> source_lines src ls ->
  (status (snd (main p h args w)) = 0 <-> exists pr, runs p ls pr /\ linkable pr) /\
  (status (snd (main p h args w)) = 1 <->
    exists e good bad rest pr, ls = good ++ bad :: rest /\ runs p good pr /\ line_errors p pr bad e) /\
  (status (snd (main p h args w)) = 101 <->
    (exists good bad rest pr, ls = good ++ bad :: rest /\ runs p good pr /\ line_crashes p pr bad) \/
    (exists pr, runs p ls pr /\ ~ linkable pr)).
Proof. exact top_C90_status. Qed.
Print Assumptions C90_status.
Theorem C90_command : forall p h args w cf i o src,
  config_init args = Done cf -> w_slot w (cf_input cf) = Some i ->
  w_data w i = Some src -> w_slot w (cf_output cf) = Some o -> i <> o -> bytes_ok src -> ~ In 0 src ->
  zlen src <= 2 ^ 24 -> forall pr, sources_are p [src] pr -> status (snd (main p h args w)) = 0 ->
  exists f, w_data (fst (main p h args w)) o = Some f /\ zlen f <= 29 * zlen src + 296 /\ forall loc,
    (forall n, lookup h f loc n = if is_global pr n then label_addr loc pr n else None) /\
    (forall s, s <> SBss -> out_bytes (during s SText pr) <> [] ->
      exists bss, Forall2 (linked_stmt (label_addr loc pr)) (during s SText pr) bss /\ link h f loc (ordinal pr s) = Some (concat bss)).
Proof. exact top_C90_command. Qed.
Print Assumptions C90_command.
Theorem C90_builds : forall h args w cf i src ls,
  config_init args = Done cf -> w_slot w (cf_input cf) = Some i -> w_data w i = Some src ->
  bytes_ok src -> zlen src <= 2 ^ 24 -> source_lines src ls ->
  ~ (exists good bad rest pr, ls = good ++ bad :: rest /\ runs Debug good pr /\ overflowing bad) ->
  main Debug h args w = main Release h args w.
Proof. exact top_C90_builds. Qed.
Print Assumptions C90_builds.

(** 18 bytes of source, 64 bytes of data *)
Example C90_case_bytes : forall p, exists pr, source_is p (utf8 (lit "dq 1,1,1,1,1,1,1,1")) pr /\ zlen (out_bytes pr) = 64 /\
  zlen (utf8 (lit "dq 1,1,1,1,1,1,1,1")) = 18.
Proof.
  intro p. exists [(StData None (concat (repeat [1; 0; 0; 0; 0; 0; 0; 0] 8)), concat (repeat [1; 0; 0; 0; 0; 0; 0; 0] 8))].
  split; [|split; reflexivity]. exists [utf8 (lit "dq 1,1,1,1,1,1,1,1")]. split; [apply sl_last; [discriminate|vm_compute; intuition discriminate]|].
  constructor; [|constructor]. eapply line_is_of; [apply ascii_ok; reflexivity|destruct p; vm_compute; reflexivity|reflexivity|exact I|reflexivity].
Qed.
(** a run with a reference that nothing defines: both builds write the same part of a file *)
Definition dangling : list Z := utf8 (lit "nop_: " ++ [10] ++ lit "mov rax, 0x7FFFFFFF + 1" ++ [10] ++ lit "mov rbx, gone").
Example C90_case_builds : forall h,
  main Debug h [lit "at-asm"; lit "a.s"] (ex_world dangling []) = main Release h [lit "at-asm"; lit "a.s"] (ex_world dangling []) /\
  status (snd (main Debug h [lit "at-asm"; lit "a.s"] (ex_world dangling []))) = 101.
Proof.
  intro h. split; [|destruct h; vm_compute; reflexivity].
  apply (C90_builds h _ _ {| cf_output := lit "a.o"; cf_input := lit "a.s" |} 1 dangling
    [utf8 (lit "nop_: " ++ [10]); utf8 (lit "mov rax, 0x7FFFFFFF + 1" ++ [10]); utf8 (lit "mov rbx, gone")]); try reflexivity.
  - apply PropsAsm.bytes_dec. vm_compute. reflexivity.
  - apply Z.leb_le. vm_compute. reflexivity.
  - apply (sl_cons (lit "nop_: ") (utf8 (lit "mov rax, 0x7FFFFFFF + 1" ++ [10] ++ lit "mov rbx, gone"))); [vm_compute; intuition discriminate|].
    apply (sl_cons (lit "mov rax, 0x7FFFFFFF + 1") (lit "mov rbx, gone")); [vm_compute; intuition discriminate|].
    apply sl_last; [discriminate|vm_compute; intuition discriminate].
  - intros (good & bad & rest & pr & E & _ & s & body & d & o & ts & Eb & So & H).
    assert (P : line_parse Debug s = PPanic) by (apply line_panic; split; [reflexivity|]; exists body, d, o, ts; exact H).
    assert (In bad [utf8 (lit "nop_: " ++ [10]); utf8 (lit "mov rax, 0x7FFFFFFF + 1" ++ [10]); utf8 (lit "mov rbx, gone")]) as Ib by (rewrite E; apply in_elt).
    destruct Ib as [Q|[Q|[Q|[]]]]; rewrite Eb in Q; apply utf8_inj in Q; try exact So; try (apply ascii_ok; reflexivity); subst s; vm_compute in P; discriminate P.
Qed.
(** without the condition the builds can differ *)
Example C90_case_differ : forall h, let w := ex_world (utf8 (lit "mov rax, 0x7FFFFFFFFFFFFFFF + 1")) [] in
  status (snd (main Debug h [lit "at-asm"; lit "a.s"] w)) = 101 /\ status (snd (main Release h [lit "at-asm"; lit "a.s"] w)) = 0.
Proof. intros []; vm_compute; split; reflexivity. Qed.
(** an accepted source and the size of its file *)
Example C90_case : forall p h, let r := main p h [lit "at-asm"; lit "a.s"] (ex_world ex_source []) in
  status (snd r) = 0 /\ exists f, w_data (fst r) 2 = Some f /\ zlen f = 401 /\ zlen ex_source = 116.
Proof. intros [] []; vm_compute; (split; [reflexivity|]); eexists; repeat split. Qed.
