(** Property theorems for what a written file keeps of an object: C87. *)
From Coq Require String.
Import String.StringSyntax.
From Verif Require Import Base Str X64 Mac SpecMacho Obj SpecObj Asm SpecAsm Assembler SpecRun SpecLoss PropsObj PropsAsm PropsLink PfLoss.

(** ** C87: a written file determines what was written *)

(** the same file comes only from objects with the same sections, contents, symbols and references,
    on hosts of the same byte order *)
Theorem C87_lossless : forall p q h h' a b f,
  object_rng a -> fits a -> clean_names a -> zlen (syms a) <= 2 ^ 24 -> macho_write_into p h a = (f, true) ->
  object_rng b -> fits b -> clean_names b -> zlen (syms b) <= 2 ^ 24 -> macho_write_into q h' b = (f, true) ->
  h = h' /\ same_object a b.
Proof. exact top_C87_lossless. Qed.
Print Assumptions C87_lossless.

(** and such objects give the same file, or fail in the same way *)
Theorem C87_keeps : forall p q h a b, object_rng a -> fits a -> object_rng b -> fits b -> same_object a b ->
  macho_write_into p h a = macho_write_into q h b.
Proof. exact top_C87_keeps. Qed.
Print Assumptions C87_keeps.

(** sources give the same file iff they have the same output *)
Theorem C87_sources : forall p q h ins ins' x y a b f g,
  Forall bytes_ok ins -> Forall (fun i => ~ In 0 i) ins -> session p ins x -> sources_are p ins a ->
  fits (object_of a) -> small a -> zlen (syms (object_of a)) <= 2 ^ 24 -> asm_write_into p h x = (f, true) ->
  Forall bytes_ok ins' -> Forall (fun i => ~ In 0 i) ins' -> session q ins' y -> sources_are q ins' b ->
  fits (object_of b) -> small b -> zlen (syms (object_of b)) <= 2 ^ 24 -> asm_write_into q h y = (g, true) ->
  (f = g <-> same_output a b).
Proof. exact top_C87_sources. Qed.
Print Assumptions C87_sources.

(** ** Examples *)
Definition und (t d : list symbol) : object :=
  {| o_text := {| bs_bytes := [0xC3]; bs_symbols := SyRef (lit "f") 0 true :: t; bs_relocs := [] |};
     o_data := {| bs_bytes := [1; 2]; bs_symbols := d ++ [SyRef (lit "v") 1 false]; bs_relocs := [] |};
     o_bss := bss_new |}.
(** an undefined symbol may have stood in either section: the file does not say *)
Example C87_ex_undef : und [SyUndef (lit "x")] [] <> und [] [SyUndef (lit "x")] /\
  same_object (und [SyUndef (lit "x")] []) (und [] [SyUndef (lit "x")]) /\
  forall p h, macho_write_into p h (und [SyUndef (lit "x")] []) = macho_write_into p h (und [] [SyUndef (lit "x")]).
Proof.
  split; [discriminate|]. split; [|intros [] []; vm_compute; reflexivity].
  split; [|reflexivity]. unfold same_section. repeat constructor.
Qed.
(** a defined one is seen *)
Example C87_ex_def : ~ same_object (und [SyAbs (lit "x") 0 true] []) (und [] [SyAbs (lit "x") 0 true]) /\
  forall p h, macho_write_into p h (und [SyAbs (lit "x") 0 true] []) <> macho_write_into p h (und [] [SyAbs (lit "x") 0 true]).
Proof.
  split; [|intros [] []; vm_compute; discriminate]. intros [F _]. inversion F as [|? ? ? ? S _]; subst.
  destruct S as (_ & _ & _ & _ & _ & _ & _ & S). discriminate S.
Qed.
(** the object of the other examples meets the conditions *)
Example C87_ex_conditions : object_rng ex_object /\ fits ex_object /\ clean_names ex_object /\ zlen (syms ex_object) <= 2 ^ 24 /\
  forall p h, snd (macho_write_into p h ex_object) = true.
Proof.
  destruct ex_object_ok as (R & F & C & _). repeat (split; [assumption|]). split; [vm_compute; discriminate|]. intros [] []; vm_compute; reflexivity.
Qed.
(** the data section written after the text section *)
Definition ex_prog2 : prog :=
  [ (StGlobal (lit "start"), []); (StLabel (lit "start"), []); (StMovSym64 RSI (lit "msg"), [0x48; 0xBE; 0; 0; 0; 0; 0; 0; 0; 0]);
    (StInstr (PushI8 5), [0x6A; 5]); (StLabel (lit "fin"), []); (StInstr Ret, [0xC3]); (StSection SData, []);
    (StData (Some (lit "n")) [7; 0; 0; 0], [7; 0; 0; 0]); (StData (Some (lit "msg")) [72; 105; 10], [72; 105; 10]) ].
Example C87_ex_output : same_output ex_prog ex_prog2 /\ ex_prog <> ex_prog2.
Proof.
  split; [|discriminate]. intros s Ns. destruct s; [| |congruence]; (split; [reflexivity|intros _; split; [reflexivity|split; [reflexivity|]]]);
    intros n off I; vm_compute in I; repeat (destruct I as [I|I]; [injection I as <- _; reflexivity|]); destruct I.
Qed.
(** without `global start`, the file is another *)
Example C87_ex_local : ~ same_output ex_prog (filter (fun x => match fst x with StGlobal _ => false | _ => true end) ex_prog).
Proof.
  intro H. destruct (H SText ltac:(discriminate)) as [_ G]. destruct (G ltac:(discriminate)) as (_ & _ & K).
  specialize (K (lit "start") 0 (or_introl eq_refl)). discriminate K.
Qed.
