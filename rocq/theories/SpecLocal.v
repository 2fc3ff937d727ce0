(** Where a change of the contents shows: objects and sources that differ only in byte values. *)
From Verif Require Import Base Str X64 SpecX86 Obj SpecObj Asm SpecAsm.

(** the same object up to the values of the bytes in .text and .data *)
Definition same_shape (o o' : object) : Prop :=
  length (bs_bytes (o_text o)) = length (bs_bytes (o_text o')) /\
  length (bs_bytes (o_data o)) = length (bs_bytes (o_data o')) /\
  bs_symbols (o_text o) = bs_symbols (o_text o') /\ bs_symbols (o_data o) = bs_symbols (o_data o') /\
  bs_relocs (o_text o) = bs_relocs (o_text o') /\ bs_relocs (o_data o) = bs_relocs (o_data o') /\
  o_bss o = o_bss o'.
(** the contents, in the order of the file *)
Definition contents (o : object) : list Z := bs_bytes (o_text o) ++ bs_bytes (o_data o).
(** [f] and [f'] are the same except that from position [n] on [f] may have bytes of [d] where
    [f'] has those of [d'] *)
Definition overlaid (n : nat) (d d' f f' : list Z) : Prop :=
  length f = length f' /\
  forall i x y, nth_error f i = Some x -> nth_error f' i = Some y ->
    x = y \/ exists k, i = (n + k)%nat /\ nth_error d k = Some x /\ nth_error d' k = Some y.

(** two statements of the same size that define and mention the same names *)
Definition alike_stmt (x y : stmt * list Z) : Prop :=
  length (snd x) = length (snd y) /\ stmt_label (fst x) = stmt_label (fst y) /\
  stmt_reloc (fst x) = stmt_reloc (fst y) /\ stmt_writes (fst x) = stmt_writes (fst y) /\
  (forall s, fst x = StSection s <-> fst y = StSection s) /\
  (forall n, fst x = StGlobal n <-> fst y = StGlobal n).
(** where in the contents a statement after [pre], in the program [pr], has its bytes; a statement
    in .bss has none *)
Definition place_after (pre pr : prog) : nat :=
  match last_sect SText pre with
  | SText => length (out_bytes (during SText SText pre))
  | SData => length (out_bytes (during SText SText pr)) + length (out_bytes (during SData SText pre))
  | SBss => 0
  end.

Example alike_ex :
  alike_stmt (StData (Some [97]) [1; 2], [1; 2]) (StData (Some [97]) [3; 4], [3; 4]) /\
  ~ alike_stmt (StData (Some [97]) [1; 2], [1; 2]) (StData (Some [98]) [1; 2], [1; 2]) /\
  ~ alike_stmt (StData None [1], [1]) (StData None [1; 2], [1; 2]) /\
  ~ alike_stmt (StSection SText, []) (StSection SData, []) /\
  ~ alike_stmt (StGlobal [97], []) (StEmpty, []) /\
  ~ alike_stmt (StInstr (MovRI64 RAX 0), [0]) (StMovSym64 RAX [97], [0]) /\
  overlaid 2 [5; 6] [5; 7] [0; 0; 5; 6; 1] [0; 0; 5; 7; 1] /\ ~ overlaid 2 [5; 6] [5; 7] [0; 0; 5; 6; 1] [0; 0; 5; 7; 2].
Proof.
  repeat match goal with |- _ /\ _ => split end.
  - repeat split; discriminate.
  - intros (_ & E & _). discriminate.
  - intros (E & _). discriminate.
  - intros (_ & _ & _ & _ & E & _). discriminate (proj1 (E SText) eq_refl).
  - intros (_ & _ & _ & _ & _ & E). discriminate (proj1 (E [97]) eq_refl).
  - intros (_ & _ & E & _). discriminate.
  - split; [reflexivity|]. intros i x y. destruct i as [|[|[|[|[|[|i]]]]]]; cbn; intros A B;
      try (left; congruence). right. exists 1%nat. cbn. repeat split; congruence.
  - intros (_ & E). destruct (E 4%nat 1 2 eq_refl eq_refl) as [D|(k & Ek & K & _)]; [discriminate|].
    assert (k = 2%nat) by lia. subst k. discriminate.
Qed.
