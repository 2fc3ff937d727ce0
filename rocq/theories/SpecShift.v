(** What inserting a line moves. *)
From Verif Require Import Base Str X64 SpecX86 Obj SpecObj Asm SpecAsm.

(** a statement that names nothing and changes no section: data without a label, an instruction
    without a symbol, an empty line *)
Definition nameless (x : stmt * list Z) : Prop :=
  stmt_label (fst x) = None /\ stmt_reloc (fst x) = None /\
  (forall s, fst x <> StSection s) /\ (forall n, fst x <> StGlobal n).
Definition move_symbol (k : Z) (y : symbol) : symbol :=
  match y with SyRef n a e => SyRef n (a + k) e | _ => y end.
Definition move_reloc (k : Z) (r : reloc) : reloc :=
  {| rl_addr := rl_addr r + k; rl_symbol := rl_symbol r; rl_pcrel := rl_pcrel r; rl_len := rl_len r |}.
Definition sym_at (y : symbol) (P : Z -> Prop) : Prop :=
  match y with SyRef _ a _ => P a | _ => True end.
(** [s'] is [s] with [d] inserted at offset [i]: what is before stays, what is after moves *)
Definition inserted (i : Z) (d : list Z) (s s' : bsection) : Prop :=
  exists A B S1 S2 R1 R2,
    zlen A = i /\ bs_bytes s = A ++ B /\ bs_bytes s' = A ++ d ++ B /\
    bs_symbols s = S1 ++ S2 /\ bs_symbols s' = S1 ++ map (move_symbol (zlen d)) S2 /\
    Forall (fun y => sym_at y (fun a => a <= i)) S1 /\ Forall (fun y => sym_at y (fun a => i <= a)) S2 /\
    bs_relocs s = R1 ++ R2 /\ bs_relocs s' = R1 ++ map (move_reloc (zlen d)) R2 /\
    Forall (fun r => rl_addr r + 2 ^ rl_len r <= i) R1 /\ Forall (fun r => i <= rl_addr r) R2.
Definition sect_part (s : sect) (o : object) : bsection :=
  match s with SText => o_text o | SData => o_data o | SBss => bsection_new end.

Example inserted_ex :
  inserted 1 [9; 9] {| bs_bytes := [1; 2]; bs_symbols := [SyRef [97] 0 false; SyRef [98] 1 false]; bs_relocs := [] |}
    {| bs_bytes := [1; 9; 9; 2]; bs_symbols := [SyRef [97] 0 false; SyRef [98] 3 false]; bs_relocs := [] |} /\
  ~ inserted 1 [9; 9] {| bs_bytes := [1; 2]; bs_symbols := [SyRef [97] 0 false]; bs_relocs := [] |}
    {| bs_bytes := [1; 9; 9; 2]; bs_symbols := [SyRef [97] 2 false]; bs_relocs := [] |} /\
  nameless (StData None [1], [1]) /\ ~ nameless (StData (Some [97]) [1], [1]) /\ ~ nameless (StMovSym64 RAX [97], []) /\
  ~ nameless (StGlobal [97], []) /\ ~ nameless (StSection SText, []).
Proof.
  split.
  { exists [1], [2], [SyRef [97] 0 false], [SyRef [98] 1 false], [], []. repeat split; repeat constructor; cbn; lia. }
  split.
  { intros (A & B & S1 & S2 & R1 & R2 & LA & _ & _ & E1 & E2 & F1 & F2 & _). cbn [bs_symbols] in *.
    destruct S1 as [|y S1]; cbn [app] in *.
    - subst S2. inversion F2 as [|? ? K]. cbn in K. lia.
    - injection E1 as <- _. discriminate. }
  split; [repeat split; discriminate|].
  split; [intros (E & _); discriminate|]. split; [intros (_ & E & _); discriminate|].
  split; [intros (_ & _ & _ & E); now apply (E [97])|intros (_ & _ & E & _); now apply (E SText)].
Qed.
