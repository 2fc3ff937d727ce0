(** Relations between two sources, for stating that an edit of a source does not matter. *)
From Verif Require Import Base Str X64 Obj Asm SpecAsm Assembler Cli.

(** two lines that differ only in white space at the ends of their text and in comments *)
Definition restyled (l l' : list Z) : Prop :=
  exists s s' b w1 w2 w1' w2', l = utf8 s /\ l' = utf8 s' /\ str_ok s /\ str_ok s' /\
    blank w1 /\ blank w2 /\ blank w1' /\ blank w2' /\
    line_text s (w1 ++ b ++ w2) /\ line_text s' (w1' ++ b ++ w2').
(** [ls'] is [ls] with lines restyled, and with lines added and removed that are blank up to
    a comment *)
Inductive edited : list (list Z) -> list (list Z) -> Prop :=
| ed_nil : edited [] []
| ed_same : forall l ls ls', edited ls ls' -> edited (l :: ls) (l :: ls')
| ed_style : forall l l' ls ls', restyled l l' -> edited ls ls' -> edited (l :: ls) (l' :: ls')
| ed_more : forall s w ls ls', str_ok s -> line_text s w -> blank w -> edited ls ls' -> edited ls (utf8 s :: ls')
| ed_less : forall s w ls ls', str_ok s -> line_text s w -> blank w -> edited ls ls' -> edited (utf8 s :: ls) ls'.

(** the same world, but with [src'] in place of [src] in slot [i] *)
Definition same_but (i : Z) (src src' : list Z) (w w' : world) : Prop :=
  w_slot w' = w_slot w /\ w_data w i = Some src /\ w_data w' i = Some src' /\
  forall k, k <> i -> w_data w' k = w_data w k.

(** the statements of a section that put something into it *)
Definition contributes (st : stmt) : bool :=
  stmt_writes st || match stmt_label st with Some _ => true | None => false end.
Definition code (s : sect) (pr : prog) : prog := filter (fun x => contributes (fst x)) (during s SText pr).
(** the same code in each section and the same global names, however it is interleaved *)
Definition same_code (pr pr' : prog) : Prop :=
  (forall s, code s pr = code s pr') /\ forall n, In n (globals pr) <-> In n (globals pr').

(** the names a statement mentions, and a statement with every name changed *)
Definition stmt_names (st : stmt) : list str :=
  match st with
  | StLabel n | StGlobal n | StData (Some n) _ | StMovSym64 _ n | StMovSym32 _ n => [n]
  | _ => []
  end.
Definition rename_stmt (f : str -> str) (st : stmt) : stmt :=
  match st with
  | StLabel n => StLabel (f n)
  | StGlobal n => StGlobal (f n)
  | StData (Some n) b => StData (Some (f n)) b
  | StMovSym64 r n => StMovSym64 r (f n)
  | StMovSym32 r n => StMovSym32 r (f n)
  | _ => st
  end.
Definition renamed (f : str -> str) (pr : prog) : prog := map (fun x => (rename_stmt f (fst x), snd x)) pr.
Definition names_in (pr : prog) : list str := flat_map (fun x => stmt_names (fst x)) pr.
Definition injective_on (f : str -> str) (l : list str) : Prop :=
  forall a b, In a l -> In b l -> f a = f b -> a = b.

(** [y'] is [y], possibly made external *)
Definition same_symbol (y y' : symbol) : Prop :=
  match y, y' with
  | SyRef n a e, SyRef n' a' e' => n' = n /\ a' = a /\ (e = true -> e' = true)
  | SyAbs n v e, SyAbs n' v' e' => n' = n /\ v' = v /\ (e = true -> e' = true)
  | SyUndef n, SyUndef n' => n' = n
  | _, _ => False
  end.
(** [l'] is [l] with the [new] ones added at the end *)
Definition extends (s s' : bsection) : Prop :=
  (exists new, bs_bytes s' = bs_bytes s ++ new) /\ (exists new, bs_relocs s' = bs_relocs s ++ new) /\
  exists old new, bs_symbols s' = old ++ new /\ Forall2 same_symbol (bs_symbols s) old.
Definition grows (o o' : object) : Prop :=
  extends (o_text o) (o_text o') /\ extends (o_data o) (o_data o') /\
  bss_size (o_bss o') = bss_size (o_bss o) /\
  exists old new, bss_symbols (o_bss o') = old ++ new /\ Forall2 same_symbol (bss_symbols (o_bss o)) old.
