(** What a relocatable Mach-O file for an object must contain, by absolute position:
    independent of the writer.  Only the data types of Obj.v are used. *)
From Coq Require String.
Import String.StringSyntax.
From Verif Require Import Base Str Mac Obj SpecMacho.

(** ** The sections of an object *)
Record osec := {
  os_seg : str;              (* segment name *)
  os_name : str;             (* section name *)
  os_size : Z;               (* size in memory *)
  os_bytes : list Z;         (* contents in the file *)
  os_zerofill : bool;
  os_code : bool;
  os_syms : list symbol;
  os_rels : list reloc
}.
Definition text_sec (o : object) : osec :=
  {| os_seg := lit "__TEXT"; os_name := lit "__text"; os_size := zlen (bs_bytes (o_text o));
     os_bytes := bs_bytes (o_text o); os_zerofill := false; os_code := true;
     os_syms := bs_symbols (o_text o); os_rels := bs_relocs (o_text o) |}.
Definition data_sec (o : object) : osec :=
  {| os_seg := lit "__DATA"; os_name := lit "__data"; os_size := zlen (bs_bytes (o_data o));
     os_bytes := bs_bytes (o_data o); os_zerofill := false; os_code := false;
     os_syms := bs_symbols (o_data o); os_rels := bs_relocs (o_data o) |}.
Definition bss_sec (o : object) : osec :=
  {| os_seg := lit "__DATA"; os_name := lit "__bss"; os_size := bss_size (o_bss o);
     os_bytes := []; os_zerofill := true; os_code := false;
     os_syms := bss_symbols (o_bss o); os_rels := [] |}.
(** the non-empty ones, in order *)
Definition secs (o : object) : list osec :=
  filter (fun s => 0 <? os_size s) [text_sec o; data_sec o; bss_sec o].

(** with ordinal (from 1) and address (from 0, consecutive) *)
Fixpoint place (k : nat) (a : Z) (ss : list osec) : list (nat * Z * osec) :=
  match ss with
  | [] => []
  | s :: ss' => (k, a, s) :: place (S k) (a + os_size s) ss'
  end.
Definition placed (o : object) : list (nat * Z * osec) := place 1 0 (secs o).
Definition vm_total (o : object) : Z := fold_right Z.add 0 (map os_size (secs o)).

(** symbols of the non-empty sections, with their section's ordinal and address *)
Definition syms (o : object) : list (nat * Z * symbol) :=
  flat_map (fun '(k, a, s) => map (fun y => (k, a, y)) (os_syms s)) (placed o).
Definition names (o : object) : list str := map (fun '(_, _, y) => sym_name y) (syms o).
Definition rels (o : object) : list reloc := flat_map os_rels (secs o).

(** ** The file's regions *)
Definition round8 (n : nat) : nat := 8 * ((n + 7) / 8).
Definition data_len (o : object) : nat := length (flat_map os_bytes (secs o)).
Definition names_len (o : object) : nat := length (flat_map (fun s => utf8 s ++ [0]) (names o)).
Definition pos_sections : nat := 32 + 72.
Definition pos_symtab (o : object) : nat := pos_sections + 80 * length (secs o).
Definition pos_data (o : object) : nat := pos_symtab o + 24.
Definition pos_rels (o : object) : nat := pos_data o + round8 (data_len o).
Definition pos_syms (o : object) : nat := pos_rels o + 8 * length (rels o).
Definition pos_strs (o : object) : nat := pos_syms o + 16 * length (syms o).
Definition file_len (o : object) : nat := pos_strs o + 1 + names_len o.

(** ** Which objects *)
Definition symbol_rng (y : symbol) : Prop :=
  str_ok (sym_name y) /\
  match y with SyUndef _ => True | SyAbs _ v _ => inu 64 v | SyRef _ a _ => inu 64 a end.
Definition oreloc_rng (r : reloc) : Prop :=
  ini 32 (rl_addr r) /\ str_ok (rl_symbol r) /\ inu 8 (rl_len r).
(** every field is a value of its Rust type *)
Definition object_rng (o : object) : Prop :=
  bytes_ok (bs_bytes (o_text o)) /\ bytes_ok (bs_bytes (o_data o)) /\ inu 64 (bss_size (o_bss o)) /\
  Forall symbol_rng (bs_symbols (o_text o)) /\ Forall symbol_rng (bs_symbols (o_data o)) /\
  Forall symbol_rng (bss_symbols (o_bss o)) /\
  Forall oreloc_rng (bs_relocs (o_text o)) /\ Forall oreloc_rng (bs_relocs (o_data o)).
(** every position and size the file records is below 4 GiB (the last position is that of the
    strings), addresses are below 2^64 *)
Definition fits (o : object) : Prop :=
  (Z.of_nat (pos_strs o) < 2 ^ 32 /\ 1 + Z.of_nat (names_len o) < 2 ^ 32) /\ vm_total o < 2 ^ 64 /\
  Forall (fun '(_, a, y) => match y with SyRef _ off _ => a + off < 2 ^ 64 | _ => True end) (syms o).
(** every single section, relocation table, symbol table and name is below 4 GiB *)
Definition parts_small (o : object) : Prop :=
  Forall (fun s => zlen (os_bytes s) < 2 ^ 32 /\ zlen (os_rels s) < 2 ^ 32 /\ zlen (os_syms s) < 2 ^ 32) (secs o) /\
  Forall (fun n => zlen (utf8 n) < 2 ^ 32) (names o).
(** names are NUL-free ASCII *)
Definition clean_names (o : object) : Prop := Forall clean (names o).

(** what a string-table lookup of a symbol's entry gives: a name containing NUL cannot be
    represented and reads as the empty string *)
Definition resolved (s : str) : str := if existsb (fun c => c =? 0) s then [] else s.
(** the object can be represented *)
Definition representable (o : object) : Prop :=
  Forall (Forall (fun c => c < 128)) (names o) /\
  Forall (fun r => rl_len r <= 3 /\ In (rl_symbol r) (map resolved (names o))) (rels o).

(** kind of symbol-table entry *)
Definition n_type_of (y : symbol) : n_type_field :=
  match y with
  | SyUndef _ => Norm false Undf true
  | SyAbs _ _ ext => Norm false Abs ext
  | SyRef _ _ ext => Norm false Sect ext
  end.
(** section ordinal the code writes: 0 for undefined symbols *)
Definition n_sect_of (k : nat) (y : symbol) : Z :=
  match y with SyUndef _ => 0 | _ => Z.of_nat k end.
(** address of a symbol of a section placed at [a] *)
Definition n_value_of (a : Z) (y : symbol) : Z :=
  match y with SyUndef _ => 0 | SyAbs _ v _ => v | SyRef _ off _ => a + off end.
Definition reloc_len_of (n : Z) : reloc_length :=
  if n =? 0 then LenByte else if n =? 1 then LenWord else if n =? 2 then LenLong else LenQuad.

(** an object with one section of given contents *)
Definition big_object (bs : list Z) : object :=
  {| o_text := {| bs_bytes := bs; bs_symbols := []; bs_relocs := [] |};
     o_data := bsection_new; o_bss := bss_new |}.
