(** What a relocatable file keeps of an object. *)
From Verif Require Import Base Str Obj SpecObj.

Definition defined (y : symbol) : bool := match y with SyUndef _ => false | _ => true end.
(** the same section, as far as a file goes: undefined symbols belong to no section *)
Definition same_section (s t : osec) : Prop :=
  os_seg s = os_seg t /\ os_name s = os_name t /\ os_size s = os_size t /\ os_bytes s = os_bytes t /\
  os_zerofill s = os_zerofill t /\ os_code s = os_code t /\ os_rels s = os_rels t /\
  filter defined (os_syms s) = filter defined (os_syms t).
(** the symbols of the non-empty sections, in order *)
Definition all_syms (o : object) : list symbol := flat_map os_syms (secs o).
Definition same_object (a b : object) : Prop :=
  Forall2 same_section (secs a) (secs b) /\ all_syms a = all_syms b.

(** two sources give the same output: the same bytes in each section and, where there are any, the
    same labels at the same places with the same visibility and the same references *)
From Verif Require Import Asm SpecAsm.
Definition same_output (a b : prog) : Prop :=
  forall s, s <> SBss ->
  let l := during s SText a in let m := during s SText b in
  out_bytes l = out_bytes m /\
  (out_bytes l <> [] ->
   out_labels 0 l = out_labels 0 m /\ out_relocs 0 l = out_relocs 0 m /\
   forall n off, In (n, off) (out_labels 0 l) -> is_global a n = is_global b n).
