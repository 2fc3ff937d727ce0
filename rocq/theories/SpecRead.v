(** Load commands as a reader meets them: what is accepted, what sequences of commands are, and
    what writing an accepted command again should give. *)
From Coq Require Import Sorting.Sorted.
From Verif Require Import Base Str Mac SpecMacho.

(** commands that may be returned: LC_SEGMENT_64 0x19, LC_SYMTAB 2, LC_DYSYMTAB 0xB,
    LC_BUILD_VERSION 0x32, each of the size its counts say, with as many records as it counts *)
Definition lc_accepted (p : profile) (c : load_command) : Prop :=
  match c with
  | LcSegment64 s ss =>
      str_ok (sg_segname s) /\ sg_cmd s = 0x19 /\ cmdsize_ok p 72 80 (sg_nsects s) (sg_cmdsize s) /\
      sg_nsects s = zlen ss /\
      Forall (fun x => str_ok (sc_sectname x) /\ str_ok (sc_segname x) /\
                       StronglySorted Z.lt (map attr_bit (sc_attrs x))) ss
  | LcSymtab s => st_cmd s = 2 /\ st_cmdsize s = 24
  | LcDysymtab s => dy_cmd s = 0xB /\ dy_cmdsize s = 80
  | LcBuildVersion b ts =>
      version_rng (bv_minos b) /\ version_rng (bv_sdk b) /\ bv_cmd b = 0x32 /\
      cmdsize_ok p 24 8 (bv_ntools b) (bv_cmdsize b) /\ bv_ntools b = zlen ts
  end.
(** commands one after the other from offset [o], ending at offset [o'] *)
Inductive lcs_at (p : profile) (e : endian) (l : list Z) : nat -> list load_command -> nat -> Prop :=
| la_none o : lcs_at p e l o [] o
| la_one o c cs o' : lc_at e o l c -> lc_accepted p c -> lcs_at p e l (o + lc_len c) cs o' -> lcs_at p e l o (c :: cs) o'.

(** a name field written again: what is left of it after the first NUL becomes zeros *)
Definition tidy (f : list Z) : list Z := until_nul f ++ repeat 0 (length f - length (until_nul f)).
Definition ascii_field (f : list Z) : Prop := Forall (fun b => b < 128) (until_nul f).
(** offsets of the 16-byte name fields of a command *)
Definition name_fields (c : load_command) : list nat :=
  match c with
  | LcSegment64 _ ss => 8%nat :: flat_map (fun k => [72 + 80 * k; 88 + 80 * k]%nat) (seq 0 (length ss))
  | _ => []
  end.
(** the bytes of the accepted command [c] at the start of [l], names tidied *)
Definition lc_again (c : load_command) (l : list Z) : list Z :=
  match c with
  | LcSegment64 _ ss =>
      slice 0 8 l ++ tidy (slice 8 16 l) ++ slice 24 48 l ++
      flat_map (fun k => tidy (slice (72 + 80 * k) 16 l) ++ tidy (slice (88 + 80 * k) 16 l) ++ slice (104 + 80 * k) 48 l)
        (seq 0 (length ss))
  | _ => firstn (lc_len c) l
  end.

Example tidy_ex : tidy [0x61; 0; 0x62; 0] = [0x61; 0; 0; 0] /\ tidy [0x61; 0x62] = [0x61; 0x62].
Proof. split; reflexivity. Qed.
