(** Renaming the symbols of an object, and the strings of a file. *)
From Verif Require Import Base Str Obj SpecObj SpecMacho.

Definition ren_symbol (f : str -> str) (y : symbol) : symbol :=
  match y with
  | SyUndef n => SyUndef (f n)
  | SyAbs n v e => SyAbs (f n) v e
  | SyRef n a e => SyRef (f n) a e
  end.
Definition ren_reloc (f : str -> str) (r : reloc) : reloc :=
  {| rl_addr := rl_addr r; rl_symbol := f (rl_symbol r); rl_pcrel := rl_pcrel r; rl_len := rl_len r |}.
Definition ren_section (f : str -> str) (s : bsection) : bsection :=
  {| bs_bytes := bs_bytes s; bs_symbols := map (ren_symbol f) (bs_symbols s); bs_relocs := map (ren_reloc f) (bs_relocs s) |}.
Definition ren_object (f : str -> str) (o : object) : object :=
  {| o_text := ren_section f (o_text o); o_data := ren_section f (o_data o);
     o_bss := {| bss_size := bss_size (o_bss o); bss_symbols := map (ren_symbol f) (bss_symbols (o_bss o)) |} |}.

(** the strings of a file: a zero byte, then each name with a zero byte after it *)
Definition strings (ns : list str) : list Z := 0 :: flat_map (fun n => n ++ [0]) ns.
(** other names in place of these: no two become one, and each keeps its length *)
Definition same_width (f : str -> str) (ns : list str) : Prop :=
  (forall a b, In a ns -> In b ns -> f a = f b -> a = b) /\
  forall n, In n ns -> clean (f n) /\ length (f n) = length n.

Example same_width_ex : same_width (map (fun c => c + 1)) [[97; 98]; [98]] /\ ~ same_width (fun _ => [97]) [[97]; [98]] /\
  ~ same_width (fun n => n ++ [97]) [[97]] /\ ~ same_width (map (fun c => 0 * c)) [[97]] /\
  strings [[97; 98]; [98]] = [0; 97; 98; 0; 98; 0].
Proof.
  split; [|split; [|split; [|split]]].
  - split.
    + intros a b [<-|[<-|[]]] [<-|[<-|[]]]; cbn; congruence.
    + intros n [<-|[<-|[]]]; (split; [repeat constructor; lia|reflexivity]).
  - intros [H _]. specialize (H [97] [98] (or_introl eq_refl) (or_intror (or_introl eq_refl)) eq_refl). discriminate.
  - intros [_ H]. destruct (H [97] (or_introl eq_refl)) as [_ L]. discriminate.
  - intros [_ H]. destruct (H [97] (or_introl eq_refl)) as [C _]. inversion C; subst. lia.
  - reflexivity.
Qed.
