(** Proofs about the place of the contents in a file. *)
From Verif Require Import Base Str X64 SpecX86 Mac SpecMacho Obj SpecObj Asm SpecAsm Assembler SpecRun SpecLocal.
From Verif Require Import PfBytes PfMac PfMacRec PfBig PfRun3.

(** ** Objects *)

Definition srel (s s' : section_ref) : Prop :=
  sr_vm_size s = sr_vm_size s' /\ length (sr_file_data s) = length (sr_file_data s') /\
  sr_symbols s = sr_symbols s' /\ sr_relocs s = sr_relocs s' /\
  (forall a o r, gen_section64 s a o r = gen_section64 s' a o r).

Lemma zlen_len {A} (a b : list A) : length a = length b -> zlen a = zlen b.
Proof. unfold zlen. lia. Qed.

Lemma rel_length {A B} (R : A -> B -> Prop) l l' : Forall2 R l l' -> length l = length l'.
Proof. intro F. induction F; cbn; lia. Qed.

Lemma byte_sec_rel a b : length (bs_bytes a) = length (bs_bytes b) -> bs_symbols a = bs_symbols b -> bs_relocs a = bs_relocs b ->
  srel (RText a) (RText b) /\ srel (RData a) (RData b).
Proof.
  intros L S R. pose proof (zlen_len _ _ L) as L'.
  split; (split; [exact L'|split; [exact L|split; [exact S|split; [exact R|]]]]); intros x y z;
    cbn [gen_section64]; unfold gen_section64_from_text, gen_section64_from_data; now rewrite L', R.
Qed.

Lemma iter_rel o o' : same_shape o o' -> Forall2 srel (sections_iter o) (sections_iter o').
Proof.
  intros (L1 & L2 & S1 & S2 & R1 & R2 & B). unfold sections_iter.
  destruct (byte_sec_rel _ _ L1 S1 R1) as [T _]. destruct (byte_sec_rel _ _ L2 S2 R2) as [_ D].
  assert (F : Forall2 srel [RText (o_text o); RData (o_data o); RBss (o_bss o)] [RText (o_text o'); RData (o_data o'); RBss (o_bss o')]).
  { repeat constructor; try apply T; try apply D; now rewrite B. }
  revert F. generalize [RText (o_text o); RData (o_data o); RBss (o_bss o)] [RText (o_text o'); RData (o_data o'); RBss (o_bss o')].
  intros l l' F. induction F as [|s s' l l' H F IH]; [constructor|]. cbn [filter].
  replace (sr_is_empty s') with (sr_is_empty s) by (unfold sr_is_empty; now rewrite (proj1 H)).
  destruct (negb (sr_is_empty s)); [constructor; assumption|exact IH].
Qed.

Lemma rel_map {A} (f : section_ref -> A) l l' : (forall s s', srel s s' -> f s = f s') -> Forall2 srel l l' -> map f l = map f l'.
Proof. intros H F. induction F as [|s s' l l' R F IH]; [reflexivity|]. cbn. now rewrite IH, (H _ _ R). Qed.
Lemma rel_flat {A} (f : section_ref -> list A) l l' : (forall s s', srel s s' -> f s = f s') -> Forall2 srel l l' -> flat_map f l = flat_map f l'.
Proof. intros H F. rewrite !flat_map_concat_map. f_equal. now apply rel_map. Qed.
Lemma rel_mapM {A} (f : section_ref -> res A) l l' : (forall s s', srel s s' -> f s = f s') -> Forall2 srel l l' -> mapM f l = mapM f l'.
Proof. intros H F. induction F as [|s s' l l' R F IH]; [reflexivity|]. cbn [mapM]. now rewrite IH, (H _ _ R). Qed.
Lemma rel_file_size s s' : srel s s' -> sr_file_size s = sr_file_size s'.
Proof. intros (_ & L & _). unfold sr_file_size. now rewrite (zlen_len _ _ L). Qed.

Lemma rel_sections p l l' : Forall2 srel l l' -> forall a b c, gen_sections_loop p l a b c = gen_sections_loop p l' a b c.
Proof.
  intro F. induction F as [|s s' l l' H F IH]; intros a b c; [reflexivity|]. cbn [gen_sections_loop].
  rewrite (rel_file_size _ _ H). destruct H as (V & _ & _ & R & G). rewrite V, R.
  destruct (addu p 64 a (sr_vm_size s')); [|reflexivity]. cbn [bind].
  destruct (addu p 32 b (sr_file_size s')); [|reflexivity]. cbn [bind].
  destruct (mulu p 32 RELOC_SIZE (wrapu 32 (zlen (sr_relocs s')))); [|reflexivity]. cbn [bind].
  destruct (addu p 32 c _); [|reflexivity]. cbn [bind]. rewrite IH.
  now rewrite G.
Qed.
Lemma rel_nlists p x t l l' : Forall2 srel l l' -> forall i, gen_nlists_loop p x t i l = gen_nlists_loop p x t i l'.
Proof.
  intro F. induction F as [|s s' l l' H F IH]; intro i; [reflexivity|]. cbn [gen_nlists_loop].
  destruct H as (_ & _ & S & _). now rewrite S, IH.
Qed.


(** everything but the data is the same *)
Lemma rel_all p o o' : same_shape o o' ->
  gen_header64 p o = gen_header64 p o' /\ gen_segment_command64 p o = gen_segment_command64 p o' /\
  gen_section64s p o = gen_section64s p o' /\ gen_symtab_command p o = gen_symtab_command p o' /\
  gen_string_table o = gen_string_table o' /\
  (forall x t, gen_nlist64s p o x t = gen_nlist64s p o' x t) /\
  (forall y t, gen_relocation_infos o y t = gen_relocation_infos o' y t).
Proof.
  intro S. pose proof (iter_rel _ _ S) as F. pose proof (rel_length _ _ _ F) as L.
  assert (SL : sections_len o = sections_len o') by (unfold sections_len; now rewrite (zlen_len _ _ L)).
  assert (DS : data_start_of p o = data_start_of p o') by (unfold data_start_of; now rewrite SL).
  assert (FS : file_sizes_sum p o = file_sizes_sum p o').
  { unfold file_sizes_sum. f_equal. apply rel_map; [exact rel_file_size|exact F]. }
  repeat match goal with |- _ /\ _ => split end.
  - unfold gen_header64. now rewrite SL.
  - unfold gen_segment_command64. rewrite SL, DS, FS.
    replace (map sr_vm_size (sections_iter o')) with (map sr_vm_size (sections_iter o)); [reflexivity|].
    apply rel_map; [|exact F]. now intros s s' (V & _).
  - unfold gen_section64s. rewrite DS, FS. destruct (data_start_of p o'); [|reflexivity]. cbn [bind].
    destruct (file_sizes_sum p o'); [|reflexivity]. cbn [bind]. destruct (aligned p 32 _ 8); [|reflexivity]. cbn [bind].
    destruct (addu p 32 _ _); [|reflexivity]. cbn [bind]. now apply rel_sections.
  - unfold gen_symtab_command. rewrite DS, FS.
    replace (map (fun s => wrapu 32 (zlen (sr_relocs s))) (sections_iter o')) with (map (fun s => wrapu 32 (zlen (sr_relocs s))) (sections_iter o))
      by (apply rel_map; [intros s s' (_ & _ & _ & R & _); now rewrite R|exact F]).
    replace (map (fun s => wrapu 32 (zlen (sr_symbols s))) (sections_iter o')) with (map (fun s => wrapu 32 (zlen (sr_symbols s))) (sections_iter o))
      by (apply rel_map; [intros s s' (_ & _ & R & _); now rewrite R|exact F]).
    replace (mapM (fun s => names_size p (sr_symbols s)) (sections_iter o')) with (mapM (fun s => names_size p (sr_symbols s)) (sections_iter o))
      by (apply rel_mapM; [intros s s' (_ & _ & R & _); now rewrite R|exact F]).
    reflexivity.
  - unfold gen_string_table. f_equal. apply rel_flat; [|exact F]. intros s s' (_ & _ & R & _). now rewrite R.
  - intros x t. unfold gen_nlist64s. now apply rel_nlists.
  - intros y t. unfold gen_relocation_infos. f_equal. apply rel_flat; [|exact F]. now intros s s' (_ & _ & _ & R & _).
Qed.

(** the data: some of the contents, then the same *)
Lemma rel_data p l l' k : Forall2 srel l l' -> forall n, exists d d' r r' e b,
  write_data_loop p l n k = (d ++ e, b) /\ write_data_loop p l' n k = (d' ++ e, b) /\ length d = length d' /\
  flat_map sr_file_data l = d ++ r /\ flat_map sr_file_data l' = d' ++ r' /\ length r = length r' /\ (b = true -> r = []).
Proof.
  intro F. induction F as [|s s' l l' H F IH]; intro n.
  - cbn [write_data_loop flat_map]. destruct (k n) as [e b]. exists [], [], [], [], e, b. repeat split.
  - cbn [write_data_loop flat_map]. rewrite <- (rel_file_size _ _ H). destruct H as (_ & L & _).
    destruct (addu p 32 n (sr_file_size s)) as [m|]; cbn [wbind].
    + destruct (IH m) as (d & d' & r & r' & e & b & E1 & E2 & Ld & F1 & F2 & Lr & B).
      exists (sr_file_data s ++ d), (sr_file_data s' ++ d'), r, r', e, b.
      rewrite E1, E2, F1, F2. unfold wemit. cbn [wseq]. rewrite <- !app_assoc, !app_length.
      repeat split; try assumption; try lia.
    + exists (sr_file_data s), (sr_file_data s'), (flat_map sr_file_data l), (flat_map sr_file_data l'), [], false.
      unfold wemit, wpanic. cbn [wseq]. repeat split; try assumption; [|discriminate].
      clear - F. induction F as [|s s' l l' H F IH]; [reflexivity|]. cbn [flat_map]. rewrite !app_length, IH.
      destruct H as (_ & L & _). lia.
Qed.

Lemma iter_data o : flat_map sr_file_data (sections_iter o) = contents o.
Proof.
  unfold sections_iter, contents.
  assert (G : forall l, flat_map sr_file_data (filter (fun s => negb (sr_is_empty s)) l) = flat_map sr_file_data l).
  { induction l as [|s l IH]; [reflexivity|]. cbn [filter flat_map]. destruct (sr_is_empty s) eqn:E; cbn [negb]; [|cbn [flat_map]; now rewrite IH].
    rewrite IH. unfold sr_is_empty in E. destruct s as [t|d|b]; cbn [sr_vm_size sr_file_data] in *; [| |reflexivity];
      apply Z.eqb_eq in E; unfold zlen in E; [destruct (bs_bytes t)|destruct (bs_bytes d)]; cbn [length] in E; try lia; reflexivity. }
  rewrite G. cbn [flat_map sr_file_data]. now rewrite app_nil_r.
Qed.
Lemma iter_secs o : 0 <= bss_size (o_bss o) -> length (sections_iter o) = length (secs o).
Proof.
  intro B. unfold sections_iter, secs, sr_is_empty. cbn [filter sr_vm_size text_sec data_sec bss_sec os_size].
  assert (0 <= zlen (bs_bytes (o_text o)) /\ 0 <= zlen (bs_bytes (o_data o))) by (unfold zlen; lia).
  destruct (Z.eqb_spec (zlen (bs_bytes (o_text o))) 0); destruct (Z.ltb_spec 0 (zlen (bs_bytes (o_text o)))); try lia;
  destruct (Z.eqb_spec (zlen (bs_bytes (o_data o))) 0); destruct (Z.ltb_spec 0 (zlen (bs_bytes (o_data o)))); try lia;
  destruct (Z.eqb_spec (bss_size (o_bss o)) 0); destruct (Z.ltb_spec 0 (bss_size (o_bss o))); try lia; reflexivity.
Qed.

Definition simw (n : nat) (d d' : list Z) (w w' : wr) : Prop :=
  (w = w' /\ snd w = false) \/
  exists A u u' r r' e b, length A = n /\ w = (A ++ u ++ e, b) /\ w' = (A ++ u' ++ e, b) /\ length u = length u' /\
    d = u ++ r /\ d' = u' ++ r' /\ length r = length r' /\ (b = true -> r = []).
Lemma simw_step m n d d' u w w' : (forall a, u = (a, true) -> length a = m) -> simw n d d' w w' -> simw (m + n) d d' (u >>> w) (u >>> w').
Proof.
  intros L H. destruct u as [a [|]]; cbn [wseq].
  2: { left. split; reflexivity. }
  specialize (L a eq_refl). destruct H as [[-> H]|(A & x & x' & r & r' & e & b & LA & -> & -> & H)].
  - left. split; [reflexivity|]. destruct w' as [f b]. cbn [snd] in H. subst b. reflexivity.
  - right. exists (a ++ A), x, x', r, r', e, b. unfold wseq. cbn [fst snd]. rewrite app_length, <- !app_assoc. split; [lia|]. repeat split; apply H.
Qed.
Lemma simw_end n d d' w w' z : simw n d d' w w' -> simw n d d' (w >>> z) (w' >>> z).
Proof.
  intros [[-> H]|(A & x & x' & r & r' & e & b & LA & -> & -> & L & D & D' & Lr & B)].
  - left. split; [reflexivity|]. destruct w' as [f b]. cbn [snd] in H. subst b. reflexivity.
  - right. destruct b; cbn [wseq].
    + destruct z as [g c]. exists A, x, x', r, r', (e ++ g), c. unfold wseq. cbn [fst snd]. rewrite <- !app_assoc. repeat split; auto.
    + exists A, x, x', r, r', e, false. repeat split; auto; discriminate.
Qed.

Lemma sections_length p l : forall a b c xs, gen_sections_loop p l a b c = Ok xs -> length xs = length l.
Proof.
  induction l as [|s l IH]; intros a b c xs; cbn [gen_sections_loop].
  - intro H. injection H as <-. reflexivity.
  - intro H. repeat match type of H with bind ?m _ = _ => destruct m eqn:?; cbn [bind] in H; [|discriminate] end.
    injection H as <-. cbn [length]. f_equal. eapply IH; eassumption.
Qed.

Lemma file_sim p h o o' : same_shape o o' -> 0 <= bss_size (o_bss o) ->
  simw (pos_data o) (contents o) (contents o') (macho_write_into p h o) (macho_write_into p h o').
Proof.
  intros S B. destruct (rel_all p _ _ S) as (H1 & H2 & H3 & H4 & H5 & H6 & H7).
  unfold macho_write_into. rewrite <- H1, <- H2, <- H3, <- H4, <- H5.
  replace (pos_data o) with (32 + (72 + (80 * length (secs o) + (24 + 0))))%nat by (unfold pos_data, pos_symtab, pos_sections; lia).
  apply simw_step.
  { intros a E. apply wbind_inv in E. destruct E as (x & _ & E). rewrite header_write in E. injection E as <-. apply header_bytes_length. }
  apply simw_step.
  { intros a E. apply wbind_inv in E. destruct E as (x & Esg & E).
    assert (N : SpecMacho.name16 (sg_segname x)).
    { unfold gen_segment_command64 in Esg. clear - Esg.
      repeat match type of Esg with bind ?m _ = _ => destruct m; cbn [bind] in Esg; [|discriminate] end.
      injection Esg as <-. split; [constructor|cbn; lia]. }
    rewrite segment_write in E by exact N. injection E as <-. now apply segment_bytes_length. }
  destruct (gen_section64s p o) as [ss|] eqn:Es; cbn [wbind]; [|left; split; reflexivity].
  unfold gen_section64s in Es.
  do 4 match type of Es with bind ?m _ = _ => destruct m; cbn [bind] in Es; [|discriminate] end.
  apply simw_step.
  { intros f E. rewrite <- (iter_secs o B), <- (sections_length _ _ _ _ _ _ Es).
    pose proof (gen_sections_names _ _ _ _ _ _ Es) as N. rewrite Forall_forall in N.
    rewrite (wlist_map_ok _ (section_bytes h)) in E by (intros x Hx; destruct (N x Hx); now apply section_write).
    injection E as <-. clear - N. induction ss as [|x ss IH]; [reflexivity|]. cbn [map concat length]. rewrite app_length, IH by (intros y Hy; apply N; now right).
    destruct (N x (or_introl eq_refl)). rewrite section_bytes_length by assumption. lia. }
  apply simw_step.
  { intros f E. apply wbind_inv in E. destruct E as (x & _ & E). rewrite symtab_write in E. injection E as <-. apply symtab_bytes_length. }
  match goal with |- simw _ _ _ (_ >>> ?X) (_ >>> ?Y) => assert (EX : X = Y) end.
  { destruct (gen_string_table o) as [t|]; [|reflexivity]. cbn [wbind]. rewrite <- H6.
    destruct (gen_nlist64s p o ss t) as [ns|]; [|reflexivity]. cbn [wbind]. now rewrite <- H7. }
  rewrite <- EX. apply simw_end. unfold write_section_data_into. right.
  match goal with |- context [write_data_loop p (sections_iter o) 0 ?K] =>
    destruct (rel_data p _ _ K (iter_rel _ _ S) 0) as (d & d' & r & r' & e & b & E1 & E2 & H) end.
  rewrite !iter_data in H. exists [], d, d', r, r', e, b. rewrite E1, E2. repeat split; apply H.
Qed.

Lemma overlay_parts (A u u' r r' e : list Z) : length u = length u' -> length r = length r' ->
  overlaid (length A) (u ++ r) (u' ++ r') (A ++ u ++ e) (A ++ u' ++ e).
Proof.
  intros L Lr. split; [rewrite !app_length; lia|]. intros i x y Hx Hy.
  destruct (Nat.ltb_spec i (length A)).
  - rewrite nth_error_app1 in Hx, Hy by lia. left. congruence.
  - rewrite nth_error_app2 in Hx, Hy by lia. destruct (Nat.ltb_spec (i - length A) (length u)).
    + right. exists (i - length A)%nat. rewrite nth_error_app1 in Hx, Hy by lia. rewrite !nth_error_app1 by lia. split; [lia|]. split; assumption.
    + left. rewrite nth_error_app2 in Hx, Hy by lia. rewrite L in Hx. congruence.
Qed.
Lemma overlay_same n d d' f : overlaid n d d' f f.
Proof. split; [reflexivity|]. intros i x y Hx Hy. left. congruence. Qed.

Lemma top_C100_object : forall p h o o' f b, same_shape o o' -> object_rng o -> macho_write_into p h o = (f, b) ->
  exists f', macho_write_into p h o' = (f', b) /\ overlaid (pos_data o) (contents o) (contents o') f f' /\
    (b = true -> exists A B, length A = pos_data o /\ f = A ++ contents o ++ B /\ f' = A ++ contents o' ++ B).
Proof.
  intros p h o o' f b S (_ & _ & [R _] & _) E. destruct (file_sim p h o o' S R) as [[E' F]|(A & u & u' & r & r' & e & c & LA & W & W' & L & D & D' & Lr & B)].
  - rewrite E in *. cbn [snd] in F. subst b. exists f. split; [now symmetry|]. split; [apply overlay_same|discriminate].
  - rewrite E in W. injection W as -> ->. exists (A ++ u' ++ e). split; [exact W'|].
    split; [rewrite D, D', <- LA; now apply overlay_parts|]. intro T. specialize (B T). subst r.
    assert (r' = []) by (destruct r'; [reflexivity|discriminate]). subst r'. rewrite app_nil_r in D, D'. subst u u'.
    exists A, e. repeat split; assumption.
Qed.
