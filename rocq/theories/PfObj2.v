(** The bytes written by macho::write_into, for objects within the size bounds. *)
From Coq Require Import ZifyBool ZifyNat.
From Coq Require String.
Import String.StringSyntax.
From Verif Require Import Base Str Mac Obj SpecMacho SpecObj PfX64 PfBytes PfStr PfMac PfMacRec PfMacRead
  PfMacTop PfMacTop2 PfObj.
Ltac Zify.zify_post_hook ::= Z.div_mod_to_equations.

(** a section reference as a section of the specification *)
Definition view (s : section_ref) : osec :=
  match s with
  | RText t => {| os_seg := lit "__TEXT"; os_name := lit "__text"; os_size := zlen (bs_bytes t);
     os_bytes := bs_bytes t; os_zerofill := false; os_code := true;
     os_syms := bs_symbols t; os_rels := bs_relocs t |}
  | RData t => {| os_seg := lit "__DATA"; os_name := lit "__data"; os_size := zlen (bs_bytes t);
     os_bytes := bs_bytes t; os_zerofill := false; os_code := false;
     os_syms := bs_symbols t; os_rels := bs_relocs t |}
  | RBss b => {| os_seg := lit "__DATA"; os_name := lit "__bss"; os_size := bss_size b;
     os_bytes := []; os_zerofill := true; os_code := false; os_syms := bss_symbols b; os_rels := [] |}
  end.
Lemma view_size s : os_size (view s) = sr_vm_size s. Proof. now destruct s. Qed.
Lemma view_bytes s : os_bytes (view s) = sr_file_data s. Proof. now destruct s. Qed.
Lemma view_syms s : os_syms (view s) = sr_symbols s. Proof. now destruct s. Qed.
Lemma view_rels s : os_rels (view s) = sr_relocs s. Proof. now destruct s. Qed.

Definition sect_of (s : osec) (a off roff : Z) : section64 :=
  {| sc_sectname := os_name s; sc_segname := os_seg s; sc_addr := a; sc_size := os_size s;
     sc_offset := if os_zerofill s then 0 else off; sc_align := 0;
     sc_reloff := if os_zerofill s then 0 else roff;
     sc_nreloc := zlen (os_rels s);
     sc_attrs := (if os_code s then [SomeInstructions; PureInstructions] else []) ++
                 (if nonempty (os_rels s) then [LocReloc; ExtReloc] else []);
     sc_type := if os_zerofill s then StZerofill else StRegular;
     sc_reserved1 := 0; sc_reserved2 := 0; sc_reserved3 := 0 |}.
Lemma gen_section64_view s a off roff : zlen (sr_relocs s) < 2 ^ 32 ->
  gen_section64 s a off roff = sect_of (view s) a off roff.
Proof.
  intros H. destruct s as [t|d|b]; unfold sect_of; cbn [gen_section64 view os_seg os_name os_size os_bytes
    os_zerofill os_code os_syms os_rels sr_relocs] in *.
  - unfold gen_section64_from_text. rewrite wrapu32_small by (unfold inu, zlen in *; lia). reflexivity.
  - unfold gen_section64_from_data. rewrite wrapu32_small by (unfold inu, zlen in *; lia). reflexivity.
  - reflexivity.
Qed.
Fixpoint sects (ss : list osec) (a off roff : Z) : list section64 :=
  match ss with
  | [] => []
  | s :: ss' => sect_of s a off roff ::
      sects ss' (a + os_size s) (off + zlen (os_bytes s)) (roff + 8 * zlen (os_rels s))
  end.
Lemma sects_length ss a off roff : length (sects ss a off roff) = length ss.
Proof. revert a off roff; induction ss as [|s ss IH]; intros; cbn [sects length]; [reflexivity|]. now rewrite IH. Qed.

Lemma gen_sections_loop_eq p S : forall a off roff, Forall (fun s => 0 <= sr_vm_size s) S ->
  0 <= a -> a + zsum (map sr_vm_size S) < 2 ^ 64 ->
  0 <= off -> off + zlen (flat_map sr_file_data S) < 2 ^ 32 ->
  0 <= roff -> roff + 8 * zlen (flat_map sr_relocs S) < 2 ^ 32 ->
  gen_sections_loop p S a off roff = Ok (sects (map view S) a off roff).
Proof.
  induction S as [|s S IH]; intros a off roff F A1 A2 O1 O2 R1 R2; [reflexivity|].
  inversion_clear F as [|? ? Hs HS].
  cbn [gen_sections_loop map sects flat_map zsum fold_right] in *. rewrite !zlen_app in *. fold (zsum (map sr_vm_size S)) in *.
  assert (0 <= zsum (map sr_vm_size S)) by (apply zsum_nonneg; now apply Forall_map).
  pose proof (zlen_nonneg (sr_file_data s)). pose proof (zlen_nonneg (flat_map sr_file_data S)).
  pose proof (zlen_nonneg (sr_relocs s)). pose proof (zlen_nonneg (flat_map sr_relocs S)).
  unfold addu at 1. rewrite chku_in by (unfold inu; lia). cbn [bind].
  unfold sr_file_size. rewrite wrapu32_small by (unfold inu; lia).
  unfold addu at 1. rewrite chku_in by (unfold inu; lia). cbn [bind].
  rewrite wrapu32_small by (unfold inu; lia). change RELOC_SIZE with 8.
  unfold mulu. rewrite chku_in by (unfold inu; lia). cbn [bind].
  unfold addu. rewrite chku_in by (unfold inu; lia). cbn [bind].
  rewrite IH by (assumption || lia). cbn [bind]. rewrite gen_section64_view by lia.
  rewrite view_size, view_bytes, view_rels. reflexivity.
Qed.

Definition ent (t : stab) (x : nat * Z * symbol) : nlist64 :=
  match x with
  | (k, a, y) => {| nl_strx := strx t (sym_name y); nl_type := n_type_of y; nl_sect := n_sect_of k y;
                    nl_desc := 0; nl_value := n_value_of a y |}
  end.
Definition place_syms (l : list (nat * Z * osec)) : list (nat * Z * symbol) :=
  flat_map (fun '(k, a, s) => map (fun y => (k, a, y)) (os_syms s)) l.

Lemma gen_nlists_eq p t : forall S pre a off roff i,
  length pre = i -> (i + length S < 256)%nat ->
  (forall y, In y (flat_map sr_symbols S) -> get_strx p t (sym_name y) = Ok (strx t (sym_name y))) ->
  Forall (fun '(_, a, y) => match y with SyRef _ x _ => 0 <= a + x < 2 ^ 64 | _ => True end)
    (place_syms (place (Datatypes.S i) a (map view S))) ->
  gen_nlists_loop p (pre ++ sects (map view S) a off roff) t i S
    = Ok (map (ent t) (place_syms (place (Datatypes.S i) a (map view S)))).
Proof.
  induction S as [|s S IH]; intros pre a off roff i L B G F; [reflexivity|].
  cbn [gen_nlists_loop map sects place place_syms flat_map length] in *.
  rewrite map_app. rewrite view_syms in *.
  rewrite (mapM_ok _ (fun y => ent t (Datatypes.S i, a, y))).
  - cbn [bind].
    specialize (IH (pre ++ [sect_of (view s) a off roff]) (a + os_size (view s)) (off + zlen (os_bytes (view s)))
       (roff + 8 * zlen (os_rels (view s))) (Datatypes.S i)).
    rewrite <- app_assoc in IH. cbn [app] in IH. rewrite IH.
    + cbn [bind]. rewrite map_map. reflexivity.
    + rewrite app_length. cbn [length]. lia.
    + lia.
    + intros y Hy. apply G. apply in_or_app. now right.
    + apply Forall_app in F. apply F.
  - intros y Hy. unfold gen_nlist64.
    assert (E : wrapu 8 (Z.of_nat i + 1) = Z.of_nat (Datatypes.S i)).
    { unfold wrapu. change (2 ^ 8) with 256. lia. }
    destruct y as [nm|nm v ext|nm x ext];
      (rewrite (G _ (in_or_app _ _ _ (or_introl Hy)) : get_strx p t nm = _)); cbn [bind]; rewrite ?E; try reflexivity.
    rewrite nth_error_app2 by lia. replace (i - length pre)%nat with 0%nat by lia. cbn [nth_error unwrap bind].
    unfold sect_of at 1. cbn [sc_addr].
    apply Forall_app in F. destruct F as [F _]. rewrite Forall_map, Forall_forall in F. specialize (F _ Hy). cbn in F.
    unfold addu. rewrite chku_in by exact F. reflexivity.
Qed.

(** first position of a string in a list *)
Fixpoint find_str (s : str) (l : list str) : option nat :=
  match l with
  | [] => None
  | x :: l' => if str_eqb x s then Some 0%nat else option_map S (find_str s l')
  end.
Lemma find_str_some s l j : find_str s l = Some j <->
  nth_error l j = Some s /\ forall i, (i < j)%nat -> nth_error l i <> Some s.
Proof.
  revert j; induction l as [|x l IH]; intros j; cbn [find_str].
  - split; [discriminate|]. intros [H _]. destruct j; discriminate.
  - destruct (str_eqb x s) eqn:E.
    + apply str_eqb_eq in E. subst x. split.
      * intros H. injection H as <-. split; [reflexivity|lia].
      * intros [H1 H2]. destruct j; [reflexivity|]. exfalso. apply (H2 0%nat); [lia|reflexivity].
    + apply str_eqb_neq in E. destruct j as [|j].
      * split; [destruct (find_str s l); discriminate|]. intros [H _]. cbn in H. congruence.
      * specialize (IH j). destruct (find_str s l) as [k|]; cbn [option_map].
        -- split.
           ++ intros H. injection H as <-. destruct IH as [IH _]. destruct (IH eq_refl) as [H1 H2]. split; [exact H1|].
              intros [|i] Hi; cbn [nth_error]; [congruence|]. apply H2. lia.
           ++ intros [H1 H2]. destruct IH as [_ IH]. assert (Some k = Some j) as X; [|congruence].
              apply IH. split; [exact H1|]. intros i Hi. apply (H2 (S i)). lia.
        -- split; [discriminate|]. intros [H1 H2]. destruct IH as [_ IH]. assert (None = Some j) as X; [|discriminate].
           apply IH. split; [exact H1|]. intros i Hi. apply (H2 (S i)). lia.
Qed.
Lemma find_str_none s l : find_str s l = None <-> ~ In s l.
Proof.
  induction l as [|x l IH]; cbn [find_str In]; [tauto|]. destruct (str_eqb x s) eqn:E.
  - apply str_eqb_eq in E. split; [discriminate|]. tauto.
  - apply str_eqb_neq in E. destruct (find_str s l); cbn [option_map]; intuition congruence.
Qed.
Lemma find_str_lt s l j : find_str s l = Some j -> (j < length l)%nat.
Proof. intros H. apply find_str_some in H. destruct H as [H _]. apply nth_error_Some. congruence. Qed.

Lemma get_sym_idx_eq t name l : forall i,
  (forall x, In x l -> stab_get t (Z.to_nat (nl_strx (ent t x))) = Ok (resolved (sym_name (snd x)))) ->
  get_sym_idx_loop (map (ent t) l) t name i =
  match find_str name (map (fun x => resolved (sym_name (snd x))) l) with
  | Some j => Ok (wrapu 32 (i + Z.of_nat j))
  | None => Panic
  end.
Proof.
  induction l as [|x l IH]; intros i G; [reflexivity|]. cbn [map get_sym_idx_loop find_str].
  rewrite G by now left. cbn [bind]. destruct (str_eqb (resolved (sym_name (snd x))) name).
  - do 2 f_equal. lia.
  - rewrite IH by (intros y Hy; apply G; now right). destruct (find_str name _); cbn [option_map]; [|reflexivity].
    do 2 f_equal. lia.
Qed.

Definition rel_of (ns : list str) (r : reloc) : reloc_info :=
  {| r_address := rl_addr r;
     r_symbolnum := match find_str (rl_symbol r) (map resolved ns) with Some j => Z.of_nat j | None => 0 end;
     r_pcrel := rl_pcrel r; r_length := reloc_len_of (rl_len r); r_extern := true; r_type := 0 |}.

(** ** The expected file *)
Definition e_header (o : object) : header64 :=
  {| h_magic := Magic64; h_cpu := CpuX86_64 X86_64All; h_file_type := FtObject; h_ncmds := 2;
     h_size_of_cmds := 72 + 80 * zlen (secs o) + 24; h_flags := []; h_reserved := 0 |}.
Definition e_segment (o : object) : segment64 :=
  {| sg_cmd := 0x19; sg_cmdsize := 72 + 80 * zlen (secs o); sg_segname := []; sg_vmaddr := 0;
     sg_vmsize := vm_total o; sg_fileoff := Z.of_nat (pos_data o);
     sg_filesize := Z.of_nat (round8 (data_len o)); sg_maxprot := 7; sg_initprot := 7;
     sg_nsects := zlen (secs o); sg_flags := 0 |}.
Definition e_sects (o : object) : list section64 :=
  sects (secs o) 0 (Z.of_nat (pos_data o)) (Z.of_nat (pos_rels o)).
Definition e_symtab (o : object) : symtab :=
  {| st_cmd := 2; st_cmdsize := 24; st_symoff := Z.of_nat (pos_syms o); st_nsyms := zlen (syms o);
     st_stroff := Z.of_nat (pos_strs o); st_strsize := 1 + Z.of_nat (names_len o) |}.
Definition e_tab (o : object) : stab := 0 :: stab_bytes (names o).
Definition e_nlists (o : object) : list nlist64 := map (ent (e_tab o)) (syms o).
Definition e_rels (o : object) : list reloc_info := map (rel_of (names o)) (rels o).
Definition e_data (o : object) : list Z :=
  flat_map os_bytes (secs o) ++ repeat 0 (round8 (data_len o) - data_len o).
Definition e_head (h : endian) (o : object) : list Z :=
  header_bytes h (e_header o) ++ segment_bytes h (e_segment o) ++
  concat (map (section_bytes h) (e_sects o)) ++ symtab_bytes h (e_symtab o) ++ e_data o.
Definition e_tail (h : endian) (o : object) : list Z :=
  concat (map (reloc_bytes h) (e_rels o)) ++ concat (map (nlist_bytes h) (e_nlists o)) ++ e_tab o.

Lemma name16_dec s : forallb (fun c => (1 <=? c) && (c <? 128)) s && Nat.leb (length s) 16 = true -> name16 s.
Proof.
  intros H. apply andb_true_iff in H. destruct H as [H1 H2]. rewrite forallb_forall in H1. apply Nat.leb_le in H2.
  split; [|exact H2]. apply Forall_forall. intros c Hc. specialize (H1 c Hc). lia.
Qed.

Section Gen.
  Variables (p : profile) (h : endian) (o : object).
  Hypothesis RNG : object_rng o.
  Hypothesis FIT : fits o.
  Let SS := sections_iter o.

  Lemma secs_view : secs o = map view SS.
  Proof using RNG.
    clear FIT. destruct RNG as (_ & _ & [B _] & _). unfold secs, SS, sections_iter, sr_is_empty. cbn [filter].
    cbn [text_sec data_sec bss_sec os_size sr_vm_size].
    assert (E : forall z, 0 <= z -> negb (z =? 0) = (0 <? z)) by (intros; lia).
    rewrite !E by (assumption || apply zlen_nonneg).
    destruct (0 <? zlen (bs_bytes (o_text o))), (0 <? zlen (bs_bytes (o_data o))), (0 <? bss_size (o_bss o)); reflexivity.
  Qed.
  Lemma ss_len : (length SS <= 3)%nat.
  Proof using. clear. unfold SS, sections_iter. cbn [filter]. repeat (match goal with |- context [if ?b then _ else _] => destruct b end); cbn; lia. Qed.
  Lemma ss_sizes : Forall (fun s => 0 <= sr_vm_size s) SS.
  Proof using RNG.
    clear FIT. destruct RNG as (_ & _ & [B _] & _). apply Forall_forall. intros s Hs. apply filter_In in Hs.
    destruct Hs as [[<-|[<-|[<-|[]]]] _]; cbn [sr_vm_size]; try apply zlen_nonneg. exact B.
  Qed.
  Lemma secs_len : zlen (secs o) = zlen SS.
  Proof using RNG. unfold zlen. now rewrite secs_view, map_length. Qed.
  Lemma bytes_flat : flat_map os_bytes (secs o) = flat_map sr_file_data SS.
  Proof using RNG. rewrite secs_view, flat_map_map. apply flat_map_ext'. intros s _. apply view_bytes. Qed.
  Lemma rels_flat : rels o = flat_map sr_relocs SS.
  Proof using RNG. unfold rels. rewrite secs_view, flat_map_map. apply flat_map_ext'. intros s _. apply view_rels. Qed.
  Lemma place_syms_map l : forall k a, map (fun x => snd x) (place_syms (place k a l)) = flat_map os_syms l.
  Proof using.
    clear. induction l as [|s l IH]; intros k a; [reflexivity|]. cbn [place place_syms flat_map].
    rewrite map_app, map_map. cbn [snd]. rewrite map_id. f_equal. apply IH.
  Qed.
  Lemma syms_eq : syms o = place_syms (place 1 0 (map view SS)).
  Proof using RNG. unfold syms, placed. rewrite secs_view. reflexivity. Qed.
  Lemma syms_snd : map (fun x => snd x) (syms o) = flat_map sr_symbols SS.
  Proof using RNG.
    rewrite syms_eq, place_syms_map, flat_map_map. apply flat_map_ext'. intros s _. apply view_syms.
  Qed.
  Lemma names_flat : names o = flat_map (fun s => map sym_name (sr_symbols s)) SS.
  Proof using RNG.
    unfold names. rewrite <- map_flat_map, <- syms_snd, map_map. apply map_ext. now intros [[k a] y].
  Qed.
  Lemma names_snd : names o = map (fun x => sym_name (snd x)) (syms o).
  Proof using. clear. unfold names. apply map_ext. now intros [[k a] y]. Qed.

  (** sizes *)
  Lemma fit_bounds : Z.of_nat (pos_data o) = 128 + 80 * zlen SS /\ 0 <= zlen SS <= 3 /\
    Z.of_nat (data_len o) = zlen (flat_map sr_file_data SS) /\
    Z.of_nat (pos_rels o) = Z.of_nat (pos_data o) + Z.of_nat (round8 (data_len o)) /\
    Z.of_nat (pos_syms o) = Z.of_nat (pos_rels o) + 8 * zlen (flat_map sr_relocs SS) /\
    Z.of_nat (pos_strs o) = Z.of_nat (pos_syms o) + 16 * zlen (flat_map sr_symbols SS) /\
    (Z.of_nat (pos_strs o) < 2 ^ 32 /\ 1 + Z.of_nat (names_len o) < 2 ^ 32).
  Proof using RNG FIT.
    destruct FIT as (L & _). pose proof ss_len as L3.
    assert (N : length (secs o) = length SS) by (rewrite secs_view; apply map_length).
    assert (Y : length (syms o) = length (flat_map sr_symbols SS)) by (rewrite <- syms_snd; now rewrite map_length).
    rewrite <- rels_flat. assert (DLE : Z.of_nat (data_len o) = zlen (flat_map sr_file_data SS))
      by (unfold data_len, zlen; now rewrite bytes_flat).
    unfold zlen in *. rewrite <- Y. rewrite <- DLE.
    unfold pos_strs, pos_syms, pos_rels, pos_data, pos_symtab, pos_sections in *. lia.
  Qed.
  Ltac fb := pose proof fit_bounds as (PD & LS & DL & PR & PS & PT & PL & NLB);
    pose proof (round8_ge (data_len o)) as R8;
    pose proof (zlen_nonneg (flat_map sr_relocs SS)); pose proof (zlen_nonneg (flat_map sr_symbols SS)).

  Lemma gen_sections_len : sections_len o = zlen SS.
  Proof using RNG FIT. fb. unfold sections_len. fold SS. apply wrapu32_small. unfold inu. lia. Qed.
  Ltac arith := unfold addu, mulu; rewrite chku_in by (unfold inu; lia); cbn [bind].
  Lemma gen_header_eq : gen_header64 p o = Ok (e_header o).
  Proof using RNG FIT.
    fb. unfold gen_header64. rewrite gen_sections_len. change SECTION_SIZE with 80. change SEGMENT_SIZE with 72.
    change SYMTAB_SIZE with 24. do 3 arith. unfold e_header. rewrite secs_len. do 2 f_equal. lia.
  Qed.
  Lemma data_start_eq : data_start_of p o = Ok (Z.of_nat (pos_data o)).
  Proof using RNG FIT.
    fb. unfold data_start_of. rewrite gen_sections_len. change SECTION_SIZE with 80. change SEGMENT_SIZE with 72.
    change SYMTAB_SIZE with 24. change HEADER_SIZE with 32. do 4 arith. f_equal. lia.
  Qed.
  Lemma file_size_eq s : In s SS -> sr_file_size s = zlen (sr_file_data s).
  Proof using RNG FIT.
    fb. intros Hs. unfold sr_file_size. apply wrapu32_small. pose proof (zlen_flat_map_in sr_file_data SS s Hs).
    unfold inu. lia.
  Qed.
  Lemma file_sizes_eq : file_sizes_sum p o = Ok (Z.of_nat (data_len o)).
  Proof using RNG FIT.
    fb. unfold file_sizes_sum. fold SS.
    rewrite (map_ext_in _ (fun s => zlen (sr_file_data s))) by (intros s Hs; now apply file_size_eq).
    rewrite DL, zlen_flat_map in *. apply sumu_eq; [|lia].
    apply Forall_map, Forall_forall. intros; apply zlen_nonneg.
  Qed.
  Lemma vm_total_eq : vm_total o = zsum (map sr_vm_size SS) /\ 0 <= vm_total o < 2 ^ 64.
  Proof using RNG FIT.
    assert (E : vm_total o = zsum (map sr_vm_size SS)).
    { unfold vm_total, zsum. rewrite secs_view, map_map. f_equal. apply map_ext. intros; apply view_size. }
    split; [exact E|]. split; [|apply FIT]. rewrite E. apply zsum_nonneg. apply Forall_map, ss_sizes.
  Qed.
  Lemma gen_segment_eq : gen_segment_command64 p o = Ok (e_segment o).
  Proof using RNG FIT.
    fb. unfold gen_segment_command64. rewrite gen_sections_len. change SECTION_SIZE with 80. change SEGMENT_SIZE with 72.
    do 2 arith. pose proof vm_total_eq as [V1 V2].
    fold SS. rewrite sumu_eq; [|apply Forall_map, ss_sizes|rewrite <- V1; lia]. cbn [bind].
    rewrite data_start_eq, file_sizes_eq. cbn [bind]. rewrite aligned8 by lia. cbn [bind].
    unfold e_segment. rewrite secs_len, V1. change SEGMENT_TYPE with 0x19. do 2 f_equal. lia.
  Qed.
  Lemma gen_sections_eq : gen_section64s p o = Ok (e_sects o).
  Proof using RNG FIT.
    fb. unfold gen_section64s. rewrite data_start_eq, file_sizes_eq. cbn [bind]. rewrite aligned8 by lia. cbn [bind].
    arith. pose proof vm_total_eq as [V1 V2]. fold SS. unfold e_sects. rewrite secs_view, <- PR.
    apply gen_sections_loop_eq; try lia. apply ss_sizes.
  Qed.
  Lemma names_len_eq : Z.of_nat (names_len o) = zsum (map (fun s => zsum (map (fun y => str_len (sym_name y) + 1) (sr_symbols s))) SS).
  Proof using RNG.
    clear FIT. unfold names_len. rewrite names_flat.
    change (Z.of_nat (length ?l)) with (zlen l).
    induction SS as [|s l IH]; [reflexivity|]. cbn [flat_map map zsum fold_right].
    fold (zsum (map (fun s => zsum (map (fun y => str_len (sym_name y) + 1) (sr_symbols s))) l)).
    rewrite flat_map_app, zlen_app, IH. f_equal. rewrite flat_map_map, zlen_flat_map. f_equal. apply map_ext.
    intros y. rewrite zlen_app. reflexivity.
  Qed.
  Lemma gen_symtab_eq : gen_symtab_command p o = Ok (e_symtab o).
  Proof using RNG FIT.
    fb. unfold gen_symtab_command. rewrite data_start_eq, file_sizes_eq. cbn [bind]. rewrite aligned8 by lia. cbn [bind].
    unfold addu at 1. rewrite chku_in by (unfold inu; lia). cbn [bind]. fold SS.
    rewrite (map_ext_in (fun s => wrapu 32 (zlen (sr_relocs s))) (fun s => zlen (sr_relocs s)))
      by (intros s Hs; pose proof (zlen_flat_map_in sr_relocs SS s Hs); apply wrapu32_small; unfold inu; lia).
    rewrite sumu_eq; [|apply Forall_map, Forall_forall; intros; apply zlen_nonneg|rewrite <- zlen_flat_map; lia].
    rewrite <- zlen_flat_map. cbn [bind]. change RELOC_SIZE with 8. do 2 arith.
    rewrite (map_ext_in (fun s => wrapu 32 (zlen (sr_symbols s))) (fun s => zlen (sr_symbols s)))
      by (intros s Hs; pose proof (zlen_flat_map_in sr_symbols SS s Hs); apply wrapu32_small; unfold inu; lia).
    rewrite sumu_eq; [|apply Forall_map, Forall_forall; intros; apply zlen_nonneg|rewrite <- zlen_flat_map; lia].
    rewrite <- zlen_flat_map. cbn [bind]. change NLIST_SIZE with 16. do 2 arith.
    pose proof names_len_eq as NL.
    assert (POS : forall s, Forall (fun x => 0 <= x) (map (fun y => str_len (sym_name y) + 1) (sr_symbols s))).
    { intros s. apply Forall_map, Forall_forall. intros y _. unfold str_len. pose proof (zlen_nonneg (utf8 (sym_name y))). lia. }
    assert (LE : forall l x, Forall (fun x => 0 <= x) l -> In x l -> 0 <= x <= zsum l).
    { induction l as [|z l IH]; intros x F; [contradiction|]. inversion_clear F as [|? ? Hz Hl]. pose proof (zsum_nonneg l Hl).
      cbn [zsum fold_right]. fold (zsum l). intros [->|Hx]; [lia|]. specialize (IH x Hl Hx). lia. }
    assert (POS2 : Forall (fun x => 0 <= x) (map (fun s => zsum (map (fun y => str_len (sym_name y) + 1) (sr_symbols s))) SS)).
    { apply Forall_map, Forall_forall. intros s _. apply zsum_nonneg, POS. }
    rewrite (mapM_ok _ (fun s => zsum (map (fun y => str_len (sym_name y) + 1) (sr_symbols s)))).
    2:{ intros s Hs. assert (B : 0 <= zsum (map (fun y => str_len (sym_name y) + 1) (sr_symbols s)) <= Z.of_nat (names_len o)).
        { rewrite NL. apply LE; [exact POS2|]. now apply (in_map (fun s => zsum (map (fun y => str_len (sym_name y) + 1) (sr_symbols s)))). }
        unfold names_size. rewrite (mapM_ok _ (fun y => str_len (sym_name y) + 1)).
        - cbn [bind]. apply sumu_eq; [apply POS|lia].
        - intros y Hy. assert (B' : 0 <= str_len (sym_name y) + 1 <= zsum (map (fun y => str_len (sym_name y) + 1) (sr_symbols s))).
          { apply LE; [apply POS|]. now apply (in_map (fun y => str_len (sym_name y) + 1)). }
          assert (0 <= str_len (sym_name y)) by (unfold str_len; apply zlen_nonneg).
          rewrite wrapu32_small by (unfold inu; lia). unfold addu. apply chku_in. unfold inu; lia. }
    cbn [bind]. rewrite sumu_eq by (assumption || lia). cbn [bind]. rewrite <- NL. arith.
    unfold e_symtab. change SYMTAB_TYPE with 2. change SYMTAB_SIZE with 24.
    assert (zlen (syms o) = zlen (flat_map sr_symbols SS)) as -> by (unfold zlen; now rewrite <- syms_snd, map_length).
    do 2 f_equal; lia.
  Qed.
  Lemma write_data_eq : write_section_data_into p o = (e_data o, true).
  Proof using RNG FIT.
    fb. unfold write_section_data_into. fold SS.
    assert (G : forall l n k, 0 <= n -> incl l SS -> n + zlen (flat_map sr_file_data l) < 2 ^ 32 ->
      forall bs, k (n + zlen (flat_map sr_file_data l)) = (bs, true) ->
      write_data_loop p l n k = (flat_map sr_file_data l ++ bs, true)).
    { induction l as [|s l IH]; intros n k Hn HI Hb bs K; cbn [write_data_loop flat_map] in *.
      - cbn [app]. rewrite <- K. f_equal. unfold zlen. cbn [length]. lia.
      - rewrite zlen_app in *. pose proof (zlen_nonneg (sr_file_data s)). pose proof (zlen_nonneg (flat_map sr_file_data l)).
        rewrite file_size_eq by (apply HI; now left). unfold addu. rewrite chku_in by (unfold inu; lia). cbn [wbind].
        rewrite (IH (n + zlen (sr_file_data s)) k ltac:(lia)) with (bs := bs); [|intros y Hy; apply HI; now right|lia|rewrite <- K; f_equal; lia].
        unfold wseq, wemit. cbn [snd fst]. now rewrite app_assoc. }
    unfold e_data. rewrite bytes_flat. apply G; [lia|apply incl_refl|lia|].
    rewrite Z.add_0_l, <- DL. unfold padding. rewrite aligned8 by lia. cbn [bind]. unfold subu.
    rewrite chku_in by (unfold inu; lia). cbn [wbind].
    replace (Z.of_nat (round8 (data_len o)) - Z.of_nat (data_len o) <=? 7) with true by lia.
    unfold wemit. do 3 f_equal. lia.
  Qed.

  (** names *)
  Lemma names_str_ok : Forall str_ok (names o).
  Proof using RNG.
    clear FIT. destruct RNG as (_ & _ & _ & S1 & S2 & S3 & _). rewrite names_flat. apply Forall_flat_map, Forall_forall.
    intros s Hs. apply Forall_map. apply filter_In in Hs.
    destruct Hs as [[<-|[<-|[<-|[]]]] _]; cbn [sr_symbols]; [revert S1|revert S2|revert S3]; apply Forall_impl; intros y Hy; apply Hy.
  Qed.
  Lemma names_ascii : Forall (Forall (fun c => c < 128)) (names o) <-> Forall ascii_str (names o).
  Proof using RNG.
    pose proof names_str_ok as K. rewrite !Forall_forall in *. split; intros H s Hs; specialize (H s Hs); specialize (K s Hs);
      unfold ascii_str, str_ok in *; rewrite Forall_forall in *; intros c Hc; specialize (H c Hc); specialize (K c Hc); unfold ischar in *; lia.
  Qed.
  Lemma gen_tab_eq : Forall ascii_str (names o) -> gen_string_table o = Ok (e_tab o).
  Proof using RNG.
    intros A. unfold gen_string_table. fold SS. rewrite <- names_flat. unfold e_tab, stab_with_null.
    assert (G : forall ns t, Forall ascii_str ns -> stab_push_all t ns = Ok (t ++ stab_bytes ns)).
    { induction ns as [|s ns IH]; intros t F; cbn [stab_push_all].
      - unfold stab_bytes. cbn. now rewrite app_nil_r.
      - inversion_clear F as [|? ? Hs Hss]. rewrite push_ascii by assumption. cbn [bind]. rewrite IH by assumption.
        unfold stab_bytes. cbn [map concat]. now rewrite <- !app_assoc. }
    rewrite G by assumption. reflexivity.
  Qed.
  Lemma gen_tab_panic : ~ Forall ascii_str (names o) -> gen_string_table o = Panic.
  Proof using RNG.
    intros A. unfold gen_string_table. fold SS. rewrite <- names_flat. pose proof names_str_ok as K.
    generalize stab_with_null. induction (names o) as [|s ns IH]; intros t; cbn [stab_push_all].
    - exfalso. apply A. constructor.
    - inversion_clear K as [|? ? Ks Kns]. unfold stab_push. destruct (str_is_ascii s) eqn:E; [|reflexivity].
      cbn [bind]. apply IH; [|assumption]. intros F. apply A. constructor; [now apply str_is_ascii_iff|exact F].
  Qed.
  Lemma tab_len : Forall ascii_str (names o) -> zlen (e_tab o) = 1 + Z.of_nat (names_len o).
  Proof using.
    clear. intros A. unfold e_tab, names_len, zlen, stab_bytes. cbn [length]. rewrite flat_map_concat_map.
    replace (map (fun s => utf8 s ++ [0]) (names o)) with (map (fun s => s ++ [0]) (names o)); [lia|].
    apply map_ext_in. intros s Hs. rewrite Forall_forall in A. now rewrite utf8_ascii by now apply A.
  Qed.
  Lemma strx_facts : Forall ascii_str (names o) -> forall x, In x (syms o) ->
    get_strx p (e_tab o) (sym_name (snd x)) = Ok (strx (e_tab o) (sym_name (snd x))) /\
    0 < strx (e_tab o) (sym_name (snd x)) <= zlen (e_tab o) /\
    until_nul (skipn (Z.to_nat (strx (e_tab o) (sym_name (snd x)))) (e_tab o)) = resolved (sym_name (snd x)).
  Proof using RNG FIT.
    intros A x Hx. fb. apply get_strx_ok; [assumption| |].
    - rewrite names_snd. now apply (in_map (fun x => sym_name (snd x))).
    - fold (e_tab o). rewrite tab_len by assumption. lia.
  Qed.
  Lemma gen_nlists_ok : Forall ascii_str (names o) -> gen_nlist64s p o (e_sects o) (e_tab o) = Ok (e_nlists o).
  Proof using RNG FIT.
    intros A. unfold gen_nlist64s, e_nlists, e_sects. fold SS. rewrite syms_eq, secs_view.
    apply (gen_nlists_eq p (e_tab o) SS [] 0); [reflexivity|pose proof ss_len; lia| |].
    - intros y Hy. rewrite <- syms_snd in Hy. apply in_map_iff in Hy. destruct Hy as (x & <- & Hx). now apply strx_facts.
    - rewrite <- syms_eq. destruct FIT as (_ & _ & F). rewrite Forall_forall in *. intros [[k a] y] Hx. specialize (F _ Hx). cbn in F.
      destruct y; auto. split; [|exact F].
      assert (G : forall l k0 b k a y, Forall (fun s => 0 <= os_size s /\ Forall symbol_rng (os_syms s)) l -> 0 <= b ->
        In (k, a, y) (place_syms (place k0 b l)) -> 0 <= a /\ symbol_rng y).
      { clear. induction l as [|s l IH]; intros k0 b k a y Fl Hb; [contradiction|]. inversion_clear Fl as [|? ? [F1 F2] F3].
        cbn [place place_syms flat_map]. intros H. apply in_app_or in H. destruct H as [H|H].
        - apply in_map_iff in H. destruct H as (y' & E & H). injection E as <- <- <-. rewrite Forall_forall in F2. auto.
        - apply (IH (S k0) (b + os_size s) k a y F3); [lia|exact H]. }
      rewrite syms_eq in Hx. apply G in Hx; [|apply Forall_map, Forall_forall|lia].
      + destruct Hx as (H1 & _ & [H2 _]). lia.
      + intros s Hs. rewrite view_size, view_syms. pose proof ss_sizes as Z0. rewrite Forall_forall in Z0. split; [now apply Z0|].
        destruct RNG as (_ & _ & _ & S1 & S2 & S3 & _). apply filter_In in Hs.
        destruct Hs as [[<-|[<-|[<-|[]]]] _]; cbn [sr_symbols]; assumption.
  Qed.
  Lemma nsyms_bound : zlen (syms o) < 2 ^ 32 /\ zlen (syms o) = zlen (names o).
  Proof using RNG FIT.
    fb. assert (zlen (syms o) = zlen (flat_map sr_symbols SS)) as E by (unfold zlen; now rewrite <- syms_snd, map_length).
    split; [lia|]. rewrite names_snd. unfold zlen. now rewrite map_length.
  Qed.
  Lemma gen_rel_eq r : Forall ascii_str (names o) -> oreloc_rng r ->
    gen_relocation_info (e_nlists o) (e_tab o) r =
    if andb (rl_len r <=? 3) (match find_str (rl_symbol r) (map resolved (names o)) with Some _ => true | None => false end)
    then Ok (rel_of (names o) r) else Panic.
  Proof using p RNG FIT.
    intros A (_ & _ & [L0 _]). unfold gen_relocation_info, get_sym_idx, e_nlists. rewrite get_sym_idx_eq.
    2:{ intros x Hx. destruct (strx_facts A x Hx) as (_ & S2 & S3). destruct x as [[k a] y]. cbn [ent nl_strx snd] in *.
        rewrite stab_get_until; [now rewrite S3| |unfold zlen in S2; lia].
        constructor; [lia|]. now apply stab_bytes_asc. }
    assert (EN : map (fun x => resolved (sym_name (snd x))) (syms o) = map resolved (names o)) by (rewrite names_snd, map_map; reflexivity).
    rewrite EN. unfold rel_of. destruct (find_str (rl_symbol r) (map resolved (names o))) as [j|] eqn:E.
    2:{ rewrite andb_false_r. reflexivity. }
    rewrite andb_true_r. cbn [bind]. apply find_str_lt in E. rewrite map_length in E.
    pose proof nsyms_bound as [B1 B2]. unfold zlen in *. rewrite wrapu32_small by (unfold inu; lia). rewrite Z.add_0_l.
    destruct (rl_len r <=? 3) eqn:E3.
    - assert (EL : reloc_length_from_u32 (rl_len r) = Ok (reloc_len_of (rl_len r))).
      { assert (rl_len r = 0 \/ rl_len r = 1 \/ rl_len r = 2 \/ rl_len r = 3) as [->|[->|[->| ->]]] by lia; reflexivity. }
      rewrite EL. cbn [bind]. reflexivity.
    - assert (EL : reloc_length_from_u32 (rl_len r) = Panic).
      { destruct (reloc_length_from_u32 (rl_len r)) as [l|] eqn:EQ; [|reflexivity].
        apply reloc_length_from_iff in EQ. destruct l; cbn in EQ; lia. }
      rewrite EL. reflexivity.
  Qed.
  Lemma rels_rng : Forall oreloc_rng (rels o).
  Proof using RNG.
    clear FIT. destruct RNG as (_ & _ & _ & _ & _ & _ & R1 & R2). rewrite rels_flat. apply Forall_flat_map, Forall_forall.
    intros s Hs. apply filter_In in Hs. destruct Hs as [[<-|[<-|[<-|[]]]] _]; cbn [sr_relocs]; auto.
  Qed.
  Lemma gen_rels_ok : representable o -> gen_relocation_infos o (e_nlists o) (e_tab o) = Ok (e_rels o).
  Proof using p RNG FIT.
    intros [A R]. apply names_ascii in A. unfold gen_relocation_infos. fold SS. rewrite <- rels_flat.
    apply mapM_ok. intros r Hr. pose proof rels_rng as K. rewrite Forall_forall in *. destruct (R r Hr) as [R1 R2].
    rewrite gen_rel_eq by (auto; rewrite Forall_forall; auto).
    replace (rl_len r <=? 3) with true by lia.
    destruct (find_str (rl_symbol r) (map resolved (names o))) eqn:E; [reflexivity|]. apply find_str_none in E. contradiction.
  Qed.
  Lemma mapM_panic {A B} (f : A -> res B) l x : In x l -> f x = Panic -> mapM f l = Panic.
  Proof using.
    clear. induction l as [|y l IH]; [contradiction|]. intros [->|H] E; cbn [mapM].
    - now rewrite E.
    - rewrite IH by assumption. destruct (f y); reflexivity.
  Qed.
  Lemma gen_rels_panic : Forall ascii_str (names o) -> ~ representable o ->
    gen_relocation_infos o (e_nlists o) (e_tab o) = Panic.
  Proof using p RNG FIT.
    intros A N. unfold gen_relocation_infos. fold SS. rewrite <- rels_flat.
    destruct (Forall_Exists_dec (fun r => rl_len r <= 3 /\ In (rl_symbol r) (map resolved (names o)))) with (l := rels o) as [F|F].
    { intros r. destruct (Z_le_dec (rl_len r) 3) as [L|L]; [|right; tauto].
      destruct (in_dec str_eq_dec (rl_symbol r) (map resolved (names o))) as [I|I]; [left; tauto|right; tauto]. }
    { exfalso. apply N. split; [now apply names_ascii|exact F]. }
    apply Exists_exists in F. destruct F as (r & Hr & NR). apply (mapM_panic _ _ r Hr).
    pose proof rels_rng as K. rewrite Forall_forall in K. rewrite gen_rel_eq by auto.
    destruct (rl_len r <=? 3) eqn:E; [|reflexivity].
    destruct (find_str (rl_symbol r) (map resolved (names o))) eqn:E2; [|reflexivity].
    exfalso. apply NR. split; [lia|]. destruct (in_dec str_eq_dec (rl_symbol r) (map resolved (names o))) as [I|I]; [exact I|].
    apply find_str_none in I. congruence.
  Qed.

  (** section headers are well-formed *)
  Lemma sects_wf : Forall (fun x => section_rng x /\ name16 (sc_sectname x) /\ name16 (sc_segname x)) (e_sects o).
  Proof using RNG FIT.
    fb. pose proof vm_total_eq as [V1 V2]. unfold e_sects. rewrite secs_view.
    assert (G : forall l a off roff, Forall (fun s => 0 <= sr_vm_size s) l -> 0 <= a -> a + zsum (map sr_vm_size l) < 2 ^ 64 ->
       0 <= off -> off + zlen (flat_map sr_file_data l) < 2 ^ 32 ->
       0 <= roff -> roff + 8 * zlen (flat_map sr_relocs l) < 2 ^ 32 ->
       Forall (fun x => section_rng x /\ name16 (sc_sectname x) /\ name16 (sc_segname x)) (sects (map view l) a off roff)).
    { clear. induction l as [|s l IH]; intros a off roff F A1 A2 O1 O2 R1 R2; cbn [map sects]; [constructor|].
      inversion_clear F as [|? ? Fs Fl]. cbn [map flat_map zsum fold_right] in *. fold (zsum (map sr_vm_size l)) in *.
      rewrite !zlen_app in *. pose proof (zsum_nonneg (map sr_vm_size l)) as Z1. rewrite Forall_map in Z1. specialize (Z1 Fl).
      pose proof (zlen_nonneg (sr_file_data s)). pose proof (zlen_nonneg (flat_map sr_file_data l)).
      pose proof (zlen_nonneg (sr_relocs s)). pose proof (zlen_nonneg (flat_map sr_relocs l)).
      constructor; [|apply IH; rewrite ?view_size, ?view_bytes, ?view_rels; (assumption || lia)].
      assert (NM : name16 (os_name (view s)) /\ name16 (os_seg (view s))).
      { destruct s; cbn [view os_name os_seg]; split; apply name16_dec; reflexivity. }
      split; [|exact NM]. unfold section_rng, sect_of.
      cbn [sc_sectname sc_segname sc_addr sc_size sc_offset sc_align sc_reloff sc_nreloc sc_reserved1 sc_reserved2 sc_reserved3].
      rewrite view_rels, view_size. unfold inu.
      split; [now apply ascii_str_ok, name16_ascii|]. split; [now apply ascii_str_ok, name16_ascii|].
      destruct (os_zerofill (view s)); repeat split; lia. }
    apply G; try lia. apply ss_sizes.
  Qed.
  Lemma wf_segment : lc_wf (LcSegment64 (e_segment o) (e_sects o)).
  Proof using RNG FIT.
    fb. pose proof vm_total_eq as [V1 V2]. cbn [lc_wf].
    assert (LL : zlen (e_sects o) = zlen (secs o)) by (unfold zlen, e_sects; now rewrite sects_length).
    unfold segment_rng, e_segment. projs. cbn [sg_cmd sg_cmdsize sg_segname sg_vmaddr sg_vmsize sg_fileoff sg_filesize sg_maxprot sg_initprot sg_nsects sg_flags].
    rewrite LL, secs_len in *. change (2 ^ 32) with 4294967296 in *. change (2 ^ 64) with 18446744073709551616 in *.
    split; [|split; [now apply name16_dec|split; [reflexivity|split; [reflexivity|split; [reflexivity|apply sects_wf]]]]].
    unfold inu, ini. change (2 ^ 32) with 4294967296. change (2 ^ 64) with 18446744073709551616.
    change (2 ^ (32 - 1)) with 2147483648.
    split; [lia|]. split; [lia|]. split; [constructor|]. lia.
  Qed.
  Lemma wf_symtab : lc_wf (LcSymtab (e_symtab o)).
  Proof using RNG FIT.
    fb. pose proof nsyms_bound. pose proof (zlen_nonneg (syms o)). cbn [lc_wf]. unfold symtab_rng, e_symtab.
    cbn [st_cmd st_cmdsize st_symoff st_nsyms st_stroff st_strsize].
    repeat match goal with |- _ /\ _ => split end; try reflexivity; unfold inu; lia.
  Qed.
  Lemma wf_header : header_rng (e_header o).
  Proof using RNG FIT.
    fb. unfold header_rng, e_header. cbn [h_ncmds h_size_of_cmds h_reserved]. rewrite secs_len. unfold inu. lia.
  Qed.

  Lemma write_head K : 
    (wbind (gen_header64 p o) (write_header64 h) >>>
     wbind (gen_segment_command64 p o) (write_segment64 h) >>>
     wbind (gen_section64s p o) (fun sections =>
       wlist (map (write_section64 h) sections) >>>
       wbind (gen_symtab_command p o) (write_symtab h) >>>
       write_section_data_into p o >>> K sections))
    = (e_head h o, true) >>> K (e_sects o).
  Proof using RNG FIT.
    rewrite gen_header_eq, gen_segment_eq, gen_sections_eq, gen_symtab_eq, write_data_eq. cbn [wbind].
    rewrite header_write. pose proof wf_segment as W. cbn [lc_wf] in W. destruct W as (_ & N & _ & _ & _ & F).
    rewrite segment_write by assumption. rewrite (wlist_map_ok _ (section_bytes h)).
    2:{ intros x Hx. rewrite Forall_forall in F. destruct (F x Hx) as (_ & N1 & N2). now apply section_write. }
    rewrite symtab_write. unfold wseq, e_head. cbn [snd fst]. rewrite <- !app_assoc. reflexivity.
  Qed.
  Theorem write_ok : representable o -> macho_write_into p h o = (e_head h o ++ e_tail h o, true).
  Proof using RNG FIT.
    intros R. unfold macho_write_into. rewrite write_head.
    pose proof R as [A _]. apply names_ascii in A. rewrite gen_tab_eq by assumption. cbn [wbind].
    rewrite gen_nlists_ok by assumption. cbn [wbind]. rewrite gen_rels_ok by assumption. cbn [wbind].
    rewrite (wlist_map_ok _ (reloc_bytes h)) by (intros; apply reloc_write).
    rewrite (wlist_map_ok _ (nlist_bytes h)) by (intros; apply nlist_write).
    unfold wseq, e_tail, wemit. cbn [snd fst]. reflexivity.
  Qed.
  Theorem write_fail : ~ representable o -> macho_write_into p h o = (e_head h o, false).
  Proof using RNG FIT.
    intros R. unfold macho_write_into. rewrite write_head.
    assert (D : {Forall ascii_str (names o)} + {~ Forall ascii_str (names o)}).
    { apply Forall_dec. intros s. apply Forall_dec. intros c. destruct (Z_le_dec 0 c), (Z_lt_dec c 128); (left; lia) || (right; lia). }
    destruct D as [A|A].
    - rewrite gen_tab_eq by assumption. cbn [wbind]. rewrite gen_nlists_ok by assumption. cbn [wbind].
      rewrite gen_rels_panic by assumption. cbn [wbind]. unfold wseq, wpanic. cbn [snd fst]. now rewrite app_nil_r.
    - rewrite gen_tab_panic by assumption. cbn [wbind]. unfold wseq, wpanic. cbn [snd fst]. now rewrite app_nil_r.
  Qed.
End Gen.
