(** `==`: lemmas for C97. *)
From Coq Require Import Bool.
From Verif Require Import Base Str X64 Mac SpecMacho Obj SpecObj Asm SpecAsm Derive SpecDerive PfDerive2 PfRun2 Equal.

Lemma eq_list_iff {A} (eq : A -> A -> bool) (P : A -> Prop) :
  (forall a b, P a -> P b -> (eq a b = true <-> a = b)) ->
  forall l l', Forall P l -> Forall P l' -> (eq_list eq l l' = true <-> l = l').
Proof.
  intros E. unfold eq_list. induction l as [|a l IH]; intros [|b l'] F F'; cbn [length combine forallb Nat.eqb andb fst snd].
  - intuition.
  - intuition discriminate.
  - intuition discriminate.
  - inversion_clear F. inversion_clear F'. specialize (IH l' H0 H2). specialize (E a b H H1).
    rewrite andb_true_iff in IH |- *. rewrite andb_true_iff. split.
    + intros (L & X & Y). f_equal; [now apply E|]. apply IH. now split.
    + intros Q. injection Q as -> ->. destruct IH as (_ & IH). destruct (IH eq_refl). split; [assumption|]. split; [now apply E|assumption].
Qed.
Lemma eq_zs l l' : eq_list Z.eqb l l' = true <-> l = l'.
Proof.
  apply (eq_list_iff Z.eqb (fun _ => True)); [intros; apply Z.eqb_eq|apply Forall_forall; intros; exact I|apply Forall_forall; intros; exact I].
Qed.
Lemma eq_str_iff a b : str_ok a -> str_ok b -> (eq_str a b = true <-> a = b).
Proof. intros A B. unfold eq_str. rewrite eq_zs. split; [now apply utf8_inj|now intros ->]. Qed.
Lemma eq_option_iff {A} (eq : A -> A -> bool) (P : A -> Prop) :
  (forall a b, P a -> P b -> (eq a b = true <-> a = b)) ->
  forall o o', match o with Some a => P a | None => True end -> match o' with Some a => P a | None => True end ->
  (eq_option eq o o' = true <-> o = o').
Proof.
  intros E [a|] [b|] F F'; cbn [eq_option]; [|intuition discriminate|intuition discriminate|intuition].
  rewrite (E a b F F'). split; [now intros ->|]. intros Q. now injection Q.
Qed.

Ltac enum_eq := intros [] []; vm_compute; intuition congruence.
Lemma eq_reg64_iff : forall a b, eq_reg64 a b = true <-> a = b. Proof. enum_eq. Qed.
Lemma eq_reg32_iff : forall a b, eq_reg32 a b = true <-> a = b. Proof. enum_eq. Qed.
Lemma eq_reg16_iff : forall a b, eq_reg16 a b = true <-> a = b. Proof. enum_eq. Qed.
Lemma eq_reg8_iff : forall a b, eq_reg8 a b = true <-> a = b. Proof. enum_eq. Qed.
Lemma eq_endian_iff : forall a b, eq_endian a b = true <-> a = b. Proof. enum_eq. Qed.
Lemma eq_magic_iff : forall a b, eq_magic a b = true <-> a = b. Proof. enum_eq. Qed.
Lemma eq_sub_iff : forall a b, eq_cpu_sub_x86 a b = true <-> a = b. Proof. enum_eq. Qed.
Lemma eq_sub64_iff : forall a b, eq_cpu_sub_x86_64 a b = true <-> a = b. Proof. enum_eq. Qed.
Lemma eq_cpu_type_iff : forall a b, eq_cpu_type a b = true <-> a = b.
Proof. intros [[]|[]] [[]|[]]; vm_compute; intuition congruence. Qed.
Lemma eq_file_type_iff : forall a b, eq_file_type a b = true <-> a = b. Proof. enum_eq. Qed.
Lemma eq_flag_iff : forall a b, eq_flag a b = true <-> a = b. Proof. enum_eq. Qed.
Lemma eq_section_type_iff : forall a b, eq_section_type a b = true <-> a = b. Proof. enum_eq. Qed.
Lemma eq_attr_iff : forall a b, eq_attr a b = true <-> a = b. Proof. enum_eq. Qed.
Lemma eq_platform_iff : forall a b, eq_platform a b = true <-> a = b. Proof. enum_eq. Qed.
Lemma eq_tool_iff : forall a b, eq_tool a b = true <-> a = b. Proof. enum_eq. Qed.
Lemma eq_n_type_iff : forall a b, eq_n_type a b = true <-> a = b. Proof. enum_eq. Qed.
Lemma eq_debug_symbol_iff : forall a b, eq_debug_symbol a b = true <-> a = b. Proof. enum_eq. Qed.
Lemma eq_reloc_length_iff : forall a b, eq_reloc_length a b = true <-> a = b. Proof. enum_eq. Qed.
Lemma eq_x86_reloc_iff : forall a b, eq_x86_reloc a b = true <-> a = b. Proof. enum_eq. Qed.
Lemma eq_x86_64_reloc_iff : forall a b, eq_x86_64_reloc a b = true <-> a = b. Proof. enum_eq. Qed.
Lemma eq_sect_iff : forall a b, eq_sect a b = true <-> a = b. Proof. enum_eq. Qed.
Lemma any {A} (l : list A) : Forall (fun _ => True) l.
Proof. apply Forall_forall. intros. exact I. Qed.
Lemma eq_flags_iff a b : eq_flags a b = true <-> a = b.
Proof. apply (eq_list_iff eq_flag (fun _ => True)); [intros; apply eq_flag_iff|apply any|apply any]. Qed.
Lemma eq_attrs_iff a b : eq_attrs a b = true <-> a = b.
Proof. apply (eq_list_iff eq_attr (fun _ => True)); [intros; apply eq_attr_iff|apply any|apply any]. Qed.

Lemma eq_reg_iff a b : eq_reg a b = true <-> a = b.
Proof.
  destruct a, b; cbn [eq_reg]; try (split; [discriminate|discriminate]);
  rewrite ?eq_reg64_iff, ?eq_reg32_iff, ?eq_reg16_iff, ?eq_reg8_iff; split; congruence.
Qed.
Lemma eq_mem64_iff a b : eq_mem64 a b = true <-> a = b.
Proof.
  destruct a, b; cbn [eq_mem64]; try (split; [discriminate|discriminate]);
  rewrite ?andb_true_iff, ?eq_reg64_iff, ?Z.eqb_eq; [intuition congruence|intuition congruence|].
  rewrite (eq_option_iff eq_reg64 (fun _ => True)); [intuition congruence|intros; apply eq_reg64_iff|now destruct base|now destruct base0].
Qed.
Lemma eq_bam_iff a b : eq_bam a b = true <-> a = b.
Proof. destruct a, b. unfold eq_bam. cbn. rewrite andb_true_iff, eq_zs, Nat.eqb_eq. intuition congruence. Qed.
Lemma eq_n_type_field_iff a b : eq_n_type_field a b = true <-> a = b.
Proof.
  destruct a, b; cbn [eq_n_type_field]; try (split; [discriminate|discriminate]);
  rewrite ?andb_true_iff, ?eqb_true_iff, ?eq_n_type_iff, ?eq_debug_symbol_iff; intuition congruence.
Qed.

(** records *)
Ltac rec_eq := rewrite ?andb_true_iff, ?Z.eqb_eq, ?eqb_true_iff, ?eq_magic_iff, ?eq_cpu_type_iff, ?eq_file_type_iff, ?eq_flags_iff,
  ?eq_attrs_iff, ?eq_section_type_iff, ?eq_platform_iff, ?eq_tool_iff, ?eq_n_type_field_iff, ?eq_reloc_length_iff; cbn.
Lemma eq_header_iff x y : eq_header64 x y = true <-> x = y.
Proof. destruct x, y. unfold eq_header64. rec_eq. split; [intros H; decompose [and] H; now subst|intros H; inversion H; tauto]. Qed.
Lemma eq_symtab_iff x y : eq_symtab x y = true <-> x = y.
Proof. destruct x, y. unfold eq_symtab. rec_eq. split; [intros H; decompose [and] H; now subst|intros H; inversion H; tauto]. Qed.
Lemma eq_dysymtab_iff x y : eq_dysymtab x y = true <-> x = y.
Proof. destruct x, y. unfold eq_dysymtab. rec_eq. split; [intros H; decompose [and] H; now subst|intros H; inversion H; tauto]. Qed.
Lemma eq_version_iff x y : eq_version x y = true <-> x = y.
Proof. destruct x, y. unfold eq_version. rec_eq. split; [intros H; decompose [and] H; now subst|intros H; inversion H; tauto]. Qed.
Lemma eq_build_version_iff x y : eq_build_version x y = true <-> x = y.
Proof.
  destruct x, y. unfold eq_build_version. rec_eq. rewrite !eq_version_iff.
  split; [intros H; decompose [and] H; now subst|intros H; inversion H; tauto].
Qed.
Lemma eq_build_tool_iff x y : eq_build_tool x y = true <-> x = y.
Proof. destruct x, y. unfold eq_build_tool. rec_eq. split; [intros H; decompose [and] H; now subst|intros H; inversion H; tauto]. Qed.
Lemma eq_nlist_iff x y : eq_nlist64 x y = true <-> x = y.
Proof. destruct x, y. unfold eq_nlist64. rec_eq. split; [intros H; decompose [and] H; now subst|intros H; inversion H; tauto]. Qed.
Lemma eq_reloc_iff x y : eq_reloc_info x y = true <-> x = y.
Proof. destruct x, y. unfold eq_reloc_info. rec_eq. split; [intros H; decompose [and] H; now subst|intros H; inversion H; tauto]. Qed.
Lemma eq_segment_iff x y : segment_rng x -> segment_rng y -> (eq_segment64 x y = true <-> x = y).
Proof.
  intros (_ & _ & N & _) (_ & _ & M & _). destruct x, y. unfold eq_segment64. cbn in N, M. rec_eq. rewrite (eq_str_iff _ _ N M).
  split; [intros H; decompose [and] H; now subst|intros H; inversion H; tauto].
Qed.
Lemma eq_section_iff x y : section_rng x -> section_rng y -> (eq_section64 x y = true <-> x = y).
Proof.
  intros (N & N' & _) (M & M' & _). destruct x, y. unfold eq_section64. cbn in N, M, N', M'. rec_eq.
  rewrite (eq_str_iff _ _ N M), (eq_str_iff _ _ N' M').
  split; [intros H; decompose [and] H; now subst|intros H; inversion H; tauto].
Qed.
Lemma eq_load_command_iff x y : value_ok (VLoadCommand x) -> value_ok (VLoadCommand y) -> (eq_load_command x y = true <-> x = y).
Proof.
  destruct x, y; cbn [value_ok eq_load_command]; intros V W; try (split; discriminate).
  - destruct V as (V1 & V2), W as (W1 & W2). rewrite andb_true_iff, (eq_segment_iff _ _ V1 W1).
    rewrite (eq_list_iff eq_section64 section_rng eq_section_iff _ _ V2 W2). intuition congruence.
  - rewrite eq_symtab_iff. intuition congruence.
  - rewrite eq_dysymtab_iff. intuition congruence.
  - rewrite andb_true_iff, eq_build_version_iff.
    rewrite (eq_list_iff eq_build_tool (fun _ => True) (fun a b _ _ => eq_build_tool_iff a b) _ _ (any _) (any _)). intuition congruence.
Qed.
Lemma eq_symbol_iff x y : symbol_rng x -> symbol_rng y -> (eq_symbol x y = true <-> x = y).
Proof.
  intros (V & _) (W & _). destruct x, y; cbn [sym_name eq_symbol] in *; try (split; discriminate);
  rewrite ?andb_true_iff, ?Z.eqb_eq, ?eqb_true_iff, (eq_str_iff _ _ V W); intuition congruence.
Qed.
Lemma eq_data_iff x y : value_ok (VData x) -> value_ok (VData y) -> (eq_data x y = true <-> x = y).
Proof.
  destruct x as [n l], y as [m k]. cbn [value_ok da_label da_bytes]. intros (_ & V) (_ & W). unfold eq_data. cbn [da_label da_bytes].
  rewrite andb_true_iff, eq_zs, (eq_option_iff eq_str str_ok eq_str_iff _ _ V W). intuition congruence.
Qed.

Lemma top_C97_content a b : value_ok a -> value_ok b -> (eq_value a b = true <-> a = b).
Proof.
  intros V W. destruct a, b; try (split; discriminate); cbn [eq_value];
  rewrite ?eq_reg64_iff, ?eq_reg32_iff, ?eq_reg16_iff, ?eq_reg8_iff, ?eq_reg_iff, ?eq_mem64_iff, ?eq_bam_iff, ?eq_endian_iff, ?eq_magic_iff,
    ?eq_sub_iff, ?eq_sub64_iff, ?eq_cpu_type_iff, ?eq_file_type_iff, ?eq_flag_iff, ?eq_flags_iff, ?eq_header_iff, ?eq_section_type_iff,
    ?eq_attr_iff, ?eq_attrs_iff, ?eq_symtab_iff, ?eq_dysymtab_iff, ?eq_platform_iff, ?eq_version_iff, ?eq_build_version_iff, ?eq_tool_iff,
    ?eq_build_tool_iff, ?eq_n_type_iff, ?eq_debug_symbol_iff, ?eq_n_type_field_iff, ?eq_nlist_iff, ?eq_reloc_length_iff, ?eq_reloc_iff,
    ?eq_x86_reloc_iff, ?eq_x86_64_reloc_iff, ?eq_sect_iff, ?Z.eqb_eq, ?(eq_segment_iff _ _ V W), ?(eq_section_iff _ _ V W),
    ?(eq_load_command_iff _ _ V W), ?(eq_symbol_iff _ _ V W), ?(eq_data_iff _ _ V W), ?(eq_str_iff _ _ V W); split; congruence.
Qed.
Lemma top_C97_shown esc alt a b : type_of a = type_of b -> value_ok a -> value_ok b ->
  (eq_value a b = true <-> format esc alt a = format esc alt b).
Proof. intros T V W. rewrite (top_C97_content a b V W). split; [now intros ->|now apply top_C92_injective]. Qed.
Lemma top_C97_equivalence a b c : value_ok a -> value_ok b -> value_ok c ->
  eq_value a a = true /\ eq_value a b = eq_value b a /\ (eq_value a b = true -> eq_value b c = true -> eq_value a c = true).
Proof.
  intros A B C. split; [now apply top_C97_content|]. split.
  - apply eq_true_iff_eq. rewrite !top_C97_content by assumption. split; congruence.
  - rewrite !top_C97_content by assumption. congruence.
Qed.
