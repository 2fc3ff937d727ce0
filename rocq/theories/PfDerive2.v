(** Proofs for C92, continued: the values. *)
From Coq Require Import String.
From Verif Require Import Base Str X64 Mac SpecMacho Obj SpecObj Asm SpecAsm Dbg SpecDbg PfTok SpecDiag PfDiag Derive SpecDerive PfDerive.

(** ** well-formed trees *)
Definition idchb (c : Z) : bool :=
  (48 <=? c) && (c <=? 57) || (65 <=? c) && (c <=? 90) || (97 <=? c) && (c <=? 122) || (c =? 95) || (c =? 45).
Definition nameb (s : str) : bool := match s with [] => false | _ => forallb idchb s end.
Lemma idchb_ok s : forallb idchb s = true -> Forall idch s.
Proof.
  intros H. apply Forall_forall. intros c I. rewrite forallb_forall in H. apply H in I. unfold idchb in I. unfold idch.
  repeat (apply Bool.orb_prop in I; destruct I as [I|I]); try (apply andb_prop in I; destruct I as [I1 I2]; apply Z.leb_le in I1, I2; lia);
  apply Z.eqb_eq in I; lia.
Qed.
Lemma nameb_ok s : nameb s = true -> s <> [] /\ Forall idch s.
Proof. destruct s; [discriminate|]. intros H. split; [discriminate|now apply idchb_ok]. Qed.
Lemma wf_unit s : nameb (lit s) = true -> wf (dv_unit s).
Proof. intros H. exact (nameb_ok _ H). Qed.
Lemma wf_bool b : wf (dv_bool b).
Proof. apply nameb_ok. now destruct b. Qed.
Lemma wf_tuple s l : forallb idchb (lit s) = true -> l <> [] -> Forall wf l -> wf (dv_tuple s l).
Proof.
  intros H N F. apply wf_node. split; [split; [now apply idchb_ok|]|].
  - destruct l; [congruence|discriminate].
  - unfold unlabelled. rewrite Forall_map. eapply Forall_impl; [|exact F]. intros v W. now split.
Qed.
Lemma wf_list l : Forall wf l -> wf (dv_list l).
Proof.
  intros F. apply wf_node. split; [reflexivity|]. unfold unlabelled. rewrite Forall_map. eapply Forall_impl; [|exact F]. intros v W. now split.
Qed.
Lemma wf_set l : Forall wf l -> wf (dv_set l).
Proof.
  intros F. apply wf_node. split; [reflexivity|]. unfold unlabelled. rewrite Forall_map. eapply Forall_impl; [|exact F]. intros v W. now split.
Qed.
Lemma wf_struct s l : nameb (lit s) = true -> l <> [] ->
  forallb (fun e : string * dval => nameb (lit (fst e))) l = true -> Forall (fun e => wf (snd e)) l -> wf (dv_struct s l).
Proof.
  intros H N L F. apply wf_node. split; [destruct (nameb_ok _ H); repeat split; try assumption; destruct l; [congruence|discriminate]|].
  rewrite Forall_map. rewrite forallb_forall in L. rewrite Forall_forall in *. intros e I. split; [apply nameb_ok, L, I|apply F, I].
Qed.
Lemma wf_option A (f : A -> dval) o : (forall a, o = Some a -> wf (f a)) -> wf (dv_option f o).
Proof. intros H. destruct o as [a|]; [|now apply wf_unit]. apply wf_tuple; [reflexivity|discriminate|]. constructor; [now apply H|constructor]. Qed.

Definition num_ok (n : Z) : Prop := - 2 ^ 64 < n < 2 ^ 64.
Lemma inu_num k n : 0 <= k <= 64 -> inu k n -> num_ok n.
Proof. unfold inu, num_ok. intros K H. pose proof (Z.pow_le_mono_r 2 k 64 ltac:(lia) ltac:(lia)). lia. Qed.
Lemma ini_num n : ini 32 n -> num_ok n.
Proof. unfold ini, num_ok. change (32 - 1) with 31. lia. Qed.
Lemma show_chars n : 0 <= n < 2 ^ 64 -> show_u64 n <> [] /\ Forall (fun c => 48 <= c <= 57) (show_u64 n).
Proof.
  intros R. destruct (show_decimal n R) as [N _]. split; [now apply numeral_chars in N|].
  generalize dependent (show_u64 n). intros s N. clear R. induction N as [c d D|s v c d N IH D].
  - constructor; [inversion D; lia|constructor].
  - apply Forall_app. split; [exact IH|constructor; [inversion D; lia|constructor]].
Qed.
Lemma wf_num n : num_ok n -> wf (dv_num n).
Proof.
  intros R. unfold num_ok in R. unfold dv_num. cbn [wf].
  assert (G : forall m, 0 <= m < 2 ^ 64 -> Forall idch (show_u64 m)).
  { intros m Rm. destruct (show_chars m Rm) as [_ F]. eapply Forall_impl; [|exact F]. intros c. unfold idch. lia. }
  destruct (n <? 0) eqn:S.
  - split; [discriminate|]. constructor; [unfold idch; lia|apply G; lia].
  - split; [apply show_chars; lia|apply G; lia].
Qed.
Lemma show_inj a b : 0 <= a < 2 ^ 64 -> 0 <= b < 2 ^ 64 -> show_u64 a = show_u64 b -> a = b.
Proof.
  intros A B E. destruct (show_decimal a A) as [Na _], (show_decimal b B) as [Nb _]. rewrite E in Na.
  eapply (numeral_fun 10); [lia|eassumption|eassumption].
Qed.
Lemma num_inj a b : num_ok a -> num_ok b -> dv_num a = dv_num b -> a = b.
Proof.
  unfold num_ok, dv_num. intros A B E. injection E as E. destruct (a <? 0) eqn:Sa, (b <? 0) eqn:Sb.
  - injection E as E. apply show_inj in E; lia.
  - destruct (show_chars b ltac:(lia)) as [_ F]. rewrite <- E in F. inversion F; subst. lia.
  - destruct (show_chars a ltac:(lia)) as [_ F]. rewrite E in F. inversion F; subst. lia.
  - apply show_inj in E; lia.
Qed.

(** ** types *)
Lemma cons_inv {A} (x y : A) l l' : x :: l = y :: l' -> x = y /\ l = l'.
Proof. intros E. injection E as -> ->. now split. Qed.
Lemma struct_inv s s' l l' : dv_struct s l = dv_struct s' l' -> lit s = lit s' /\ map snd l = map snd l'.
Proof.
  intros E. unfold dv_struct in E. injection E as E1 E2. split; [exact E1|].
  apply (f_equal (map snd)) in E2. rewrite !map_map in E2. exact E2.
Qed.
Lemma unlabelled_inj l : forall l', unlabelled l = unlabelled l' -> l = l'.
Proof.
  induction l as [|x l IH]; intros [|y l'] E; try discriminate; [reflexivity|]. cbn [unlabelled map] in E. injection E as -> E. f_equal. now apply IH.
Qed.
Lemma tuple_inv s s' l l' : dv_tuple s l = dv_tuple s' l' -> lit s = lit s' /\ l = l'.
Proof. intros E. unfold dv_tuple in E. injection E as E1 E2. split; [exact E1|now apply unlabelled_inj]. Qed.
Lemma list_inv l l' : dv_list l = dv_list l' -> l = l'.
Proof. intros E. unfold dv_list in E. injection E as E2. now apply unlabelled_inj. Qed.
Lemma set_inv l l' : dv_set l = dv_set l' -> l = l'.
Proof. intros E. unfold dv_set in E. injection E as E2. now apply unlabelled_inj. Qed.
Lemma map_inj {A B} (f : A -> B) (P : A -> Prop) l : (forall a b, P a -> P b -> f a = f b -> a = b) ->
  forall l', Forall P l -> Forall P l' -> map f l = map f l' -> l = l'.
Proof.
  intros H. induction l as [|x l IH]; intros [|y l'] F F' E; try discriminate; [reflexivity|].
  cbn [map] in E. apply cons_inv in E. destruct E as [E1 E2]. inversion F; subst. inversion F'; subst. f_equal; [now apply H|now apply IH].
Qed.
Lemma bool_inj a b : dv_bool a = dv_bool b -> a = b.
Proof. destruct a, b; intros H; try reflexivity; vm_compute in H; discriminate. Qed.
Lemma str_inj a b : DvStr a = DvStr b -> a = b.
Proof. congruence. Qed.
Lemma option_inj {A} (f : A -> dval) o o' : (forall a b, f a = f b -> a = b) -> dv_option f o = dv_option f o' -> o = o'.
Proof.
  intros H E. destruct o as [a|], o' as [b|]; cbn [dv_option] in E; try reflexivity; try discriminate.
  apply tuple_inv in E. destruct E as [_ E]. apply cons_inv in E. destruct E as [E _]. f_equal. now apply H.
Qed.

Ltac enum_wf := intros []; first [apply wf_unit; reflexivity | apply nameb_ok; reflexivity].
Ltac enum_inj := intros [] [] H; first [reflexivity | (vm_compute in H; discriminate)].
Lemma wf_reg64 r : wf (dv_reg64 r). Proof. revert r. enum_wf. Qed.
Lemma wf_reg32 r : wf (dv_reg32 r). Proof. revert r. enum_wf. Qed.
Lemma wf_reg16 r : wf (dv_reg16 r). Proof. revert r. enum_wf. Qed.
Lemma wf_reg8 r : wf (dv_reg8 r). Proof. revert r. enum_wf. Qed.
Lemma wf_endian r : wf (dv_endian r). Proof. revert r. enum_wf. Qed.
Lemma wf_magic r : wf (dv_magic r). Proof. revert r. enum_wf. Qed.
Lemma wf_sub r : wf (dv_cpu_sub_x86 r). Proof. revert r. enum_wf. Qed.
Lemma wf_sub64 r : wf (dv_cpu_sub_x86_64 r). Proof. revert r. enum_wf. Qed.
Lemma wf_file_type r : wf (dv_file_type r). Proof. revert r. enum_wf. Qed.
Lemma wf_flag r : wf (dv_flag r). Proof. revert r. enum_wf. Qed.
Lemma wf_section_type r : wf (dv_section_type r). Proof. revert r. enum_wf. Qed.
Lemma wf_attr r : wf (dv_attr r). Proof. revert r. enum_wf. Qed.
Lemma wf_platform r : wf (dv_platform r). Proof. revert r. enum_wf. Qed.
Lemma wf_tool r : wf (dv_tool r). Proof. revert r. enum_wf. Qed.
Lemma wf_n_type r : wf (dv_n_type r). Proof. revert r. enum_wf. Qed.
Lemma wf_debug_symbol r : wf (dv_debug_symbol r). Proof. revert r. enum_wf. Qed.
Lemma wf_reloc_length r : wf (dv_reloc_length r). Proof. revert r. enum_wf. Qed.
Lemma wf_x86_reloc r : wf (dv_x86_reloc r). Proof. revert r. enum_wf. Qed.
Lemma wf_x86_64_reloc r : wf (dv_x86_64_reloc r). Proof. revert r. enum_wf. Qed.
Lemma wf_sect r : wf (dv_sect r). Proof. revert r. enum_wf. Qed.
Lemma reg64_inj a b : dv_reg64 a = dv_reg64 b -> a = b. Proof. revert a b. enum_inj. Qed.
Lemma reg32_inj a b : dv_reg32 a = dv_reg32 b -> a = b. Proof. revert a b. enum_inj. Qed.
Lemma reg16_inj a b : dv_reg16 a = dv_reg16 b -> a = b. Proof. revert a b. enum_inj. Qed.
Lemma reg8_inj a b : dv_reg8 a = dv_reg8 b -> a = b. Proof. revert a b. enum_inj. Qed.
Lemma endian_inj a b : dv_endian a = dv_endian b -> a = b. Proof. revert a b. enum_inj. Qed.
Lemma magic_inj a b : dv_magic a = dv_magic b -> a = b. Proof. revert a b. enum_inj. Qed.
Lemma sub_inj a b : dv_cpu_sub_x86 a = dv_cpu_sub_x86 b -> a = b. Proof. revert a b. enum_inj. Qed.
Lemma sub64_inj a b : dv_cpu_sub_x86_64 a = dv_cpu_sub_x86_64 b -> a = b. Proof. revert a b. enum_inj. Qed.
Lemma file_type_inj a b : dv_file_type a = dv_file_type b -> a = b. Proof. revert a b. enum_inj. Qed.
Lemma flag_inj a b : dv_flag a = dv_flag b -> a = b. Proof. revert a b. enum_inj. Qed.
Lemma section_type_inj a b : dv_section_type a = dv_section_type b -> a = b. Proof. revert a b. enum_inj. Qed.
Lemma attr_inj a b : dv_attr a = dv_attr b -> a = b. Proof. revert a b. enum_inj. Qed.
Lemma platform_inj a b : dv_platform a = dv_platform b -> a = b. Proof. revert a b. enum_inj. Qed.
Lemma tool_inj a b : dv_tool a = dv_tool b -> a = b. Proof. revert a b. enum_inj. Qed.
Lemma n_type_inj a b : dv_n_type a = dv_n_type b -> a = b. Proof. revert a b. enum_inj. Qed.
Lemma debug_symbol_inj a b : dv_debug_symbol a = dv_debug_symbol b -> a = b. Proof. revert a b. enum_inj. Qed.
Lemma reloc_length_inj a b : dv_reloc_length a = dv_reloc_length b -> a = b. Proof. revert a b. enum_inj. Qed.
Lemma x86_reloc_inj a b : dv_x86_reloc a = dv_x86_reloc b -> a = b. Proof. revert a b. enum_inj. Qed.
Lemma x86_64_reloc_inj a b : dv_x86_64_reloc a = dv_x86_64_reloc b -> a = b. Proof. revert a b. enum_inj. Qed.
Lemma sect_inj a b : dv_sect a = dv_sect b -> a = b. Proof. revert a b. enum_inj. Qed.
Lemma cpu_type_inj a b : dv_cpu_type a = dv_cpu_type b -> a = b. Proof. revert a b. intros [[]|[]] [[]|[]] H; first [reflexivity | (vm_compute in H; discriminate)]. Qed.
Lemma wf_cpu_type r : wf (dv_cpu_type r).
Proof. destruct r as [s|s]; (apply wf_tuple; [reflexivity|discriminate|]); constructor; first [apply wf_sub|apply wf_sub64|constructor]. Qed.
Lemma n_type_field_inj a b : dv_n_type_field a = dv_n_type_field b -> a = b.
Proof. destruct a as [[] [] []|[]], b as [[] [] []|[]]; intros H; first [reflexivity | (vm_compute in H; discriminate)]. Qed.

Ltac numok := match goal with |- num_ok ?n => first [ match goal with H : inu ?k n |- _ => apply (inu_num k n); [lia|exact H] end | match goal with H : ini 32 n |- _ => exact (ini_num n H) end ] end.
Ltac rng := repeat match goal with H : _ /\ _ |- _ => destruct H end.
Ltac wf1 := cbn [snd]; first [ apply wf_num; numok | apply wf_bool | exact (wf_reg64 _) | apply wf_magic | apply wf_cpu_type | apply wf_file_type | apply wf_section_type
  | apply wf_platform | apply wf_tool | apply wf_n_type | apply wf_reloc_length | assumption | idtac ].
Ltac wfs := apply wf_struct; [reflexivity|discriminate|reflexivity|]; repeat (apply Forall_cons; [wf1|]); try apply Forall_nil.
Ltac wft := apply wf_tuple; [reflexivity|discriminate|]; repeat (apply Forall_cons; [wf1|]); try apply Forall_nil.
Ltac fields H := apply struct_inv in H; destruct H as [_ H]; cbn [map snd] in H;
  repeat (apply cons_inv in H; let E := fresh "E" in destruct H as [E H]); clear H.
Ltac inj1 := match goal with
  | E : dv_num ?a = dv_num ?b |- _ => apply num_inj in E; [|numok|numok]
  | E : dv_bool _ = dv_bool _ |- _ => apply bool_inj in E
  | E : DvStr _ = DvStr _ |- _ => apply str_inj in E
  end.
Ltac close_rec := repeat match goal with H : inu _ _ |- _ => clear H | H : ini _ _ |- _ => clear H | H : str_ok _ |- _ => clear H end;
  match goal with |- ?x = ?y => destruct x, y end; cbn in *; subst; reflexivity.

Lemma wf_flags l : wf (dv_flags l).
Proof. apply wf_set. rewrite Forall_map. apply Forall_forall. intros; apply wf_flag. Qed.
Lemma wf_attrs l : wf (dv_attrs l).
Proof. apply wf_set. rewrite Forall_map. apply Forall_forall. intros; apply wf_attr. Qed.
Lemma all_true {A} (l : list A) : Forall (fun _ => True) l.
Proof. apply Forall_forall. trivial. Qed.
Lemma flags_inj a b : dv_flags a = dv_flags b -> a = b.
Proof. intros E. apply set_inv in E. apply (map_inj dv_flag (fun _ => True)) in E; [exact E|intros; now apply flag_inj|apply all_true|apply all_true]. Qed.
Lemma attrs_inj a b : dv_attrs a = dv_attrs b -> a = b.
Proof. intros E. apply set_inv in E. apply (map_inj dv_attr (fun _ => True)) in E; [exact E|intros; now apply attr_inj|apply all_true|apply all_true]. Qed.

Lemma wf_header x : header_rng x -> wf (dv_header64 x).
Proof. intros X. unfold header_rng in X. rng. unfold dv_header64. wfs. apply wf_flags. Qed.
Lemma header_inj x y : header_rng x -> header_rng y -> dv_header64 x = dv_header64 y -> x = y.
Proof.
  intros X Y H. unfold header_rng in X, Y. rng. fields H. repeat inj1.
  apply magic_inj in E. apply cpu_type_inj in E0. apply file_type_inj in E1. apply flags_inj in E4. close_rec.
Qed.
Lemma wf_segment x : segment_rng x -> wf (dv_segment64 x).
Proof. intros X. unfold segment_rng in X. rng. unfold dv_segment64. wfs. Qed.
Lemma segment_inj x y : segment_rng x -> segment_rng y -> dv_segment64 x = dv_segment64 y -> x = y.
Proof. intros X Y H. unfold segment_rng in X, Y. rng. fields H. repeat inj1. close_rec. Qed.
Lemma wf_section x : section_rng x -> wf (dv_section64 x).
Proof. intros X. unfold section_rng in X. rng. unfold dv_section64. wfs. wft. apply wf_attrs. Qed.
Lemma section_inj x y : section_rng x -> section_rng y -> dv_section64 x = dv_section64 y -> x = y.
Proof.
  intros X Y H. unfold section_rng in X, Y. rng. fields H. repeat inj1.
  apply tuple_inv in E7. destruct E7 as [_ E7]. apply cons_inv in E7. destruct E7 as [Ea E7]. apply cons_inv in E7. destruct E7 as [Et _].
  apply attrs_inj in Ea. apply section_type_inj in Et. close_rec.
Qed.
Lemma wf_symtab x : symtab_rng x -> wf (dv_symtab x).
Proof. intros X. unfold symtab_rng in X. rng. unfold dv_symtab. wfs. Qed.
Lemma symtab_inj x y : symtab_rng x -> symtab_rng y -> dv_symtab x = dv_symtab y -> x = y.
Proof. intros X Y H. unfold symtab_rng in X, Y. rng. fields H. repeat inj1. close_rec. Qed.
Lemma wf_dysymtab x : dysymtab_rng x -> wf (dv_dysymtab x).
Proof. intros X. unfold dysymtab_rng in X. rng. unfold dv_dysymtab. wfs. Qed.
Lemma dysymtab_inj x y : dysymtab_rng x -> dysymtab_rng y -> dv_dysymtab x = dv_dysymtab y -> x = y.
Proof. intros X Y H. unfold dysymtab_rng in X, Y. rng. fields H. repeat inj1. close_rec. Qed.
Lemma wf_version x : version_rng x -> wf (dv_version x).
Proof. intros X. unfold version_rng in X. rng. unfold dv_version. wfs. Qed.
Lemma version_inj x y : version_rng x -> version_rng y -> dv_version x = dv_version y -> x = y.
Proof. intros X Y H. unfold version_rng in X, Y. rng. fields H. repeat inj1. close_rec. Qed.
Lemma wf_build_version x : build_version_rng x -> wf (dv_build_version x).
Proof. intros X. unfold build_version_rng in X. rng. unfold dv_build_version. wfs; now apply wf_version. Qed.
Lemma build_version_inj x y : build_version_rng x -> build_version_rng y -> dv_build_version x = dv_build_version y -> x = y.
Proof.
  intros X Y H. unfold build_version_rng in X, Y. rng. fields H. repeat inj1.
  apply platform_inj in E1. apply version_inj in E2; [|assumption..]. apply version_inj in E3; [|assumption..].
  repeat match goal with H : version_rng _ |- _ => clear H end. close_rec.
Qed.
Lemma wf_build_tool x : build_tool_rng x -> wf (dv_build_tool x).
Proof. intros X. unfold build_tool_rng in X. rng. unfold dv_build_tool. wfs. Qed.
Lemma build_tool_inj x y : build_tool_rng x -> build_tool_rng y -> dv_build_tool x = dv_build_tool y -> x = y.
Proof. intros X Y H. unfold build_tool_rng in X, Y. fields H. repeat inj1. apply tool_inj in E. close_rec. Qed.
Lemma wf_n_type_field x : wf (dv_n_type_field x).
Proof. destruct x as [p t e|d]; [unfold dv_n_type_field; wfs|unfold dv_n_type_field; wft]. apply wf_debug_symbol. Qed.
Lemma wf_nlist x : nlist_rng x -> wf (dv_nlist64 x).
Proof. intros X. unfold nlist_rng in X. rng. unfold dv_nlist64. wfs. apply wf_n_type_field. Qed.
Lemma nlist_inj x y : nlist_rng x -> nlist_rng y -> dv_nlist64 x = dv_nlist64 y -> x = y.
Proof. intros X Y H. unfold nlist_rng in X, Y. rng. fields H. repeat inj1. apply n_type_field_inj in E0. close_rec. Qed.
Lemma wf_reloc x : reloc_rng x -> wf (dv_reloc_info x).
Proof. intros X. unfold reloc_rng in X. rng. unfold dv_reloc_info. wfs. Qed.
Lemma reloc_inj x y : reloc_rng x -> reloc_rng y -> dv_reloc_info x = dv_reloc_info y -> x = y.
Proof. intros X Y H. unfold reloc_rng in X, Y. rng. fields H. repeat inj1. apply reloc_length_inj in E2. close_rec. Qed.
Lemma byte_num l : bytes_ok l -> Forall num_ok l.
Proof. intros B. eapply Forall_impl; [|exact B]. intros a Ha. unfold isbyte, num_ok in *. lia. Qed.
Lemma wf_bytes l : bytes_ok l -> wf (dv_list (map dv_num l)).
Proof. intros B. apply wf_list. rewrite Forall_map. eapply Forall_impl; [|apply byte_num, B]. intros a. apply wf_num. Qed.
Lemma bytes_inj a b : bytes_ok a -> bytes_ok b -> dv_list (map dv_num a) = dv_list (map dv_num b) -> a = b.
Proof. intros A B E. apply list_inv in E. apply (map_inj dv_num num_ok) in E; [exact E|intros; now apply num_inj|now apply byte_num|now apply byte_num]. Qed.

Lemma tree_wf v : value_ok v -> wf (tree v).
Proof.
  intros V. destruct v; cbn [tree value_ok] in *;
  try solve [apply wf_reg64|apply wf_reg32|apply wf_reg16|apply wf_reg8|apply wf_endian|apply wf_magic|apply wf_sub|apply wf_sub64|apply wf_cpu_type|apply wf_file_type
    |apply wf_flag|apply wf_flags|apply wf_section_type|apply wf_attr|apply wf_attrs|apply wf_platform|apply wf_tool|apply wf_n_type|apply wf_debug_symbol|apply wf_n_type_field
    |apply wf_reloc_length|apply wf_x86_reloc|apply wf_x86_64_reloc|apply wf_sect|now apply wf_header|now apply wf_segment|now apply wf_section|now apply wf_symtab
    |now apply wf_dysymtab|now apply wf_version|now apply wf_build_version|now apply wf_build_tool|now apply wf_nlist|now apply wf_reloc].
  - destruct x; unfold dv_reg; wft; first [apply wf_reg64|apply wf_reg32|apply wf_reg16|apply wf_reg8].
  - destruct x; cbn [mem_ok] in V; rng; unfold dv_mem64; [wft|wft|wfs]. apply wf_option. intros; apply wf_reg64.
  - rng. unfold dv_bam. wfs. now apply wf_bytes.
  - destruct x; rng; unfold dv_load_command; wft; first [now apply wf_segment|now apply wf_symtab|now apply wf_dysymtab|now apply wf_build_version|apply wf_list; rewrite Forall_map; eapply Forall_impl; [|eassumption]].
    + exact wf_section.
    + exact wf_build_tool.
  - destruct x; unfold symbol_rng in V; cbn [sym_name] in V; rng; unfold dv_symbol; wfs.
  - rng. unfold dv_data. wfs; [|now apply wf_bytes]. apply wf_option. intros a E. rewrite E in *. assumption.
  - unfold dv_global_symbol. wft.
  - unfold dv_parse_error. wfs.
  - unfold dv_expr. wft.
Qed.

Lemma load_command_inj x y : value_ok (VLoadCommand x) -> value_ok (VLoadCommand y) -> dv_load_command x = dv_load_command y -> x = y.
Proof.
  intros X Y H. destruct x, y; cbn [value_ok dv_load_command] in *; rng; apply tuple_inv in H; destruct H as [N H]; try (vm_compute in N; discriminate); clear N;
  repeat (apply cons_inv in H; let E := fresh "E" in destruct H as [E H]); clear H.
  - apply segment_inj in E; [|assumption..]. apply list_inv in E0. apply (map_inj dv_section64 section_rng) in E0; [now subst|exact section_inj|assumption..].
  - apply symtab_inj in E; [now subst|assumption..].
  - apply dysymtab_inj in E; [now subst|assumption..].
  - apply build_version_inj in E; [|assumption..]. apply list_inv in E0. apply (map_inj dv_build_tool build_tool_rng) in E0; [now subst|exact build_tool_inj|assumption..].
Qed.
Lemma mem_inj x y : mem_ok x -> mem_ok y -> dv_mem64 x = dv_mem64 y -> x = y.
Proof.
  intros X Y H. destruct x, y; cbn [mem_ok dv_mem64] in *; rng;
  try (exfalso; unfold dv_tuple, dv_struct in H; injection H; intros; congruence);
  try (apply tuple_inv in H; destruct H as [N H]; try (exfalso; vm_compute in N; discriminate N);
       repeat (apply cons_inv in H; let E := fresh "E" in destruct H as [E H]); repeat inj1; try apply reg64_inj in E; subst; reflexivity).
  fields H. repeat inj1. apply option_inj in E; [|exact reg64_inj]. apply reg64_inj in E1. now subst.
Qed.
Lemma symbol_inj x y : symbol_rng x -> symbol_rng y -> dv_symbol x = dv_symbol y -> x = y.
Proof.
  intros X Y H. unfold symbol_rng in *. destruct x, y; cbn [sym_name dv_symbol] in *; rng;
  try (apply struct_inv in H; destruct H as [N _]; vm_compute in N; discriminate); fields H; repeat inj1; now subst.
Qed.
Lemma tree_inj a b : type_of a = type_of b -> value_ok a -> value_ok b -> tree a = tree b -> a = b.
Proof.
  intros T A B E.
  destruct a; (destruct b; [..]; try (exfalso; cbn [type_of] in T; clear - T; lia)); clear T; cbn [tree value_ok] in *; f_equal;
  try solve [now apply reg64_inj|now apply reg32_inj|now apply reg16_inj|now apply reg8_inj|now apply endian_inj|now apply magic_inj|now apply sub_inj|now apply sub64_inj
    |now apply cpu_type_inj|now apply file_type_inj|now apply flag_inj|now apply flags_inj|now apply section_type_inj|now apply attr_inj|now apply attrs_inj
    |now apply platform_inj|now apply tool_inj|now apply n_type_inj|now apply debug_symbol_inj|now apply n_type_field_inj|now apply reloc_length_inj
    |now apply x86_reloc_inj|now apply x86_64_reloc_inj|now apply sect_inj|now apply header_inj|now apply segment_inj|now apply section_inj|now apply symtab_inj
    |now apply dysymtab_inj|now apply version_inj|now apply build_version_inj|now apply build_tool_inj|now apply nlist_inj|now apply reloc_inj
    |now apply load_command_inj|now apply mem_inj|now apply symbol_inj].
  - destruct x as [[]|[]|[]|[]], x0 as [[]|[]|[]|[]]; first [reflexivity|vm_compute in E; discriminate].
  - rng. fields E. repeat inj1. apply bytes_inj in E0; [|assumption..]. apply Nat2Z.inj in E1. close_rec.
  - rng. fields E. apply option_inj in E0; [|exact str_inj]. apply bytes_inj in E1; [|assumption..]. destruct x, x0; cbn in *; now subst.
  - apply tuple_inv in E. destruct E as [_ E]. apply cons_inv in E. destruct E as [E _]. now inj1.
  - fields E. now inj1.
  - apply tuple_inv in E. destruct E as [_ E]. apply cons_inv in E. destruct E as [E _]. now inj1.
Qed.
Lemma top_C92_injective esc alt a b : type_of a = type_of b -> value_ok a -> value_ok b ->
  format esc alt a = format esc alt b -> a = b.
Proof.
  intros T A B E. apply tree_inj; [assumption..|]. unfold format in E. eapply debug_inj; [now apply tree_wf|now apply tree_wf|exact E].
Qed.
