(** Record readers: exactly which inputs they accept and what they return. *)
From Coq Require Import ZifyBool ZifyNat Sorting.Sorted.
From Verif Require Import Base Str Mac SpecMacho.
From Verif Require Export PfMacRec.
Ltac Zify.zify_post_hook ::= Z.div_mod_to_equations.

(** one reading step at offset [off]; a too short input contradicts the [_at] predicate *)
Ltac projs := cbn [st_cmd st_cmdsize st_symoff st_nsyms st_stroff st_strsize sg_cmd sg_cmdsize sg_segname
sg_vmaddr sg_vmsize sg_fileoff sg_filesize sg_maxprot sg_initprot sg_nsects sg_flags
sc_sectname sc_segname sc_addr sc_size sc_offset sc_align sc_reloff sc_nreloc sc_attrs
sc_type sc_reserved1 sc_reserved2 sc_reserved3 dy_cmd dy_cmdsize dy_ilocalsym dy_nlocalsym
dy_iextdefsym dy_nextdefsym dy_iundefsym dy_nundefsym dy_tocoff dy_ntoc dy_modtaboff
dy_nmodtab dy_extrefsymoff dy_nextrefsyms dy_indirectsymoff dy_nindirectsyms dy_extreloff
dy_nextrel dy_locreloff dy_nlocrel bv_cmd bv_cmdsize bv_platform bv_minos bv_sdk bv_ntools
bt_tool bt_version nl_strx nl_type nl_sect nl_desc nl_value r_address r_symbolnum r_pcrel
r_length r_extern r_type h_magic h_cpu h_file_type h_ncmds h_size_of_cmds h_flags
h_reserved].
Ltac projs_in := cbn [st_cmd st_cmdsize st_symoff st_nsyms st_stroff st_strsize sg_cmd sg_cmdsize sg_segname
sg_vmaddr sg_vmsize sg_fileoff sg_filesize sg_maxprot sg_initprot sg_nsects sg_flags
sc_sectname sc_segname sc_addr sc_size sc_offset sc_align sc_reloff sc_nreloc sc_attrs
sc_type sc_reserved1 sc_reserved2 sc_reserved3 dy_cmd dy_cmdsize dy_ilocalsym dy_nlocalsym
dy_iextdefsym dy_nextdefsym dy_iundefsym dy_nundefsym dy_tocoff dy_ntoc dy_modtaboff
dy_nmodtab dy_extrefsymoff dy_nextrefsyms dy_indirectsymoff dy_nindirectsyms dy_extreloff
dy_nextrel dy_locreloff dy_nlocrel bv_cmd bv_cmdsize bv_platform bv_minos bv_sdk bv_ntools
bt_tool bt_version nl_strx nl_type nl_sect nl_desc nl_value r_address r_symbolnum r_pcrel
r_length r_extern r_type h_magic h_cpu h_file_type h_ncmds h_size_of_cmds h_flags
h_reserved] in *.
Ltac norm_off := rewrite <- ?Nat.add_assoc; cbn [Nat.add].
Ltac short := split; [discriminate|let Hs := fresh in intros Hs; exfalso; decompose [and] Hs; cbn [length] in *; lia].
Ltac rstep :=
  first [ rewrite rbind_u8_skip | rewrite rbind_u16_skip | rewrite rbind_u32_skip | rewrite rbind_u64_skip
        | rewrite rbind_i32_skip by assumption | rewrite rbind_name_skip by lia ];
  match goal with |- context [Nat.leb ?a ?b] => destruct (Nat.leb_spec a b) end;
  [norm_off | short].
Ltac rassert_step :=
  match goal with
  | |- rbind (rlift (rassert ?b)) _ _ = _ <-> _ =>
      let E := fresh "E" in destruct b eqn:E;
      [ change (rbind (rlift (rassert true)) ?k ?l) with (k tt l)
      | split; [discriminate|] ]
  end.
Ltac lift_step :=
  match goal with
  | |- rbind (rlift ?m) _ _ = _ <-> _ => rewrite rbind_lift_ok
  end.

(** ** symtab, dysymtab *)

Lemma signed_range x : inu 32 x -> ini 32 (signed 32 x).
Proof.
  unfold inu, ini, signed. change (2 ^ (32 - 1)) with 2147483648. change (2 ^ 32) with 4294967296.
  destruct (x <? 2147483648) eqn:E; lia.
Qed.

Ltac rng_tac Hb H :=
  decompose [and] H;
  repeat match goal with
  | |- _ /\ _ => split
  | |- str_ok _ => assumption
  | E : fld_i32 _ ?off ?l = ?y |- ini 32 ?y =>
      rewrite <- E; unfold fld_i32; apply signed_range; apply (fld_range _ _ 4 l Hb); lia
  | E : fld ?e ?off ?n ?l = ?y |- inu _ ?y => rewrite <- E; apply (fld_range e off n l Hb); lia
  end.
Lemma symtab_at_rng e o l x : bytes_ok l -> symtab_at e o l x -> symtab_rng x.
Proof. intros Hb H. unfold symtab_at in H. unfold symtab_rng. rng_tac Hb H. Qed.

Lemma symtab_read e o l x r : bytes_ok l ->
  (read_symtab e (skipn o l) = Ok (x, r) <->
   symtab_at e o l x /\ st_cmd x = 2 /\ st_cmdsize x = 24 /\ r = skipn (o + 24) l).
Proof.
  intros Hb. unfold read_symtab, SYMTAB_TYPE, SYMTAB_SIZE, symtab_at.
  rstep. destruct (fld e o 4 l =? 2) eqn:E1.
  2:{ split; [discriminate|]. intros H'. exfalso. decompose [and] H'. lia. }
  cbn [rassert]. rewrite rbind_lift. rstep. destruct (fld e (o + 4) 4 l =? 24) eqn:E2.
  2:{ split; [discriminate|]. intros H'. exfalso. decompose [and] H'. lia. }
  cbn [rassert]. rewrite rbind_lift. rstep. rstep. rstep. rstep.
  split.
  - intros E. apply rret_ok in E. destruct E as [-> ->].
    cbn [st_cmd st_cmdsize st_symoff st_nsyms st_stroff st_strsize]. repeat split; lia.
  - intros H'. decompose [and] H'. destruct x. projs_in. subst. reflexivity.
Qed.

Lemma dysymtab_at_rng e o l x : bytes_ok l -> dysymtab_at e o l x -> dysymtab_rng x.
Proof. intros Hb H. unfold dysymtab_at in H. unfold dysymtab_rng. rng_tac Hb H. Qed.

Lemma dysymtab_read e o l x r : bytes_ok l ->
  (read_dysymtab e (skipn o l) = Ok (x, r) <->
   dysymtab_at e o l x /\ dy_cmd x = 11 /\ dy_cmdsize x = 80 /\ r = skipn (o + 80) l).
Proof.
  intros Hb. unfold read_dysymtab, DYSYMTAB_TYPE, DYSYMTAB_SIZE, dysymtab_at.
  rstep. destruct (fld e o 4 l =? 11) eqn:E1.
  2:{ split; [discriminate|]. intros H'. exfalso. decompose [and] H'. lia. }
  cbn [rassert]. rewrite rbind_lift. rstep. destruct (fld e (o + 4) 4 l =? 80) eqn:E2.
  2:{ split; [discriminate|]. intros H'. exfalso. decompose [and] H'. lia. }
  cbn [rassert]. rewrite rbind_lift. do 18 rstep.
  split.
  - intros E. apply rret_ok in E. destruct E as [-> ->]. projs. repeat split; lia.
  - intros H'. decompose [and] H'. destruct x. projs_in. subst. reflexivity.
Qed.

(** ** sizes computed in u32 *)

Lemma chku_size p base unit n size : 0 <= base < 2 ^ 32 -> 0 <= unit -> 0 <= n -> inu 32 size ->
  ((exists s, (exists pr, chku p 32 (unit * n) = Ok pr /\ chku p 32 (base + pr) = Ok s) /\ size = s) <->
   cmdsize_ok p base unit n size).
Proof.
  intros Hb Hu Hn Hs. unfold chku, inub, cmdsize_ok, wrapu, inu in *.
  change (2 ^ 32) with 4294967296 in *.
  assert (0 <= unit * n) by nia. set (q := unit * n) in *. clearbody q.
  destruct p; split.
  - intros (s & (pr & H1 & H2) & ->).
    destruct ((0 <=? q) && (q <? 4294967296)) eqn:E1; [|discriminate]. apply Ok_inj in H1. subst pr.
    destruct ((0 <=? base + q) && (base + q <? 4294967296)) eqn:E2; [|discriminate]. now apply Ok_inj in H2.
  - intros ->. exists (base + q). split; [|reflexivity]. exists q.
    replace ((0 <=? q) && (q <? 4294967296)) with true by lia.
    replace ((0 <=? base + q) && (base + q <? 4294967296)) with true by lia. now split.
  - intros (s & (pr & H1 & H2) & ->).
    assert (pr = q mod 4294967296).
    { destruct ((0 <=? q) && (q <? 4294967296)) eqn:E1; apply Ok_inj in H1; lia. }
    destruct ((0 <=? base + pr) && (base + pr <? 4294967296)) eqn:E2; apply Ok_inj in H2; lia.
  - intros ->. exists ((base + q) mod 4294967296). split; [|reflexivity].
    exists (q mod 4294967296). split.
    + destruct ((0 <=? q) && (q <? 4294967296)) eqn:E1; f_equal; lia.
    + destruct ((0 <=? base + q mod 4294967296) && (base + q mod 4294967296 <? 4294967296)) eqn:E2; f_equal; lia.
Qed.

(** the two checked operations and the assertion at the end of a reader *)
Lemma size_check {A} p base unit n size (k : reader A) l res : 0 <= base < 2 ^ 32 -> 0 <= unit -> 0 <= n -> inu 32 size ->
  ((prod <~ rlift (chku p 32 (unit * n)) ; s <~ rlift (chku p 32 (base + prod)) ;
    _ <~ rlift (rassert (size =? s)) ; k) l = Ok res <->
   cmdsize_ok p base unit n size /\ k l = Ok res).
Proof.
  intros Hb Hu Hn Hs. rewrite <- (chku_size p base unit n size) by assumption.
  rewrite rbind_lift_ok. split.
  - intros (pr & H1 & H). rewrite rbind_lift_ok in H. destruct H as (s & H2 & H).
    rewrite rbind_lift_ok in H. destruct H as (u & H3 & H). apply rassert_ok in H3.
    split; [|exact H]. exists s. split; [now exists pr|lia].
  - intros ((s & (pr & H1 & H2) & ->) & H). exists pr. split; [exact H1|].
    rewrite rbind_lift_ok. exists s. split; [exact H2|]. rewrite rbind_lift_ok. exists tt.
    split; [|exact H]. apply rassert_ok. lia.
Qed.

(** ** segment and section *)

Lemma segment_at_rng e o l x : bytes_ok l -> segment_at e o l x -> str_ok (sg_segname x) -> segment_rng x.
Proof. intros Hb H N. unfold segment_at in H. unfold segment_rng. rng_tac Hb H. Qed.

Lemma segment_read p e o l x r : bytes_ok l ->
  (read_segment64 p e (skipn o l) = Ok (x, r) <->
   segment_at e o l x /\ str_ok (sg_segname x) /\ sg_cmd x = 25 /\
   cmdsize_ok p 72 80 (sg_nsects x) (sg_cmdsize x) /\ r = skipn (o + 72) l).
Proof.
  intros Hb. unfold read_segment64, SEGMENT_TYPE, SEGMENT_SIZE, SECTION_SIZE, segment_at.
  rstep. destruct (fld e o 4 l =? 25) eqn:E1.
  2:{ split; [discriminate|]. intros H'. exfalso. decompose [and] H'. lia. }
  cbn [rassert]. rewrite rbind_lift. rstep. rstep.
  destruct (from_utf8 (fld_name (o + 8) 16 l)) as [s|] eqn:EN.
  2:{ split; [discriminate|]. intros H'. decompose [and] H'.
      assert (from_utf8 (fld_name (o + 8) 16 l) = Some (sg_segname x)) as EN'
        by (apply fld_name_utf8; auto). rewrite EN in EN'. discriminate. }
  do 8 rstep. rewrite (Z.mul_comm _ 80).
  rewrite (size_check p 72 80) by first [lia | apply (fld_range e (o + 4) 4 l Hb); lia
    | pose proof (fld_range e (o + 64) 4 l Hb) as G; unfold inu in G; lia].
  split.
  - intros [C E]. apply rret_ok in E. destruct E as [-> ->]. projs.
    apply fld_name_utf8 in EN; [|assumption]. destruct EN as [N1 N2].
    repeat match goal with |- _ /\ _ => split end; first [assumption|reflexivity|lia].
  - intros H'. decompose [and] H'. destruct x. projs_in.
    assert (Some s = Some sg_segname) as ES by (rewrite <- EN; apply fld_name_utf8; auto).
    injection ES as ->. subst. split; [assumption|reflexivity].
Qed.

Lemma section_at_rng e o l x : bytes_ok l -> section_at e o l x ->
  str_ok (sc_sectname x) -> str_ok (sc_segname x) -> section_rng x.
Proof. intros Hb H N N'. unfold section_at in H. unfold section_rng. rng_tac Hb H. Qed.

(** the attributes as the reader returns them: in increasing order, once each *)
Definition attrs_canon (l : list section_attr) : Prop := StronglySorted Z.lt (map attr_bit l).

Lemma bits_in_canon w is : StronglySorted Z.lt is -> StronglySorted Z.lt (bits_in w is).
Proof. apply sorted_filter. Qed.

(** a strictly increasing list is determined by its members *)
Lemma sorted_ext a b : StronglySorted Z.lt a -> StronglySorted Z.lt b ->
  (forall i, In i a <-> In i b) -> a = b.
Proof.
  intros Ha. revert b. induction Ha as [|x a Sa IH Fa]; intros b Hb E.
  - destruct b as [|y b]; [reflexivity|]. exfalso. apply (E y). now left.
  - destruct Hb as [|y b Sb Fb]; [exfalso; apply (E x); now left|].
    rewrite Forall_forall in Fa, Fb.
    assert (x = y) as ->.
    { assert (In x (y :: b)) as [X|X] by (apply E; now left); [now symmetry|].
      assert (In y (x :: a)) as [Y|Y] by (apply E; now left); [exact Y|].
      specialize (Fa _ Y). specialize (Fb _ X). lia. }
    f_equal. apply IH; [exact Sb|]. intros i. split; intros Hi.
    + assert (In i (y :: b)) as [X|X] by (apply E; now right); [|exact X].
      subst i. specialize (Fa _ Hi). lia.
    + assert (In i (y :: a)) as [X|X] by (apply E; now right); [|exact X].
      subst i. specialize (Fb _ Hi). lia.
Qed.

(** canonical bit list <-> sorted bit set *)
Lemma bits_canon {A} (bit : A -> Z) lo n fs w : 0 <= lo ->
  (forall i, 0 <= i -> Z.testbit w i = true -> lo <= i < lo + Z.of_nat n) ->
  (forall a, 0 <= bit a) ->
  (map bit fs = bits_in w (count_from lo n) <->
   is_bitset bit fs w /\ StronglySorted Z.lt (map bit fs)).
Proof.
  intros Hlo Hw Hbit. split.
  - intros E. split.
    + apply (bits_in_bitset _ bit fs w (count_from lo n)); [|exact E].
      intros i Hi T. apply count_from_in. now apply Hw.
    + rewrite E. apply bits_in_canon, count_from_sorted.
  - intros [B S]. apply sorted_ext; [exact S|apply bits_in_canon, count_from_sorted|].
    intros i. unfold bits_in. rewrite in_map_iff, filter_In, count_from_in. split.
    + intros (a & <- & Ha). assert (Z.testbit w (bit a) = true) as T.
      { apply B; [apply Hbit|]. now exists a. }
      split; [apply Hw; auto|exact T].
    + intros [R T]. apply B in T; [|lia]. destruct T as (a & Ha & E). now exists a.
Qed.

Lemma testbit_high_part w i : 0 <= i -> Z.testbit (256 * (w / 256)) i = if i <? 8 then false else Z.testbit w i.
Proof.
  intros Hi. change 256 with (2 ^ 8). rewrite Z.mul_comm. destruct (i <? 8) eqn:E.
  - apply Z.mul_pow2_bits_low. lia.
  - rewrite Z.mul_pow2_bits, Z.div_pow2_bits by lia. f_equal. lia.
Qed.
Lemma land_attrs_mask w : inu 32 w -> Z.land w SECTION_ATTRS_MASK = 256 * (w / 256).
Proof.
  intros R. apply Z.bits_inj'. intros i Hi. rewrite Z.land_spec, testbit_high_part by assumption.
  unfold SECTION_ATTRS_MASK. change 0xffffff00 with (Z.shiftl (Z.ones 24) 8).
  destruct (i <? 8) eqn:E1.
  - rewrite Z.shiftl_spec_low by lia. apply andb_false_r.
  - rewrite Z.shiftl_spec_high by lia. destruct (Z.lt_ge_cases i 32) as [L|L].
    + rewrite Z.ones_spec_low by lia. apply andb_true_r.
    + rewrite (testbit_bound w 32) by (assumption || lia). reflexivity.
Qed.
Lemma land_type_mask w : Z.land w SECTION_TYPE_MASK = w mod 256.
Proof. unfold SECTION_TYPE_MASK. apply (Z.land_ones w 8). lia. Qed.
Lemma attrs_word_range w i : inu 32 w -> 0 <= i -> Z.testbit (256 * (w / 256)) i = true -> 8 <= i < 8 + Z.of_nat 24.
Proof.
  intros R Hi T. rewrite testbit_high_part in T by assumption.
  destruct (i <? 8) eqn:E; [discriminate|]. destruct (Z.lt_ge_cases i 32) as [L|L]; [lia|].
  rewrite (testbit_bound w 32) in T by (assumption || lia). discriminate.
Qed.

Lemma section_read e o l x r : bytes_ok l ->
  (read_section64 e (skipn o l) = Ok (x, r) <->
   section_at e o l x /\ str_ok (sc_sectname x) /\ str_ok (sc_segname x) /\
   attrs_canon (sc_attrs x) /\ r = skipn (o + 80) l).
Proof.
  intros Hb. unfold read_section64, section_at.
  rstep.
  destruct (from_utf8 (fld_name o 16 l)) as [s|] eqn:EN.
  2:{ split; [discriminate|]. intros H'. decompose [and] H'.
      assert (from_utf8 (fld_name o 16 l) = Some (sc_sectname x)) as EN'
        by (apply fld_name_utf8; auto). rewrite EN in EN'. discriminate. }
  rstep.
  destruct (from_utf8 (fld_name (o + 16) 16 l)) as [s2|] eqn:EN2.
  2:{ split; [discriminate|]. intros H'. decompose [and] H'.
      assert (from_utf8 (fld_name (o + 16) 16 l) = Some (sc_segname x)) as EN'
        by (apply fld_name_utf8; auto). rewrite EN2 in EN'. discriminate. }
  do 7 rstep.
  assert (RW : inu 32 (fld e (o + 64) 4 l)) by (apply (fld_range e (o + 64) 4 l Hb); lia).
  set (w := fld e (o + 64) 4 l) in *. rewrite land_type_mask, land_attrs_mask by assumption.
  assert (CAN : forall fs, section_attrs_from_u32 (256 * (w / 256)) = Ok fs <->
                is_bitset attr_bit fs (256 * (w / 256)) /\ attrs_canon fs).
  { intros fs. rewrite attrs_from_iff. apply bits_canon; [lia| |apply attr_bit_pos].
    intros i. now apply attrs_word_range. }
  rewrite rbind_lift_ok. split.
  - intros (ty & HT & H'). rewrite rbind_lift_ok in H'. destruct H' as (at_ & HA & H').
    revert H'. apply section_type_from_iff in HT. apply CAN in HA. destruct HA as [HA1 HA2].
    apply fld_name_utf8 in EN; [|assumption]. apply fld_name_utf8 in EN2; [|assumption].
    destruct EN as [N1 N2]. destruct EN2 as [N3 N4].
    match goal with |- ?a = _ -> ?b => cut (a = Ok (x, r) <-> b); [tauto|] end.
    do 3 rstep. split.
    + intros E. apply rret_ok in E. destruct E as [-> ->]. projs.
      repeat match goal with |- _ /\ _ => split end; first [assumption|reflexivity|lia].
    + intros H'. decompose [and] H'. destruct x. projs_in.
      assert (s = sc_sectname) as ->.
      { assert (Some s = Some sc_sectname) as ES; [|now injection ES].
        rewrite <- (from_utf8_utf8 s), <- (from_utf8_utf8 sc_sectname) by assumption. f_equal. congruence. }
      assert (s2 = sc_segname) as ->.
      { assert (Some s2 = Some sc_segname) as ES; [|now injection ES].
        rewrite <- (from_utf8_utf8 s2), <- (from_utf8_utf8 sc_segname) by assumption. f_equal. congruence. }
      assert (at_ = sc_attrs) as ->.
      { assert (Ok at_ = Ok sc_attrs) as ES; [|now apply Ok_inj in ES].
        transitivity (section_attrs_from_u32 (256 * (w / 256))); [symmetry|]; apply CAN; now split. }
      assert (ty = sc_type) as ->.
      { assert (Ok ty = Ok sc_type) as ES; [|now apply Ok_inj in ES].
        transitivity (section_type_from_u32 (w mod 256)); [symmetry|]; apply section_type_from_iff; congruence. }
      subst. reflexivity.
  - intros H'. decompose [and] H'. exists (sc_type x). split; [apply section_type_from_iff; congruence|].
    rewrite rbind_lift_ok. exists (sc_attrs x). split; [apply CAN; now split|].
    match goal with |- ?a = _ => cut (a = Ok (x, r) <-> True); [tauto|] end.
    rewrite !rbind_u32_skip. norm_off.
    repeat (match goal with |- context [Nat.leb ?a ?b] => destruct (Nat.leb_spec a b); [|exfalso; lia] end;
            rewrite ?rbind_u32_skip; norm_off).
    split; [easy|intros _].
    destruct x. projs_in.
    assert (Some s = Some sc_sectname) as ES by (rewrite <- EN; apply fld_name_utf8; auto).
    assert (Some s2 = Some sc_segname) as ES2 by (rewrite <- EN2; apply fld_name_utf8; auto).
    injection ES as ->. injection ES2 as ->. subst. reflexivity.
Qed.

(** ** build version *)

Lemma build_version_read p e o l x r : bytes_ok l ->
  (read_build_version p e (skipn o l) = Ok (x, r) <->
   build_version_at e o l x /\ version_rng (bv_minos x) /\ version_rng (bv_sdk x) /\
   bv_cmd x = 50 /\ cmdsize_ok p 24 8 (bv_ntools x) (bv_cmdsize x) /\ r = skipn (o + 24) l).
Proof.
  intros Hb. unfold read_build_version, BUILD_VERSION_TYPE, BUILD_VERSION_SIZE, BUILD_TOOL_SIZE, build_version_at.
  rstep. destruct (fld e o 4 l =? 50) eqn:E1.
  2:{ split; [discriminate|]. intros H'. exfalso. decompose [and] H'. lia. }
  cbn [rassert]. rewrite rbind_lift. rstep. rstep.
  destruct (platform_from_u32 (fld e (o + 8) 4 l)) as [pl|] eqn:EP.
  2:{ split; [discriminate|]. intros H'. decompose [and] H'.
      assert (platform_from_u32 (fld e (o + 8) 4 l) = Ok (bv_platform x)) as EP'
        by (apply platform_from_iff; congruence). rewrite EP in EP'. discriminate. }
  rewrite rbind_lift. do 3 rstep.
  rewrite (size_check p 24 8) by first [lia | apply (fld_range e (o + 4) 4 l Hb); lia
    | pose proof (fld_range e (o + 20) 4 l Hb) as G; unfold inu in G; lia].
  assert (R12 : inu 32 (fld e (o + 12) 4 l)) by (apply (fld_range e (o + 12) 4 l Hb); lia).
  assert (R16 : inu 32 (fld e (o + 16) 4 l)) by (apply (fld_range e (o + 16) 4 l Hb); lia).
  destruct (version_from_num _ R12) as [V1 V1'].
  destruct (version_from_num _ R16) as [V2 V2'].
  split.
  - intros [C E]. apply rret_ok in E. destruct E as [-> ->]. cbn [bv_cmd bv_cmdsize bv_platform bv_minos bv_sdk bv_ntools].
    apply platform_from_iff in EP.
    repeat match goal with |- _ /\ _ => split end; first [assumption|reflexivity|lia].
  - intros H'. decompose [and] H'. destruct x. projs_in.
    assert (Ok pl = Ok bv_platform) as ES by (rewrite <- EP; apply platform_from_iff; congruence).
    apply Ok_inj in ES.
    assert (version_from_u32 (fld e (o + 12) 4 l) = bv_minos) by (apply version_from_iff; auto).
    assert (version_from_u32 (fld e (o + 16) 4 l) = bv_sdk) by (apply version_from_iff; auto).
    subst. split; [assumption|reflexivity].
Qed.
Lemma build_version_at_rng e o l x : bytes_ok l -> build_version_at e o l x ->
  version_rng (bv_minos x) -> version_rng (bv_sdk x) -> build_version_rng x.
Proof.
  intros Hb H N N'. unfold build_version_at in H. unfold build_version_rng.
  rng_tac Hb H; assumption.
Qed.

Lemma build_tool_read e o l x r : bytes_ok l ->
  (read_build_tool e (skipn o l) = Ok (x, r) <-> build_tool_at e o l x /\ r = skipn (o + 8) l).
Proof.
  intros Hb. unfold read_build_tool, build_tool_at. rstep.
  destruct (tool_from_u32 (fld e o 4 l)) as [t|] eqn:ET.
  2:{ split; [discriminate|]. intros H'. decompose [and] H'.
      assert (tool_from_u32 (fld e o 4 l) = Ok (bt_tool x)) as EP'
        by (apply tool_from_iff; congruence). rewrite ET in EP'. discriminate. }
  rewrite rbind_lift. rstep. split.
  - intros E. apply rret_ok in E. destruct E as [-> ->]. projs. apply tool_from_iff in ET. repeat split; lia.
  - intros H'. decompose [and] H'. destruct x. projs_in.
    assert (Ok t = Ok bt_tool) as ES by (rewrite <- ET; apply tool_from_iff; congruence).
    apply Ok_inj in ES. subst. reflexivity.
Qed.
Lemma build_tool_at_rng e o l x : bytes_ok l -> build_tool_at e o l x -> build_tool_rng x.
Proof. intros Hb H. unfold build_tool_at in H. unfold build_tool_rng. rng_tac Hb H. Qed.

(** ** nlist *)

Definition all_fields : list n_type_field :=
  Stab Gsym :: flat_map (fun pe => flat_map (fun t => map (fun ex => Norm pe t ex) [true; false]) all_n_type) [true; false].
Definition n_type_eqb (a b : n_type) : bool := n_type_num a =? n_type_num b.
Definition field_eqb (f g : n_type_field) : bool :=
  match f, g with
  | Norm a b c, Norm a' b' c' => eqb a a' && n_type_eqb b b' && eqb c c'
  | Stab Gsym, Stab Gsym => true
  | _, _ => false
  end.
Definition n_type_byteb (f : n_type_field) (b : Z) : bool :=
  match f with
  | Norm pext t ext => b =? 16 * bit01 pext + n_type_num t + bit01 ext
  | Stab Gsym => (32 <=? b) && (b <? 64)
  end.
Lemma n_type_byteb_iff f b : n_type_byteb f b = true <-> n_type_byte f b.
Proof. destruct f as [p t x|[]]; cbn; lia. Qed.
Lemma field_eqb_iff f g : field_eqb f g = true <-> f = g.
Proof.
  destruct f as [[] [] []|[]], g as [[] [] []|[]]; cbn; split; intros H; try reflexivity; discriminate.
Qed.
Lemma all_fields_in f : In f all_fields.
Proof. destruct f as [[] [] []|[]]; cbn; tauto. Qed.
Lemma field_sweep :
  forallb (fun b => forallb (fun f =>
     eqb (match n_type_field_from_u8 b with Ok g => field_eqb f g | Panic => false end) (n_type_byteb f b))
     all_fields) (count_from 0 256) = true.
Proof. vm_compute. reflexivity. Qed.
Lemma n_type_field_from_iff b f : inu 8 b -> (n_type_field_from_u8 b = Ok f <-> n_type_byte f b).
Proof.
  intros [B1 B2]. change (2 ^ 8) with 256 in B2.
  pose proof field_sweep as S. rewrite forallb_forall in S.
  specialize (S b (proj2 (count_from_in 0 256 b) (conj B1 B2))). rewrite forallb_forall in S.
  specialize (S f (all_fields_in f)). apply eqb_prop in S. rewrite <- n_type_byteb_iff, <- S.
  destruct (n_type_field_from_u8 b) as [g|]; [|split; discriminate].
  rewrite field_eqb_iff. split; [intros H; apply Ok_inj in H; now symmetry|now intros ->].
Qed.

Lemma nlist_at_rng e o l x : bytes_ok l -> nlist_at e o l x -> nlist_rng x.
Proof. intros Hb H. unfold nlist_at in H. unfold nlist_rng. rng_tac Hb H. Qed.
Lemma nlist_read e o l x r : bytes_ok l ->
  (read_nlist64 e (skipn o l) = Ok (x, r) <-> nlist_at e o l x /\ r = skipn (o + 16) l).
Proof.
  intros Hb. unfold read_nlist64, nlist_at. rstep. rstep. rewrite (fld1_endian Little e).
  assert (R4 : inu 8 (fld e (o + 4) 1 l)) by (apply (fld_range e (o + 4) 1 l Hb); lia).
  destruct (n_type_field_from_u8 (fld e (o + 4) 1 l)) as [t|] eqn:ET.
  2:{ split; [discriminate|]. intros H'. decompose [and] H'.
      assert (n_type_field_from_u8 (fld e (o + 4) 1 l) = Ok (nl_type x)) as EP'
        by (apply n_type_field_from_iff; assumption). rewrite ET in EP'. discriminate. }
  rewrite rbind_lift. do 3 rstep. rewrite (fld1_endian Little e). split.
  - intros E. apply rret_ok in E. destruct E as [-> ->]. projs.
    apply n_type_field_from_iff in ET; [|assumption]. repeat split; try lia. exact ET.
  - intros H'. decompose [and] H'. destruct x. projs_in.
    assert (Ok t = Ok nl_type) as ES by (rewrite <- ET; apply n_type_field_from_iff; assumption).
    apply Ok_inj in ES. subst. reflexivity.
Qed.

(** ** relocation entries *)

Lemma land_field n lo len m : 0 <= lo -> 0 <= len -> m = Z.shiftl (Z.ones len) lo ->
  Z.shiftr (Z.land n m) lo = (n / 2 ^ lo) mod 2 ^ len.
Proof. intros H1 H2 ->. now apply land_mask. Qed.
Lemma land_bit n k m : 0 <= k -> m = Z.shiftl 1 k -> bit01 (0 <? Z.land n m) = (n / 2 ^ k) mod 2.
Proof.
  intros H ->. rewrite land_shiftl_1 by assumption.
  assert (0 < 2 ^ k) by (apply Z.pow_pos_nonneg; lia).
  pose proof (Z.testbit_spec' n k H) as T. rewrite <- T.
  destruct (Z.testbit n k); cbn [Z.b2z]; [replace (0 <? 2 ^ k) with true by lia|]; reflexivity.
Qed.

Lemma reloc_at_rng e o l x : bytes_ok l -> reloc_at e o l x -> ini 32 (r_address x).
Proof. intros Hb H. unfold reloc_at in H. rng_tac Hb H. Qed.
Lemma bit01_inj a b : bit01 a = bit01 b -> a = b.
Proof. destruct a, b; cbn; congruence. Qed.

Lemma reloc_word_inj e x y : reloc_fits x -> reloc_fits y -> reloc_word e x = reloc_word e y ->
  r_symbolnum x = r_symbolnum y /\ r_pcrel x = r_pcrel y /\ r_length x = r_length y /\
  r_extern x = r_extern y /\ r_type x = r_type y.
Proof.
  intros [[A1 A2] [B1 B2]] [[C1 C2] [D1 D2]].
  assert (LI : forall a b, reloc_length_num a = reloc_length_num b -> a = b) by (intros [] []; cbn; congruence).
  assert (HX : 0 <= reloc_length_num (r_length x) < 4) by (destruct (r_length x); cbn; lia).
  assert (HY : 0 <= reloc_length_num (r_length y) < 4) by (destruct (r_length y); cbn; lia).
  assert (0 <= bit01 (r_pcrel x) <= 1) by (destruct (r_pcrel x); cbn; lia).
  assert (0 <= bit01 (r_extern x) <= 1) by (destruct (r_extern x); cbn; lia).
  assert (0 <= bit01 (r_pcrel y) <= 1) by (destruct (r_pcrel y); cbn; lia).
  assert (0 <= bit01 (r_extern y) <= 1) by (destruct (r_extern y); cbn; lia).
  unfold reloc_word.
  change (2 ^ 24) with 16777216 in *. change (2 ^ 25) with 33554432. change (2 ^ 27) with 134217728.
  change (2 ^ 28) with 268435456. change (2 ^ 8) with 256. change (2 ^ 7) with 128. change (2 ^ 5) with 32.
  change (2 ^ 4) with 16 in *.
  intros E.
  assert (r_symbolnum x = r_symbolnum y /\ bit01 (r_pcrel x) = bit01 (r_pcrel y) /\
          reloc_length_num (r_length x) = reloc_length_num (r_length y) /\
          bit01 (r_extern x) = bit01 (r_extern y) /\ r_type x = r_type y) as (-> & P1 & P2 & P3 & ->).
  { destruct e; lia. }
  repeat split; try apply bit01_inj; auto.
Qed.

(** the reader never fails on 8 bytes *)
Lemma reloc_read e o l x r : bytes_ok l ->
  (read_reloc_info e (skipn o l) = Ok (x, r) <->
   reloc_at e o l x /\ reloc_fits x /\ r = skipn (o + 8) l).
Proof.
  intros Hb. unfold read_reloc_info, reloc_at. rstep. rstep.
  assert (RW : inu 32 (fld e (o + 4) 4 l)) by (apply (fld_range e (o + 4) 4 l Hb); lia).
  set (w := fld e (o + 4) 4 l) in *.
  assert (exists y, reloc_fits y /\ reloc_word e y = w /\ r_address y = fld_i32 e o l /\
    forall k : reader reloc_info,
    k = match e with
        | Little =>
            len <~ rlift (reloc_length_from_u32 (Z.shiftr (Z.land w 0x06000000) 25)) ;
            rret {| r_address := fld_i32 e o l;
              r_symbolnum := Z.land w 0x00FFFFFF;
              r_pcrel := 0 <? Z.land w 0x01000000;
              r_length := len;
              r_extern := 0 <? Z.land w 0x08000000;
              r_type := wrapu 8 (Z.shiftr (Z.land w 0xF0000000) 28) |}
        | Big =>
            len <~ rlift (reloc_length_from_u32 (Z.shiftr (Z.land w 0x00000060) 5)) ;
            rret {| r_address := fld_i32 e o l;
              r_symbolnum := Z.shiftr (Z.land w 0xFFFFFF00) 8;
              r_pcrel := 0 <? Z.land w 0x00000080;
              r_length := len;
              r_extern := 0 <? Z.land w 0x00000010;
              r_type := wrapu 8 (Z.land w 0x0000000F) |}
        end -> forall t, k t = Ok (y, t)) as (y & F & W & A & K).
  { destruct RW as [W1 W2]. change (2 ^ 32) with 4294967296 in W2.
    assert (LEN : forall v, 0 <= v < 4 -> exists len, reloc_length_from_u32 v = Ok len /\ reloc_length_num len = v).
    { intros v Hv. assert (exists len, reloc_length_num len = v) as (len & Hl).
      { assert (v = 0 \/ v = 1 \/ v = 2 \/ v = 3) as [->|[->|[->| ->]]] by lia;
          [now exists LenByte|now exists LenWord|now exists LenLong|now exists LenQuad]. }
      exists len. split; [now apply reloc_length_from_iff|exact Hl]. }
    destruct e.
    - rewrite (land_field w 25 2 0x06000000), (land_field w 28 4 0xF0000000) by (lia || reflexivity).
      destruct (LEN ((w / 2 ^ 25) mod 2 ^ 2)) as (len & L1 & L2);
        [change (2 ^ 2) with 4; lia|].
      rewrite L1.
      exists {| r_address := fld_i32 Little o l; r_symbolnum := Z.land w 0x00FFFFFF;
                r_pcrel := 0 <? Z.land w 0x01000000; r_length := len;
                r_extern := 0 <? Z.land w 0x08000000;
                r_type := wrapu 8 ((w / 2 ^ 28) mod 2 ^ 4) |}.
      assert (S : Z.land w 0x00FFFFFF = w mod 16777216) by (apply (Z.land_ones w 24); lia).
      unfold reloc_fits, reloc_word, inu, wrapu. cbn [r_symbolnum r_type r_pcrel r_length r_extern r_address].
      rewrite (land_bit w 24 0x01000000), (land_bit w 27 0x08000000) by (lia || reflexivity).
      rewrite S, L2.
      change (2 ^ 24) with 16777216 in *. change (2 ^ 25) with 33554432. change (2 ^ 27) with 134217728.
      change (2 ^ 28) with 268435456. change (2 ^ 8) with 256. change (2 ^ 4) with 16 in *. change (2 ^ 2) with 4.
      split; [lia|]. split; [lia|]. split; [reflexivity|].
      intros k -> t. reflexivity.
    - rewrite (land_field w 5 2 0x60), (land_field w 8 24 0xFFFFFF00) by (lia || reflexivity).
      destruct (LEN ((w / 2 ^ 5) mod 2 ^ 2)) as (len & L1 & L2);
        [change (2 ^ 2) with 4; lia|].
      rewrite L1.
      exists {| r_address := fld_i32 Big o l; r_symbolnum := (w / 2 ^ 8) mod 2 ^ 24;
                r_pcrel := 0 <? Z.land w 0x80; r_length := len;
                r_extern := 0 <? Z.land w 0x10;
                r_type := wrapu 8 (Z.land w 0xF) |}.
      assert (S : Z.land w 0xF = w mod 16) by (apply (Z.land_ones w 4); lia).
      unfold reloc_fits, reloc_word, inu, wrapu. cbn [r_symbolnum r_type r_pcrel r_length r_extern r_address].
      rewrite (land_bit w 7 0x80), (land_bit w 4 0x10) by (lia || reflexivity).
      rewrite S, L2.
      change (2 ^ 24) with 16777216 in *. change (2 ^ 7) with 128. change (2 ^ 5) with 32.
      change (2 ^ 8) with 256. change (2 ^ 4) with 16 in *. change (2 ^ 2) with 4.
      split; [lia|]. split; [lia|]. split; [reflexivity|].
      intros k -> t. reflexivity. }
  rewrite (K _ eq_refl). split.
  - intros E. apply Ok_inj in E. injection E as <- <-. repeat split; try lia; apply F.
  - intros ((L & A' & W') & F' & ->). f_equal. f_equal.
    destruct (reloc_word_inj e y x F F' ltac:(congruence)) as (Q1 & Q2 & Q3 & Q4 & Q5).
    destruct x, y. projs_in. congruence.
Qed.
