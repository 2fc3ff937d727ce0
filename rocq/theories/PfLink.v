(** Proofs about linking: C61, C62. *)
From Coq Require String.
Import String.StringSyntax.
From Coq Require Import ZifyBool ZifyNat Sorted.
From Verif Require Import Base Str X64 SpecX86 Mac SpecMacho Obj SpecObj Asm SpecAsm Assembler SpecRun SpecLink
  PfStr PfTok PfX64 PfX86 PfX64Top PfBytes PfObj PfObj2 PfObj3 PfObj4
  PfAsm PfData PfLine PfLine2 PfRun PfRun2 PfRun3 PfRun4 PfRun5 PfEnd.
Ltac Zify.zify_post_hook ::= Z.div_mod_to_equations.

(** ** Applying the relocations of a section's statements *)
Definition val (o : option Z) : Z := match o with Some v => v | None => 0 end.
Definition final (addr : str -> option Z) (x : stmt * list Z) : list Z :=
  match stmt_reloc (fst x) with
  | Some (n, k) => firstn (length (snd x) - Z.to_nat (2 ^ k)) (snd x) ++
      le_bytes (Z.to_nat (2 ^ k)) (val (addr n) mod 2 ^ (8 * 2 ^ k))
  | None => snd x
  end.
Lemma lev_zeros n : lev (repeat 0 n) = 0.
Proof. induction n as [|n IH]; [reflexivity|]. cbn [repeat lev]. rewrite IH. reflexivity. Qed.
Lemma final_zeros addr st bs n k q : stmt_reloc st = Some (n, k) -> bs = q ++ repeat 0 (Z.to_nat (2 ^ k)) ->
  final addr (st, bs) = q ++ le_bytes (Z.to_nat (2 ^ k)) (val (addr n) mod 2 ^ (8 * 2 ^ k)).
Proof.
  intros R ->. unfold final. cbn [fst snd]. rewrite R. rewrite app_length, repeat_length.
  replace (length q + Z.to_nat (2 ^ k) - Z.to_nat (2 ^ k))%nat with (length q + 0)%nat by lia.
  rewrite firstn_app_2. cbn [firstn]. now rewrite app_nil_r.
Qed.
Lemma final_len addr x : stmt_bytes (fst x) (snd x) -> length (final addr x) = length (snd x).
Proof.
  intro B. destruct x as [st bs]. destruct (stmt_reloc st) as [[n k]|] eqn:R.
  - destruct (reloc_bytes _ _ _ _ B R) as (q & E & _ & _). cbn [fst snd] in *. rewrite (final_zeros addr st bs n k q R E), E.
    rewrite !app_length, repeat_length, le_bytes_length. reflexivity.
  - unfold final. cbn [fst snd]. now rewrite R.
Qed.
Lemma emits_fin64 r bs v : emits (MovRI64 r 0) bs ->
  emits (MovRI64 r (v mod 2 ^ 64)) (firstn (length bs - Z.to_nat (2 ^ 3)) bs ++ le_bytes (Z.to_nat (2 ^ 3)) (v mod 2 ^ (8 * 2 ^ 3))).
Proof.
  intro E. destruct (emits_inv (MovRI64 r 0) bs (conj (Z.le_refl 0) eq_refl) E) as [-> _].
  change (8 * 2 ^ 3) with 64. change (Z.to_nat (2 ^ 3)) with 8%nat.
  assert (H : instr_ok (MovRI64 r (v mod 2 ^ 64))) by (cbn; unfold inu; lia).
  pose proof (emits_bytes (MovRI64 r (v mod 2 ^ 64)) H I) as Q.
  replace (firstn (length (instr_bytes (MovRI64 r 0)) - 8) (instr_bytes (MovRI64 r 0)) ++ le_bytes 8 (v mod 2 ^ 64)) with (instr_bytes (MovRI64 r (v mod 2 ^ 64))); [exact Q|].
  cbn [instr_bytes]. generalize (le_bytes 8 (v mod 2 ^ 64)). intro x. destruct r; reflexivity.
Qed.
Lemma emits_fin32 r bs v : emits (MovRI32 r 0) bs ->
  emits (MovRI32 r (v mod 2 ^ 32)) (firstn (length bs - Z.to_nat (2 ^ 2)) bs ++ le_bytes (Z.to_nat (2 ^ 2)) (v mod 2 ^ (8 * 2 ^ 2))).
Proof.
  intro E. destruct (emits_inv (MovRI32 r 0) bs (conj (Z.le_refl 0) eq_refl) E) as [-> _].
  change (8 * 2 ^ 2) with 32. change (Z.to_nat (2 ^ 2)) with 4%nat.
  assert (H : instr_ok (MovRI32 r (v mod 2 ^ 32))) by (cbn; unfold inu; lia).
  pose proof (emits_bytes (MovRI32 r (v mod 2 ^ 32)) H I) as Q.
  replace (firstn (length (instr_bytes (MovRI32 r 0)) - 4) (instr_bytes (MovRI32 r 0)) ++ le_bytes 4 (v mod 2 ^ 32)) with (instr_bytes (MovRI32 r (v mod 2 ^ 32))); [exact Q|].
  cbn [instr_bytes]. generalize (le_bytes 4 (v mod 2 ^ 32)). intro x. destruct r; reflexivity.
Qed.
Lemma final_linked addr x : stmt_bytes (fst x) (snd x) ->
  (forall n k, stmt_reloc (fst x) = Some (n, k) -> addr n <> None) -> linked_stmt addr x (final addr x).
Proof.
  intros B A. destruct x as [st bs]. unfold linked_stmt, final. cbn [fst snd] in *. destruct st; try reflexivity; cbn [stmt_reloc] in *.
  - specialize (A _ _ eq_refl). destruct (addr sym) as [v|] eqn:E; [|congruence]. exists v. split; [reflexivity|].
    apply emits_fin64, B.
  - specialize (A _ _ eq_refl). destruct (addr sym) as [v|] eqn:E; [|congruence]. exists v. split; [reflexivity|].
    apply emits_fin32, B.
Qed.

Definition put_field (v : Z) (off k : Z) (bs : list Z) : option (list Z) :=
  if (0 <=? off) && (off + 2 ^ k <=? zlen bs)
  then let i := Z.to_nat off in let n := Z.to_nat (2 ^ k) in
       Some (firstn i bs ++ le_bytes n ((lev (slice i n bs) + v) mod 2 ^ (8 * 2 ^ k)) ++ skipn (i + n) bs)
  else None.
Lemma put_field_at v k q rest : 0 <= k ->
  put_field v (zlen q) k (q ++ repeat 0 (Z.to_nat (2 ^ k)) ++ rest) =
  Some (q ++ le_bytes (Z.to_nat (2 ^ k)) (v mod 2 ^ (8 * 2 ^ k)) ++ rest).
Proof.
  intro K. pose proof (Z.pow_pos_nonneg 2 k ltac:(lia) K) as P. unfold put_field.
  replace ((0 <=? zlen q) && (zlen q + 2 ^ k <=? zlen (q ++ repeat 0 (Z.to_nat (2 ^ k)) ++ rest))) with true.
  2: { symmetry. apply andb_true_iff. unfold zlen. rewrite !app_length, repeat_length. split; lia. }
  cbv zeta. replace (Z.to_nat (zlen q)) with (length q) by (unfold zlen; lia).
  set (z := repeat 0 (Z.to_nat (2 ^ k))). assert (Lz : length z = Z.to_nat (2 ^ k)) by apply repeat_length.
  assert (E1 : firstn (length q) (q ++ z ++ rest) = q).
  { replace (length q) with (length q + 0)%nat by lia. rewrite firstn_app_2. cbn [firstn]. apply app_nil_r. }
  assert (E2 : skipn (length q) (q ++ z ++ rest) = z ++ rest).
  { rewrite skipn_app, skipn_all, Nat.sub_diag. reflexivity. }
  assert (E3 : slice (length q) (Z.to_nat (2 ^ k)) (q ++ z ++ rest) = z).
  { unfold slice. rewrite E2, <- Lz. replace (length z) with (length z + 0)%nat by lia. rewrite firstn_app_2. cbn [firstn]. apply app_nil_r. }
  assert (E4 : skipn (length q + Z.to_nat (2 ^ k)) (q ++ z ++ rest) = rest).
  { rewrite <- Lz. rewrite app_assoc, <- app_length. rewrite skipn_app, skipn_all, Nat.sub_diag. reflexivity. }
  rewrite E1, E3, E4. unfold z. rewrite lev_zeros, Z.add_0_l. reflexivity.
Qed.
Lemma apply_all e f loc addr l : Forall (fun x => stmt_bytes (fst x) (snd x)) l -> forall o pre post,
  (forall i n k off, nth_error (out_relocs (zlen pre) l) i = Some (n, k, off) ->
     exists v, addr n = Some v /\ forall bs, apply_reloc e f loc (o + 8 * i) bs = put_field v off k bs) ->
  apply_relocs e f loc (length (out_relocs (zlen pre) l)) o (pre ++ out_bytes l ++ post) =
  Some (pre ++ flat_map (final addr) l ++ post).
Proof.
  induction 1 as [|[st bs] l B F IH]; intros o pre post H; [reflexivity|].
  unfold out_bytes in *. cbn [out_relocs flat_map snd] in *. cbn [fst snd] in B.
  pose proof (final_len addr (st, bs) B) as L. cbn [snd] in L.
  assert (Zl : zlen (pre ++ final addr (st, bs)) = zlen pre + zlen bs) by (unfold zlen; rewrite app_length, L; lia).
  destruct (stmt_reloc st) as [[n k]|] eqn:R.
  - destruct (reloc_bytes _ _ _ _ B R) as (q & E & K & P). cbn [app length apply_relocs].
    destruct (H 0%nat n k _ eq_refl) as (v & Av & Ap). rewrite Nat.mul_0_r, Nat.add_0_r in Ap. rewrite Ap.
    assert (Ez : zlen pre + zlen bs - 2 ^ k = zlen (pre ++ q)).
    { rewrite E. unfold zlen. rewrite !app_length, repeat_length. lia. }
    rewrite Ez. rewrite E. rewrite <- !app_assoc. rewrite (app_assoc pre q), put_field_at by exact K.
    pose proof (final_zeros addr st bs n k q R E) as Fz. rewrite Av in Fz. cbn [val] in Fz.
    rewrite <- E. rewrite <- Zl.
    replace ((pre ++ q) ++ le_bytes (Z.to_nat (2 ^ k)) (v mod 2 ^ (8 * 2 ^ k)) ++ flat_map snd l ++ post)
      with ((pre ++ final addr (st, bs)) ++ flat_map snd l ++ post) by (rewrite Fz, <- !app_assoc; reflexivity).
    rewrite IH.
    + rewrite <- !app_assoc. reflexivity.
    + intros i n' k' off' I. rewrite Zl in I. destruct (H (S i) n' k' off' I) as (v' & A' & Ap'). exists v'. split; [exact A'|].
      intro b. rewrite <- Ap'. f_equal. lia.
  - cbn [app]. assert (Fb : final addr (st, bs) = bs) by (unfold final; cbn [fst snd]; now rewrite R). rewrite Fb in Zl |- *.
    rewrite <- Zl. rewrite <- !app_assoc. rewrite (app_assoc pre bs (flat_map snd l ++ post)). rewrite IH.
    + rewrite <- !app_assoc. reflexivity.
    + intros i n' k' off' I. rewrite Zl in I. exact (H i n' k' off' I).
Qed.

(** ** Reading the file *)
Lemma link_layout p h o f : object_rng o -> fits o -> macho_write_into p h o = (f, true) ->
  seg_pos h f = Some 32%nat /\ symtab_pos h f = Some (pos_symtab o) /\ fld h (32 + 64) 4 f = zlen (secs o) /\
  fld h (pos_symtab o + 8) 4 f = Z.of_nat (pos_syms o) /\ fld h (pos_symtab o + 12) 4 f = zlen (syms o) /\
  fld h (pos_symtab o + 16) 4 f = Z.of_nat (pos_strs o).
Proof.
  intros R F W. destruct (top_C24 p h o f R F W) as (H & S0 & T).
  destruct H as (_ & _ & _ & _ & _ & Hn & _). cbn [h_ncmds Nat.add] in Hn.
  destruct S0 as (_ & Sc & Ss & _ & _ & _ & _ & _ & _ & _ & Sn & _). cbn [sg_cmd sg_cmdsize sg_nsects] in Sc, Ss, Sn.
  destruct T as (_ & Tc & _ & T1 & T2 & T3 & _). cbn [st_cmd st_symoff st_nsyms st_stroff] in Tc, T1, T2, T3.
  unfold seg_pos, symtab_pos. rewrite Hn. change (Z.to_nat 2) with 2%nat.
  cbn [find_cmd]. rewrite Sc. change (25 =? 25) with true. change (25 =? 2) with false. cbv iota.
  rewrite Ss. replace (32 + Z.to_nat (Z.of_nat (pos_symtab o) - 32))%nat with (pos_symtab o) by (unfold pos_symtab, pos_sections; lia).
  rewrite Tc. change (2 =? 2) with true. cbv iota. auto 10.
Qed.
Lemma syms_placed o j k a y : nth_error (syms o) j = Some (k, a, y) -> exists i s, nth_error (placed o) i = Some (k, a, s) /\ k = S i /\ In y (os_syms s).
Proof.
  intro H. apply nth_error_In in H. unfold syms in H. apply in_flat_map in H. destruct H as ([[k' a'] s] & Ip & I).
  apply in_map_iff in I. destruct I as (y' & E & I). injection E as -> -> ->. apply In_nth_error in Ip. destruct Ip as (i & Ei).
  exists i, s. split; [exact Ei|]. split; [|exact I]. unfold placed in Ei. apply placed_ord in Ei. lia.
Qed.
Lemma sym_place_at p h o f loc : object_rng o -> fits o -> macho_write_into p h o = (f, true) ->
  forall j k a n off g, nth_error (syms o) j = Some (k, a, SyRef n off g) ->
  sym_place h f loc (Z.of_nat j) = Some (loc (Z.of_nat k) + off).
Proof.
  intros R F W j k a n off g Hj. destruct (link_layout p h o f R F W) as (E1 & E2 & E3 & E4 & E5 & E6).
  destruct (top_C26 p h o f R F W j k a _ Hj) as (e & (_ & _ & Nt & Ns & _ & Nv) & _ & Ty & Se & _ & Va).
  destruct (syms_placed _ _ _ _ _ Hj) as (i & s & Hi & -> & _).
  destruct (top_C25 p h o f R F W i _ _ _ Hi) as (x & (_ & _ & _ & Sa & _) & _ & _ & Ad & _).
  cbn [n_type_of n_sect_of n_value_of] in *.
  unfold sym_place. rewrite E1, E2. cbv zeta. rewrite E4, E5, !Nat2Z.id.
  rewrite Ns, Nv, Se, Va.
  assert (Q1 : (Z.of_nat j <? zlen (syms o)) = true).
  { apply Z.ltb_lt. assert (j < length (syms o))%nat by (apply nth_error_Some; congruence). unfold zlen. lia. }
  assert (Q2 : (fld h (pos_syms o + 16 * j + 4) 1 f / 2 mod 8 =? 7) = true).
  { rewrite Ty in Nt. cbn [n_type_byte] in Nt. rewrite Nt. destruct g; reflexivity. }
  rewrite Q1, Q2. cbn [andb]. replace (1 <=? Z.of_nat (S i)) with true by lia.
  unfold sect_pos. replace (32 + 72 + 80 * (Z.to_nat (Z.of_nat (S i)) - 1) + 32)%nat with (pos_sections + 80 * i + 32)%nat by (unfold pos_sections; lia).
  rewrite Sa, Ad. f_equal. lia.
Qed.
Lemma apply_reloc_at h f loc o j len off v bs : 0 <= j < 2 ^ 24 ->
  reloc_at h o f {| r_address := off; r_symbolnum := j; r_pcrel := false; r_length := len; r_extern := true; r_type := 0 |} ->
  sym_place h f loc j = Some v ->
  apply_reloc h f loc o bs = put_field v off (reloc_length_num len) bs.
Proof.
  intros J (_ & A & Wd) Sp. cbn [r_address] in A. unfold apply_reloc. rewrite A, Wd.
  assert (L : 0 <= reloc_length_num len < 4) by (destruct len; cbn; lia).
  unfold reloc_word. cbn [r_symbolnum r_pcrel r_length r_extern r_type bit01]. set (k := reloc_length_num len) in *.
  destruct h.
  - replace ((j + 2 ^ 24 * 0 + 2 ^ 25 * k + 2 ^ 27 * 1 + 2 ^ 28 * 0) mod 2 ^ 24) with j by lia.
    replace ((j + 2 ^ 24 * 0 + 2 ^ 25 * k + 2 ^ 27 * 1 + 2 ^ 28 * 0) / 2 ^ 24 mod 2) with 0 by lia.
    replace ((j + 2 ^ 24 * 0 + 2 ^ 25 * k + 2 ^ 27 * 1 + 2 ^ 28 * 0) / 2 ^ 25 mod 4) with k by lia.
    replace ((j + 2 ^ 24 * 0 + 2 ^ 25 * k + 2 ^ 27 * 1 + 2 ^ 28 * 0) / 2 ^ 27 mod 2) with 1 by lia.
    replace ((j + 2 ^ 24 * 0 + 2 ^ 25 * k + 2 ^ 27 * 1 + 2 ^ 28 * 0) / 2 ^ 28) with 0 by lia.
    cbv beta iota zeta. rewrite Sp. cbn [Z.eqb andb]. reflexivity.
  - replace ((2 ^ 8 * j + 2 ^ 7 * 0 + 2 ^ 5 * k + 2 ^ 4 * 1 + 0) / 2 ^ 8) with j by lia.
    replace ((2 ^ 8 * j + 2 ^ 7 * 0 + 2 ^ 5 * k + 2 ^ 4 * 1 + 0) / 2 ^ 7 mod 2) with 0 by lia.
    replace ((2 ^ 8 * j + 2 ^ 7 * 0 + 2 ^ 5 * k + 2 ^ 4 * 1 + 0) / 2 ^ 5 mod 4) with k by lia.
    replace ((2 ^ 8 * j + 2 ^ 7 * 0 + 2 ^ 5 * k + 2 ^ 4 * 1 + 0) / 2 ^ 4 mod 2) with 1 by lia.
    replace ((2 ^ 8 * j + 2 ^ 7 * 0 + 2 ^ 5 * k + 2 ^ 4 * 1 + 0) mod 2 ^ 4) with 0 by lia.
    cbv beta iota zeta. rewrite Sp. cbn [Z.eqb andb]. reflexivity.
Qed.

(** ** Names *)
Definition sym_off (y : symbol) : Z := match y with SyRef _ off _ => off | _ => 0 end.
Lemma syms_labels loc pr : map (fun x => (sym_name (snd x), loc (Z.of_nat (fst (fst x))) + sym_off (snd x))) (syms (object_of pr)) = labels_at loc pr.
Proof.
  unfold syms, placed. rewrite secs_of. cbn [filter]. unfold labels_at, sect_labels, ordinal.
  change (os_size (text_sec (object_of pr))) with (zlen (out_bytes (during SText SText pr))).
  change (os_size (data_sec (object_of pr))) with (zlen (out_bytes (during SData SText pr))).
  assert (M : forall k a L, map (fun x : nat * Z * symbol => (sym_name (snd x), loc (Z.of_nat (fst (fst x))) + sym_off (snd x)))
     (map (fun y => (k, a, y)) (map (fun x => SyRef (fst x) (snd x) (is_global pr (fst x))) L)) =
     map (fun x => (fst x, loc (Z.of_nat k) + snd x)) L).
  { intros k a L. rewrite !map_map. reflexivity. }
  destruct (out_bytes (during SText SText pr)) as [|x1 l1] eqn:E1; destruct (out_bytes (during SData SText pr)) as [|x2 l2] eqn:E2;
    cbn [zlen length Z.of_nat Z.ltb Z.compare place flat_map os_syms text_sec data_sec object_of o_text o_data sec_of bs_symbols map app];
    rewrite ?app_nil_r, ?map_app, ?M; reflexivity.
Qed.
Lemma find_first {A} (l : list (str * A)) n j : nth_error (map fst l) j = Some n ->
  (forall j', (j' < j)%nat -> nth_error (map fst l) j' <> Some n) ->
  find (fun x => str_eqb (fst x) n) l = nth_error l j.
Proof.
  revert j. induction l as [|[m v] l IH]; intros j H N; [destruct j; discriminate|]. cbn [find map fst] in *.
  destruct j as [|j]; cbn [nth_error] in *.
  - injection H as ->. now rewrite str_eqb_refl.
  - destruct (str_eqb m n) eqn:E; [apply str_eqb_eq in E; subst; exfalso; apply (N 0%nat); [lia|reflexivity]|].
    apply IH; [exact H|]. intros j' L. apply (N (S j')). lia.
Qed.
Lemma label_of_index loc pr n j : nth_error (names (object_of pr)) j = Some n ->
  (forall j', (j' < j)%nat -> nth_error (names (object_of pr)) j' <> Some n) ->
  exists k a y, nth_error (syms (object_of pr)) j = Some (k, a, y) /\ sym_name y = n /\
    label_addr loc pr n = Some (loc (Z.of_nat k) + sym_off y).
Proof.
  intros H N. assert (E : names (object_of pr) = map fst (labels_at loc pr)).
  { rewrite <- syms_labels, map_map. unfold names. apply map_ext. intros [[k a] y]. reflexivity. }
  unfold label_addr. rewrite (find_first _ n j); [|now rewrite <- E|intros j' L; rewrite <- E; now apply N].
  rewrite <- syms_labels, nth_error_map_inv. unfold names in H. rewrite nth_error_map_inv in H.
  destruct (nth_error (syms (object_of pr)) j) as [[[k a] y]|]; [|discriminate]. cbn [option_map fst snd] in *.
  injection H as H. exists k, a, y. auto.
Qed.
Lemma placed_ordinal pr s : s <> SBss -> out_bytes (during s SText pr) <> [] ->
  1 <= ordinal pr s <= zlen (secs (object_of pr)) /\
  exists a, nth_error (placed (object_of pr)) (Z.to_nat (ordinal pr s) - 1) = Some (Z.to_nat (ordinal pr s), a, osec_of pr s).
Proof.
  intros N E. unfold placed, ordinal. rewrite secs_of. cbn [filter].
  change (os_size (text_sec (object_of pr))) with (zlen (out_bytes (during SText SText pr))).
  change (os_size (data_sec (object_of pr))) with (zlen (out_bytes (during SData SText pr))).
  destruct s; [| |congruence];
    destruct (out_bytes (during SText SText pr)) as [|x1 l1] eqn:E1; try congruence;
    destruct (out_bytes (during SData SText pr)) as [|x2 l2] eqn:E2; try congruence;
    (split; [|eexists; reflexivity]); cbn; lia.
Qed.

(** names of a written file are clean *)
Lemma session_clean p h ins pr f : Forall (fun i => ~ In 0 i) ins -> sources_are p ins pr -> Forall stmt_fine pr ->
  object_rng (object_of pr) -> fits (object_of pr) -> macho_write_into p h (object_of pr) = (f, true) -> clean_names (object_of pr).
Proof.
  intros Nu Sr Fi R F Wr. pose proof (names_nonul pr (sources_nonul _ _ _ Nu Sr)) as Nn.
  assert (Rp : representable (object_of pr)) by (apply (top_C30 p h _ R F); now rewrite Wr).
  destruct Rp as [As _]. apply Forall_forall. intros n I. pose proof (proj1 (Forall_forall _ _) Nn n I) as H1.
  pose proof (proj1 (Forall_forall _ _) As n I) as H2.
  assert (So : str_ok n).
  { apply names_of in I. destruct I as (s' & off & _ & _ & L). destruct (out_labels_in _ _ _ _ L) as (x & Ix & Lx & _).
    apply during_incl in Ix. exact (proj1 (proj2 (proj2 (proj1 (Forall_forall _ _) Fi x Ix))) n Lx). }
  apply Forall_forall. intros c Ic. pose proof (proj1 (Forall_forall _ _) H1 c Ic). pose proof (proj1 (Forall_forall _ _) H2 c Ic).
  pose proof (proj1 (Forall_forall _ _) So c Ic). unfold ischar in *. lia.
Qed.

Lemma top_C61 p h ins a pr f loc : Forall bytes_ok ins -> Forall (fun i => ~ In 0 i) ins -> session p ins a -> sources_are p ins pr ->
  fits (object_of pr) -> small pr -> zlen (syms (object_of pr)) <= 2 ^ 24 -> asm_write_into p h a = (f, true) ->
  forall s, s <> SBss -> out_bytes (during s SText pr) <> [] ->
  exists bss, Forall2 (linked_stmt (label_addr loc pr)) (during s SText pr) bss /\ link h f loc (ordinal pr s) = Some (concat bss).
Proof.
  intros B N S0 Sr F Sm Ls Wr s Ns E.
  destruct (session_facts p ins a B S0) as (pr' & Sr' & C & W & Fi & Eo).
  assert (pr' = pr) by (eapply sources_are_fun; eassumption). subst pr'.
  unfold asm_write_into in Wr. rewrite Eo in Wr. pose proof (session_rng p ins pr Sr C F) as R.
  assert (Cn : clean_names (object_of pr)).
  { eapply session_clean; eassumption. }
  destruct (placed_ordinal pr s Ns E) as (O1 & ad & Pl). set (k := ordinal pr s) in *.
  destruct (link_layout p h _ f R F Wr) as (L1 & L2 & L3 & L4 & L5 & L6).
  destruct (top_C25 p h _ f R F Wr _ _ _ _ Pl) as (x & Sa & _ & _ & _ & Sz & _ & _ & _ & Sl).
  destruct (top_C27 p h _ f R F Cn Ls Wr _ _ _ _ Pl) as (x' & Sa' & Nr & Re).
  assert (Po : sect_pos 32 k = (pos_sections + 80 * (Z.to_nat k - 1))%nat) by reflexivity.
  exists (map (final (label_addr loc pr)) (during s SText pr)).
  assert (Each : forall i n k0 off, nth_error (out_relocs 0 (during s SText pr)) i = Some (n, k0, off) ->
     exists v, label_addr loc pr n = Some v /\ forall bs, apply_reloc h f loc (Z.to_nat (sc_reloff x') + 8 * i) bs = put_field v off k0 bs).
  { intros i n k0 off I.
    assert (Ir : nth_error (os_rels (osec_of pr s)) i = Some (rel_of (n, k0, off))).
    { destruct s; [| |congruence]; cbn [osec_of text_sec data_sec os_rels object_of o_text o_data sec_of bs_relocs];
        rewrite nth_error_map_inv, I; reflexivity. }
    destruct (Re _ _ Ir) as (j & Ra & Rl & Nj & Nf). cbn [rel_of rl_addr rl_symbol rl_pcrel rl_len fst snd] in *.
    assert (Off : as_i32 off = off).
    { apply as_i32_small. apply nth_error_In in I. destruct (out_relocs_in _ (wf_during s SText pr W) 0 n k0 off I) as (pre & post & Eb & ->).
      assert (Z0 : zlen (out_bytes (during s SText pr)) < 2 ^ 31) by (destruct Sm; destruct s; [assumption|assumption|congruence]).
      rewrite Eb in Z0. unfold zlen in *. rewrite app_length in Z0. lia. }
    rewrite Off in Ra. destruct (label_of_index loc pr n j Nj Nf) as (kk & aa & y & Hy & Sn & La).
    exists (loc (Z.of_nat kk) + sym_off y). split; [exact La|]. intro bs.
    assert (J : 0 <= Z.of_nat j < 2 ^ 24).
    { assert (j < length (syms (object_of pr)))%nat by (apply nth_error_Some; congruence). unfold zlen in Ls. lia. }
    rewrite (apply_reloc_at h f loc _ _ _ _ (loc (Z.of_nat kk) + sym_off y) bs J Ra).
    - now rewrite Rl.
    - assert (Iy : In (kk, aa, y) (syms (object_of pr))) by (eapply nth_error_In; exact Hy).
      destruct (syms_of pr _ _ _ Iy) as (s' & n' & off' & _ & _ & _ & ->). cbn [sym_off].
      eapply sym_place_at; eassumption. }
  split.
  - assert (Aa : forall x0 n k0, In x0 (during s SText pr) -> stmt_reloc (fst x0) = Some (n, k0) -> label_addr loc pr n <> None).
    { intros x0 n k0 Ix Rx. assert (Io : exists off, In (n, k0, off) (out_relocs 0 (during s SText pr))).
      { clear -Ix Rx. generalize 0. induction (during s SText pr) as [|[st bs] l IH]; intro z; [destruct Ix|].
        cbn [out_relocs]. destruct Ix as [<-|Ix].
        - cbn [fst] in Rx. rewrite Rx. eexists. left. reflexivity.
        - destruct (IH Ix (z + zlen bs)) as (off & I). exists off. apply in_app_iff. now right. }
      destruct Io as (off & Io). apply In_nth_error in Io. destruct Io as (i & Io). destruct (Each _ _ _ _ Io) as (v & -> & _). discriminate. }
    pose proof (wf_during s SText pr W) as Wd. clear -Aa Wd. induction Wd as [|x0 l Hx Wd IH]; [constructor|]. cbn [map]. constructor.
    + apply final_linked; [exact Hx|]. intros n k0 Rx. eapply Aa; [now left|exact Rx].
    + apply IH. intros y n k0 Iy. apply Aa. now right.
  - unfold link. rewrite L1, L3. replace ((1 <=? k) && (k <=? zlen (secs (object_of pr)))) with true by lia.
    rewrite Po. destruct Sa' as (_ & _ & _ & _ & _ & _ & _ & Ar & An & _). destruct Sa as (_ & _ & _ & _ & Az & Ao & _).
    rewrite Ar, An, Az, Ao, Nr.
    assert (Zf : os_zerofill (osec_of pr s) = false) by (destruct s; [reflexivity|reflexivity|congruence]). rewrite Zf in Sl. rewrite Sl.
    assert (Eb : os_bytes (osec_of pr s) = out_bytes (during s SText pr)) by (destruct s; [reflexivity|reflexivity|congruence]). rewrite Eb.
    assert (El : Z.to_nat (zlen (os_rels (osec_of pr s))) = length (out_relocs 0 (during s SText pr))).
    { unfold zlen. rewrite Nat2Z.id. destruct s; [| |congruence]; cbn [osec_of text_sec data_sec os_rels object_of o_text o_data sec_of bs_relocs]; apply map_length. }
    rewrite El. pose proof (apply_all h f loc (label_addr loc pr) _ (wf_during s SText pr W) (Z.to_nat (sc_reloff x')) [] [] Each) as A.
    cbn [app] in A. rewrite !app_nil_r in A. change (zlen (@nil Z)) with 0 in A. rewrite A. f_equal. now rewrite flat_map_concat_map.
Qed.

(** ** Looking up a name *)
Lemma find_sym_all p h pr f loc n : object_rng (object_of pr) -> fits (object_of pr) -> clean_names (object_of pr) ->
  macho_write_into p h (object_of pr) = (f, true) ->
  forall m j, (j + m = length (syms (object_of pr)))%nat ->
  find_sym h f loc n m (Z.of_nat j) =
    if is_global pr n then option_map snd (find (fun x => str_eqb (fst x) n) (skipn j (labels_at loc pr))) else None.
Proof.
  intros R F C W. destruct (link_layout p h _ f R F W) as (L1 & L2 & L3 & L4 & L5 & L6).
  induction m as [|m IH]; intros j Hj.
  - cbn [find_sym]. replace (skipn j (labels_at loc pr)) with (@nil (str * Z)); [destruct (is_global pr n); reflexivity|].
    symmetry. apply skipn_all2. rewrite <- syms_labels, map_length. lia.
  - destruct (nth_error (syms (object_of pr)) j) as [[[k a] y]|] eqn:Hy; [|apply nth_error_None in Hy; lia].
    destruct (top_C26_clean p h _ f R F C W j k a y Hy) as (e & (_ & Nx & Nt & _) & Nm & Ty & _).
    destruct (syms_of pr k a y (nth_error_In _ _ Hy)) as (s' & n' & off' & _ & _ & _ & ->). cbn [sym_name n_type_of] in *.
    assert (Hl : nth_error (labels_at loc pr) j = Some (n', loc (Z.of_nat k) + off')).
    { rewrite <- syms_labels, nth_error_map_inv, Hy. reflexivity. }
    assert (Sk : skipn j (labels_at loc pr) = (n', loc (Z.of_nat k) + off') :: skipn (S j) (labels_at loc pr)).
    { clear -Hl. revert Hl. generalize (labels_at loc pr). induction j as [|j IH]; intros [|x l] H; cbn in *; try discriminate; [now injection H as ->|].
      now apply IH. }
    rewrite Sk. cbn [find_sym find fst]. rewrite L2. cbv zeta. rewrite L4, L6, !Nat2Z.id, Nx, Nm.
    rewrite Ty in Nt. cbn [n_type_byte] in Nt. rewrite Nt.
    rewrite (sym_place_at p h _ f loc R F W j k a n' off' _ Hy).
    replace (Z.of_nat j + 1) with (Z.of_nat (S j)) by lia.
    destruct (str_eqb n' n) eqn:E.
    + apply str_eqb_eq in E. clear Nm. subst n'. cbn [andb option_map snd].
      destruct (is_global pr n) eqn:G; cbn [bit01 Z.mul]; [reflexivity|]. change ((0 + 14 + 0) mod 2 =? 1) with false. cbv iota.
      rewrite IH by lia. reflexivity.
    + cbn [andb]. rewrite IH by lia. reflexivity.
Qed.
Lemma top_C62 p h ins a pr f loc n : Forall bytes_ok ins -> Forall (fun i => ~ In 0 i) ins -> session p ins a -> sources_are p ins pr ->
  fits (object_of pr) -> asm_write_into p h a = (f, true) ->
  lookup h f loc n = if is_global pr n then label_addr loc pr n else None.
Proof.
  intros B N S0 Sr F Wr.
  destruct (session_facts p ins a B S0) as (pr' & Sr' & C & W & Fi & Eo).
  assert (pr' = pr) by (eapply sources_are_fun; eassumption). subst pr'.
  unfold asm_write_into in Wr. rewrite Eo in Wr. pose proof (session_rng p ins pr Sr C F) as R.
  assert (Cn : clean_names (object_of pr)) by (eapply session_clean; eassumption).
  destruct (link_layout p h _ f R F Wr) as (L1 & L2 & L3 & L4 & L5 & L6).
  unfold lookup. rewrite L2, L5. unfold zlen. rewrite Nat2Z.id.
  exact (find_sym_all p h pr f loc n R F Cn Wr _ 0%nat eq_refl).
Qed.
