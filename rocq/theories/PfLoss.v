(** Proofs about what a written file keeps of an object: C87. *)
From Coq Require Import ZifyBool ZifyNat.
From Coq Require String.
Import String.StringSyntax.
From Verif Require Import Base Str Mac Obj SpecMacho SpecObj SpecLoss PfX64 PfBytes PfStr PfMac PfMacRec PfMacRead
  PfMacTop PfMacTop2 PfObj PfObj2 PfObj3 PfObj4 Asm SpecAsm Assembler SpecRun PfRun PfRun5 PfRun3 PfEnd PfLink.

Lemma nth_ext_opt {A} (a b : list A) : (forall i, nth_error a i = nth_error b i) -> a = b.
Proof.
  revert b. induction a as [|x a IH]; intros [|y b] H; [reflexivity|specialize (H 0%nat); discriminate|specialize (H 0%nat); discriminate|].
  f_equal; [specialize (H 0%nat); now injection H|]. apply IH. intro i. exact (H (S i)).
Qed.
Lemma nth_error_Some_lt {A} (l : list A) i x : nth_error l i = Some x -> (i < length l)%nat.
Proof. intro H. apply nth_error_Some. now rewrite H. Qed.
Lemma all_syms_map o : map snd (syms o) = all_syms o.
Proof.
  unfold syms, all_syms, placed. generalize 1%nat as k. generalize 0 as a. induction (secs o) as [|s ss IH]; intros a k; [reflexivity|].
  cbn [place flat_map]. rewrite map_app, map_map. cbn [snd]. rewrite map_id. f_equal. apply IH.
Qed.
(** symbol-table entries do not mention the section of an undefined symbol *)
Definition seen (x : nat * Z * symbol) : Z * Z * symbol := match x with (k, a, y) => (n_sect_of k y, n_value_of a y, y) end.
Definition dsym (x : nat * Z * symbol) : bool := defined (snd x).
Lemma seen_same l m : map snd l = map snd m -> filter dsym l = filter dsym m -> map seen l = map seen m.
Proof.
  revert m. induction l as [|[[k a] y] l IH]; intros [|[[k' a'] y'] m] E F; try discriminate; [reflexivity|].
  cbn [map snd] in E. injection E as <- E. cbn [filter] in F. change (dsym (k, a, y)) with (defined y) in F. change (dsym (k', a', y)) with (defined y) in F. cbn [map].
  destruct (defined y) eqn:D.
  - injection F as <- <- F. f_equal. now apply IH.
  - destruct y; try discriminate. cbn [seen n_sect_of n_value_of]. f_equal. now apply IH.
Qed.
Lemma dsym_same ss tt : Forall2 same_section ss tt -> forall k a,
  filter dsym (place_syms (place k a ss)) = filter dsym (place_syms (place k a tt)).
Proof.
  intro F. induction F as [|s t ss tt S F IH]; intros k a; [reflexivity|]. unfold place_syms in *. cbn [place flat_map]. rewrite !filter_app.
  destruct S as (_ & _ & Sz & _ & _ & _ & _ & Sy). rewrite Sz. f_equal; [|apply IH].
  assert (G : forall l : list symbol, filter dsym (map (fun y => (k, a, y)) l) = map (fun y => (k, a, y)) (filter defined l)).
  { induction l as [|y l IHl]; [reflexivity|]. cbn [map filter]. unfold dsym at 1. cbn [snd]. destruct (defined y); cbn [map]; now rewrite IHl. }
  rewrite !G, Sy. reflexivity.
Qed.
Lemma same_len a b : same_object a b -> length (secs a) = length (secs b).
Proof. intros [F _]. induction F; cbn [length]; congruence. Qed.
Lemma names_all o : names o = map sym_name (all_syms o).
Proof. unfold names. rewrite <- all_syms_map, map_map. apply map_ext. now intros [[k x] y]. Qed.
Lemma same_names a b : same_object a b -> names a = names b.
Proof. intros [_ E]. now rewrite !names_all, E. Qed.
Lemma same_map {B} (g : osec -> B) ss tt : (forall s t, same_section s t -> g s = g t) -> Forall2 same_section ss tt -> map g ss = map g tt.
Proof. intros G F. induction F as [|s t ss tt S F IH]; [reflexivity|]. cbn [map]. f_equal; [now apply G|exact IH]. Qed.
Lemma same_flat {B} (g : osec -> list B) ss tt : (forall s t, same_section s t -> g s = g t) -> Forall2 same_section ss tt -> flat_map g ss = flat_map g tt.
Proof. intros G F. rewrite !flat_map_concat_map. f_equal. now apply same_map. Qed.
Lemma same_rels a b : same_object a b -> rels a = rels b.
Proof. intros [F _]. apply (same_flat os_rels); [|exact F]. intros s t S. apply S. Qed.
Lemma same_data a b : same_object a b -> flat_map os_bytes (secs a) = flat_map os_bytes (secs b).
Proof. intros [F _]. apply (same_flat os_bytes); [|exact F]. intros s t S. apply S. Qed.
Lemma same_sects ss tt : Forall2 same_section ss tt -> forall x y z, sects ss x y z = sects tt x y z.
Proof.
  intro F. induction F as [|s t ss tt S F IH]; intros x y z; [reflexivity|]. cbn [sects].
  destruct S as (S1 & S2 & S3 & S4 & S5 & S6 & S7 & _). unfold sect_of. rewrite S1, S2, S3, S4, S5, S6, S7. f_equal. apply IH.
Qed.
Lemma syms_length o : length (syms o) = length (all_syms o).
Proof. now rewrite <- all_syms_map, map_length. Qed.
Lemma same_head h a b : same_object a b -> e_head h a = e_head h b /\ e_tail h a = e_tail h b.
Proof.
  intro S. pose proof (same_len a b S) as L. pose proof (same_names a b S) as N. pose proof (same_rels a b S) as R. pose proof (same_data a b S) as D.
  destruct S as [F A]. assert (Vt : vm_total a = vm_total b) by (unfold vm_total; f_equal; apply same_map; [intros s t S; apply S|exact F]).
  assert (Ls : length (syms a) = length (syms b)) by (rewrite !syms_length; now rewrite A).
  assert (Pd : pos_data a = pos_data b) by (unfold pos_data, pos_symtab; now rewrite L).
  assert (Dl : data_len a = data_len b) by (unfold data_len; now rewrite D).
  assert (Pr : pos_rels a = pos_rels b) by (unfold pos_rels; now rewrite Pd, Dl).
  assert (Py : pos_syms a = pos_syms b) by (unfold pos_syms; now rewrite Pr, R).
  assert (Ps : pos_strs a = pos_strs b) by (unfold pos_strs; now rewrite Py, Ls).
  assert (Nl : names_len a = names_len b) by (unfold names_len; now rewrite N).
  split.
  - unfold e_head, e_header, e_segment, e_sects, e_symtab, e_data, zlen. now rewrite L, Vt, Pd, Dl, Pr, Py, Ps, Nl, Ls, D, (same_sects _ _ F).
  - unfold e_tail, e_rels, e_nlists, e_tab. rewrite N, R. f_equal. f_equal. f_equal.
    assert (G : forall l, map (ent (0 :: stab_bytes (names b))) l = map (fun x => match x with (k, v, y) => {| nl_strx := strx (0 :: stab_bytes (names b)) (sym_name y);
      nl_type := n_type_of y; nl_sect := k; nl_desc := 0; nl_value := v |} end) (map seen l)) by (intro l; rewrite map_map; apply map_ext; now intros [[k x] y]).
    rewrite !G. f_equal. f_equal. apply seen_same; [now rewrite !all_syms_map|]. now apply dsym_same.
Qed.
Lemma top_C87_keeps p q h a b : object_rng a -> fits a -> object_rng b -> fits b -> same_object a b ->
  macho_write_into p h a = macho_write_into q h b.
Proof.
  intros Ra Fa Rb Fb S. destruct (same_head h a b S) as [H1 H2].
  assert (D : representable a <-> representable b) by (unfold representable; now rewrite (same_names a b S), (same_rels a b S)).
  destruct (macho_write_into p h a) as [f [|]] eqn:E.
  - destruct (write_inv p h a f Ra Fa E) as [Rp ->]. apply D in Rp. rewrite (write_ok q h b Rb Fb Rp). unfold outf. now rewrite H1, H2.
  - assert (N : ~ representable a) by (intro Rp; rewrite (write_ok p h a Ra Fa Rp) in E; discriminate).
    rewrite (write_fail p h a Ra Fa N) in E. assert (N' : ~ representable b) by (intro Rp; apply N, D; exact Rp).
    rewrite (write_fail q h b Rb Fb N'), <- E. now rewrite H1.
Qed.

(** ** The other direction *)
Section Two.
  Variables (p q : profile) (h : endian) (a b : object) (f : list Z).
  Hypotheses (Ra : object_rng a) (Fa : fits a) (Ca : clean_names a) (La : zlen (syms a) <= 2 ^ 24) (Wa : macho_write_into p h a = (f, true)).
  Hypotheses (Rb : object_rng b) (Fb : fits b) (Cb : clean_names b) (Lb : zlen (syms b) <= 2 ^ 24) (Wb : macho_write_into q h b = (f, true)).

  Lemma two_len : length (secs a) = length (secs b).
  Proof using Ra Fa Wa Rb Fb Wb.
    destruct (top_C24 p h a f Ra Fa Wa) as (_ & A & _). destruct (top_C24 q h b f Rb Fb Wb) as (_ & B & _).
    unfold segment_at in A, B. decompose [and] A. decompose [and] B. cbn [sg_nsects] in *.
    assert (zlen (secs a) = zlen (secs b)) by congruence. unfold zlen in *. lia.
  Qed.
  Lemma two_pos : length (syms a) = length (syms b) /\ pos_syms a = pos_syms b /\ pos_strs a = pos_strs b.
  Proof using Ra Fa Wa Rb Fb Wb.
    destruct (top_C24 p h a f Ra Fa Wa) as (_ & _ & A). destruct (top_C24 q h b f Rb Fb Wb) as (_ & _ & B).
    assert (P : pos_symtab a = pos_symtab b) by (unfold pos_symtab; now rewrite two_len). rewrite P in A.
    unfold symtab_at in A, B. cbn [st_cmd st_cmdsize st_symoff st_nsyms st_stroff st_strsize] in *.
    destruct A as (_ & _ & _ & A1 & A2 & A3 & _), B as (_ & _ & _ & B1 & B2 & B3 & _).
    rewrite A1 in B1. rewrite A2 in B2. rewrite A3 in B3. unfold zlen in *. lia.
  Qed.
  Lemma secs_kind o s : In s (secs o) -> s = text_sec o \/ s = data_sec o \/ s = bss_sec o.
  Proof using. clear. intro I. unfold secs in I. apply filter_In in I. destruct I as [I _]. cbn [In] in I. intuition congruence. Qed.
  Lemma two_section i k x s k' x' s' : nth_error (placed a) i = Some (k, x, s) -> nth_error (placed b) i = Some (k', x', s') ->
    k = k' /\ x = x' /\ os_seg s = os_seg s' /\ os_name s = os_name s' /\ os_size s = os_size s' /\ os_bytes s = os_bytes s' /\
    os_zerofill s = os_zerofill s' /\ os_code s = os_code s'.
  Proof using Ra Fa Wa Rb Fb Wb.
    intros Ha Hb. destruct (top_C25 p h a f Ra Fa Wa _ _ _ _ Ha) as (u & U & U1 & U2 & U3 & U4 & _ & _ & _ & U5).
    destruct (top_C25 q h b f Rb Fb Wb _ _ _ _ Hb) as (v & V & V1 & V2 & V3 & V4 & _ & _ & _ & V5).
    unfold section_at in U, V. destruct U as (_ & U6 & _ & U7 & U8 & U9 & _), V as (_ & V6 & _ & V7 & V8 & V9 & _).
    pose proof Ha as Pa. apply place_nth in Pa. destruct Pa as (Na & -> & _). pose proof Hb as Pb. apply place_nth in Pb. destruct Pb as (Nb & -> & _).
    split; [reflexivity|]. split; [congruence|].
    assert (N : utf8 (os_name s) = utf8 (os_name s')) by congruence. assert (Sz : os_size s = os_size s') by congruence.
    assert (Of : sc_offset u = sc_offset v) by congruence. assert (Su : sc_size u = sc_size v) by congruence.
    apply nth_error_In, secs_kind in Na. apply nth_error_In, secs_kind in Nb.
    destruct Na as [-> | [-> | ->]], Nb as [-> | [-> | ->]]; try (exfalso; revert N; vm_compute; discriminate);
      (repeat split; try exact Sz; try reflexivity);
      cbn [text_sec data_sec bss_sec os_zerofill os_bytes] in *; rewrite <- U5, <- V5, Of, Su; reflexivity.
  Qed.
  Lemma two_symbol j k x y k' x' y' : nth_error (syms a) j = Some (k, x, y) -> nth_error (syms b) j = Some (k', x', y') ->
    y = y' /\ (defined y = true -> k = k' /\ x = x').
  Proof using Ra Fa Ca Wa Rb Fb Cb Wb.
    intros Ha Hb. destruct (top_C26_clean p h a f Ra Fa Ca Wa _ _ _ _ Ha) as (u & U & U1 & U2 & U3 & _ & U4).
    destruct (top_C26_clean q h b f Rb Fb Cb Wb _ _ _ _ Hb) as (v & V & V1 & V2 & V3 & _ & V4).
    destruct two_pos as (_ & P1 & P2). rewrite P1 in U. rewrite P2 in U1. assert (u = v) as <- by exact (nlist_unique _ _ _ _ _ U V).
    assert (N : sym_name y = sym_name y') by congruence. assert (T : n_type_of y = n_type_of y') by congruence.
    assert (K : n_sect_of k y = n_sect_of k' y') by congruence. assert (W : n_value_of x y = n_value_of x' y') by congruence. clear - Ha Hb N T K W Ra Fa Wa Rb Fb Wb.
    assert (X : k = k' -> x = x').
    { intros ->. apply syms_place in Ha. destruct Ha as (s & Ha & _). apply syms_place in Hb. destruct Hb as (s' & Hb & _).
      now destruct (two_section _ _ _ _ _ _ _ Ha Hb) as (_ & E & _). }
    destruct y as [n|n w e|n w e], y' as [n'|n' w' e'|n' w' e']; cbn [sym_name n_type_of n_sect_of n_value_of defined] in *; try discriminate T; subst n'.
    - split; [reflexivity|discriminate].
    - injection T as <-. assert (k = k') by lia. rewrite W. auto.
    - injection T as <-. assert (E : k = k') by lia. specialize (X E). assert (w = w') by lia. subst w'. auto.
  Qed.
  Lemma two_syms : map snd (syms a) = map snd (syms b) /\ filter dsym (syms a) = filter dsym (syms b).
  Proof using Ra Fa Ca Wa Rb Fb Cb Wb.
    destruct two_pos as (L & _ & _). pose proof two_symbol as H. revert L H. generalize (syms a) as l, (syms b) as m. clear.
    induction l as [|[[k x] y] l IH]; intros [|[[k' x'] y'] m] L H; try discriminate L; [now split|].
    destruct (H 0%nat k x y k' x' y' eq_refl eq_refl) as [<- D]. destruct (IH m) as [I1 I2]; [now injection L|intro j; exact (H (S j))|].
    cbn [map filter snd]. rewrite I1, I2. split; [reflexivity|]. change (dsym (k, x, y)) with (defined y). change (dsym (k', x', y)) with (defined y).
    destruct (defined y); [|reflexivity]. now destruct D as [-> ->].
  Qed.
  Lemma two_rels i k x s k' x' s' : nth_error (placed a) i = Some (k, x, s) -> nth_error (placed b) i = Some (k', x', s') -> os_rels s = os_rels s'.
  Proof using Ra Fa Ca La Wa Rb Fb Cb Lb Wb.
    intros Ha Hb. destruct (top_C27 p h a f Ra Fa Ca La Wa _ _ _ _ Ha) as (u & U & U1 & U2).
    destruct (top_C27 q h b f Rb Fb Cb Lb Wb _ _ _ _ Hb) as (v & V & V1 & V2).
    unfold section_at in U, V. destruct U as (_ & _ & _ & _ & _ & _ & _ & U7 & U8 & _), V as (_ & _ & _ & _ & _ & _ & _ & V7 & V8 & _).
    assert (Ro : sc_reloff u = sc_reloff v) by congruence. assert (Ln : zlen (os_rels s) = zlen (os_rels s')) by congruence.
    assert (Nm : names a = names b) by (rewrite !names_all, <- !all_syms_map; now rewrite (proj1 two_syms)).
    assert (Nl : zlen (names b) <= 2 ^ 24) by (unfold zlen, names; rewrite map_length; exact Lb).
    clear - U2 V2 Ro Ln Nm Nl. rewrite Ro in U2. rewrite Nm in U2.
    apply nth_ext_opt. intro m. destruct (nth_error (os_rels s) m) as [r|] eqn:E.
    - assert (M : (m < length (os_rels s'))%nat) by (apply nth_error_Some_lt in E; unfold zlen in Ln; lia).
      destruct (nth_error (os_rels s') m) as [r'|] eqn:E'; [|apply nth_error_None in E'; lia].
      f_equal. destruct (U2 m r E) as (j & A & A1 & A2 & _). destruct (V2 m r' E') as (j' & B & B1 & B2 & _).
      unfold reloc_at in A, B. destruct A as (_ & A3 & A4), B as (_ & B3 & B4). cbn [r_address] in A3, B3. rewrite A4 in B4. rewrite A3 in B3.
      pose proof (nth_error_Some_lt _ _ _ A2) as J. pose proof (nth_error_Some_lt _ _ _ B2) as J'. unfold zlen in Nl.
      unfold reloc_word in B4. cbn [r_symbolnum r_pcrel r_length r_extern r_type] in B4. rewrite A1, B1 in B4.
      assert (Q : rl_len r = 0 \/ rl_len r = 1 \/ rl_len r = 2 \/ rl_len r = 3) by (rewrite <- A1; destruct (reloc_len_of (rl_len r)); cbn; lia).
      assert (Q' : rl_len r' = 0 \/ rl_len r' = 1 \/ rl_len r' = 2 \/ rl_len r' = 3) by (rewrite <- B1; destruct (reloc_len_of (rl_len r')); cbn; lia).
      assert (R : j = j' /\ rl_pcrel r = rl_pcrel r' /\ rl_len r = rl_len r').
      { clear - B4 J J' Nl Q Q'. destruct h; unfold bit01 in B4; destruct (rl_pcrel r), (rl_pcrel r'); repeat split; lia. }
      destruct R as (<- & R2 & R3). destruct r as [r1 r2 r3 r4], r' as [t1 t2 t3 t4]. cbn [rl_addr rl_symbol rl_pcrel rl_len] in *.
      rewrite A2 in B2. injection B2 as <-. congruence.
    - symmetry. apply nth_error_None. apply nth_error_None in E. unfold zlen in Ln. lia.
  Qed.
  Lemma two_same : same_object a b.
  Proof using Ra Fa Ca La Wa Rb Fb Cb Lb Wb.
    split; [|rewrite <- !all_syms_map; exact (proj1 two_syms)].
    assert (G : forall i k x s k' x' s', nth_error (placed a) i = Some (k, x, s) -> nth_error (placed b) i = Some (k', x', s') ->
      os_seg s = os_seg s' /\ os_name s = os_name s' /\ os_size s = os_size s' /\ os_bytes s = os_bytes s' /\
      os_zerofill s = os_zerofill s' /\ os_code s = os_code s' /\ os_rels s = os_rels s').
    { intros i k x s k' x' s' Ha Hb. destruct (two_section _ _ _ _ _ _ _ Ha Hb) as (_ & _ & G1 & G2 & G3 & G4 & G5 & G6).
      pose proof (two_rels _ _ _ _ _ _ _ Ha Hb). tauto. }
    pose proof (proj2 two_syms) as D. pose proof two_len as L. revert G D L. unfold syms, placed. change (flat_map (fun '(k, a0, s) => map (fun y => (k, a0, y)) (os_syms s))) with place_syms.
    generalize 1%nat as k. generalize 0 as x. generalize (secs a) as l, (secs b) as m. clear.
    induction l as [|s l IH]; intros [|t m] x k G D L; try discriminate L; [constructor|].
    destruct (G 0%nat k x s k x t eq_refl eq_refl) as (G1 & G2 & G3 & G4 & G5 & G6 & G7).
    assert (P : forall (z : osec) zs, place_syms (place k x (z :: zs)) = map (fun y => (k, x, y)) (os_syms z) ++ place_syms (place (S k) (x + os_size z) zs)) by reflexivity.
    assert (K1 : forall l0 : list symbol, filter dsym (map (fun y => (k, x, y)) l0) = map (fun y => (k, x, y)) (filter defined l0)).
    { induction l0 as [|y l0 IHl]; [reflexivity|]. cbn [map filter]. change (dsym (k, x, y)) with (defined y). destruct (defined y); cbn [map]; now rewrite IHl. }
    rewrite !P, !filter_app, !K1 in D.
    assert (K2 : forall zs y0 k0, (k < k0)%nat -> Forall (fun w => fst (fst w) <> k) (filter dsym (place_syms (place k0 y0 zs)))).
    { intros zs y0 k0 Lk. apply Forall_forall. intros [[k1 x1] y1] I. apply filter_In in I. destruct I as [I _]. unfold place_syms in I.
      apply in_flat_map in I. destruct I as ([[k2 x2] z2] & I & I2). apply in_map_iff in I2. destruct I2 as (y2 & E & _). injection E as <- <- <-.
      apply In_nth_error in I. destruct I as [i I]. apply place_nth in I. cbn [fst]. lia. }
    assert (S : forall (u u' : list symbol) (v v' : list (nat * Z * symbol)), Forall (fun w => fst (fst w) <> k) v -> Forall (fun w => fst (fst w) <> k) v' ->
      map (fun y => (k, x, y)) u ++ v = map (fun y => (k, x, y)) u' ++ v' -> u = u' /\ v = v').
    { clear. induction u as [|y u IHu]; intros [|y' u'] v v' Fv Fv' E; cbn [map app] in E.
      - now split.
      - subst v. apply Forall_inv in Fv. cbn [fst] in Fv. lia.
      - subst v'. apply Forall_inv in Fv'. cbn [fst] in Fv'. lia.
      - injection E as -> E. destruct (IHu _ _ _ Fv Fv' E) as [-> ->]. now split. }
    apply S in D; [|apply K2; lia|apply K2; lia]. destruct D as [D1 D2]. constructor; [unfold same_section; tauto|].
    rewrite <- G3 in D2. apply (IH m (x + os_size s) (Datatypes.S k)); [|exact D2|now injection L].
    intros i k1 x1 s1 k2 x2 s2 H1 H2. apply (G (Datatypes.S i) k1 x1 s1 k2 x2 s2); cbn [place nth_error]; [exact H1|]. now rewrite <- G3.
  Qed.
End Two.
Lemma magic_host h h' f : bytes_ok f -> (4 <= length f)%nat -> fld h 0 4 f = 0xFEEDFACF -> fld h' 0 4 f = 0xFEEDFACF -> h = h'.
Proof.
  intros B L A A'. pose proof (bytes_of_fld h 0 4 f B L) as E. pose proof (bytes_of_fld h' 0 4 f B L) as E'. rewrite A in E. rewrite A' in E'. rewrite <- E' in E.
  revert E. destruct h, h'; try reflexivity; vm_compute; discriminate.
Qed.
Lemma same_host p q h h' a b f : object_rng a -> fits a -> macho_write_into p h a = (f, true) ->
  object_rng b -> fits b -> macho_write_into q h' b = (f, true) -> h = h'.
Proof.
  intros Ra Fa Wa Rb Fb Wb. destruct (write_inv p h a f Ra Fa Wa) as [Rp E].
  assert (B : bytes_ok f) by (rewrite E; now apply f_ok).
  destruct (top_C24 p h a f Ra Fa Wa) as (Ha & _). destruct (top_C24 q h' b f Rb Fb Wb) as (Hb & _).
  unfold header_at in Ha, Hb. destruct Ha as (L & Ha & _), Hb as (_ & Hb & _). apply (magic_host h h' f B); (assumption || lia).
Qed.
Lemma top_C87_lossless p q h h' a b f : object_rng a -> fits a -> clean_names a -> zlen (syms a) <= 2 ^ 24 -> macho_write_into p h a = (f, true) ->
  object_rng b -> fits b -> clean_names b -> zlen (syms b) <= 2 ^ 24 -> macho_write_into q h' b = (f, true) ->
  h = h' /\ same_object a b.
Proof.
  intros Ra Fa Ca La Wa Rb Fb Cb Lb Wb. pose proof (same_host p q h h' a b f Ra Fa Wa Rb Fb Wb) as <-. split; [reflexivity|].
  exact (two_same p q h a b f Ra Fa Ca La Wa Rb Fb Cb Lb Wb).
Qed.
Lemma same_section_sym s t : same_section s t -> same_section t s.
Proof. unfold same_section. intuition congruence. Qed.
Lemma same_object_sym a b : same_object a b -> same_object b a.
Proof.
  intros [F E]. split; [|now symmetry]. clear E. induction F as [|s t l m S F IH]; constructor; [now apply same_section_sym|exact IH].
Qed.
Lemma same_in a b s : same_object a b -> In s (secs a) -> exists t, In t (secs b) /\ same_section s t.
Proof.
  intros [F _]. induction F as [|x y l m S F IH]; intros I; [destruct I|]. destruct I as [<-|I]; [exists y; split; [now left|exact S]|].
  destruct (IH I) as (t & It & St). exists t. split; [now right|exact St].
Qed.
Lemma text_in o : bs_bytes (o_text o) <> [] -> In (text_sec o) (secs o).
Proof. intro N. unfold secs. apply filter_In. split; [now left|]. cbn [text_sec os_size]. destruct (bs_bytes (o_text o)); [congruence|]. unfold zlen. cbn [length]. lia. Qed.
Lemma data_in o : bs_bytes (o_data o) <> [] -> In (data_sec o) (secs o).
Proof. intro N. unfold secs. apply filter_In. split; [right; now left|]. cbn [data_sec os_size]. destruct (bs_bytes (o_data o)); [congruence|]. unfold zlen. cbn [length]. lia. Qed.
Lemma same_text a b : same_object a b -> bs_bytes (o_text a) <> [] ->
  bs_bytes (o_text a) = bs_bytes (o_text b) /\ bs_relocs (o_text a) = bs_relocs (o_text b) /\
  filter defined (bs_symbols (o_text a)) = filter defined (bs_symbols (o_text b)).
Proof.
  intros S N. destruct (same_in a b _ S (text_in a N)) as (t & I & T). unfold same_section in T. destruct T as (_ & T1 & _ & T2 & _ & _ & T3 & T4).
  apply secs_kind in I. destruct I as [-> | [-> | ->]]; try (exfalso; revert T1; vm_compute; discriminate).
  cbn [text_sec os_bytes os_rels os_syms] in *. now repeat split.
Qed.
Lemma same_data_sec a b : same_object a b -> bs_bytes (o_data a) <> [] ->
  bs_bytes (o_data a) = bs_bytes (o_data b) /\ bs_relocs (o_data a) = bs_relocs (o_data b) /\
  filter defined (bs_symbols (o_data a)) = filter defined (bs_symbols (o_data b)).
Proof.
  intros S N. destruct (same_in a b _ S (data_in a N)) as (t & I & T). unfold same_section in T. destruct T as (_ & T1 & _ & T2 & _ & _ & T3 & T4).
  apply secs_kind in I. destruct I as [-> | [-> | ->]]; try (exfalso; revert T1; vm_compute; discriminate).
  cbn [data_sec os_bytes os_rels os_syms] in *. now repeat split.
Qed.

(** ** Sources *)
Definition lsym (pr : prog) (x : str * Z) : symbol := SyRef (fst x) (snd x) (is_global pr (fst x)).
Definition lrel (x : str * Z * Z) : reloc := {| rl_addr := as_i32 (snd x); rl_symbol := fst (fst x); rl_pcrel := false; rl_len := snd (fst x) |}.
Lemma lsym_defined pr l : filter defined (map (lsym pr) l) = map (lsym pr) l.
Proof. induction l as [|x l IH]; [reflexivity|]. cbn [map filter defined lsym]. now rewrite IH. Qed.
Lemma lsym_inj a b l m : map (lsym a) l = map (lsym b) m -> l = m /\ forall n off, In (n, off) l -> is_global a n = is_global b n.
Proof.
  revert m. induction l as [|[n o] l IH]; intros [|[n' o'] m] E; try discriminate; [split; [reflexivity|intros ? ? []]|].
  cbn [map] in E. unfold lsym at 1 3 in E. cbn [fst snd] in E. injection E as <- <- E1 E. destruct (IH m E) as [<- H]. split; [reflexivity|].
  intros n1 o1 [I|I]; [injection I as <- <-; exact E1|now apply (H n1 o1)].
Qed.
Lemma lsym_ext a b l : (forall n off, In (n, off) l -> is_global a n = is_global b n) -> map (lsym a) l = map (lsym b) l.
Proof. intro H. apply map_ext_in. intros [n off] I. unfold lsym. cbn [fst snd]. now rewrite (H n off I). Qed.
Lemma lrel_inj l m : Forall (fun x => 0 <= snd x < 2 ^ 31) l -> Forall (fun x => 0 <= snd x < 2 ^ 31) m -> map lrel l = map lrel m -> l = m.
Proof.
  intro F. revert m. induction F as [|[[n k] o] l B F IH]; intros [|[[n' k'] o'] m] G E; try discriminate; [reflexivity|].
  apply Forall_cons_iff in G. destruct G as [G1 G]. cbn [map] in E. unfold lrel at 1 3 in E. cbn [fst snd] in *. injection E as E1 <- <- E.
  rewrite (IH m G E). unfold as_i32 in E1. rewrite !Z.mod_small in E1 by lia. f_equal. f_equal. lia.
Qed.
Lemma rel_range pr s : wf pr -> small pr -> s <> SBss -> Forall (fun x => 0 <= snd x < 2 ^ 31) (out_relocs 0 (during s SText pr)).
Proof.
  intros W [S1 S2] Ns. apply Forall_forall. intros [[n k] off] I.
  destruct (out_relocs_in _ (wf_during s SText pr W) 0 n k off I) as (pre & post & Eb & ->). cbn [snd].
  assert (L : zlen (out_bytes (during s SText pr)) < 2 ^ 31) by (destruct s; [exact S1|exact S2|congruence]).
  rewrite Eb in L. unfold zlen in *. rewrite !app_length in L. lia.
Qed.
Lemma same_output_object a b : wf a -> small a -> wf b -> small b -> (same_object (object_of a) (object_of b) <-> same_output a b).
Proof.
  intros Wa Sa Wb Sb. split.
  - intros S s Ns. cbv zeta.
    assert (G : forall x y, same_object (object_of x) (object_of y) -> out_bytes (during s SText x) <> [] ->
      out_bytes (during s SText x) = out_bytes (during s SText y) /\
      map lrel (out_relocs 0 (during s SText x)) = map lrel (out_relocs 0 (during s SText y)) /\
      map (lsym x) (out_labels 0 (during s SText x)) = map (lsym y) (out_labels 0 (during s SText y))).
    { intros x y T N. destruct s; [|  |congruence].
      - destruct (same_text _ _ T N) as (T1 & T2 & T3). cbn [object_of o_text sec_of bs_bytes bs_relocs bs_symbols] in *.
        change (fun x0 => SyRef (fst x0) (snd x0) (is_global x (fst x0))) with (lsym x) in T3.
        change (fun x0 => SyRef (fst x0) (snd x0) (is_global y (fst x0))) with (lsym y) in T3. rewrite !lsym_defined in T3. now repeat split.
      - destruct (same_data_sec _ _ T N) as (T1 & T2 & T3). cbn [object_of o_data sec_of bs_bytes bs_relocs bs_symbols] in *.
        change (fun x0 => SyRef (fst x0) (snd x0) (is_global x (fst x0))) with (lsym x) in T3.
        change (fun x0 => SyRef (fst x0) (snd x0) (is_global y (fst x0))) with (lsym y) in T3. rewrite !lsym_defined in T3. now repeat split. }
    assert (D : forall x : list Z, x = [] \/ x <> []) by (intros [|? ?]; [now left|now right]).
    destruct (D (out_bytes (during s SText a))) as [E|N].
    + split; [|intro C; congruence]. destruct (D (out_bytes (during s SText b))) as [E'|N']; [congruence|].
      destruct (G b a (same_object_sym _ _ S) N') as (G1 & _). congruence.
    + destruct (G a b S N) as (G1 & G2 & G3). split; [exact G1|]. intros _. apply lsym_inj in G3. destruct G3 as [G3 G4].
      split; [exact G3|]. split; [|exact G4]. apply lrel_inj; [now apply rel_range|now apply rel_range|exact G2].
  - intro H. pose proof (H SText ltac:(discriminate)) as [T1 T2]. pose proof (H SData ltac:(discriminate)) as [D1 D2]. clear H.
    assert (K : forall s, out_bytes (during s SText a) = out_bytes (during s SText b) ->
      (out_bytes (during s SText a) <> [] -> out_labels 0 (during s SText a) = out_labels 0 (during s SText b) /\
        out_relocs 0 (during s SText a) = out_relocs 0 (during s SText b) /\
        (forall n off, In (n, off) (out_labels 0 (during s SText a)) -> is_global a n = is_global b n)) ->
      out_bytes (during s SText a) <> [] -> sec_of a s = sec_of b s).
    { intros s E F N. destruct (F N) as (F1 & F2 & F3). unfold sec_of. cbv zeta. f_equal; [exact E| |now rewrite F2].
      rewrite <- F1. exact (lsym_ext a b _ F3). }
    assert (Q : secs (object_of a) = secs (object_of b)).
    { rewrite !secs_of. cbn [filter text_sec data_sec os_size object_of o_text o_data sec_of bs_bytes]. rewrite <- T1, <- D1.
      assert (P : forall x : list Z, 0 <? zlen x = true -> x <> []) by (intros x C ->; discriminate C).
      assert (Tq : 0 <? zlen (out_bytes (during SText SText a)) = true -> text_sec (object_of a) = text_sec (object_of b)).
      { intro C. unfold text_sec. cbn [object_of o_text]. now rewrite (K SText T1 T2 (P _ C)). }
      assert (Dq : 0 <? zlen (out_bytes (during SData SText a)) = true -> data_sec (object_of a) = data_sec (object_of b)).
      { intro C. unfold data_sec. cbn [object_of o_data]. now rewrite (K SData D1 D2 (P _ C)). }
      destruct (0 <? zlen (out_bytes (during SText SText a))), (0 <? zlen (out_bytes (during SData SText a)));
        rewrite ?Tq, ?Dq by reflexivity; reflexivity. }
    split; [|unfold all_syms; now rewrite Q]. rewrite Q. clear. induction (secs (object_of b)) as [|s l IH]; constructor; [unfold same_section; tauto|exact IH].
Qed.
Lemma top_C87_sources p q h ins ins' x y a b f g :
  Forall bytes_ok ins -> Forall (fun i => ~ In 0 i) ins -> session p ins x -> sources_are p ins a ->
  fits (object_of a) -> small a -> zlen (syms (object_of a)) <= 2 ^ 24 -> asm_write_into p h x = (f, true) ->
  Forall bytes_ok ins' -> Forall (fun i => ~ In 0 i) ins' -> session q ins' y -> sources_are q ins' b ->
  fits (object_of b) -> small b -> zlen (syms (object_of b)) <= 2 ^ 24 -> asm_write_into q h y = (g, true) ->
  (f = g <-> same_output a b).
Proof.
  intros B N S0 Sr F Sm Ls Wr B' N' S0' Sr' F' Sm' Ls' Wr'.
  destruct (session_facts p ins x B S0) as (pr & Q & C & W & Fi & Eo). assert (pr = a) by (eapply sources_are_fun; eassumption). subst pr.
  destruct (session_facts q ins' y B' S0') as (pr & Q' & C' & W' & Fi' & Eo'). assert (pr = b) by (eapply sources_are_fun; eassumption). subst pr.
  unfold asm_write_into in Wr, Wr'. rewrite Eo in Wr. rewrite Eo' in Wr'.
  pose proof (session_rng p ins a Sr C F) as R. pose proof (session_rng q ins' b Sr' C' F') as R'.
  assert (Cn : clean_names (object_of a)) by exact (session_clean p h ins a f N Sr Fi R F Wr).
  assert (Cn' : clean_names (object_of b)) by exact (session_clean q h ins' b g N' Sr' Fi' R' F' Wr').
  rewrite <- (same_output_object a b W Sm W' Sm'). split.
  - intros <-. exact (proj2 (top_C87_lossless p q h h _ _ f R F Cn Ls Wr R' F' Cn' Ls' Wr')).
  - intro S. pose proof (top_C87_keeps p q h _ _ R F R' F' S) as E. rewrite Wr, Wr' in E. congruence.
Qed.
