(** Proofs about what a file of a renamed object has in common with that of the object. *)
From Coq Require Import ZifyBool ZifyNat.
From Verif Require Import Base Str X64 SpecX86 Mac Obj SpecMacho SpecObj Asm SpecAsm Assembler SpecRun Cli SpecCli SpecLink SpecMeta SpecRename.
From Verif Require Import PfX64 PfBytes PfStr PfMac PfMacRec PfMacRead PfMacTop PfMacTop2 PfObj PfObj2 PfObj3 PfRun3 PfTop PfEnd PfMeta.

Section Ren.
Variable f : str -> str.

Definition ren_osec (s : osec) : osec :=
  {| os_seg := os_seg s; os_name := os_name s; os_size := os_size s; os_bytes := os_bytes s; os_zerofill := os_zerofill s;
     os_code := os_code s; os_syms := map (ren_symbol f) (os_syms s); os_rels := map (ren_reloc f) (os_rels s) |}.
Definition ren_syms (x : nat * Z * symbol) : nat * Z * symbol := let '(k, a, y) := x in (k, a, ren_symbol f y).

Lemma ren_name y : sym_name (ren_symbol f y) = f (sym_name y).
Proof. destruct y; reflexivity. Qed.
Lemma ren_secs o : secs (ren_object f o) = map ren_osec (secs o).
Proof.
  unfold secs. change [text_sec (ren_object f o); data_sec (ren_object f o); bss_sec (ren_object f o)] with
    (map ren_osec [text_sec o; data_sec o; bss_sec o]).
  generalize [text_sec o; data_sec o; bss_sec o]. intro l. induction l as [|s l IH]; [reflexivity|].
  cbn [map filter ren_osec os_size]. rewrite IH. destruct (0 <? os_size s); reflexivity.
Qed.
Lemma ren_place l : forall k a, place k a (map ren_osec l) = map (fun '(k, a, s) => (k, a, ren_osec s)) (place k a l).
Proof. induction l as [|s l IH]; intros k a; [reflexivity|]. cbn [map place]. rewrite IH. reflexivity. Qed.
Lemma ren_all_syms o : syms (ren_object f o) = map ren_syms (syms o).
Proof.
  unfold syms, placed. rewrite ren_secs, ren_place. generalize (place 1 0 (secs o)). intro l.
  induction l as [|[[k a] s] l IH]; [reflexivity|]. cbn [map flat_map ren_osec os_syms]. rewrite IH, map_app, !map_map. reflexivity.
Qed.
Lemma ren_names o : names (ren_object f o) = map f (names o).
Proof.
  unfold names. rewrite ren_all_syms, !map_map. apply map_ext. intros [[k a] y]. cbn [ren_syms]. apply ren_name.
Qed.
Lemma ren_rels o : rels (ren_object f o) = map (ren_reloc f) (rels o).
Proof.
  unfold rels. rewrite ren_secs. generalize (secs o). intro l. induction l as [|s l IH]; [reflexivity|].
  cbn [map flat_map ren_osec os_rels]. now rewrite IH, map_app.
Qed.
Lemma ren_bytes o : flat_map os_bytes (secs (ren_object f o)) = flat_map os_bytes (secs o).
Proof. rewrite ren_secs. now rewrite flat_map_map. Qed.
Lemma ren_data_len o : data_len (ren_object f o) = data_len o.
Proof. unfold data_len. now rewrite ren_bytes. Qed.
Lemma ren_vm o : vm_total (ren_object f o) = vm_total o.
Proof. unfold vm_total. rewrite ren_secs, map_map. reflexivity. Qed.
Lemma ren_pos o : pos_data (ren_object f o) = pos_data o /\ pos_rels (ren_object f o) = pos_rels o /\
  pos_syms (ren_object f o) = pos_syms o /\ pos_strs (ren_object f o) = pos_strs o.
Proof.
  assert (A : pos_data (ren_object f o) = pos_data o) by (unfold pos_data, pos_symtab; now rewrite ren_secs, map_length).
  assert (B : pos_rels (ren_object f o) = pos_rels o) by (unfold pos_rels; now rewrite A, ren_data_len).
  assert (C : pos_syms (ren_object f o) = pos_syms o) by (unfold pos_syms; now rewrite B, ren_rels, map_length).
  repeat split; try assumption. unfold pos_strs. now rewrite C, ren_all_syms, map_length.
Qed.
Lemma zlen_map {A B} (g : A -> B) l : zlen (map g l) = zlen l.
Proof. unfold zlen. now rewrite map_length. Qed.
Lemma ren_sects l : forall a b c, sects (map ren_osec l) a b c = sects l a b c.
Proof.
  induction l as [|s l IH]; intros a b c; [reflexivity|]. cbn [map sects ren_osec os_size os_bytes os_rels]. rewrite zlen_map, IH. f_equal.
  unfold sect_of. cbn [ren_osec os_seg os_name os_size os_zerofill os_code os_rels]. rewrite zlen_map. destruct (os_rels s); reflexivity.
Qed.

(** names without NUL are their own pieces *)
Lemma clean_nz s : clean s -> Forall (fun c => c <> 0) s.
Proof. apply Forall_impl. intros c H. lia. Qed.
Lemma clean_asc s : clean s -> ascii_str s.
Proof. apply Forall_impl. intros c H. lia. Qed.
Lemma split_clean ns : Forall clean ns -> split is_nul (stab_bytes ns) = ns ++ [[]].
Proof.
  induction 1 as [|n ns H F IH]; [reflexivity|]. unfold stab_bytes in *. cbn [map concat app]. rewrite <- app_assoc. cbn [app].
  now rewrite split_nul_at, IH, split_nul_none by now apply clean_nz.
Qed.
Lemma ascii_len s : ascii_str s -> str_len s = zlen s.
Proof.
  intro A. unfold str_len. f_equal. induction A as [|c s H A IH]; [reflexivity|]. cbn [utf8 flat_map] in *. unfold utf8 in *. cbn [flat_map].
  rewrite IH. unfold utf8_char. replace (c <? 128) with true by lia. reflexivity.
Qed.
Lemma strx_ren n ns : same_width f (n :: ns) -> Forall clean (n :: ns) -> In n ns -> forall i,
  get_strx_loop Release (map f ns ++ [[]]) (f n) i = get_strx_loop Release (ns ++ [[]]) n i.
Proof.
  intros [J L] C. inversion C as [|? ? Cn Cs]; subst. intro I. clear C. revert J L Cs I.
  enough (G : forall l, incl l ns -> (In n l \/ True) -> (forall a b, In a (n :: ns) -> In b (n :: ns) -> f a = f b -> a = b) ->
    (forall m, In m (n :: ns) -> clean (f m) /\ length (f m) = length m) -> Forall clean l -> In n l ->
    forall i, get_strx_loop Release (map f l ++ [[]]) (f n) i = get_strx_loop Release (l ++ [[]]) n i).
  { intros J L Cs I i. apply (G ns); auto. apply incl_refl. }
  intros l Il _ J L Cl. induction l as [|m l IH]; intros I i; [destruct I|].
  inversion Cl as [|? ? Cm Cl']; subst. destruct (L m) as [Cf Lf]; [right; apply Il; now left|].
  cbn [map app get_strx_loop]. rewrite !from_utf8_ascii by now apply clean_asc. cbn [unwrap bind].
  destruct (addu Release 32 i 1) as [i'|]; [|reflexivity]. cbn [bind].
  destruct (str_eqb m n) eqn:E.
  - apply str_eqb_eq in E. subst m. replace (str_eqb (f n) (f n)) with true by (symmetry; now apply str_eqb_eq). reflexivity.
  - apply str_eqb_neq in E. replace (str_eqb (f m) (f n)) with false.
    2: { symmetry. apply str_eqb_neq. intro K. apply E. apply J; [right; apply Il; now left|now left|exact K]. }
    rewrite !ascii_len by now apply clean_asc. unfold zlen. rewrite Lf.
    destruct (addu Release 32 i' _) as [j|]; [|reflexivity]. cbn [bind]. apply IH.
    + intros x X. apply Il. now right.
    + exact Cl'.
    + destruct I as [I|I]; [congruence|exact I].
Qed.
Lemma strx_same ns n : same_width f ns -> Forall clean ns -> In n ns ->
  strx (0 :: stab_bytes (map f ns)) (f n) = strx (0 :: stab_bytes ns) n.
Proof.
  intros [J L] C I. unfold strx, get_strx. cbn [split is_nul Z.eqb skipn].
  rewrite !split_clean; [|exact C|].
  2: { apply Forall_forall. intros x X. apply in_map_iff in X. destruct X as (m & <- & M). now apply L. }
  rewrite strx_ren; [reflexivity| | |exact I].
  - split; [intros a b [<-|A] [<-|B]; auto|intros m [<-|M]; auto].
  - constructor; [|exact C]. rewrite Forall_forall in C. now apply C.
Qed.
Lemma find_ren ns s : (forall a b, In a ns -> In b ns -> f a = f b -> a = b) -> In s ns -> find_str (f s) (map f ns) = find_str s ns.
Proof.
  intros J I. revert I. enough (G : forall l, incl l ns -> In s ns -> find_str (f s) (map f l) = find_str s l) by (intro I; apply (G ns); [apply incl_refl|exact I]).
  intros l Il I. induction l as [|x l IH]; [reflexivity|]. cbn [map find_str]. rewrite IH by (intros y Y; apply Il; now right).
  replace (str_eqb (f x) (f s)) with (str_eqb x s); [reflexivity|]. apply eq_true_iff_eq. rewrite !str_eqb_eq. split; [congruence|].
  apply J; [apply Il; now left|exact I].
Qed.
Lemma map_resolved ns : Forall clean ns -> map resolved ns = ns.
Proof.
  induction 1 as [|n ns H F IH]; [reflexivity|]. cbn [map]. rewrite IH. f_equal. apply resolved_clean, H.
Qed.

Lemma names_len_ren o : clean_names o -> same_width f (names o) -> names_len (ren_object f o) = names_len o.
Proof.
  intros C [_ L]. unfold names_len. rewrite ren_names. unfold clean_names in C. induction (names o) as [|n ns IH]; [reflexivity|].
  inversion C as [|? ? Cn Cs]; subst. cbn [map flat_map]. rewrite !app_length, IH; [|exact Cs|intros m M; apply L; now right].
  destruct (L n (or_introl eq_refl)) as [Cf Lf]. f_equal. cbn [length].
  pose proof (ascii_len _ (clean_asc _ Cn)) as A. pose proof (ascii_len _ (clean_asc _ Cf)) as B. unfold str_len, zlen in *. lia.
Qed.
Lemma fits_ren o : clean_names o -> same_width f (names o) -> fits o -> fits (ren_object f o).
Proof.
  intros C W ((A & B) & V & F). destruct (ren_pos o) as (_ & _ & _ & P). unfold fits. rewrite P, names_len_ren, ren_vm by assumption.
  split; [now split|]. split; [exact V|]. rewrite ren_all_syms. apply Forall_map. eapply Forall_impl; [|exact F].
  intros [[k a] y]. cbn [ren_syms]. destruct y; cbn [ren_symbol]; auto.
Qed.
Lemma clean_ren o : same_width f (names o) -> Forall clean (names (ren_object f o)).
Proof.
  intros [_ L]. rewrite ren_names. apply Forall_forall. intros x X. apply in_map_iff in X. destruct X as (m & <- & M). now apply L.
Qed.
Lemma rep_ren o : clean_names o -> same_width f (names o) -> representable o -> representable (ren_object f o).
Proof.
  intros C W [A B]. split.
  - eapply Forall_impl; [|apply clean_ren, W]. intros s. apply Forall_impl. intros c H. lia.
  - rewrite ren_rels. apply Forall_map. eapply Forall_impl; [|exact B]. intros r [R I]. cbn [ren_reloc rl_len rl_symbol]. split; [exact R|].
    rewrite map_resolved in I by exact C. rewrite map_resolved by now apply clean_ren. rewrite ren_names. now apply in_map.
Qed.

(** the file up to its strings *)
Definition front (h : endian) (o : object) : list Z :=
  e_head h o ++ concat (map (reloc_bytes h) (e_rels o)) ++ concat (map (nlist_bytes h) (e_nlists o)).
Lemma out_front h o : outf h o = front h o ++ e_tab o.
Proof. unfold outf, front, e_tail. now rewrite <- !app_assoc. Qed.
Lemma front_ren h o : clean_names o -> same_width f (names o) -> representable o -> front h (ren_object f o) = front h o.
Proof.
  intros C W R. destruct (ren_pos o) as (P1 & P2 & P3 & P4). unfold front.
  assert (Zs : zlen (secs (ren_object f o)) = zlen (secs o)) by (rewrite ren_secs; apply zlen_map).
  assert (E1 : e_head h (ren_object f o) = e_head h o).
  { unfold e_head, e_header, e_segment, e_sects, e_symtab, e_data.
    rewrite Zs, P1, P2, P3, P4, ren_vm, ren_data_len, ren_bytes, names_len_ren by assumption.
    rewrite ren_secs, ren_sects, ren_all_syms, zlen_map. reflexivity. }
  assert (E2 : e_rels (ren_object f o) = e_rels o).
  { unfold e_rels. rewrite ren_rels, map_map. apply map_ext_in. intros r I. unfold rel_of. cbn [ren_reloc rl_addr rl_symbol rl_pcrel rl_len].
    rewrite ren_names. rewrite (map_resolved (map f (names o))) by (rewrite <- ren_names; now apply clean_ren).
    rewrite map_resolved by exact C. destruct R as [_ B]. rewrite Forall_forall in B. destruct (B r I) as [_ In1]. rewrite map_resolved in In1 by exact C.
    rewrite find_ren; [reflexivity|apply W|exact In1]. }
  assert (E3 : e_nlists (ren_object f o) = e_nlists o).
  { unfold e_nlists. rewrite ren_all_syms, map_map. apply map_ext_in. intros [[k a] y] I. cbn [ren_syms ent].
    assert (In (sym_name y) (names o)) as In1 by (unfold names; apply in_map_iff; exists (k, a, y); now split).
    rewrite ren_name. unfold e_tab. rewrite ren_names, strx_same by assumption. destruct y; reflexivity. }
  now rewrite E1, E2, E3.
Qed.
Lemma tab_strings o : e_tab o = strings (names o).
Proof. unfold e_tab, strings, stab_bytes. now rewrite flat_map_concat_map. Qed.
End Ren.

Lemma front_length h o : object_rng o -> fits o -> representable o -> length (front h o) = pos_strs o.
Proof.
  intros R F Rp. pose proof (f_len h o R F Rp) as L. rewrite out_front, app_length in L. pose proof (len_tab o R Rp). unfold file_len in L. lia.
Qed.

Lemma top_C101_object : forall p h o f F, object_rng o -> fits o -> clean_names o -> object_rng (ren_object f o) ->
  same_width f (names o) -> macho_write_into p h o = (F, true) ->
  exists A, length A = pos_strs o /\ F = A ++ strings (names o) /\
    macho_write_into p h (ren_object f o) = (A ++ strings (map f (names o)), true).
Proof.
  intros p h o f F R Ft C R' W E. destruct (write_inv p h o F R Ft E) as [Rp ->]. exists (front h o).
  split; [now apply front_length|]. split; [rewrite out_front, tab_strings; reflexivity|].
  rewrite (write_ok p h _ R' (fits_ren f o C W Ft) (rep_ren f o C W Rp)).
  change (e_head h (ren_object f o) ++ e_tail h (ren_object f o)) with (outf h (ren_object f o)).
  rewrite out_front, tab_strings, front_ren, ren_names by assumption. reflexivity.
Qed.

(** ** Sources *)
Lemma renamed_relocs f l : forall off, out_relocs off (renamed f l) = map (fun x => (f (fst (fst x)), snd (fst x), snd x)) (out_relocs off l).
Proof.
  unfold renamed. induction l as [|[st bs] l IH]; intro off; [reflexivity|]. cbn [map fst snd out_relocs]. rewrite IH, map_app. f_equal.
  destruct st as [|s'|n|n|[k|] b|i|r n|r n]; reflexivity.
Qed.
Lemma object_renamed f pr : injective_on f (names_in pr) -> object_of (renamed f pr) = ren_object f (object_of pr).
Proof.
  intro J.
  assert (L : forall s, map (fun x => SyRef (fst x) (snd x) (is_global (renamed f pr) (fst x))) (out_labels 0 (renamed f (during s SText pr))) =
    map (ren_symbol f) (map (fun x => SyRef (fst x) (snd x) (is_global pr (fst x))) (out_labels 0 (during s SText pr)))).
  { intro s. rewrite renamed_labels, !map_map. apply map_ext_in. intros x X. cbn [fst snd ren_symbol]. f_equal.
    apply renamed_global; [exact J|]. apply labels_names in X. now apply names_during in X. }
  unfold object_of, ren_object, sec_of, ren_section. cbn [o_text o_data o_bss bs_bytes bs_symbols bs_relocs bss_size bss_symbols].
  rewrite !renamed_during, !renamed_bytes, !L, !renamed_relocs, !map_map. reflexivity.
Qed.
Lemma renamed_clean f pr : bss_clean pr -> bss_clean (renamed f pr).
Proof.
  unfold bss_clean. rewrite renamed_during. unfold renamed. intro H. apply Forall_map. eapply Forall_impl; [|exact H].
  intros [st bs]. destruct st as [|s'|n|n|[k|] b|i|r n|r n]; cbn; auto.
Qed.
Lemma names_incl pr : incl (names (object_of pr)) (names_in pr).
Proof. intros n I. apply names_of in I. destruct I as (s & off & _ & _ & I). apply labels_names in I. now apply names_during in I. Qed.

Lemma top_C101_source : forall p h ins ins' a a' pr f F,
  Forall bytes_ok ins -> Forall (fun i => ~ In 0 i) ins -> session p ins a -> sources_are p ins pr ->
  Forall bytes_ok ins' -> session p ins' a' -> sources_are p ins' (renamed f pr) ->
  same_width f (names_in pr) -> fits (object_of pr) -> asm_write_into p h a = (F, true) ->
  exists A, length A = pos_strs (object_of pr) /\ F = A ++ strings (names (object_of pr)) /\
    asm_write_into p h a' = (A ++ strings (map f (names (object_of pr))), true).
Proof.
  intros p h ins ins' a a' pr f F B N S Sr B' S' Sr' [J W] Ft E.
  destruct (top_session p ins a B S) as (pr0 & Sr0 & C & As). assert (pr0 = pr) by (eapply sources_are_fun; eassumption). subst pr0.
  destruct (top_session p ins' a' B' S') as (pr1 & Sr1 & C' & As'). assert (pr1 = renamed f pr) by (eapply sources_are_fun; eassumption). subst pr1.
  unfold asm_write_into in *. rewrite (proj1 As) in E. rewrite (proj1 As').
  pose proof (session_rng p ins pr Sr C Ft) as R.
  assert (Rp : representable (object_of pr)) by (eapply write_inv; eassumption).
  pose proof (names_incl pr) as Inc.
  assert (Cn : clean_names (object_of pr)).
  { pose proof (names_nonul pr (sources_nonul _ _ _ N Sr)) as Nz. pose proof (asc (object_of pr) R Rp) as Q. unfold clean_names.
    rewrite Forall_forall in *. intros n I. specialize (Nz n I). specialize (Q n I). unfold ascii_str, clean in *.
    rewrite Forall_forall in *. intros c Ic. specialize (Nz c Ic). specialize (Q c Ic). lia. }
  assert (W1 : same_width f (names (object_of pr))) by (split; [intros x y X Y; apply J; now apply Inc|intros n I; apply W; now apply Inc]).
  pose proof (fits_ren f _ Cn W1 Ft) as Ft'. rewrite <- object_renamed in Ft' by exact J.
  pose proof (session_rng p ins' _ Sr' C' Ft') as R'.
  rewrite object_renamed in * by exact J. now apply (top_C101_object p h (object_of pr) f F R Ft Cn).
Qed.
