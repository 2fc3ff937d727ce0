(** Objects of any size: which ones macho::write_into describes correctly. *)
From Coq Require Import ZifyBool ZifyNat.
From Coq Require String.
Import String.StringSyntax.
From Verif Require Import Base Str Mac Obj SpecMacho SpecObj PfX64 PfBytes PfStr PfMac PfMacRec PfMacRead
  PfMacTop PfMacTop2 PfObj PfObj2 PfObj3 PfObj4.
Ltac Zify.zify_post_hook ::= Z.div_mod_to_equations.

(** ** Every file written consists of bytes *)
Lemma wseq_inv a b f : a >>> b = (f, true) -> exists f1 f2, a = (f1, true) /\ b = (f2, true) /\ f = f1 ++ f2.
Proof.
  destruct a as [f1 []], b as [f2 v]; unfold wseq; cbn [fst snd]; intros H; [|discriminate].
  injection H as <- ->. now exists f1, f2.
Qed.
Lemma wbind_inv {A} (m : res A) k f : wbind m k = (f, true) -> exists x, m = Ok x /\ k x = (f, true).
Proof. destruct m as [x|]; cbn [wbind]; intros H; [now exists x|discriminate]. Qed.
Lemma wlist_ok {A} (w : A -> wr) l : (forall x f, In x l -> w x = (f, true) -> bytes_ok f) ->
  forall f, wlist (map w l) = (f, true) -> bytes_ok f.
Proof.
  unfold wlist. induction l as [|x l IH]; cbn [map fold_right]; intros G f H.
  - injection H as <-. constructor.
  - apply wseq_inv in H. destruct H as (f1 & f2 & H1 & H2 & ->). apply bytes_ok_app. split.
    + apply (G x); [now left|exact H1].
    + apply IH; [|exact H2]. intros y g Hy. apply G. now right.
Qed.
Lemma gen_sections_names p l : forall a off roff xs, gen_sections_loop p l a off roff = Ok xs ->
  Forall (fun x => name16 (sc_sectname x) /\ name16 (sc_segname x)) xs.
Proof.
  induction l as [|s l IH]; intros a off roff xs; cbn [gen_sections_loop].
  - intros H. injection H as <-. constructor.
  - destruct (addu p 64 a (sr_vm_size s)) as [a'|]; cbn [bind]; [|discriminate].
    destruct (addu p 32 off (sr_file_size s)) as [off'|]; cbn [bind]; [|discriminate].
    destruct (mulu p 32 RELOC_SIZE (wrapu 32 (zlen (sr_relocs s)))) as [m|]; cbn [bind]; [|discriminate].
    destruct (addu p 32 roff m) as [roff'|]; cbn [bind]; [|discriminate].
    destruct (gen_sections_loop p l a' off' roff') as [r|] eqn:E; cbn [bind]; [|discriminate].
    intros H. injection H as <-. constructor; [|now apply IH in E].
    destruct s; cbn [gen_section64]; split; apply name16_dec; reflexivity.
Qed.
Lemma stab_push_all_ok ns : forall t t', bytes_ok t -> stab_push_all t ns = Ok t' -> bytes_ok t'.
Proof.
  induction ns as [|s ns IH]; intros t t' B; cbn [stab_push_all].
  - intros H. now injection H as <-.
  - unfold stab_push. destruct (str_is_ascii s); [|discriminate]. cbn [bind]. apply IH.
    apply bytes_ok_app. split; [exact B|]. apply bytes_ok_app. split; [|constructor; [unfold isbyte; lia|constructor]].
    apply Forall_map, Forall_forall. intros c _. unfold isbyte, wrapu. change (2 ^ 8) with 256. lia.
Qed.
Lemma write_data_ok p l : Forall bytes_ok (map sr_file_data l) -> forall n k f, (forall n f, k n = (f, true) -> bytes_ok f) ->
  write_data_loop p l n k = (f, true) -> bytes_ok f.
Proof.
  induction l as [|s l IH]; intros F n k f K; cbn [write_data_loop map] in *; [apply K|].
  inversion_clear F as [|? ? Fs Fl]. intros H. apply wseq_inv in H. destruct H as (f1 & f2 & H1 & H2 & ->).
  injection H1 as <-. apply wbind_inv in H2. destruct H2 as (m & _ & H2). apply bytes_ok_app. split; [exact Fs|]. eapply IH; eassumption.
Qed.

Section Big.
  Variables (p : profile) (h : endian) (o : object) (f : list Z).
  Hypothesis RNG : object_rng o.
  Hypothesis W : macho_write_into p h o = (f, true).
  Let SS := sections_iter o.

  Lemma big_parts : exists hd sg sc sy t ns rs,
    gen_header64 p o = Ok hd /\ gen_segment_command64 p o = Ok sg /\ gen_section64s p o = Ok sc /\
    gen_symtab_command p o = Ok sy /\ gen_string_table o = Ok t /\ gen_nlist64s p o sc t = Ok ns /\
    gen_relocation_infos o ns t = Ok rs /\ bytes_ok f.
  Proof using RNG W.
    pose proof W as H. unfold macho_write_into in H.
    apply wseq_inv in H. destruct H as (f1 & f' & H1 & H & ->). apply wbind_inv in H1. destruct H1 as (hd & Ehd & H1).
    apply wseq_inv in H. destruct H as (f2 & f'' & H2 & H & ->). apply wbind_inv in H2. destruct H2 as (sg & Esg & H2).
    apply wbind_inv in H. destruct H as (sc & Esc & H).
    apply wseq_inv in H. destruct H as (f3 & f3' & H3 & H & ->).
    apply wseq_inv in H. destruct H as (f4 & f4' & H4 & H & ->). apply wbind_inv in H4. destruct H4 as (sy & Esy & H4).
    apply wseq_inv in H. destruct H as (f5 & f5' & H5 & H & ->).
    apply wbind_inv in H. destruct H as (t & Et & H). apply wbind_inv in H. destruct H as (ns & Ens & H).
    apply wseq_inv in H. destruct H as (f6 & f6' & H6 & H & ->). apply wbind_inv in H6. destruct H6 as (rs & Ers & H6).
    apply wseq_inv in H. destruct H as (f7 & f8 & H7 & H & ->). injection H as <-.
    exists hd, sg, sc, sy, t, ns, rs. do 7 (split; [assumption|]).
    rewrite header_write in H1. injection H1 as <-.
    assert (N : name16 (sg_segname sg)).
    { unfold gen_segment_command64 in Esg. clear -Esg.
      repeat match type of Esg with bind ?m _ = _ => destruct m; cbn [bind] in Esg; [|discriminate] end.
      injection Esg as <-. apply name16_dec. reflexivity. }
    rewrite segment_write in H2 by exact N. injection H2 as <-.
    rewrite symtab_write in H4. injection H4 as <-.
    repeat match goal with |- bytes_ok (_ ++ _) => apply bytes_ok_app; split end.
    - apply header_bytes_ok.
    - now apply segment_bytes_ok.
    - refine (wlist_ok _ _ _ _ H3). intros x g Hx Hg.
      assert (NS : Forall (fun x => name16 (sc_sectname x) /\ name16 (sc_segname x)) sc).
      { unfold gen_section64s in Esc. clear -Esc.
        do 4 match type of Esc with bind ?m _ = _ => destruct m; cbn [bind] in Esc; [|discriminate] end.
        eapply gen_sections_names; exact Esc. }
      rewrite Forall_forall in NS. destruct (NS x Hx) as [N1 N2]. rewrite section_write in Hg by assumption.
      injection Hg as <-. now apply section_bytes_ok.
    - apply symtab_bytes_ok.
    - unfold write_section_data_into in H5. refine (write_data_ok _ _ _ _ _ _ _ H5).
      + apply Forall_map. destruct RNG as (B1 & B2 & _). apply Forall_forall. intros s Hs. apply filter_In in Hs.
        destruct Hs as [[<-|[<-|[<-|[]]]] _]; cbn [sr_file_data]; auto. constructor.
      + intros n g Hg. apply wbind_inv in Hg. destruct Hg as (m & _ & Hg). destruct (m <=? 7); [|discriminate].
        injection Hg as <-. apply bytes_ok_repeat0.
    - refine (wlist_ok _ _ _ _ H6). intros x g _ Hg. rewrite reloc_write in Hg. injection Hg as <-. apply reloc_bytes_ok.
    - refine (wlist_ok _ _ _ _ H7). intros x g _ Hg. rewrite nlist_write in Hg. injection Hg as <-. apply nlist_bytes_ok.
    - unfold gen_string_table in Et. refine (stab_push_all_ok _ _ _ _ Et). constructor; [unfold isbyte; lia|constructor].
  Qed.
End Big.

(** a field of [n] bytes is below 256^n, even at the end of the file *)
Lemma fld_lt e off n l : bytes_ok l -> 0 <= fld e off n l < 2 ^ (8 * Z.of_nat n).
Proof.
  intros H. unfold fld. rewrite uint_val. set (s := slice off n l).
  assert (Hs : bytes_ok s) by (unfold s, slice; now apply bytes_ok_firstn, bytes_ok_skipn).
  assert (L : (length s <= n)%nat) by (unfold s, slice; rewrite firstn_length; lia).
  pose proof (val_of_range e s (length s) Hs eq_refl) as [V1 V2]. split; [exact V1|].
  eapply Z.lt_le_trans; [exact V2|]. apply Z.pow_le_mono_r; lia.
Qed.

Lemma top_C59_exact p h o f : object_rng o -> macho_write_into p h o = (f, true) ->
  ((fld h 64 8 f = vm_total o /\
    fld h (pos_symtab o + 8) 4 f = Z.of_nat (pos_syms o) /\
    fld h (pos_symtab o + 16) 4 f = Z.of_nat (pos_strs o) /\
    fld h (pos_symtab o + 20) 4 f = 1 + Z.of_nat (names_len o) /\
    forall j k a nm off ext, nth_error (syms o) j = Some (k, a, SyRef nm off ext) ->
      fld h (pos_syms o + 16 * j + 8) 8 f = a + off)
   <-> fits o).
Proof.
  intros R W. destruct (big_parts p h o f R W) as (hd & sg & sc & sy & t & ns & rs & _ & _ & _ & _ & _ & _ & _ & B). split.
  - intros (V & _ & S1 & S2 & Y).
    assert (P32 : 2 ^ (8 * Z.of_nat 4) = 2 ^ 32) by reflexivity. assert (P64 : 2 ^ (8 * Z.of_nat 8) = 2 ^ 64) by reflexivity.
    split; [split|split].
    + rewrite <- S1, <- P32. apply fld_lt, B.
    + rewrite <- S2, <- P32. apply fld_lt, B.
    + rewrite <- V, <- P64. apply fld_lt, B.
    + apply Forall_forall. intros [[k a] y] Hy. destruct y as [nm|nm v ext|nm off ext]; auto.
      apply In_nth_error in Hy. destruct Hy as [j Hj]. rewrite <- (Y _ _ _ _ _ _ Hj), <- P64. apply fld_lt, B.
  - intros F. destruct (top_C24 p h o f R F W) as (_ & A2 & A3).
    destruct A2 as (_ & _ & _ & _ & _ & A2 & _). destruct A3 as (_ & _ & _ & B1 & _ & B3 & B4).
    cbn [sg_vmsize st_symoff st_stroff st_strsize Nat.add] in *. split; [exact A2|]. split; [exact B1|]. split; [exact B3|].
    split.
    + rewrite B4. destruct (write_inv p h o f R F W) as [REP ->]. unfold zlen. rewrite (f_len h o R F REP). unfold file_len. lia.
    + intros j k a nm off ext Hj. destruct (top_C26 p h o f R F W j k a _ Hj) as (e & A & _ & _ & _ & _ & V).
      destruct A as (_ & _ & _ & _ & _ & A). rewrite A, V. reflexivity.
Qed.

(** ** Debug builds: arithmetic that does not panic is exact *)
Lemma chku_debug n x y : chku Debug n x = Ok y -> y = x /\ 0 <= x < 2 ^ n.
Proof.
  unfold chku, inub. destruct ((0 <=? x) && (x <? 2 ^ n)) eqn:E; [|discriminate]. intros H. injection H as <-.
  split; [reflexivity|lia].
Qed.
Lemma sumu_from_debug n l : 0 <= n -> forall a x, 0 <= a < 2 ^ n -> sumu_from Debug n a l = Ok x -> x = a + zsum l /\ 0 <= x < 2 ^ n.
Proof.
  intros N. induction l as [|z l IH]; intros a x A; cbn [sumu_from zsum fold_right].
  - intros H. injection H as <-. lia.
  - destruct (chku Debug n (a + z)) as [a'|] eqn:E; cbn [bind]; [|discriminate]. apply chku_debug in E. destruct E as [-> E].
    intros H. apply IH in H; [|exact E]. unfold zsum in H. lia.
Qed.
Lemma sumu_debug n l x : 0 <= n -> sumu Debug n l = Ok x -> x = zsum l /\ 0 <= zsum l < 2 ^ n.
Proof.
  intros N H. apply sumu_from_debug in H; [lia|assumption|]. split; [lia|]. apply Z.pow_pos_nonneg; lia.
Qed.
Lemma aligned_debug n x : aligned Debug 32 (Z.of_nat n) 8 = Ok x -> x = Z.of_nat (round8 n) /\ x < 2 ^ 32.
Proof.
  unfold aligned, addu, mulu. cbn [Z.eqb].
  assert (E : Z.of_nat n / 8 + b2z (0 <? Z.of_nat n mod 8) = Z.of_nat ((n + 7) / 8)).
  { unfold b2z. destruct (0 <? Z.of_nat n mod 8) eqn:B; lia. }
  rewrite E. destruct (chku Debug 32 (Z.of_nat ((n + 7) / 8))) as [q|] eqn:Q; cbn [bind]; [|discriminate].
  apply chku_debug in Q. destruct Q as [-> _]. intros H. apply chku_debug in H. destruct H as [-> H]. unfold round8.
  split; [|lia]. clear. lia.
Qed.
Lemma mapM_inv {A B} (g : A -> res B) (g' : A -> B) l : (forall x y, In x l -> g x = Ok y -> y = g' x) ->
  forall ys, mapM g l = Ok ys -> ys = map g' l.
Proof.
  induction l as [|x l IH]; intros G ys; cbn [mapM map].
  - intros H. now injection H as <-.
  - destruct (g x) as [y|] eqn:E; cbn [bind]; [|discriminate]. destruct (mapM g l) as [zs|] eqn:M; cbn [bind]; [|discriminate].
    intros H. injection H as <-. rewrite (G x y (or_introl eq_refl) E). f_equal. apply IH; [|reflexivity]. intros; apply G; [now right|assumption].
Qed.
Lemma mapM_each {A B} (g : A -> res B) l ys : mapM g l = Ok ys -> forall x, In x l -> exists y, g x = Ok y.
Proof.
  revert ys. induction l as [|x l IH]; intros ys; cbn [mapM]; [intros _ ? []|].
  destruct (g x) as [y|] eqn:E; cbn [bind]; [|discriminate]. destruct (mapM g l) as [zs|] eqn:M; cbn [bind]; [|discriminate].
  intros _ z [<-|Hz]; [eauto|]. eapply IH; [reflexivity|exact Hz].
Qed.

Lemma Ok_inj {A} (x y : A) : Ok x = Ok y -> x = y.
Proof. intros H. now injection H. Qed.

Lemma nlists_debug t : forall S pre a off roff i ns, length pre = i ->
  gen_nlists_loop Debug (pre ++ sects (map view S) a off roff) t i S = Ok ns ->
  Forall (fun '(_, a, y) => match y with SyRef _ x _ => a + x < 2 ^ 64 | _ => True end)
    (place_syms (place (Datatypes.S i) a (map view S))).
Proof.
  induction S as [|s S IH]; intros pre a off roff i ns L; cbn [gen_nlists_loop map sects place place_syms flat_map]; [constructor|].
  destruct (mapM _ (sr_symbols s)) as [xs|] eqn:M; cbn [bind]; [|discriminate].
  destruct (gen_nlists_loop Debug _ t (Datatypes.S i) S) as [ys|] eqn:G; cbn [bind]; [|discriminate]. intros _.
  apply Forall_app. split.
  - apply Forall_map, Forall_forall. intros y Hy. rewrite view_syms in Hy. destruct (mapM_each _ _ _ M y Hy) as [e E].
    destruct y as [nm|nm v ext|nm x ext]; auto. cbn [gen_nlist64] in E.
    destruct (get_strx Debug t nm) as [k|]; cbn [bind] in E; [|discriminate].
    rewrite nth_error_app2 in E by lia. replace (i - length pre)%nat with 0%nat in E by lia. cbn [nth_error unwrap bind] in E.
    unfold sect_of at 1 in E. cbn [sc_addr] in E. unfold addu in E.
    destruct (chku Debug 64 (a + x)) as [v|] eqn:C; cbn [bind] in E; [|discriminate]. apply chku_debug in C. lia.
  - specialize (IH (pre ++ [sect_of (view s) a off roff]) (a + os_size (view s)) (off + zlen (os_bytes (view s)))
       (roff + 8 * zlen (os_rels (view s))) (Datatypes.S i) ys).
    rewrite <- app_assoc in IH. cbn [app] in IH. apply IH; [rewrite app_length; cbn [length]; lia|exact G].
Qed.

Lemma top_C59_debug h o f : object_rng o -> parts_small o -> macho_write_into Debug h o = (f, true) -> fits o.
Proof.
  intros R [PS PN] W. destruct (big_parts Debug h o f R W) as (hd & sg & sc & sy & t & ns & rs & _ & Esg & Esc & Esy & _ & Ens & _ & _).
  pose proof (secs_view o R) as SV. set (SS := sections_iter o) in *.
  pose proof (ss_len o) as L3. fold SS in L3. pose proof (ss_sizes o R) as SZ. fold SS in SZ.
  assert (PB : forall s, In s SS -> zlen (sr_file_data s) < 2 ^ 32 /\ zlen (sr_relocs s) < 2 ^ 32 /\ zlen (sr_symbols s) < 2 ^ 32).
  { intros s Hs. rewrite SV, Forall_map, Forall_forall in PS. specialize (PS s Hs). now rewrite view_bytes, view_rels, view_syms in PS. }
  assert (SL : sections_len o = zlen SS) by (unfold sections_len; fold SS; apply wrapu32_small; unfold inu, zlen; lia).
  assert (LZ : 0 <= zlen SS <= 3) by (unfold zlen; lia).
  assert (PD : Z.of_nat (pos_data o) = 128 + 80 * zlen SS).
  { unfold pos_data, pos_symtab, pos_sections. rewrite SV, map_length. unfold zlen. lia. }
  assert (DS : data_start_of Debug o = Ok (Z.of_nat (pos_data o))).
  { unfold data_start_of, addu, mulu. rewrite SL, PD. change SECTION_SIZE with 80. change SEGMENT_SIZE with 72. change SYMTAB_SIZE with 24.
    change HEADER_SIZE with 32. do 4 (rewrite chku_in by (unfold inu; lia); cbn [bind]). f_equal. lia. }
  assert (FSE : map sr_file_size SS = map (fun s => zlen (sr_file_data s)) SS).
  { apply map_ext_in. intros s Hs. apply wrapu32_small. destruct (PB s Hs). pose proof (zlen_nonneg (sr_file_data s)). unfold inu. lia. }
  assert (DL : Z.of_nat (data_len o) = zsum (map (fun s => zlen (sr_file_data s)) SS)).
  { unfold data_len. rewrite (bytes_flat o R). fold SS. rewrite <- zlen_flat_map. reflexivity. }
  (* segment *)
  unfold gen_segment_command64 in Esg. rewrite SL in Esg.
  destruct (mulu Debug 32 (zlen SS) SECTION_SIZE) as [m0|]; cbn [bind] in Esg; [|discriminate].
  destruct (addu Debug 32 SEGMENT_SIZE m0) as [m1|]; cbn [bind] in Esg; [|discriminate]. fold SS in Esg.
  destruct (sumu Debug 64 (map sr_vm_size SS)) as [vm|] eqn:VM; cbn [bind] in Esg; [|discriminate]. clear Esg.
  apply sumu_debug in VM; [|lia]. destruct VM as [_ VM].
  assert (VT : vm_total o = zsum (map sr_vm_size SS)).
  { unfold vm_total, zsum. rewrite SV, map_map. f_equal. apply map_ext. intros; apply view_size. }
  (* symbol table *)
  unfold gen_symtab_command in Esy. rewrite DS in Esy. cbn [bind] in Esy. unfold file_sizes_sum in Esy. fold SS in Esy. rewrite FSE in Esy.
  destruct (sumu Debug 32 (map (fun s => zlen (sr_file_data s)) SS)) as [fs|] eqn:FS; cbn [bind] in Esy; [|discriminate].
  pose proof FS as FS'. apply sumu_debug in FS'; [|lia]. destruct FS' as [-> FB]. rewrite <- DL in *.
  destruct (aligned Debug 32 (Z.of_nat (data_len o)) 8) as [al|] eqn:AL; cbn [bind] in Esy; [|discriminate].
  pose proof AL as AL'. apply aligned_debug in AL'. destruct AL' as [-> AB].
  destruct (addu Debug 32 (Z.of_nat (pos_data o)) (Z.of_nat (round8 (data_len o)))) as [a0|] eqn:A0; cbn [bind] in Esy; [|discriminate].
  apply chku_debug in A0. destruct A0 as [-> A0].
  rewrite (map_ext_in (fun s => wrapu 32 (zlen (sr_relocs s))) (fun s => zlen (sr_relocs s))) in Esy
    by (intros s Hs; destruct (PB s Hs) as (_ & ? & _); pose proof (zlen_nonneg (sr_relocs s)); apply wrapu32_small; unfold inu; lia).
  destruct (sumu Debug 32 (map (fun s => zlen (sr_relocs s)) SS)) as [nr|] eqn:NR; cbn [bind] in Esy; [|discriminate].
  apply sumu_debug in NR; [|lia]. destruct NR as [-> _]. rewrite <- zlen_flat_map in Esy.
  destruct (mulu Debug 32 (zlen (flat_map sr_relocs SS)) RELOC_SIZE) as [m2|] eqn:M2; cbn [bind] in Esy; [|discriminate].
  apply chku_debug in M2. destruct M2 as [-> _]. change RELOC_SIZE with 8 in Esy.
  destruct (addu Debug 32 (Z.of_nat (pos_data o) + Z.of_nat (round8 (data_len o))) (zlen (flat_map sr_relocs SS) * 8)) as [so|] eqn:SO; cbn [bind] in Esy; [|discriminate].
  apply chku_debug in SO. destruct SO as [-> SO].
  rewrite (map_ext_in (fun s => wrapu 32 (zlen (sr_symbols s))) (fun s => zlen (sr_symbols s))) in Esy
    by (intros s Hs; destruct (PB s Hs) as (_ & _ & ?); pose proof (zlen_nonneg (sr_symbols s)); apply wrapu32_small; unfold inu; lia).
  destruct (sumu Debug 32 (map (fun s => zlen (sr_symbols s)) SS)) as [ny|] eqn:NY; cbn [bind] in Esy; [|discriminate].
  apply sumu_debug in NY; [|lia]. destruct NY as [-> _]. rewrite <- zlen_flat_map in Esy.
  destruct (mulu Debug 32 (zlen (flat_map sr_symbols SS)) NLIST_SIZE) as [m3|] eqn:M3; cbn [bind] in Esy; [|discriminate].
  apply chku_debug in M3. destruct M3 as [-> _]. change NLIST_SIZE with 16 in Esy.
  match type of Esy with bind ?m _ = _ => destruct m as [st|] eqn:ST end; cbn [bind] in Esy; [|discriminate].
  apply chku_debug in ST. destruct ST as [-> ST].
  destruct (mapM (fun s => names_size Debug (sr_symbols s)) SS) as [zs|] eqn:ZS; cbn [bind] in Esy; [|discriminate].
  assert (NM : forall s y, In s SS -> In y (sr_symbols s) -> 0 <= str_len (sym_name y) < 2 ^ 32).
  { intros s y Hs Hy. split; [apply zlen_nonneg|]. rewrite Forall_forall in PN. apply PN. rewrite (names_flat o R). fold SS.
    apply in_flat_map. exists s. split; [exact Hs|]. now apply in_map. }
  apply (mapM_inv _ (fun s => zsum (map (fun y => str_len (sym_name y) + 1) (sr_symbols s)))) in ZS.
  2:{ intros s x Hs Hx. unfold names_size in Hx. destruct (mapM _ (sr_symbols s)) as [ls|] eqn:LS; cbn [bind] in Hx; [|discriminate].
      apply (mapM_inv _ (fun y => str_len (sym_name y) + 1)) in LS.
      - subst ls. apply sumu_debug in Hx; [|lia]. apply Hx.
      - intros y v Hy Hv. rewrite wrapu32_small in Hv by (apply (NM s y Hs Hy)). apply chku_debug in Hv. apply Hv. }
  subst zs. pose proof (names_len_eq o R) as NL. fold SS in NL.
  destruct (sumu Debug 32 (map (fun s => zsum (map (fun y => str_len (sym_name y) + 1) (sr_symbols s))) SS)) as [sz|] eqn:SU; cbn [bind] in Esy; [|discriminate].
  apply sumu_debug in SU; [|lia]. destruct SU as [-> _]. rewrite <- NL in Esy.
  destruct (addu Debug 32 (Z.of_nat (names_len o)) 1) as [ss|] eqn:SS1; cbn [bind] in Esy; [|discriminate].
  apply chku_debug in SS1. destruct SS1 as [-> SS1]. clear Esy.
  assert (NR : zlen (rels o) = zlen (flat_map sr_relocs SS)) by (unfold zlen, SS; now rewrite (rels_flat o R)).
  assert (NY : zlen (syms o) = zlen (flat_map sr_symbols SS)) by (unfold zlen, SS; now rewrite <- (syms_snd o R), map_length).
  assert (PE : Z.of_nat (pos_strs o) = Z.of_nat (pos_data o) + Z.of_nat (round8 (data_len o)) + zlen (rels o) * 8 + zlen (syms o) * 16).
  { clear. unfold pos_strs, pos_syms, pos_rels, zlen. generalize (round8 (data_len o)), (pos_data o). intros. lia. }
  assert (PT : Z.of_nat (pos_strs o) < 2 ^ 32) by (rewrite PE, NR, NY; apply ST).
  split; [split; [exact PT|clear -SS1; lia]|]. split; [rewrite VT; apply VM|].
  (* symbols *)
  unfold gen_section64s in Esc. rewrite DS in Esc. cbn [bind] in Esc. unfold file_sizes_sum in Esc. fold SS in Esc. rewrite FSE, FS in Esc.
  cbn [bind] in Esc. rewrite AL in Esc. cbn [bind] in Esc. unfold addu in Esc. rewrite chku_in in Esc by exact A0. cbn [bind] in Esc.
  rewrite gen_sections_loop_eq in Esc; [|assumption|apply Z.le_refl|rewrite Z.add_0_l; apply VM|apply Nat2Z.is_nonneg| |apply A0|].
  - apply Ok_inj in Esc. subst sc. rewrite (syms_eq o R). fold SS. unfold gen_nlist64s in Ens. fold SS in Ens.
    eapply (nlists_debug t SS [] 0 _ _ 0%nat); [reflexivity|exact Ens].
  - rewrite zlen_flat_map, <- DL. pose proof (round8_ge (data_len o)) as R8. revert R8 A0. clear.
    generalize (round8 (data_len o)), (data_len o), (pos_data o). intros. lia.
  - rewrite (Z.mul_comm 8). apply SO.
Qed.

(** deciding [parts_small] on a concrete object *)
Definition parts_smallb (o : object) : bool :=
  forallb (fun s => (zlen (os_bytes s) <? 2 ^ 32) && (zlen (os_rels s) <? 2 ^ 32) && (zlen (os_syms s) <? 2 ^ 32)) (secs o) &&
  forallb (fun n => zlen (utf8 n) <? 2 ^ 32) (names o).
Lemma parts_smallb_ok o : parts_smallb o = true -> parts_small o.
Proof.
  unfold parts_smallb, parts_small. rewrite andb_true_iff, !forallb_forall, !Forall_forall.
  intros [A B]. split; intros x X.
  - specialize (A _ X). cbv beta in A. rewrite !andb_true_iff, !Z.ltb_lt in A. tauto.
  - specialize (B _ X). now apply Z.ltb_lt in B.
Qed.
