(** at-obj: the property statements. *)
From Coq Require Import ZifyBool ZifyNat.
From Coq Require String.
Import String.StringSyntax.
From Verif Require Import Base Str Mac Obj SpecMacho SpecObj PfX64 PfBytes PfStr PfMac PfMacRec PfMacRead
  PfMacTop PfMacTop2 PfObj PfObj2 PfObj3.
Ltac Zify.zify_post_hook ::= Z.div_mod_to_equations.

Lemma top_C23_aligned p n x a : 0 <= n -> inu n x -> inu n a -> 0 < a ->
  exists m, (a | m) /\ x <= m /\ (forall m', (a | m') -> x <= m' -> m <= m') /\
    aligned p n x a = (if m <? 2 ^ n then Ok m
                       else match p with Debug => Panic | Release => Ok (m mod 2 ^ n) end).
Proof.
  intros Hn X A Ha. destruct (aligned_spec p n x a Hn X A Ha) as (B & C & D).
  set (m := a * ((x + a - 1) / a)) in *. exists m. split; [exists ((x + a - 1) / a); unfold m; ring|].
  split; [lia|]. split.
  - intros m' [k ->] H. unfold m in *. set (q := (x + a - 1) / a) in *.
    clearbody q. assert (q <= k) by nia. nia.
  - destruct (Z.ltb_spec m (2 ^ n)); auto.
Qed.
Lemma top_C23_padding p n x a : 0 <= n -> inu n x -> inu n a -> 0 < a ->
  exists d, 0 <= d < a /\ (a | x + d) /\ (forall d', 0 <= d' < a -> (a | x + d') -> d' = d) /\
    padding p n x a = (if (x + d <? 2 ^ n) then Ok d else match p with Debug => Panic | Release => Ok d end).
Proof.
  intros Hn X A Ha. destruct (aligned_spec p n x a Hn X A Ha) as (B & C & D).
  set (m := a * ((x + a - 1) / a)) in *. exists (m - x). split; [lia|].
  split; [exists ((x + a - 1) / a); unfold m; ring|]. split.
  - intros d' H' [k E]. assert (G : (a | m - x - d')).
    { exists ((x + a - 1) / a - k). unfold m. rewrite Z.mul_sub_distr_r, <- E. ring. }
    destruct G as [g G]. assert (g = 0) by nia. subst g. lia.
  - replace (x + (m - x)) with m by ring. unfold padding. destruct X as [X1 X2]. destruct A as [A1 A2].
    destruct (Z.ltb_spec m (2 ^ n)) as [L|L].
    + rewrite C by assumption. cbn [bind]. unfold subu. rewrite chku_in by (unfold inu; lia). reflexivity.
    + rewrite D by assumption. destruct p; [reflexivity|]. cbn [bind]. unfold subu, chku, inub, wrapu.
      assert (E : m mod 2 ^ n = m - 2 ^ n).
      { symmetry. apply (Z.mod_unique_pos m (2 ^ n) 1); lia. }
      rewrite E. replace ((0 <=? m - 2 ^ n - x) && (m - 2 ^ n - x <? 2 ^ n)) with false by lia.
      f_equal. symmetry. apply (Z.mod_unique_pos (m - 2 ^ n - x) (2 ^ n) (-1)); lia.
Qed.
Lemma top_C23_zero p n x : aligned p n x 0 = Panic /\ padding p n x 0 = Panic.
Proof. split; reflexivity. Qed.

Lemma top_C24 p h o f : object_rng o -> fits o -> macho_write_into p h o = (f, true) ->
  header_at h 0 f 0xFEEDFACF
    {| h_magic := Magic64; h_cpu := CpuX86_64 X86_64All; h_file_type := FtObject; h_ncmds := 2;
       h_size_of_cmds := Z.of_nat (pos_data o) - 32; h_flags := []; h_reserved := 0 |} /\
  segment_at h 32 f
    {| sg_cmd := 0x19; sg_cmdsize := Z.of_nat (pos_symtab o) - 32; sg_segname := []; sg_vmaddr := 0;
       sg_vmsize := vm_total o; sg_fileoff := Z.of_nat (pos_data o);
       sg_filesize := Z.of_nat (pos_rels o) - Z.of_nat (pos_data o); sg_maxprot := 7; sg_initprot := 7;
       sg_nsects := zlen (secs o); sg_flags := 0 |} /\
  symtab_at h (pos_symtab o) f
    {| st_cmd := 2; st_cmdsize := Z.of_nat (pos_data o) - Z.of_nat (pos_symtab o);
       st_symoff := Z.of_nat (pos_syms o); st_nsyms := zlen (syms o);
       st_stroff := Z.of_nat (pos_strs o); st_strsize := zlen f - Z.of_nat (pos_strs o) |}.
Proof.
  intros R F H. destruct (write_inv p h o f R F H) as [REP ->].
  pose proof (o_header h o R F) as A1. pose proof (o_seg h o R F) as [A2 _]. pose proof (o_symtab h o R F) as A3.
  pose proof (f_len h o R F REP) as FL. 
  assert (E1 : Z.of_nat (pos_data o) - 32 = 72 + 80 * zlen (secs o) + 24) by (unfold pos_data, pos_symtab, pos_sections, zlen; lia).
  assert (E2 : Z.of_nat (pos_symtab o) - 32 = 72 + 80 * zlen (secs o)) by (unfold pos_symtab, pos_sections, zlen; lia).
  assert (E3 : Z.of_nat (pos_rels o) - Z.of_nat (pos_data o) = Z.of_nat (round8 (data_len o))) by (unfold pos_rels; lia).
  assert (E4 : Z.of_nat (pos_data o) - Z.of_nat (pos_symtab o) = 24) by (unfold pos_data; lia).
  assert (E5 : zlen (outf h o) - Z.of_nat (pos_strs o) = 1 + Z.of_nat (names_len o)) by (unfold zlen; rewrite FL; unfold file_len; lia).
  rewrite E1, E2, E3, E4, E5. auto.
Qed.

Lemma top_C25 p h o f : object_rng o -> fits o -> macho_write_into p h o = (f, true) ->
  forall i k a s, nth_error (placed o) i = Some (k, a, s) ->
  exists x, section_at h (pos_sections + 80 * i) f x /\
    sc_sectname x = os_name s /\ sc_segname x = os_seg s /\ sc_addr x = a /\ sc_size x = os_size s /\
    sc_align x = 0 /\ sc_type x = (if os_zerofill s then StZerofill else StRegular) /\
    sc_attrs x = (if os_code s then [SomeInstructions; PureInstructions] else []) ++
                 (if nonempty (os_rels s) then [LocReloc; ExtReloc] else []) /\
    (if os_zerofill s then sc_offset x = 0
     else slice (Z.to_nat (sc_offset x)) (Z.to_nat (sc_size x)) f = os_bytes s).
Proof.
  intros R F H i k a s Hi. destruct (write_inv p h o f R F H) as [REP ->].
  destruct (o_section h o R F i k a s Hi) as (-> & _ & Hs & A). eexists. split; [exact A|].
  unfold sect_of. cbn [sc_sectname sc_segname sc_addr sc_size sc_align sc_type sc_attrs sc_offset].
  repeat match goal with |- _ /\ _ => split end; try reflexivity.
  pose proof (o_bytes h o R F i s Hs) as B. destruct (os_zerofill s) eqn:Z0; [reflexivity|].
  assert (E : os_size s = zlen (os_bytes s)).
  { apply nth_error_In in Hs. apply filter_In in Hs. destruct Hs as [[<-|[<-|[<-|[]]]] _]; reflexivity || discriminate. }
  rewrite E. unfold zlen at 2. rewrite Nat2Z.id. exact B.
Qed.

Lemma top_C26 p h o f : object_rng o -> fits o -> macho_write_into p h o = (f, true) ->
  forall j k a y, nth_error (syms o) j = Some (k, a, y) ->
  exists e, nlist_at h (pos_syms o + 16 * j) f e /\
    until_nul (skipn (pos_strs o + Z.to_nat (nl_strx e)) f) = resolved (sym_name y) /\
    nl_type e = n_type_of y /\ nl_sect e = n_sect_of k y /\ nl_desc e = 0 /\ nl_value e = n_value_of a y.
Proof.
  intros R F H j k a y Hj. destruct (write_inv p h o f R F H) as [REP ->].
  destruct (o_sym h o R F REP j _ Hj) as (_ & A & B & C). cbn [snd] in *. eexists. split; [exact A|].
  cbn [ent nl_strx nl_type nl_sect nl_desc nl_value]. auto.
Qed.
Lemma clean_in o y k a : clean_names o -> In (k, a, y) (syms o) -> resolved (sym_name y) = sym_name y.
Proof.
  intros C H. apply resolved_clean. unfold clean_names in C. rewrite Forall_forall in C. apply C.
  rewrite names_snd. apply (in_map (fun x => sym_name (snd x)) _ _ H).
Qed.
Lemma top_C26_clean p h o f : object_rng o -> fits o -> clean_names o -> macho_write_into p h o = (f, true) ->
  forall j k a y, nth_error (syms o) j = Some (k, a, y) ->
  exists e, nlist_at h (pos_syms o + 16 * j) f e /\
    until_nul (skipn (pos_strs o + Z.to_nat (nl_strx e)) f) = sym_name y /\
    nl_type e = n_type_of y /\ nl_sect e = n_sect_of k y /\ nl_desc e = 0 /\ nl_value e = n_value_of a y.
Proof.
  intros R F C H j k a y Hj. rewrite <- (clean_in o y k a C) by (eapply nth_error_In; eassumption).
  now apply (top_C26 p h o f R F H).
Qed.

Lemma top_C27 p h o f : object_rng o -> fits o -> clean_names o -> zlen (syms o) <= 2 ^ 24 ->
  macho_write_into p h o = (f, true) ->
  forall i k a s, nth_error (placed o) i = Some (k, a, s) ->
  exists x, section_at h (pos_sections + 80 * i) f x /\ sc_nreloc x = zlen (os_rels s) /\
    forall m r, nth_error (os_rels s) m = Some r ->
    exists j, reloc_at h (Z.to_nat (sc_reloff x) + 8 * m) f
        {| r_address := rl_addr r; r_symbolnum := Z.of_nat j; r_pcrel := rl_pcrel r;
           r_length := reloc_len_of (rl_len r); r_extern := true; r_type := 0 |} /\
      reloc_length_num (reloc_len_of (rl_len r)) = rl_len r /\
      nth_error (names o) j = Some (rl_symbol r) /\
      (forall j', (j' < j)%nat -> nth_error (names o) j' <> Some (rl_symbol r)).
Proof.
  intros R F C L H i k a s Hi. destruct (write_inv p h o f R F H) as [REP ->].
  destruct (o_section h o R F i k a s Hi) as (Ek & Ea & Hs & A).
  eexists. split; [exact A|]. split; [reflexivity|]. intros m r Hr.
  pose proof (rels_index o i s m r Hs Hr) as Hx. pose proof (nth_error_In _ _ Hx) as Hin.
  destruct (rel_facts o R REP r Hin) as (j & E & Lj & L3 & (_ & _ & [L0 _])).
  exists j. rewrite (map_resolved_clean o C) in E.
  assert (Z0 : os_zerofill s = false).
  { apply nth_error_In in Hs. apply filter_In in Hs. destruct Hs as [[<-|[<-|[<-|[]]]] _]; try reflexivity.
    destruct m; discriminate. }
  split.
  { unfold sect_of. cbn [sc_reloff]. rewrite Z0.
    replace (Z.to_nat (Z.of_nat (pos_rels o) + 8 * zlen (flat_map os_rels (firstn i (secs o)))) + 8 * m)%nat
      with (pos_rels o + 8 * (length (flat_map os_rels (firstn i (secs o))) + m))%nat by (unfold zlen; lia).
    pose proof (rels_nth h o R F _ _ Hx) as B.
    apply (reloc_local _ _ _ _ _ B); [apply reloc_bytes_length|].
    assert (ER : rel_of (names o) r = {| r_address := rl_addr r; r_symbolnum := Z.of_nat j; r_pcrel := rl_pcrel r;
         r_length := reloc_len_of (rl_len r); r_extern := true; r_type := 0 |})
      by (unfold rel_of; now rewrite (map_resolved_clean o C), E).
    rewrite <- ER. destruct (rel_rng o R REP r L Hin). now apply reloc_bytes_at. }
  split.
  { assert (rl_len r = 0 \/ rl_len r = 1 \/ rl_len r = 2 \/ rl_len r = 3) as [->|[->|[->| ->]]] by lia; reflexivity. }
  now apply find_str_some in E.
Qed.

Lemma top_C28 p h o f : object_rng o -> fits o -> macho_write_into p h o = (f, true) ->
  length f = file_len o /\
  exists hdr cmds dat pad rel sym str,
    f = hdr ++ cmds ++ dat ++ pad ++ rel ++ sym ++ str /\
    length hdr = 32%nat /\
    zlen cmds = fld h 20 4 f /\
    zlen hdr + zlen cmds = fld h 72 8 f /\
    dat = flat_map os_bytes (secs o) /\ zlen dat + zlen pad = fld h 80 8 f /\
    (exists n, pad = repeat 0 n /\ (n < 8)%nat) /\ fld h 80 8 f mod 8 = 0 /\
    zlen (hdr ++ cmds ++ dat ++ pad ++ rel) = fld h (pos_symtab o + 8) 4 f /\
    zlen rel = 8 * zlen (rels o) /\
    zlen sym = 16 * fld h (pos_symtab o + 12) 4 f /\
    zlen (hdr ++ cmds ++ dat ++ pad ++ rel ++ sym) = fld h (pos_symtab o + 16) 4 f /\
    zlen str = fld h (pos_symtab o + 20) 4 f /\
    hd 1 str = 0.
Proof.
  intros R F H. destruct (top_C24 p h o f R F H) as (A1 & A2 & A3).
  destruct (write_inv p h o f R F H) as [REP ->].
  pose proof (f_len h o R F REP) as FL. split; [exact FL|].
  exists (header_bytes h (e_header o)), (lc_bytes h (segc o) ++ symtab_bytes h (e_symtab o)),
    (flat_map os_bytes (secs o)), (repeat 0 (round8 (data_len o) - data_len o)),
    (concat (map (reloc_bytes h) (e_rels o))), (concat (map (nlist_bytes h) (e_nlists o))), (e_tab o).
  destruct A1 as (_ & _ & _ & _ & _ & _ & A1 & _). cbn [h_size_of_cmds Nat.add] in A1. rewrite A1.
  destruct A2 as (_ & _ & _ & _ & _ & _ & A2 & A2' & _). cbn [sg_fileoff sg_filesize Nat.add] in A2, A2'. rewrite A2, A2'.
  destruct A3 as (_ & _ & _ & B1 & B2 & B3 & B4).
  cbn [st_symoff st_nsyms st_stroff st_strsize] in *. rewrite B1, B2, B3, B4.
  pose proof (round8_ge (data_len o)) as R8. pose proof (round8_mod (data_len o)) as R8'.
  unfold zlen. rewrite FL. rewrite !app_length, header_bytes_length, (len_seg h o R F), symtab_bytes_length, repeat_length, len_rels, len_nls, (len_tab o R REP).
  fold (data_len o). unfold file_len, pos_strs, pos_syms, pos_rels, pos_data, pos_symtab, pos_sections in *.
  split; [|repeat match goal with |- _ /\ _ => split end; try lia; try reflexivity].
  - rewrite (f_split h o). now rewrite <- !app_assoc.
  - eexists. split; [reflexivity|]. lia.
Qed.

Lemma top_C29 p q w r o f : object_rng o -> fits o -> zlen (syms o) <= 2 ^ 24 ->
  macho_write_into p w o = (f, true) ->
  exists hd sg scs sy t ns rs l1 l2 l3 l4 l5 l6,
    gen_header64 p o = Ok hd /\ gen_segment_command64 p o = Ok sg /\ gen_section64s p o = Ok scs /\
    gen_symtab_command p o = Ok sy /\ gen_string_table o = Ok t /\
    gen_nlist64s p o scs t = Ok ns /\ gen_relocation_infos o ns t = Ok rs /\
    read_header64 r f =
      Ok ({| h_magic := if endian_eqb r w then Magic64 else Cigam64; h_cpu := h_cpu hd;
             h_file_type := h_file_type hd; h_ncmds := h_ncmds hd; h_size_of_cmds := h_size_of_cmds hd;
             h_flags := h_flags hd; h_reserved := h_reserved hd |}, w, l1) /\
    read_load_command q w l1 = Ok (LcSegment64 sg (map section_canon scs), l2) /\
    read_load_command q w l2 = Ok (LcSymtab sy, l3) /\
    (exists dat, l3 = dat ++ l4 /\ zlen dat = sg_filesize sg) /\
    read_many (length (rels o)) (read_reloc_info w) l4 = Ok (rs, l5) /\
    read_many (Z.to_nat (st_nsyms sy)) (read_nlist64 w) l5 = Ok (ns, l6) /\
    stab_from_vec l6 = Ok t /\ zlen l6 = st_strsize sy.
Proof.
  intros R F L H. destruct (write_inv p w o f R F H) as [REP ->].
  pose proof (asc o R REP) as A. pose proof (f_len w o R F REP) as FL.
  destruct (read_all w o R F REP L q r) as (R1 & R2 & R3 & R4 & R5 & R6).
  exists (e_header o), (e_segment o), (e_sects o), (e_symtab o), (e_tab o), (e_nlists o), (e_rels o).
  do 3 eexists. exists (skipn (pos_rels o) (outf w o)). do 2 eexists.
  split; [now apply gen_header_eq|]. split; [now apply gen_segment_eq|]. split; [now apply gen_sections_eq|].
  split; [now apply gen_symtab_eq|]. split; [now apply gen_tab_eq|]. split; [now apply gen_nlists_ok|].
  split; [now apply gen_rels_ok|]. split; [exact R1|]. split; [exact R2|]. split; [exact R3|].
  split.
  { exists (slice (pos_data o) (round8 (data_len o)) (outf w o)). split.
    - unfold slice. assert (E : skipn (pos_rels o) (outf w o) = skipn (round8 (data_len o)) (skipn (pos_data o) (outf w o))).
      { rewrite skipn_skipn. f_equal. unfold pos_rels. lia. }
      rewrite E. symmetry. apply firstn_skipn.
    - unfold zlen. rewrite slice_length; [reflexivity|]. rewrite FL. unfold file_len, pos_strs, pos_syms, pos_rels. lia. }
  split; [exact R4|]. split.
  { cbn [e_symtab st_nsyms]. unfold zlen at 1. rewrite Nat2Z.id. exact R5. }
  split; [exact R6|]. cbn [e_symtab st_strsize]. rewrite (s_tab w o R F). apply tab_len, A.
Qed.

Lemma top_C30 p h o : object_rng o -> fits o -> (snd (macho_write_into p h o) = true <-> representable o).
Proof.
  intros R F. split.
  - intros H. destruct (macho_write_into p h o) as [f b] eqn:E. cbn [snd] in H. subst b. now apply (write_inv p h o f R F) in E.
  - intros H. now rewrite (write_ok p h o R F H).
Qed.
Lemma top_C30_nulfree p h o : object_rng o -> fits o ->
  Forall (Forall (fun c => c <> 0)) (names o) ->
  (snd (macho_write_into p h o) = false <->
   (exists s c, In s (names o) /\ In c s /\ 128 <= c) \/
   (exists r, In r (rels o) /\ (3 < rl_len r \/ ~ In (rl_symbol r) (names o)))).
Proof.
  intros R F NZ.
  assert (E : map resolved (names o) = names o).
  { clear -NZ. induction NZ as [|s l Hs Hl IH]; [reflexivity|]. cbn [map]. rewrite IH. f_equal. unfold resolved.
    destruct (has_nul s) as [E|[E _]]; rewrite E; [|reflexivity]. apply existsb_exists in E. destruct E as (c & Hc & E).
    rewrite Forall_forall in Hs. specialize (Hs c Hc). lia. }
  rewrite <- not_true_iff_false, (top_C30 p h o R F). unfold representable. rewrite E. split.
  - intros N.
    destruct (Forall_Exists_dec (Forall (fun c => c < 128))) with (l := names o) as [A|A].
    { intros s. apply Forall_dec. intros c. apply Z_lt_dec. }
    + right. destruct (Forall_Exists_dec (fun r => rl_len r <= 3 /\ In (rl_symbol r) (names o))) with (l := rels o) as [B|B].
      { intros r. destruct (Z_le_dec (rl_len r) 3) as [L|L]; [|right; tauto].
        destruct (in_dec str_eq_dec (rl_symbol r) (names o)) as [I|I]; [left; tauto|right; tauto]. }
      * exfalso. apply N. now split.
      * apply Exists_exists in B. destruct B as (r & Hr & B). exists r. split; [exact Hr|].
        destruct (Z_le_dec (rl_len r) 3) as [L|L]; [right; tauto|left; lia].
    + left. apply Exists_exists in A. destruct A as (s & Hs & A).
      apply Exists_Forall_neg in A. 2:{ intros c. destruct (Z_lt_dec c 128); tauto. }
      apply Exists_exists in A. destruct A as (c & Hc & A). exists s, c. split; [exact Hs|]. split; [exact Hc|lia].
  - intros [(s & c & Hs & Hc & A)|(r & Hr & A)] [N1 N2].
    + rewrite Forall_forall in N1. specialize (N1 s Hs). rewrite Forall_forall in N1. specialize (N1 c Hc). lia.
    + rewrite Forall_forall in N2. destruct (N2 r Hr) as [B1 B2]. destruct A as [A|A]; [lia|contradiction].
Qed.
Lemma top_C30_partial_file p h o f : object_rng o -> fits o -> macho_write_into p h o = (f, false) ->
  length f = pos_rels o /\ header_at h 0 f 0xFEEDFACF (e_header o).
Proof.
  intros R F H. assert (N : ~ representable o).
  { intros REP. rewrite (write_ok p h o R F REP) in H. discriminate. }
  rewrite (write_fail p h o R F N) in H. apply (f_equal fst) in H. cbn [fst] in H. subst f.
  split.
  - unfold e_head, e_data. rewrite !app_length, header_bytes_length, symtab_bytes_length, repeat_length.
    pose proof (len_seg h o R F) as L. unfold segc in L. cbn [lc_bytes] in L. rewrite app_length in L.
    fold (data_len o). pose proof (round8_ge (data_len o)). unfold pos_rels, pos_data, pos_symtab, pos_sections. lia.
  - apply (header_local 0 (e_head h o) (header_bytes h (e_header o))).
    + unfold e_head. apply slice_hd, header_bytes_length.
    + apply header_bytes_length.
    + apply (header_bytes_at h (e_header o)). now apply wf_header.
Qed.

(** C31 *)
Lemma top_C31_exact o : object_rng o ->
  (map (fun x => snd x) (syms o) = obj_symbols o <->
   (bs_symbols (o_text o) = [] \/ bs_bytes (o_text o) <> []) /\
   (bs_symbols (o_data o) = [] \/ bs_bytes (o_data o) <> []) /\
   (bss_symbols (o_bss o) = [] \/ 0 < bss_size (o_bss o))).
Proof.
  intros R. rewrite (syms_snd o R). destruct R as (_ & _ & [B _] & _).
  unfold obj_symbols, sections_iter. cbn [filter]. unfold sr_is_empty. cbn [sr_vm_size].
  assert (Z0 : forall l : list Z, (zlen l =? 0) = false <-> l <> []).
  { intros [|x l]; unfold zlen; cbn [length]; split; intros; try congruence; lia. }
  assert (N : forall {A} (a b : list A), a ++ b = b -> a = []).
  { intros A a b E. apply (f_equal (@length A)) in E. rewrite app_length in E. destruct a; [reflexivity|cbn in E; lia]. }
  assert (N3 : forall {A} (a b c d e g : list A), (a = [] \/ a = b) -> (c = [] \/ c = d) -> (e = [] \/ e = g) ->
      a ++ c ++ e = b ++ d ++ g -> a = b /\ c = d /\ e = g).
  { intros A a b c d e g Ha Hc He E. apply (f_equal (@length A)) in E. rewrite !app_length in E.
    assert (Q : forall x y : list A, (x = [] \/ x = y) -> (length x <= length y)%nat /\ (length x = length y -> x = y)).
    { intros x y [->| ->]; cbn [length]; [|auto]. split; [lia|]. destruct y; [reflexivity|cbn; lia]. }
    destruct (Q _ _ Ha), (Q _ _ Hc), (Q _ _ He). repeat split; auto; match goal with X : _ -> ?g |- ?g => apply X end; lia. }
  set (st := bs_symbols (o_text o)). set (sd := bs_symbols (o_data o)). set (sb := bss_symbols (o_bss o)).
  assert (FM : flat_map sr_symbols
    (if negb (zlen (bs_bytes (o_text o)) =? 0) then RText (o_text o) ::
       (if negb (zlen (bs_bytes (o_data o)) =? 0) then RData (o_data o) ::
          (if negb (bss_size (o_bss o) =? 0) then [RBss (o_bss o)] else [])
        else (if negb (bss_size (o_bss o) =? 0) then [RBss (o_bss o)] else []))
     else (if negb (zlen (bs_bytes (o_data o)) =? 0) then RData (o_data o) ::
          (if negb (bss_size (o_bss o) =? 0) then [RBss (o_bss o)] else [])
        else (if negb (bss_size (o_bss o) =? 0) then [RBss (o_bss o)] else []))) =
    (if zlen (bs_bytes (o_text o)) =? 0 then [] else st) ++ (if zlen (bs_bytes (o_data o)) =? 0 then [] else sd) ++
    (if bss_size (o_bss o) =? 0 then [] else sb)).
  { destruct (zlen (bs_bytes (o_text o)) =? 0), (zlen (bs_bytes (o_data o)) =? 0), (bss_size (o_bss o) =? 0);
      cbn [negb flat_map sr_symbols app]; rewrite ?app_nil_r; reflexivity. }
  rewrite FM. split.
  - intros E. apply N3 in E.
    + destruct E as (E1 & E2 & E3). split; [|split].
      * destruct (zlen (bs_bytes (o_text o)) =? 0) eqn:X; [left; now symmetry|right; now apply Z0].
      * destruct (zlen (bs_bytes (o_data o)) =? 0) eqn:X; [left; now symmetry|right; now apply Z0].
      * destruct (bss_size (o_bss o) =? 0) eqn:X; [left; now symmetry|right; lia].
    + destruct (zlen (bs_bytes (o_text o)) =? 0); auto.
    + destruct (zlen (bs_bytes (o_data o)) =? 0); auto.
    + destruct (bss_size (o_bss o) =? 0); auto.
  - intros (E1 & E2 & E3). f_equal; [|f_equal].
    + destruct E1 as [E1|E1]; [fold st in E1; rewrite E1; now destruct (zlen (bs_bytes (o_text o)) =? 0)|]. apply Z0 in E1. now rewrite E1.
    + destruct E2 as [E2|E2]; [fold sd in E2; rewrite E2; now destruct (zlen (bs_bytes (o_data o)) =? 0)|]. apply Z0 in E2. now rewrite E2.
    + destruct E3 as [E3|E3]; [fold sb in E3; rewrite E3; now destruct (bss_size (o_bss o) =? 0)|]. now replace (bss_size (o_bss o) =? 0) with false by lia.
Qed.
Lemma top_C31_present p h o f y : object_rng o -> fits o -> clean_names o -> macho_write_into p h o = (f, true) ->
  (bs_symbols (o_text o) = [] \/ bs_bytes (o_text o) <> []) ->
  (bs_symbols (o_data o) = [] \/ bs_bytes (o_data o) <> []) ->
  (bss_symbols (o_bss o) = [] \/ 0 < bss_size (o_bss o)) ->
  In y (obj_symbols o) ->
  exists j e, (j < length (obj_symbols o))%nat /\ fld h (pos_symtab o + 12) 4 f = zlen (obj_symbols o) /\
    nlist_at h (pos_syms o + 16 * j) f e /\
    until_nul (skipn (pos_strs o + Z.to_nat (nl_strx e)) f) = sym_name y /\ nl_type e = n_type_of y.
Proof.
  intros R F C H H1 H2 H3 Hy.
  assert (E : map (fun x => snd x) (syms o) = obj_symbols o) by (apply top_C31_exact; auto).
  rewrite <- E in Hy. apply in_map_iff in Hy. destruct Hy as ([[k a] y'] & <- & Hy). apply In_nth_error in Hy. destruct Hy as [j Hj].
  destruct (top_C26_clean p h o f R F C H j k a y' Hj) as (e & A1 & A2 & A3 & _).
  exists j, e. rewrite <- E, map_length. unfold zlen. rewrite map_length.
  split; [apply nth_error_Some; congruence|]. split; [|auto].
  destruct (top_C24 p h o f R F H) as (_ & _ & B). destruct B as (_ & _ & _ & _ & B & _). exact B.
Qed.

(** C32 *)
Lemma syms_place o j k a y : nth_error (syms o) j = Some (k, a, y) ->
  exists s, nth_error (placed o) (k - 1) = Some (k, a, s) /\ In y (os_syms s) /\ (1 <= k)%nat.
Proof.
  intros H. apply nth_error_In in H. unfold syms in H. apply in_flat_map in H. destruct H as ([[k' a'] s] & H1 & H2).
  apply in_map_iff in H2. destruct H2 as (y' & E & H2). injection E as -> -> ->. exists s.
  apply In_nth_error in H1. destruct H1 as [i H1]. pose proof H1 as H1'. apply place_nth in H1'. destruct H1' as (_ & -> & _).
  replace (1 + i - 1)%nat with i by lia. split; [exact H1|]. split; [exact H2|lia].
Qed.
Lemma top_C32_always p h o f : object_rng o -> fits o -> macho_write_into p h o = (f, true) ->
  forall j k a nm v ext, nth_error (syms o) j = Some (k, a, SyAbs nm v ext) ->
  fld h (pos_syms o + 16 * j + 5) 1 f = Z.of_nat k /\ 1 <= Z.of_nat k.
Proof.
  intros R F H j k a nm v ext Hj. destruct (top_C26 p h o f R F H j k a _ Hj) as (e & A & _ & _ & S & _).
  destruct A as (_ & _ & _ & A & _). rewrite A, S. cbn [n_sect_of].
  destruct (syms_place o j k a _ Hj) as (s & _ & _ & K). lia.
Qed.

Lemma top_C32_undefined p h o f : object_rng o -> fits o -> macho_write_into p h o = (f, true) ->
  forall j k a nm, nth_error (syms o) j = Some (k, a, SyUndef nm) ->
  fld h (pos_syms o + 16 * j + 5) 1 f = NO_SECT.
Proof.
  intros R F H j k a nm Hj. destruct (top_C26 p h o f R F H j k a _ Hj) as (e & A & _ & _ & S & _).
  destruct A as (_ & _ & _ & A & _). now rewrite A, S.
Qed.

(** C33 *)
Lemma top_C33 p h o f : object_rng o -> fits o -> macho_write_into p h o = (f, true) ->
  let addr i := fld h (pos_sections + 80 * i + 32) 8 f in
  let size i := fld h (pos_sections + 80 * i + 40) 8 f in
  let n := length (secs o) in
  (forall i, (i < n)%nat -> 0 < size i) /\
  ((0 < n)%nat -> addr 0%nat = 0) /\
  (forall i, (S i < n)%nat -> addr (S i) = addr i + size i) /\
  (forall i, S i = n -> addr i + size i = fld h 64 8 f) /\
  (n = 0%nat -> fld h 64 8 f = 0).
Proof.
  intros R F H addr size n.
  assert (G : forall i s, nth_error (secs o) i = Some s ->
    addr i = zsum (map os_size (firstn i (secs o))) /\ size i = os_size s).
  { intros i s Hi. assert (P : nth_error (placed o) i = Some (S i, 0 + zsum (map os_size (firstn i (secs o))), s)) by (apply place_nth; auto).
    destruct (top_C25 p h o f R F H i _ _ _ P) as (x & A & _ & _ & A1 & A2 & _).
    destruct A as (_ & _ & _ & B1 & B2 & _). unfold addr, size. rewrite B1, B2, A1, A2. split; [lia|reflexivity]. }
  assert (V : fld h 64 8 f = vm_total o).
  { destruct (top_C24 p h o f R F H) as (_ & B & _). destruct B as (_ & _ & _ & _ & _ & B & _). exact B. }
  assert (NE : forall i, (i < n)%nat -> exists s, nth_error (secs o) i = Some s).
  { intros i Hi. destruct (nth_error (secs o) i) as [s|] eqn:E; [now exists s|]. apply nth_error_None in E. unfold n in Hi. lia. }
  assert (FS : forall i s, nth_error (secs o) i = Some s -> firstn (S i) (secs o) = firstn i (secs o) ++ [s]).
  { intros i s E. apply nth_error_split in E. destruct E as (l1 & l2 & -> & <-).
    rewrite !firstn_app, Nat.sub_diag. replace (S (length l1) - length l1)%nat with 1%nat by lia.
    rewrite (firstn_all2 (n := S (length l1)) l1) by lia. rewrite firstn_all. cbn [firstn]. now rewrite app_nil_r. }
  assert (SZ : forall i s, nth_error (secs o) i = Some s -> zsum (map os_size (firstn (S i) (secs o))) = zsum (map os_size (firstn i (secs o))) + os_size s).
  { intros i s E. rewrite (FS i s E), map_app, zsum_app. cbn [map zsum fold_right]. lia. }
  split; [|split; [|split; [|split]]].
  - intros i Hi. destruct (NE i Hi) as [s E]. destruct (G i s E) as [_ ->].
    apply nth_error_In in E. apply filter_In in E. lia.
  - intros Hn. destruct (NE 0%nat Hn) as [s E]. destruct (G 0%nat s E) as [-> _]. reflexivity.
  - intros i Hi. destruct (NE i ltac:(lia)) as [s E]. destruct (NE (S i) Hi) as [s' E'].
    destruct (G i s E) as [-> ->]. destruct (G (S i) s' E') as [-> _]. now apply SZ.
  - intros i Hi. destruct (NE i ltac:(lia)) as [s E]. destruct (G i s E) as [-> ->]. rewrite V, <- (SZ i s E), Hi.
    unfold n. rewrite firstn_all. reflexivity.
  - intros Hn. rewrite V. unfold vm_total. destruct (secs o); [reflexivity|discriminate].
Qed.
Lemma top_C33_symbols p h o f : object_rng o -> fits o -> macho_write_into p h o = (f, true) ->
  forall j k a nm off ext, nth_error (syms o) j = Some (k, a, SyRef nm off ext) ->
  let i := (Z.to_nat (fld h (pos_syms o + 16 * j + 5) 1 f) - 1)%nat in
  let value := fld h (pos_syms o + 16 * j + 8) 8 f in
  let addr := fld h (pos_sections + 80 * i + 32) 8 f in
  let size := fld h (pos_sections + 80 * i + 40) 8 f in
  value = addr + off /\ (off < size -> addr <= value < addr + size).
Proof.
  intros R F H j k a nm off ext Hj i value addr size.
  destruct (top_C26 p h o f R F H j k a _ Hj) as (e & A & _ & _ & S1 & _ & V).
  destruct A as (_ & _ & _ & A1 & _ & A2). unfold value, addr, size, i. rewrite A1, A2, S1, V. cbn [n_sect_of n_value_of].
  rewrite Nat2Z.id. destruct (syms_place o j k a _ Hj) as (s & P & _ & _).
  destruct (top_C25 p h o f R F H _ _ _ _ P) as (x & B & _ & _ & B1 & B2 & _).
  destruct B as (_ & _ & _ & C1 & C2 & _). rewrite C1, C2, B1, B2. split; [reflexivity|].
  apply nth_error_In in Hj. destruct (in_syms_rng o R F _ _ _ Hj) as (_ & (_ & [O1 _]) & _). lia.
Qed.

(** C34 *)
Lemma top_C34_exact p h o f : object_rng o -> fits o -> macho_write_into p h o = (f, true) ->
  (fld h 80 8 f <= fld h 64 8 f <-> Z.of_nat (round8 (data_len o) - data_len o) <= bss_size (o_bss o)).
Proof.
  intros R F H. destruct (top_C24 p h o f R F H) as (_ & B & _). destruct B as (_ & _ & _ & _ & _ & B1 & _ & B2 & _).
  cbn [sg_vmsize sg_filesize Nat.add] in B1, B2. rewrite B1, B2.
  assert (E : vm_total o = Z.of_nat (data_len o) + bss_size (o_bss o)).
  { destruct R as (_ & _ & [B0 _] & _). unfold vm_total, data_len, secs. cbn [filter].
    cbn [text_sec data_sec bss_sec os_size os_bytes].
    destruct (0 <? zlen (bs_bytes (o_text o))) eqn:E1, (0 <? zlen (bs_bytes (o_data o))) eqn:E2, (0 <? bss_size (o_bss o)) eqn:E3;
      cbn [map fold_right flat_map text_sec data_sec bss_sec os_size os_bytes]; rewrite ?app_length; unfold zlen in *; cbn [length]; lia. }
  rewrite E. unfold pos_rels. pose proof (round8_ge (data_len o)). lia.
Qed.

Lemma top_C59 p h bs : bytes_ok bs -> zlen bs = 2 ^ 32 ->
  exists f, macho_write_into p h (big_object bs) = (f, true) /\ zlen f = 2 ^ 32 + 209 /\
    slice 208 (length bs) f = bs /\
    fld h 144 8 f = 2 ^ 32 /\ fld h 80 8 f = 0 /\ fld h 192 4 f = 208 /\ fld h 200 4 f = 208 /\ fld h 204 4 f = 1.
Proof.
  intros B L. set (o := big_object bs). set (t := {| bs_bytes := bs; bs_symbols := []; bs_relocs := [] |}).
  assert (SI : sections_iter o = [RText t]).
  { unfold sections_iter, o, big_object. cbn [filter o_text o_data o_bss]. unfold sr_is_empty. cbn [sr_vm_size bs_bytes].
    rewrite L. reflexivity. }
  assert (FZ : sr_file_size (RText t) = 0).
  { unfold sr_file_size. cbn [sr_file_data t bs_bytes]. rewrite L. reflexivity. }
  assert (SL : sections_len o = 1) by (unfold sections_len; rewrite SI; reflexivity).
  assert (DS : data_start_of p o = Ok 208) by (unfold data_start_of; rewrite SL; now destruct p).
  assert (FS : file_sizes_sum p o = Ok 0) by (unfold file_sizes_sum; rewrite SI; cbn [map]; rewrite FZ; now destruct p).
  assert (AL : aligned p 32 0 8 = Ok 0) by now destruct p.
  set (hd := {| h_magic := Magic64; h_cpu := CpuX86_64 X86_64All; h_file_type := FtObject; h_ncmds := 2;
     h_size_of_cmds := 176; h_flags := []; h_reserved := 0 |}).
  assert (GH : gen_header64 p o = Ok hd) by (unfold gen_header64; rewrite SL; now destruct p).
  set (sg := {| sg_cmd := 0x19; sg_cmdsize := 152; sg_segname := []; sg_vmaddr := 0;
     sg_vmsize := 2 ^ 32; sg_fileoff := 208; sg_filesize := 0; sg_maxprot := 7; sg_initprot := 7;
     sg_nsects := 1; sg_flags := 0 |}).
  assert (GS : gen_segment_command64 p o = Ok sg).
  { unfold gen_segment_command64. rewrite SL, DS, FS, SI. cbn [map]. 
    assert (SV : sr_vm_size (RText t) = 2 ^ 32) by exact L. rewrite SV. cbn [bind]. rewrite AL. destruct p; reflexivity. }
  set (sc := gen_section64 (RText t) 0 208 208).
  assert (GC : gen_section64s p o = Ok [sc]).
  { unfold gen_section64s. rewrite DS, FS. cbn [bind]. rewrite AL. cbn [bind].
    unfold addu at 1. rewrite chku_in by (unfold inu; lia). cbn [bind]. rewrite SI. cbn [gen_sections_loop].
    assert (SV : sr_vm_size (RText t) = 2 ^ 32) by exact L. rewrite SV, FZ. cbn [sr_relocs t bs_relocs].
    destruct p; reflexivity. }
  set (sy := {| st_cmd := 2; st_cmdsize := 24; st_symoff := 208; st_nsyms := 0; st_stroff := 208; st_strsize := 1 |}).
  assert (GY : gen_symtab_command p o = Ok sy).
  { unfold gen_symtab_command. rewrite DS, FS. cbn [bind]. rewrite AL. cbn [bind]. rewrite SI. destruct p; reflexivity. }
  assert (NM : name16 (sc_sectname sc) /\ name16 (sc_segname sc)) by (split; apply name16_dec; reflexivity).
  set (H := header_bytes h hd ++ segment_bytes h sg ++ section_bytes h sc ++ symtab_bytes h sy).
  assert (LH : length H = 208%nat).
  { unfold H. rewrite !app_length, header_bytes_length, segment_bytes_length, symtab_bytes_length by now apply name16_dec.
    rewrite section_bytes_length by apply NM. reflexivity. }
  exists (H ++ bs ++ [0]).
  assert (W : macho_write_into p h o = (H ++ bs ++ [0], true)).
  { unfold macho_write_into. rewrite GH, GS, GC. cbn [wbind map]. rewrite GY. cbn [wbind].
    rewrite header_write, segment_write by now apply name16_dec. unfold wlist. cbn [fold_right].
    rewrite section_write by apply NM. rewrite symtab_write.
    unfold write_section_data_into, gen_string_table, gen_nlist64s, gen_relocation_infos. rewrite SI.
    cbn [write_data_loop sr_file_data t bs_bytes flat_map sr_symbols bs_symbols sr_relocs bs_relocs gen_nlists_loop mapM bind app].
    fold t. rewrite FZ. unfold addu. rewrite chku_in by (unfold inu; lia). cbn [wbind].
    assert (PD : padding p 32 (0 + 0) 8 = Ok 0) by now destruct p. rewrite PD. cbn [wbind].
    change (0 <=? 7) with true. cbn [Z.to_nat repeat stab_push_all map wbind wlist fold_right stab_with_null].
    unfold wseq, wemit. cbn [snd fst]. unfold H. cbn [app]. rewrite <- !app_assoc. cbn [app]. reflexivity. }
  split; [exact W|].
  assert (LF : zlen (H ++ bs ++ [0]) = 2 ^ 32 + 209).
  { rewrite !zlen_app, L. unfold zlen. rewrite LH. cbn [length]. lia. }
  split; [exact LF|]. split; [apply slice_mid; [exact LH|reflexivity]|].
  assert (SG : segment_at h 32 (H ++ bs ++ [0]) sg).
  { apply (segment_local 32 _ (segment_bytes h sg)); [|apply segment_bytes_length; now apply name16_dec|apply segment_bytes_at].
    - unfold H. rewrite <- !app_assoc. apply slice_mid; [apply header_bytes_length|apply segment_bytes_length; now apply name16_dec].
    - unfold segment_rng, sg, inu, ini, str_ok. cbn. repeat split; try lia. constructor.
    - now apply name16_dec. }
  assert (SC : section_at h 104 (H ++ bs ++ [0]) sc).
  { apply (section_local 104 _ (section_bytes h sc)); [|apply section_bytes_length; apply NM|apply section_bytes_at; try apply NM].
    - unfold H. rewrite <- !app_assoc. rewrite (app_assoc (header_bytes h hd)). apply slice_mid; [|apply section_bytes_length; apply NM].
      rewrite app_length, header_bytes_length, segment_bytes_length by now apply name16_dec. reflexivity.
    - unfold section_rng, sc, gen_section64, gen_section64_from_text.
      cbn [sc_sectname sc_segname sc_addr sc_size sc_offset sc_align sc_reloff sc_nreloc sc_reserved1 sc_reserved2 sc_reserved3 t bs_bytes bs_relocs].
      rewrite L. destruct NM as [N1 N2]. split; [apply ascii_str_ok, name16_ascii; exact N1|]. split; [apply ascii_str_ok, name16_ascii; exact N2|].
      unfold inu. cbn. lia. }
  assert (SY : symtab_at h 184 (H ++ bs ++ [0]) sy).
  { apply (symtab_local 184 _ (symtab_bytes h sy)); [|apply symtab_bytes_length|apply symtab_bytes_at].
    - unfold H. rewrite <- !app_assoc. rewrite (app_assoc (header_bytes h hd)), (app_assoc (header_bytes h hd ++ _)).
      apply slice_mid; [|apply symtab_bytes_length].
      rewrite !app_length, header_bytes_length, segment_bytes_length, section_bytes_length by (try apply NM; now apply name16_dec). reflexivity.
    - unfold symtab_rng, sy, inu. cbn. lia. }
  destruct SG as (_ & _ & _ & _ & _ & _ & _ & G2 & _). destruct SC as (_ & _ & _ & _ & C1 & _).
  destruct SY as (_ & _ & _ & Y1 & _ & Y2 & Y3).
  cbn [Nat.add] in *. rewrite C1, G2, Y1, Y2, Y3. split; [exact L|]. repeat split; reflexivity.
Qed.
Lemma top_C59_refuted p h : exists o f, object_rng o /\ macho_write_into p h o = (f, true) /\
  fld h (pos_symtab o + 16) 4 f + fld h (pos_symtab o + 20) 4 f < zlen f /\
  fld h 80 8 f = 0 /\ fld h 144 8 f = 2 ^ 32.
Proof.
  set (bs := repeat 0 (Z.to_nat (2 ^ 32))).
  assert (B : bytes_ok bs) by apply bytes_ok_repeat0.
  assert (L : zlen bs = 2 ^ 32) by (unfold zlen, bs; rewrite repeat_length; lia).
  clearbody bs. destruct (top_C59 p h bs B L) as (f & W & LF & _ & F1 & F2 & F3 & F4 & F5).
  exists (big_object bs), f.
  assert (R : object_rng (big_object bs)).
  { unfold object_rng, big_object. cbn [o_text o_data o_bss bs_bytes bs_symbols bs_relocs bsection_new bss_new bss_size bss_symbols].
    repeat split; try constructor; try assumption; try lia; unfold inu; lia. }
  split; [exact R|]. split; [exact W|].
  assert (PS : pos_symtab (big_object bs) = 184%nat).
  { unfold pos_symtab. rewrite (secs_view _ R), map_length.
    unfold sections_iter, big_object. cbn [filter o_text o_data o_bss]. unfold sr_is_empty. cbn [sr_vm_size bs_bytes].
    rewrite L. reflexivity. }
  rewrite PS. cbn [Nat.add]. rewrite F4, F5, LF. repeat split; lia || assumption.
Qed.
