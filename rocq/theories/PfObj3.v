(** Properties of the file written by macho::write_into. *)
From Coq Require Import ZifyBool ZifyNat.
From Coq Require String.
Import String.StringSyntax.
From Verif Require Import Base Str Mac Obj SpecMacho SpecObj PfX64 PfBytes PfStr PfMac PfMacRec PfMacRead
  PfMacTop PfMacTop2 PfObj PfObj2.
Ltac Zify.zify_post_hook ::= Z.div_mod_to_equations.

Lemma slice_mid {A} (a b c : list A) n m : length a = n -> length b = m -> slice n m (a ++ b ++ c) = b.
Proof. intros <- <-. unfold slice. rewrite skipn_app_len by reflexivity. rewrite firstn_app, Nat.sub_diag. cbn [firstn]. rewrite firstn_all, app_nil_r. reflexivity. Qed.
Lemma concat_nth {A B} (f : A -> list B) l i x : nth_error l i = Some x ->
  slice (length (concat (map f (firstn i l)))) (length (f x)) (concat (map f l)) = f x.
Proof.
  intros H. apply nth_error_split in H. destruct H as (l1 & l2 & -> & <-).
  rewrite firstn_app, Nat.sub_diag. cbn [firstn]. rewrite app_nil_r, firstn_all.
  rewrite map_app, concat_app. cbn [map concat]. apply slice_mid; reflexivity.
Qed.
Lemma slice_in {A} o n k m (l s : list A) : slice o n l = s -> (k + m <= n)%nat -> slice (o + k) m l = slice k m s.
Proof. intros <- H. now apply slice_slice. Qed.

Definition outf (h : endian) (o : object) : list Z := e_head h o ++ e_tail h o.

Lemma write_inv p h o f : object_rng o -> fits o -> macho_write_into p h o = (f, true) ->
  representable o /\ f = outf h o.
Proof.
  intros R F H.
  assert (D : {representable o} + {~ representable o}).
  { unfold representable.
    destruct (Forall_dec (Forall (fun c => c < 128))) with (l := names o) as [A|A].
    { intros s. apply Forall_dec. intros c. apply Z_lt_dec. }
    - destruct (Forall_dec (fun r => rl_len r <= 3 /\ In (rl_symbol r) (map resolved (names o)))) with (l := rels o) as [B|B].
      { intros r. destruct (Z_le_dec (rl_len r) 3) as [L|L]; [|right; tauto].
        destruct (in_dec str_eq_dec (rl_symbol r) (map resolved (names o))) as [I|I]; [left; tauto|right; tauto]. }
      + left. tauto.
      + right. tauto.
    - right. tauto. }
  destruct D as [D|D].
  - rewrite (write_ok p h o R F D) in H. injection H as <-. split; [exact D|reflexivity].
  - rewrite (write_fail p h o R F D) in H. discriminate.
Qed.

Section Out.
  Variables (h : endian) (o : object).
  Hypothesis RNG : object_rng o.
  Hypothesis FIT : fits o.
  Hypothesis REP : representable o.
  Let f := outf h o.

  Lemma asc : Forall ascii_str (names o).
  Proof using RNG REP. apply names_ascii; [exact RNG|apply REP]. Qed.
  Lemma n_sects : length (e_sects o) = length (secs o).
  Proof using. clear. unfold e_sects. apply sects_length. Qed.

  Definition segc := LcSegment64 (e_segment o) (e_sects o).
  Lemma seg_len : lc_len segc = (72 + 80 * length (secs o))%nat.
  Proof using. clear. unfold segc. cbn [lc_len]. now rewrite n_sects. Qed.
  Lemma f_split : f = header_bytes h (e_header o) ++ lc_bytes h segc ++ symtab_bytes h (e_symtab o) ++
    flat_map os_bytes (secs o) ++ repeat 0 (round8 (data_len o) - data_len o) ++
    concat (map (reloc_bytes h) (e_rels o)) ++ concat (map (nlist_bytes h) (e_nlists o)) ++ e_tab o.
  Proof using. clear. unfold f, outf, e_head, e_tail, e_data, segc, lc_bytes. now rewrite <- !app_assoc. Qed.
  Lemma len_seg : length (lc_bytes h segc) = (72 + 80 * length (secs o))%nat.
  Proof using RNG FIT. rewrite lc_bytes_length by (apply wf_segment; assumption). apply seg_len. Qed.
  Lemma len_rels : length (concat (map (reloc_bytes h) (e_rels o))) = (8 * length (rels o))%nat.
  Proof using. clear. rewrite (concat_length_const _ 8) by (intros; apply reloc_bytes_length). unfold e_rels. now rewrite map_length. Qed.
  Lemma len_nls : length (concat (map (nlist_bytes h) (e_nlists o))) = (16 * length (syms o))%nat.
  Proof using. clear. rewrite (concat_length_const _ 16) by (intros; apply nlist_bytes_length). unfold e_nlists. now rewrite map_length. Qed.
  Lemma len_tab : length (e_tab o) = (1 + names_len o)%nat.
  Proof using RNG REP. pose proof (tab_len o asc) as H. unfold zlen in H. lia. Qed.

  Ltac lens' := rewrite ?app_length, ?header_bytes_length, ?len_seg, ?symtab_bytes_length, ?repeat_length, ?len_rels, ?len_nls, ?len_tab;
    fold (data_len o); unfold file_len, pos_strs, pos_syms, pos_rels, pos_data, pos_symtab, pos_sections;
    pose proof (round8_ge (data_len o)); lia.
  Lemma f_len : length f = file_len o.
  Proof using RNG FIT REP. rewrite f_split. lens'. Qed.
  Lemma s_header : slice 0 32 f = header_bytes h (e_header o).
  Proof using. clear. rewrite f_split. apply slice_hd, header_bytes_length. Qed.
  Lemma s_seg : slice 32 (72 + 80 * length (secs o)) f = lc_bytes h segc.
  Proof using RNG FIT. rewrite f_split. apply slice_mid; [apply header_bytes_length|apply len_seg]. Qed.
  Lemma s_symtab : slice (pos_symtab o) 24 f = symtab_bytes h (e_symtab o).
  Proof using RNG FIT.
    rewrite f_split. rewrite (app_assoc (header_bytes _ _)). apply slice_mid; [lens'|apply symtab_bytes_length].
  Qed.
  Lemma s_data : slice (pos_data o) (data_len o) f = flat_map os_bytes (secs o).
  Proof using RNG FIT.
    rewrite f_split. rewrite (app_assoc (header_bytes _ _)), (app_assoc (_ ++ _)). apply slice_mid; [lens'|reflexivity].
  Qed.
  Lemma s_pad : slice (pos_data o + data_len o) (round8 (data_len o) - data_len o) f = repeat 0 (round8 (data_len o) - data_len o).
  Proof using RNG FIT.
    rewrite f_split. rewrite (app_assoc (header_bytes _ _)), (app_assoc (_ ++ _)), (app_assoc ((_ ++ _) ++ _)).
    apply slice_mid; [lens'|apply repeat_length].
  Qed.
  Lemma s_rels : slice (pos_rels o) (8 * length (rels o)) f = concat (map (reloc_bytes h) (e_rels o)).
  Proof using RNG FIT.
    rewrite f_split. rewrite (app_assoc (header_bytes _ _)), (app_assoc (_ ++ _)), (app_assoc ((_ ++ _) ++ _)), (app_assoc (((_ ++ _) ++ _) ++ _)).
    apply slice_mid; [lens'|apply len_rels].
  Qed.
  Lemma s_syms : slice (pos_syms o) (16 * length (syms o)) f = concat (map (nlist_bytes h) (e_nlists o)).
  Proof using RNG FIT.
    rewrite f_split. rewrite (app_assoc (header_bytes _ _)), (app_assoc (_ ++ _)), (app_assoc ((_ ++ _) ++ _)), (app_assoc (((_ ++ _) ++ _) ++ _)), (app_assoc ((((_ ++ _) ++ _) ++ _) ++ _)).
    apply slice_mid; [lens'|apply len_nls].
  Qed.
  Lemma s_tab : skipn (pos_strs o) f = e_tab o.
  Proof using RNG FIT.
    rewrite f_split. rewrite (app_assoc (header_bytes _ _)), (app_assoc (_ ++ _)), (app_assoc ((_ ++ _) ++ _)), (app_assoc (((_ ++ _) ++ _) ++ _)), (app_assoc ((((_ ++ _) ++ _) ++ _) ++ _)), (app_assoc (((((_ ++ _) ++ _) ++ _) ++ _) ++ _)).
    apply skipn_app_len. lens'.
  Qed.
  Lemma secs_bytes_ok : bytes_ok (flat_map os_bytes (secs o)).
  Proof using RNG.
    clear FIT REP. destruct RNG as (B1 & B2 & _). apply Forall_flat_map, Forall_forall. intros s Hs. apply filter_In in Hs.
    destruct Hs as [[<-|[<-|[<-|[]]]] _]; cbn [text_sec data_sec bss_sec os_bytes]; [exact B1|exact B2|constructor].
  Qed.
  Lemma f_ok : bytes_ok f.
  Proof using RNG FIT REP.
    rewrite f_split.
    apply bytes_ok_app; split; [apply header_bytes_ok|].
    apply bytes_ok_app; split; [apply lc_bytes_ok, wf_segment; assumption|].
    apply bytes_ok_app; split; [apply symtab_bytes_ok|].
    apply bytes_ok_app; split; [apply secs_bytes_ok|].
    apply bytes_ok_app; split; [apply bytes_ok_repeat0|].
    apply bytes_ok_app; split; [apply bytes_ok_concat, Forall_map, Forall_forall; intros; apply reloc_bytes_ok|].
    apply bytes_ok_app; split; [apply bytes_ok_concat, Forall_map, Forall_forall; intros; apply nlist_bytes_ok|].
    apply ascii_bytes. constructor; [lia|apply stab_bytes_asc, asc].
  Qed.

  Lemma o_header : header_at h 0 f 0xFEEDFACF (e_header o).
  Proof using RNG FIT.
    apply (header_local 0 f _ _ _ _ s_header); [apply header_bytes_length|].
    apply (header_bytes_at h (e_header o)). now apply wf_header.
  Qed.
  Lemma o_seg : segment_at h 32 f (e_segment o) /\ list_at (fun i x => section_at h i f x) 80 pos_sections (e_sects o).
  Proof using RNG FIT.
    apply (lc_bytes_at h segc f 32); [apply wf_segment; assumption|]. rewrite seg_len. apply s_seg.
  Qed.
  Lemma o_symtab : symtab_at h (pos_symtab o) f (e_symtab o).
  Proof using RNG FIT. apply (lc_bytes_at h (LcSymtab (e_symtab o)) f); [now apply wf_symtab|apply s_symtab]. Qed.
  Lemma list_at_nth {A} (P : nat -> A -> Prop) size xs : forall a i x, list_at P size a xs -> nth_error xs i = Some x -> P (a + size * i)%nat x.
  Proof using.
    clear. induction xs as [|y xs IH]; intros a i x H E; [destruct i; discriminate|]. cbn [list_at] in H. destruct H as [H1 H2].
    destruct i as [|i].
    - injection E as <-. now rewrite Nat.mul_0_r, Nat.add_0_r.
    - cbn [nth_error] in E. specialize (IH _ _ _ H2 E). replace (a + size * S i)%nat with (a + size + size * i)%nat by lia. exact IH.
  Qed.

  (** sections by position *)
  Lemma place_nth ss : forall k a i k' a' s, nth_error (place k a ss) i = Some (k', a', s) <->
    nth_error ss i = Some s /\ k' = (k + i)%nat /\ a' = a + zsum (map os_size (firstn i ss)).
  Proof using.
    clear. induction ss as [|x ss IH]; intros k a i k' a' s; cbn [place].
    - split; [destruct i; discriminate|]. intros [H _]. destruct i; discriminate.
    - destruct i as [|i]; cbn [nth_error firstn map zsum fold_right].
      + split.
        * intros H. injection H as <- <- <-. repeat split; lia.
        * intros (H & -> & ->). injection H as ->. repeat f_equal; lia.
      + rewrite IH. fold (zsum (map os_size (firstn i ss))). split; intros (H1 & H2 & H3); (split; [exact H1|split; lia]).
  Qed.
  Lemma sects_nth ss : forall a off roff i s, nth_error ss i = Some s ->
    nth_error (sects ss a off roff) i = Some (sect_of s (a + zsum (map os_size (firstn i ss)))
      (off + zlen (flat_map os_bytes (firstn i ss))) (roff + 8 * zlen (flat_map os_rels (firstn i ss)))).
  Proof using.
    clear. induction ss as [|x ss IH]; intros a off roff i s H; [destruct i; discriminate|]. destruct i as [|i].
    - injection H as ->. cbn [sects nth_error firstn map flat_map zsum fold_right].
      change (zlen (@nil Z)) with 0. change (zlen (@nil reloc)) with 0. do 2 f_equal; lia.
    - cbn [nth_error] in H. cbn [sects nth_error firstn map flat_map zsum fold_right]. rewrite (IH _ _ _ _ _ H).
      fold (zsum (map os_size (firstn i ss))). rewrite !zlen_app. do 2 f_equal; lia.
  Qed.
  Lemma o_section i k a s : nth_error (placed o) i = Some (k, a, s) ->
    k = S i /\ a = zsum (map os_size (firstn i (secs o))) /\ nth_error (secs o) i = Some s /\
    section_at h (pos_sections + 80 * i) f (sect_of s a
      (Z.of_nat (pos_data o) + zlen (flat_map os_bytes (firstn i (secs o))))
      (Z.of_nat (pos_rels o) + 8 * zlen (flat_map os_rels (firstn i (secs o))))).
  Proof using RNG FIT.
    intros H. apply place_nth in H. destruct H as (H & -> & ->). split; [lia|]. split; [lia|]. split; [exact H|].
    apply (list_at_nth (fun i x => section_at h i f x) 80 _ _ i _ (proj2 o_seg)). unfold e_sects. now apply sects_nth.
  Qed.
  Lemma slice_flat {A B} (g : A -> list B) l i x (w : list B) b n :
    slice b n w = flat_map g l -> n = length (flat_map g l) -> nth_error l i = Some x ->
    slice (b + length (flat_map g (firstn i l))) (length (g x)) w = g x.
  Proof using.
    clear. intros E -> H. rewrite !flat_map_concat_map in *.
    rewrite (slice_in _ _ _ _ _ _ E); [now apply concat_nth|].
    apply nth_error_split in H. destruct H as (l1 & l2 & -> & <-). rewrite firstn_app, Nat.sub_diag. cbn [firstn].
    rewrite app_nil_r, firstn_all, map_app, concat_app, !app_length. cbn [map concat]. rewrite app_length. lia.
  Qed.
  Lemma o_bytes i s : nth_error (secs o) i = Some s ->
    slice (Z.to_nat (Z.of_nat (pos_data o) + zlen (flat_map os_bytes (firstn i (secs o))))) (length (os_bytes s)) f = os_bytes s.
  Proof using RNG FIT.
    intros H. replace (Z.to_nat (Z.of_nat (pos_data o) + zlen (flat_map os_bytes (firstn i (secs o)))))
      with (pos_data o + length (flat_map os_bytes (firstn i (secs o))))%nat by (unfold zlen; lia).
    apply (slice_flat os_bytes _ _ _ _ _ _ s_data); [reflexivity|exact H].
  Qed.

  (** symbols *)
  Lemma in_syms_rng k a y : In (k, a, y) (syms o) -> 0 <= a /\ symbol_rng y /\ (1 <= k <= 3)%nat /\ (0 <= n_value_of a y < 2 ^ 64).
  Proof using RNG FIT.
    intros H. assert (G : 0 <= a /\ symbol_rng y /\ (1 <= k <= 3)%nat).
    { unfold syms in H. apply in_flat_map in H. destruct H as ([[k' a'] s] & H1 & H2). apply in_map_iff in H2.
      destruct H2 as (y' & E & H2). injection E as -> -> ->. apply In_nth_error in H1. destruct H1 as [i H1].
      apply place_nth in H1. destruct H1 as (H1 & -> & ->).
      assert (L : (length (secs o) <= 3)%nat) by (rewrite (secs_view o RNG), map_length; apply ss_len).
      assert (i < length (secs o))%nat by (apply nth_error_Some; congruence).
      assert (Z0 : Forall (fun s => 0 <= os_size s) (secs o)).
      { rewrite (secs_view o RNG). apply Forall_map. pose proof (ss_sizes o RNG) as Z0. revert Z0. apply Forall_impl. intros x. now rewrite view_size. }
      split; [|split; [|lia]].
      - assert (0 <= zsum (map os_size (firstn i (secs o)))); [|lia]. apply zsum_nonneg, Forall_map.
        rewrite <- (firstn_skipn i (secs o)) in Z0. apply Forall_app in Z0. apply Z0.
      - apply nth_error_In in H1. destruct RNG as (_ & _ & _ & S1 & S2 & S3 & _). apply filter_In in H1.
        destruct H1 as [[<-|[<-|[<-|[]]]] _]; cbn [text_sec data_sec bss_sec os_syms] in H2;
          [rewrite Forall_forall in S1|rewrite Forall_forall in S2|rewrite Forall_forall in S3]; auto. }
    destruct G as (G1 & G2 & G3). split; [exact G1|]. split; [exact G2|]. split; [exact G3|].
    destruct FIT as (_ & _ & F). rewrite Forall_forall in F. specialize (F _ H). cbn in F.
    destruct G2 as [_ G2]. destruct y; cbn [n_value_of]; unfold inu in *; lia.
  Qed.
  Lemma ent_rng x : In x (syms o) -> nlist_rng (ent (e_tab o) x).
  Proof using RNG FIT REP.
    intros H. destruct x as [[k a] y]. pose proof (in_syms_rng k a y H) as (A & _ & K & V).
    destruct (strx_facts Debug o RNG FIT asc (k, a, y) H) as (_ & S1 & _). cbn [snd] in S1.
    pose proof (fit_bounds o RNG FIT) as (_ & _ & _ & _ & _ & _ & B). rewrite tab_len in S1 by apply asc.
    unfold nlist_rng. cbn [ent nl_strx nl_sect nl_desc nl_value]. unfold inu. split; [lia|]. split; [|split; [lia|exact V]].
    destruct y; cbn [n_sect_of]; lia.
  Qed.
  Lemma o_sym j x : nth_error (syms o) j = Some x ->
    slice (pos_syms o + 16 * j) 16 f = nlist_bytes h (ent (e_tab o) x) /\
    nlist_at h (pos_syms o + 16 * j) f (ent (e_tab o) x) /\
    until_nul (skipn (pos_strs o + Z.to_nat (strx (e_tab o) (sym_name (snd x)))) f) = resolved (sym_name (snd x)) /\
    0 < strx (e_tab o) (sym_name (snd x)) <= 1 + Z.of_nat (names_len o).
  Proof using RNG FIT REP.
    intros H. pose proof (nth_error_In _ _ H) as Hin.
    assert (E : slice (pos_syms o + 16 * j) 16 f = nlist_bytes h (ent (e_tab o) x)).
    { assert (Hn : nth_error (e_nlists o) j = Some (ent (e_tab o) x)) by (unfold e_nlists; now apply map_nth_error).
      pose proof (slice_flat (nlist_bytes h) (e_nlists o) j (ent (e_tab o) x) f (pos_syms o) (16 * length (syms o))) as G.
      rewrite !flat_map_concat_map in G. rewrite (concat_length_const (nlist_bytes h) 16) in G by (intros; apply nlist_bytes_length).
      rewrite (concat_length_const (nlist_bytes h) 16) in G by (intros; apply nlist_bytes_length).
      rewrite nlist_bytes_length in G. specialize (G s_syms).
      assert (j < length (e_nlists o))%nat by (apply nth_error_Some; congruence).
      rewrite firstn_length_le in G by lia. apply G; [unfold e_nlists; now rewrite map_length|exact Hn]. }
    split; [exact E|]. split.
    - apply (nlist_local _ _ _ _ _ E); [apply nlist_bytes_length|]. apply nlist_bytes_at. now apply ent_rng.
    - destruct (strx_facts Debug o RNG FIT asc x Hin) as (_ & S2 & S3).
      split; [|now rewrite tab_len in S2 by apply asc]. 
      rewrite Nat.add_comm, <- skipn_skipn, s_tab. exact S3.
  Qed.
  Lemma resolved_clean s : clean s -> resolved s = s.
  Proof using.
    clear. intros H. unfold resolved. destruct (has_nul s) as [E|[E _]]; rewrite E; [|reflexivity].
    apply existsb_exists in E. destruct E as (c & Hc & E). unfold clean in H. rewrite Forall_forall in H. specialize (H c Hc). lia.
  Qed.
  Lemma map_resolved_clean : clean_names o -> map resolved (names o) = names o.
  Proof using.
    clear. unfold clean_names. induction 1 as [|s l Hs Hl IH]; [reflexivity|]. cbn [map]. now rewrite IH, resolved_clean.
  Qed.

  (** relocations *)
  Lemma rel_facts r : In r (rels o) -> exists j, find_str (rl_symbol r) (map resolved (names o)) = Some j /\
    (j < length (syms o))%nat /\ rl_len r <= 3 /\ oreloc_rng r.
  Proof using RNG REP.
    intros H. destruct REP as [_ R]. rewrite Forall_forall in R. destruct (R r H) as [R1 R2].
    destruct (find_str (rl_symbol r) (map resolved (names o))) as [j|] eqn:E.
    - exists j. split; [reflexivity|]. apply find_str_lt in E. rewrite map_length in E. unfold names in E. rewrite map_length in E.
      pose proof (rels_rng o RNG) as K. rewrite Forall_forall in K. auto.
    - apply find_str_none in E. contradiction.
  Qed.
  Lemma rel_rng r : zlen (syms o) <= 2 ^ 24 -> In r (rels o) -> reloc_rng (rel_of (names o) r) /\ reloc_fits (rel_of (names o) r).
  Proof using RNG REP.
    intros L H. destruct (rel_facts r H) as (j & E & Lj & _ & R & _). unfold reloc_rng, reloc_fits, rel_of.
    cbn [r_address r_symbolnum r_type]. rewrite E. unfold zlen in L. unfold inu. change (2 ^ 24) with 16777216 in *. cbn. repeat split; try lia; apply R.
  Qed.
  Lemma rels_nth m r : nth_error (rels o) m = Some r ->
    slice (pos_rels o + 8 * m) 8 f = reloc_bytes h (rel_of (names o) r).
  Proof using RNG FIT.
    intros H.
    assert (Hn : nth_error (e_rels o) m = Some (rel_of (names o) r)) by (unfold e_rels; now apply map_nth_error).
    pose proof (slice_flat (reloc_bytes h) (e_rels o) m (rel_of (names o) r) f (pos_rels o) (8 * length (rels o))) as G.
    rewrite !flat_map_concat_map in G. rewrite (concat_length_const (reloc_bytes h) 8) in G by (intros; apply reloc_bytes_length).
    rewrite (concat_length_const (reloc_bytes h) 8) in G by (intros; apply reloc_bytes_length).
    rewrite reloc_bytes_length in G. specialize (G s_rels).
    assert (m < length (e_rels o))%nat by (apply nth_error_Some; congruence).
    rewrite firstn_length_le in G by lia. apply G; [unfold e_rels; now rewrite map_length|exact Hn].
  Qed.
  Lemma rels_index i s m r : nth_error (secs o) i = Some s -> nth_error (os_rels s) m = Some r ->
    nth_error (rels o) (length (flat_map os_rels (firstn i (secs o))) + m) = Some r.
  Proof using.
    clear. intros H Hm. apply nth_error_split in H. destruct H as (l1 & l2 & E & <-). unfold rels. rewrite E.
    rewrite firstn_app, Nat.sub_diag. cbn [firstn]. rewrite app_nil_r, firstn_all, flat_map_app.
    rewrite nth_error_app2 by lia. replace (_ + m - _)%nat with m by lia. cbn [flat_map].
    rewrite nth_error_app1; [exact Hm|]. apply nth_error_Some. congruence.
  Qed.
  Lemma o_rel i k a s m r : nth_error (placed o) i = Some (k, a, s) -> nth_error (os_rels s) m = Some r ->
    zlen (syms o) <= 2 ^ 24 ->
    exists x j, section_at h (pos_sections + 80 * i) f x /\ sc_nreloc x = zlen (os_rels s) /\
      reloc_at h (Z.to_nat (sc_reloff x) + 8 * m) f
        {| r_address := rl_addr r; r_symbolnum := Z.of_nat j; r_pcrel := rl_pcrel r;
           r_length := reloc_len_of (rl_len r); r_extern := true; r_type := 0 |} /\
      reloc_length_num (reloc_len_of (rl_len r)) = rl_len r /\
      nth_error (map resolved (names o)) j = Some (rl_symbol r) /\
      (forall j', (j' < j)%nat -> nth_error (map resolved (names o)) j' <> Some (rl_symbol r)).
  Proof using RNG FIT REP.
    intros H Hm L. destruct (o_section i k a s H) as (-> & -> & Hs & A). eexists. 
    pose proof (rels_index i s m r Hs Hm) as Hr. pose proof (nth_error_In _ _ Hr) as Hin.
    destruct (rel_facts r Hin) as (j & E & Lj & L3 & (_ & _ & [L0 _])).
    exists j. split; [exact A|]. split; [reflexivity|].
    assert (Z0 : os_zerofill s = false).
    { apply nth_error_In in Hs. apply filter_In in Hs. destruct Hs as [[<-|[<-|[<-|[]]]] _]; try reflexivity.
      destruct m; discriminate. }
    split.
    { unfold sect_of. cbn [sc_reloff]. rewrite Z0.
      replace (Z.to_nat (Z.of_nat (pos_rels o) + 8 * zlen (flat_map os_rels (firstn i (secs o)))) + 8 * m)%nat
        with (pos_rels o + 8 * (length (flat_map os_rels (firstn i (secs o))) + m))%nat by (unfold zlen; lia).
      pose proof (rels_nth _ _ Hr) as B.
      apply (reloc_local _ _ _ _ _ B); [apply reloc_bytes_length|].
      assert (ER : rel_of (names o) r = {| r_address := rl_addr r; r_symbolnum := Z.of_nat j; r_pcrel := rl_pcrel r;
           r_length := reloc_len_of (rl_len r); r_extern := true; r_type := 0 |}) by (unfold rel_of; now rewrite E).
      rewrite <- ER. destruct (rel_rng r L Hin). now apply reloc_bytes_at. }
    split.
    { assert (rl_len r = 0 \/ rl_len r = 1 \/ rl_len r = 2 \/ rl_len r = 3) as [->|[->|[->| ->]]] by lia; reflexivity. }
    now apply find_str_some in E.
  Qed.

  (** reading back *)
  Lemma tab_vec : stab_from_vec (e_tab o) = Ok (e_tab o).
  Proof using RNG REP.
    unfold stab_from_vec. unfold e_tab at 1. cbn [rassert bind].
    destruct (stab_last (names o)) as (u & E). fold (e_tab o) in E. rewrite E at 1. rewrite rev_app_distr. cbn [rev app rassert bind].
    replace (forallb _ (e_tab o)) with true; [reflexivity|]. symmetry. apply forallb_forall. intros c Hc.
    assert (A : ascii_str (e_tab o)) by (constructor; [lia|apply stab_bytes_asc, asc]).
    unfold ascii_str in A. rewrite Forall_forall in A. specialize (A c Hc). unfold is_ascii. lia.
  Qed.
  Lemma read_all : zlen (syms o) <= 2 ^ 24 -> forall q r,
    read_header64 r f = Ok ({| h_magic := if endian_eqb r h then Magic64 else Cigam64; h_cpu := CpuX86_64 X86_64All;
       h_file_type := FtObject; h_ncmds := 2; h_size_of_cmds := h_size_of_cmds (e_header o); h_flags := []; h_reserved := 0 |}, h, skipn 32 f) /\
    read_load_command q h (skipn 32 f) = Ok (LcSegment64 (e_segment o) (map section_canon (e_sects o)), skipn (pos_symtab o) f) /\
    read_load_command q h (skipn (pos_symtab o) f) = Ok (LcSymtab (e_symtab o), skipn (pos_data o) f) /\
    read_many (length (rels o)) (read_reloc_info h) (skipn (pos_rels o) f) = Ok (e_rels o, skipn (pos_syms o) f) /\
    read_many (length (syms o)) (read_nlist64 h) (skipn (pos_syms o) f) = Ok (e_nlists o, skipn (pos_strs o) f) /\
    stab_from_vec (skipn (pos_strs o) f) = Ok (e_tab o).
  Proof using RNG FIT REP.
    intros L q r. pose proof f_ok as Hb. repeat match goal with |- _ /\ _ => split end.
    - assert (f = header_bytes h (e_header o) ++ skipn 32 f) as E.
      { rewrite <- (firstn_skipn 32 f) at 1. f_equal. apply s_header. }
      rewrite E at 1. destruct (top_C10 h r (e_header o) (skipn 32 f)) as (bs & x & W & _ & RD & X1 & X2 & X3 & X4 & X5 & X6 & X7).
      + now apply wf_header.
      + now left.
      + now apply bytes_ok_skipn.
      + rewrite header_write in W. apply (f_equal fst) in W. cbn [fst] in W. subst bs. rewrite RD. destruct x. projs_in.
        subst. destruct r, h; reflexivity.
    - pose proof (lc_read_back q h segc f 32 Hb (wf_segment o RNG FIT)) as G. rewrite seg_len in G. rewrite (G s_seg).
      reflexivity.
    - apply (lc_read_back q h (LcSymtab (e_symtab o)) f (pos_symtab o) Hb (wf_symtab o RNG FIT) s_symtab).
    - assert (ER : length (rels o) = length (e_rels o)) by (unfold e_rels; now rewrite map_length).
      rewrite ER. apply (read_many_at _ (fun o' x => reloc_at h o' f x /\ reloc_fits x) 8).
      + intros o' x r'. rewrite reloc_read by exact Hb. tauto.
      + split; [reflexivity|]. split; [|f_equal; rewrite <- ER; reflexivity].
        apply (list_at_concat (reloc_bytes h) 8) with (l := f).
        * intros; apply reloc_bytes_length.
        * intros o' x Hx E. unfold e_rels in Hx. apply in_map_iff in Hx. destruct Hx as (r0 & <- & Hr).
          destruct (rel_rng r0 L Hr) as [R1 R2]. split; [|exact R2].
          apply (reloc_local _ _ _ _ _ E); [apply reloc_bytes_length|now apply reloc_bytes_at].
        * rewrite <- ER. apply s_rels.
    - assert (ER : length (syms o) = length (e_nlists o)) by (unfold e_nlists; now rewrite map_length).
      rewrite ER. apply (read_many_at _ (fun o' x => nlist_at h o' f x) 16).
      + intros o' x r'. now apply nlist_read.
      + split; [reflexivity|]. split; [|f_equal; rewrite <- ER; reflexivity].
        apply (list_at_concat (nlist_bytes h) 16) with (l := f).
        * intros; apply nlist_bytes_length.
        * intros o' x Hx E. unfold e_nlists in Hx. apply in_map_iff in Hx. destruct Hx as (y & <- & Hy).
          apply (nlist_local _ _ _ _ _ E); [apply nlist_bytes_length|apply nlist_bytes_at; now apply ent_rng].
        * rewrite <- ER. apply s_syms.
    - rewrite s_tab. apply tab_vec.
  Qed.
End Out.
