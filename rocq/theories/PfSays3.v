(** Proofs about panic messages: load commands, symbols, the header, and the assembler. *)
From Coq Require String.
Import String.StringSyntax.
From Coq Require Import ZifyBool ZifyNat Sorting.Sorted.
From Verif Require Import Base Str SpecAsm SpecDiag Mac SpecMacho SpecMore Cli SpecCli SpecOs X64 SpecX86 Obj Asm Assembler SpecRun Says SpecSays
  PfStr PfTok PfX64 PfX86 PfX64Top PfBytes PfMac PfMacRead PfMacTop PfAsm PfData PfLine PfLine2 PfMore PfDiag PfRun PfRun2 PfRun3 PfRun4 PfOs PfSays PfSays2.
Ltac Zify.zify_post_hook ::= Z.div_mod_to_equations.

(** ** Load commands *)

Lemma many_dies {A} (s : sreader A) m (P : nat -> A -> Prop) size l x : agrees s m ->
  (forall o a r, m (skipn o l) = Ok (a, r) <-> P o a /\ r = skipn (o + size) l) ->
  forall n o, sr_many n s (skipn o l) = Dies (Said x) <->
    exists xs, (length xs < n)%nat /\ list_at P size o xs /\ s (skipn (o + size * length xs) l) = Dies (Said x).
Proof.
  intros Ag H. induction n as [|n IH]; intros o; cbn [sr_many].
  - split; [discriminate|intros (xs & L & _); lia].
  - pose proof (Ag (skipn o l)) as F. unfold sr_bind at 1. destruct (s (skipn o l)) as [[a l']|w] eqn:E; cbn [forget] in F.
    + symmetry in F. apply H in F. destruct F as [Pa ->]. unfold sr_bind. specialize (IH (o + size)%nat). split.
      * intros D. destruct (sr_many n s (skipn (o + size) l)) as [[ys l2]|w]; [discriminate|].
        assert (Dw : @Dies (list A * list Z) w = Dies (Said x)) by congruence. apply IH in Dw. destruct Dw as (xs & L & La & D').
        exists (a :: xs). cbn [length list_at]. split; [lia|]. split; [now split|]. now replace (o + size * S (length xs))%nat with (o + size + size * length xs)%nat by lia.
      * intros (xs & L & La & D'). destruct xs as [|b xs]; cbn [length list_at] in *.
        -- rewrite Nat.mul_0_r, Nat.add_0_r in D'. congruence.
        -- destruct La as [Pb La]. rewrite (proj2 IH); [reflexivity|]. exists xs. split; [lia|]. split; [exact La|].
           now replace (o + size + size * length xs)%nat with (o + size * S (length xs))%nat by lia.
    + split.
      * intros D. exists []. cbn [length list_at]. rewrite Nat.mul_0_r, Nat.add_0_r. split; [lia|]. split; [exact I|]. rewrite E. congruence.
      * intros (xs & L & La & D'). destruct xs as [|b xs]; cbn [length list_at] in *.
        -- rewrite Nat.mul_0_r, Nat.add_0_r in D'. congruence.
        -- destruct La as [Pb _]. pose proof (proj2 (H o b (skipn (o + size) l)) (conj Pb eq_refl)). congruence.
Qed.
Lemma after_many {A B} n (s : sreader A) (k : list A -> B) l x : sr_bind (sr_many n s) (fun xs => sr_ret (k xs)) l = Dies (Said x) <-> sr_many n s l = Dies (Said x).
Proof. unfold sr_bind. destruct (sr_many n s l) as [[a l']|w]; [split; discriminate|]. split; congruence. Qed.

Lemma lc_iff p e l x : bytes_ok l -> (s_load_command p e l = Dies (Said x) <-> load_command_says p e l x).
Proof.
  intros Hb. unfold load_command_says. split.
  - unfold s_load_command. destruct (read_u32 e l) as [[cmd l']|] eqn:R; [|discriminate]. cbn zeta.
    assert (L : (4 <= length l)%nat).
    { destruct (Nat.leb_spec 4 (length l)) as [L|L]; [exact L|]. exfalso. pose proof (read_u32_skip e 0 l) as Q. change (skipn 0 l) with l in Q. rewrite R in Q.
      cbn [Nat.add] in Q. destruct (Nat.leb_spec 4 (length l)); [lia|discriminate]. }
    assert (C : cmd = fld e 0 4 l) by (rewrite cmd_read in R by exact L; now injection R as <- _).
    apply read_u32_inv in R; [|exact Hb]. destruct R as [Eq _]. rewrite <- Eq. clear Eq l'. intros H. split; [exact L|]. rewrite <- C.
    unfold SEGMENT_TYPE, SYMTAB_TYPE, DYSYMTAB_TYPE, BUILD_VERSION_TYPE in H.
    destruct (cmd =? 25) eqn:E1; [|destruct (cmd =? 2) eqn:E2; [|destruct (cmd =? 11) eqn:E3; [|destruct (cmd =? 50) eqn:E4]]].
    + right. left. apply q_bind in H. destruct H as (c & r & Rc & H). change l with (skipn 0 l) in Rc. apply segment_read in Rc; [|exact Hb].
      destruct Rc as (A1 & A2 & A3 & A4 & ->). apply after_many in H.
      apply (many_dies _ _ (fun o x => section_at e o l x /\ str_ok (sc_sectname x) /\ str_ok (sc_segname x) /\ attrs_canon (sc_attrs x)) 80 l x (ag_section e)) in H.
      2: { intros o a r. rewrite section_read by exact Hb. tauto. }
      destruct H as (xs & Ln & La & D). apply section_iff in D; [|exact Hb]. exists (sg_nsects c), xs. split; [exists c; tauto|]. split; [unfold zlen; lia|]. split; [exact La|exact D].
    + exfalso. revert H. rest.
    + exfalso. revert H. rest.
    + right. right. unfold sr_bind at 1 in H. destruct (s_build_version p e l) as [[c r]|w] eqn:Eb.
      * right. pose proof (ag_bv p e l) as F. rewrite Eb in F. cbn [forget] in F. symmetry in F. change l with (skipn 0 l) in F. apply build_version_read in F; [|exact Hb].
        destruct F as (A1 & A2 & A3 & A4 & A5 & ->). apply after_many in H.
        apply (many_dies _ _ (fun o x => build_tool_at e o l x) 8 l x (ag_tool e)) in H; [|intros o a r; now rewrite build_tool_read by exact Hb].
        destruct H as (xs & Ln & La & D). apply tool_iff in D; [|exact Hb]. exists (bv_ntools c), xs. split; [exists c; tauto|]. split; [unfold zlen; lia|]. split; [exact La|exact D].
      * left. apply (bv_iff p e 0 l x Hb). change (skipn 0 l) with l. congruence.
    + left. split; [cbn [In]; lia|]. unfold sr_lift in H. cbn [sbind] in H. congruence.
  - intros (L & H). unfold s_load_command. rewrite cmd_read by exact L. cbn zeta.
    pose proof (cmd_read e l L) as R. apply read_u32_inv in R; [|exact Hb]. destruct R as [Eq _]. rewrite <- Eq. clear Eq.
    unfold SEGMENT_TYPE, SYMTAB_TYPE, DYSYMTAB_TYPE, BUILD_VERSION_TYPE.
    destruct H as [(N & ->)|[(n & xs & (c & A1 & A2 & A3 & A4 & A5) & Ln & La & D)|[D|(n & xs & (c & A1 & A2 & A3 & A4 & A5 & A6) & Ln & La & D)]]].
    + cbn [In] in N. replace (fld e 0 4 l =? 25) with false by lia. replace (fld e 0 4 l =? 2) with false by lia.
      replace (fld e 0 4 l =? 11) with false by lia. replace (fld e 0 4 l =? 50) with false by lia. reflexivity.
    + pose proof A1 as (_ & F & _). rewrite F, A3. change (25 =? 25) with true. cbv iota. subst n. apply q_bind. exists c, (skipn 72 l). split.
      * change l with (skipn 0 l) at 1. apply segment_read; [exact Hb|]. tauto.
      * apply after_many. apply (many_dies _ _ (fun o x => section_at e o l x /\ str_ok (sc_sectname x) /\ str_ok (sc_segname x) /\ attrs_canon (sc_attrs x)) 80 l x (ag_section e)).
        -- intros o a r. rewrite section_read by exact Hb. tauto.
        -- exists xs. unfold zlen in Ln. split; [lia|]. split; [exact La|]. now apply section_iff.
    + pose proof D as (_ & F & _). rewrite F. change (50 =? 25) with false. change (50 =? 2) with false. change (50 =? 11) with false. change (50 =? 50) with true. cbv iota.
      apply (bv_iff p e 0 l x Hb) in D. change (skipn 0 l) with l in D. unfold sr_bind at 1. rewrite D. reflexivity.
    + pose proof A1 as (_ & F & _). rewrite F, A4. change (50 =? 25) with false. change (50 =? 2) with false. change (50 =? 11) with false. change (50 =? 50) with true. cbv iota. subst n.
      assert (Rb : read_build_version p e (skipn 0 l) = Ok (c, skipn 24 l)) by (apply build_version_read; [exact Hb|tauto]). change (skipn 0 l) with l in Rb.
      pose proof (ag_bv p e l) as G. rewrite Rb in G. unfold sr_bind at 1. destruct (s_build_version p e l) as [[c' r]|w]; cbn [forget] in G; [|discriminate].
      assert (c' = c) by congruence. assert (r = skipn 24 l) by congruence. subst c' r.
      apply after_many. apply (many_dies _ _ (fun o x => build_tool_at e o l x) 8 l x (ag_tool e)); [intros o a r; now rewrite build_tool_read by exact Hb|].
      exists xs. unfold zlen in Ln. split; [lia|]. split; [exact La|]. now apply tool_iff.
Qed.

(** ** Symbols *)

Lemma field_dies b x : 0 <= b < 256 -> (s_n_type_field b = Dies (Said x) <->
  (b < 32 /\ unnumbered n_type_num (2 * (b mod 16 / 2)) /\ exists ds, decimal (2 * (b mod 16 / 2)) ds /\ x = lit "Invalid n_type number " ++ ds) \/
  (64 <= b /\ exists ds, decimal (32 * (b / 32)) ds /\ x = lit "Unsupported debug symbol " ++ ds)).
Proof.
  intros R. unfold s_n_type_field.
  assert (S1 : Z.land b N_STAB_MASK = 32 * (b / 32) /\ Z.land b N_TYPE_MASK = 2 * (b mod 16 / 2)).
  { assert (Q : forallb (fun k => (Z.land k N_STAB_MASK =? 32 * (k / 32)) && (Z.land k N_TYPE_MASK =? 2 * (k mod 16 / 2))) (map Z.of_nat (seq 0 256)) = true) by (vm_compute; reflexivity).
    rewrite forallb_forall in Q. specialize (Q b). assert (I : In b (map Z.of_nat (seq 0 256))) by (apply in_map_iff; exists (Z.to_nat b); split; [lia|apply in_seq; lia]).
    specialize (Q I). lia. }
  destruct S1 as [-> ->]. destruct (32 * (b / 32) =? 0) eqn:E.
  - set (t := 2 * (b mod 16 / 2)). assert (Rt : inu 64 t) by (unfold inu, t; lia).
    assert (G : s_n_type t = Dies (Said x) <-> unnumbered n_type_num t /\ exists ds, decimal t ds /\ x = lit "Invalid n_type number " ++ ds).
    { unfold s_n_type. rewrite (or_dies n_type_to_u8 n_type_num) by (intros []; cbn; tauto). split; intros [U H]; (split; [exact U|]).
      - exists (show_u64 t). split; [now apply show_dec_iff|exact H].
      - destruct H as (ds & D & ->). apply show_dec_iff in D; [|exact Rt]. now subst ds. }
    split.
    + intros H. left. split; [lia|]. apply G. destruct (s_n_type t); cbn [sbind] in H; [discriminate|congruence].
    + intros [(_ & H)|(B & _)]; [|lia]. apply G in H. rewrite H. reflexivity.
  - set (t := 32 * (b / 32)) in *. assert (Rt : inu 64 t) by (unfold inu, t; lia).
    assert (G : s_debug_symbol t = Dies (Said x) <-> t <> 32 /\ exists ds, decimal t ds /\ x = lit "Unsupported debug symbol " ++ ds).
    { unfold s_debug_symbol. rewrite (or_dies debug_symbol_to_u8 debug_symbol_to_u8) by (intros []; cbn; tauto). split; intros [U H].
      - split; [intros E2; now apply (U Gsym)|]. exists (show_u64 t). split; [now apply show_dec_iff|exact H].
      - split; [intros [] E2; apply U; symmetry; exact E2|]. destruct H as (ds & D & ->). apply show_dec_iff in D; [|exact Rt]. now subst ds. }
    split.
    + intros H. right. assert (D : s_debug_symbol t = Dies (Said x)) by (destruct (s_debug_symbol t); cbn [sbind] in H; [discriminate|congruence]).
      apply G in D. destruct D as [N D]. split; [unfold t in *; lia|exact D].
    + intros [(B & _)|(B & H)]; [unfold t in *; lia|]. assert (D : s_debug_symbol t = Dies (Said x)) by (apply G; split; [unfold t in *; lia|exact H]). rewrite D. reflexivity.
Qed.
Lemma nlist_iff e o l x : bytes_ok l -> (s_nlist64 e (skipn o l) = Dies (Said x) <-> nlist_says e o l x).
Proof.
  intros Hb. unfold s_nlist64, nlist_says. rewrite q_u32. cbn zeta. split.
  - intros (L1 & H). apply (q_u8 e) in H. destruct H as (L2 & H). split; [lia|]. apply l_bind in H. destruct H as [H|(t & _ & H)]; [|exfalso; revert H; rest].
    apply field_dies in H; [exact H|]. apply (fld_range e (o + 4) 1 l Hb). lia.
  - intros (L & H). split; [lia|]. apply (q_u8 e). split; [lia|]. apply l_bind. left. apply field_dies; [apply (fld_range e (o + 4) 1 l Hb); lia|exact H].
Qed.
Lemma top_C99_reloc n x : 0 <= n < 256 ->
  (s_x86_reloc n = Dies (Said x) <-> 6 <= n /\ exists ds, decimal n ds /\ x = ds ++ lit " is not a valid x86 reloc type") /\
  (s_x86_64_reloc n = Dies (Said x) <-> 10 <= n /\ exists ds, decimal n ds /\ x = ds ++ lit " is not a valid x86_64 reloc type").
Proof.
  intros R. assert (R2 : inu 64 n) by (unfold inu; lia).
  assert (Q : forallb (fun k => (match x86_reloc_from_u8 k with Ok _ => k <? 6 | Panic => 6 <=? k end) && (match x86_64_reloc_from_u8 k with Ok _ => k <? 10 | Panic => 10 <=? k end)) (map Z.of_nat (seq 0 256)) = true) by (vm_compute; reflexivity).
  rewrite forallb_forall in Q. specialize (Q n). assert (I : In n (map Z.of_nat (seq 0 256))) by (apply in_map_iff; exists (Z.to_nat n); split; [lia|apply in_seq; lia]).
  specialize (Q I). apply andb_prop in Q. destruct Q as [Q1 Q2]. unfold s_x86_reloc, s_x86_64_reloc. split.
  - destruct (x86_reloc_from_u8 n); (split; [intros H|intros (B & ds & D & ->)]); try discriminate; try lia.
    + injection H as <-. split; [lia|]. exists (show_u64 n). split; [now apply show_dec_iff|reflexivity].
    + apply show_dec_iff in D; [|exact R2]. now subst ds.
  - destruct (x86_64_reloc_from_u8 n); (split; [intros H|intros (B & ds & D & ->)]); try discriminate; try lia.
    + injection H as <-. split; [lia|]. exists (show_u64 n). split; [now apply show_dec_iff|reflexivity].
    + apply show_dec_iff in D; [|exact R2]. now subst ds.
Qed.
Lemma top_C99_push t s x : str_ok s -> (s_stab_push t s = Dies (Said x) <-> (exists c, In c s /\ 128 <= c) /\ x = lit "could not push non-ascii char").
Proof.
  intros S0. unfold s_stab_push, stab_push. destruct (str_is_ascii s) eqn:E.
  - split; [discriminate|]. intros ((c & I & C) & _). exfalso. unfold str_is_ascii in E. rewrite forallb_forall in E. specialize (E c I). unfold is_ascii in E. lia.
  - split; [|intros [_ ->]; reflexivity]. intros H. split; [|congruence]. unfold str_is_ascii in E.
    clear H x. induction S0 as [|c s Hc Hs IH]; [discriminate|]. cbn [forallb] in E. apply andb_false_iff in E. destruct E as [E|E].
    + exists c. split; [now left|]. unfold is_ascii in E. lia.
    + destruct (IH E) as (d & I & D). exists d. split; [now right|exact D].
Qed.

(** ** The header *)

Lemma magic_swap_fld e l : bytes_ok l -> (4 <= length l)%nat -> exists a b c d, inu 8 a /\ inu 8 b /\ inu 8 c /\ inu 8 d /\
  fld e 0 4 l = a + 256 * (b + 256 * (c + 256 * d)) /\ fld (swap e) 0 4 l = d + 256 * (c + 256 * (b + 256 * a)).
Proof.
  intros Hb L. destruct l as [|a [|b [|c [|d l]]]]; cbn [length] in L; try lia.
  inversion Hb as [|? ? Ha H1]; subst. inversion H1 as [|? ? Hbb H2]; subst. inversion H2 as [|? ? Hc H3]; subst. inversion H3 as [|? ? Hd _]; subst.
  destruct e; unfold fld, slice, swap, uint; cbn [firstn skipn rev app msb_val].
  - exists a, b, c, d. unfold inu. repeat split; try apply Ha; try apply Hbb; try apply Hc; try apply Hd; try lia.
  - exists d, c, b, a. unfold inu. repeat split; try apply Ha; try apply Hbb; try apply Hc; try apply Hd; try lia.
Qed.
Lemma cpu_dies t s x : s_cpu t s = Dies (Said x) <-> t <> 7 /\ t <> 16777223 /\ x = lit "Unsupported cpu type".
Proof.
  unfold s_cpu, CPU_TYPE_X86_64, CPU_TYPE_X86, CPU_ARCH_ABI64. change (Z.lor 7 16777216) with 16777223.
  destruct ((t =? 7) || (t =? 16777223)) eqn:E.
  - split; [|lia]. destruct (cpu_from t s); discriminate.
  - split; [intros H; split; [lia|split; [lia|congruence]]|intros (_ & _ & ->); reflexivity].
Qed.
Lemma header_iff h l x : bytes_ok l -> (s_header64 h l = Dies (Said x) <-> header_says h l x).
Proof.
  intros Hb. unfold s_header64, header_says. change l with (skipn 0 l) at 1. rewrite q_u32. cbn [Nat.add].
  assert (Cp : forall e, (12 <= length l)%nat -> (fld_i32 e 4 l <> 7 /\ fld_i32 e 4 l <> 16777223 <-> ~ In (fld e 4 4 l) [7; 16777223])).
  { intros e L. assert (R : inu 32 (fld e 4 4 l)) by (apply (fld_range e 4 4 l Hb); lia). unfold fld_i32, signed, inu in *. change (2 ^ (32 - 1)) with 2147483648. change (2 ^ 32) with 4294967296 in *.
    cbn [In]. destruct (fld e 4 4 l <? 2147483648) eqn:E; lia. }
  assert (Go : forall e, (12 <= length l)%nat /\ fld_i32 e 4 l <> 7 /\ fld_i32 e 4 l <> 16777223 /\ x = lit "Unsupported cpu type" <->
    forall k, (forall c l', k c l' <> Dies (Said x)) -> 
    sr_bind (sr_quiet (read_i32 e)) (fun t => sr_bind (sr_quiet (read_i32 e)) (fun s => sr_bind (sr_lift (s_cpu t s)) k)) (skipn 4 l) = @Dies (header64 * endian * list Z) (Said x)).
  { intros e. split.
    - intros (L & C1 & C2 & ->) k _. apply q_i32; [exact Hb|]. split; [lia|]. apply q_i32; [exact Hb|]. split; [lia|]. apply l_bind. left. now apply cpu_dies.
    - intros H. specialize (H (fun _ _ => Dies Std)). cbn beta in H. specialize (H ltac:(discriminate)). apply q_i32 in H; [|exact Hb]. destruct H as [_ H]. apply q_i32 in H; [|exact Hb]. destruct H as [L H].
      apply l_bind in H. destruct H as [H|(c & _ & H)]; [|discriminate]. apply cpu_dies in H. split; [lia|exact H]. }
  assert (Tl : forall e m c l', (rest <! sr_quiet (file_type_n <~ read_u32 e ;
                    ft <~ rlift (file_type_from_u32 file_type_n) ;
                    ncmds <~ read_u32 e ;
                    size_of_cmds <~ read_u32 e ;
                    flags_n <~ read_u32 e ;
                    flags <~ rlift (flags_from_u32 flags_n) ;
                    reserved <~ read_u32 e ;
                    rret {| h_magic := m; h_cpu := c; h_file_type := ft; h_ncmds := ncmds;
                            h_size_of_cmds := size_of_cmds; h_flags := flags; h_reserved := reserved |}) ;
     sr_ret (rest, e)) l' <> Dies (Said x)).
  { intros e m c l'. apply q_none. intros ? ?. discriminate. }
  assert (St : forall e k, (forall c l', k c l' <> Dies (Said x)) ->
    (sr_bind (sr_quiet (read_i32 e)) (fun t => sr_bind (sr_quiet (read_i32 e)) (fun s => sr_bind (sr_lift (s_cpu t s)) k)) (skipn 4 l) = @Dies (header64 * endian * list Z) (Said x) <->
     (12 <= length l)%nat /\ fld_i32 e 4 l <> 7 /\ fld_i32 e 4 l <> 16777223 /\ x = lit "Unsupported cpu type")).
  { intros e k K. split; [|intros H; now apply (proj1 (Go e) H)].
    intros H. apply q_i32 in H; [|exact Hb]. destruct H as [_ H]. apply q_i32 in H; [|exact Hb]. destruct H as [L H].
    apply l_bind in H. destruct H as [H|(c & _ & H)]; [|now destruct (K c (skipn (4 + 4 + 4) l))]. apply cpu_dies in H. split; [lia|exact H]. }
  split.
  - intros (L & H). apply l_quiet in H. destruct H as (m & M & H). apply magic_from_iff in M.
    destruct (magic_swap_fld h l Hb L) as (a & b & c & d & Ra & Rb & Rc & Rd & E1 & E2). unfold inu in *. change (2 ^ 8) with 256 in *.
    apply l_bind in H. destruct H as [H|(e & Ee & H)].
    + left. split; [exact L|]. rewrite <- M. destruct m; try discriminate H; cbn [magic_num In]; (split; [tauto|congruence]).
    + right. apply (St e _ (Tl e m)) in H. destruct H as (L2 & C1 & C2 & ->). split; [exact L2|]. split; [|reflexivity]. exists e.
      split; [|apply Cp; [exact L2|now split]]. destruct m; try discriminate Ee; injection Ee as <-; cbn [magic_num In] in *; lia.
  - intros [(L & I & ->)|(L & (e & I & C) & ->)].
    + split; [exact L|]. apply l_quiet. cbn [In] in I.
      assert (exists m, magic_num m = fld h 0 4 l /\ (m = FatMagic \/ m = FatCigam)) as (m & M & F).
      { destruct I as [I|[I|[]]]; [exists FatMagic|exists FatCigam]; (split; [cbn; lia|tauto]). }
      exists m. split; [now apply magic_from_iff|]. apply l_bind. left. destruct F as [-> | ->]; reflexivity.
    + split; [lia|]. destruct (magic_swap_fld h l Hb ltac:(lia)) as (a & b & c & d & Ra & Rb & Rc & Rd & E1 & E2). unfold inu in *. change (2 ^ 8) with 256 in *.
      apply l_quiet. cbn [In] in I.
      assert (exists m, magic_num m = fld h 0 4 l /\ match m with Magic64 | Magic32 => Val h | Cigam64 | Cigam32 => Val (swap h) | _ => Dies (Said (lit "not implemented")) end = Val e) as (m & M & F).
      { assert (Es : e = h \/ e = swap h) by (destruct e, h; cbn; tauto). destruct Es as [-> | ->].
        - destruct I as [I|[I|[]]]; [exists Magic64|exists Magic32]; (split; [cbn; lia|reflexivity]).
        - destruct I as [I|[I|[]]]; [exists Cigam64|exists Cigam32]; (split; [cbn; lia|reflexivity]). }
      exists m. split; [now apply magic_from_iff|]. apply l_bind. right. exists e. split; [exact F|].
      apply (St e _ (Tl e m)). split; [exact L|]. apply Cp in C; [|exact L]. tauto.
Qed.

(** ** The assembler *)

Lemma so_quiet_not {A} (m : outcome A) x : so_quiet m <> SCrash (Said x).
Proof. destruct m; discriminate. Qed.
Definition reloc_msg : str := lit "relocation entry in bss section is not supported".
Lemma line_dies p pr a st l bs x : rep pr a -> wf pr -> means st l -> stmt_bytes st bs ->
  (s_exec_line p a l = SCrash (Said x) <-> x = reloc_msg /\ last_sect SText pr = SBss /\ stmt_reloc st <> None).
Proof.
  intros R W M B. pose proof (bam_bytes_fun _ _ _ M B) as Bs. pose proof R as (_ & _ & (B1 & _) & S0 & _).
  assert (Q : (forall i, l <> LInst i) -> stmt_reloc st = None) by (intros N; destruct l; cbn in M; try (subst st; reflexivity); now destruct (N i)).
  destruct l as [|y|n|n|d|i]; cbn [s_exec_line];
    try (split; [intros H; now apply so_quiet_not in H|intros (_ & _ & N); destruct N; apply Q; discriminate]).
  assert (Rl : in_reloc i = match stmt_reloc st with
      | Some (s, k) => Some {| lr_offset := zlen bs - 2 ^ k; lr_symbol := s; lr_pcrel := false; lr_len := k |}
      | None => None end).
  { rewrite <- Bs. destruct st; cbn [means] in M; try contradiction; cbn [stmt_reloc]; apply M. }
  rewrite Rl. destruct (stmt_reloc st) as [[s k]|] eqn:Rs.
  2: { cbn [sobind]. split; [intros H; now apply so_quiet_not in H|intros (_ & _ & N); congruence]. }
  cbn [lr_offset lr_symbol lr_pcrel lr_len]. split.
  - intros H. destruct (chki p 32 _) as [v|]; cbn [olift so_quiet sobind] in H; [|discriminate].
    unfold s_push_reloc, push_reloc in H. rewrite S0 in H. destruct (last_sect SText pr); cbn [sobind] in H.
    + now apply so_quiet_not in H.
    + now apply so_quiet_not in H.
    + injection H as <-. split; [reflexivity|]. split; [reflexivity|discriminate].
  - intros (-> & Ls & _). unfold cur_size. rewrite S0, Ls, B1.
    assert (Sm : 0 <= zlen bs - 2 ^ k <= 15).
    { destruct (reloc_len _ _ _ _ B Rs) as [Lk K0]. split; [exact Lk|]. destruct st; try discriminate; cbn in Rs; injection Rs as <- <-; cbn [stmt_bytes] in B.
      - pose proof (emits_len64 _ 0 _ (conj (Z.le_refl 0) eq_refl) B) as E. unfold offset_to_imm64 in E. change (2 ^ 3) with 8. lia.
      - pose proof (emits_len32 _ 0 _ (conj (Z.le_refl 0) eq_refl) B) as E. unfold offset_to_imm32, b2z in E. change (2 ^ 2) with 4. destruct (ext32 dst); lia. }
    replace (chki p 32 (wrapi 32 0 + (zlen bs - 2 ^ k))) with (Ok (zlen bs - 2 ^ k)).
    + cbn [olift so_quiet sobind]. unfold s_push_reloc, push_reloc. rewrite S0, Ls. reflexivity.
    + change (wrapi 32 0) with 0. unfold chki, inib. change (2 ^ (32 - 1)) with 2147483648.
      replace (0 + (zlen bs - 2 ^ k)) with (zlen bs - 2 ^ k) by lia.
      destruct (andb _ _) eqn:Eq; [reflexivity|exfalso; lia].
Qed.
Lemma raw_dies p pr a raw x : st_ok pr a -> bytes_ok raw ->
  (s_exec_raw p a raw = SCrash (Said x) <->
   x = reloc_msg /\ exists y, line_is p raw y /\ last_sect SText pr = SBss /\ stmt_reloc (fst y) <> None /\ (p = Debug -> (zlen pr + 1) mod 2 ^ 32 <> 0)).
Proof.
  intros (R & W & L) B. unfold s_exec_raw.
  assert (Cn : forall n, chku p 32 (as_line a + 1) = Ok n -> p = Debug -> (zlen pr + 1) mod 2 ^ 32 <> 0).
  { intros n C ->. revert C. unfold chku, inub. rewrite L. destruct (andb _ _) eqn:E; [|discriminate]. intros _. lia. }
  assert (Cp : chku p 32 (as_line a + 1) = Panic -> p = Debug /\ (zlen pr + 1) mod 2 ^ 32 = 0).
  { unfold chku, inub. rewrite L. destruct (andb _ _) eqn:E; [discriminate|]. destruct p; [|discriminate]. intros _. split; [reflexivity|]. lia. }
  split.
  - destruct (from_utf8 raw) as [s|] eqn:U; [|discriminate]. destruct (from_utf8_inv raw s B U) as [Hs Er].
    destruct (chku p 32 (as_line a + 1)) as [n|] eqn:C; cbn [olift so_quiet sobind]; [|discriminate].
    destruct (line_parse p s) as [l|msg|] eqn:P; try discriminate. intros H.
    destruct (line_sound p s l P) as (body & st & T & A & M). destruct (means_bytes st l M) as (bs & Hbs).
    apply (line_dies p pr (set_line a n) st l bs x R W M Hbs) in H. destruct H as (-> & Ls & N). split; [reflexivity|]. exists (st, bs).
    split; [exists s, body; cbn [fst snd]; symmetry in Er; tauto|]. split; [exact Ls|]. split; [exact N|]. now apply (Cn n).
  - intros (-> & [st bs] & (s & body & -> & Hs & T & A & Hbs) & Ls & N & Cd). cbn [fst snd] in *. rewrite from_utf8_utf8 by exact Hs.
    destruct (chku p 32 (as_line a + 1)) as [n|] eqn:C; [|destruct (Cp eq_refl) as [P Z0]; now destruct (Cd P)]. cbn [olift so_quiet sobind].
    destruct (line_complete p s body _ T A) as (l & P & M). rewrite P. now apply (line_dies p pr (set_line a n) st l bs).
Qed.
Lemma sforget_done {A} (m : soutcome A) a : sforget m = Done a -> m = SDone a.
Proof. destruct m; cbn; congruence. Qed.
Lemma all_dies p raws : forall pr a x, st_ok pr a -> Forall bytes_ok raws ->
  (s_exec_all p a raws = SCrash (Said x) <->
   x = reloc_msg /\ exists good bad rest pr' y, raws = good ++ bad :: rest /\ passes p pr good pr' /\ line_is p bad y /\
     last_sect SText pr' = SBss /\ stmt_reloc (fst y) <> None /\ (p = Debug -> (zlen pr' + 1) mod 2 ^ 32 <> 0)).
Proof.
  induction raws as [|raw raws IH]; intros pr a x S0 B; cbn [s_exec_all].
  - split; [discriminate|]. intros (_ & good & bad & rest & pr' & y & E & _). now destruct good.
  - inversion B as [|? ? Br Bs]; subst. pose proof (raw_dies p pr a raw x S0 Br) as D. split.
    + intros H. destruct (s_exec_raw p a raw) as [a1|c m|w] eqn:E; cbn [sobind] in H; [|discriminate|].
      * pose proof (sf_raw p a raw) as F. rewrite E in F. cbn [sforget] in F. symmetry in F.
        assert (F1 : exec_all p a [raw] = Done a1) by (cbn [exec_all]; now rewrite F).
        destruct (exec_done p [raw] pr a a1 S0 (Forall_cons _ Br (Forall_nil _)) F1) as (pr1 & P1 & S1).
        apply (IH pr1 a1 x S1 Bs) in H. destruct H as (-> & good & bad & rest & pr' & y & -> & P & Q). split; [reflexivity|].
        exists (raw :: good), bad, rest, pr', y. split; [reflexivity|]. split; [|exact Q].
        inversion P1 as [|? ? z ? ? Lz Nz Wz Pz]; subst. inversion Pz; subst. apply pa_cons with (x := z); assumption.
      * assert (Dw : @SCrash asm w = SCrash (Said x)) by congruence. apply D in Dw. destruct Dw as (-> & y & Q). split; [reflexivity|]. exists [], raw, raws, pr, y. split; [reflexivity|]. split; [constructor|exact Q].
    + intros (-> & good & bad & rest & pr' & y & E & P & Q). destruct good as [|g good]; injection E as -> ->.
      * inversion P; subst. rewrite (proj2 D); [reflexivity|]. split; [reflexivity|]. now exists y.
      * inversion P as [|? ? z ? ? Lz Nz Wz Pz]; subst.
        destruct (exec_passes p [g] pr a (pr ++ [z]) S0 (Forall_cons _ Br (Forall_nil _))) as (a1 & E1 & S1).
        { apply pa_cons with (x := z); try assumption. constructor. }
        cbn [exec_all] in E1. destruct (exec_raw p a g) as [a2|c m|] eqn:Eg; cbn [obind] in E1; try discriminate. injection E1 as ->.
        rewrite <- sf_raw in Eg. apply sforget_done in Eg. rewrite Eg. cbn [sobind]. apply (IH (pr ++ [z]) a1 _ S1 Bs).
        split; [reflexivity|]. exists good, bad, rest, pr', y. split; [reflexivity|]. split; [exact Pz|exact Q].
Qed.
Lemma top_C99_bss p l ls x : bytes_ok l -> source_lines l ls ->
  (s_read_from p asm_new l = SCrash (Said x) <-> bss_reference p ls /\ x = lit "relocation entry in bss section is not supported").
Proof.
  intros B Sl. apply raw_lines_iff in Sl. subst ls. unfold s_read_from, bss_reference.
  assert (S0 : st_ok [] asm_new) by (split; [apply rep_new|]; split; [constructor|reflexivity]).
  pose proof (all_dies p (raw_lines l) [] asm_new x S0 (raw_lines_bytes l B)) as D. split.
  - intros H. destruct (s_exec_all p asm_new (raw_lines l)) as [a|c m|w]; cbn [sobind] in H; try discriminate. apply D in H. destruct H as [-> H]. split; [exact H|reflexivity].
  - intros (H & ->). rewrite (proj2 D); [reflexivity|]. split; [reflexivity|exact H].
Qed.

Lemma top_C99_header h l x : bytes_ok l -> (s_header64 h l = Dies (Said x) <-> header_says h l x).
Proof. exact (header_iff h l x). Qed.
Lemma top_C99_records p e l x : bytes_ok l ->
  (s_load_command p e l = Dies (Said x) <-> load_command_says p e l x) /\
  (s_section64 e l = Dies (Said x) <-> section_says e 0 l x) /\
  (s_build_version p e l = Dies (Said x) <-> build_version_says e 0 l x) /\
  (s_build_tool e l = Dies (Said x) <-> build_tool_says e 0 l x) /\
  (s_nlist64 e l = Dies (Said x) <-> nlist_says e 0 l x).
Proof.
  intros Hb. split; [now apply lc_iff|]. split; [exact (section_iff e 0 l x Hb)|]. split; [exact (bv_iff p e 0 l x Hb)|].
  split; [exact (tool_iff e 0 l x Hb)|exact (nlist_iff e 0 l x Hb)].
Qed.
