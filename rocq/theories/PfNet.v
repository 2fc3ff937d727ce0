(** Proofs about linking several files: C83, C84. *)
From Coq Require Import ZifyBool ZifyNat.
From Verif Require Import Base Str X64 SpecX86 Mac SpecMacho Obj SpecObj Asm SpecAsm Assembler SpecRun SpecLink SpecNet
  PfStr PfX64 PfX86 PfX64Top PfBytes PfObj PfObj2 PfObj3 PfObj4 PfRun5 PfRun3 PfEnd PfLink.
Ltac Zify.zify_post_hook ::= Z.div_mod_to_equations.

(** ** Symbols *)
Lemma sym_value_at p h o f loc other other' : object_rng o -> fits o -> clean_names o -> macho_write_into p h o = (f, true) ->
  (forall n, other n = other' n) ->
  forall j k a y, nth_error (syms o) j = Some (k, a, y) ->
  sym_value h f loc other (Z.of_nat j) = value_of loc other' k y.
Proof.
  intros R F C W Eo j k a y Hj. destruct (link_layout p h o f R F W) as (E1 & E2 & E3 & E4 & E5 & E6).
  destruct (top_C26_clean p h o f R F C W j k a _ Hj) as (e & (_ & Nx & Nt & Ns & _ & Nv) & Nm & Ty & Se & _ & Va).
  destruct (syms_placed _ _ _ _ _ Hj) as (i & s & Hi & -> & _).
  destruct (top_C25 p h o f R F W i _ _ _ Hi) as (x & (_ & _ & _ & Sa & _) & _ & _ & Ad & _).
  unfold sym_value. rewrite E1, E2. cbv zeta. rewrite E4, E5, E6, !Nat2Z.id.
  rewrite Ns, Nv, Se, Va, Nx, Nm.
  assert (Q1 : (Z.of_nat j <? zlen (syms o)) = true).
  { apply Z.ltb_lt. assert (j < length (syms o))%nat by (apply nth_error_Some; congruence). unfold zlen. lia. }
  rewrite Q1. rewrite Ty in Nt. destruct y as [n|n v g|n off g]; cbn [n_type_of n_sect_of n_value_of n_type_byte n_type_num bit01 value_of sym_name] in *.
  - rewrite Nt. cbn. apply Eo.
  - rewrite Nt. destruct g; reflexivity.
  - assert (Q2 : fld h (pos_syms o + 16 * j + 4) 1 f / 2 mod 8 = 7) by (rewrite Nt; destruct g; reflexivity).
    rewrite Q2, E3.
    assert (Li : (i < length (secs o))%nat).
    { assert (H : (i < length (placed o))%nat) by (apply nth_error_Some; congruence).
      unfold placed in H. replace (length (secs o)) with (length (place 1 0 (secs o))); [exact H|].
      generalize 1%nat 0. clear. induction (secs o) as [|s l IH]; intros k a; [reflexivity|]. cbn [place length]. now rewrite IH. }
    replace ((1 <=? Z.of_nat (S i)) && (Z.of_nat (S i) <=? zlen (secs o))) with true by (unfold zlen; lia).
    unfold sect_pos. replace (32 + 72 + 80 * (Z.to_nat (Z.of_nat (S i)) - 1) + 32)%nat with (pos_sections + 80 * i + 32)%nat by (unfold pos_sections; lia).
    rewrite Sa, Ad. f_equal. lia.
Qed.
Lemma find_def_at p h o f loc n : object_rng o -> fits o -> clean_names o -> macho_write_into p h o = (f, true) ->
  forall m j, (j + m = length (syms o))%nat ->
  find_def h f loc n m (Z.of_nat j) =
    match find (fun '(_, _, y) => exports n y) (skipn j (syms o)) with
    | Some (k, _, y) => value_of loc (fun _ => None) k y
    | None => None
    end.
Proof.
  intros R F C W. destruct (link_layout p h _ f R F W) as (L1 & L2 & L3 & L4 & L5 & L6).
  induction m as [|m IH]; intros j Hj.
  - cbn [find_def]. now rewrite skipn_all2 by lia.
  - destruct (nth_error (syms o) j) as [[[k a] y]|] eqn:Hy; [|apply nth_error_None in Hy; lia].
    destruct (top_C26_clean p h _ f R F C W j k a y Hy) as (e & (_ & Nx & Nt & _) & Nm & Ty & _).
    assert (Sk : skipn j (syms o) = (k, a, y) :: skipn (S j) (syms o)).
    { clear -Hy. revert Hy. generalize (syms o). induction j as [|j IH]; intros [|x l] H; cbn in *; try discriminate; [now injection H as ->|].
      now apply IH. }
    rewrite Sk. cbn [find_def find]. rewrite L2. cbv zeta. rewrite L4, L6, !Nat2Z.id, Nx, Nm.
    rewrite Ty in Nt. rewrite (sym_value_at p h o f loc (fun _ => None) (fun _ => None) R F C W (fun _ => eq_refl) j k a y Hy).
    replace (Z.of_nat j + 1) with (Z.of_nat (S j)) by lia. specialize (IH (S j) ltac:(lia)).
    destruct y as [m'|m' v g|m' off g]; cbn [exports sym_name n_type_of n_type_byte n_type_num bit01] in *; rewrite Nt.
    + destruct (str_eqb m' n); cbn [andb]; exact IH.
    + destruct (str_eqb m' n); cbn [andb]; [|exact IH]. destruct g; [reflexivity|exact IH].
    + destruct (str_eqb m' n); cbn [andb]; [|exact IH]. destruct g; [reflexivity|exact IH].
Qed.
Lemma definition_at p h o f loc n : object_rng o -> fits o -> clean_names o -> macho_write_into p h o = (f, true) ->
  definition h f loc n = exported o loc n.
Proof.
  intros R F C W. destruct (link_layout p h _ f R F W) as (L1 & L2 & L3 & L4 & L5 & L6).
  unfold definition, exported. rewrite L2, L5. unfold zlen. rewrite Nat2Z.id.
  exact (find_def_at p h o f loc n R F C W _ 0%nat eq_refl).
Qed.
Lemma top_C83_names h os fs n : Forall2 (written_as h) os fs -> global_def h fs n = exported_by os n.
Proof.
  induction 1 as [|[o loc] [f loc'] os fs (R & F & C & _ & E & p & W) _ IH]; [reflexivity|]. cbn [fst snd] in *. subst loc'.
  cbn [global_def exported_by]. rewrite (definition_at p h o f loc n R F C W), IH. reflexivity.
Qed.

(** ** Relocations *)
Lemma find_none {A} (l : list A) g : find g l = None -> forall x, In x l -> g x = false.
Proof. exact (@find_none A g l). Qed.
Lemma find_at {A} (g : A -> bool) l j x : nth_error l j = Some x -> g x = true ->
  (forall j' y, (j' < j)%nat -> nth_error l j' = Some y -> g y = false) -> find g l = Some x.
Proof.
  revert j. induction l as [|z l IH]; intros [|j] H G N; try discriminate; cbn [find nth_error] in *.
  - injection H as ->. now rewrite G.
  - rewrite (N 0%nat z ltac:(lia) eq_refl). apply (IH j H G). intros j' y L E. apply (N (S j') y ltac:(lia) E).
Qed.
Lemma meaning_at o loc other n j : nth_error (names o) j = Some n ->
  (forall j', (j' < j)%nat -> nth_error (names o) j' <> Some n) ->
  exists k a y, nth_error (syms o) j = Some (k, a, y) /\ meaning o loc other n = value_of loc other k y.
Proof.
  intros H N. unfold names in H. rewrite nth_error_map_inv in H.
  destruct (nth_error (syms o) j) as [[[k a] y]|] eqn:E; [|discriminate]. cbn [option_map] in H. injection H as H.
  exists k, a, y. split; [reflexivity|]. unfold meaning.
  rewrite (find_at _ _ j (k, a, y) E); [reflexivity|now rewrite H, str_eqb_refl|].
  intros j' [[k' a'] y'] L E'. destruct (str_eqb (sym_name y') n) eqn:Q; [|reflexivity]. apply str_eqb_eq in Q. exfalso.
  apply (N j' L). unfold names. rewrite nth_error_map_inv, E'. cbn [option_map]. now rewrite Q.
Qed.
Lemma one_reloc_at h f val o j len off pc bs : 0 <= j < 2 ^ 24 ->
  reloc_at h o f {| r_address := off; r_symbolnum := j; r_pcrel := pc; r_length := len; r_extern := true; r_type := 0 |} ->
  one_reloc h f val o bs =
    match val j with
    | Some v => if pc then None else put_field v off (reloc_length_num len) bs
    | None => None
    end.
Proof.
  intros J (_ & A & Wd). cbn [r_address] in A. unfold one_reloc. rewrite A, Wd.
  assert (L : 0 <= reloc_length_num len < 4) by (destruct len; cbn; lia).
  unfold reloc_word. cbn [r_symbolnum r_pcrel r_length r_extern r_type bit01]. set (k := reloc_length_num len) in *.
  assert (P : 0 <= bit01 pc <= 1) by (destruct pc; cbn; lia). assert (Pe : bit01 pc = if pc then 1 else 0) by reflexivity.
  set (b := bit01 pc) in *.
  destruct h.
  - replace ((j + 2 ^ 24 * b + 2 ^ 25 * k + 2 ^ 27 * 1 + 2 ^ 28 * 0) mod 2 ^ 24) with j by lia.
    replace ((j + 2 ^ 24 * b + 2 ^ 25 * k + 2 ^ 27 * 1 + 2 ^ 28 * 0) / 2 ^ 24 mod 2) with b by lia.
    replace ((j + 2 ^ 24 * b + 2 ^ 25 * k + 2 ^ 27 * 1 + 2 ^ 28 * 0) / 2 ^ 25 mod 4) with k by lia.
    replace ((j + 2 ^ 24 * b + 2 ^ 25 * k + 2 ^ 27 * 1 + 2 ^ 28 * 0) / 2 ^ 27 mod 2) with 1 by lia.
    replace ((j + 2 ^ 24 * b + 2 ^ 25 * k + 2 ^ 27 * 1 + 2 ^ 28 * 0) / 2 ^ 28) with 0 by lia.
    cbv beta iota zeta. rewrite Pe. destruct (val j), pc; reflexivity.
  - replace ((2 ^ 8 * j + 2 ^ 7 * b + 2 ^ 5 * k + 2 ^ 4 * 1 + 0) / 2 ^ 8) with j by lia.
    replace ((2 ^ 8 * j + 2 ^ 7 * b + 2 ^ 5 * k + 2 ^ 4 * 1 + 0) / 2 ^ 7 mod 2) with b by lia.
    replace ((2 ^ 8 * j + 2 ^ 7 * b + 2 ^ 5 * k + 2 ^ 4 * 1 + 0) / 2 ^ 5 mod 4) with k by lia.
    replace ((2 ^ 8 * j + 2 ^ 7 * b + 2 ^ 5 * k + 2 ^ 4 * 1 + 0) / 2 ^ 4 mod 2) with 1 by lia.
    replace ((2 ^ 8 * j + 2 ^ 7 * b + 2 ^ 5 * k + 2 ^ 4 * 1 + 0) mod 2 ^ 4) with 0 by lia.
    cbv beta iota zeta. rewrite Pe. destruct (val j), pc; reflexivity.
Qed.
Lemma put_field_added v off k bs bs' : 0 <= k -> (put_field v off k bs = Some bs' <-> added off (Z.to_nat (2 ^ k)) v bs bs').
Proof.
  intro K. pose proof (Z.pow_pos_nonneg 2 k ltac:(lia) K) as P. set (n := Z.to_nat (2 ^ k)).
  assert (Hn : Z.of_nat n = 2 ^ k) by (unfold n; lia). unfold put_field. fold n. rewrite <- Hn. split.
  - destruct ((0 <=? off) && (off + Z.of_nat n <=? zlen bs)) eqn:E; [|discriminate]. intro H. injection H as <-.
    apply andb_true_iff in E. destruct E as [E1 E2]. apply Z.leb_le in E1, E2. unfold zlen in E2. set (i := Z.to_nat off).
    exists (firstn i bs), (slice i n bs), (le_bytes n ((lev (slice i n bs) + v) mod 2 ^ (8 * Z.of_nat n))), (skipn (i + n) bs).
    assert (Ls : length (slice i n bs) = n) by (unfold slice; rewrite firstn_length, skipn_length; lia).
    split; [|split; [reflexivity|split; [unfold zlen; rewrite firstn_length; lia|split; [exact Ls|split; [apply le_bytes_length|split; [apply le_bytes_ok|]]]]]].
    + unfold slice. rewrite <- (firstn_skipn i bs) at 1. f_equal. rewrite <- (firstn_skipn n (skipn i bs)) at 1. f_equal.
      rewrite skipn_skipn. f_equal. lia.
    + rewrite lev_le_bytes. apply Z.mod_mod. apply Z.pow_nonzero; lia.
  - intros (pre & fd & fd' & post & -> & -> & Lp & Lf & Lf' & Bf & Ev).
    assert (E : (0 <=? off) && (off + Z.of_nat n <=? zlen (pre ++ fd ++ post)) = true).
    { unfold zlen in *. rewrite !app_length. apply andb_true_iff. split; lia. }
    rewrite E. cbv zeta. unfold zlen in Lp. replace (Z.to_nat off) with (length pre) by lia.
    assert (S1 : skipn (length pre) (pre ++ fd ++ post) = fd ++ post) by (rewrite skipn_app, skipn_all, Nat.sub_diag; reflexivity).
    assert (S2 : slice (length pre) n (pre ++ fd ++ post) = fd).
    { unfold slice. rewrite S1, <- Lf. rewrite firstn_app, firstn_all, Nat.sub_diag. cbn [firstn]. apply app_nil_r. }
    rewrite S2, <- Ev, le_bytes_lev by assumption.
    rewrite firstn_app, firstn_all, Nat.sub_diag. cbn [firstn]. rewrite app_nil_r.
    replace (length pre + n)%nat with (length pre + length fd)%nat by lia.
    rewrite (app_assoc pre fd post), <- app_length, skipn_app, skipn_all, Nat.sub_diag. reflexivity.
Qed.
Lemma all_relocs_at h f val m rs : forall o bs bs',
  (forall i r, nth_error rs i = Some r -> 0 <= rl_len r /\ forall bs, one_reloc h f val (o + 8 * i) bs =
     match m (rl_symbol r) with
     | Some v => if rl_pcrel r then None else put_field v (rl_addr r) (rl_len r) bs
     | None => None
     end) ->
  (all_relocs h f val (length rs) o bs = Some bs' <-> filled m rs bs bs').
Proof.
  induction rs as [|r rs IH]; intros o bs bs' H.
  - cbn. split; [intro E; injection E as <-; constructor|]. intro E. inversion E; subst. reflexivity.
  - cbn [length all_relocs]. destruct (H 0%nat r eq_refl) as (K & Hr). rewrite Nat.mul_0_r, Nat.add_0_r in Hr. rewrite Hr.
    assert (H' : forall i r0, nth_error rs i = Some r0 -> 0 <= rl_len r0 /\ forall bs, one_reloc h f val (o + 8 + 8 * i) bs =
       match m (rl_symbol r0) with Some v => if rl_pcrel r0 then None else put_field v (rl_addr r0) (rl_len r0) bs | None => None end).
    { intros i r0 E. destruct (H (S i) r0 E) as (K0 & H0). split; [exact K0|]. intro b. rewrite <- H0. f_equal. lia. }
    split.
    + destruct (m (rl_symbol r)) as [v|] eqn:Em; [|discriminate]. destruct (rl_pcrel r) eqn:Ep; [discriminate|].
      destruct (put_field v (rl_addr r) (rl_len r) bs) as [bs1|] eqn:Eb; [|discriminate]. intro E. apply (IH _ _ _ H') in E.
      eapply fi_one; [exact Em|exact Ep|apply (put_field_added v _ _ _ _ K), Eb|exact E].
    + intro E. inversion E as [|r' rs' v bs0 bs1 bs2 Em Ep Ea Ef]; subst. rewrite Em, Ep.
      apply (put_field_added v _ _ _ _ K) in Ea. rewrite Ea. apply (IH _ _ _ H'), Ef.
Qed.
Lemma Forall2_at {A B} (P : A -> B -> Prop) l l' i x : Forall2 P l l' -> nth_error l i = Some x -> exists y, nth_error l' i = Some y /\ P x y.
Proof.
  intro F. revert i. induction F as [|a b l l' H F IH]; intros [|i] E; try discriminate; cbn [nth_error] in *.
  - injection E as <-. exists b. auto.
  - now apply IH.
Qed.
Lemma place_at ss : forall k0 a0 i k a s, nth_error (place k0 a0 ss) i = Some (k, a, s) -> k = (k0 + i)%nat /\ nth_error ss i = Some s.
Proof.
  induction ss as [|x ss IH]; intros k0 a0 [|i] k a s H; try discriminate; cbn [place nth_error] in *.
  - injection H as <- _ <-. split; [lia|reflexivity].
  - apply IH in H. destruct H as [-> E]. split; [lia|exact E].
Qed.
Lemma top_C83 h os fs : Forall2 (written_as h) os fs ->
  forall i o loc m k a s, nth_error os i = Some (o, loc) -> nth_error (placed o) m = Some (k, a, s) ->
  forall bs, link_in h fs i (Z.of_nat k) = Some bs <->
    filled (meaning o loc (exported_by os)) (os_rels s) (contents s) bs.
Proof.
  intros Fo i o loc m k a s Hi Hm bs.
  destruct (Forall2_at _ _ _ _ _ Fo Hi) as ([f loc'] & Hf & R & F & C & Ls & E & p & W). cbn [fst snd] in *. subst loc'.
  destruct (link_layout p h _ f R F W) as (L1 & L2 & L3 & L4 & L5 & L6).
  destruct (top_C25 p h _ f R F W _ _ _ _ Hm) as (x & Sa & _ & _ & _ & Sz & _ & St & _ & Sl).
  destruct (top_C27 p h _ f R F C Ls W _ _ _ _ Hm) as (x' & Sa' & Nr & Re).
  assert (Km : k = S m /\ (m < length (secs o))%nat).
  { unfold placed in Hm. apply place_at in Hm. destruct Hm as [-> E]. split; [reflexivity|]. apply nth_error_Some. congruence. }
  destruct Km as [-> Lm].
  unfold link_in. rewrite Hf, L1, L3. cbv zeta.
  replace ((1 <=? Z.of_nat (S m)) && (Z.of_nat (S m) <=? zlen (secs o))) with true by (unfold zlen; lia).
  assert (Po : sect_pos 32 (Z.of_nat (S m)) = (pos_sections + 80 * m)%nat) by (unfold sect_pos, pos_sections; lia). rewrite Po.
  destruct Sa' as (_ & _ & _ & _ & _ & _ & _ & Ar & An & _). destruct Sa as (_ & _ & _ & _ & Az & Ao & _ & _ & _ & At & _).
  rewrite Ar, An, Az, Ao, At, Nr, St.
  replace (if section_type_num (if os_zerofill s then StZerofill else StRegular) =? 1 then repeat 0 (Z.to_nat (sc_size x))
           else slice (Z.to_nat (sc_offset x)) (Z.to_nat (sc_size x)) f) with (contents s)
    by (unfold contents; destruct (os_zerofill s); cbn; [now rewrite Sz|now rewrite Sl]).
  unfold zlen at 1. rewrite Nat2Z.id. apply all_relocs_at.
  intros q r Hr. destruct (Re q r Hr) as (j & Ra & Rl & Nj & Nf).
  assert (J : 0 <= Z.of_nat j < 2 ^ 24).
  { assert (j < length (names o))%nat by (apply nth_error_Some; congruence). unfold names in H. rewrite map_length in H. unfold zlen in Ls. lia. }
  split; [rewrite <- Rl; destruct (reloc_len_of (rl_len r)); cbn; lia|]. intro b. rewrite (one_reloc_at h f _ _ _ _ _ _ b J Ra), Rl.
  destruct (meaning_at o loc (exported_by os) (rl_symbol r) j Nj Nf) as (kk & aa & y & Hy & ->).
  rewrite (sym_value_at p h o f loc (global_def h fs) (exported_by os) R F C W (fun n => top_C83_names h os fs n Fo) j kk aa y Hy).
  reflexivity.
Qed.

(** ** Which sections link *)
Lemma added_len a n v bs bs' : added a n v bs bs' -> length bs' = length bs.
Proof. intros (pre & fd & fd' & post & -> & -> & _ & L & L' & _). rewrite !app_length. lia. Qed.
Lemma put_field_some v off k bs : (exists bs', put_field v off k bs = Some bs') <-> 0 <= off /\ off + 2 ^ k <= zlen bs.
Proof.
  unfold put_field. destruct ((0 <=? off) && (off + 2 ^ k <=? zlen bs)) eqn:E.
  - split; [intros _; lia|]. intros _. eexists. reflexivity.
  - split; [intros (b & H); discriminate|]. lia.
Qed.
Lemma filled_some m rs : Forall (fun r => 0 <= rl_len r) rs -> forall bs, (exists bs', filled m rs bs bs') <->
  Forall (fun r => m (rl_symbol r) <> None /\ rl_pcrel r = false /\ 0 <= rl_addr r /\ rl_addr r + 2 ^ rl_len r <= zlen bs) rs.
Proof.
  induction 1 as [|r rs K Ks IH]; intro bs.
  - split; [constructor|]. intros _. exists bs. constructor.
  - split.
    + intros (bs' & H). inversion H as [|r' rs' v bs0 bs1 bs2 Em Ep Ea Ef]; subst. constructor.
      * split; [congruence|]. split; [exact Ep|]. apply (put_field_some v). exists bs1. now apply put_field_added.
      * assert (Q := proj1 (IH bs1) (ex_intro _ _ Ef)). apply added_len in Ea. unfold zlen in *. rewrite Ea in Q. exact Q.
    + intro H. inversion H as [|r' rs' (Em & Ep & Er) Hs]; subst. destruct (m (rl_symbol r)) as [v|] eqn:E; [|congruence].
      destruct (proj2 (put_field_some v (rl_addr r) (rl_len r) bs) Er) as (bs1 & Eb). apply (put_field_added v _ _ _ _ K) in Eb.
      destruct (proj2 (IH bs1)) as (bs2 & Ef).
      { pose proof (added_len _ _ _ _ _ Eb) as L. unfold zlen in *. now rewrite L. }
      exists bs2. eapply fi_one; eassumption.
Qed.
Lemma rels_len p h o f : object_rng o -> fits o -> clean_names o -> zlen (syms o) <= 2 ^ 24 -> macho_write_into p h o = (f, true) ->
  forall m k a s, nth_error (placed o) m = Some (k, a, s) -> Forall (fun r => 0 <= rl_len r) (os_rels s).
Proof.
  intros R F C Ls W m k a s Hm. destruct (top_C27 p h _ f R F C Ls W _ _ _ _ Hm) as (x & _ & _ & Re).
  apply Forall_forall. intros r I. apply In_nth_error in I. destruct I as (q & Hq). destruct (Re q r Hq) as (j & _ & Rl & _).
  rewrite <- Rl. destruct (reloc_len_of (rl_len r)); cbn; lia.
Qed.
Lemma contents_len o m k a s : object_rng o -> nth_error (placed o) m = Some (k, a, s) -> zlen (contents s) = os_size s.
Proof.
  intros R H. unfold placed in H. apply place_at in H. destruct H as [_ H]. apply nth_error_In in H. unfold secs in H.
  apply filter_In in H. destruct H as [H _]. destruct R as (_ & _ & Rb & _). unfold inu in Rb.
  destruct H as [<-|[<-|[<-|[]]]]; unfold contents; cbn [text_sec data_sec bss_sec os_zerofill os_bytes os_size]; [reflexivity|reflexivity|].
  unfold zlen. rewrite repeat_length. lia.
Qed.
Lemma top_C83_linkable h os fs : Forall2 (written_as h) os fs ->
  forall i o loc m k a s, nth_error os i = Some (o, loc) -> nth_error (placed o) m = Some (k, a, s) ->
  (link_in h fs i (Z.of_nat k) <> None <->
   Forall (fun r => meaning o loc (exported_by os) (rl_symbol r) <> None /\ rl_pcrel r = false /\
                    0 <= rl_addr r /\ rl_addr r + 2 ^ rl_len r <= os_size s) (os_rels s)).
Proof.
  intros Fo i o loc m k a s Hi Hm.
  destruct (Forall2_at _ _ _ _ _ Fo Hi) as ([f loc'] & _ & R & F & C & Ls & _ & p & W). cbn [fst snd] in *.
  rewrite <- (contents_len o m k a s R Hm). rewrite <- (filled_some _ _ (rels_len p h o f R F C Ls W m k a s Hm)).
  split.
  - intro H. destruct (link_in h fs i (Z.of_nat k)) as [bs|] eqn:E; [|congruence]. exists bs. now apply (top_C83 h os fs Fo i o loc m k a s Hi Hm).
  - intros (bs & H). apply (top_C83 h os fs Fo i o loc m k a s Hi Hm) in H. congruence.
Qed.

(** ** The order of the files *)
Lemma exported_by_in os n v : exported_by os n = Some v -> exists x, In x os /\ exported (fst x) (snd x) n = Some v.
Proof.
  induction os as [|[o loc] os IH]; [discriminate|]. cbn [exported_by]. destruct (exported o loc n) as [w|] eqn:E.
  - intro H. injection H as <-. exists (o, loc). split; [now left|exact E].
  - intro H. destruct (IH H) as (x & I & Ex). exists x. split; [now right|exact Ex].
Qed.
Lemma exported_by_none os n : exported_by os n = None -> forall x, In x os -> exported (fst x) (snd x) n = None.
Proof.
  induction os as [|[o loc] os IH]; [intros _ x []|]. cbn [exported_by]. destruct (exported o loc n) as [w|] eqn:E; [discriminate|].
  intros H x [<-|I]; [exact E|]. now apply IH.
Qed.
Lemma exported_by_any os os' n : (forall x, In x os <-> In x os') ->
  (forall x y v w, In x os -> In y os -> exported (fst x) (snd x) n = Some v -> exported (fst y) (snd y) n = Some w -> v = w) ->
  exported_by os n = exported_by os' n.
Proof.
  intros Eq U. destruct (exported_by os n) as [v|] eqn:E1, (exported_by os' n) as [w|] eqn:E2; try reflexivity.
  - apply exported_by_in in E1, E2. destruct E1 as (x & I1 & X1), E2 as (y & I2 & X2). f_equal. apply (U x y); auto. now apply Eq.
  - apply exported_by_in in E1. destruct E1 as (x & I1 & X1). rewrite (exported_by_none _ _ E2 x (proj1 (Eq x) I1)) in X1. discriminate.
  - apply exported_by_in in E2. destruct E2 as (x & I1 & X1). rewrite (exported_by_none _ _ E1 x (proj2 (Eq x) I1)) in X1. discriminate.
Qed.
Lemma meaning_ext o loc g g' n : (forall m, g m = g' m) -> meaning o loc g n = meaning o loc g' n.
Proof. intro E. unfold meaning. destruct (find _ _) as [[[k a] y]|]; [|reflexivity]. destruct y; cbn [value_of]; auto. Qed.
Lemma filled_ext m m' rs bs bs' : (forall n, m n = m' n) -> filled m rs bs bs' -> filled m' rs bs bs'.
Proof. intros E H. induction H as [bs|r rs v bs bs1 bs2 Em Ep Ea Ef IH]; [constructor|]. rewrite E in Em. eapply fi_one; eassumption. Qed.
Lemma top_C83_order h os fs os' fs' : Forall2 (written_as h) os fs -> Forall2 (written_as h) os' fs' ->
  (forall x, In x os <-> In x os') ->
  (forall n x y v w, In x os -> In y os -> exported (fst x) (snd x) n = Some v -> exported (fst y) (snd y) n = Some w -> v = w) ->
  forall i i' o loc m k a s, nth_error os i = Some (o, loc) -> nth_error os' i' = Some (o, loc) -> nth_error (placed o) m = Some (k, a, s) ->
  link_in h fs i (Z.of_nat k) = link_in h fs' i' (Z.of_nat k).
Proof.
  intros F1 F2 Eq U i i' o loc m k a s H1 H2 Hm.
  assert (E : forall n, exported_by os n = exported_by os' n) by (intro n; apply exported_by_any; [exact Eq|apply U]).
  assert (Q : forall bs, link_in h fs i (Z.of_nat k) = Some bs <-> link_in h fs' i' (Z.of_nat k) = Some bs).
  { intro bs. rewrite (top_C83 h os fs F1 i o loc m k a s H1 Hm bs), (top_C83 h os' fs' F2 i' o loc m k a s H2 Hm bs).
    split; apply filled_ext; intro n; apply meaning_ext; intro q; [apply E|symmetry; apply E]. }
  destruct (link_in h fs i (Z.of_nat k)) as [bs|]; [symmetry; now apply Q|].
  destruct (link_in h fs' i' (Z.of_nat k)) as [bs|]; [now apply Q|reflexivity].
Qed.

(** ** Assembled files among others *)
Lemma exported_asm pr loc n : exported (object_of pr) loc n = if is_global pr n then label_addr loc pr n else None.
Proof.
  unfold exported, label_addr. rewrite <- syms_labels.
  assert (H : forall x, In x (syms (object_of pr)) -> exists m off, snd x = SyRef m off (is_global pr m)).
  { intros [[k a] y] I. destruct (syms_of pr k a y I) as (s & m & off & _ & _ & _ & ->). exists m, off. reflexivity. }
  induction (syms (object_of pr)) as [|[[k a] y] l IH]; [now destruct (is_global pr n)|].
  destruct (H (k, a, y) (or_introl eq_refl)) as (m & off & E). cbn [snd] in E. subst y.
  specialize (IH (fun x I => H x (or_intror I))). cbn [find map fst snd exports sym_name sym_off value_of].
  destruct (str_eqb m n) eqn:E.
  - apply str_eqb_eq in E. subst m. destruct (is_global pr n) eqn:G; cbn [andb option_map snd value_of]; [reflexivity|exact IH].
  - cbn [andb]. exact IH.
Qed.
Lemma relocs_same h f loc val rs : forall o bs,
  (forall i, (i < rs)%nat -> forall bs, one_reloc h f val (o + 8 * i) bs = apply_reloc h f loc (o + 8 * i) bs) ->
  all_relocs h f val rs o bs = apply_relocs h f loc rs o bs.
Proof.
  induction rs as [|n IH]; intros o bs H; [reflexivity|]. cbn [all_relocs apply_relocs].
  pose proof (H 0%nat ltac:(lia) bs) as H0. rewrite Nat.mul_0_r, Nat.add_0_r in H0. rewrite H0.
  destruct (apply_reloc h f loc o bs) as [bs'|]; [|reflexivity]. apply IH. intros i L b.
  replace (o + 8 + 8 * i)%nat with (o + 8 * S i)%nat by lia. apply H. lia.
Qed.
Lemma top_C83_assembled p h ins a pr f loc : Forall bytes_ok ins -> Forall (fun i => ~ In 0 i) ins -> session p ins a -> sources_are p ins pr ->
  fits (object_of pr) -> zlen (syms (object_of pr)) <= 2 ^ 24 -> asm_write_into p h a = (f, true) ->
  written_as h (object_of pr, loc) (f, loc) /\
  (forall n, exported (object_of pr) loc n = if is_global pr n then label_addr loc pr n else None) /\
  forall fs i k, nth_error fs i = Some (f, loc) -> link_in h fs i k = link h f loc k.
Proof.
  intros B N S0 Sr F Ls Wr.
  destruct (session_facts p ins a B S0) as (pr' & Sr' & C & W & Fi & Eo).
  assert (pr' = pr) by (eapply sources_are_fun; eassumption). subst pr'.
  unfold asm_write_into in Wr. rewrite Eo in Wr. pose proof (session_rng p ins pr Sr C F) as R.
  assert (Cn : clean_names (object_of pr)) by (eapply session_clean; eassumption).
  split; [|split; [apply exported_asm|]].
  { unfold written_as. cbn [fst snd]. repeat (split; [assumption|]). split; [reflexivity|]. exists p. exact Wr. }
  intros fs i k Hi. destruct (link_layout p h _ f R F Wr) as (L1 & L2 & L3 & L4 & L5 & L6).
  unfold link_in, link. rewrite Hi, L1, L3. cbv zeta.
  destruct ((1 <=? k) && (k <=? zlen (secs (object_of pr)))) eqn:K; [|reflexivity].
  destruct (nth_error (placed (object_of pr)) (Z.to_nat k - 1)) as [[[kk aa] s]|] eqn:Pl.
  2: { exfalso. apply nth_error_None in Pl. unfold placed in Pl. revert Pl.
       assert (Q : length (place 1 0 (secs (object_of pr))) = length (secs (object_of pr))).
       { generalize 1%nat 0. clear. induction (secs (object_of pr)) as [|s l IH]; intros k a; [reflexivity|]. cbn [place length]. now rewrite IH. }
       rewrite Q. unfold zlen in K. lia. }
  assert (Po : sect_pos 32 k = (pos_sections + 80 * (Z.to_nat k - 1))%nat) by reflexivity. rewrite Po.
  destruct (top_C25 p h _ f R F Wr _ _ _ _ Pl) as (x & Sa & _ & _ & _ & Sz & _ & St & _ & Sl).
  destruct (top_C27 p h _ f R F Cn Ls Wr _ _ _ _ Pl) as (x' & Sa' & Nr & Re).
  assert (Is : In s [text_sec (object_of pr); data_sec (object_of pr)]).
  { unfold placed in Pl. apply place_at in Pl. destruct Pl as [_ Pl]. apply nth_error_In in Pl. rewrite secs_of in Pl.
    exact (proj1 (proj1 (filter_In _ _ _) Pl)). }
  assert (Zf : os_zerofill s = false) by (destruct Is as [<-|[<-|[]]]; reflexivity).
  destruct Sa' as (_ & _ & _ & _ & _ & _ & _ & Ar & An & _). destruct Sa as (_ & _ & _ & _ & Az & Ao & _ & _ & _ & At & _).
  rewrite Ar, An, At, Nr, St, Zf. cbn [section_type_num Z.eqb]. unfold zlen at 1 2. rewrite Nat2Z.id.
  apply relocs_same. intros q Hq bs. destruct (nth_error (os_rels s) q) as [r|] eqn:Hr; [|apply nth_error_None in Hr; lia].
  destruct (Re q r Hr) as (j & Ra & Rl & Nj & Nf).
  assert (J : 0 <= Z.of_nat j < 2 ^ 24).
  { assert (j < length (names (object_of pr)))%nat by (apply nth_error_Some; congruence). unfold names in H. rewrite map_length in H. unfold zlen in Ls. lia. }
  assert (Pc : rl_pcrel r = false).
  { apply nth_error_In in Hr. destruct Is as [<-|[<-|[]]]; cbn [text_sec data_sec os_rels object_of o_text o_data sec_of bs_relocs] in Hr;
      apply in_map_iff in Hr; destruct Hr as ([[? ?] ?] & <- & _); reflexivity. }
  unfold names in Nj. rewrite nth_error_map_inv in Nj.
  destruct (nth_error (syms (object_of pr)) j) as [[[ky ay] y]|] eqn:Hy; [|discriminate].
  destruct (syms_of pr _ _ _ (nth_error_In _ _ Hy)) as (s' & n' & off' & _ & _ & _ & ->).
  pose proof (sym_place_at p h _ f loc R F Wr j ky ay _ _ _ Hy) as Sp.
  rewrite (one_reloc_at h f _ _ _ _ _ _ bs J Ra).
  rewrite (sym_value_at p h _ f loc (global_def h fs) (global_def h fs) R F Cn Wr (fun _ => eq_refl) j _ _ _ Hy).
  cbn [value_of]. rewrite Pc in *. rewrite (apply_reloc_at h f loc _ _ _ _ _ bs J Ra Sp). reflexivity.
Qed.

(** ** PC-relative references *)
Lemma top_C84_never h os fs : Forall2 (written_as h) os fs ->
  forall i o loc m k a s r, nth_error os i = Some (o, loc) -> nth_error (placed o) m = Some (k, a, s) ->
  In r (os_rels s) -> rl_pcrel r = true -> link_in h fs i (Z.of_nat k) = None.
Proof.
  intros Fo i o loc m k a s r Hi Hm I P. destruct (link_in h fs i (Z.of_nat k)) as [bs|] eqn:E; [|reflexivity]. exfalso.
  assert (N : link_in h fs i (Z.of_nat k) <> None) by congruence.
  apply (top_C83_linkable h os fs Fo i o loc m k a s Hi Hm) in N. pose proof (proj1 (Forall_forall _ _) N r I) as (_ & Q & _). congruence.
Qed.
Lemma top_C84_partial h os fs : Forall2 (written_as h) os fs ->
  forall i o loc m k a s, nth_error os i = Some (o, loc) -> nth_error (placed o) m = Some (k, a, s) ->
  Forall (fun r => meaning o loc (exported_by os) (rl_symbol r) <> None /\ 0 <= rl_addr r /\ rl_addr r + 2 ^ rl_len r <= os_size s) (os_rels s) ->
  (link_in h fs i (Z.of_nat k) <> None <-> Forall (fun r => rl_pcrel r = false) (os_rels s)).
Proof.
  intros Fo i o loc m k a s Hi Hm G. rewrite (top_C83_linkable h os fs Fo i o loc m k a s Hi Hm). rewrite !Forall_forall in *. split.
  - intros H r I. now apply H.
  - intros H r I. destruct (G r I) as (G1 & G2). split; [exact G1|]. split; [now apply H|exact G2].
Qed.
