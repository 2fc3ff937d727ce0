(** Proofs from source text to object file. *)
From Coq Require String.
Import String.StringSyntax.
From Coq Require Import ZifyBool ZifyNat Sorted.
From Verif Require Import Base Str X64 SpecX86 Mac SpecMacho Obj SpecObj Asm SpecAsm Assembler SpecRun
  PfStr PfTok PfX64 PfX86 PfX64Top PfBytes PfObj PfObj2 PfObj3 PfObj4
  PfAsm PfData PfLine PfLine2 PfRun PfRun2 PfRun3 PfRun4 PfRun5.
Ltac Zify.zify_post_hook ::= Z.div_mod_to_equations.

(** ** Everything in a statement comes from its line *)

Lemma words_chars (P : Z -> Prop) s ts : words s ts -> Forall P s -> Forall (Forall P) ts.
Proof.
  induction 1 as [w B|w t rest ts B Wt Sb W IH]; intro F; [constructor|].
  apply Forall_app in F. destruct F as [_ F]. apply Forall_app in F. destruct F as [F1 F2]. constructor; auto.
Qed.
Definition item_chars (P : Z -> Prop) (it : item) : Prop := match it with IStr s => Forall P s | INum _ => True end.
Lemma items_chars P t its : items_text t its -> Forall P t -> Forall (item_chars P) its.
Proof.
  induction 1 as [|t n N|t n c w rest its N D B S0 It IH|s sep rest its Ns D R It IH]; intro F.
  - constructor.
  - repeat constructor.
  - apply Forall_app in F. destruct F as [_ F]. inversion F as [|? ? _ F']; subst. apply Forall_app in F'. destruct F' as [_ F'].
    constructor; [exact I|]. now apply IH.
  - inversion F as [|? ? _ F']; subst. apply Forall_app in F'. destruct F' as [F1 F2].
    inversion F2 as [|? ? _ F3]; subst. apply Forall_app in F3. destruct F3 as [_ F3].
    constructor; [exact F1|]. now apply IH.
Qed.
(** the names in a statement *)
Definition stmt_chars (P : Z -> Prop) (st : stmt) : Prop :=
  (forall n, stmt_label st = Some n -> Forall P n) /\ (forall n k, stmt_reloc st = Some (n, k) -> Forall P n).
Lemma accepts_chars P p s st : accepts p s st -> Forall P s -> stmt_chars P st.
Proof.
  intros A F. destruct A as [s W|s x W|s n W|s n k W N|w0 u c w1 text w2 its bs|w0 n c1 w1 u c2 w2 text w3 its bs|w0 w1 d w2 w3 o w4 st B0 B1 B2 B3 T B4 M|s r more W|s t n more W|s t n more W|s more W|s more W];
    try (split; [intros ? E; discriminate E|intros ? ? E; discriminate E]).
  - split; [|intros ? ? E; discriminate E]. intros m E. injection E as <-.
    apply words_chars with (P := P) in W; [|exact F]. inversion W; subst. apply Forall_app in H1. tauto.
  - split; [|intros ? ? E; discriminate E]. intros m E. injection E as <-.
    apply Forall_app in F. destruct F as [_ F]. apply Forall_app in F. tauto.
  - assert (Fo : Forall P o).
    { repeat (apply Forall_app in F; destruct F as [_ F]). inversion F as [|? ? _ F']; subst.
      apply Forall_app in F'. destruct F' as [_ F']. apply Forall_app in F'. tauto. }
    destruct M; (split; [intros ? E; discriminate E|intros ? ? E; try discriminate E; injection E as <- <-; exact Fo]).
Qed.
Lemma item_bytes_ok u it bs : item_chars ischar it -> item_bytes u it bs -> bytes_ok bs.
Proof.
  destruct it as [n|s]; cbn [item_chars item_bytes]; intro C.
  - tauto.
  - intros (n & -> & _). apply Forall_app. split; [now apply utf8_bytes|]. clear. induction n; constructor; [unfold isbyte; lia|assumption].
Qed.
Lemma items_bytes_ok u its bs : Forall (item_chars ischar) its -> items_bytes u its bs -> bytes_ok bs.
Proof.
  intros C (bss & F & ->). induction F as [|it b its bss H F IH]; cbn [concat]; [constructor|].
  inversion C; subst. apply Forall_app. split; [eapply item_bytes_ok; eassumption|apply IH; assumption].
Qed.
Lemma accepts_bytes p s st bs : accepts p s st -> str_ok s -> stmt_bytes st bs -> bytes_ok bs.
Proof.
  intros A F B.
  assert (E : forall i, accepts p s (StInstr i) -> emits i bs -> bytes_ok bs).
  { intros i Ai Ei. destruct (accepts_ok _ _ _ Ai) as [O _]. pose proof (top_C04 i O) as T.
    destruct Ei as (b & Eb & <-). rewrite Eb in T. apply T. }
  assert (E64 : forall r, emits (MovRI64 r 0) bs -> bytes_ok bs).
  { intros r (b & Eb & <-). pose proof (top_C04 (MovRI64 r 0) (conj (Z.le_refl 0) eq_refl)) as T. rewrite Eb in T. apply T. }
  assert (E32 : forall r, emits (MovRI32 r 0) bs -> bytes_ok bs).
  { intros r (b & Eb & <-). pose proof (top_C04 (MovRI32 r 0) (conj (Z.le_refl 0) eq_refl)) as T. rewrite Eb in T. apply T. }
  destruct st as [|x|n|n|l d|i|r n|r n]; cbn [stmt_bytes] in B; try (subst bs; constructor); eauto. subst d.
  inversion A; subst.
  - assert (Ft : Forall ischar text).
    { apply Forall_app in F. destruct F as [_ F]. apply Forall_app in F. destruct F as [_ F]. inversion F as [|? ? _ F']; subst.
      apply Forall_app in F'. destruct F' as [_ F']. apply Forall_app in F'. tauto. }
    eapply items_bytes_ok; [|eassumption]. eapply items_chars; eassumption.
  - assert (Ft : Forall ischar text).
    { apply Forall_app in F. destruct F as [_ F]. apply Forall_app in F. destruct F as [_ F]. inversion F as [|? ? _ F']; subst.
      apply Forall_app in F'. destruct F' as [_ F']. apply Forall_app in F'. destruct F' as [_ F']. inversion F' as [|? ? _ F2]; subst.
      apply Forall_app in F2. destruct F2 as [_ F2]. apply Forall_app in F2. tauto. }
    eapply items_bytes_ok; [|eassumption]. eapply items_chars; eassumption.
  - match goal with H : mov_operands _ _ _ (StData _ _) |- _ => inversion H end.
Qed.

(** ** Programs of sources *)

Definition stmt_fine (x : stmt * list Z) : Prop :=
  stmt_bytes (fst x) (snd x) /\ bytes_ok (snd x) /\ stmt_chars ischar (fst x).
Lemma line_fine p raw x : line_is p raw x -> stmt_fine x.
Proof.
  intros (s & body & E & S0 & T & A & B). destruct x as [st bs]. cbn [fst snd] in *.
  assert (F : str_ok body).
  { destruct T as [_ [->|(c & ->)]]; [exact S0|]. apply Forall_app in S0. tauto. }
  split; [exact B|]. split; [eapply accepts_bytes; eassumption|]. eapply accepts_chars; eassumption.
Qed.
Lemma utf8_char_zero c : ischar c -> In 0 (utf8_char c) -> c = 0.
Proof.
  intro H. unfold utf8_char. destruct (c <? 128) eqn:E1; cbn [In]; [lia|].
  destruct (c <? 2048) eqn:E2; cbn [In]; [unfold ischar in H; lia|].
  destruct (c <? 65536) eqn:E3; cbn [In]; unfold ischar in H; lia.
Qed.
Lemma utf8_zero s : In 0 s -> In 0 (utf8 s).
Proof. intro H. apply in_flat_map. exists 0. split; [exact H|]. left. reflexivity. Qed.
Lemma line_nonul p raw x : line_is p raw x -> ~ In 0 raw -> stmt_chars (fun c => c <> 0) (fst x).
Proof.
  intros (s & body & -> & S0 & T & A & B) N. eapply accepts_chars; [exact A|].
  apply Forall_forall. intros c I ->. apply N, utf8_zero.
  destruct T as [_ [->|(c & ->)]]; [exact I|]. apply in_app_iff. now left.
Qed.
Lemma sources_forall p ins pr (Q : list Z -> Prop) (R : stmt * list Z -> Prop) :
  (forall raw x, line_is p raw x -> Q raw -> R x) ->
  (forall input ls, source_lines input ls -> In input ins -> Forall Q ls) ->
  sources_are p ins pr -> Forall R pr.
Proof.
  intros H HQ (prs & F & ->). induction F as [|input x ins prs (ls & Sl & Fl) F IH]; cbn [concat]; [constructor|].
  apply Forall_app. split.
  - specialize (HQ input ls Sl (or_introl eq_refl)). revert HQ. clear -H Fl.
    induction Fl as [|r y ls l L F IH]; intro HQ; constructor; inversion HQ; subst; eauto.
  - apply IH. intros i l Sl' I. apply (HQ i l Sl'). now right.
Qed.
Lemma sources_fine p ins pr : sources_are p ins pr -> Forall stmt_fine pr.
Proof.
  apply (sources_forall p ins pr (fun _ => True)).
  - intros raw x L _. eapply line_fine; exact L.
  - intros input ls _ _. clear. induction ls; constructor; auto.
Qed.
Lemma source_lines_concat l ls : source_lines l ls -> concat ls = l.
Proof. intro H. apply raw_lines_iff in H. subst ls. apply raw_lines_concat. Qed.
Lemma sources_nonul p ins pr : Forall (fun i => ~ In 0 i) ins -> sources_are p ins pr ->
  Forall (fun x => stmt_chars (fun c => c <> 0) (fst x)) pr.
Proof.
  intro N. apply (sources_forall p ins pr (fun raw => ~ In 0 raw)).
  - apply line_nonul.
  - intros input ls Sl I. pose proof (proj1 (Forall_forall _ _) N input I) as Ni. rewrite <- (source_lines_concat _ _ Sl) in Ni.
    apply Forall_forall. intros r Ir Z0. apply Ni. apply in_concat. exists r. split; assumption.
Qed.

Lemma during_forall (Q : stmt * list Z -> Prop) s cur pr : Forall Q pr -> Forall Q (during s cur pr).
Proof. intro H. apply Forall_forall. intros x I. apply during_incl in I. exact (proj1 (Forall_forall _ _) H x I). Qed.
Lemma out_bytes_ok l : Forall stmt_fine l -> bytes_ok (out_bytes l).
Proof.
  induction 1 as [|[st bs] l (B & O & C) F IH]; [constructor|]. unfold out_bytes. cbn [flat_map snd] in *. apply Forall_app. split; assumption.
Qed.
Lemma out_labels_in l : forall off n o, In (n, o) (out_labels off l) ->
  exists x, In x l /\ stmt_label (fst x) = Some n /\ off <= o <= off + zlen (out_bytes l).
Proof.
  induction l as [|[st bs] l IH]; intros off n o I; cbn [out_labels] in I; [destruct I|].
  assert (Z0 : zlen (out_bytes ((st, bs) :: l)) = zlen bs + zlen (out_bytes l)).
  { unfold out_bytes, zlen. cbn [flat_map snd]. rewrite app_length. lia. }
  rewrite Z0. apply in_app_iff in I. destruct I as [I|I].
  - destruct (stmt_label st) eqn:E; [|destruct I]. destruct I as [I|[]]. injection I as -> ->.
    exists (st, bs). split; [left; reflexivity|]. split; [exact E|]. unfold zlen. lia.
  - destruct (IH _ _ _ I) as (x & Ix & Lx & B). exists x. split; [right; exact Ix|]. split; [exact Lx|]. unfold zlen in *. lia.
Qed.
Lemma out_relocs_stmt l : forall off n k o, In (n, k, o) (out_relocs off l) ->
  exists x, In x l /\ stmt_reloc (fst x) = Some (n, k).
Proof.
  induction l as [|[st bs] l IH]; intros off n k o I; cbn [out_relocs] in I; [destruct I|].
  apply in_app_iff in I. destruct I as [I|I].
  - destruct (stmt_reloc st) as [[s k']|] eqn:E; [|destruct I]. destruct I as [I|[]]. injection I as -> -> _.
    exists (st, bs). split; [left; reflexivity|exact E].
  - destruct (IH _ _ _ _ I) as (x & Ix & Lx). exists x. split; [right; exact Ix|exact Lx].
Qed.
Lemma as_i32_rng x : ini 32 (as_i32 x).
Proof. unfold ini, as_i32. change (32 - 1) with 31. change (2 ^ 32) with (2 * 2 ^ 31). pose proof (Z.mod_pos_bound (x + 2 ^ 31) (2 * 2 ^ 31) eq_refl). lia. Qed.
Lemma reloc_k st n k : stmt_reloc st = Some (n, k) -> k = 3 \/ k = 2.
Proof. destruct st; try discriminate; cbn; injection 1 as <- <-; auto. Qed.

Lemma object_of_rng pr : Forall stmt_fine pr -> bss_clean pr ->
  zlen (out_bytes (during SText SText pr)) < 2 ^ 64 -> zlen (out_bytes (during SData SText pr)) < 2 ^ 64 ->
  object_rng (object_of pr).
Proof.
  intros F C Zt Zd.
  assert (Sy : forall s, zlen (out_bytes (during s SText pr)) < 2 ^ 64 ->
    Forall symbol_rng (map (fun x => SyRef (fst x) (snd x) (is_global pr (fst x))) (out_labels 0 (during s SText pr)))).
  { intros s Z0. apply Forall_forall. intros y I. apply in_map_iff in I. destruct I as ([n o] & <- & I). cbn [fst snd].
    destruct (out_labels_in _ _ _ _ I) as (x & Ix & Lx & B). split.
    - apply during_incl in Ix. pose proof (proj1 (Forall_forall _ _) F x Ix) as (_ & _ & (H & _)). exact (H n Lx).
    - unfold inu. lia. }
  assert (Re : forall s, Forall oreloc_rng (bs_relocs (sec_of pr s))).
  { intro s. apply Forall_forall. intros r I. apply in_map_iff in I. destruct I as ([[n k] o] & <- & I). cbn [fst snd].
    destruct (out_relocs_stmt _ _ _ _ _ I) as (x & Ix & Rx). apply during_incl in Ix.
    pose proof (proj1 (Forall_forall _ _) F x Ix) as (_ & _ & (_ & H)). unfold oreloc_rng. cbn [rl_addr rl_symbol rl_len].
    split; [apply as_i32_rng|]. split; [exact (H n k Rx)|]. destruct (reloc_k _ _ _ Rx) as [->| ->]; unfold inu; lia. }
  unfold object_rng, object_of. cbn [o_text o_data o_bss bss_size bss_symbols].
  split; [apply out_bytes_ok, during_forall, F|]. split; [apply out_bytes_ok, during_forall, F|].
  split; [unfold inu; lia|]. split; [apply Sy, Zt|]. split; [apply Sy, Zd|].
  split; [|split; apply Re]. apply Sy.
  rewrite during_bss_bytes; [reflexivity|exact C|]. apply wf_during. clear -F. induction F as [|x l (B & _) F IH]; constructor; assumption.
Qed.

(** ** The sections of the object *)

Lemma secs_of pr : secs (object_of pr) =
  filter (fun s => 0 <? os_size s) [text_sec (object_of pr); data_sec (object_of pr)].
Proof.
  unfold secs. cbn [filter]. change (os_size (bss_sec (object_of pr))) with 0. cbn [Z.ltb Z.compare].
  destruct (0 <? os_size (text_sec (object_of pr))), (0 <? os_size (data_sec (object_of pr))); reflexivity.
Qed.
Definition osec_of (pr : prog) (s : sect) : osec :=
  match s with SText => text_sec (object_of pr) | SData => data_sec (object_of pr) | SBss => bss_sec (object_of pr) end.
Lemma placed_of pr s : s <> SBss -> out_bytes (during s SText pr) <> [] ->
  exists i a, nth_error (placed (object_of pr)) i = Some (S i, a, osec_of pr s).
Proof.
  intros N E. unfold placed. rewrite secs_of. cbn [filter].
  assert (P : forall l : list Z, l <> [] -> (0 <? zlen l) = true) by (intros [|? ?] H; [congruence|reflexivity]).
  destruct s; [| |congruence].
  - change (os_size (text_sec (object_of pr))) with (zlen (out_bytes (during SText SText pr))). rewrite (P _ E).
    exists 0%nat, 0. reflexivity.
  - change (os_size (data_sec (object_of pr))) with (zlen (out_bytes (during SData SText pr))). rewrite (P _ E).
    destruct (0 <? os_size (text_sec (object_of pr))).
    + exists 1%nat, (0 + os_size (text_sec (object_of pr))). reflexivity.
    + exists 0%nat, 0. reflexivity.
Qed.
Lemma placed_ord k a ss i k' a' s : nth_error (place k a ss) i = Some (k', a', s) -> k' = (k + i)%nat.
Proof.
  revert k a i. induction ss as [|x ss IH]; intros k a i H; cbn [place] in H; [destruct i; discriminate|].
  destruct i as [|i]; cbn [nth_error] in H; [injection H as <- _ _; lia|]. apply IH in H. lia.
Qed.
Lemma syms_in o i k a s y : nth_error (placed o) i = Some (k, a, s) -> In y (os_syms s) -> In (k, a, y) (syms o).
Proof.
  intros H I. unfold syms. apply in_flat_map. exists (k, a, s). split; [eapply nth_error_In; exact H|].
  apply in_map_iff. exists y. split; [reflexivity|exact I].
Qed.
Lemma syms_of pr k a y : In (k, a, y) (syms (object_of pr)) ->
  exists s n off, s <> SBss /\ out_bytes (during s SText pr) <> [] /\ In (n, off) (out_labels 0 (during s SText pr)) /\
    y = SyRef n off (is_global pr n).
Proof.
  intro H. unfold syms in H. apply in_flat_map in H. destruct H as ([[k' a'] s] & Ip & I).
  apply in_map_iff in I. destruct I as (y' & E & I). injection E as -> -> ->.
  assert (Is : In s (secs (object_of pr))).
  { unfold placed in Ip. revert Ip. generalize 1%nat, 0. induction (secs (object_of pr)) as [|x l IH]; intros n z Ip; [destruct Ip|].
    destruct Ip as [E|Ip]; [injection E as _ _ ->; now left|right; eapply IH; exact Ip]. }
  rewrite secs_of in Is. apply filter_In in Is. destruct Is as [Is Z0].
  assert (Q : exists s0, s0 <> SBss /\ s = osec_of pr s0) by (destruct Is as [<-|[<-|[]]]; [exists SText|exists SData]; split; try reflexivity; discriminate).
  destruct Q as (s0 & N0 & ->). destruct s0; [| |congruence]; cbn [osec_of text_sec data_sec os_syms os_size object_of o_text o_data sec_of bs_symbols bs_bytes] in *.
  - apply in_map_iff in I. destruct I as ([n off] & <- & I). exists SText, n, off. split; [discriminate|]. split; [|split; [exact I|reflexivity]].
    intro E. rewrite E in Z0. discriminate.
  - apply in_map_iff in I. destruct I as ([n off] & <- & I). exists SData, n, off. split; [discriminate|]. split; [|split; [exact I|reflexivity]].
    intro E. rewrite E in Z0. discriminate.
Qed.
Lemma names_of pr n : In n (names (object_of pr)) <->
  exists s off, s <> SBss /\ out_bytes (during s SText pr) <> [] /\ In (n, off) (out_labels 0 (during s SText pr)).
Proof.
  unfold names. split.
  - intro H. apply in_map_iff in H. destruct H as ([[k a] y] & E & I). subst n.
    destruct (syms_of pr k a y I) as (s & n & off & N & B & L & ->). exists s, off. auto.
  - intros (s & off & N & B & L). destruct (placed_of pr s N B) as (i & a & H).
    apply in_map_iff. exists (S i, a, SyRef n off (is_global pr n)). split; [reflexivity|].
    eapply syms_in; [exact H|]. destruct s; [| |congruence]; cbn [osec_of text_sec data_sec os_syms object_of o_text o_data sec_of bs_symbols];
      apply in_map_iff; exists (n, off); split; try reflexivity; exact L.
Qed.
Lemma fits_len pr : fits (object_of pr) ->
  zlen (out_bytes (during SText SText pr)) < 2 ^ 32 /\ zlen (out_bytes (during SData SText pr)) < 2 ^ 32.
Proof.
  intros (F & _). destruct F as [F _]. unfold pos_strs, pos_syms, pos_rels in F.
  assert (D : (data_len (object_of pr) <= round8 (data_len (object_of pr)))%nat).
  { unfold round8. pose proof (Nat.div_mod (data_len (object_of pr) + 7) 8 ltac:(discriminate)).
    pose proof (Nat.mod_upper_bound (data_len (object_of pr) + 7) 8 ltac:(discriminate)). lia. }
  assert (E : Z.of_nat (data_len (object_of pr)) = zlen (out_bytes (during SText SText pr)) + zlen (out_bytes (during SData SText pr))).
  { unfold data_len. rewrite secs_of. cbn [filter].
    change (os_size (text_sec (object_of pr))) with (zlen (out_bytes (during SText SText pr))).
    change (os_size (data_sec (object_of pr))) with (zlen (out_bytes (during SData SText pr))).
    assert (Z0 : forall l : list Z, (0 <? zlen l) = false -> l = []) by (intros [|? ?] H; [reflexivity|discriminate]).
    destruct (0 <? zlen (out_bytes (during SText SText pr))) eqn:Et; destruct (0 <? zlen (out_bytes (during SData SText pr))) eqn:Ed;
      cbn [flat_map text_sec data_sec os_bytes object_of o_text o_data sec_of bs_bytes app];
      try (rewrite (Z0 _ Et)); try (rewrite (Z0 _ Ed)); unfold zlen; rewrite ?app_length; cbn [length app]; rewrite ?app_nil_r; lia. }
  unfold zlen in *. lia.
Qed.

(** ** Which programs can be written *)

Lemma resolved_nonul n : Forall (fun c => c <> 0) n -> resolved n = n.
Proof.
  intro H. unfold resolved. replace (existsb (fun c => c =? 0) n) with false; [reflexivity|].
  symmetry. induction H as [|c n Hc H IH]; [reflexivity|]. cbn [existsb]. rewrite IH. lia.
Qed.
Lemma names_nonul pr : Forall (fun x => stmt_chars (fun c => c <> 0) (fst x)) pr ->
  Forall (Forall (fun c => c <> 0)) (names (object_of pr)).
Proof.
  intro F. apply Forall_forall. intros n I. apply names_of in I. destruct I as (s & off & _ & _ & L).
  destruct (out_labels_in _ _ _ _ L) as (x & Ix & Lx & _). apply during_incl in Ix.
  exact (proj1 (proj1 (Forall_forall _ _) F x Ix) n Lx).
Qed.
Lemma reloc_nonempty pr s n k o : wf pr -> In (n, k, o) (out_relocs 0 (during s SText pr)) ->
  out_bytes (during s SText pr) <> [].
Proof.
  intros W I E. destruct (out_relocs_in _ (wf_during s SText pr W) 0 n k o I) as (pre & post & Eb & _).
  destruct (out_relocs_stmt _ _ _ _ _ I) as (x & _ & R).
  rewrite E in Eb. destruct (reloc_k _ _ _ R) as [->| ->]; destruct pre; discriminate Eb.
Qed.
Lemma rels_of pr r : wf pr -> In r (rels (object_of pr)) <->
  exists s n k o, s <> SBss /\ In (n, k, o) (out_relocs 0 (during s SText pr)) /\ r = rel_of (n, k, o).
Proof.
  intro W. unfold rels. rewrite secs_of. split.
  - intro H. apply in_flat_map in H. destruct H as (x & Ix & Ir). apply filter_In in Ix. destruct Ix as [Ix _].
    destruct Ix as [<-|[<-|[]]]; apply in_map_iff in Ir; destruct Ir as ([[n k] o] & <- & I);
      [exists SText, n, k, o|exists SData, n, k, o]; (split; [discriminate|]); split; try exact I; reflexivity.
  - intros (s & n & k & o & N & I & ->). apply in_flat_map. exists (osec_of pr s). split.
    + apply filter_In. split; [destruct s; [left|right; left|congruence]; reflexivity|].
      pose proof (reloc_nonempty pr s n k o W I) as E.
      assert (P : forall l : list Z, l <> [] -> (0 <? zlen l) = true) by (intros [|? ?] H; [congruence|reflexivity]).
      destruct s; [exact (P _ E)|exact (P _ E)|congruence].
    + destruct s; [| |congruence]; (apply in_map_iff; exists (n, k, o); split; [reflexivity|exact I]).
Qed.

Lemma rep_iff pr : wf pr -> Forall (fun x => stmt_chars (fun c => c <> 0) (fst x)) pr ->
  (representable (object_of pr) <->
   (forall n, written_label pr n -> Forall (fun c => c < 128) n) /\ (forall n, refers pr n -> written_label pr n)).
Proof.
  intros W F. pose proof (names_nonul pr F) as Nn.
  assert (M : map resolved (names (object_of pr)) = names (object_of pr)).
  { clear -Nn. induction Nn as [|n l H Nn IH]; cbn [map]; [reflexivity|]. rewrite IH, resolved_nonul by exact H. reflexivity. }
  unfold representable. rewrite M. split; intros [H1 H2]; split.
  - intros n L. apply names_of in L. exact (proj1 (Forall_forall _ _) H1 n L).
  - intros n (s & k & off & N & I). apply names_of.
    assert (Ir : In (rel_of (n, k, off)) (rels (object_of pr))) by (apply rels_of; [exact W|]; exists s, n, k, off; auto).
    apply (proj1 (Forall_forall _ _) H2) in Ir. apply Ir.
  - apply Forall_forall. intros n I. apply H1. now apply names_of in I.
  - apply Forall_forall. intros r I. apply rels_of in I; [|exact W]. destruct I as (s & n & k & o & N & I & ->).
    cbn [rel_of rl_len rl_symbol fst snd]. split.
    + destruct (out_relocs_stmt _ _ _ _ _ I) as (x & _ & R). destruct (reloc_k _ _ _ R) as [->| ->]; lia.
    + apply names_of. apply H2. exists s, k, o. auto.
Qed.

(** all facts about a session that the file theorems need *)
Lemma session_facts p ins a : Forall bytes_ok ins -> session p ins a ->
  exists pr, sources_are p ins pr /\ bss_clean pr /\ wf pr /\ Forall stmt_fine pr /\ as_obj a = object_of pr.
Proof.
  intros B S0. destruct (top_session p ins a B S0) as (pr & Sr & C & As). exists pr. split; [exact Sr|]. split; [exact C|].
  pose proof (sources_are_wf _ _ _ Sr) as W. pose proof (sources_fine _ _ _ Sr) as F. split; [exact W|]. split; [exact F|]. apply As.
Qed.
Lemma session_rng p ins pr : sources_are p ins pr -> bss_clean pr -> fits (object_of pr) -> object_rng (object_of pr).
Proof.
  intros Sr C F. destruct (fits_len pr F) as [Lt Ld]. assert (2 ^ 32 < 2 ^ 64) by reflexivity.
  apply object_of_rng; [eapply sources_fine; exact Sr|exact C|lia|lia].
Qed.

Lemma top_C52_written p h ins a pr : Forall bytes_ok ins -> Forall (fun i => ~ In 0 i) ins -> session p ins a -> sources_are p ins pr ->
  fits (object_of pr) ->
  (snd (asm_write_into p h a) = true <->
   (forall n, written_label pr n -> Forall (fun c => c < 128) n) /\ (forall n, refers pr n -> written_label pr n)).
Proof.
  intros B N S0 Sr F. destruct (session_facts p ins a B S0) as (pr' & Sr' & C & W & Fi & Eo).
  assert (pr' = pr) by (eapply sources_are_fun; eassumption). subst pr'.
  unfold asm_write_into. rewrite Eo. rewrite (top_C30 p h (object_of pr)).
  - apply rep_iff; [exact W|]. eapply sources_nonul; eassumption.
  - eapply session_rng; eassumption.
  - exact F.
Qed.

Lemma nth_error_map_inv {A B} (f : A -> B) l i : nth_error (map f l) i = option_map f (nth_error l i).
Proof. revert i. induction l as [|a l IH]; intros [|i]; cbn; auto. Qed.
Lemma In_nth_error_ex {A} (l : list A) x : In x l -> exists i, nth_error l i = Some x.
Proof. apply In_nth_error. Qed.

Lemma top_C52 p h ins a pr f : Forall bytes_ok ins -> Forall (fun i => ~ In 0 i) ins -> session p ins a -> sources_are p ins pr ->
  fits (object_of pr) -> small pr -> zlen (syms (object_of pr)) <= 2 ^ 24 -> asm_write_into p h a = (f, true) ->
  forall s, s <> SBss -> let l := during s SText pr in out_bytes l <> [] ->
  exists i x, section_at h (pos_sections + 80 * i) f x /\ sc_sectname x = sec_name s /\ sc_segname x = seg_name s /\
    slice (Z.to_nat (sc_offset x)) (Z.to_nat (sc_size x)) f = out_bytes l /\ sc_nreloc x = zlen (out_relocs 0 l) /\
    (forall n off, In (n, off) (out_labels 0 l) ->
       exists j e, (j < length (syms (object_of pr)))%nat /\ nlist_at h (pos_syms (object_of pr) + 16 * j) f e /\
         until_nul (skipn (pos_strs (object_of pr) + Z.to_nat (nl_strx e)) f) = n /\
         nl_type e = Norm false Sect (is_global pr n) /\ nl_sect e = Z.of_nat (S i) /\ nl_value e = sc_addr x + off) /\
    (forall m n k off, nth_error (out_relocs 0 l) m = Some (n, k, off) ->
       exists j e, reloc_at h (Z.to_nat (sc_reloff x) + 8 * m) f
           {| r_address := off; r_symbolnum := Z.of_nat j; r_pcrel := false;
              r_length := reloc_len_of k; r_extern := true; r_type := 0 |} /\
         nlist_at h (pos_syms (object_of pr) + 16 * j) f e /\
         until_nul (skipn (pos_strs (object_of pr) + Z.to_nat (nl_strx e)) f) = n).
Proof.
  intros B Nu S0 Sr F Sm Ns Wr s N l E. destruct (session_facts p ins a B S0) as (pr' & Sr' & C & W & Fi & Eo).
  assert (pr' = pr) by (eapply sources_are_fun; eassumption). subst pr'.
  pose proof (session_rng _ _ _ Sr C F) as R. unfold asm_write_into in Wr. rewrite Eo in Wr.
  assert (Cl : clean_names (object_of pr)).
  { pose proof (names_nonul pr (sources_nonul _ _ _ Nu Sr)) as Nn.
    assert (Rp : representable (object_of pr)) by (apply (top_C30 p h _ R F); now rewrite Wr).
    destruct Rp as [As _]. apply Forall_forall. intros n I. pose proof (proj1 (Forall_forall _ _) Nn n I) as H1.
    pose proof (proj1 (Forall_forall _ _) As n I) as H2.
    assert (So : str_ok n).
    { apply names_of in I. destruct I as (s' & off & _ & _ & L). destruct (out_labels_in _ _ _ _ L) as (x & Ix & Lx & _).
      apply during_incl in Ix. exact (proj1 (proj2 (proj2 (proj1 (Forall_forall _ _) Fi x Ix))) n Lx). }
    apply Forall_forall. intros c Ic. pose proof (proj1 (Forall_forall _ _) H1 c Ic). pose proof (proj1 (Forall_forall _ _) H2 c Ic).
    pose proof (proj1 (Forall_forall _ _) So c Ic). unfold ischar in *. lia. }
  destruct (placed_of pr s N E) as (i & ad & P).
  destruct (top_C27 p h _ f R F Cl Ns Wr i _ _ _ P) as (x & Sx & Nr & Rx).
  destruct (top_C25 p h _ f R F Wr i _ _ _ P) as (x' & Sx' & Nm & Sg & Ad & Sz & _ & _ & _ & Sl).
  assert (Q : sc_reloff x = sc_reloff x' /\ sc_nreloc x = sc_nreloc x').
  { destruct Sx as (_ & _ & _ & _ & _ & _ & _ & H1 & H2 & _). destruct Sx' as (_ & _ & _ & _ & _ & _ & _ & H3 & H4 & _). split; congruence. }
  destruct Q as [Q1 Q2]. rewrite Q1 in Rx. rewrite Q2 in Nr. clear Sx Q1 Q2 x.
  assert (Os : os_name (osec_of pr s) = sec_name s /\ os_seg (osec_of pr s) = seg_name s /\ os_bytes (osec_of pr s) = out_bytes l /\
    os_zerofill (osec_of pr s) = false /\ os_rels (osec_of pr s) = map rel_of (out_relocs 0 l) /\
    os_syms (osec_of pr s) = map (ref_of pr) (out_labels 0 l)).
  { unfold l. destruct s; [| |congruence]; repeat split. }
  destruct Os as (O1 & O2 & O3 & O4 & O5 & O6). rewrite O4, O3 in Sl.
  exists i, x'. split; [exact Sx'|]. split; [congruence|]. split; [congruence|]. split; [exact Sl|].
  split; [rewrite Nr, O5; unfold zlen; now rewrite map_length|].
  assert (Nm' : forall j n, nth_error (names (object_of pr)) j = Some n ->
     (j < length (syms (object_of pr)))%nat /\
     exists k a0 y e, nth_error (syms (object_of pr)) j = Some (k, a0, y) /\ sym_name y = n /\ nlist_at h (pos_syms (object_of pr) + 16 * j) f e /\
       until_nul (skipn (pos_strs (object_of pr) + Z.to_nat (nl_strx e)) f) = n).
  { intros j n Hj. unfold names in Hj. rewrite nth_error_map_inv in Hj.
    destruct (nth_error (syms (object_of pr)) j) as [[[k a0] y]|] eqn:Ej; [|discriminate]. injection Hj as <-.
    split; [apply nth_error_Some; congruence|].
    destruct (top_C26_clean p h _ f R F Cl Wr j k a0 y Ej) as (e & He & Hn & _). exists k, a0, y, e. auto. }
  split.
  - intros n off I.
    assert (Iy : In (S i, ad, ref_of pr (n, off)) (syms (object_of pr))).
    { eapply syms_in; [exact P|]. rewrite O6. apply in_map. exact I. }
    apply In_nth_error in Iy. destruct Iy as (j & Ej).
    destruct (top_C26_clean p h _ f R F Cl Wr j _ _ _ Ej) as (e & He & Hn & Ht & Hs & _ & Hv). exists j, e.
    split; [apply nth_error_Some; congruence|]. split; [exact He|]. split; [exact Hn|]. split; [exact Ht|]. split; [exact Hs|].
    rewrite Hv, Ad. reflexivity.
  - intros m n k off I.
    assert (Ir : nth_error (os_rels (osec_of pr s)) m = Some (rel_of (n, k, off))) by (rewrite O5, nth_error_map_inv, I; reflexivity).
    destruct (Rx m _ Ir) as (j & Hr & Hl & Hn & _). destruct (Nm' j _ Hn) as (_ & k0 & a0 & y & e & _ & _ & He & Hu).
    exists j, e. split; [|split; [exact He|exact Hu]].
    cbn [rel_of rl_addr rl_pcrel rl_len fst snd] in Hr.
    replace (as_i32 off) with off in Hr; [exact Hr|]. symmetry. apply as_i32_small.
    apply nth_error_In in I. destruct (out_relocs_in _ (wf_during s SText pr W) 0 n k off I) as (pre & post & Eb & ->).
    assert (Z0 : zlen (out_bytes l) < 2 ^ 31) by (unfold l; destruct Sm; destruct s; [assumption|assumption|congruence]).
    fold l in Eb. rewrite Eb in Z0. unfold zlen in *. rewrite app_length in Z0. lia.
Qed.

(** the text section disassembles to the source's instructions *)
Lemma decode_stmts l fuel : Forall (fun x => stmt_bytes (fst x) (snd x)) l ->
  Forall (fun x => is_data (fst x) = false /\ (forall i, fst x = StInstr i -> instr_ok i)) l ->
  (length (out_bytes l) <= fuel)%nat -> decode_all fuel (out_bytes l) = Some (flat_map (fun x => stmt_ops (fst x)) l).
Proof.
  intros B D Fu.
  assert (Q : exists is bss, Forall instr_ok is /\ Forall2 emits is bss /\ concat bss = out_bytes l /\
     map cpu_op is = flat_map (fun x => stmt_ops (fst x)) l).
  { clear Fu. induction B as [|[st bs] l Hb B IH]; [exists [], []; repeat constructor|]. inversion D as [|? ? [Dh Di] D']; subst.
    destruct (IH D') as (is & bss & I1 & I2 & I3 & I4). unfold out_bytes in *. cbn [flat_map snd fst] in *.
    assert (Sk : bs = [] -> stmt_ops st = [] -> exists is bss, Forall instr_ok is /\ Forall2 emits is bss /\
       concat bss = bs ++ flat_map snd l /\ map cpu_op is = stmt_ops st ++ flat_map (fun x => stmt_ops (fst x)) l).
    { intros -> ->. exists is, bss. auto. }
    assert (Ad : forall i, instr_ok i -> emits i bs -> stmt_ops st = [cpu_op i] -> exists is bss, Forall instr_ok is /\ Forall2 emits is bss /\
       concat bss = bs ++ flat_map snd l /\ map cpu_op is = stmt_ops st ++ flat_map (fun x => stmt_ops (fst x)) l).
    { intros i Oi Ei ->. exists (i :: is), (bs :: bss). split; [constructor; assumption|]. split; [constructor; assumption|].
      cbn [concat map app]. split; congruence. }
    destruct st; cbn [stmt_bytes is_data] in *; try discriminate Dh; try (apply Sk; [exact Hb|reflexivity]).
    - eapply Ad; [apply Di; reflexivity|exact Hb|reflexivity].
    - eapply Ad; [|exact Hb|reflexivity]. split; [apply Z.le_refl|reflexivity].
    - eapply Ad; [|exact Hb|reflexivity]. split; [apply Z.le_refl|reflexivity]. }
  destruct Q as (is & bss & I1 & I2 & I3 & I4). rewrite <- I3, <- I4. apply top_C03; [assumption|assumption|]. now rewrite I3.
Qed.
Lemma line_instr_ok p raw x : line_is p raw x -> forall i, fst x = StInstr i -> instr_ok i.
Proof. intros (s & body & _ & _ & _ & A & _) i E. rewrite E in A. now apply accepts_ok in A. Qed.
Lemma sources_instr_ok p ins pr : sources_are p ins pr -> Forall (fun x => forall i, fst x = StInstr i -> instr_ok i) pr.
Proof.
  apply (sources_forall p ins pr (fun _ => True)).
  - intros raw x L _. eapply line_instr_ok; exact L.
  - intros input ls _ _. clear. induction ls; constructor; auto.
Qed.
Lemma top_C52_decode p ins pr s : sources_are p ins pr ->
  Forall (fun x => is_data (fst x) = false) (during s SText pr) ->
  decode_all (length (out_bytes (during s SText pr))) (out_bytes (during s SText pr)) =
    Some (flat_map (fun x => stmt_ops (fst x)) (during s SText pr)).
Proof.
  intros Sr D. apply decode_stmts; [apply wf_during; eapply sources_are_wf; exact Sr| |lia].
  pose proof (during_forall _ s SText pr (sources_instr_ok _ _ _ Sr)) as I.
  apply Forall_forall. intros x Ix. split; [exact (proj1 (Forall_forall _ _) D x Ix)|exact (proj1 (Forall_forall _ _) I x Ix)].
Qed.

(** ** C55 *)
Lemma top_C55 p h ins a pr n : Forall bytes_ok ins -> Forall (fun i => ~ In 0 i) ins -> session p ins a -> sources_are p ins pr ->
  fits (object_of pr) -> refers pr n -> ~ written_label pr n -> snd (asm_write_into p h a) = false.
Proof.
  intros B N S0 Sr F R W. destruct (snd (asm_write_into p h a)) eqn:E; [|reflexivity].
  apply (top_C52_written p h ins a pr B N S0 Sr F) in E. exfalso. apply W, E, R.
Qed.
Lemma top_C55_no_undef p ins a : Forall bytes_ok ins -> session p ins a ->
  forall n, ~ In (SyUndef n) (obj_symbols (as_obj a)).
Proof.
  intros B S0 n. destruct (session_facts p ins a B S0) as (pr & _ & _ & _ & _ & ->). unfold obj_symbols, object_of.
  cbn [o_text o_data o_bss sec_of bs_symbols bss_symbols]. intro I. apply in_app_iff in I. destruct I as [I|I].
  - apply in_map_iff in I. destruct I as (x & E & _). discriminate.
  - apply in_app_iff in I. destruct I as [I|I]; apply in_map_iff in I; destruct I as (x & E & _); discriminate.
Qed.
