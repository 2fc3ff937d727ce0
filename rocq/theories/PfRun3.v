(** Proofs about the assembler state machine: unambiguity, sources and sessions. *)
From Coq Require String.
Import String.StringSyntax.
From Coq Require Import ZifyBool ZifyNat.
From Verif Require Import Base Str X64 SpecX86 Obj Asm SpecAsm Assembler SpecRun
  PfStr PfTok PfX64 PfX86 PfX64Top PfBytes PfAsm PfData PfLine PfLine2 PfRun PfRun2.
Ltac Zify.zify_post_hook ::= Z.div_mod_to_equations.

(** ** A line is at most one statement *)

Lemma hw32_inj a b : hw32 a = hw32 b -> a = b.
Proof. destruct a, b; intro H; try reflexivity; discriminate H. Qed.
Lemma hw16_inj a b : hw16 a = hw16 b -> a = b.
Proof. destruct a, b; intro H; try reflexivity; discriminate H. Qed.
Lemma sext_inj n x y : inu n x -> inu n y -> sext n x = sext n y -> x = y.
Proof.
  unfold inu, sext. intros H H'. generalize (2 ^ (n - 1)). intro h.
  destruct (x <? h) eqn:A; destruct (y <? h) eqn:B; lia.
Qed.

Lemma emits_inj i j bs : instr_ok i -> instr_ok j -> instr_mem i = None -> instr_mem j = None ->
  emits i bs -> emits j bs -> i = j.
Proof.
  intros Oi Oj Mi Mj Ei Ej.
  destruct (top_C03_prefix i j bs bs [] Oi Oj Ei Ej ltac:(now rewrite app_nil_r)) as [_ C].
  destruct (emits_inv i bs Oi Ei) as [Bi _]. destruct (emits_inv j bs Oj Ej) as [Bj _]. rewrite Bi in Bj. clear Ei Ej Bi.
  apply (f_equal (@length Z)) in Bj.
  destruct i, j; cbn [instr_mem] in *; try discriminate; cbn [cpu_op instr_mem doc_op_with push_value instr_ok] in *;
    unfold cpu_op in C; cbn [instr_mem doc_op_with push_value] in C; try discriminate C;
    try (cbn [instr_bytes app length] in Bj; rewrite ?app_length, ?le_bytes_length in Bj; cbn in Bj; discriminate Bj);
    try reflexivity; injection C as C; try (injection C as C);
    repeat match goal with
    | H : hw64 _ = hw64 _ |- _ => apply hw64_inj in H; subst
    | H : hw32 _ = hw32 _ |- _ => apply hw32_inj in H; subst
    | H : hw16 _ = hw16 _ |- _ => apply hw16_inj in H; subst
    | H : sext ?n _ = sext ?n _ |- _ => apply sext_inj in H; [subst|assumption|assumption]
    end; try reflexivity; try congruence.
Qed.

Lemma mov_operands_ok p d o i : mov_operands p d o (StInstr i) -> instr_ok i /\ instr_mem i = None.
Proof.
  inversion 1; subst; (split; [|reflexivity]); cbn [instr_ok]; try exact I; unfold inu;
    match goal with H : expr_value _ _ _ |- _ => apply expr_value_rng in H end; lia.
Qed.
Lemma accepts_ok p s i : accepts p s (StInstr i) -> instr_ok i /\ instr_mem i = None.
Proof.
  inversion 1; subst; try (split; [exact I|reflexivity]).
  - eapply mov_operands_ok; eassumption.
  - split; [|reflexivity]. eapply number_rng; eassumption.
  - split; [|reflexivity]. eapply number_rng; eassumption.
Qed.

Lemma accepts_det p s st st' : accepts p s st -> accepts p s st' -> st = st'.
Proof.
  intros A A'. destruct (accepts_fun p s st st' A A') as (l & M & M').
  destruct l; cbn [means] in M, M'; try congruence.
  destruct st, st'; try contradiction; destruct M as [E R], M' as [E' R']; rewrite R in R'; try discriminate R'.
  - destruct (accepts_ok _ _ _ A) as [Ok1 N1]. destruct (accepts_ok _ _ _ A') as [Ok2 N2].
    f_equal. eapply emits_inj; eassumption.
  - injection R' as <-.
    assert (Q : MovRI64 dst 0 = MovRI64 dst0 0) by (eapply emits_inj; try eassumption; try reflexivity; (split; [apply Z.le_refl|reflexivity])).
    injection Q as <-. reflexivity.
  - injection R' as <-.
    assert (Q : MovRI32 dst 0 = MovRI32 dst0 0) by (eapply emits_inj; try eassumption; try reflexivity; (split; [apply Z.le_refl|reflexivity])).
    injection Q as <-. reflexivity.
Qed.
Lemma stmt_bytes_fun st a b : stmt_bytes st a -> stmt_bytes st b -> a = b.
Proof. destruct st; cbn; try congruence; apply emits_fun. Qed.
Lemma line_text_fun s a b : line_text s a -> line_text s b -> a = b.
Proof. intros H H'. apply line_text_iff in H, H'. congruence. Qed.
Lemma line_is_fun p raw x y : line_is p raw x -> line_is p raw y -> x = y.
Proof.
  destruct x as [st b], y as [st' b']. intros (s & body & E & S0 & T & A & B) (s' & body' & E' & S' & T' & A' & B').
  cbn [fst snd] in *. assert (s' = s) by (apply utf8_inj; congruence). subst s'.
  assert (body' = body) by (eapply line_text_fun; eassumption). subst body'.
  assert (st' = st) by (eapply accepts_det; eassumption). subst st'. f_equal. eapply stmt_bytes_fun; eassumption.
Qed.
Lemma lines_fun p ls pr pr' : Forall2 (line_is p) ls pr -> Forall2 (line_is p) ls pr' -> pr = pr'.
Proof.
  intro H. revert pr'. induction H as [|r x ls pr L F IH]; intros pr' H'; inversion H'; subst; [reflexivity|].
  f_equal; [eapply line_is_fun; eassumption|]. apply IH. assumption.
Qed.
Lemma source_lines_fun l a b : source_lines l a -> source_lines l b -> a = b.
Proof. intros H H'. apply raw_lines_iff in H, H'. congruence. Qed.
Lemma source_is_fun p input pr pr' : source_is p input pr -> source_is p input pr' -> pr = pr'.
Proof.
  intros (ls & L & F) (ls' & L' & F'). assert (ls' = ls) by (eapply source_lines_fun; eassumption). subst. eapply lines_fun; eassumption.
Qed.
Lemma sources_are_fun p ins pr pr' : sources_are p ins pr -> sources_are p ins pr' -> pr = pr'.
Proof.
  intros (prs & F & ->) (prs' & F' & ->). f_equal. revert prs' F'.
  induction F as [|i x ins prs H F IH]; intros prs' F'; inversion F'; subst; [reflexivity|].
  f_equal; [eapply source_is_fun; eassumption|]. apply IH. assumption.
Qed.
Lemma lines_wf p ls pr : Forall2 (line_is p) ls pr -> wf pr.
Proof. induction 1 as [|r x ls pr (s & b & _ & _ & _ & _ & B) F IH]; constructor; assumption. Qed.

(** ** All lines *)

Inductive all_res (p : profile) (pr : prog) (raws : list (list Z)) : outcome asm -> Prop :=
| ar_done prs a' : Forall2 (line_is p) raws prs -> rep (pr ++ prs) a' ->
    as_line a' = zlen (pr ++ prs) mod 2 ^ 32 -> all_res p pr raws (Done a')
| ar_fail good raw rest prs o : raws = good ++ raw :: rest -> Forall2 (line_is p) good prs ->
    bss_clean (pr ++ prs) -> raw_res p (pr ++ prs) raw o -> (forall a, o <> Done a) -> all_res p pr raws o.

Lemma exec_all_res p raws : forall pr a, rep pr a -> wf pr -> as_line a = zlen pr mod 2 ^ 32 ->
  Forall bytes_ok raws -> all_res p pr raws (exec_all p a raws).
Proof.
  induction raws as [|raw raws IH]; intros pr a R W L B; cbn [exec_all].
  - apply ar_done with (prs := []); rewrite ?app_nil_r; [constructor|assumption..].
  - inversion B as [|? ? B1 B2]; subst. pose proof (exec_raw_res p pr a raw R W L B1) as X.
    assert (C : bss_clean pr) by apply R.
    destruct (exec_raw p a raw) as [a1|c e|] eqn:E; cbn [obind].
    + inversion X as [a' x Lx Wx Rx Nx| | |]; subst.
      assert (W1 : wf (pr ++ [x])).
      { apply Forall_app. split; [exact W|]. constructor; [|constructor]. destruct Lx as (? & ? & _ & _ & _ & _ & Q). exact Q. }
      specialize (IH (pr ++ [x]) a1 Rx W1 Nx B2).
      destruct IH as [prs a' F R' L'|good bad rest prs o Eq F C' X' N].
      * apply ar_done with (prs := x :: prs); [constructor; assumption| |].
        -- now rewrite <- app_assoc in R'.
        -- now rewrite <- app_assoc in L'.
      * rewrite <- app_assoc in C', X'. eapply ar_fail with (good := raw :: good) (prs := x :: prs).
        -- rewrite Eq. reflexivity.
        -- constructor; assumption.
        -- exact C'.
        -- exact X'.
        -- exact N.
    + eapply ar_fail with (good := []) (prs := []); rewrite ?app_nil_r; try eassumption; try reflexivity; [constructor|discriminate].
    + eapply ar_fail with (good := []) (prs := []); rewrite ?app_nil_r; try eassumption; try reflexivity; [constructor|discriminate].
Qed.

(** ** Programs that are accepted *)

Lemma during_app s cur a b : during s cur (a ++ b) = during s cur a ++ during s (last_sect cur a) b.
Proof.
  revert cur. induction a as [|[st x] a IH]; intro cur; cbn [app during last_sect]; [reflexivity|].
  destruct st; rewrite ?IH, ?app_assoc; reflexivity.
Qed.
Lemma bss_clean_app a b : bss_clean (a ++ b) -> bss_clean a.
Proof. unfold bss_clean. rewrite during_app, Forall_app. tauto. Qed.
Lemma out_bytes_app a b : out_bytes (a ++ b) = out_bytes a ++ out_bytes b.
Proof. apply flat_map_app. Qed.
Lemma small_app a b : small (a ++ b) -> small a.
Proof.
  unfold small. rewrite !during_app, !out_bytes_app. unfold zlen. rewrite !app_length. lia.
Qed.
Lemma Forall2_split {A B} (P : A -> B -> Prop) x y r l : Forall2 P (x ++ y :: r) l ->
  exists lx ly lr, l = lx ++ ly :: lr /\ Forall2 P x lx /\ P y ly /\ Forall2 P r lr.
Proof.
  intro H. apply Forall2_app_inv_l in H. destruct H as (lx & l2 & F1 & F2 & ->).
  inversion F2; subst. eauto 8.
Qed.

Lemma exec_all_complete p raws pr prs a : rep pr a -> wf pr -> as_line a = zlen pr mod 2 ^ 32 ->
  Forall bytes_ok raws -> Forall2 (line_is p) raws prs -> bss_clean (pr ++ prs) -> size_ok p (pr ++ prs) ->
  exists a', exec_all p a raws = Done a'.
Proof.
  intros R W L B F C Z. pose proof (exec_all_res p raws pr a R W L B) as X.
  destruct X as [prs' a' _ _ _|good raw rest gp o Eq Fg _ X N]; [eauto|exfalso].
  rewrite Eq in F. apply Forall2_split in F. destruct F as (lx & ly & lr & -> & Fx & Fy & Fr).
  assert (lx = gp) by (eapply lines_fun; eassumption). subst lx.
  replace (pr ++ gp ++ ly :: lr) with (((pr ++ gp) ++ [ly]) ++ lr) in C, Z by (rewrite <- !app_assoc; reflexivity).
  pose proof (bss_clean_app _ _ C) as C1.
  destruct ly as [st bs]. apply bss_clean_snoc in C1. destruct C1 as [_ C1].
  assert (Hu : forall x, line_is p raw x -> x = (st, bs)) by (intros x Hx; eapply line_is_fun; eassumption).
  assert (Hw : forall st, stmt_reloc st <> None -> stmt_writes st = true) by (intros []; cbn; congruence).
  inversion X as [a' x Q1 Q2|x Q1 Q2 Q3|s msg Q1 Q2 Q3 Q4|Q]; subst.
  - now apply (N a').
  - apply Hu in Q1. subst x. cbn [fst] in *. rewrite (C1 Q2) in Q3. discriminate.
  - eapply Q4; eassumption.
  - destruct Q as [U|P M|s body d o ts P E S0 T Mb D Wd O|x Q1 Q2 Q3|x sy k Q1 P Q2 Q3 Q4].
    + destruct Fy as (s & body & E & S0 & _). now apply (U s).
    + destruct (Z P) as [_ Z2]. unfold zlen in *. rewrite !app_length in *. cbn [length] in *.
      assert (forall n, 0 <= n -> n < 2 ^ 32 -> n mod 2 ^ 32 = n) by (intros; apply Z.mod_small; lia).
      rewrite H in M by lia. lia.
    + destruct Fy as (s' & body' & E' & S' & T' & A' & _). assert (s' = s) by (apply utf8_inj; congruence). subst s'.
      assert (PP : line_parse p s = PPanic) by (apply line_panic; split; [exact P|]; exists body, d, o, ts; tauto).
      destruct (line_complete p s _ _ T' A') as (l & PO & _). congruence.
    + apply Hu in Q1. subst x. cbn [fst] in *. specialize (Hw _ Q3). rewrite (C1 Q2) in Hw. discriminate.
    + apply Hu in Q1. subst x. cbn [fst snd] in *. destruct (Z P) as [Z1 _]. apply small_app in Z1.
      assert (Ns : forall m, st <> StSection m) by (intros m ->; discriminate Q3).
      assert (S1 : zlen (out_bytes (during (last_sect SText (pr ++ gp)) SText ((pr ++ gp) ++ [(st, bs)]))) < 2 ^ 31)
        by (destruct Z1 as [Z1 Z2]; destruct (last_sect SText (pr ++ gp)); [exact Z1|exact Z2|congruence]).
      rewrite during_snoc in S1.
      replace (sect_eqb (last_sect SText (pr ++ gp)) (last_sect SText (pr ++ gp))) with true in S1
        by (symmetry; now apply sect_eqb_eq).
      replace (match st with StSection _ => [] | _ => [(st, bs)] end) with [(st, bs)] in S1
        by (destruct st; try reflexivity; now destruct (Ns s)).
      rewrite out_bytes_snoc in S1. unfold zlen in *. rewrite app_length in S1.
      assert (0 <= 2 ^ k) by (apply Z.pow_nonneg; lia).
      unfold as_i32 in Q4. rewrite Z.mod_small in Q4 by (change (2 ^ 32) with (2 * 2 ^ 31); lia). lia.
Qed.

(** ** Sessions *)

Lemma session_rep p ins a : session p ins a -> Forall bytes_ok ins ->
  exists pr, sources_are p ins pr /\ wf pr /\ rep pr a /\ assembled pr a.
Proof.
  induction 1 as [|ins a input a' S0 IH E]; intro B.
  - exists []. split; [exists []; split; [constructor|reflexivity]|]. split; [constructor|]. split; [apply rep_new|].
    repeat split.
  - apply Forall_app in B. destruct B as [B Bi]. inversion Bi as [|? ? Bi' _]; subst.
    destruct (IH B) as (pr & Sr & W & R & As).
    pose proof (exec_all_res p (raw_lines input) pr a R W (proj2 (proj2 (proj2 As))) (raw_lines_bytes _ Bi')) as X.
    unfold read_from in E. destruct (exec_all p a (raw_lines input)) as [a1|c e|]; try discriminate. cbn [obind] in E.
    injection E as <-. inversion X as [prs a2 F R1 L1|? ? ? ? ? ? ? ? ? N]; subst; [|now destruct (N a1)].
    exists (pr ++ prs). destruct (rep_mark _ _ R1) as (_ & R2 & A2). split.
    + destruct Sr as (ps & Fs & ->). exists (ps ++ [prs]). split.
      * apply Forall2_app; [exact Fs|]. constructor; [|constructor]. exists (raw_lines input). split; [apply raw_lines_spec|exact F].
      * rewrite concat_app. cbn [concat]. now rewrite app_nil_r.
    + split; [apply Forall_app; split; [exact W|eapply lines_wf; exact F]|]. split; [exact R2|now apply A2].
Qed.
Lemma sources_are_wf p ins pr : sources_are p ins pr -> wf pr.
Proof.
  intros (prs & F & ->). induction F as [|i x ins prs (ls & _ & H) F IH]; cbn [concat]; [constructor|].
  apply Forall_app. split; [eapply lines_wf; exact H|exact IH].
Qed.

Lemma top_session p ins a : Forall bytes_ok ins -> session p ins a ->
  exists pr, sources_are p ins pr /\ bss_clean pr /\ assembled pr a.
Proof. intros B S0. destruct (session_rep p ins a S0 B) as (pr & H1 & _ & R & H2). exists pr. repeat split; try apply H2; try exact H1; apply R. Qed.

Lemma sources_snoc p ins input pr : sources_are p (ins ++ [input]) pr ->
  exists pr1 prs, sources_are p ins pr1 /\ source_is p input prs /\ pr = pr1 ++ prs.
Proof.
  intros (ps & F & ->). apply Forall2_app_inv_l in F. destruct F as (p1 & p2 & F1 & F2 & ->).
  inversion F2 as [|? x ? l H F3]; subst. inversion F3; subst.
  exists (concat p1), x. split; [exists p1; split; [exact F1|reflexivity]|]. split; [exact H|].
  rewrite concat_app. cbn [concat]. now rewrite app_nil_r.
Qed.

Lemma top_session_complete p ins pr : Forall bytes_ok ins -> sources_are p ins pr -> bss_clean pr -> size_ok p pr ->
  exists a, session p ins a /\ assembled pr a.
Proof.
  revert pr. induction ins as [|input ins IH] using rev_ind; intros pr B Sr C Z.
  - destruct Sr as (ps & F & ->). inversion F; subst. exists asm_new. split; [constructor|]. repeat split.
  - destruct (sources_snoc _ _ _ _ Sr) as (pr1 & prs & S1 & (ls & Sl & F) & ->).
    apply Forall_app in B. destruct B as [B Bi]. inversion Bi as [|? ? Bi' _]; subst.
    assert (Z1 : size_ok p pr1).
    { intro P. destruct (Z P) as [Z1 Z2]. split; [eapply small_app; exact Z1|]. unfold zlen in *. rewrite app_length in Z2. lia. }
    destruct (IH pr1 B S1 (bss_clean_app _ _ C) Z1) as (a & Se & _).
    destruct (session_rep p ins a Se B) as (pr' & S1' & W & R & As).
    assert (pr' = pr1) by (eapply sources_are_fun; eassumption). subst pr'.
    apply raw_lines_iff in Sl. subst ls.
    destruct (exec_all_complete p (raw_lines input) pr1 prs a R W (proj2 (proj2 (proj2 As))) (raw_lines_bytes _ Bi') F C Z) as (a1 & E).
    exists (mark_ext a1). split.
    + apply ses_read with (a := a); [exact Se|]. unfold read_from. rewrite E. reflexivity.
    + pose proof (exec_all_res p (raw_lines input) pr1 a R W (proj2 (proj2 (proj2 As))) (raw_lines_bytes _ Bi')) as X.
      rewrite E in X. inversion X as [prs' a2 F' R1 L1|? ? ? ? ? ? ? ? ? N]; subst; [|now destruct (N a1)].
      assert (prs' = prs) by (eapply lines_fun; eassumption). subst prs'.
      apply (rep_mark _ _ R1). exact L1.
Qed.
