(** Proofs about the assembler state machine: how every run ends. *)
From Coq Require String.
Import String.StringSyntax.
From Coq Require Import ZifyBool ZifyNat.
From Verif Require Import Base Str X64 SpecX86 Obj Asm SpecAsm Assembler SpecRun
  PfStr PfTok PfX64 PfX86 PfX64Top PfBytes PfAsm PfData PfLine PfLine2 PfDiag PfRun PfRun2 PfRun3.
Ltac Zify.zify_post_hook ::= Z.div_mod_to_equations.

(** ** Panics exactly *)

Lemma crashes_exact p pr a raw : rep pr a -> wf pr -> as_line a = zlen pr mod 2 ^ 32 -> bytes_ok raw ->
  crashes p pr raw -> exec_raw p a raw = Crash.
Proof.
  intros R W L B C. unfold exec_raw. destruct (from_utf8 raw) as [s|] eqn:U; [|reflexivity].
  destruct (from_utf8_inv raw s B U) as [Hs Er]. symmetry in Er.
  destruct (chku p 32 (as_line a + 1)) as [n|] eqn:Cn; cbn [olift obind]; [|reflexivity].
  assert (R' : rep pr (set_line a n)) by exact R.
  assert (Q : forall x, line_is p raw x -> exists l, line_parse p s = POk l /\ means (fst x) l).
  { intros x (s' & body & E & S' & T & A & _). assert (s' = s) by (apply utf8_inj; congruence). subst s'.
    eapply line_complete; eassumption. }
  destruct C as [N|P M|s' body d o ts P E S0 T Mb D Wd O|x Q1 Q2 Q3|x sy k Q1 P Q2 Q3 Q4].
  - now destruct (N s Hs).
  - exfalso. subst p. revert Cn. unfold chku, inub. destruct (andb _ _) eqn:E; [|discriminate]. intros _. lia.
  - assert (s' = s) by (apply utf8_inj; congruence). subst s'.
    assert (PP : line_parse p s = PPanic) by (apply line_panic; split; [exact P|]; exists body, d, o, ts; tauto).
    now rewrite PP.
  - destruct (Q x Q1) as (l & Pl & M). rewrite Pl. destruct x as [st bs]. cbn [fst] in *.
    assert (Hb : stmt_bytes st bs) by (destruct Q1 as (? & ? & _ & _ & _ & _ & Hb); exact Hb).
    assert (Hw : stmt_writes st = true) by (destruct st; cbn in Q3 |- *; congruence).
    pose proof (exec_line_res p pr (set_line a n) st l bs R' W M Hb) as X.
    destruct X as [a' X1 _ X2 X3|X1 X2 X3|X1 X2 X3|sy k X1 X2 X3 X4]; try reflexivity; exfalso.
    + rewrite (X1 Q2) in Hw. discriminate.
    + contradiction.
  - destruct (Q x Q1) as (l & Pl & M). rewrite Pl. destruct x as [st bs]. cbn [fst snd] in *.
    assert (Hb : stmt_bytes st bs) by (destruct Q1 as (? & ? & _ & _ & _ & _ & Hb); exact Hb).
    pose proof (exec_line_res p pr (set_line a n) st l bs R' W M Hb) as X.
    destruct X as [a' X1 X0 X2 X3|X1 X2 X3|X1 X2 X3|sy' k' X1 X2 X3 X4]; try reflexivity; exfalso.
    + specialize (X0 P _ _ Q3). lia.
    + contradiction.
Qed.

(** ** How a call of read_from ends *)

Lemma passes_lines p pr raws pr' : passes p pr raws pr' -> exists prs, pr' = pr ++ prs /\ Forall2 (line_is p) raws prs.
Proof.
  induction 1 as [pr|pr raw x raws pr' L N Wx F (prs & -> & F2)].
  - exists []. rewrite app_nil_r. split; [reflexivity|constructor].
  - exists (x :: prs). split; [now rewrite <- app_assoc|]. constructor; assumption.
Qed.
Lemma passes_fun p pr raws a b : passes p pr raws a -> passes p pr raws b -> a = b.
Proof.
  intros H H'. destruct (passes_lines _ _ _ _ H) as (x & -> & F). destruct (passes_lines _ _ _ _ H') as (y & -> & F').
  f_equal. eapply lines_fun; eassumption.
Qed.
Lemma exec_all_app p a x y : exec_all p a (x ++ y) = obind (exec_all p a x) (fun a' => exec_all p a' y).
Proof.
  revert a. induction x as [|r x IH]; intro a; cbn [app exec_all obind]; [reflexivity|].
  destruct (exec_raw p a r); cbn [obind]; [apply IH|reflexivity..].
Qed.

Definition st_ok (pr : prog) (a : asm) : Prop := rep pr a /\ wf pr /\ as_line a = zlen pr mod 2 ^ 32.
Lemma raw_wf p pr raw x : wf pr -> line_is p raw x -> wf (pr ++ [x]).
Proof.
  intros W (? & ? & _ & _ & _ & _ & Q). apply Forall_app. split; [exact W|]. constructor; [exact Q|constructor].
Qed.

Lemma exec_passes p raws : forall pr a pr', st_ok pr a -> Forall bytes_ok raws -> passes p pr raws pr' ->
  exists a', exec_all p a raws = Done a' /\ st_ok pr' a'.
Proof.
  induction raws as [|raw raws IH]; intros pr a pr' (R & W & L) B P; inversion P as [|? ? x ? ? Lx Nx Wx Px]; subst; cbn [exec_all].
  - exists a. split; [reflexivity|]. now split.
  - inversion B; subst. pose proof (exec_raw_res p pr a raw R W L H1) as X.
    inversion X as [a1 y Ly Wy Ry Ny Eo|y Ly Q2 Q3 Q4 Eo|s msg Q1 Q2 Q3 Q4 Eo|Q Eo]; subst.
    + assert (y = x) by (eapply line_is_fun; eassumption). subst y. cbn [obind].
      eapply IH; [|assumption|exact Px]. split; [exact Ry|]. split; [eapply raw_wf; eassumption|exact Ny].
    + assert (y = x) by (eapply line_is_fun; eassumption). subst y. rewrite (Wx Q2) in Q3. discriminate.
    + now destruct (Q4 x).
    + contradiction.
Qed.
Lemma exec_done p raws : forall pr a a', st_ok pr a -> Forall bytes_ok raws -> exec_all p a raws = Done a' ->
  exists pr', passes p pr raws pr' /\ st_ok pr' a'.
Proof.
  induction raws as [|raw raws IH]; intros pr a a' (R & W & L) B E; cbn [exec_all] in E.
  - injection E as <-. exists pr. split; [constructor|now split].
  - inversion B; subst. destruct (exec_raw p a raw) as [a1|c e|] eqn:Er; cbn [obind] in E; try discriminate.
    pose proof (exec_raw_res p pr a raw R W L H1) as X. rewrite Er in X. inversion X as [a2 y Ly Wy Ry Ny| | |]; subst.
    destruct (IH (pr ++ [y]) a1 a') as (pr' & P & S0); [|assumption|exact E|].
    + split; [exact Ry|]. split; [eapply raw_wf; eassumption|exact Ny].
    + exists pr'. split; [|exact S0]. apply pa_cons with (x := y); try assumption.
      intro C. rewrite (crashes_exact p pr a raw R W L H1 C) in Er. discriminate.
Qed.
Lemma exec_exit p raws : forall pr a c e, st_ok pr a -> Forall bytes_ok raws -> exec_all p a raws = Exit c e ->
  c = 1 /\ exists good bad rest pr', raws = good ++ bad :: rest /\ passes p pr good pr' /\ ends_with_error p pr' bad e.
Proof.
  induction raws as [|raw raws IH]; intros pr a c e (R & W & L) B E; cbn [exec_all] in E; [discriminate|].
  inversion B; subst. pose proof (exec_raw_res p pr a raw R W L H1) as X.
  assert (NC : exec_raw p a raw <> Crash -> ~ crashes p pr raw) by (intros N C; apply N; now apply (crashes_exact p pr)).
  destruct (exec_raw p a raw) as [a1|c1 e1|] eqn:Er; cbn [obind] in E; try discriminate.
  - inversion X as [a2 y Ly Wy Ry Ny| | |]; subst.
    destruct (IH (pr ++ [y]) a1 c e) as (-> & good & bad & rest & pr' & -> & P & Ee); [|assumption|exact E|].
    + split; [exact Ry|]. split; [eapply raw_wf; eassumption|exact Ny].
    + split; [reflexivity|]. exists (raw :: good), bad, rest, pr'. split; [reflexivity|]. split; [|exact Ee].
      apply pa_cons with (x := y); try assumption. apply NC. discriminate.
  - injection E as -> ->.
    inversion X as [|y Ly Q2 Q3 Q4|s msg Q1 Q2 Q3 Q4|]; subst; (split; [reflexivity|]).
    + exists [], raw, raws, pr. split; [reflexivity|]. split; [constructor|]. split; [apply NC; discriminate|]. left. exists y. auto.
    + exists [], (utf8 s), raws, pr. split; [reflexivity|]. split; [constructor|]. split; [apply NC; discriminate|].
      right. split; [exact Q4|]. exists s, msg. split; [reflexivity|]. split; [exact Q2|]. split; [apply top_C67, Q3|].
      exists (show_u64 ((zlen pr + 1) mod 2 ^ 32)). split; [|reflexivity]. apply show_decimal.
      pose proof (Z.mod_pos_bound (zlen pr + 1) (2 ^ 32) eq_refl) as M. split; [lia|]. eapply Z.lt_trans; [apply M|]. reflexivity.
Qed.
Lemma exec_crash p raws : forall pr a, st_ok pr a -> Forall bytes_ok raws -> exec_all p a raws = Crash ->
  exists good bad rest pr', raws = good ++ bad :: rest /\ passes p pr good pr' /\ crashes p pr' bad.
Proof.
  induction raws as [|raw raws IH]; intros pr a (R & W & L) B E; cbn [exec_all] in E; [discriminate|].
  inversion B; subst. pose proof (exec_raw_res p pr a raw R W L H1) as X.
  destruct (exec_raw p a raw) as [a1|c1 e1|] eqn:Er; cbn [obind] in E; try discriminate.
  - inversion X as [a2 y Ly Wy Ry Ny| | |]; subst.
    destruct (IH (pr ++ [y]) a1) as (good & bad & rest & pr' & -> & P & Ee); [|assumption|exact E|].
    + split; [exact Ry|]. split; [eapply raw_wf; eassumption|exact Ny].
    + exists (raw :: good), bad, rest, pr'. split; [reflexivity|]. split; [|exact Ee].
      apply pa_cons with (x := y); try assumption. intro C. rewrite (crashes_exact p pr a raw R W L H1 C) in Er. discriminate.
  - inversion X; subst. exists [], raw, raws, pr. split; [reflexivity|]. split; [constructor|assumption].
Qed.
Lemma ends_fun p pr bad e e' : ends_with_error p pr bad e -> ends_with_error p pr bad e' -> e = e'.
Proof.
  intros [_ H] [_ H']. destruct H as [(x & Lx & _ & _ & ->)|(N & s & m & E & S0 & P & ds & D & ->)];
    destruct H' as [(x' & Lx' & _ & _ & ->)|(N' & s' & m' & E' & S' & P' & ds' & D' & ->)].
  - reflexivity.
  - now destruct (N' x).
  - now destruct (N x').
  - assert (s' = s) by (apply utf8_inj; congruence). subst s'. assert (m' = m) by (eapply line_reports_fun; eassumption). subst m'.
    assert (ds' = ds) by (eapply decimal_fun; eassumption). subst ds'. reflexivity.
Qed.

(** a failing line after good ones *)
Lemma exec_fail p raws good bad rest pr a pr' : st_ok pr a -> Forall bytes_ok raws -> raws = good ++ bad :: rest ->
  passes p pr good pr' ->
  (crashes p pr' bad -> exec_all p a raws = Crash) /\
  (forall e, ends_with_error p pr' bad e -> exec_all p a raws = Exit 1 e).
Proof.
  intros S0 B -> P. apply Forall_app in B. destruct B as [Bg Bb]. inversion Bb as [|? ? Bb' Br]; subst.
  destruct (exec_passes p good pr a pr' S0 Bg P) as (a1 & E & (R & W & L)).
  rewrite exec_all_app, E. cbn [obind exec_all]. split.
  - intro C. rewrite (crashes_exact p pr' a1 bad R W L Bb' C). reflexivity.
  - intros e Ee0. pose proof Ee0 as (NC & H). pose proof (exec_raw_res p pr' a1 bad R W L Bb') as X.
    destruct (exec_raw p a1 bad) as [a2|c2 e2|] eqn:Er; cbn [obind].
    + exfalso. inversion X as [? y Ly Wy Ry Ny| | |]; subst. destruct H as [(x & Lx & Ls & Wx & _)|(N & _)].
      * assert (y = x) by (eapply line_is_fun; eassumption). subst y. rewrite (Wy Ls) in Wx. discriminate.
      * now destruct (N y).
    + assert (Eb : exec_all p a1 [bad] = Exit c2 e2) by (cbn [exec_all]; now rewrite Er).
      destruct (exec_exit p [bad] pr' a1 c2 e2 (conj R (conj W L)) (Forall_cons _ Bb' (Forall_nil _)) Eb)
        as (-> & g & b & r & q & Eq & Pq & Ee).
      destruct g as [|? [|? ?]]; [|discriminate|discriminate].
      injection Eq as <- _. inversion Pq; subst. f_equal. eapply ends_fun; eassumption.
    + exfalso. inversion X; subst. contradiction.
Qed.
