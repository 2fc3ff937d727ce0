(** The parsers of at-asm called on their own, against SpecDiag.v. *)
From Coq Require String.
Import String.StringSyntax.
From Verif Require Import Base Str X64 SpecX86 Obj Asm SpecAsm SpecDiag PfX64Top PfStr PfBytes PfTok PfAsm PfData PfLine PfLine2 PfDiag.

Lemma reg_parse_err {A} bits (o : option A) s m :
  reg_parse bits o s = PErr m <-> o = None /\ m = lit "error: invalid " ++ bits ++ lit "bit register : " ++ s.
Proof. unfold reg_parse. destruct o; split; try discriminate; [intros [H _]; discriminate H|intro H; injection H as <-; tauto|intros [_ ->]; reflexivity]. Qed.
Lemma top_C68_reg s m :
  (reg64_parse s = PErr m <-> (forall r, s <> name64 r) /\ m = lit "error: invalid 64bit register : " ++ s) /\
  (reg32_parse s = PErr m <-> (forall r, s <> name32 r) /\ m = lit "error: invalid 32bit register : " ++ s) /\
  (reg16_parse s = PErr m <-> (forall r, s <> name16 r) /\ m = lit "error: invalid 16bit register : " ++ s).
Proof.
  unfold reg64_parse, reg32_parse, reg16_parse. rewrite !reg_parse_err.
  rewrite (try_none reg64_try name64 s reg64_try_iff), (try_none reg32_try name32 s reg32_try_iff),
    (try_none reg16_try name16 s reg16_try_iff). cbn [app lit]. split; [reflexivity|split; reflexivity].
Qed.
Lemma top_C68_num bits name s : In (bits, name) [(64, lit "u64"); (32, lit "u32"); (16, lit "u16"); (8, lit "u8")] ->
  (forall n, num_parse bits s = POk n <-> number bits s n) /\
  (forall m, num_parse bits s = PErr m <-> not_number bits s /\ m = s ++ lit " is invalid " ++ name) /\
  num_parse bits s <> PPanic.
Proof.
  intro I. assert (E : uint_name bits = name) by (cbn [In] in I; destruct I as [I|[I|[I|[I|[]]]]]; injection I as <- <-; reflexivity).
  unfold num_parse. rewrite E. destruct (num_try bits s) as [n|] eqn:N.
  - split; [|split; [|discriminate]].
    + intro k. rewrite <- num_try_iff, N. split; intro H; [injection H as <-; reflexivity|injection H as <-; reflexivity].
    + intro m. split; [discriminate|]. intros [X _]. apply not_number_try in X. congruence.
  - split; [|split; [|discriminate]].
    + intro k. rewrite <- num_try_iff, N. split; discriminate.
    + intro m. rewrite <- not_number_try. split; [intro H; injection H as <-; tauto|intros [_ ->]; reflexivity].
Qed.

(** a wrapper `try_parse_str(s)?`, then an error for [None] *)
Lemma wrap_ok {A} (m : presult (option A)) e x :
  pbind m (fun o => match o with Some x => POk x | None => PErr e end) = POk x <-> m = POk (Some x).
Proof. destruct m as [[y|]|e'|]; cbn [pbind]; split; intro H; try discriminate; injection H as <-; reflexivity. Qed.
Lemma wrap_err {A} (m : presult (option A)) e e' :
  pbind m (fun o => match o with Some x => POk x | None => PErr e end) = PErr e' <-> m = PErr e' \/ m = POk None /\ e' = e.
Proof.
  destruct m as [[y|]|k|]; cbn [pbind]; split; intro H; try discriminate; try (destruct H as [H|[H _]]; discriminate).
  - injection H as <-. auto.
  - destruct H as [H|[_ ->]]; [discriminate H|reflexivity].
  - injection H as <-. auto.
  - destruct H as [H|[H _]]; [injection H as <-; reflexivity|discriminate H].
Qed.
Lemma wrap_panic {A} (m : presult (option A)) e :
  pbind m (fun o => match o with Some x => POk x | None => PErr e end) = PPanic <-> m = PPanic.
Proof. destruct m as [[y|]|k|]; cbn [pbind]; split; intro H; try discriminate; reflexivity. Qed.

Lemma top_C68_expr p s :
  (forall n, expr_parse p s = POk n <-> exists ts, words s ts /\ expr_value p ts n) /\
  (forall m, expr_parse p s = PErr m <->
     (exists ts, words s ts /\ expr_error ts m) \/ not_expr s /\ m = lit "invalid expr format") /\
  (expr_parse p s = PPanic <-> p = Debug /\ exists ts, words s ts /\ expr_overflow ts).
Proof.
  unfold expr_parse. split; [|split].
  - intro n. rewrite wrap_ok. apply expr_some.
  - intro m. rewrite wrap_err, expr_err, expr_none. reflexivity.
  - rewrite wrap_panic. apply expr_panic.
Qed.
Lemma top_C68_section s :
  (forall x, section_parse s = POk x <-> words s [lit "section"; sect_name x]) /\
  (forall m, section_parse s = PErr m <-> section_error s m) /\ section_parse s <> PPanic.
Proof.
  unfold section_parse. split; [|split].
  - intro x. rewrite wrap_ok. apply section_some.
  - intro m. rewrite wrap_err. split.
    + intros [H|[H ->]].
      * pose proof (words_split s) as W. destruct (split_whitespace s) as [|t ts] eqn:Ew.
        { unfold section_try in H. rewrite Ew in H. discriminate H. }
        destruct (list_eq_dec Z.eq_dec t (lit "section")) as [->|N].
        2:{ rewrite (section_other s t ts W N) in H. discriminate H. }
        apply (section_err s m ts W) in H. destruct H as [(-> & ->)|[(n & l & -> & N & ->)|(x & t & l & -> & ->)]].
        -- now apply se_none.
        -- now apply (se_name s n l).
        -- now apply (se_end s x t l).
      * pose proof (words_split s) as W. apply (se_other s _ W). intros l E. rewrite E in W. exact (proj1 (section_none s) H l W).
    + intro E. destruct E as [s W|s n ts W N|s x t ts W|s ts W N].
      * left. apply (section_err s _ _ W). left. auto.
      * left. apply (section_err s _ _ W). right. left. eauto.
      * left. apply (section_err s _ _ W). right. right. eauto 6.
      * right. split; [|reflexivity]. apply section_none. intros l W'. exact (N l (words_fun _ _ _ W W')).
  - rewrite wrap_panic. apply section_no_panic.
Qed.
Lemma top_C68_global s :
  (forall n, global_parse s = POk n <-> words s [lit "global"; n]) /\
  (forall m, global_parse s = PErr m <-> global_error s m) /\ global_parse s <> PPanic.
Proof.
  unfold global_parse. split; [|split].
  - intro x. rewrite wrap_ok. apply global_some.
  - intro m. rewrite wrap_err. split.
    + intros [H|[H ->]].
      * pose proof (words_split s) as W. destruct (split_whitespace s) as [|t ts] eqn:Ew.
        { unfold global_try in H. rewrite Ew in H. discriminate H. }
        destruct (list_eq_dec Z.eq_dec t (lit "global")) as [->|N].
        2:{ rewrite (global_other s t ts W N) in H. discriminate H. }
        apply (global_err s m ts W) in H. destruct H as [(-> & ->)|(n & t & l & -> & ->)].
        -- now apply ge_none.
        -- now apply (ge_end s n t l).
      * pose proof (words_split s) as W. apply (ge_other s _ W). intros l E. rewrite E in W. exact (proj1 (global_none s) H l W).
    + intro E. destruct E as [s W|s n t ts W|s ts W N].
      * left. apply (global_err s _ _ W). left. auto.
      * left. apply (global_err s _ _ W). right. eauto 6.
      * right. split; [|reflexivity]. apply global_none. intros l W'. exact (N l (words_fun _ _ _ W W')).
  - rewrite wrap_panic. apply global_no_panic.
Qed.
Lemma top_C68_data s :
  (forall d, data_parse s = POk d <->
     exists u text its, data_text s (da_label d) u text /\ items_text text its /\ items_bytes u its (da_bytes d)) /\
  (forall m, data_parse s = PErr m <-> data_error s m) /\ data_parse s <> PPanic.
Proof.
  unfold data_parse. split; [|split].
  - intro d. rewrite wrap_ok, data_try_some. unfold data_text.
    split; intros (u & text & its & H); exists u, text, its; tauto.
  - intro m. rewrite wrap_err, data_try_err, data_try_none. split.
    + intros [(l & u & text & S & E)|[S ->]].
      * apply line_parts in S. exact (de_items s l u text m S E).
      * apply de_other. intros l u text T. apply line_parts in T. congruence.
    + intro E. destruct E as [s l u text e T E|s N].
      * left. exists l, u, text. split; [now apply line_parts|exact E].
      * right. split; [|reflexivity]. destruct (split_parts s) as [[[l u] text]|] eqn:S; [|reflexivity].
        exfalso. apply line_parts in S. exact (N _ _ _ S).
  - rewrite wrap_panic. apply data_try_no_panic.
Qed.

(** ** Instructions *)

Lemma mov_text_words s d o : mov_body s d o -> is_reg_name d -> exists ts, words s (lit "mov" :: ts).
Proof.
  intros B R. pose proof (proj1 (plain_spec d (is_reg_plain d R))) as W.
  destruct (mov_body_words s d o B W) as (t & ts & H & _). eauto.
Qed.
Lemma inst_parse_sound p s i : inst_parse p s = POk i -> exists st, inst_text p s st /\ means st (LInst i).
Proof.
  unfold inst_parse. rewrite wrap_ok. unfold inst_try. pose proof (words_split s) as W.
  destruct (split_whitespace s) as [|t0 ts]; [congruence|].
  destruct (str_eqb t0 (lit "mov")) eqn:E1.
  { intro H. apply pbind_ok in H. destruct H as (x & H & E). injection E as ->.
    destruct (mov_parse_inv p s) as [[e Ee]|(d & o & B)]; [congruence|].
    rewrite (mov_parse_body p s d o B) in H. apply mov_ops_sound in H. destruct H as (st & M & Me).
    exists st. split; [eapply in_mov; eassumption|exact Me]. }
  destruct (str_eqb t0 (lit "push")) eqn:E2.
  { apply str_eqb_eq in E2. subst t0. intro H. apply pbind_ok in H. destruct H as (x & H & E). injection E as ->.
    unfold push_parse in H. rewrite (proj2 (split_words _ _) W), str_eqb_refl in H.
    destruct ts as [|o ts]; [congruence|].
    destruct (reg64_try o) as [r|] eqn:R.
    { apply reg64_try_iff in R. subst o. apply inst_new_inv in H. exists (StInstr (PushR64 r)).
      split; [eapply in_push_reg; exact W|cbn; tauto]. }
    destruct (num_try 8 o) as [n|] eqn:E8.
    { apply num_try_iff in E8. apply inst_new_inv in H. exists (StInstr (PushI8 n)).
      split; [eapply in_push8; eassumption|cbn; tauto]. }
    destruct (num_try 32 o) as [n|] eqn:E32; [|congruence].
    apply num_try_iff in E32. apply inst_new_inv in H. exists (StInstr (PushI32 n)).
    split; [|cbn; tauto]. eapply in_push32; [exact W|exact E32|].
    destruct (Z_lt_le_dec n 256) as [L|L]; [|exact L]. exfalso.
    apply (proj1 (num_try_none 8 o) E8 n). eapply number_bits; [exact E32|exact L]. }
  destruct (str_eqb t0 (lit "ret")) eqn:E3.
  { intro H. apply pbind_ok in H. destruct H as (x & H & E). injection E as ->. apply inst_new_inv in H.
    apply str_eqb_eq in E3. subst t0. exists (StInstr Ret). split; [eapply in_ret; exact W|cbn; tauto]. }
  destruct (str_eqb t0 (lit "syscall")) eqn:E4; [|congruence].
  intro H. apply pbind_ok in H. destruct H as (x & H & E). injection E as ->. apply inst_new_inv in H.
  apply str_eqb_eq in E4. subst t0. exists (StInstr Syscall). split; [eapply in_syscall; exact W|cbn; tauto].
Qed.
Lemma inst_parse_complete p s st : inst_text p s st -> exists i, inst_parse p s = POk i /\ means st (LInst i).
Proof.
  intro T. assert (G : exists i, inst_try p s = POk (Some i) /\ means st (LInst i)).
  2:{ destruct G as (i & E & M). exists i. split; [unfold inst_parse; now apply wrap_ok|exact M]. }
  destruct T as [s d o st B M|s r more W|s t n more W N|s t n more W N L|s more W|s more W].
  - destruct (mov_ops_complete p d o st M) as (i & E & Me). exists i. split; [|exact Me].
    destruct (mov_text_words s d o B (mov_operands_reg _ _ _ _ M)) as (ts & W).
    unfold inst_try. rewrite (proj2 (split_words _ _) W), str_eqb_refl, (mov_parse_body p s d o B), E. reflexivity.
  - destruct (inst_new_means (PushR64 r) I eq_refl) as (x & E & Me). exists x. split; [|exact Me].
    unfold inst_try, push_parse. rewrite (proj2 (split_words _ _) W). change (str_eqb (lit "push") (lit "mov")) with false.
    rewrite str_eqb_refl, t64, E. reflexivity.
  - pose proof (number_rng _ _ _ N) as Rg. destruct (inst_new_means (PushI8 n)) as (x & E & Me); [exact Rg|reflexivity|].
    exists x. split; [|exact Me].
    unfold inst_try, push_parse. rewrite (proj2 (split_words _ _) W). change (str_eqb (lit "push") (lit "mov")) with false.
    rewrite str_eqb_refl. rewrite (proj2 (try_none reg64_try name64 t reg64_try_iff)) by (intros r ->; exact (number_not_name _ _ _ N)).
    rewrite (proj2 (num_try_iff 8 t n) N), E. reflexivity.
  - pose proof (number_rng _ _ _ N) as Rg. destruct (inst_new_means (PushI32 n)) as (x & E & Me); [exact Rg|reflexivity|].
    exists x. split; [|exact Me].
    unfold inst_try, push_parse. rewrite (proj2 (split_words _ _) W). change (str_eqb (lit "push") (lit "mov")) with false.
    rewrite str_eqb_refl. rewrite (proj2 (try_none reg64_try name64 t reg64_try_iff)) by (intros r ->; exact (number_not_name _ _ _ N)).
    destruct (num_try 8 t) as [k|] eqn:E8.
    { exfalso. apply num_try_iff in E8. pose proof (number_rng _ _ _ E8) as R8. apply (number_bits 8 32) in E8; [|lia].
      pose proof (number_fun _ _ _ _ N E8). lia. }
    rewrite (proj2 (num_try_iff 32 t n) N), E. reflexivity.
  - destruct (inst_new_means Ret I eq_refl) as (x & E & Me). exists x. split; [|exact Me].
    unfold inst_try. rewrite (proj2 (split_words _ _) W).
    change (str_eqb (lit "ret") (lit "mov")) with false. change (str_eqb (lit "ret") (lit "push")) with false.
    rewrite str_eqb_refl, E. reflexivity.
  - destruct (inst_new_means Syscall I eq_refl) as (x & E & Me). exists x. split; [|exact Me].
    unfold inst_try. rewrite (proj2 (split_words _ _) W).
    change (str_eqb (lit "syscall") (lit "mov")) with false. change (str_eqb (lit "syscall") (lit "push")) with false.
    change (str_eqb (lit "syscall") (lit "ret")) with false. rewrite str_eqb_refl, E. reflexivity.
Qed.

Lemma inst_parse_err p s e : inst_parse p s = PErr e <-> inst_error p s e.
Proof.
  unfold inst_parse. rewrite wrap_err. split.
  - pose proof (words_split s) as W. destruct (split_whitespace s) as [|t ts] eqn:Ew.
    { intros [H|[_ ->]]; [unfold inst_try in H; rewrite Ew in H; discriminate H|now apply ix_empty]. }
    intros [H|[H ->]].
    + apply (inst_try_err p s t ts e W) in H. destruct H as [[-> H]|[-> H]].
      * apply mov_parse_err in H. destruct H as [(d & o & B & E)|(w0 & b & w1 & Es & B0 & T & B1 & E)].
        -- exact (ix_mov p s d o e ts B W E).
        -- exact (ix_mov_shape p s w0 b w1 e ts Es B0 T B1 W E).
      * apply (push_parse_err s e ts W) in H. destruct H as [[-> ->]|(t & l & -> & N & M & ->)].
        -- now apply ix_push.
        -- now apply (ix_push_operand p s t l).
    + apply (inst_try_other p s t ts W) in H. apply (ix_other p s t ts W). cbn [In]. intuition congruence.
  - intro E. destruct E as [s d o e ts B W E|s w0 b w1 e ts Es B0 T B1 W E|s W|s t ts W N M|s W|s t ts W N].
    + left. apply (inst_try_err p s _ ts e W). left. split; [reflexivity|]. apply mov_parse_err. left. eauto.
    + left. apply (inst_try_err p s _ ts e W). left. split; [reflexivity|]. apply mov_parse_err. right.
      exists w0, b, w1. auto.
    + left. apply (inst_try_err p s _ _ _ W). right. split; [reflexivity|]. apply (push_parse_err s _ _ W). left. auto.
    + left. apply (inst_try_err p s _ _ _ W). right. split; [reflexivity|]. apply (push_parse_err s _ _ W). right. eauto 7.
    + right. split; [|reflexivity]. unfold inst_try. now rewrite (proj2 (split_words _ _) W).
    + right. split; [|reflexivity]. apply (inst_try_other p s t ts W). cbn [In] in N. intuition congruence.
Qed.
Lemma inst_parse_panic p s : inst_parse p s = PPanic <->
  p = Debug /\ exists d o ts, mov_body s d o /\ is_reg_name d /\ words o ts /\ expr_overflow ts.
Proof.
  unfold inst_parse. rewrite wrap_panic. split.
  - intro H. unfold inst_try in H. destruct (split_whitespace s) as [|t ts]; [discriminate H|].
    destruct (str_eqb t (lit "mov")).
    { apply pbind_panic in H. destruct H as [H|(i & _ & H)]; [|discriminate H].
      destruct (mov_parse_inv p s) as [[e Ee]|(d & o & B)]; [congruence|].
      rewrite (mov_parse_body p s d o B) in H. apply mov_ops_panic in H. destruct H as (R & -> & x & W & O).
      split; [reflexivity|]. exists d, o, x. auto. }
    destruct (str_eqb t (lit "push")).
    { apply pbind_panic in H. destruct H as [H|(i & _ & H)]; [|discriminate H]. now apply push_no_panic in H. }
    exfalso. destruct (str_eqb t (lit "ret")).
    { apply pbind_panic in H. destruct H as [H|(i & _ & H)]; [|discriminate H]. revert H. apply inst_new_no_panic; [exact I|reflexivity]. }
    destruct (str_eqb t (lit "syscall")); [|discriminate H].
    apply pbind_panic in H. destruct H as [H|(i & _ & H)]; [|discriminate H]. revert H. apply inst_new_no_panic; [exact I|reflexivity].
  - intros (-> & d & o & x & B & R & W & O). destruct (mov_text_words s d o B R) as (ts & Wm).
    unfold inst_try. rewrite (proj2 (split_words _ _) Wm), str_eqb_refl, (mov_parse_body Debug s d o B).
    assert (P : mov_ops Debug d o = PPanic) by (apply mov_ops_panic; eauto 6). rewrite P. reflexivity.
Qed.
Lemma top_C68_inst p s :
  (forall i, inst_parse p s = POk i -> exists st, inst_text p s st /\ means st (LInst i)) /\
  (forall st, inst_text p s st -> exists i, inst_parse p s = POk i /\ means st (LInst i)) /\
  (forall m, inst_parse p s = PErr m <-> inst_error p s m) /\
  (inst_parse p s = PPanic <->
     p = Debug /\ exists d o ts, mov_body s d o /\ is_reg_name d /\ words o ts /\ expr_overflow ts).
Proof.
  split; [apply inst_parse_sound|]. split; [apply inst_parse_complete|]. split; [apply inst_parse_err|apply inst_parse_panic].
Qed.

(** ** Register names of all sizes *)

Lemma top_C07_display r : show_reg r = name_of r.
Proof. destruct r as [r|r|r|r]; destruct r; reflexivity. Qed.
Lemma top_C07_display_inj r r' : show_reg r = show_reg r' -> r = r'.
Proof. destruct r as [r|r|r|r]; destruct r; destruct r' as [r|r|r|r]; destruct r; intro H; try reflexivity; discriminate H. Qed.
Lemma top_C68_line_try p s :
  (forall l, line_try p s = POk (Some l) <-> line_parse p s = POk l) /\ line_try p s <> POk None /\
  (forall m, line_try p s = PErr m <-> line_parse p s = PErr m) /\ (line_try p s = PPanic <-> line_parse p s = PPanic).
Proof.
  unfold line_try. destruct (line_parse p s) as [l|m|]; cbn [pbind]; repeat split; intros; congruence.
Qed.
