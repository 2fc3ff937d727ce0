(** Proofs about the standard form of statements and about the objects sources can give. *)
From Coq Require String.
Import String.StringSyntax.
From Coq Require Import ZifyBool ZifyNat Sorted.
From Verif Require Import Base Str X64 SpecX86 Obj Asm SpecAsm SpecDiag Assembler SpecRun SpecForm
  PfStr PfTok PfX64 PfX86 PfX64Top PfBytes PfAsm PfData PfLine PfLine2 PfDiag PfRun PfRun2 PfRun3 PfRun4 PfRun5 PfEnd PfWhole PfMeta PfBoth.
Ltac Zify.zify_post_hook ::= Z.div_mod_to_equations.

(** ** Characters *)

Lemma line_chars_app a b : line_chars (a ++ b) <-> line_chars a /\ line_chars b.
Proof. apply Forall_app. Qed.
Lemma line_chars_dec s : forallb (fun c => (0 <=? c) && (c <? 128) && negb (c =? 10) && negb (c =? 59)) s = true -> line_chars s.
Proof.
  intro H. apply Forall_forall. intros c I. rewrite forallb_forall in H. specialize (H c I). unfold ischar. lia.
Qed.
Lemma word_dec t : negb (match t with [] => true | _ => false end) && forallb (fun c => negb (is_ws c)) t = true -> word t.
Proof.
  intro H. apply Bool.andb_true_iff in H. destruct H as [N F]. split; [destruct t; [discriminate N|discriminate]|].
  apply Forall_forall. intros c I. rewrite forallb_forall in F. apply F in I. apply is_ws_false. now destruct (is_ws c).
Qed.
Lemma line_chars_name64 r : line_chars (name64 r).
Proof. destruct r; apply line_chars_dec; reflexivity. Qed.
Lemma line_chars_name32 r : line_chars (name32 r).
Proof. destruct r; apply line_chars_dec; reflexivity. Qed.
Lemma line_chars_name16 r : line_chars (name16 r).
Proof. destruct r; apply line_chars_dec; reflexivity. Qed.
Lemma word_name64 r : word (name64 r).
Proof. destruct r; apply word_dec; reflexivity. Qed.
Lemma word_name32 r : word (name32 r).
Proof. destruct r; apply word_dec; reflexivity. Qed.
Lemma word_name16 r : word (name16 r).
Proof. destruct r; apply word_dec; reflexivity. Qed.
Lemma words_two a b : word a -> word b -> words (a ++ 32 :: b) [a; b].
Proof.
  intros A B. apply (words_cons [] a (32 :: b) [b]); [constructor|exact A|cbn; unfold space; cbn; tauto|].
  apply words_space; [unfold space; cbn; tauto|]. now apply words_one.
Qed.

Lemma decimal_number bits n ds : decimal n ds -> n < 2 ^ bits -> number bits ds n.
Proof. intros [N _] L. split; [exact L|]. exists 0%nat, [], ds. split; [reflexivity|]. split; [now left|exact N]. Qed.
Lemma decimal_line n ds : decimal n ds -> line_chars ds.
Proof.
  intros [N _]. apply numeral_chars in N. destruct N as [_ F]. eapply Forall_impl; [|exact F]. cbn. unfold ischar. lia.
Qed.
Lemma decimal_word n ds : decimal n ds -> word ds.
Proof.
  intros [N _]. apply numeral_chars in N. destruct N as [E F]. split; [exact E|]. eapply Forall_impl; [|exact F].
  intros c Hc. cbv beta in Hc. unfold space. cbn [In]. lia.
Qed.

(** ** The standard text of bytes *)

Lemma bytes_text_line bs t : bytes_text bs t -> line_chars t.
Proof.
  induction 1 as [|b ds D|b b' bs ds s D T IH].
  - apply line_chars_dec; reflexivity.
  - eapply decimal_line, D.
  - apply line_chars_app. split; [eapply decimal_line, D|]. apply line_chars_app. split; [apply line_chars_dec; reflexivity|exact IH].
Qed.
Lemma bytes_text_first bs t : bytes_text bs t -> exists c t', t = c :: t' /\ ~ space c.
Proof.
  assert (H : forall n ds s, decimal n ds -> exists c t', ds ++ s = c :: t' /\ ~ space c).
  { intros n ds s D. apply decimal_word in D. destruct D as [N F]. destruct ds as [|c ds]; [congruence|]. inversion F; subst.
    exists c, (ds ++ s). split; [reflexivity|assumption]. }
  destruct 1 as [|b ds D|b b' bs ds s D T].
  - exists 34, [34]. split; [reflexivity|]. unfold space. cbn. lia.
  - rewrite <- (app_nil_r ds). eapply H, D.
  - eapply H, D.
Qed.
Lemma bytes_text_last bs t : bytes_text bs t -> starts_solid (rev t) /\ t <> [].
Proof.
  assert (H : forall n ds, decimal n ds -> starts_solid (rev ds) /\ ds <> []).
  { intros n ds D. apply decimal_word in D. destruct (word_tight _ D) as [_ T]. split; [exact T|apply D]. }
  induction 1 as [|b ds D|b b' bs ds s D T IH].
  - split; [cbn; unfold space; cbn; lia|discriminate].
  - eapply H, D.
  - destruct IH as [I1 I2]. split.
    + rewrite app_assoc, rev_app_distr. apply starts_solid_app; [now apply rev_nonnil|exact I1].
    + destruct (H _ _ D) as [_ N]. destruct ds; [congruence|discriminate].
Qed.
Lemma bytes_text_tight bs t : bytes_text bs t -> tight t.
Proof.
  intro T. destruct (bytes_text_first _ _ T) as (c & t' & -> & N). destruct (bytes_text_last _ _ T) as [L _]. split; [exact N|exact L].
Qed.
Lemma bytes_text_items bs t : bytes_ok bs -> bytes_text bs t ->
  exists its, items_text t its /\ items_bytes DB its bs.
Proof.
  intros B T. assert (One : forall b, isbyte b -> item_bytes DB (INum b) [b]).
  { intros b Hb. cbn [item_bytes unit_size]. unfold isbyte in Hb. change (256 ^ Z.of_nat 1) with 256.
    repeat split; [lia|repeat constructor; unfold isbyte; lia|cbn; lia]. }
  induction T as [|b ds D|b b' bs ds s D T IH].
  - exists [IStr []]. split.
    + apply (it_str [] [] [] []); [intros []|constructor|exact I|constructor].
    + exists [[]]. split; [|reflexivity]. constructor; [|constructor]. exists 0%nat. split; [reflexivity|]. split; [cbn; lia|reflexivity].
  - inversion B; subst. exists [INum b]. split.
    + apply it_last. apply decimal_number; [exact D|]. unfold isbyte in *. lia.
    + exists [[b]]. split; [|reflexivity]. constructor; [now apply One|constructor].
  - inversion B as [|? ? Hb B']; subst. destruct (IH B') as (its & I1 & bss & I2 & I3).
    destruct (bytes_text_first _ _ T) as (c & s' & E & N).
    exists (INum b :: its). split.
    + change (ds ++ lit ", " ++ s) with (ds ++ 44 :: [32] ++ s). apply it_num; [|right; reflexivity| |rewrite E; exact N|exact I1].
      * apply decimal_number; [exact D|]. unfold isbyte in *. lia.
      * constructor; [unfold space; cbn; tauto|constructor].
    + exists ([b] :: bss). split; [constructor; [now apply One|exact I2]|]. cbn [concat app]. now rewrite <- I3.
Qed.

(** ** The standard text of a statement *)

Lemma mov_text p d o st : word d -> tight o -> mov_operands p d o st -> accepts p (lit "mov " ++ d ++ lit ", " ++ o) st.
Proof.
  intros W T M. replace (lit "mov " ++ d ++ lit ", " ++ o) with ([] ++ lit "mov " ++ [] ++ d ++ [] ++ 44 :: [32] ++ o ++ [])
    by (rewrite app_nil_r; reflexivity).
  apply ac_mov; try constructor; try assumption; [unfold space; cbn; tauto|constructor|apply T|apply T].
Qed.
Lemma spells_accepts p st s : sayable st -> spells st s -> accepts p s st /\ line_chars s.
Proof.
  assert (Im : forall n ds, decimal n ds -> n < 2 ^ 64 -> words ds [ds] /\ expr_value p [ds] n /\ tight ds /\ line_chars ds).
  { intros n ds D L. pose proof (decimal_word _ _ D) as W. split; [now apply words_one|]. split; [|split; [now apply word_tight|eapply decimal_line, D]].
    apply ev_num. now apply decimal_number. }
  assert (Lm : forall d o, line_chars d -> line_chars o -> line_chars (lit "mov " ++ d ++ lit ", " ++ o)).
  { intros d o A B. apply line_chars_app. split; [apply line_chars_dec; reflexivity|]. apply line_chars_app. split; [exact A|].
    apply line_chars_app. split; [apply line_chars_dec; reflexivity|exact B]. }
  intros S H. destruct H as [|x|n|n|bs t T|n bs t T|r n ds D|r n ds D|r n ds D|r r'|r r'|r r'|r o|r o|r|n ds D|n ds D| |]; cbn [sayable] in S.
  - split; [apply ac_empty, words_nil; constructor|constructor].
  - split; [apply ac_section, (words_two (lit "section") (sect_name x)); [|destruct x]; apply word_dec; reflexivity|
            destruct x; apply line_chars_dec; reflexivity].
  - destruct S as [L W]. split; [apply ac_global, (words_two (lit "global") n); [apply word_dec; reflexivity|exact W]|].
    apply line_chars_app. split; [apply line_chars_dec; reflexivity|exact L].
  - destruct S as (L & F & N). split; [|apply line_chars_app; split; [exact L|apply line_chars_dec; reflexivity]].
    apply (ac_label p _ n 0); [|exact N]. apply words_one. split; [destruct n; discriminate|]. apply Forall_app. split; [exact F|].
    constructor; [unfold space; cbn; lia|constructor].
  - destruct S as [B _]. destruct (bytes_text_items _ _ B T) as (its & I1 & I2). split.
    + replace (lit "db " ++ t) with ([] ++ unit_name DB ++ 32 :: [] ++ t ++ []) by (rewrite app_nil_r; reflexivity).
      eapply ac_data; try eassumption; try constructor; [unfold space; cbn; tauto|eapply bytes_text_last, T|eapply bytes_text_tight, T|eapply bytes_text_tight, T].
    + apply line_chars_app. split; [apply line_chars_dec; reflexivity|eapply bytes_text_line, T].
  - destruct S as (B & (L & F & N) & N0 & N1 & N2 & N3). destruct (bytes_text_items _ _ B T) as (its & I1 & I2). split.
    + replace (n ++ lit " db " ++ t) with ([] ++ n ++ 32 :: [] ++ unit_name DB ++ 32 :: [] ++ t ++ []) by (rewrite app_nil_r; reflexivity).
      eapply ac_data_label; try eassumption; try constructor; try assumption; try (unfold space; cbn; tauto);
        [eapply bytes_text_last, T|eapply bytes_text_tight, T|eapply bytes_text_tight, T].
    + apply line_chars_app. split; [exact L|]. apply line_chars_app. split; [apply line_chars_dec; reflexivity|eapply bytes_text_line, T].
  - destruct (Im _ _ D ltac:(lia)) as (W & V & T & L). split; [|apply Lm; [apply line_chars_name64|exact L]].
    apply mov_text; [apply word_name64|exact T|]. eapply mo_imm64; eassumption.
  - destruct (Im _ _ D ltac:(lia)) as (W & V & T & L). split; [|apply Lm; [apply line_chars_name32|exact L]].
    apply mov_text; [apply word_name32|exact T|]. eapply mo_imm32; try eassumption. lia.
  - destruct (Im _ _ D ltac:(lia)) as (W & V & T & L). split; [|apply Lm; [apply line_chars_name16|exact L]].
    apply mov_text; [apply word_name16|exact T|]. eapply mo_imm16; try eassumption. lia.
  - split; [|apply Lm; apply line_chars_name64]. apply mov_text; [apply word_name64|apply word_tight, word_name64|constructor].
  - split; [|apply Lm; apply line_chars_name32]. apply mov_text; [apply word_name32|apply word_tight, word_name32|constructor].
  - split; [|apply Lm; apply line_chars_name16]. apply mov_text; [apply word_name16|apply word_tight, word_name16|constructor].
  - destruct S as (L & T & N & R). split; [|apply Lm; [apply line_chars_name64|exact L]]. apply mov_text; [apply word_name64|exact T|now constructor].
  - destruct S as (L & T & N & R). split; [|apply Lm; [apply line_chars_name32|exact L]]. apply mov_text; [apply word_name32|exact T|now constructor].
  - split; [|apply line_chars_app; split; [apply line_chars_dec; reflexivity|apply line_chars_name64]].
    apply (ac_push_reg p _ r []). apply (words_two (lit "push")); [apply word_dec; reflexivity|apply word_name64].
  - split; [|apply line_chars_app; split; [apply line_chars_dec; reflexivity|eapply decimal_line, D]].
    apply (ac_push8 p _ ds n []); [apply (words_two (lit "push")); [apply word_dec; reflexivity|eapply decimal_word, D]|].
    apply decimal_number; [exact D|]. change (2 ^ 8) with 256. lia.
  - split; [|apply line_chars_app; split; [apply line_chars_dec; reflexivity|eapply decimal_line, D]].
    apply (ac_push32 p _ ds n []); [apply (words_two (lit "push")); [apply word_dec; reflexivity|eapply decimal_word, D]| |lia].
    apply decimal_number; [exact D|lia].
  - split; [|apply line_chars_dec; reflexivity]. apply (ac_ret p _ []); [apply words_one, word_dec; reflexivity|discriminate].
  - split; [|apply line_chars_dec; reflexivity]. apply (ac_syscall p _ []); [apply words_one, word_dec; reflexivity|discriminate].
Qed.

Lemma bytes_text_ex bs : bytes_ok bs -> exists t, bytes_text bs t.
Proof.
  induction bs as [|b bs IH]; intro B; [exists [34; 34]; constructor|]. inversion B as [|? ? Hb B']; subst.
  assert (D : decimal b (show_u64 b)) by (apply show_decimal; unfold isbyte in Hb; lia).
  destruct bs as [|b' bs]; [eexists; constructor; exact D|]. destruct (IH B') as (t & T). eexists. constructor; eassumption.
Qed.
Lemma spells_ex st : sayable st -> exists s, spells st s.
Proof.
  assert (De : forall n, 0 <= n < 2 ^ 64 -> decimal n (show_u64 n)) by (intros; now apply show_decimal).
  destruct st as [|x|n|n|l bs|i|r o|r o]; cbn [sayable]; intro S; try (eexists; constructor; fail).
  - destruct S as [B S]. destruct (bytes_text_ex _ B) as (t & T). destruct l; eexists; constructor; exact T.
  - destruct i; try contradiction; eexists; constructor; try (apply De; lia).
Qed.
Lemma bytes_text_fun bs t t' : bytes_text bs t -> bytes_text bs t' -> t = t'.
Proof.
  intro T. revert t'. induction T as [|b ds D|b b' bs ds s D T IH]; intros t' T'; inversion T'; subst; [reflexivity|..].
  - eapply decimal_fun; eassumption.
  - f_equal; [eapply decimal_fun; eassumption|]. f_equal. now apply IH.
Qed.
Lemma spells_fun st s s' : spells st s -> spells st s' -> s = s'.
Proof.
  intros H H'. destruct H; inversion H'; subst; try reflexivity;
    repeat match goal with
    | A : decimal ?n ?a, B : decimal ?n ?b |- _ => rewrite (decimal_fun _ _ _ A B); clear A
    | A : bytes_text ?n ?a, B : bytes_text ?n ?b |- _ => rewrite (bytes_text_fun _ _ _ A B); clear A
    end; reflexivity.
Qed.

(** ** Only these statements can be written *)

Lemma body_newline s body x y : one_line s -> line_text s body -> body = x ++ 10 :: y -> y = [].
Proof.
  intros (b & N & E) (_ & T) ->.
  assert (H : exists tl, s = x ++ 10 :: y ++ tl).
  { destruct T as [->|(c & ->)]; [exists []; now rewrite app_nil_r|exists (59 :: c); now rewrite <- app_assoc]. }
  destruct H as (tl & ->). destruct E as [E|E].
  - exfalso. apply N. rewrite <- E. apply in_or_app. right. now left.
  - destruct (y ++ tl) as [|c r] eqn:Y; [now apply app_eq_nil in Y|]. exfalso. apply N.
    destruct (exists_last (l := c :: r)) as (r' & z & Er); [discriminate|]. rewrite Er in E.
    change (x ++ 10 :: r' ++ [z]) with (x ++ (10 :: r') ++ [z]) in E. rewrite app_assoc in E.
    apply app_inj_tail in E. destruct E as [E _]. rewrite <- E. apply in_or_app. right. now left.
Qed.
Lemma body_chars s body : str_ok s -> line_text s body -> Forall (fun c => ischar c /\ c <> 59) body.
Proof.
  intros S (N & T). assert (F : str_ok body).
  { destruct T as [->|(c & ->)]; [exact S|]. apply Forall_app in S. tauto. }
  apply Forall_forall. intros c I. unfold str_ok in F. rewrite Forall_forall in F. split; [now apply F|]. intros ->. contradiction.
Qed.
Lemma solid_line t : Forall (fun c => ischar c /\ c <> 59) t -> Forall (fun c => ~ space c) t -> line_chars t.
Proof.
  intros A B. unfold line_chars. apply Forall_forall. intros c I. rewrite Forall_forall in A, B. destruct (A c I) as [A1 A2].
  repeat split; try assumption. intros ->. apply (B 10 I). unfold space. cbn. tauto.
Qed.
Lemma accepts_sayable p s body st : str_ok s -> one_line s -> line_text s body -> accepts p body st -> sayable st.
Proof.
  intros So Ol Lt A. pose proof (body_chars _ _ So Lt) as F. pose proof (fun x y => body_newline s body x y Ol Lt) as Nl.
  assert (Fi : Forall ischar body) by (eapply Forall_impl; [|exact F]; intros ? []; assumption).
  pose proof (fun bs => accepts_bytes p body st bs A Fi) as Bo.
  destruct A as [s0 W|s0 x W|s0 n W|s0 n k W N|w0 u c w1 text w2 its bs|w0 n c1 w1 u c2 w2 text w3 its bs B0 Wn N1 N2 N3 N4 S1 B1 S2 B2 Te Ti B3 It Ib|w0 w1 d w2 w3 o w4 st B0 B1 B2 B3 T B4 M|s0 r more W|s0 t n more W N|s0 t n more W N L|s0 more W|s0 more W]; cbn [sayable]; try exact I.
  - pose proof (words_chars _ _ _ W F) as C. pose proof (words_all _ _ W) as Wa.
    inversion C as [|? ? _ C']; subst. inversion C' as [|? ? Cn _]; subst. inversion Wa as [|? ? _ Wa']; subst. inversion Wa' as [|? ? Wn _]; subst.
    split; [apply solid_line; [exact Cn|apply Wn]|exact Wn].
  - pose proof (words_chars _ _ _ W F) as C. pose proof (words_all _ _ W) as Wa.
    inversion C as [|? ? Cn _]; subst. inversion Wa as [|? ? [_ Wn] _]; subst.
    apply Forall_app in Cn. destruct Cn as [Cn _]. apply Forall_app in Wn. destruct Wn as [Wn _].
    split; [now apply solid_line|]. split; assumption.
  - split; [now apply (Bo bs)|exact I].
  - split; [now apply (Bo bs)|]. apply Forall_app in F. destruct F as [_ F]. apply Forall_app in F. destruct F as [F _]. destruct Wn as [Wn0 Wn].
    split; [split; [now apply solid_line|split; assumption]|]. repeat split; assumption.
  - assert (Fo : line_chars o).
    { assert (Fo : Forall (fun c => ischar c /\ c <> 59) o).
      { do 2 (apply Forall_app in F; destruct F as [_ F]). do 3 (apply Forall_app in F; destruct F as [_ F]).
        inversion F as [|? ? _ F']; subst. apply Forall_app in F'. destruct F' as [_ F']. apply Forall_app in F'. tauto. }
      unfold line_chars. apply Forall_forall. intros c I. rewrite Forall_forall in Fo. destruct (Fo c I) as [A1 A2].
      repeat split; try assumption. intros ->. apply in_split in I. destruct I as (o1 & o2 & ->).
      assert (E : o2 ++ w4 = []).
      { apply (Nl (w0 ++ lit "mov " ++ w1 ++ d ++ w2 ++ 44 :: w3 ++ o1) (o2 ++ w4)).
        repeat (rewrite <- ?app_assoc; cbn [app]). reflexivity. }
      apply app_eq_nil in E. destruct E as [-> _]. apply tight_last_space in T. apply T. unfold space. cbn. tauto. }
    destruct M as [r o ts n Wo V|r o ts n Wo V L|r o ts n Wo V L|r r'|r r'|r r'|r o N R|r o N R]; cbn [sayable]; try exact I;
      try (apply expr_value_rng in V; lia); repeat split; try assumption; apply T.
  - apply number_rng in N. exact N.
  - apply number_rng in N. lia.
Qed.

(** a standard text is one line *)
Lemma line_chars_one s : line_chars s -> ~ In 10 s /\ ~ In 59 s /\ str_ok s.
Proof.
  intro L. unfold line_chars in L. rewrite Forall_forall in L. split; [intro I; now apply L in I|]. split; [intro I; now apply L in I|].
  apply Forall_forall. intros c I. now apply L.
Qed.
Lemma top_C88_sayable p st :
  (exists s body, str_ok s /\ one_line s /\ line_text s body /\ accepts p body st) <-> sayable st.
Proof.
  split.
  - intros (s & body & So & Ol & Lt & A). eapply accepts_sayable; eassumption.
  - intro S. destruct (spells_ex st S) as (s & Sp). destruct (spells_accepts p st s S Sp) as [A L].
    destruct (line_chars_one s L) as (N1 & N2 & So). exists s, s. split; [exact So|]. split; [exists s; auto|].
    split; [split; [exact N2|now left]|exact A].
Qed.
Lemma top_C88_spelling st : sayable st ->
  exists s, spells st s /\ (forall s', spells st s' -> s' = s) /\ line_chars s /\ forall p, accepts p s st.
Proof.
  intro S. destruct (spells_ex st S) as (s & Sp). exists s. split; [exact Sp|]. split; [intros s' H; eapply spells_fun; eassumption|].
  split; [apply (spells_accepts Debug st s S Sp)|]. intro p. apply (spells_accepts p st s S Sp).
Qed.
Lemma top_C88_unique st st' s : sayable st -> sayable st' -> spells st s -> spells st' s -> st = st'.
Proof.
  intros S S' H H'. eapply (accepts_det Debug s); [apply (spells_accepts Debug st s S H)|apply (spells_accepts Debug st' s S' H')].
Qed.

(** ** Programs *)

Lemma accepts_pad p s st w : accepts p s st -> blank w -> accepts p (s ++ w) st.
Proof.
  intros A B. destruct A as [s W|s x W|s n W|s n k W N|w0 u c w1 text w2 its bs B0 Sc B1 Te Ti B2 It Ib|w0 n c1 w1 u c2 w2 text w3 its bs B0 Wn N1 N2 N3 N4 S1 B1 S2 B2 Te Ti B3 It Ib|w0 w1 d w2 w3 o w4 st B0 B1 B2 B3 T B4 M|s r more W|s t n more W N|s t n more W N L|s more W N|s more W N].
  - apply ac_empty. now apply words_app_blank.
  - apply ac_section. now apply words_app_blank.
  - apply ac_global. now apply words_app_blank.
  - apply (ac_label p _ n k); [now apply words_app_blank|exact N].
  - repeat (rewrite <- ?app_assoc; cbn [app]). change (c :: w1 ++ text ++ w2 ++ w) with (c :: w1 ++ text ++ (w2 ++ w)).
    eapply ac_data; try eassumption. now apply blank_app.
  - repeat (rewrite <- ?app_assoc; cbn [app]). eapply ac_data_label; try eassumption. now apply blank_app.
  - replace ((w0 ++ lit "mov " ++ w1 ++ d ++ w2 ++ 44 :: w3 ++ o ++ w4) ++ w) with (w0 ++ lit "mov " ++ w1 ++ d ++ w2 ++ 44 :: w3 ++ o ++ (w4 ++ w))
      by (repeat (rewrite <- ?app_assoc; cbn [app]); reflexivity).
    apply ac_mov; try assumption. now apply blank_app.
  - eapply ac_push_reg. apply words_app_blank; [exact B|exact W].
  - eapply ac_push8; [apply words_app_blank; [exact B|exact W]|exact N].
  - eapply ac_push32; [apply words_app_blank; [exact B|exact W]|exact N|exact L].
  - eapply ac_ret; [apply words_app_blank; [exact B|exact W]|exact N].
  - eapply ac_syscall; [apply words_app_blank; [exact B|exact W]|exact N].
Qed.
Lemma utf8_newline s : line_chars s -> ~ In 10 (utf8 s).
Proof.
  intros L I. unfold utf8 in I. apply in_flat_map in I. destruct I as (c & Ic & I).
  unfold line_chars in L. rewrite Forall_forall in L. destruct (L c Ic) as (Hc & N & _).
  apply N. clear - Hc I. unfold utf8_char in I.
  destruct (c <? 0x80) eqn:E1; [destruct I as [I|[]]; congruence|].
  exfalso. unfold ischar in Hc.
  destruct (c <? 0x800) eqn:E2; [|destruct (c <? 0x10000) eqn:E3];
    repeat (destruct I as [I|I]; [lia|]); destruct I.
Qed.
Lemma standard_lines ls : Forall line_chars ls ->
  source_lines (flat_map (fun s => utf8 s ++ [10]) ls) (map (fun s => utf8 s ++ [10]) ls).
Proof.
  induction 1 as [|s ls L F IH]; cbn [flat_map map]; [constructor|]. rewrite <- app_assoc. cbn [app].
  apply sl_cons; [now apply utf8_newline|exact IH].
Qed.
Lemma standard_line p st bs s : sayable st -> spells st s -> stmt_bytes st bs -> line_is p (utf8 s ++ [10]) (st, bs).
Proof.
  intros S Sp B. destruct (spells_accepts p st s S Sp) as [A L]. destruct (line_chars_one s L) as (N1 & N2 & So).
  assert (Ok : str_ok (s ++ [10])) by (apply Forall_app; split; [exact So|repeat constructor; unfold ischar; lia]).
  assert (Lt : line_text (s ++ [10]) (s ++ [10])).
  { split; [|now left]. intro I. apply in_app_or in I. destruct I as [I|[I|[]]]; [contradiction|discriminate I]. }
  exists (s ++ [10]), (s ++ [10]). split; [rewrite utf8_app; reflexivity|]. split; [exact Ok|]. split; [exact Lt|].
  split; [|exact B]. cbn [fst]. apply accepts_pad; [exact A|]. constructor; [unfold space; cbn; tauto|constructor].
Qed.

Lemma source_lines_one input ls : source_lines input ls -> Forall (fun l => exists b, ~ In 10 b /\ (l = b \/ l = b ++ [10])) ls.
Proof. induction 1 as [|l N I|l rest ls N S IH]; [constructor|repeat constructor; exists l; auto|]. constructor; [exists l; auto|exact IH]. Qed.
Lemma utf8_one_line s : str_ok s -> (exists b, ~ In 10 b /\ (utf8 s = b \/ utf8 s = b ++ [10])) -> one_line s.
Proof.
  assert (In10 : forall t, In 10 t -> In 10 (utf8 t)).
  { intros t I. unfold utf8. apply in_flat_map. exists 10. split; [exact I|now left]. }
  intros So (b & N & E). destruct E as [E|E].
  - exists s. split; [|now left]. intro I. apply N. rewrite <- E. now apply In10.
  - destruct (list_eq_dec Z.eq_dec s []) as [->|Ns]; [exists []; split; [intros []|now left]|].
    destruct (exists_last Ns) as (s' & c & ->). rewrite utf8_app in E.
    destruct (Z.eq_dec c 10) as [->|Nc].
    + change (utf8 [10]) with [10] in E. apply app_inj_tail in E. destruct E as [E _].
      exists s'. split; [|now right]. intro I. apply N. rewrite <- E. now apply In10.
    + exfalso. apply Forall_app in So. destruct So as [_ So]. inversion So as [|? ? Hc _]; subst.
      unfold utf8 in E at 2. cbn [flat_map] in E. rewrite app_nil_r in E.
      assert (L : exists u z, utf8_char c = u ++ [z] /\ z <> 10).
      { unfold utf8_char, ischar in *. destruct (c <? 0x80) eqn:E1; [exists [], c; split; [reflexivity|exact Nc]|].
        destruct (c <? 0x800) eqn:E2; [exists [0xC0 + c / 64], (0x80 + c mod 64); split; [reflexivity|lia]|].
        destruct (c <? 0x10000) eqn:E3; [exists [0xE0 + c / 4096; 0x80 + (c / 64) mod 64], (0x80 + c mod 64); split; [reflexivity|lia]|].
        exists [0xF0 + c / 262144; 0x80 + (c / 4096) mod 64; 0x80 + (c / 64) mod 64], (0x80 + c mod 64); split; [reflexivity|lia]. }
      destruct L as (u & z & Eu & Nz). rewrite Eu, app_assoc in E. apply app_inj_tail in E. destruct E as [_ E]. contradiction.
Qed.
Lemma line_sayable p l x : (exists b, ~ In 10 b /\ (l = b \/ l = b ++ [10])) -> line_is p l x -> sayable (fst x) /\ stmt_bytes (fst x) (snd x).
Proof.
  intros O (s & body & -> & So & Lt & A & B). split; [|exact B]. eapply accepts_sayable; try eassumption. now apply utf8_one_line.
Qed.
Definition writable (pr : prog) : Prop := Forall (fun x => sayable (fst x) /\ stmt_bytes (fst x) (snd x)) pr.
Lemma source_writable p input pr : source_is p input pr -> writable pr.
Proof.
  intros (ls & Sl & F). apply source_lines_one in Sl. revert Sl. unfold writable. induction F as [|l x ls pr L F IH]; intro Sl; [constructor|].
  inversion Sl; subst. constructor; [eapply line_sayable; eassumption|now apply IH].
Qed.
Lemma standard_ex pr : writable pr -> exists src, standard pr src.
Proof.
  intro W. assert (H : exists ls, Forall2 (fun x s => spells (fst x) s) pr ls).
  { induction W as [|x pr [S _] W (ls & IH)]; [exists []; constructor|]. destruct (spells_ex _ S) as (s & Sp). exists (s :: ls). constructor; assumption. }
  destruct H as (ls & H). eexists. exists ls. split; [exact H|reflexivity].
Qed.
Lemma standard_is p pr src : writable pr -> standard pr src -> source_is p src pr /\ bytes_ok src.
Proof.
  intros W (ls & F & ->).
  assert (L : Forall line_chars ls).
  { revert W. unfold writable. induction F as [|x s pr ls Sp F IH]; intro W; [constructor|]. inversion W as [|? ? [S _] W']; subst.
    constructor; [apply (spells_accepts p _ _ S Sp)|now apply IH]. }
  split.
  - exists (map (fun s => utf8 s ++ [10]) ls). split; [now apply standard_lines|].
    revert W. unfold writable. clear L. induction F as [|x s pr ls Sp F IH]; intro W; [constructor|]. inversion W as [|? ? [S B] W']; subst.
    cbn [map]. constructor; [|now apply IH]. destruct x. now apply standard_line.
  - unfold bytes_ok. apply Forall_flat_map. eapply Forall_impl; [|exact L]. intros s Hs. apply Forall_app.
    split; [apply utf8_bytes; now apply line_chars_one|repeat constructor; unfold isbyte; lia].
Qed.
Lemma top_C88_source p input pr : source_is p input pr ->
  exists src, standard pr src /\ (forall src', standard pr src' -> src' = src) /\ bytes_ok src /\ forall p', source_is p' src pr.
Proof.
  intro S. pose proof (source_writable _ _ _ S) as W. destruct (standard_ex pr W) as (src & St). exists src. split; [exact St|].
  split; [|split; [apply (standard_is p _ _ W St)|intro p'; apply (standard_is p' _ _ W St)]].
  destruct St as (ls & F & ->). intros src' (ls' & F' & ->). f_equal. clear - F F'. revert ls' F'.
  induction F as [|x s pr ls Sp F IH]; intros ls' F'; inversion F'; subst; [reflexivity|]. f_equal; [eapply spells_fun; eassumption|now apply IH].
Qed.
(** running it *)
Lemma sources_one p src pr : sources_are p [src] pr <-> source_is p src pr.
Proof.
  split.
  - intros (prs & F & ->). inversion F as [|? ? ? ? H F']; subst. inversion F'; subst. cbn [concat]. now rewrite app_nil_r.
  - intro H. exists [pr]. split; [repeat constructor; exact H|]. cbn [concat]. now rewrite app_nil_r.
Qed.

Lemma same_crash p pr raw raw' x : line_is p raw x -> line_is p raw' x -> crashes p pr raw' -> crashes p pr raw.
Proof.
  intros L L' C.
  assert (Hu : forall y, line_is p raw' y -> y = x) by (intros y Hy; eapply line_is_fun; eassumption).
  destruct C as [U|P M|s body d o ts P E S0 T Mb D Wd O|y Q1 Q2 Q3|y sy k Q1 P Q2 Q3 Q4].
  - exfalso. destruct L' as (s & body & E & S0 & _). now apply (U s).
  - now apply cr_count.
  - exfalso. destruct L' as (s' & body' & E' & S' & T' & A' & _). assert (s' = s) by (apply utf8_inj; congruence). subst s'.
    assert (PP : line_parse p s = PPanic) by (apply line_panic; split; [exact P|]; exists body, d, o, ts; tauto).
    destruct (line_complete p s _ _ T' A') as (l & PO & _). congruence.
  - apply Hu in Q1. subst y. eapply cr_bss; eassumption.
  - apply Hu in Q1. subst y. eapply cr_huge; eassumption.
Qed.
Lemma passes_same p raws prs : Forall2 (line_is p) raws prs -> forall pr raws0 pr', passes p pr raws0 pr' -> pr' = pr ++ prs -> passes p pr raws pr'.
Proof.
  induction 1 as [|raw x raws prs L F IH]; intros pr raws0 pr' Pa E.
  - rewrite app_nil_r in E. subst pr'. constructor.
  - destruct Pa as [pr|pr raw0 x0 raws0 pr' L0 N0 W0 Pa].
    + exfalso. rewrite <- (app_nil_r pr) in E at 1. apply app_inv_head in E. discriminate E.
    + destruct (passes_lines _ _ _ _ Pa) as (q & Eq & _). rewrite Eq, <- app_assoc in E. apply app_inv_head in E. cbn [app] in E.
      injection E as -> ->. apply pa_cons with (x := x); [exact L| |exact W0|].
      * intro C. apply N0. exact (same_crash _ _ _ _ _ L0 L C).
      * eapply IH; [exact Pa|exact Eq].
Qed.
Lemma assembled_fun pr a b : assembled pr a -> assembled pr b -> a = b.
Proof. intros (A1 & A2 & A3 & A4) (B1 & B2 & B3 & B4). destruct a, b. cbn in *. congruence. Qed.
Lemma top_C88_run p input a : bytes_ok input -> read_from p asm_new input = Done a ->
  exists pr src, source_is p input pr /\ standard pr src /\ bytes_ok src /\ read_from p asm_new src = Done a /\
    forall p', size_ok p' pr -> read_from p' asm_new src = Done a.
Proof.
  intros B R. pose proof (raw_lines_spec input) as Sl.
  destruct (proj1 (top_done p [] asm_new [] input _ (Forall_nil _) B (ses_new p) (no_source p) Sl a) R) as (pr & Pa & As).
  destruct (passes_lines _ _ _ _ Pa) as (prs & E & F). cbn [app] in E. subst prs.
  assert (Si : source_is p input pr) by (exists (raw_lines input); split; assumption).
  destruct (top_C88_source _ _ _ Si) as (src & St & _ & Bs & Src). exists pr, src. split; [exact Si|]. split; [exact St|]. split; [exact Bs|]. split.
  - destruct (Src p) as (ls & Sl' & F').
    apply (top_done p [] asm_new [] src ls (Forall_nil _) Bs (ses_new p) (no_source p) Sl' a). exists pr. split; [|exact As].
    eapply passes_same; [exact F'|exact Pa|reflexivity].
  - intros p' Z.
    assert (Cl : bss_clean pr).
    { destruct (top_session p [input] a (Forall_cons _ B (Forall_nil _)) (proj2 (session_one p input a) R)) as (pr' & Sr & Cl & _).
      apply sources_one in Sr. destruct Sr as (ls & Sl' & F'). apply raw_lines_iff in Sl'. subst ls.
      assert (pr' = pr) by (eapply lines_fun; eassumption). now subst pr'. }
    destruct (top_session_complete p' [src] pr (Forall_cons _ Bs (Forall_nil _)) (proj2 (sources_one p' src pr) (Src p')) Cl Z) as (a' & S' & A').
    apply session_one in S'. rewrite S'. f_equal. eapply assembled_fun; eassumption.
Qed.

(** ** The bytes of a symbolic mov *)

Lemma mov64_bytes r bs : emits (MovRI64 r 0) bs ->
  exists rex c, bs = [rex; c] ++ repeat 0 8 /\ (rex = 0x48 \/ rex = 0x49) /\ 0xB8 <= c <= 0xBF.
Proof.
  intro E. apply emits_inv in E; [|split; [lia|reflexivity]]. destruct E as [-> _].
  destruct r; match goal with |- context [instr_bytes ?i] => let b := eval vm_compute in (instr_bytes i) in
    match b with ?x :: ?y :: _ => exists x, y end end; (split; [vm_compute; reflexivity|]); lia.
Qed.
Lemma mov32_bytes r bs : emits (MovRI32 r 0) bs ->
  exists pre c, bs = pre ++ [c] ++ repeat 0 4 /\ (pre = [] \/ pre = [0x41]) /\ 0xB8 <= c <= 0xBF.
Proof.
  intro E. apply emits_inv in E; [|split; [lia|reflexivity]]. destruct E as [-> _].
  destruct r; match goal with |- context [instr_bytes ?i] => let b := eval vm_compute in (instr_bytes i) in
    match b with 0x41 :: ?y :: _ => exists [0x41], y | ?y :: _ => exists [], y end end;
    (split; [vm_compute; reflexivity|]); (split; [tauto|lia]).
Qed.
