(** Top-level lemmas about the parsers: C07, C09, C35-C44. *)
From Coq Require String.
Import String.StringSyntax.
From Coq Require Import ZifyBool ZifyNat.
From Verif Require Import Base Str X64 SpecX86 Obj Asm SpecAsm PfStr PfTok PfX64 PfX86 PfX64Top PfBytes PfAsm PfData PfLine PfLine2
  PfRun PfRun2 PfRun3 SpecRun PfRun4 PfDiag.
Ltac Zify.zify_post_hook ::= Z.div_mod_to_equations.

(** ** C07 *)
Lemma top_C07_names : (forall r, show_reg64 r = name64 r) /\ (forall r, show_reg32 r = name32 r) /\ (forall r, show_reg16 r = name16 r).
Proof. repeat split; now intros []. Qed.
Lemma top_C07_64 s r : reg64_try s = Some r <-> s = show_reg64 r.
Proof. rewrite (proj1 top_C07_names). apply reg64_try_iff. Qed.
Lemma top_C07_32 s r : reg32_try s = Some r <-> s = show_reg32 r.
Proof. rewrite (proj1 (proj2 top_C07_names)). apply reg32_try_iff. Qed.
Lemma top_C07_16 s r : reg16_try s = Some r <-> s = show_reg16 r.
Proof. rewrite (proj2 (proj2 top_C07_names)). apply reg16_try_iff. Qed.
Lemma top_C07_once s :
  (reg64_try s <> None -> reg32_try s = None /\ reg16_try s = None) /\
  (reg32_try s <> None -> reg64_try s = None /\ reg16_try s = None) /\
  (reg16_try s <> None -> reg64_try s = None /\ reg32_try s = None).
Proof.
  split; [|split]; intro H.
  - destruct (reg64_try s) as [r|] eqn:E; [|congruence]. apply reg64_try_iff in E. subst. split; [apply reg32_64|apply reg16_64].
  - destruct (reg32_try s) as [r|] eqn:E; [|congruence]. apply reg32_try_iff in E. subst. split; [apply reg64_32|apply reg16_32].
  - destruct (reg16_try s) as [r|] eqn:E; [|congruence]. apply reg16_try_iff in E. subst. split; [apply reg64_16|apply reg32_16].
Qed.
Lemma top_C07_parse s :
  (forall r, reg64_parse s = POk r <-> s = show_reg64 r) /\ (forall r, reg32_parse s = POk r <-> s = show_reg32 r) /\
  (forall r, reg16_parse s = POk r <-> s = show_reg16 r).
Proof.
  split; [|split]; intro r; unfold reg64_parse, reg32_parse, reg16_parse, reg_parse;
  rewrite <- ?top_C07_64, <- ?top_C07_32, <- ?top_C07_16;
  match goal with |- match ?x with _ => _ end = _ <-> _ => destruct x end; split; congruence.
Qed.

(** ** C35 *)
Lemma top_C35_iff bits s v : num_try bits s = Some v <-> number bits s v.
Proof. apply num_try_iff. Qed.
Lemma top_C35_literal bits s v : literal s v ->
  num_parse bits s = if v <? 2 ^ bits then POk v else PErr (s ++ lit " is invalid " ++ uint_name bits).
Proof.
  intro L. unfold num_parse. destruct (v <? 2 ^ bits) eqn:E.
  - assert (num_try bits s = Some v) as -> by (apply num_try_iff, literal_number; [exact L|lia]). reflexivity.
  - assert (num_try bits s = None) as ->; [|reflexivity]. apply num_try_none. intros v' N.
    pose proof N as (Lt & _). pose proof (number_bits _ (bits + Z.max 0 v) _ _ N) as H1.
    assert (V : literal s v -> exists b, v < 2 ^ b /\ v' < 2 ^ b).
    { intros _. exists (Z.max v v'). destruct (Z_lt_le_dec (Z.max v v') 0).
      - assert (0 <= v'). { apply number_rng in N. lia. } lia.
      - pose proof (Z.pow_gt_lin_r 2 (Z.max v v')). lia. }
    destruct (V L) as (b & B1 & B2).
    pose proof (number_fun b s v v' (literal_number b s v L B1) (number_bits bits b s v' N B2)). lia.
Qed.
Lemma top_C35_value_unique b b' s v v' : number b s v -> number b' s v' -> v = v'.
Proof.
  intros N N'. pose proof (number_rng _ _ _ N). pose proof (number_rng _ _ _ N').
  apply (number_fun (Z.max v v') s); eapply number_bits; try eassumption; pose proof (Z.pow_gt_lin_r 2 (Z.max v v')); lia.
Qed.
Lemma top_C35_chars bits s v : number bits s v ->
  s <> [] /\ Forall (fun c => 48 <= c <= 57 \/ 97 <= c <= 102 \/ 65 <= c <= 70 \/ c = 120 \/ c = 43) s.
Proof. apply number_chars. Qed.
Lemma top_C35_print n : 0 <= n < 2 ^ 64 -> num_parse 64 (show_u64 n) = POk n.
Proof.
  intro R. rewrite (top_C35_literal 64 _ n); [|left; apply show_decimal, R].
  replace (n <? 2 ^ 64) with true by lia. reflexivity.
Qed.

(** ** C36 *)
Lemma top_C36 p s ts : words s ts ->
  (forall n, expr_parse p s = POk n <-> expr_value p ts n) /\
  (expr_parse p s = PPanic <-> p = Debug /\ expr_overflow ts).
Proof.
  intro W. pose proof (expr_try_words p s ts W) as R. unfold expr_parse.
  destruct R as [H|n V|P O|e V O X]; cbn [pbind]; split; try intro m; (split; [intro Q; try discriminate Q|intro Q]).
  - exfalso. apply expr_value_first in Q. destruct Q as (t & l & k & -> & N).
    destruct H as [|(t' & l' & E & _ & _ & H)]; [discriminate|]. injection E as <- <-. now apply H in N.
  - exfalso. destruct Q as [_ Q]. apply expr_overflow_first in Q. destruct Q as (t & l & k & -> & N).
    destruct H as [|(t' & l' & E & _ & _ & H)]; [discriminate|]. injection E as <- <-. now apply H in N.
  - injection Q as <-. exact V.
  - f_equal. eapply expr_value_fun; eassumption.
  - destruct Q as [-> Q]. exfalso. eapply expr_value_no_overflow; eassumption.
  - subst p. exfalso. eapply expr_value_no_overflow; eassumption.
  - auto.
  - reflexivity.
  - exfalso. now apply V in Q.
  - exfalso. now apply O.
Qed.
Lemma words3 w0 t1 w1 op w2 t2 w3 : blank w0 -> blank w1 -> blank w2 -> blank w3 -> w1 <> [] -> w2 <> [] ->
  word t1 -> word op -> word t2 -> words (w0 ++ t1 ++ w1 ++ op ++ w2 ++ t2 ++ w3) [t1; op; t2].
Proof.
  intros B0 B1 B2 B3 N1 N2 T1 O T2.
  assert (S : forall w r, blank w -> w <> [] -> starts_blank (w ++ r)) by (intros [|c w] r F N; [congruence|]; inversion F; assumption).
  apply words_cons; [assumption|assumption|apply S; assumption|].
  apply words_cons; [assumption|assumption|apply S; assumption|].
  apply words_cons; [assumption|assumption| |apply words_nil; assumption].
  destruct w3; [exact I|]. inversion B3; assumption.
Qed.
Lemma op_word c : c = 43 \/ c = 45 -> word [c].
Proof. intros H. split; [discriminate|]. constructor; [|constructor]. unfold space. cbn [In]. lia. Qed.
Lemma top_C36_add p w0 t1 w1 w2 t2 w3 a b : blank w0 -> blank w1 -> blank w2 -> blank w3 -> w1 <> [] -> w2 <> [] ->
  number 64 t1 a -> number 64 t2 b ->
  expr_parse p (w0 ++ t1 ++ w1 ++ lit "+" ++ w2 ++ t2 ++ w3) =
    match p with
    | Release => POk ((a + b) mod 2 ^ 64)
    | Debug => if (- 2 ^ 63 <=? signed64 a + signed64 b) && (signed64 a + signed64 b <? 2 ^ 63)
               then POk ((a + b) mod 2 ^ 64) else PPanic
    end.
Proof.
  intros B0 B1 B2 B3 N1 N2 A B.
  assert (W : words (w0 ++ t1 ++ w1 ++ lit "+" ++ w2 ++ t2 ++ w3) [t1; lit "+"; t2])
    by (apply words3; try assumption; first [eapply number_word; eassumption|apply op_word; now left]).
  destruct (top_C36 p _ _ W) as [Hv Hp].
  assert (E : (p = Debug -> in_i64 (signed64 a + signed64 b)) -> expr_parse p (w0 ++ t1 ++ w1 ++ lit "+" ++ w2 ++ t2 ++ w3) = POk ((a + b) mod 2 ^ 64))
    by (intro; apply Hv; apply ev_add; assumption).
  destruct p.
  - match goal with |- context[if ?x then _ else _] => destruct x eqn:C end; [apply E; intro; unfold in_i64; lia|].
    apply Hp. split; [reflexivity|]. exists t1, (lit "+"), t2, [], a, b. split; [reflexivity|]. split; [assumption|]. split; [assumption|].
    left. split; [reflexivity|]. unfold in_i64. lia.
  - apply E. congruence.
Qed.
Lemma top_C36_sub p w0 t1 w1 w2 t2 w3 a b : blank w0 -> blank w1 -> blank w2 -> blank w3 -> w1 <> [] -> w2 <> [] ->
  number 64 t1 a -> number 64 t2 b ->
  expr_parse p (w0 ++ t1 ++ w1 ++ lit "-" ++ w2 ++ t2 ++ w3) =
    match p with
    | Release => POk ((a - b) mod 2 ^ 64)
    | Debug => if negb (b =? 2 ^ 63) && (- 2 ^ 63 <=? signed64 a - signed64 b) && (signed64 a - signed64 b <? 2 ^ 63)
               then POk ((a - b) mod 2 ^ 64) else PPanic
    end.
Proof.
  intros B0 B1 B2 B3 N1 N2 A B.
  assert (W : words (w0 ++ t1 ++ w1 ++ lit "-" ++ w2 ++ t2 ++ w3) [t1; lit "-"; t2])
    by (apply words3; try assumption; first [eapply number_word; eassumption|apply op_word; now right]).
  destruct (top_C36 p _ _ W) as [Hv Hp]. pose proof (number_rng _ _ _ B) as Rb.
  assert (M : in_i64 (- signed64 b) <-> b <> 2 ^ 63).
  { unfold in_i64, signed64. destruct (b <? 2 ^ 63) eqn:L; lia. }
  assert (E : (p = Debug -> in_i64 (- signed64 b) /\ in_i64 (signed64 a - signed64 b)) -> expr_parse p (w0 ++ t1 ++ w1 ++ lit "-" ++ w2 ++ t2 ++ w3) = POk ((a - b) mod 2 ^ 64))
    by (intro; apply Hv; apply ev_sub; assumption).
  destruct p.
  - match goal with |- context[if ?x then _ else _] => destruct x eqn:C end.
    { apply E. intros _. rewrite M. unfold in_i64. lia. }
    apply Hp. split; [reflexivity|]. exists t1, (lit "-"), t2, [], a, b. split; [reflexivity|]. split; [assumption|]. split; [assumption|].
    right. split; [reflexivity|]. rewrite M. unfold in_i64. lia.
  - apply E. congruence.
Qed.
Lemma top_C36_error p s ts : words s ts -> (forall n, ~ expr_value p ts n) -> ~ (p = Debug /\ expr_overflow ts) ->
  exists e, expr_parse p s = PErr e.
Proof.
  intros W V O. destruct (top_C36 p s ts W) as [Hv Hp]. destruct (expr_parse p s) as [n|e|] eqn:E; [|eauto|].
  - exfalso. apply (V n), Hv. reflexivity.
  - exfalso. apply O, Hp. reflexivity.
Qed.

(** ** C37 *)
Lemma top_C37_expr p s s' t1 t2 t3 more : words s (t1 :: t2 :: t3 :: more) -> words s' [t1; t2; t3] ->
  expr_try p s = expr_try p s'.
Proof. intros W W'. unfold expr_try. now rewrite (proj2 (split_words _ _) W), (proj2 (split_words _ _) W'). Qed.
Lemma top_C37_push s s' t more : words s (lit "push" :: t :: more) -> words s' [lit "push"; t] -> push_parse s = push_parse s'.
Proof. intros W W'. unfold push_parse. now rewrite (proj2 (split_words _ _) W), (proj2 (split_words _ _) W'). Qed.
Lemma not_data_line p body t ts : words body (t :: ts) -> t <> lit "section" -> t <> lit "global" -> (forall n, t <> n ++ [58]) ->
  (forall u, t <> unit_name u) -> (forall u t' l, ts <> unit_name u :: t' :: l) ->
  line_body p body = (oi <-- inst_try p body ;; match oi with Some i => POk (LInst i) | None => PErr (lit "unrecognized line") end).
Proof.
  intros W N1 N2 N3 U1 U2. apply (line_inst p body t ts W N1 N2); [now apply ends_with_false|]. eapply no_parts; eassumption.
Qed.
Lemma not_colon_lit (s : str) : ends_with_char 58 s = false -> forall n, s <> n ++ [58].
Proof. apply ends_with_false. Qed.
Lemma top_C37_ret p s body more : line_text s body -> words body (lit "ret" :: more) ->
  (forall u t l, more <> unit_name u :: t :: l) ->
  exists i, line_parse p s = POk (LInst i) /\ means (StInstr Ret) (LInst i).
Proof.
  intros L W U. rewrite line_parse_body, (proj1 (line_text_iff _ _) L).
  rewrite (not_data_line p body _ _ W); try discriminate; try (apply not_colon_lit; reflexivity); try exact U; [|intros []; discriminate].
  unfold inst_try. rewrite (proj2 (split_words _ _) W).
  change (str_eqb (lit "ret") (lit "mov")) with false. change (str_eqb (lit "ret") (lit "push")) with false.
  rewrite str_eqb_refl. cbv iota. destruct (inst_new_means Ret I eq_refl) as (i & -> & M). exists i. split; [reflexivity|exact M].
Qed.
Lemma top_C37_syscall p s body more : line_text s body -> words body (lit "syscall" :: more) ->
  (forall u t l, more <> unit_name u :: t :: l) ->
  exists i, line_parse p s = POk (LInst i) /\ means (StInstr Syscall) (LInst i).
Proof.
  intros L W U. rewrite line_parse_body, (proj1 (line_text_iff _ _) L).
  rewrite (not_data_line p body _ _ W); try discriminate; try (apply not_colon_lit; reflexivity); try exact U; [|intros []; discriminate].
  unfold inst_try. rewrite (proj2 (split_words _ _) W).
  change (str_eqb (lit "syscall") (lit "mov")) with false. change (str_eqb (lit "syscall") (lit "push")) with false.
  change (str_eqb (lit "syscall") (lit "ret")) with false.
  rewrite str_eqb_refl. cbv iota. destruct (inst_new_means Syscall I eq_refl) as (i & -> & M). exists i. split; [reflexivity|exact M].
Qed.

(** ** C38, C39 *)
Lemma items_text_fun t : forall its its', items_text t its -> items_text t its' -> its = its'.
Proof.
  remember (length t) as n eqn:En. assert (L : (length t <= n)%nat) by lia. clear En. revert t L.
  induction n as [|n IH]; intros t L its its' H H'.
  - destruct t; [|cbn in L; lia].
    assert (Z : forall l, items_text [] l -> l = []).
    { intros [|it l] X; [reflexivity|]. apply items_uncons in X. destruct X as (r & A & _). apply item_at_shorter in A. cbn in A. lia. }
    rewrite (Z _ H), (Z _ H'). reflexivity.
  - destruct its as [|it its], its' as [|it' its'].
    + reflexivity.
    + inversion H; subst. apply items_uncons in H'. destruct H' as (r & A & _). apply item_at_shorter in A. cbn in A. lia.
    + inversion H'; subst. apply items_uncons in H. destruct H as (r & A & _). apply item_at_shorter in A. cbn in A. lia.
    + apply items_uncons in H, H'. destruct H as (r & A & H), H' as (r' & A' & H').
      pose proof (item_at_shorter _ _ _ A) as Sh.
      apply data_next_item in A, A'. destruct A as (d & <- & _ & E), A' as (d' & <- & _ & E').
      rewrite E in E'. injection E' as <- <-. f_equal. apply (IH r); [lia|assumption|assumption].
Qed.
Lemma item_pos t its : items_text t its -> Forall (fun it => match it with INum n => 0 <= n | IStr _ => True end) its.
Proof.
  induction 1; constructor; try assumption; try constructor; try exact I.
  - apply number_rng in H. lia.
  - apply number_rng in H. lia.
Qed.
Lemma items_fit u t its : items_text t its -> (Forall (fits_unit u) its <-> exists bs, items_bytes u its bs).
Proof.
  intro T. apply item_pos in T. split.
  - intro F. assert (exists bss, Forall2 (item_bytes u) its bss) as (bss & H).
    { induction F as [|it its Fi F IH]; [exists []; constructor|]. inversion T; subst.
      destruct (IH H2) as (bss & Hb).
      assert (exists b, item_bytes u it b) as (b & Bi).
      { destruct it as [n|x]; cbn [fits_unit item_bytes] in *.
        - exists (le_bytes (unit_size u) n). split; [exact Fi|]. split; [apply le_bytes_length|]. split; [apply le_bytes_bytes|].
          apply lev_le_bytes_id. unfold inu. change 256 with (2 ^ 8) in Fi. rewrite <- Z.pow_mul_r in Fi by lia. lia.
        - eexists. apply padded_pad. }
      exists (b :: bss). constructor; assumption. }
    exists (concat bss), bss. auto.
  - intros (bs & bss & F & _). clear T. induction F as [|it b its bss Bi F IH]; constructor; [|exact IH].
    destruct it; [|exact I]. cbn [item_bytes fits_unit] in *. tauto.
Qed.
Lemma data_line_body p s body lbl u text : line_text s body -> data_line body lbl u text ->
  split_parts body = Some (lbl, u, text) /\
  line_parse p s = (od <-- data_try body ;;
    match od with
    | Some d => POk (LData d)
    | None => oi <-- inst_try p body ;; match oi with Some i => POk (LInst i) | None => PErr (lit "unrecognized line") end
    end).
Proof.
  intros L D. rewrite line_parse_body, (proj1 (line_text_iff _ _) L).
  assert (Q : split_parts body = Some (lbl, u, text) /\ exists t ts, words body (t :: ts) /\ t <> lit "section" /\ t <> lit "global" /\ ends_with_char 58 t = false).
  { destruct lbl as [n|]; cbn [data_line] in D.
    - destruct D as (D & N1 & N2 & N3). split; [now apply split_parts_label|].
      destruct (label_layout_words _ _ _ _ D) as (t & ts & W). exists n, (unit_name u :: t :: ts).
      split; [exact W|]. split; [exact N1|]. split; [exact N2|]. now apply ends_with_false.
    - split; [now apply split_parts_none_label|]. destruct (data_layout_words _ _ _ D) as (t & ts & W).
      exists (unit_name u), (t :: ts). split; [exact W|]. destruct u; repeat split; discriminate. }
  destruct Q as (Sp & t & ts & W & N1 & N2 & N3). split; [exact Sp|]. unfold line_body.
  rewrite (proj2 (split_words _ _) W), (section_other _ _ _ W N1), (global_other _ _ _ W N2), N3. cbn [pbind].
  destruct (data_try body) as [[d|]| |]; cbn [pbind]; try reflexivity.
Qed.
Lemma top_C38 p s body lbl u text its bs : line_text s body -> data_line body lbl u text -> items_text text its ->
  items_bytes u its bs -> line_parse p s = POk (LData {| da_label := lbl; da_bytes := bs |}).
Proof.
  intros L D T B. destruct (data_line_body p _ _ _ _ _ L D) as [Sp ->]. unfold data_try. rewrite Sp.
  rewrite (data_loop_complete _ _ _ _ _ _ (le_n _) T B). reflexivity.
Qed.
Lemma data_line_err p s body lbl u text : line_text s body -> data_line body lbl u text ->
  (forall bs, data_loop (length text) text u [] <> POk bs) -> exists e, line_parse p s = PErr e.
Proof.
  intros L D N. destruct (data_line_body p _ _ _ _ _ L D) as [Sp ->]. unfold data_try. rewrite Sp.
  pose proof (data_loop_no_panic (length text) text u [] (le_n _)) as P.
  destruct (data_loop (length text) text u []) as [bs|e|]; [now apply (N bs) in N || (exfalso; now apply (N bs))| |congruence].
  exists e. reflexivity.
Qed.
Lemma top_C38_reject p s body lbl u text : line_text s body -> data_line body lbl u text ->
  (forall its, items_text text its -> ~ Forall (fits_unit u) its) -> exists e, line_parse p s = PErr e.
Proof.
  intros L D N. eapply data_line_err; [exact L|exact D|]. intros bs H. apply data_loop_sound in H.
  destruct H as (its & out & T & B & _). apply (N its T). apply (items_fit u text its T). eauto.
Qed.
Lemma numbers_items l t n : number 64 t n ->
  Forall (fun x => number 64 (fst (fst (fst x))) (snd (fst (fst x))) /\ delim (snd (fst x)) /\ blank (snd x)) l ->
  items_text (numbers_text l t) (map (fun x => INum (snd (fst (fst x)))) l ++ [INum n]) /\ starts_solid (numbers_text l t).
Proof.
  intros N F. induction F as [|[[[t0 n0] c] w] l (N0 & C & W) F [IH S]].
  - split; [constructor; exact N|]. apply word_tight. eapply number_word; exact N.
  - cbn [numbers_text map app fst snd] in *. split; [constructor; assumption|].
    apply starts_solid_app; [apply number_chars in N0; tauto|]. apply word_tight. eapply number_word; exact N0.
Qed.
Lemma top_C39 p s body lbl u x : line_text s body -> ~ In 34 x -> data_line body lbl u (34 :: x ++ [34]) ->
  exists k, (k < unit_size u)%nat /\ Nat.modulo (length (utf8 x) + k) (unit_size u) = 0%nat /\
    line_parse p s = POk (LData {| da_label := lbl; da_bytes := utf8 x ++ repeat 0 k |}).
Proof.
  intros L N D. pose proof (padded_pad u (utf8 x)) as P. destruct P as (k & E & K & M). exists k. split; [exact K|].
  rewrite E in M. rewrite app_length, repeat_length in M. split; [exact M|].
  eapply top_C38; [exact L|exact D| |].
  - apply (it_str x [] [] []); [exact N|constructor|exact I|constructor].
  - exists [utf8 x ++ repeat 0 k]. split; [|cbn; now rewrite app_nil_r]. constructor; [|constructor].
    cbn [item_bytes]. exists k. split; [reflexivity|]. split; [exact K|]. now rewrite app_length, repeat_length.
Qed.

(** ** C40 *)
Lemma strip_blank w s : blank w -> strip_comment (w ++ s) = w ++ strip_comment s.
Proof.
  intro B. assert (N : ~ In 59 w).
  { intro I. pose proof (proj1 (Forall_forall _ _) B 59 I) as Sp. unfold space in Sp. cbn [In] in Sp. lia. }
  destruct (line_text_iff s (strip_comment s)) as [_ H]. specialize (H eq_refl). destruct H as (Ns & H).
  apply line_text_iff. split; [rewrite in_app_iff; tauto|]. destruct H as [H | (c & H)].
  - left. f_equal. exact H.
  - right. exists c. rewrite H at 1. now rewrite app_assoc.
Qed.
Lemma strip_app s w : blank w -> strip_comment (s ++ w) = strip_comment s \/ strip_comment (s ++ w) = strip_comment s ++ w.
Proof.
  intro B. assert (N : ~ In 59 w).
  { intro I. pose proof (proj1 (Forall_forall _ _) B 59 I) as Sp. unfold space in Sp. cbn [In] in Sp. lia. }
  destruct (line_text_iff s (strip_comment s)) as [_ H]. specialize (H eq_refl). destruct H as (Ns & H).
  destruct H as [H | (c & H)].
  - right. apply line_text_iff. split; [rewrite in_app_iff; tauto|]. left. f_equal. exact H.
  - left. apply line_text_iff. split; [exact Ns|]. right. exists (c ++ w). rewrite H at 1. now rewrite <- app_assoc.
Qed.
Lemma trim_around w1 s w2 : blank w1 -> blank w2 -> trim (w1 ++ s ++ w2) = trim s.
Proof.
  intros B1 B2. destruct (trim_spec s) as (v1 & v2 & E & V1 & T & V2). rewrite E at 1.
  replace (w1 ++ (v1 ++ trim s ++ v2) ++ w2) with ((w1 ++ v1) ++ trim s ++ (v2 ++ w2)) by (now rewrite <- !app_assoc).
  apply trim_of; [apply blank_app; auto|exact T|apply blank_app; auto].
Qed.
Lemma split_around w1 s w2 : blank w1 -> blank w2 -> split_whitespace (w1 ++ s ++ w2) = split_whitespace s.
Proof. intros B1 B2. apply split_words. apply words_blank_app; [exact B1|]. apply words_app_blank; [exact B2|]. now apply split_words. Qed.
Lemma line_body_around p w1 s w2 : blank w1 -> blank w2 -> line_body p (w1 ++ s ++ w2) = line_body p s.
Proof.
  intros B1 B2. pose proof (split_around _ s _ B1 B2) as E. pose proof (trim_around _ s _ B1 B2) as T.
  unfold line_body, section_try, global_try, inst_try, push_parse, mov_parse, data_try, split_parts. rewrite !E, !T. reflexivity.
Qed.
Lemma top_C40_blank p w1 s w2 : blank w1 -> blank w2 -> line_parse p (w1 ++ s ++ w2) = line_parse p s.
Proof.
  intros B1 B2. rewrite !line_parse_body, strip_blank by exact B1. destruct (strip_app s w2 B2) as [-> | ->].
  - rewrite <- (app_nil_r (strip_comment s)) at 1. apply line_body_around; [exact B1|apply blank_nil].
  - now apply line_body_around.
Qed.
Lemma strip_cut body c : ~ In 59 body -> strip_comment (body ++ 59 :: c) = strip_comment body.
Proof.
  intro N. transitivity body; [apply line_text_iff|symmetry; apply line_text_iff]; split; eauto.
Qed.
Lemma top_C40_comment p body c : ~ In 59 body -> line_parse p (body ++ 59 :: c) = line_parse p body.
Proof. intro N. rewrite !line_parse_body, strip_cut by exact N. reflexivity. Qed.
Lemma top_C40_empty p s : line_parse p s = POk LEmpty <-> exists body, line_text s body /\ blank body.
Proof.
  split.
  - intro H. apply line_sound in H. destruct H as (body & st & L & A & M). cbn [means] in M. subst st.
    exists body. split; [exact L|]. apply words_blank. inversion A; subst; [assumption|].
    match goal with H : mov_operands _ _ _ _ |- _ => inversion H end.
  - intros (body & L & B). rewrite line_parse_body, (proj1 (line_text_iff _ _) L). unfold line_body.
    apply words_blank, split_words in B. now rewrite B.
Qed.

(** ** C41 *)
Lemma nodelim59 c : delim c -> c <> 59.
Proof. unfold delim, space. cbn [In]. lia. Qed.
Lemma number_no59 t n : number 64 t n -> ~ In 59 t.
Proof. intros N I. apply number_chars in N. destruct N as [_ F]. pose proof (proj1 (Forall_forall _ _) F 59 I) as H. unfold numchar in H. lia. Qed.
Lemma forall_no59 (P : Z -> Prop) w : (forall c, P c -> c <> 59) -> Forall P w -> ~ In 59 w.
Proof. intros H F I. exact (H 59 (proj1 (Forall_forall _ _) F 59 I) eq_refl). Qed.
Lemma first_of (k : Z) s : In k s -> exists a b, s = a ++ k :: b /\ ~ In k a.
Proof.
  intro I. destruct (split_once (fun c => c =? k) s) as [[a b]|] eqn:E.
  - apply split_char in E. eauto.
  - apply split_char_none in E. contradiction.
Qed.
Lemma unclosed a : ~ In 34 a -> forall its, ~ items_text (34 :: a) its.
Proof.
  intros N its T. assert (P : forall t n, number 64 t n -> forall r, t ++ r <> 34 :: a).
  { intros t n Nt r E. pose proof (number_chars _ _ _ Nt) as [X F]. destruct t as [|c t]; [congruence|]. injection E as -> _.
    inversion F; subst. unfold numchar in *. lia. }
  remember (34 :: a) as z eqn:Ez. destruct T as [|t n Nt|t n c w rest l Nt C W R T|x sep rest l Nx F R T].
  - discriminate.
  - apply (P _ _ Nt []). now rewrite app_nil_r.
  - exact (P _ _ Nt _ eq_refl).
  - injection Ez as <-. apply N. rewrite in_app_iff. right. left. reflexivity.
Qed.
Lemma head_solid pre a : match pre ++ 34 :: a with [] => True | c :: _ => ~ delim c end <-> match pre with [] => True | c :: _ => ~ delim c end.
Proof. destruct pre; cbn [app]; [|tauto]. split; [auto|]. intros _ [H|H]; [|lia]. unfold space in H. cbn [In] in H. lia. Qed.
Lemma cut_items text its : items_text text its -> (exists x, In (IStr x) its /\ In 59 x) ->
  exists pre a b, text = pre ++ 34 :: a ++ 59 :: b /\ ~ In 59 pre /\ ~ In 59 a /\ ~ In 34 a /\
    forall a', ~ In 34 a' -> forall l, ~ items_text (pre ++ 34 :: a') l.
Proof.
  induction 1 as [|t n N|t n c w rest its N C W R T IH|s sep rest its Q F R T IH]; intros (x & I & X).
  - contradiction.
  - destruct I as [I|[]]. discriminate.
  - destruct I as [I|I]; [discriminate|]. destruct IH as (pre & a & b & -> & P1 & P2 & P4 & P3); [eauto|].
    exists (t ++ c :: w ++ pre), a, b. split; [now rewrite <- !app_assoc; cbn [app]; rewrite <- app_assoc|].
    split; [|split; [exact P2|split; [exact P4|]]].
    + rewrite in_app_iff. cbn [In]. rewrite in_app_iff. pose proof (number_no59 _ _ N). pose proof (nodelim59 _ C).
      pose proof (forall_no59 _ w (fun c H => nodelim59 c (or_introl H)) W). intuition.
    + intros a' Na l Hl. replace ((t ++ c :: w ++ pre) ++ 34 :: a') with (t ++ c :: w ++ (pre ++ 34 :: a')) in Hl
        by (now rewrite <- !app_assoc; cbn [app]; rewrite <- app_assoc).
      assert (Ia : item_at (t ++ c :: w ++ (pre ++ 34 :: a')) (INum n) (pre ++ 34 :: a')).
      { constructor; try assumption. destruct pre; cbn [app starts_solid] in *; [|exact R]. unfold space. cbn [In]. lia. }
      apply data_next_item in Ia. destruct Ia as (d & _ & _ & E).
      destruct l as [|it l]; [inversion Hl; destruct t; discriminate|]. apply items_uncons in Hl. destruct Hl as (r & A & Hl).
      apply data_next_item in A. destruct A as (d' & _ & _ & E'). rewrite E in E'. injection E' as _ <-. now apply P3 in Hl.
  - destruct (in_dec Z.eq_dec 59 s) as [Is|Ns].
    + destruct (first_of _ _ Is) as (a & b & -> & Na). exists [], a, (b ++ 34 :: sep ++ rest).
      split; [cbn [app]; now rewrite <- app_assoc|]. split; [intros []|]. split; [exact Na|].
      split; [intro H; apply Q; rewrite in_app_iff; now left|]. intros a' Na' l. now apply unclosed.
    + destruct I as [I|I]; [injection I as ->; contradiction|]. destruct IH as (pre & a & b & -> & P1 & P2 & P4 & P3); [eauto|].
      exists (34 :: s ++ 34 :: sep ++ pre), a, b.
      split; [cbn [app]; rewrite <- !app_assoc; cbn [app]; now rewrite <- app_assoc|]. split; [|split; [exact P2|split; [exact P4|]]].
      * cbn [In]. rewrite in_app_iff. cbn [In]. rewrite in_app_iff. pose proof (forall_no59 _ sep nodelim59 F). intuition lia.
      * intros a' Na l Hl. replace ((34 :: s ++ 34 :: sep ++ pre) ++ 34 :: a') with (34 :: s ++ 34 :: sep ++ (pre ++ 34 :: a')) in Hl
          by (cbn [app]; rewrite <- !app_assoc; cbn [app]; now rewrite <- app_assoc).
        assert (Ia : item_at (34 :: s ++ 34 :: sep ++ (pre ++ 34 :: a')) (IStr s) (pre ++ 34 :: a')).
        { constructor; try assumption. apply head_solid. now apply head_solid in R. }
        apply data_next_item in Ia. destruct Ia as (d & _ & _ & E).
        destruct l as [|it l]; [inversion Hl|]. apply items_uncons in Hl. destruct Hl as (r & A & Hl).
        apply data_next_item in A. destruct A as (d' & _ & _ & E'). rewrite E in E'. injection E' as _ <-. now apply P3 in Hl.
Qed.
Lemma ends_split a : exists a' w, a = a' ++ w /\ blank w /\ starts_solid (rev (34 :: a')).
Proof.
  induction a as [|c a IH] using rev_ind.
  { exists [], []. split; [reflexivity|]. split; [apply blank_nil|]. cbn [rev app starts_solid]. unfold space. cbn [In]. lia. }
  destruct (space_dec c) as [S|S].
  - destruct IH as (a' & w & -> & W & T). exists a', (w ++ [c]). split; [now rewrite app_assoc|]. split; [|exact T].
    apply blank_app. split; [exact W|]. apply blank_cons; [exact S|apply blank_nil].
  - exists (a ++ [c]), []. split; [now rewrite app_nil_r|]. split; [apply blank_nil|].
    cbn [rev]. rewrite rev_app_distr. exact S.
Qed.
Lemma tight_cut pre x a' : tight (pre ++ 34 :: x) -> starts_solid (rev (34 :: a')) -> tight (pre ++ 34 :: a').
Proof.
  intros [T _] R. split.
  - destruct pre; cbn [app starts_solid] in *; [|exact T]. unfold space. cbn [In]. lia.
  - rewrite rev_app_distr. apply starts_solid_app; [|exact R]. cbn [rev]. destruct (rev a'); discriminate.
Qed.
(** every data line with a `;` in a string is rejected *)
Lemma top_C41 p s lbl u text its : data_line s lbl u text -> items_text text its ->
  (exists x, In (IStr x) its /\ In 59 x) -> (forall n, lbl = Some n -> ~ In 59 n) -> exists e, line_parse p s = PErr e.
Proof.
  intros D T X Nl. destruct (cut_items _ _ T X) as (pre & a & b & -> & P1 & P2 & P4 & P3).
  destruct (ends_split a) as (a' & w & -> & W & R).
  assert (Q : exists body, line_text s body /\ data_line body lbl u (pre ++ 34 :: a')).
  { assert (B59 : forall v, blank v -> ~ In 59 v) by (intro v; apply forall_no59; intros c H; apply nodelim59; now left).
    assert (U59 : ~ In 59 (unit_name u)) by (destruct u; cbn; lia).
    destruct lbl as [n|]; cbn [data_line] in D |- *.
    - destruct D as ((w0 & c1 & w1 & c2 & w2 & w3 & -> & Wn & Nu & B0 & C1 & B1 & C2 & B2 & B3 & Ne & Ti) & N123).
      exists (w0 ++ n ++ c1 :: w1 ++ unit_name u ++ c2 :: w2 ++ (pre ++ 34 :: a') ++ w). split.
      + split.
        * specialize (Nl n eq_refl). pose proof (B59 _ B0). pose proof (B59 _ B1). pose proof (B59 _ B2).
          assert (Z1 : ~ In 59 (a' ++ w)) by exact P2. pose proof (nodelim59 c1 (or_introl C1)). pose proof (nodelim59 c2 (or_introl C2)).
          repeat (rewrite in_app_iff; cbn [In]). rewrite in_app_iff in Z1. intuition lia.
        * right. exists (b ++ w3). repeat (rewrite <- !app_assoc; cbn [app]). reflexivity.
      + split; [|exact N123]. exists w0, c1, w1, c2, w2, w. split; [reflexivity|].
        repeat match goal with |- _ /\ _ => split end; try assumption; [destruct pre; discriminate|].
        eapply tight_cut; [exact Ti|exact R].
    - destruct D as (w0 & c & w1 & w2 & -> & B0 & C & B1 & B2 & Ne & Ti).
      exists (w0 ++ unit_name u ++ c :: w1 ++ (pre ++ 34 :: a') ++ w). split.
      + split.
        * pose proof (B59 _ B0). pose proof (B59 _ B1). pose proof (nodelim59 c (or_introl C)).
          assert (Z1 : ~ In 59 (a' ++ w)) by exact P2.
          repeat (rewrite in_app_iff; cbn [In]). rewrite in_app_iff in Z1. intuition lia.
        * right. exists (b ++ w2). repeat (rewrite <- !app_assoc; cbn [app]). reflexivity.
      + exists w0, c, w1, w. split; [reflexivity|].
        repeat match goal with |- _ /\ _ => split end; try assumption; [destruct pre; discriminate|].
        eapply tight_cut; [exact Ti|exact R]. }
  destruct Q as (body & L & D'). eapply data_line_err; [exact L|exact D'|]. intros bs H. apply data_loop_sound in H.
  destruct H as (l & out & Tl & _). refine (P3 a' _ l Tl).
  intro H. apply P4. rewrite in_app_iff. now left.
Qed.

(** ** C42 *)
Lemma top_C42 p s body d o st : line_text s body -> mov_body body d o -> mov_operands p d o st ->
  exists i, line_parse p s = POk (LInst i) /\ means st (LInst i).
Proof.
  intros L B M. rewrite line_parse_body, (proj1 (line_text_iff _ _) L), (mov_line p body d o B (mov_operands_reg _ _ _ _ M)).
  destruct (mov_ops_complete _ _ _ _ M) as (i & -> & Me). exists i. split; [reflexivity|exact Me].
Qed.
Lemma top_C42_reject p s body d o : line_text s body -> mov_body body d o -> is_reg_name d ->
  (forall st, ~ mov_operands p d o st) -> ~ (p = Debug /\ exists ts, words o ts /\ expr_overflow ts) ->
  exists e, line_parse p s = PErr e.
Proof.
  intros L B R N O. rewrite line_parse_body, (proj1 (line_text_iff _ _) L), (mov_line p body d o B R).
  destruct (mov_ops p d o) as [i|e|] eqn:E; cbn [pbind].
  - apply mov_ops_sound in E. destruct E as (st & M & _). now apply N in M.
  - eauto.
  - apply mov_ops_panic in E. exfalso. tauto.
Qed.
Lemma imm_only p r o ts n (P : Z -> Prop) st : words o ts -> expr_value p ts n ->
  (mov_operands p (name32 r) o st -> st = StInstr (MovRI32 r n)) .
Proof.
  intros W V M. remember (name32 r) as d eqn:Ed. destruct M as [r0 o ts0 n0 W0 V0|r0 o ts0 n0 W0 V0 L|r0 o ts0 n0 W0 V0 L|r0 r1|r0 r1|r0 r1|r0 o X Y|r0 o X Y].
  - apply (f_equal reg32_try) in Ed. rewrite t32, reg32_64 in Ed. discriminate.
  - apply (f_equal reg32_try) in Ed. rewrite !t32 in Ed. injection Ed as ->.
    pose proof (words_fun _ _ _ W W0). subst ts0. now rewrite (expr_value_fun _ _ _ _ V0 V).
  - apply (f_equal reg32_try) in Ed. rewrite t32, reg32_16 in Ed. discriminate.
  - apply (f_equal reg32_try) in Ed. rewrite t32, reg32_64 in Ed. discriminate.
  - exfalso. eapply not_expr_value; [apply plain_not_expr, name32_plain|exact W|exact V].
  - apply (f_equal reg32_try) in Ed. rewrite t32, reg32_16 in Ed. discriminate.
  - apply (f_equal reg32_try) in Ed. rewrite t32, reg32_64 in Ed. discriminate.
  - exfalso. eapply not_expr_value; eassumption.
Qed.
Lemma imm_only16 p r o ts n st : words o ts -> expr_value p ts n ->
  mov_operands p (name16 r) o st -> st = StInstr (MovRI16 r n).
Proof.
  intros W V M. remember (name16 r) as d eqn:Ed. destruct M as [r0 o ts0 n0 W0 V0|r0 o ts0 n0 W0 V0 L|r0 o ts0 n0 W0 V0 L|r0 r1|r0 r1|r0 r1|r0 o X Y|r0 o X Y];
  apply (f_equal reg16_try) in Ed; rewrite ?t16, ?reg16_64, ?reg16_32 in Ed; try discriminate; injection Ed as ->.
  - pose proof (words_fun _ _ _ W W0). subst ts0. now rewrite (expr_value_fun _ _ _ _ V0 V).
  - exfalso. eapply not_expr_value; [apply plain_not_expr, name16_plain|exact W|exact V].
Qed.
(** immediates that do not fit the destination *)
Lemma top_C42_fit p s body d o ts n : line_text s body -> mov_body body d o -> words o ts -> expr_value p ts n ->
  ((exists r, d = name32 r) /\ 2 ^ 32 <= n \/ (exists r, d = name16 r) /\ 2 ^ 16 <= n) -> exists e, line_parse p s = PErr e.
Proof.
  intros L B W V C. eapply top_C42_reject; [exact L|exact B| | |].
  - unfold is_reg_name. tauto.
  - intros st M. destruct C as [[[r ->] G]|[[r ->] G]].
    + pose proof (imm_only _ _ _ _ _ (fun _ => True) _ W V M) as ->. apply (top_C42 p) with (s := s) (body := body) in M; [|exact L|exact B].
      destruct M as (i & E & Me).
      assert (n < 2 ^ 32); [|lia].
      rewrite line_parse_body, (proj1 (line_text_iff _ _) L) in E. rewrite (mov_line p body _ o B) in E by (right; left; eauto).
      unfold mov_ops in E. rewrite reg64_32, t32, (proj2 (expr_some p o n) (ex_intro _ ts (conj W V))) in E. cbn [pbind] in E.
      unfold as_uint in E. destruct (n <? 2 ^ 32) eqn:Q; [lia|discriminate E].
    + pose proof (imm_only16 _ _ _ _ _ _ W V M) as ->. apply (top_C42 p) with (s := s) (body := body) in M; [|exact L|exact B].
      destruct M as (i & E & Me).
      assert (n < 2 ^ 16); [|lia].
      rewrite line_parse_body, (proj1 (line_text_iff _ _) L) in E. rewrite (mov_line p body _ o B) in E by (right; right; eauto).
      unfold mov_ops in E. rewrite reg64_16, reg32_16, t16, (proj2 (expr_some p o n) (ex_intro _ ts (conj W V))) in E. cbn [pbind] in E.
      unfold as_uint in E. destruct (n <? 2 ^ 16) eqn:Q; [lia|discriminate E].
  - intros (-> & ts' & W' & O). pose proof (words_fun _ _ _ W W'). subst ts'. eapply expr_value_no_overflow; eassumption.
Qed.
(** a line starting with mov assembles to nothing else *)
Lemma accepts_words p s st t ts : accepts p s st -> words s (t :: ts) ->
  match st with
  | StEmpty => False
  | StSection x => t = lit "section"
  | StGlobal n => t = lit "global"
  | StLabel n => exists k, t = n ++ repeat 58 (S k)
  | StData None _ => exists u, t = unit_name u
  | StData (Some n) _ => t = n /\ exists u t' l, ts = unit_name u :: t' :: l
  | StInstr (PushR64 _ | PushI8 _ | PushI32 _) => t = lit "push"
  | StInstr Ret => t = lit "ret"
  | StInstr Syscall => t = lit "syscall"
  | _ => t = lit "mov" /\ exists d o, mov_body s d o /\ mov_operands p d o st
  end.
Proof.
  intros A W. destruct A as [s W'|s x W'|s n W'|s n k W' N
    |w0 u c w1 text w2 its bs W0 C W1 Tn Tt W2 T B
    |w0 n c1 w1 u c2 w2 text w3 its bs W0 Wn N1 N2 N3 N4 C1 W1 C2 W2 Tn Tt W3 T B
    |w0 w1 d w2 w3 o w4 st W0 W1 W2 W3 To W4 M|s r more W'|s t' n more W' N|s t' n more W' N L|s more W' U|s more W' U];
  try (pose proof (words_fun _ _ _ W W') as E; try injection E as -> ->; try discriminate E; first [reflexivity|eexists; reflexivity]; fail).
  - assert (D : data_layout (w0 ++ unit_name u ++ c :: w1 ++ text ++ w2) u text) by (exists w0, c, w1, w2; tauto).
    destruct (data_layout_words _ _ _ D) as (t' & l & W'). pose proof (words_fun _ _ _ W W') as E. injection E as -> ->. eauto.
  - assert (D : label_layout (w0 ++ n ++ c1 :: w1 ++ unit_name u ++ c2 :: w2 ++ text ++ w3) n u text)
      by (exists w0, c1, w1, c2, w2, w3; tauto).
    destruct (label_layout_words _ _ _ _ D) as (t' & l & W'). pose proof (words_fun _ _ _ W W') as E. injection E as -> ->.
    split; [reflexivity|]. eauto.
  - assert (Q : t = lit "mov" /\ exists d' o', mov_body (w0 ++ lit "mov " ++ w1 ++ d ++ w2 ++ 44 :: w3 ++ o ++ w4) d' o' /\ mov_operands p d' o' st).
    { pose proof (mov_operands_reg _ _ _ _ M) as R. pose proof (plain_spec _ (is_reg_plain _ R)) as (Wd & Nc & _).
      assert (B : mov_body (w0 ++ lit "mov " ++ w1 ++ d ++ w2 ++ 44 :: w3 ++ o ++ w4) d o).
      { exists w0, w1, w2, w3, w4. repeat match goal with |- _ /\ _ => split end; try assumption; try reflexivity. apply word_tight, Wd. }
      destruct (mov_body_words _ _ _ B Wd) as (t' & l & W' & _). pose proof (words_fun _ _ _ W W') as E. injection E as -> ->.
      split; [reflexivity|]. exists d, o. split; assumption. }
    destruct Q as (Q1 & d' & o' & Q2 & Q3).
    clear W. remember (w0 ++ lit "mov " ++ w1 ++ d ++ w2 ++ 44 :: w3 ++ o ++ w4) as body. clear Heqbody.
    inversion M; subst; (split; [reflexivity|exists d', o'; split; assumption]).
Qed.
Lemma top_C42_only p s body t ts l : line_text s body -> words body (lit "mov" :: t :: ts) ->
  (forall u t' r, t :: ts <> unit_name u :: t' :: r) ->
  line_parse p s = POk l -> exists d o st, mov_body body d o /\ mov_operands p d o st /\ means st l.
Proof.
  intros L W U E. apply line_sound in E. destruct E as (b & st & L' & A & M).
  assert (b = body) by (eapply line_text_fun; eassumption). subst b.
  pose proof (accepts_words _ _ _ _ _ A W) as H.
  destruct st as [|x|n|n|[n|] bs|i|r y|r y]; try discriminate H; try contradiction.
  - destruct H as (k & H). apply (f_equal (ends_with_char 58)) in H.
    assert (X : ends_with_char 58 (n ++ repeat 58 (S k)) = true).
    { apply ends_with_iff. exists (n ++ repeat 58 k). rewrite <- app_assoc. f_equal. cbn [repeat].
      clear. induction k; [reflexivity|]. cbn [repeat]. cbn [app]. now rewrite <- IHk. }
    rewrite X in H. discriminate H.
  - destruct H as (_ & u & t' & r & E). now apply U in E.
  - destruct H as (u & H). destruct u; discriminate H.
  - destruct i; try discriminate H; try (destruct H as (_ & d & o & B & Mo); exists d, o; eauto).
  - destruct H as (_ & d & o & B & Mo). exists d, o. eauto.
  - destruct H as (_ & d & o & B & Mo). exists d, o. eauto.
Qed.

(** ** C43, C09 *)
Lemma top_C43_push p s body o more : line_text s body -> words body (lit "push" :: o :: more) ->
  (forall u t l, o :: more <> unit_name u :: t :: l) ->
  (forall r, o = name64 r -> exists i, line_parse p s = POk (LInst i) /\ means (StInstr (PushR64 r)) (LInst i)) /\
  (forall n, number 32 o n ->
     exists i, line_parse p s = POk (LInst i) /\ means (StInstr (if n <? 256 then PushI8 n else PushI32 n)) (LInst i)) /\
  ((forall r, o <> name64 r) -> (forall n, ~ number 32 o n) ->
     line_parse p s = PErr (lit "error: invalid push operand : " ++ o)).
Proof.
  intros L W U. rewrite line_parse_body, (proj1 (line_text_iff _ _) L).
  rewrite (not_data_line p body _ _ W); try discriminate; try (apply not_colon_lit; reflexivity); try exact U; [|intros []; discriminate].
  unfold inst_try. rewrite (proj2 (split_words _ _) W).
  change (str_eqb (lit "push") (lit "mov")) with false. rewrite str_eqb_refl. cbv iota.
  unfold push_parse. rewrite (proj2 (split_words _ _) W), str_eqb_refl. cbv iota. split; [|split].
  - intros r ->. rewrite t64. destruct (inst_new_means (PushR64 r) I eq_refl) as (i & -> & M). exists i. split; [reflexivity|exact M].
  - intros n N. assert (R : reg64_try o = None).
    { apply (try_none _ _ _ reg64_try_iff). intros r ->. eapply number_not_name; exact N. }
    rewrite R. pose proof (number_rng _ _ _ N) as Rn. destruct (n <? 256) eqn:Q.
    + assert (N8 : num_try 8 o = Some n) by (apply num_try_iff; eapply number_bits; [exact N|change (2 ^ 8) with 256; lia]).
      rewrite N8. assert (Ok8 : instr_ok (PushI8 n)) by (cbn; unfold inu; lia).
      destruct (inst_new_means _ Ok8 eq_refl) as (i & -> & M). exists i. split; [reflexivity|exact M].
    + assert (N8 : num_try 8 o = None).
      { apply num_try_none. intros v N8. pose proof (top_C35_value_unique _ _ _ _ _ N8 N). subst v. apply number_rng in N8. lia. }
      rewrite N8, (proj2 (num_try_iff 32 o n) N). assert (Ok32 : instr_ok (PushI32 n)) by (cbn; unfold inu; lia).
      destruct (inst_new_means _ Ok32 eq_refl) as (i & -> & M). exists i. split; [reflexivity|exact M].
  - intros R N. rewrite (proj2 (try_none _ _ _ reg64_try_iff) R).
    assert (N8 : num_try 8 o = None).
    { apply num_try_none. intros v N8. apply (N v). pose proof (number_rng _ _ _ N8). eapply number_bits; [exact N8|]. change (2 ^ 8) with 256 in *. lia. }
    rewrite N8, (proj2 (num_try_none 32 o) N). reflexivity.
Qed.
Lemma top_C43_no_operand p s body : line_text s body -> words body [lit "push"] ->
  line_parse p s = PErr (lit "error: operand is expected after push opcode").
Proof.
  intros L W. rewrite line_parse_body, (proj1 (line_text_iff _ _) L).
  rewrite (not_data_line p body _ _ W); try discriminate; try (apply not_colon_lit; reflexivity); [|intros []; discriminate].
  unfold inst_try. rewrite (proj2 (split_words _ _) W).
  change (str_eqb (lit "push") (lit "mov")) with false. rewrite str_eqb_refl. cbv iota.
  unfold push_parse. rewrite (proj2 (split_words _ _) W), str_eqb_refl. reflexivity.
Qed.

Lemma top_C09 p s body o more n : line_text s body -> words body (lit "push" :: o :: more) ->
  (forall u t l, o :: more <> unit_name u :: t :: l) -> number 32 o n ->
  exists i, line_parse p s = POk (LInst i) /\ in_reloc i = None /\
    forall m, mach_ok m -> code_at m (bam_ref (in_bytes i)) ->
    exists m', step m = Next m' /\ regs m' rsp = (regs m rsp - 8) mod 2 ^ 64 /\
      load 8 (mem m') (regs m' rsp) = pushed n mod 2 ^ 64 /\
      (pushed n mod 2 ^ 64 = n <-> n < 128 \/ 256 <= n < 2 ^ 31).
Proof.
  intros L W U N. destruct (proj1 (proj2 (top_C43_push p s body o more L W U)) n N) as (i & E & Em & R).
  exists i. split; [exact E|]. split; [exact R|]. intros m Ok Co. pose proof (number_rng _ _ _ N) as Rn.
  assert (Iok : instr_ok (if n <? 256 then PushI8 n else PushI32 n)) by (destruct (n <? 256) eqn:Q; cbn; unfold inu; lia).
  pose proof (top_C08 _ _ m Iok Em Ok Co) as S. destruct (step m) as [m'|m'|] eqn:St; [| |contradiction].
  - exists m'. split; [reflexivity|]. destruct S as (_ & S).
    assert (Q : (pushed n mod 2 ^ 64 = n <-> n < 128 \/ 256 <= n < 2 ^ 31)).
    { unfold pushed, sext. destruct (n <? 256) eqn:Q; match goal with |- context[if ?b then _ else _] => destruct b eqn:Z1 end; lia. }
    unfold pushed in *. destruct (n <? 256); cbn [effect push_value] in S; unfold W64 in S; tauto.
  - destruct S as (S & _). destruct (n <? 256); discriminate S.
Qed.

(** ** C44 *)
Ltac no_mov := match goal with H : mov_operands _ _ _ _ |- _ => now inversion H end.
Lemma top_C44_section p s x : line_parse p s = POk (LSection x) <->
  exists body, line_text s body /\ words body [lit "section"; sect_name x].
Proof.
  split.
  - intro E. apply line_sound in E. destruct E as (body & st & L & A & M). cbn [means] in M. subst st. exists body. split; [exact L|].
    inversion A; subst; [assumption|no_mov].
  - intros (body & L & W). destruct (line_complete p s body (StSection x) L (ac_section p body x W)) as (l & E & M).
    rewrite E. destruct l; cbn [means] in M; congruence || contradiction.
Qed.
Lemma top_C44_global p s n : line_parse p s = POk (LGlobal n) <->
  exists body, line_text s body /\ words body [lit "global"; n].
Proof.
  split.
  - intro E. apply line_sound in E. destruct E as (body & st & L & A & M). cbn [means] in M. subst st. exists body. split; [exact L|].
    inversion A; subst; [assumption|no_mov].
  - intros (body & L & W). destruct (line_complete p s body (StGlobal n) L (ac_global p body n W)) as (l & E & M).
    rewrite E. destruct l; cbn [means] in M; congruence || contradiction.
Qed.
Lemma top_C44_label p s n : line_parse p s = POk (LSymbol n) <->
  exists body k, line_text s body /\ words body [n ++ repeat 58 (S k)] /\ forall n', n <> n' ++ [58].
Proof.
  split.
  - intro E. apply line_sound in E. destruct E as (body & st & L & A & M). cbn [means] in M. subst st. exists body.
    inversion A; subst; [|no_mov]. exists k. auto.
  - intros (body & k & L & W & N). destruct (line_complete p s body (StLabel n) L (ac_label p body n k W N)) as (l & E & M).
    rewrite E. destruct l; cbn [means] in M; congruence || contradiction.
Qed.
Lemma top_C44_data p s d : line_parse p s = POk (LData d) <->
  exists body u text its, line_text s body /\ data_line body (da_label d) u text /\ items_text text its /\ items_bytes u its (da_bytes d).
Proof.
  split.
  - intro E. apply line_sound in E. destruct E as (body & st & L & A & M). cbn [means] in M. subst st. exists body.
    inversion A; subst.
    + exists u, text, its. split; [exact L|]. split; [|auto]. exists w0, c, w1, w2. tauto.
    + exists u, text, its. split; [exact L|]. split; [|auto]. cbn [data_line]. split; [|tauto]. exists w0, c1, w1, c2, w2, w3. tauto.
    + no_mov.
  - intros (body & u & text & its & L & D & T & B). rewrite (top_C38 p s body (da_label d) u text its (da_bytes d) L D T B). now destruct d.
Qed.
Lemma top_C44_bad_section p s body ts : line_text s body -> words body (lit "section" :: ts) ->
  (forall x, ts <> [sect_name x]) -> exists e, line_parse p s = PErr e.
Proof.
  intros L W N. rewrite line_parse_body, (proj1 (line_text_iff _ _) L). unfold line_body.
  rewrite (proj2 (split_words _ _) W). pose proof (section_no_panic body) as P. destruct (section_try body) as [[x|]|e|] eqn:E; cbn [pbind].
  - apply section_some in E. pose proof (words_fun _ _ _ W E) as H. injection H as ->. now elim (N x).
  - apply section_none with (ts := ts) in E. contradiction.
  - eauto.
  - congruence.
Qed.
Lemma top_C44_bad_global p s body ts : line_text s body -> words body (lit "global" :: ts) ->
  (forall n, ts <> [n]) -> exists e, line_parse p s = PErr e.
Proof.
  intros L W N. rewrite line_parse_body, (proj1 (line_text_iff _ _) L). unfold line_body.
  rewrite (proj2 (split_words _ _) W), (section_other _ _ _ W) by discriminate. cbn [pbind].
  pose proof (global_no_panic body) as P. destruct (global_try body) as [[x|]|e|] eqn:E; cbn [pbind].
  - apply global_some in E. pose proof (words_fun _ _ _ W E) as H. injection H as ->. now elim (N x).
  - apply global_none with (ts := ts) in E. contradiction.
  - eauto.
  - congruence.
Qed.
Lemma top_C44_bad_label p s body n t ts : line_text s body -> words body ((n ++ [58]) :: t :: ts) ->
  line_parse p s = PErr (lit "error: expected end of line.").
Proof.
  intros L W. rewrite line_parse_body, (proj1 (line_text_iff _ _) L). unfold line_body.
  assert (X : ends_with_char 58 (n ++ [58]) = true) by (apply ends_with_iff; eauto).
  rewrite (proj2 (split_words _ _) W), (section_other _ _ _ W), (global_other _ _ _ W), X.
  - reflexivity.
  - intro E. rewrite E in X. discriminate X.
  - intro E. rewrite E in X. discriminate X.
Qed.
Lemma top_C44_unknown p s body t ts : line_text s body -> words body (t :: ts) -> (forall n, t <> n ++ [58]) ->
  ~ In t [lit "section"; lit "global"; lit "mov"; lit "push"; lit "ret"; lit "syscall"] -> (forall u, t <> unit_name u) ->
  (forall u t' l, ts <> unit_name u :: t' :: l) -> line_parse p s = PErr (lit "unrecognized line").
Proof.
  intros L W C N U1 U2. rewrite line_parse_body, (proj1 (line_text_iff _ _) L).
  assert (Q : forall x, In x [lit "section"; lit "global"; lit "mov"; lit "push"; lit "ret"; lit "syscall"] -> str_eqb t x = false).
  { intros x I. apply str_eqb_neq. intros ->. contradiction. }
  rewrite (not_data_line p body t ts W); try assumption; try (intros ->; apply N; cbn [In]; tauto).
  unfold inst_try. rewrite (proj2 (split_words _ _) W).
  rewrite (Q (lit "mov")), (Q (lit "push")), (Q (lit "ret")), (Q (lit "syscall")) by (cbn [In]; tauto). reflexivity.
Qed.

(** ** C60: the accepted language *)
Lemma top_C60 p s body : line_text s body ->
  (exists l, line_parse p s = POk l) <-> (exists st, accepts p body st).
Proof.
  intro L. split.
  - intros (l & E). apply line_sound in E. destruct E as (b & st & L' & A & _). rewrite (line_text_fun _ _ _ L L'). eauto.
  - intros (st & A). destruct (line_complete _ _ _ _ L A) as (l & E & _). eauto.
Qed.
Lemma top_C60_meaning p s body l st : line_text s body -> line_parse p s = POk l -> accepts p body st -> means st l.
Proof. intros L E A. destruct (line_complete _ _ _ _ L A) as (l' & E' & M). congruence. Qed.
