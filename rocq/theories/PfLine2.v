(** Proofs about the line parser. *)
From Coq Require String.
Import String.StringSyntax.
From Coq Require Import ZifyBool ZifyNat.
From Verif Require Import Base Str X64 SpecX86 Obj Asm SpecAsm PfStr PfTok PfX64 PfX86 PfX64Top PfBytes PfAsm PfData PfLine.
Ltac Zify.zify_post_hook ::= Z.div_mod_to_equations.

Lemma ends_with_iff k s : ends_with_char k s = true <-> exists n, s = n ++ [k].
Proof.
  unfold ends_with_char. destruct (rev s) as [|d r] eqn:E.
  - split; [congruence|]. intros (n & ->). rewrite rev_app_distr in E. discriminate E.
  - rewrite Z.eqb_eq. apply (f_equal (@rev Z)) in E. rewrite rev_involutive in E. cbn [rev] in E. subst s. split.
    + intros ->. eauto.
    + intros (n & H). apply app_inj_tail in H. tauto.
Qed.
Lemma ends_with_false k s : ends_with_char k s = false <-> forall n, s <> n ++ [k].
Proof.
  destruct (ends_with_char k s) eqn:E.
  - split; [congruence|]. intro H. apply ends_with_iff in E. destruct E as [n ->]. now apply (H n) in eq_refl || (exfalso; now apply (H n)).
  - split; [|reflexivity]. intros _ n ->. assert (ends_with_char k (n ++ [k]) = true) by (apply ends_with_iff; eauto). congruence.
Qed.
Lemma rev_repeat {A} (x : A) n : rev (repeat x n) = repeat x n.
Proof.
  induction n as [|n IH]; [reflexivity|]. cbn [repeat rev]. rewrite IH.
  change [x] with (repeat x 1). rewrite <- repeat_app. replace (n + 1)%nat with (S n) by lia. reflexivity.
Qed.
Lemma trim_end_repeat k n j : (forall n', n <> n' ++ [k]) ->
  trim_end_by (fun c => c =? k) (n ++ repeat k j) = n.
Proof.
  intro H. unfold trim_end_by. rewrite rev_app_distr, rev_repeat, drop_while_app.
  - rewrite drop_while_stop; [apply rev_involutive|]. destruct (rev n) as [|c r] eqn:E; [exact I|].
    apply Z.eqb_neq. intros ->. apply (f_equal (@rev Z)) in E. rewrite rev_involutive in E. now apply H in E.
  - apply Forall_forall. intros x I. apply repeat_spec in I. subst. apply Z.eqb_refl.
Qed.
Lemma trim_end_spec k s : exists j, s = trim_end_by (fun c => c =? k) s ++ repeat k j /\
  (forall n', trim_end_by (fun c => c =? k) s <> n' ++ [k]) /\ (ends_with_char k s = true -> j <> O).
Proof.
  unfold trim_end_by. destruct (drop_while_spec (fun c => c =? k) (rev s)) as (w & E & F & G).
  set (u := drop_while (fun c => c =? k) (rev s)) in *.
  assert (Ew : w = repeat k (length w)).
  { clear -F. induction F as [|c w C _ IH]; [reflexivity|]. cbn. rewrite <- IH. f_equal. lia. }
  exists (length w). apply (f_equal (@rev Z)) in E. rewrite rev_involutive, rev_app_distr, Ew, rev_repeat in E.
  split; [exact E|]. split.
  - intros n' H. apply (f_equal (@rev Z)) in H. rewrite rev_involutive, rev_app_distr in H. cbn [rev app] in H.
    rewrite H in G. rewrite Z.eqb_refl in G. congruence.
  - intros H L. rewrite L in E. cbn [repeat] in E. rewrite app_nil_r in E. apply ends_with_iff in H.
    destruct H as [n Hn]. clearbody u. rewrite Hn in E. apply (f_equal (@rev Z)) in E.
    rewrite rev_involutive, rev_app_distr in E. cbn [rev app] in E. rewrite <- E, Z.eqb_refl in G. congruence.
Qed.

(** ** Directives *)

Lemma section_other s t ts : words s (t :: ts) -> t <> lit "section" -> section_try s = POk None.
Proof.
  intros W N. apply split_words in W. unfold section_try. rewrite W. apply str_eqb_neq in N. now rewrite N.
Qed.
Lemma section_some s x : section_try s = POk (Some x) <-> words s [lit "section"; sect_name x].
Proof.
  rewrite <- split_words. unfold section_try. destruct (split_whitespace s) as [|t0 ts]; [split; congruence|].
  destruct (str_eqb t0 (lit "section")) eqn:E.
  - apply str_eqb_eq in E. subst t0. destruct ts as [|n ts]; [split; congruence|].
    change (str_match n [(lit ".text", SText); (lit ".data", SData); (lit ".bss", SBss)]) with (sect_try n).
    destruct (sect_try n) as [y|] eqn:Sn.
    + apply sect_try_iff in Sn. subst n. destruct ts; split; intro H; try congruence.
      injection H. intro E. assert (sect_try (sect_name y) = Some y) by now apply sect_try_iff.
      assert (sect_try (sect_name x) = Some x) by now apply sect_try_iff. congruence.
    + split; [congruence|]. intro H. injection H as -> _.
      assert (sect_try (sect_name x) = Some x) by now apply sect_try_iff. congruence.
  - apply str_eqb_neq in E. split; congruence.
Qed.
Lemma section_none s : section_try s = POk None <-> forall ts, ~ words s (lit "section" :: ts).
Proof.
  setoid_rewrite <- split_words. unfold section_try. destruct (split_whitespace s) as [|t0 ts]; [split; congruence|].
  destruct (str_eqb t0 (lit "section")) eqn:E.
  - apply str_eqb_eq in E. subst t0. split; [|intro H; now apply (H ts) in eq_refl || (exfalso; now apply (H ts))].
    destruct ts as [|n ts]; [congruence|].
    destruct (str_match n [(lit ".text", SText); (lit ".data", SData); (lit ".bss", SBss)]); [|congruence].
    destruct ts; congruence.
  - apply str_eqb_neq in E. split; [|reflexivity]. intros _ l H. congruence.
Qed.
Lemma section_no_panic s : section_try s <> PPanic.
Proof.
  unfold section_try. destruct (split_whitespace s) as [|t0 ts]; [congruence|].
  destruct (str_eqb t0 (lit "section")); [|congruence]. destruct ts as [|n ts]; [congruence|].
  destruct (str_match n [(lit ".text", SText); (lit ".data", SData); (lit ".bss", SBss)]); [|congruence].
  destruct ts; congruence.
Qed.
Lemma global_other s t ts : words s (t :: ts) -> t <> lit "global" -> global_try s = POk None.
Proof.
  intros W N. apply split_words in W. unfold global_try. rewrite W. apply str_eqb_neq in N. now rewrite N.
Qed.
Lemma global_some s n : global_try s = POk (Some n) <-> words s [lit "global"; n].
Proof.
  rewrite <- split_words. unfold global_try. destruct (split_whitespace s) as [|t0 ts]; [split; congruence|].
  destruct (str_eqb t0 (lit "global")) eqn:E.
  - apply str_eqb_eq in E. subst t0. destruct ts as [|m [|? ?]]; split; congruence.
  - apply str_eqb_neq in E. split; congruence.
Qed.
Lemma global_none s : global_try s = POk None <-> forall ts, ~ words s (lit "global" :: ts).
Proof.
  setoid_rewrite <- split_words. unfold global_try. destruct (split_whitespace s) as [|t0 ts]; [split; congruence|].
  destruct (str_eqb t0 (lit "global")) eqn:E.
  - apply str_eqb_eq in E. subst t0. split; [|intro H; exfalso; now apply (H ts)].
    destruct ts as [|n [|? ?]]; congruence.
  - apply str_eqb_neq in E. split; [|reflexivity]. intros _ l H. congruence.
Qed.
Lemma global_no_panic s : global_try s <> PPanic.
Proof.
  unfold global_try. destruct (split_whitespace s) as [|t0 ts]; [congruence|].
  destruct (str_eqb t0 (lit "global")); [|congruence]. destruct ts as [|n [|? ?]]; congruence.
Qed.

(** ** push, ret, syscall *)

Lemma push_no_panic s : push_parse s <> PPanic.
Proof.
  unfold push_parse. destruct (split_whitespace s) as [|t0 ts]; [congruence|].
  destruct (str_eqb t0 (lit "push")); [|congruence]. destruct ts as [|o ts]; [congruence|].
  destruct (reg64_try o); [apply inst_new_no_panic; [exact I|reflexivity]|].
  destruct (num_try 8 o) eqn:E8.
  { apply num_try_iff, number_rng in E8. apply inst_new_no_panic; [exact E8|reflexivity]. }
  destruct (num_try 32 o) eqn:E32; [|congruence].
  apply num_try_iff, number_rng in E32. apply inst_new_no_panic; [exact E32|reflexivity].
Qed.
Lemma number_not_name bits r n : ~ number bits (name64 r) n.
Proof. apply (plain_spec _ (name64_plain r)). Qed.

(** what the assembler makes of a line, given its body *)
Definition line_body (p : profile) (s : str) : presult line :=
  match split_whitespace s with
  | [] => POk LEmpty
  | token :: tokens =>
      os <-- section_try s ;;
      match os with
      | Some sec => POk (LSection sec)
      | None =>
      og <-- global_try s ;;
      match og with
      | Some name => POk (LGlobal name)
      | None =>
      if ends_with_char 58 token then
        match tokens with
        | _ :: _ => PErr (lit "error: expected end of line.")
        | [] => POk (LSymbol (trim_end_by (fun c => c =? 58) token))
        end
      else
      od <-- data_try s ;;
      match od with
      | Some d => POk (LData d)
      | None =>
      oi <-- inst_try p s ;;
      match oi with
      | Some i => POk (LInst i)
      | None => PErr (lit "unrecognized line")
      end
      end
      end
      end
  end.
Lemma line_parse_body p s : line_parse p s = line_body p (strip_comment s).
Proof. reflexivity. Qed.
Lemma line_text_iff s body : line_text s body <-> strip_comment s = body.
Proof.
  unfold line_text, strip_comment. split.
  - intros (N & [-> | (c & ->)]).
    + now rewrite (proj2 (split_char_none 59 body) N).
    + now rewrite (proj2 (split_char 59 _ body c) (conj eq_refl N)).
  - destruct (split_once (fun c => c =? 59) s) as [[a b]|] eqn:E; intros <-.
    + apply split_char in E. destruct E as [-> N]. eauto.
    + apply split_char_none in E. auto.
Qed.

(** ** Soundness *)

Lemma push_sound s i : push_parse s = POk i -> exists st, (forall p, accepts p s st) /\ means st (LInst i).
Proof.
  unfold push_parse. pose proof (words_split s) as W. destruct (split_whitespace s) as [|t0 ts]; [congruence|].
  destruct (str_eqb t0 (lit "push")) eqn:E; [|congruence]. apply str_eqb_eq in E. subst t0.
  destruct ts as [|o ts]; [congruence|].
  destruct (reg64_try o) as [r|] eqn:R.
  { apply reg64_try_iff in R. subst o. intro H. apply inst_new_inv in H. exists (StInstr (PushR64 r)).
    split; [intro; eapply ac_push_reg; exact W|cbn; tauto]. }
  destruct (num_try 8 o) as [n|] eqn:E8.
  { apply num_try_iff in E8. intro H. apply inst_new_inv in H. exists (StInstr (PushI8 n)).
    split; [intro; eapply ac_push8; eassumption|cbn; tauto]. }
  destruct (num_try 32 o) as [n|] eqn:E32; [|congruence].
  apply num_try_iff in E32. intro H. apply inst_new_inv in H. exists (StInstr (PushI32 n)).
  split; [|cbn; tauto]. intro. eapply ac_push32; [exact W|exact E32|].
  destruct (Z_lt_le_dec n 256) as [L|L]; [|exact L]. exfalso.
  apply (proj1 (num_try_none 8 o) E8 n). eapply number_bits; [exact E32|exact L].
Qed.
Lemma inst_sound p s i : split_parts s = None -> inst_try p s = POk (Some i) ->
  exists st, accepts p s st /\ means st (LInst i).
Proof.
  intros SP. unfold inst_try. pose proof (words_split s) as W.
  destruct (split_whitespace s) as [|t0 ts]; [congruence|].
  destruct (str_eqb t0 (lit "mov")) eqn:E1.
  { intro H. apply pbind_ok in H. destruct H as (x & H & E). injection E as ->.
    destruct (mov_parse_inv p s) as [[e Ee]|(d & o & B)]; [congruence|].
    rewrite (mov_parse_body p s d o B) in H. apply mov_ops_sound in H. destruct H as (st & M & Me).
    exists st. split; [|exact Me]. destruct B as (w0 & w1 & w2 & w3 & w4 & -> & B).
    apply ac_mov; tauto. }
  destruct (str_eqb t0 (lit "push")) eqn:E2.
  { intro H. apply pbind_ok in H. destruct H as (x & H & E). injection E as ->.
    apply push_sound in H. destruct H as (st & A & M). eauto. }
  assert (NU : (forall u, t0 <> unit_name u) -> forall u t l, ts <> unit_name u :: t :: l).
  { intros Nu u t l ->. destruct (proj1 (split_parts_none s) SP _ _ W) as [_ H]. eapply H; eauto. }
  destruct (str_eqb t0 (lit "ret")) eqn:E3.
  { intro H. apply pbind_ok in H. destruct H as (x & H & E). injection E as ->. apply inst_new_inv in H.
    apply str_eqb_eq in E3. subst t0. exists (StInstr Ret). split; [|cbn; tauto].
    eapply ac_ret; [exact W|]. apply NU. intro u; destruct u; discriminate. }
  destruct (str_eqb t0 (lit "syscall")) eqn:E4; [|congruence].
  intro H. apply pbind_ok in H. destruct H as (x & H & E). injection E as ->. apply inst_new_inv in H.
  apply str_eqb_eq in E4. subst t0. exists (StInstr Syscall). split; [|cbn; tauto].
  eapply ac_syscall; [exact W|]. apply NU. intro u; destruct u; discriminate.
Qed.

Lemma line_body_sound p s l : line_body p s = POk l -> exists st, accepts p s st /\ means st l.
Proof.
  unfold line_body. pose proof (words_split s) as W. destruct (split_whitespace s) as [|t ts].
  { intro H. injection H as <-. exists StEmpty. split; [apply ac_empty; exact W|reflexivity]. }
  intro H. apply pbind_ok in H. destruct H as ([x|] & Es & H).
  { injection H as <-. apply section_some in Es. exists (StSection x). split; [apply ac_section, Es|reflexivity]. }
  apply pbind_ok in H. destruct H as ([n|] & Eg & H).
  { injection H as <-. apply global_some in Eg. exists (StGlobal n). split; [apply ac_global, Eg|reflexivity]. }
  destruct (ends_with_char 58 t) eqn:Ec.
  { destruct ts as [|? ?]; [|congruence]. injection H as <-.
    destruct (trim_end_spec 58 t) as (j & E & N & J). destruct j as [|j]; [now apply J in Ec|].
    exists (StLabel (trim_end_by (fun c => c =? 58) t)). split; [|reflexivity].
    eapply (ac_label p s _ j); [|exact N]. rewrite <- E. exact W. }
  apply pbind_ok in H. destruct H as ([d|] & Ed & H).
  { injection H as <-. apply data_try_some in Ed. destruct Ed as (u & text & its & T & B & L).
    exists (StData (da_label d) (da_bytes d)). split; [|reflexivity].
    destruct (da_label d) as [n|].
    - pose proof (label_layout_words _ _ _ _ L) as (t' & l' & W2).
      pose proof (words_fun _ _ _ W W2) as E. injection E as -> _.
      destruct L as (w0 & c1 & w1 & c2 & w2 & w3 & -> & L).
      assert (N1 : n <> lit "section") by (intros ->; apply (proj1 (section_none _) Es) in W; exact W).
      assert (N2 : n <> lit "global") by (intros ->; apply (proj1 (global_none _) Eg) in W; exact W).
      pose proof (proj1 (ends_with_false 58 n) Ec) as N3.
      eapply ac_data_label; try eassumption; tauto.
    - destruct L as (w0 & c & w1 & w2 & -> & L). eapply ac_data; try eassumption; tauto. }
  apply data_try_none in Ed. apply pbind_ok in H. destruct H as ([i|] & Ei & H); [|congruence].
  injection H as <-. eapply inst_sound; eassumption.
Qed.

(** ** Completeness *)

Lemma words_prefix d rest : word d -> exists u v ts, rest = u ++ v /\
  Forall (fun c => ~ space c) u /\ starts_blank v /\ words (d ++ rest) ((d ++ u) :: ts).
Proof.
  intros [N F]. destruct (drop_while_spec (fun c => negb (is_ws c)) rest) as (u & E & Fu & G).
  set (v := drop_while (fun c => negb (is_ws c)) rest) in *. exists u, v, (split_whitespace v).
  assert (Fu' : Forall (fun c => ~ space c) u).
  { eapply Forall_impl; [|exact Fu]. cbn. intros c C. apply is_ws_false. destruct (is_ws c); [discriminate C|reflexivity]. }
  assert (B : starts_blank v).
  { destruct v; [exact I|]. apply is_ws_iff. destruct (is_ws z); [reflexivity|discriminate G]. }
  split; [exact E|]. split; [exact Fu'|]. split; [exact B|]. rewrite E at 1. rewrite app_assoc.
  apply (words_cons []); [apply blank_nil| |exact B|apply words_split].
  split; [destruct d; [congruence|discriminate]|]. apply Forall_app. split; assumption.
Qed.
Lemma mov_body_words s d o : mov_body s d o -> word d ->
  exists t ts, words s (lit "mov" :: t :: ts) /\ (t = d \/ In 44 t).
Proof.
  intros (w0 & w1 & w2 & w3 & w4 & -> & W0 & W1 & W2 & W3 & W4 & Td & Nd & To) Wd.
  destruct (words_prefix d (w2 ++ 44 :: w3 ++ o ++ w4) Wd) as (u & v & ts & E & Fu & B & W).
  exists (d ++ u), ts. split.
  - rewrite lit_mov_sp. assert (Sp : space 32) by (apply is_ws_iff; reflexivity).
    apply words_cons; [exact W0| |exact Sp|].
    + split; [discriminate|]. repeat constructor; apply is_ws_false; reflexivity.
    + apply words_space; [exact Sp|]. apply words_blank_app; assumption.
  - destruct u as [|x u]; [left; apply app_nil_r|]. right. rewrite in_app_iff. right.
    destruct w2 as [|c w2]; cbn [app] in E; injection E as <- _.
    + left. reflexivity.
    + inversion W2; subst. inversion Fu; subst. contradiction.
Qed.
Lemma unit_no_comma u : ~ In 44 (unit_name u).
Proof. destruct u; cbn; lia. Qed.
Lemma reg_not_unit d u : is_reg_name d -> d <> unit_name u.
Proof. intros [[r ->] | [[r ->] | [r ->]]]; destruct r, u; discriminate. Qed.
Lemma number_not_unit bits u n : ~ number bits (unit_name u) n.
Proof. apply (plain_spec (unit_name u)). now destruct u. Qed.

(** lines whose first word is an instruction's *)
Lemma line_inst p s t ts : words s (t :: ts) -> t <> lit "section" -> t <> lit "global" ->
  ends_with_char 58 t = false -> split_parts s = None ->
  line_body p s = (oi <-- inst_try p s ;; match oi with Some i => POk (LInst i) | None => PErr (lit "unrecognized line") end).
Proof.
  intros W N1 N2 N3 SP. unfold line_body. pose proof (proj2 (split_words _ _) W) as E. rewrite E.
  rewrite (section_other _ _ _ W N1), (global_other _ _ _ W N2), N3. cbn [pbind].
  rewrite (proj2 (data_try_none s) SP). reflexivity.
Qed.
Lemma no_parts s t ts : words s (t :: ts) -> (forall u, t <> unit_name u) ->
  (forall u t' l, ts <> unit_name u :: t' :: l) -> split_parts s = None.
Proof.
  intros W N1 N2. apply split_parts_none. intros t0 ts0 W0. pose proof (words_fun _ _ _ W W0) as E.
  injection E as -> ->. split.
  - intros u E. now apply N1 in E.
  - intros u t' l _ E. now apply N2 in E.
Qed.
Lemma mov_line p s d o : mov_body s d o -> is_reg_name d ->
  line_body p s = (i <-- mov_ops p d o ;; POk (LInst i)).
Proof.
  intros B R. pose proof (plain_spec _ (is_reg_plain _ R)) as (Wd & _).
  destruct (mov_body_words _ _ _ B Wd) as (t & ts & W & C).
  rewrite (line_inst p s _ _ W); try discriminate; try reflexivity.
  - unfold inst_try. rewrite (proj2 (split_words _ _) W). rewrite str_eqb_refl.
    rewrite (mov_parse_body p s d o B). destruct (mov_ops p d o); reflexivity.
  - apply (no_parts _ _ _ W); [intro u; destruct u; discriminate|].
    intros u t' l E. injection E as -> _. destruct C as [C|C].
    + symmetry in C. now apply reg_not_unit in C.
    + now apply unit_no_comma in C.
Qed.
Lemma push_line p s o ts : words s (lit "push" :: o :: ts) -> (forall u, o <> unit_name u) ->
  line_body p s = (i <-- push_parse s ;; POk (LInst i)).
Proof.
  intros W N. rewrite (line_inst p s _ _ W); try discriminate; try reflexivity.
  - unfold inst_try. rewrite (proj2 (split_words _ _) W).
    change (str_eqb (lit "push") (lit "mov")) with false. rewrite str_eqb_refl. destruct (push_parse s); reflexivity.
  - apply (no_parts _ _ _ W); [intro u; destruct u; discriminate|]. intros u t' l E. injection E as -> _. now apply (N u).
Qed.
Lemma inst_new_means i : instr_ok i -> instr_mem i = None ->
  exists x, inst_new i = POk x /\ means (StInstr i) (LInst x).
Proof. intros H1 H2. destruct (inst_new_ok i H1 H2) as (x & E & R & Em). exists x. split; [exact E|]. cbn. tauto. Qed.

Lemma line_body_complete p s st : accepts p s st -> exists l, line_body p s = POk l /\ means st l.
Proof.
  destruct 1 as [s W|s x W|s n W|s n k W N
    |w0 u c w1 text w2 its bs W0 C W1 Tn Tt W2 T B
    |w0 n c1 w1 u c2 w2 text w3 its bs W0 Wn N1 N2 N3 N4 C1 W1 C2 W2 Tn Tt W3 T B
    |w0 w1 d w2 w3 o w4 st W0 W1 W2 W3 To W4 M
    |s r more W|s t n more W N|s t n more W N L|s more W N|s more W N].
  - exists LEmpty. unfold line_body. rewrite (proj2 (split_words _ _) W). split; reflexivity.
  - exists (LSection x). unfold line_body. pose proof (proj2 (split_words _ _) W) as E. rewrite E.
    rewrite (proj2 (section_some s x) W). split; reflexivity.
  - exists (LGlobal n). unfold line_body. pose proof (proj2 (split_words _ _) W) as E. rewrite E.
    rewrite (section_other _ _ _ W) by discriminate. cbn [pbind].
    rewrite (proj2 (global_some s n) W). split; reflexivity.
  - exists (LSymbol n). unfold line_body. pose proof (proj2 (split_words _ _) W) as E. rewrite E.
    assert (Ew : ends_with_char 58 (n ++ repeat 58 (S k)) = true).
    { apply ends_with_iff. exists (n ++ repeat 58 k). rewrite <- app_assoc. f_equal.
      change [58] with (repeat 58 1). rewrite <- repeat_app. now replace (k + 1)%nat with (S k) by lia. }
    rewrite (section_other _ _ _ W) by (intro Z0; rewrite Z0 in Ew; discriminate Ew). cbn [pbind].
    rewrite (global_other _ _ _ W) by (intro Z0; rewrite Z0 in Ew; discriminate Ew). cbn [pbind].
    rewrite Ew, trim_end_repeat by exact N. split; reflexivity.
  - assert (L : data_layout (w0 ++ unit_name u ++ c :: w1 ++ text ++ w2) u text) by (exists w0, c, w1, w2; tauto).
    exists (LData {| da_label := None; da_bytes := bs |}). split; [|reflexivity].
    destruct (data_layout_words _ _ _ L) as (t & ts & W).
    assert (D : data_try (w0 ++ unit_name u ++ c :: w1 ++ text ++ w2) = POk (Some {| da_label := None; da_bytes := bs |})).
    { apply data_try_some. exists u, text, its. tauto. }
    set (s := w0 ++ unit_name u ++ c :: w1 ++ text ++ w2) in *.
    unfold line_body. pose proof (proj2 (split_words _ _) W) as E. rewrite E.
    rewrite (section_other _ _ _ W) by (destruct u; discriminate). cbn [pbind].
    rewrite (global_other _ _ _ W) by (destruct u; discriminate). cbn [pbind].
    replace (ends_with_char 58 (unit_name u)) with false by (destruct u; reflexivity).
    rewrite D. reflexivity.
  - assert (L : label_layout (w0 ++ n ++ c1 :: w1 ++ unit_name u ++ c2 :: w2 ++ text ++ w3) n u text)
      by (exists w0, c1, w1, c2, w2, w3; tauto).
    exists (LData {| da_label := Some n; da_bytes := bs |}). split; [|reflexivity].
    destruct (label_layout_words _ _ _ _ L) as (t & ts & W).
    assert (D : data_try (w0 ++ n ++ c1 :: w1 ++ unit_name u ++ c2 :: w2 ++ text ++ w3)
       = POk (Some {| da_label := Some n; da_bytes := bs |})).
    { apply data_try_some. exists u, text, its. tauto. }
    set (s := w0 ++ n ++ c1 :: w1 ++ unit_name u ++ c2 :: w2 ++ text ++ w3) in *.
    unfold line_body. pose proof (proj2 (split_words _ _) W) as E. rewrite E.
    rewrite (section_other _ _ _ W) by exact N1. cbn [pbind].
    rewrite (global_other _ _ _ W) by exact N2. cbn [pbind].
    rewrite (proj2 (ends_with_false 58 n) N3), D. reflexivity.
  - pose proof (mov_operands_reg _ _ _ _ M) as R. pose proof (plain_spec _ (is_reg_plain _ R)) as (Wd & Nd & _).
    assert (B : mov_body (w0 ++ lit "mov " ++ w1 ++ d ++ w2 ++ 44 :: w3 ++ o ++ w4) d o).
    { exists w0, w1, w2, w3, w4. pose proof (word_tight _ Wd). tauto. }
    rewrite (mov_line p _ d o B R). destruct (mov_ops_complete _ _ _ _ M) as (i & E & Me). rewrite E.
    exists (LInst i). split; [reflexivity|exact Me].
  - rewrite (push_line p s _ _ W) by (intro u; apply reg_not_unit; left; eauto).
    unfold push_parse. rewrite (proj2 (split_words _ _) W), str_eqb_refl, t64.
    destruct (inst_new_means (PushR64 r)) as (x & E & M); [exact I|reflexivity|]. rewrite E. cbn [pbind]. eauto.
  - rewrite (push_line p s _ _ W) by (intros u ->; now apply number_not_unit in N).
    unfold push_parse. rewrite (proj2 (split_words _ _) W), str_eqb_refl.
    rewrite (proj2 (try_none reg64_try name64 t reg64_try_iff)) by (intros r ->; now apply number_not_name in N).
    rewrite (proj2 (num_try_iff 8 t n) N).
    destruct (inst_new_means (PushI8 n)) as (x & E & M); [apply number_rng in N; exact N|reflexivity|].
    rewrite E. cbn [pbind]. eauto.
  - rewrite (push_line p s _ _ W) by (intros u ->; now apply number_not_unit in N).
    unfold push_parse. rewrite (proj2 (split_words _ _) W), str_eqb_refl.
    rewrite (proj2 (try_none reg64_try name64 t reg64_try_iff)) by (intros r ->; now apply number_not_name in N).
    rewrite (proj2 (num_try_none 8 t)).
    + rewrite (proj2 (num_try_iff 32 t n) N).
      destruct (inst_new_means (PushI32 n)) as (x & E & M); [apply number_rng in N; exact N|reflexivity|].
      rewrite E. cbn [pbind]. eauto.
    + intros v V. pose proof (number_rng _ _ _ V) as R. apply (number_bits 8 32) in V; [|lia].
      pose proof (number_fun _ _ _ _ N V). lia.
  - rewrite (line_inst p s _ _ W); try discriminate; try reflexivity.
    + unfold inst_try. rewrite (proj2 (split_words _ _) W).
      destruct (inst_new_means Ret) as (x & E & M); [exact I|reflexivity|].
      change (str_eqb (lit "ret") (lit "mov")) with false. change (str_eqb (lit "ret") (lit "push")) with false.
      rewrite str_eqb_refl, E. cbn [pbind]. eauto.
    + apply (no_parts _ _ _ W); [intro u; destruct u; discriminate|exact N].
  - rewrite (line_inst p s _ _ W); try discriminate; try reflexivity.
    + unfold inst_try. rewrite (proj2 (split_words _ _) W).
      destruct (inst_new_means Syscall) as (x & E & M); [exact I|reflexivity|].
      change (str_eqb (lit "syscall") (lit "mov")) with false. change (str_eqb (lit "syscall") (lit "push")) with false.
      change (str_eqb (lit "syscall") (lit "ret")) with false.
      rewrite str_eqb_refl, E. cbn [pbind]. eauto.
    + apply (no_parts _ _ _ W); [intro u; destruct u; discriminate|exact N].
Qed.

(** ** Panics *)

Lemma line_body_panic p s : line_body p s = PPanic <->
  p = Debug /\ exists d o ts, mov_body s d o /\ is_reg_name d /\ words o ts /\ expr_overflow ts.
Proof.
  split.
  - unfold line_body. pose proof (words_split s) as W. destruct (split_whitespace s) as [|t ts] eqn:Ew; [congruence|].
    intro H. apply pbind_panic in H. destruct H as [H|([x|] & Es & H)]; [now apply section_no_panic in H|congruence|].
    apply pbind_panic in H. destruct H as [H|([n|] & Eg & H)]; [now apply global_no_panic in H|congruence|].
    destruct (ends_with_char 58 t); [destruct ts; congruence|].
    apply pbind_panic in H. destruct H as [H|([n|] & Ed & H)]; [now apply data_try_no_panic in H|congruence|].
    apply pbind_panic in H. destruct H as [H|([n|] & Ei & H)]; [|congruence|congruence].
    unfold inst_try in H. rewrite Ew in H.
    destruct (str_eqb t (lit "mov")).
    { apply pbind_panic in H. destruct H as [H|(x & _ & H)]; [|congruence].
      destruct (mov_parse_inv p s) as [[e Ee]|(d & o & B)]; [congruence|].
      rewrite (mov_parse_body p s d o B) in H. apply mov_ops_panic in H. destruct H as (R & P & l & Wl & O).
      split; [exact P|]. exists d, o, l. tauto. }
    destruct (str_eqb t (lit "push")).
    { apply pbind_panic in H. destruct H as [H|(x & _ & H)]; [|congruence]. now apply push_no_panic in H. }
    destruct (str_eqb t (lit "ret")).
    { apply pbind_panic in H. destruct H as [H|(x & _ & H)]; [|congruence].
      apply inst_new_no_panic in H; [contradiction|exact I|reflexivity]. }
    destruct (str_eqb t (lit "syscall")); [|congruence].
    apply pbind_panic in H. destruct H as [H|(x & _ & H)]; [|congruence].
    apply inst_new_no_panic in H; [contradiction|exact I|reflexivity].
  - intros (-> & d & o & ts & B & R & W & O). rewrite (mov_line Debug s d o B R).
    rewrite (proj2 (mov_ops_panic Debug d o)); [reflexivity|]. eauto.
Qed.

(** ** Lines *)

Lemma line_sound p s l : line_parse p s = POk l ->
  exists body st, line_text s body /\ accepts p body st /\ means st l.
Proof.
  rewrite line_parse_body. intro H. apply line_body_sound in H. destruct H as (st & A & M).
  exists (strip_comment s), st. split; [apply line_text_iff; reflexivity|]. tauto.
Qed.
Lemma line_complete p s body st : line_text s body -> accepts p body st ->
  exists l, line_parse p s = POk l /\ means st l.
Proof.
  intros T A. apply line_text_iff in T. rewrite line_parse_body, T. apply line_body_complete, A.
Qed.
Lemma line_panic p s : line_parse p s = PPanic <->
  p = Debug /\ exists body d o ts, line_text s body /\ mov_body body d o /\ is_reg_name d /\
    words o ts /\ expr_overflow ts.
Proof.
  rewrite line_parse_body, line_body_panic. split.
  - intros (P & d & o & ts & H). split; [exact P|]. exists (strip_comment s), d, o, ts.
    split; [apply line_text_iff; reflexivity|exact H].
  - intros (P & body & d & o & ts & T & H). apply line_text_iff in T. rewrite T. eauto 10.
Qed.
Lemma accepts_fun p s st st' : accepts p s st -> accepts p s st' ->
  exists l, means st l /\ means st' l.
Proof.
  intros A A'. destruct (line_body_complete _ _ _ A) as (l & E & M).
  destruct (line_body_complete _ _ _ A') as (l' & E' & M'). rewrite E in E'. injection E' as <-. eauto.
Qed.
