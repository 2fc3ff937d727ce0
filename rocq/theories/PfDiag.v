(** Proofs about the diagnostics: the messages of the parsers are those of SpecDiag.v. *)
From Coq Require String.
Import String.StringSyntax.
From Coq Require Import ZifyBool ZifyNat.
From Verif Require Import Base Str X64 SpecX86 Obj Asm SpecAsm SpecDiag
  PfStr PfTok PfX64 PfAsm PfData PfLine PfLine2.
Ltac Zify.zify_post_hook ::= Z.div_mod_to_equations.

(** ** Decimal numbers *)

Lemma digit10 n : 0 <= n < 10 -> digit 10 (48 + n) n.
Proof. intro H. now apply dig_09. Qed.
Lemma numeral_app r s v t w : numeral r s v -> numeral r t w ->
  numeral r (s ++ t) (v * r ^ zlen t + w).
Proof.
  intros Hs Ht. induction Ht as [c d D|t w c d Ht IH D].
  - replace (v * r ^ zlen [c] + d) with (v * r + d) by (unfold zlen; cbn [length]; change (Z.of_nat 1) with 1; rewrite Z.pow_1_r; reflexivity).
    now apply num_snoc.
  - rewrite app_assoc.
    replace (v * r ^ zlen (t ++ [c]) + (w * r + d)) with ((v * r ^ zlen t + w) * r + d).
    + now apply num_snoc.
    + unfold zlen. rewrite app_length. cbn [length]. rewrite Nat2Z.inj_add. change (Z.of_nat 1) with 1.
      rewrite Z.pow_add_r, Z.pow_1_r by lia. ring.
Qed.
Lemma dec_digits_spec fuel : forall n acc, 0 <= n < 10 ^ Z.of_nat fuel -> (0 < fuel)%nat ->
  exists ds, dec_digits fuel n acc = ds ++ acc /\ decimal n ds.
Proof.
  induction fuel as [|fuel IH]; intros n acc H F; [lia|]. cbn [dec_digits].
  destruct (n <? 10) eqn:E.
  - exists [48 + n]. split; [reflexivity|]. split; [|exact I]. apply num_one, digit10. lia.
  - rewrite Nat2Z.inj_succ, Z.pow_succ_r in H by lia.
    assert (H1 : 0 <= n / 10 < 10 ^ Z.of_nat fuel).
    { split; [apply Z.div_pos; lia|]. apply Z.div_lt_upper_bound; lia. }
    destruct fuel as [|fuel]; [change (10 ^ Z.of_nat 0) with 1 in H1; lia|].
    destruct (IH (n / 10) ((48 + n mod 10) :: acc) H1 ltac:(lia)) as (ds & Eq & Nu & Z0).
    exists (ds ++ [48 + n mod 10]). split; [rewrite Eq, <- app_assoc; reflexivity|]. split.
    + replace n with (n / 10 * 10 + n mod 10) at 2 by (pose proof (Z.div_mod n 10); lia).
      apply num_snoc; [exact Nu|]. apply digit10. apply Z.mod_pos_bound. lia.
    + destruct ds as [|c ds]; [apply numeral_chars in Nu; exfalso; now apply Nu|]. cbn [app].
      destruct ds as [|c' ds]; [|exact Z0]. cbn [app].
      inversion Nu as [? d D|s v ? d Nn D Es]; subst.
      * inversion D; subst; lia.
      * destruct s as [|? [|? ?]]; try discriminate Es. inversion Nn; subst. destruct s; discriminate.
Qed.
Lemma show_decimal n : 0 <= n < 2 ^ 64 -> decimal n (show_u64 n).
Proof.
  intro H. unfold show_u64. destruct (dec_digits_spec 20 n []) as (ds & E & D).
  - change (Z.of_nat 20) with 20. assert (2 ^ 64 < 10 ^ 20) by reflexivity. lia.
  - lia.
  - rewrite E, app_nil_r. exact D.
Qed.

Lemma digit10_inv c d : digit 10 c d -> c = 48 + d /\ 0 <= d < 10.
Proof. destruct 1; lia. Qed.
Lemma numeral_pos ds n : numeral 10 ds n -> match ds with c :: _ => c <> 48 | [] => True end -> 0 < n.
Proof.
  induction 1 as [c d D|s v c d N IH D]; intro H.
  - apply digit10_inv in D. lia.
  - destruct s as [|c0 s]; [apply numeral_chars in N; exfalso; now apply N|]. cbn [app] in H.
    specialize (IH H). apply digit10_inv in D. lia.
Qed.
Lemma decimal_fun n a b : decimal n a -> decimal n b -> a = b.
Proof.
  intros [Na Za]. revert b. induction Na as [c d D|s v c d N IH D]; intros b [Nb Zb].
  - destruct Nb as [c' d' D'|s' v' c' d' N' D'].
    + apply digit10_inv in D, D'. f_equal. lia.
    + exfalso. destruct s' as [|c0 s']; [apply numeral_chars in N'; now apply N'|].
      assert (0 < v').
      { apply (numeral_pos (c0 :: s')); [exact N'|]. destruct s'; exact Zb. }
      apply digit10_inv in D, D'. lia.
  - destruct s as [|c0 s]; [apply numeral_chars in N; exfalso; now apply N|].
    assert (P0 : c0 <> 48) by (destruct s; exact Za).
    assert (V : 0 < v) by (apply (numeral_pos (c0 :: s)); assumption).
    inversion Nb as [c' d' D'|s' v' c' d' N' D']; subst.
    + exfalso. apply digit10_inv in D, D'. lia.
    + destruct s' as [|c1 s']; [apply numeral_chars in N'; exfalso; now apply N'|].
      assert (P1 : c1 <> 48) by (destruct s'; exact Zb).
      apply digit10_inv in D, D'. assert (v' = v /\ d' = d) as [-> ->] by lia.
      destruct D as [-> _], D' as [-> _]. f_equal. apply IH.
      * destruct s; [exact I|exact P0].
      * split; [exact N'|]. destruct s'; [exact I|exact P1].
Qed.

Lemma not_number_try bits t : num_try bits t = None <-> not_number bits t.
Proof. apply num_try_none. Qed.
Lemma shown n ds : 0 <= n < 2 ^ 64 -> decimal n ds -> show_u64 n = ds.
Proof. intros R D. eapply decimal_fun; [apply show_decimal, R|exact D]. Qed.

(** ** Expressions *)

Lemma plus_minus_op t : t = lit "+" \/ t = lit "-" -> token_try t = Some TPlus \/ token_try t = Some TMinus.
Proof. intros [->| ->]; [left; now apply token_plus|right; now apply token_minus]. Qed.
Lemma expr_err p s e : expr_try p s = PErr e <-> exists ts, words s ts /\ expr_error ts e.
Proof.
  split.
  - intro H. exists (split_whitespace s). split; [apply words_split|]. unfold expr_try in H.
    destruct (split_whitespace s) as [|t1 ts]; [discriminate H|].
    destruct (token_try t1) as [[lhs| |]|] eqn:T1; [|injection H as <-|injection H as <-|discriminate H].
    2: apply token_plus in T1; constructor; tauto.
    2: apply token_minus in T1; constructor; tauto.
    apply token_num in T1. destruct ts as [|op ts]; [discriminate H|].
    assert (Ne : token_try op <> Some TPlus -> token_try op <> Some TMinus -> op <> lit "+" /\ op <> lit "-").
    { rewrite token_plus, token_minus. tauto. }
    destruct (token_try op) as [[n2| |]|] eqn:T2.
    + injection H as <-. destruct Ne; [congruence|congruence|]. econstructor; eassumption.
    + apply token_plus in T2. destruct ts as [|t3 ts]; [injection H as <-; econstructor; [eassumption|tauto]|].
      destruct (token_try t3) as [[rhs| |]|] eqn:T3.
      { unfold plift in H. destruct (chki p 64 _); cbn [pbind] in H; [|discriminate H]. destruct (chki p 64 _); discriminate H. }
      all: injection H as <-; eapply ee_rhs; [exact T1|left; exact T2|]; intros n N; apply token_num in N; congruence.
    + apply token_minus in T2. destruct ts as [|t3 ts]; [injection H as <-; econstructor; [eassumption|tauto]|].
      destruct (token_try t3) as [[rhs| |]|] eqn:T3.
      { unfold plift in H. destruct (chki p 64 _); cbn [pbind] in H; [|discriminate H]. destruct (chki p 64 _); discriminate H. }
      all: injection H as <-; eapply ee_rhs; [exact T1|right; exact T2|]; intros n N; apply token_num in N; congruence.
    + injection H as <-. destruct Ne; [congruence|congruence|]. econstructor; eassumption.
  - intros (ts & W & E). apply split_words in W. unfold expr_try. rewrite W. destruct E as [t ts O|t n op ts N P M|t n op N O|t n op t' ts N O X].
    + destruct (plus_minus_op t O) as [->| ->]; reflexivity.
    + apply token_num in N. rewrite N. destruct (token_try op) as [[m| |]|] eqn:T; try reflexivity.
      * apply token_plus in T. contradiction.
      * apply token_minus in T. contradiction.
    + apply token_num in N. rewrite N. destruct (plus_minus_op op O) as [->| ->]; reflexivity.
    + apply token_num in N. rewrite N.
      assert (T : forall m, token_try t' <> Some (TNum m)) by (intros m H; apply token_num in H; exact (X m H)).
      destruct (plus_minus_op op O) as [->| ->]; destruct (token_try t') as [[m| |]|]; try reflexivity; exfalso; eapply T; reflexivity.
Qed.

(** ** Data items *)

Definition no_delim (t : str) : Prop := ~ (exists c, In c t /\ delim c).
Lemma no_delim_iff t : no_delim t <-> Forall (fun c => is_delim c = false) t.
Proof.
  unfold no_delim. rewrite Forall_forall. split.
  - intros H c I. apply is_delim_false. intro D. apply H. eauto.
  - intros H (c & I & D). apply H in I. apply is_delim_false in I. contradiction.
Qed.
Definition ends_item (rest : str) : Prop := match rest with [] => True | c :: _ => delim c end.
Lemma split_delim t rest : Forall (fun c => is_delim c = false) t -> ends_item rest -> t ++ rest <> [] ->
  exists rest', split_delim_once (t ++ rest) = (t, rest').
Proof.
  intros F E N. unfold split_delim_once. destruct rest as [|c rest].
  - rewrite app_nil_r in *. rewrite (proj2 (split_once_none is_delim t) F). eauto.
  - cbn [ends_item] in E. rewrite (proj2 (split_once_some is_delim (t ++ c :: rest) t rest)); [eauto|].
    exists c. split; [reflexivity|]. split; [apply is_delim_iff, E|exact F].
Qed.
Lemma split_delim_inv s t rest' : split_delim_once s = (t, rest') ->
  exists rest, s = t ++ rest /\ ends_item rest /\ Forall (fun c => is_delim c = false) t /\
    match rest with
    | [] => rest' = []
    | c :: r => exists w, r = w ++ rest' /\ blank w /\ starts_solid rest'
    end.
Proof.
  unfold split_delim_once. destruct (split_once is_delim s) as [[a b]|] eqn:E; intro H; injection H as -> <-.
  - apply split_once_some in E. destruct E as (c & -> & C & F). exists (c :: b). split; [reflexivity|].
    split; [apply is_delim_iff, C|]. split; [exact F|]. destruct (trim_start_spec b) as (w & Eb & B & S0). eauto.
  - apply split_once_none in E. exists []. rewrite app_nil_r. split; [reflexivity|]. split; [exact I|]. tauto.
Qed.
Lemma number_not_quote bits t n t' : number bits t n -> t <> 34 :: t'.
Proof. intros N ->. apply number_first in N. lia. Qed.
Lemma bits_width u : 2 ^ (8 * Z.of_nat (unit_size u)) = 256 ^ Z.of_nat (unit_size u).
Proof. destruct u; reflexivity. Qed.
Lemma write_num_err n u e : 0 <= n < 2 ^ 64 ->
  (write_num n u = PErr e <-> 256 ^ Z.of_nat (unit_size u) <= n /\
     exists ds, decimal n ds /\ e = ds ++ lit " is not a " ++ unit_bits u ++ lit " bit number").
Proof.
  intro R. assert (W : forall b, as_uint b n = None <-> 2 ^ b <= n).
  { intro b. unfold as_uint. destruct (n <? 2 ^ b) eqn:E; split; intro H; try congruence; lia. }
  destruct u; cbn [write_num unit_size unit_bits].
  4:{ split; [discriminate|]. change (256 ^ Z.of_nat 8) with (2 ^ 64). lia. }
  1: specialize (W 8). 2: specialize (W 16). 3: specialize (W 32).
  1: destruct (as_uint 8 n) as [m|]. 3: destruct (as_uint 16 n) as [m|]. 5: destruct (as_uint 32 n) as [m|].
  1,3,5: (split; [discriminate|]; intros (L & _); assert (Z : Some m = None) by (apply W; exact L); discriminate Z).
  1,2,3: (split; [intro H; injection H as <-; split; [apply W; reflexivity|]; exists (show_u64 n); split; [apply show_decimal, R|reflexivity]
              |intros (_ & ds & D & ->); rewrite (shown n ds R D); reflexivity]).
Qed.
Lemma write_num_fits n u : 0 <= n < 2 ^ 64 -> n < 256 ^ Z.of_nat (unit_size u) -> exists bs, write_num n u = POk bs.
Proof.
  intros R L. destruct (write_num n u) as [bs|e|] eqn:E; [eauto| |].
  - apply write_num_err in E; [|exact R]. lia.
  - now apply write_num_no_panic in E.
Qed.
Lemma data_loop_err fuel s u acc e : (length s <= fuel)%nat ->
  (data_loop fuel s u acc = PErr e <-> items_error u s e).
Proof.
  intro L. split.
  - revert s acc L. induction fuel as [|fuel IH]; intros s acc L H.
    { destruct s; [discriminate H|cbn in L; lia]. }
    destruct s as [|c s]; [discriminate H|]. cbn [data_loop data_next] in H.
    destruct (c =? 34) eqn:Q.
    + apply Z.eqb_eq in Q. subst c. destruct (split_once (fun c => c =? 34) s) as [[a b]|] eqn:S0; cbn [pbind fst snd] in H.
      * apply split_char in S0. destruct S0 as [-> Na]. destruct (drop_while_spec is_delim b) as (w & Eb & F & G).
        unfold write_to in H. unfold write_str in H. cbn [pbind] in H.
        apply IH in H; [|unfold trim_start_by; rewrite Eb in L; cbn [length] in L; rewrite !app_length in L; cbn [length] in L; rewrite app_length in L; lia].
        rewrite Eb. apply ie_str; [exact Na| | |exact H].
        -- eapply Forall_impl; [|exact F]. intro; apply is_delim_iff.
        -- unfold trim_start_by. destruct (drop_while is_delim b); [exact I|]. apply is_delim_false, G.
      * injection H as <-. apply split_char_none in S0. now constructor.
    + destruct (split_delim_once (c :: s)) as [t rest'] eqn:S0. apply split_delim_inv in S0.
      destruct S0 as (rest & Es & Ei & Ft & R). cbn [pbind] in H. unfold num_parse in H.
      assert (Nq : forall t', t <> 34 :: t').
      { intros t' ->. cbn [app] in Es. injection Es as -> _. discriminate Q. }
      rewrite Es in *. destruct (num_try 64 t) as [n|] eqn:N; cbn [pbind fst snd] in H.
      * apply num_try_iff in N. pose proof (number_rng _ _ _ N) as Rn. cbn [write_to] in H.
        destruct (write_num n u) as [bs|e'|] eqn:Wn; cbn [pbind] in H.
        -- assert (Fits : n < 256 ^ Z.of_nat (unit_size u)).
           { apply write_num_iff in Wn; [|exact Rn]. cbn [item_bytes] in Wn. tauto. }
           destruct rest as [|d r].
           { subst rest'. destruct fuel; discriminate H. }
           destruct R as (w & -> & B & S1).
           apply IH in H; [|rewrite app_length in L; cbn [length] in L; rewrite app_length in L; lia].
           eapply ie_num; eassumption.
        -- injection H as <-. apply write_num_err in Wn; [|exact Rn]. destruct Wn as (Big & ds & D & ->).
           eapply ie_big; eassumption.
        -- discriminate H.
      * injection H as <-. apply not_number_try in N. apply ie_number; [apply no_delim_iff; exact Ft|exact Nq| |exact Ei|exact N].
        rewrite <- Es. discriminate.
  - intro E. revert fuel acc L.
    induction E as [s Ns|t rest Nd Nq Ne Ei Nn|t n rest ds N Ei Big D|t n c w rest e N Fits Dc B S0 E IH|s sep rest e Ns Fs R E IH]; intros fuel acc L.
    + destruct fuel; [cbn in L; lia|]. cbn [data_loop data_next]. rewrite Z.eqb_refl. rewrite (proj2 (split_char_none 34 s) Ns). reflexivity.
    + apply no_delim_iff in Nd. destruct (split_delim t rest Nd Ei Ne) as (r' & S1).
      assert (H : data_next (t ++ rest) = Some (n <-- num_parse 64 t ;; POk (DNum n, r'))).
      { destruct (t ++ rest) as [|c s] eqn:Es; [congruence|]. cbn [data_next].
        destruct (c =? 34) eqn:Q; [|rewrite S1; reflexivity]. exfalso. apply Z.eqb_eq in Q. subst c.
        destruct t as [|c t]; cbn [app] in Es.
        - subst rest. destruct Ei as [Sp|Eq]; [unfold space in Sp; cbn in Sp; lia|discriminate Eq].
        - injection Es as -> _. eapply Nq; reflexivity. }
      destruct fuel as [|fuel]; [destruct (t ++ rest); [congruence|cbn in L; lia]|].
      cbn [data_loop]. rewrite H. unfold num_parse. apply not_number_try in Nn. rewrite Nn. reflexivity.
    + pose proof (number_rng _ _ _ N) as Rn.
      assert (Nd : Forall (fun c => is_delim c = false) t) by (eapply number_no_delim; exact N).
      assert (Ne : t ++ rest <> []). { destruct (number_chars _ _ _ N) as [Z _]. destruct t; [congruence|discriminate]. }
      destruct (split_delim t rest Nd Ei Ne) as (r' & S1).
      assert (H : data_next (t ++ rest) = Some (n <-- num_parse 64 t ;; POk (DNum n, r'))).
      { destruct (t ++ rest) as [|c s] eqn:Es; [congruence|]. cbn [data_next].
        destruct (c =? 34) eqn:Q; [|rewrite S1; reflexivity]. exfalso. apply Z.eqb_eq in Q. subst c.
        destruct t as [|c t]; [destruct (number_chars _ _ _ N); congruence|]. cbn [app] in Es. injection Es as -> _.
        eapply number_not_quote; [exact N|reflexivity]. }
      destruct fuel as [|fuel]; [destruct (t ++ rest); [congruence|cbn in L; lia]|].
      cbn [data_loop]. rewrite H. unfold num_parse. rewrite (proj2 (num_try_iff 64 t n) N). cbn [pbind fst snd write_to].
      rewrite (proj2 (write_num_err n u (ds ++ lit " is not a " ++ unit_bits u ++ lit " bit number") Rn)); [reflexivity|]. eauto.
    + assert (A : item_at (t ++ c :: w ++ rest) (INum n) rest) by now constructor.
      pose proof (item_at_shorter _ _ _ A) as Sh. destruct fuel as [|fuel]; [lia|].
      destruct (data_next_item _ _ _ A) as (d & Ed & D & Ex). cbn [data_loop]. rewrite Ex. cbn [pbind fst snd].
      destruct d as [m|m]; cbn [def_item] in Ed; [|discriminate Ed]. injection Ed as ->. cbn [def_ok] in D.
      cbn [write_to]. destruct (write_num_fits n u D Fits) as (bs & ->). cbn [pbind]. apply IH. lia.
    + assert (A : item_at (34 :: s ++ 34 :: sep ++ rest) (IStr s) rest) by now constructor.
      pose proof (item_at_shorter _ _ _ A) as Sh. destruct fuel as [|fuel]; [lia|].
      destruct (data_next_item _ _ _ A) as (d & Ed & D & Ex). cbn [data_loop]. rewrite Ex. cbn [pbind fst snd].
      destruct d as [m|m]; cbn [def_item] in Ed; [discriminate Ed|]. injection Ed as ->.
      unfold write_to, write_str. cbn [pbind]. apply IH. lia.
Qed.
Lemma data_try_err s e : data_try s = PErr e <->
  exists l u text, split_parts s = Some (l, u, text) /\ items_error u text e.
Proof.
  unfold data_try. destruct (split_parts s) as [[[l u] text]|].
  - split.
    + intro H. exists l, u, text. split; [reflexivity|]. apply (data_loop_err (length text) text u []); [lia|].
      destruct (data_loop _ _ _ _); cbn [pbind] in H; congruence.
    + intros (l' & u' & text' & E & I). injection E as <- <- <-.
      apply (data_loop_err (length text) text u []) in I; [|lia]. rewrite I. reflexivity.
  - split; [discriminate|]. intros (? & ? & ? & E & _). discriminate E.
Qed.

(** ** mov *)

Lemma inst_new_no_err i e : instr_ok i -> instr_mem i = None -> inst_new i <> PErr e.
Proof. intros O M. destruct (inst_new_ok i O M) as (x & -> & _). discriminate. Qed.
Lemma pbind_err {A B} (m : presult A) (k : A -> presult B) e :
  pbind m k = PErr e <-> m = PErr e \/ exists a, m = POk a /\ k a = PErr e.
Proof.
  destruct m as [a|e'|]; cbn [pbind]; split.
  - intro H. right. eauto.
  - intros [H|(x & E & H)]; [discriminate H|]. injection E as ->. exact H.
  - intro H. left. congruence.
  - intros [H|(x & E & H)]; [congruence|discriminate E].
  - discriminate.
  - intros [H|(x & E & H)]; [discriminate H|discriminate E].
Qed.
Lemma as_uint_none b n : as_uint b n = None <-> 2 ^ b <= n.
Proof. unfold as_uint. destruct (n <? 2 ^ b) eqn:E; split; intro H; try congruence; lia. Qed.
Lemma reg_of d : is_reg_name d -> (exists r, d = name64 r) \/ (exists r, d = name32 r) \/ (exists r, d = name16 r).
Proof. unfold is_reg_name. firstorder. Qed.
Lemma mov_ops_err p d o e : mov_ops p d o = PErr e <-> mov_error p d o e.
Proof.
  split.
  - unfold mov_ops. destruct (reg64_try d) as [r|] eqn:R64.
    { apply reg64_try_iff in R64. subst d. intro H. apply pbind_err in H. destruct H as [H|([n|] & E & H)].
      - apply expr_err in H. destruct H as (ts & W & X). eapply me_expr; [left; eauto|exact W|exact X].
      - apply expr_some in E. destruct E as (ts & W & V). apply expr_value_rng in V.
        exfalso. revert H. apply inst_new_no_err; [exact V|reflexivity].
      - exfalso. revert H. destruct (reg64_try o) as [r'|]; [apply inst_new_no_err; [exact I|reflexivity]|].
        destruct (inst_new_ok (MovRI64 r 0)) as (x & -> & _); [cbn; unfold inu; lia|reflexivity|]. discriminate. }
    destruct (reg32_try d) as [r|] eqn:R32.
    { apply reg32_try_iff in R32. subst d. intro H. apply pbind_err in H. destruct H as [H|([n|] & E & H)].
      - apply expr_err in H. destruct H as (ts & W & X). eapply me_expr; [right; left; eauto|exact W|exact X].
      - apply expr_some in E. destruct E as (ts & W & V). pose proof (expr_value_rng _ _ _ V) as Rn.
        destruct (as_uint 32 n) as [m|] eqn:U.
        + apply as_uint_some in U. destruct U as [U ->]. exfalso. revert H. apply inst_new_no_err; [cbn; unfold inu; lia|reflexivity].
        + injection H as <-. apply as_uint_none in U. eapply me_big32; [exact W|exact V|exact U|apply show_decimal, Rn].
      - exfalso. revert H. destruct (reg32_try o) as [r'|]; [apply inst_new_no_err; [exact I|reflexivity]|].
        destruct (inst_new_ok (MovRI32 r 0)) as (x & -> & _); [cbn; unfold inu; lia|reflexivity|]. discriminate. }
    destruct (reg16_try d) as [r|] eqn:R16.
    { apply reg16_try_iff in R16. subst d. intro H. apply pbind_err in H. destruct H as [H|([n|] & E & H)].
      - apply expr_err in H. destruct H as (ts & W & X). eapply me_expr; [right; right; eauto|exact W|exact X].
      - apply expr_some in E. destruct E as (ts & W & V). pose proof (expr_value_rng _ _ _ V) as Rn.
        destruct (as_uint 16 n) as [m|] eqn:U.
        + apply as_uint_some in U. destruct U as [U ->]. exfalso. revert H. apply inst_new_no_err; [cbn; unfold inu; lia|reflexivity].
        + injection H as <-. apply as_uint_none in U. eapply me_big16; [exact W|exact V|exact U|apply show_decimal, Rn].
      - apply expr_none in E. destruct (reg16_try o) as [r'|] eqn:Ro; [exfalso; revert H; apply inst_new_no_err; [exact I|reflexivity]|].
        injection H as <-. apply me_second; [exact E|]. apply (try_none reg16_try name16 o reg16_try_iff), Ro. }
    intro H. injection H as <-. apply me_first. intro R.
    apply reg_of in R. destruct R as [(r & ->)|[(r & ->)|(r & ->)]]; [rewrite t64 in R64|rewrite t32 in R32|rewrite t16 in R16]; discriminate.
  - intro E. destruct E as [d o N|d o ts e R W X|r o ts n ds W V B D|r o ts n ds W V B D|r o N R].
    + unfold mov_ops.
      rewrite (proj2 (try_none reg64_try name64 d reg64_try_iff)) by (intros r ->; apply N; left; eauto).
      rewrite (proj2 (try_none reg32_try name32 d reg32_try_iff)) by (intros r ->; apply N; right; left; eauto).
      rewrite (proj2 (try_none reg16_try name16 d reg16_try_iff)) by (intros r ->; apply N; right; right; eauto).
      reflexivity.
    + assert (Ex : expr_try p o = PErr e) by (apply expr_err; eauto).
      apply reg_of in R. destruct R as [(r & ->)|[(r & ->)|(r & ->)]]; unfold mov_ops.
      * rewrite t64, Ex. reflexivity.
      * rewrite reg64_32, t32, Ex. reflexivity.
      * rewrite reg64_16, reg32_16, t16, Ex. reflexivity.
    + assert (Ex : expr_try p o = POk (Some n)) by (apply expr_some; eauto). unfold mov_ops. rewrite reg64_32, t32, Ex. cbn [pbind].
      apply as_uint_none in B. rewrite B. apply expr_value_rng in V. now rewrite (shown n ds V D).
    + assert (Ex : expr_try p o = POk (Some n)) by (apply expr_some; eauto). unfold mov_ops. rewrite reg64_16, reg32_16, t16, Ex. cbn [pbind].
      apply as_uint_none in B. rewrite B. apply expr_value_rng in V. now rewrite (shown n ds V D).
    + assert (Ex : expr_try p o = POk None) by (now apply expr_none). unfold mov_ops. rewrite reg64_16, reg32_16, t16, Ex. cbn [pbind].
      rewrite (proj2 (try_none reg16_try name16 o reg16_try_iff) R). reflexivity.
Qed.
(** the text between the outer blanks has not the shape `mov d, o` *)
Definition bad_shape (s e : str) : Prop :=
  exists w0 b w1, s = w0 ++ b ++ w1 /\ blank w0 /\ tight b /\ blank w1 /\ mov_shape_error b e.
Lemma mov_parse_err p s e : mov_parse p s = PErr e <->
  (exists d o, mov_body s d o /\ mov_error p d o e) \/ bad_shape s e.
Proof.
  split.
  - intro H.
    assert (Sh : forall e, mov_shape_error (trim s) e -> bad_shape s e).
    { intros e' M. destruct (trim_spec s) as (w1 & w2 & Es & B1 & T & B2). exists w1, (trim s), w2. tauto. }
    destruct (mov_parse_inv p s) as [_|(d & o & B)].
    2:{ left. exists d, o. split; [exact B|]. rewrite (mov_parse_body p s d o B) in H. apply mov_ops_err, H. }
    destruct (split_once (fun c => c =? 32) (trim s)) as [[opc rem]|] eqn:S1.
    2:{ right. apply Sh. unfold mov_parse in H. rewrite S1 in H. injection H as <-. apply ms_blank. now apply split_char_none. }
    destruct (str_eqb opc (lit "mov")) eqn:Eo.
    2:{ right. apply Sh. unfold mov_parse in H. rewrite S1, Eo in H. cbn [negb] in H. injection H as <-.
        apply split_char in S1. destruct S1 as [-> N]. apply ms_opcode; [exact N|]. now apply str_eqb_neq. }
    destruct (split_once (fun c => c =? 44) rem) as [[s1 s2]|] eqn:S2.
    2:{ right. apply Sh. unfold mov_parse in H. rewrite S1, Eo, S2 in H. cbn [negb] in H. injection H as <-.
        apply split_char in S1. destruct S1 as [-> N]. apply str_eqb_eq in Eo. subst opc. rewrite <- lit_mov_sp.
        apply ms_comma. now apply split_char_none. }
    left. exists (trim s1), (trim s2).
    assert (B : mov_body s (trim s1) (trim s2)).
    { apply str_eqb_eq in Eo. subst opc.
      apply split_char in S1. destruct S1 as [S1 _]. apply split_char in S2. destruct S2 as [-> N].
      destruct (trim_spec s) as (v1 & v2 & Es & V1 & _ & V2).
      destruct (trim_spec s1) as (w1 & w2 & E1 & W1 & T1 & W2).
      destruct (trim_spec s2) as (w3 & w4 & E2 & W3 & T2 & W4).
      exists v1, w1, w2, w3, (w4 ++ v2). rewrite S1 in Es. split.
      - rewrite Es, lit_mov_sp. rewrite E1 at 1. rewrite E2 at 1.
        rewrite <- !app_assoc; cbn [app]; rewrite <- !app_assoc; cbn [app]; rewrite <- !app_assoc. reflexivity.
      - pose proof (proj2 (blank_app w4 v2) (conj W4 V2)).
        assert (~ In 44 (trim s1)) by (intro I; apply N; rewrite E1, !in_app_iff; tauto). tauto. }
    split; [exact B|]. rewrite (mov_parse_body p s _ _ B) in H. apply mov_ops_err, H.
  - intros [(d & o & B & E)|(w0 & b & w1 & -> & B0 & T & B1 & M)].
    + rewrite (mov_parse_body p s d o B). apply mov_ops_err, E.
    + unfold mov_parse. rewrite (trim_of w0 b w1 B0 T B1). destruct M as [b N|x N|a x N Na].
      * rewrite (proj2 (split_char_none 32 b) N). reflexivity.
      * rewrite lit_mov_sp. rewrite (proj2 (split_char 32 (lit "mov" ++ 32 :: x) (lit "mov") x)) by (split; [reflexivity|cbn; lia]).
        rewrite str_eqb_refl. cbn [negb]. rewrite (proj2 (split_char_none 44 x) N). reflexivity.
      * rewrite (proj2 (split_char 32 (a ++ 32 :: x) a x)) by (split; [reflexivity|exact N]).
        apply str_eqb_neq in Na. rewrite Na. reflexivity.
Qed.

(** ** push *)

Lemma push_parse_err s e ts : words s (lit "push" :: ts) ->
  (push_parse s = PErr e <->
   (ts = [] /\ e = lit "error: operand is expected after push opcode") \/
   (exists t l, ts = t :: l /\ (forall r, t <> name64 r) /\ not_number 32 t /\ e = lit "error: invalid push operand : " ++ t)).
Proof.
  intro W. apply split_words in W. unfold push_parse. rewrite W, str_eqb_refl. destruct ts as [|t ts].
  { split; [intro H; injection H as <-; left; split; reflexivity|].
    intros [(_ & ->)|(t & l & E & _)]; [reflexivity|discriminate E]. }
  destruct (reg64_try t) as [r|] eqn:R.
  { apply reg64_try_iff in R. split; [intro H; exfalso; revert H; apply inst_new_no_err; [exact I|reflexivity]|].
    intros [(E & _)|(t' & l & E & N & _)]; [discriminate E|]. injection E as <- _. exfalso. exact (N r R). }
  pose proof (proj1 (try_none reg64_try name64 t reg64_try_iff) R) as R'.
  destruct (num_try 8 t) as [n|] eqn:N8.
  { apply num_try_iff in N8. pose proof (number_rng _ _ _ N8) as Rn.
    split; [intro H; exfalso; revert H; apply inst_new_no_err; [exact Rn|reflexivity]|].
    intros [(E & _)|(t' & l & E & _ & N & _)]; [discriminate E|]. injection E as <- _. exfalso.
    apply (N n). eapply number_bits; [exact N8|]. destruct Rn. change (2 ^ 8) with 256 in *. change (2 ^ 32) with 4294967296. lia. }
  destruct (num_try 32 t) as [n|] eqn:N32.
  { apply num_try_iff in N32. pose proof (number_rng _ _ _ N32) as Rn.
    split; [intro H; exfalso; revert H; apply inst_new_no_err; [exact Rn|reflexivity]|].
    intros [(E & _)|(t' & l & E & _ & N & _)]; [discriminate E|]. injection E as <- _. exfalso. exact (N n N32). }
  apply not_number_try in N32. split.
  - intro H. injection H as <-. right. exists t, ts. repeat split; assumption.
  - intros [(E & _)|(t' & l & E & _ & _ & ->)]; [discriminate E|]. injection E as <- _. reflexivity.
Qed.

(** ** Lines *)

Lemma no_data_parts s t ts : words s (t :: ts) -> (split_parts s = None <->
  (forall u, t = unit_name u -> ts = []) /\ ((forall u, t <> unit_name u) -> forall u t' l, ts <> unit_name u :: t' :: l)).
Proof.
  intro W. rewrite split_parts_none. split.
  - intro H. destruct (H t ts W) as [A B]. split; [exact A|]. intros Nu u t' l E. exact (B u t' l Nu E).
  - intros [A B] t0 ts0 W0. pose proof (words_fun _ _ _ W W0) as E. injection E as <- <-. split; [exact A|].
    intros u t' l Nu E. exact (B Nu u t' l E).
Qed.
Lemma no_data_iff s t ts : words s (t :: ts) -> (split_parts s = None <-> no_data t ts).
Proof.
  intro W. rewrite (no_data_parts s t ts W). unfold no_data. split.
  - intros [A B]. split; [exact A|]. destruct (align_try t) as [u|] eqn:E.
    + apply align_try_iff in E. rewrite (A u E). discriminate.
    + apply B. apply (try_none align_try unit_name t align_try_iff), E.
  - intros [A B]. split; [exact A|]. intro. exact B.
Qed.
Lemma line_parts s l u text : split_parts s = Some (l, u, text) <->
  match l with None => data_layout s u text | Some n => label_layout s n u text end.
Proof. destruct l; [apply split_parts_label|apply split_parts_none_label]. Qed.
Lemma data_line_iff s l u text t ts : words s (t :: ts) ->
  t <> lit "section" -> t <> lit "global" -> (forall n, t <> n ++ [58]) ->
  (split_parts s = Some (l, u, text) <-> data_line s l u text).
Proof.
  intros W N1 N2 N3. rewrite line_parts. destruct l as [n|]; cbn [data_line]; [|tauto]. split; [|tauto].
  intro L. split; [exact L|]. destruct (label_layout_words _ _ _ _ L) as (t' & l & W').
  pose proof (words_fun _ _ _ W W') as E. injection E as -> _. tauto.
Qed.
Lemma lit_in t : ~ In t [lit "section"; lit "global"; lit "mov"; lit "push"; lit "ret"; lit "syscall"] <->
  t <> lit "section" /\ t <> lit "global" /\ t <> lit "mov" /\ t <> lit "push" /\ t <> lit "ret" /\ t <> lit "syscall".
Proof. cbn [In]. intuition congruence. Qed.

Lemma inst_try_err p s t ts e : words s (t :: ts) ->
  (inst_try p s = PErr e <-> t = lit "mov" /\ mov_parse p s = PErr e \/ t = lit "push" /\ push_parse s = PErr e).
Proof.
  intro W. apply split_words in W. unfold inst_try. rewrite W.
  destruct (str_eqb t (lit "mov")) eqn:E1.
  { apply str_eqb_eq in E1. subst t. rewrite pbind_err. split.
    - intros [H|(a & _ & H)]; [tauto|discriminate H].
    - intros [[_ H]|[H _]]; [tauto|discriminate H]. }
  apply str_eqb_neq in E1. destruct (str_eqb t (lit "push")) eqn:E2.
  { apply str_eqb_eq in E2. subst t. rewrite pbind_err. split.
    - intros [H|(a & _ & H)]; [tauto|discriminate H].
    - intros [[H _]|[_ H]]; [discriminate H|tauto]. }
  apply str_eqb_neq in E2. split; [|tauto]. intro H. exfalso.
  destruct (str_eqb t (lit "ret")); [|destruct (str_eqb t (lit "syscall")); [|discriminate H]].
  all: apply pbind_err in H; destruct H as [H|(a & _ & H)]; [|discriminate H]; revert H; apply inst_new_no_err; [exact I|reflexivity].
Qed.
Lemma inst_try_other p s t ts : words s (t :: ts) ->
  (inst_try p s = POk None <-> t <> lit "mov" /\ t <> lit "push" /\ t <> lit "ret" /\ t <> lit "syscall").
Proof.
  intro W. apply split_words in W. unfold inst_try. rewrite W.
  destruct (str_eqb t (lit "mov")) eqn:E1.
  { apply str_eqb_eq in E1. split; [|tauto]. intro H. apply pbind_ok in H. destruct H as (? & _ & H). discriminate H. }
  destruct (str_eqb t (lit "push")) eqn:E2.
  { apply str_eqb_eq in E2. split; [|tauto]. intro H. apply pbind_ok in H. destruct H as (? & _ & H). discriminate H. }
  destruct (str_eqb t (lit "ret")) eqn:E3.
  { apply str_eqb_eq in E3. split; [|tauto]. intro H. apply pbind_ok in H. destruct H as (? & _ & H). discriminate H. }
  destruct (str_eqb t (lit "syscall")) eqn:E4.
  { apply str_eqb_eq in E4. split; [|tauto]. intro H. apply pbind_ok in H. destruct H as (? & _ & H). discriminate H. }
  apply str_eqb_neq in E1, E2, E3, E4. tauto.
Qed.
Lemma section_err s e ts : words s (lit "section" :: ts) ->
  (section_try s = PErr e <-> ts = [] /\ e = lit "section name is expected" \/
   (exists n l, ts = n :: l /\ (forall x, n <> sect_name x) /\ e = lit "unrecognized section " ++ n) \/
   (exists x t l, ts = sect_name x :: t :: l /\ e = lit "expected end of line after section declaration")).
Proof.
  intro W. apply split_words in W. unfold section_try. rewrite W, str_eqb_refl. destruct ts as [|n ts].
  { split; [intro H; injection H as <-; tauto|]. intros [(_ & ->)|[(? & ? & H & _)|(? & ? & ? & H & _)]]; [reflexivity|discriminate H|discriminate H]. }
  change (str_match n [(lit ".text", SText); (lit ".data", SData); (lit ".bss", SBss)]) with (sect_try n).
  destruct (sect_try n) as [x|] eqn:E.
  - apply sect_try_iff in E. destruct ts as [|t ts].
    + split; [discriminate|]. intros [(H & _)|[(m & l & H & N & _)|(? & ? & ? & H & _)]]; [discriminate H| |discriminate H].
      injection H as <- _. exfalso. exact (N x E).
    + split; [intro H; injection H as <-; right; right; subst n; eauto 10|].
      intros [(H & _)|[(m & l & H & N & _)|(? & ? & ? & _ & ->)]]; [discriminate H| |reflexivity].
      injection H as <- _. exfalso. exact (N x E).
  - pose proof (proj1 (try_none sect_try sect_name n sect_try_iff) E) as N.
    split; [intro H; injection H as <-; right; left; eauto 10|].
    intros [(H & _)|[(m & l & H & _ & ->)|(x & ? & ? & H & _)]]; [discriminate H| |].
    + injection H as <- _. reflexivity.
    + injection H as H _. exfalso. exact (N x H).
Qed.
Lemma global_err s e ts : words s (lit "global" :: ts) ->
  (global_try s = PErr e <-> ts = [] /\ e = lit "symbol name is expected" \/
   (exists n t l, ts = n :: t :: l /\ e = lit "expected end of line after global symbol definition")).
Proof.
  intro W. apply split_words in W. unfold global_try. rewrite W, str_eqb_refl. destruct ts as [|n [|t ts]].
  - split; [intro H; injection H as <-; tauto|]. intros [(_ & ->)|(? & ? & ? & H & _)]; [reflexivity|discriminate H].
  - split; [discriminate|]. intros [(H & _)|(? & ? & ? & H & _)]; discriminate H.
  - split; [intro H; injection H as <-; right; eauto 10|]. intros [(H & _)|(? & ? & ? & _ & ->)]; [discriminate H|reflexivity].
Qed.

Lemma line_body_err p s e : line_body p s = PErr e <-> reports p s e.
Proof.
  pose proof (words_split s) as W.
  assert (Fun : forall l, words s l -> split_whitespace s = l) by (intros l H; now apply split_words).
  split.
  - intro H. unfold line_body in H. destruct (split_whitespace s) as [|t ts] eqn:Ew; [discriminate H|]. clear Fun.
    apply pbind_err in H. destruct H as [H|([x|] & Es & H)]; [|discriminate H|].
    { destruct (str_eqb t (lit "section")) eqn:E; [|apply str_eqb_neq in E; rewrite (section_other s t ts W E) in H; discriminate H].
      apply str_eqb_eq in E. subst t. apply (section_err s e ts W) in H.
      destruct H as [(-> & ->)|[(n & l & -> & N & ->)|(x & t & l & -> & ->)]]; [now apply re_section|eapply re_section_name; eassumption|eapply re_section_end; eassumption]. }
    assert (Ns : t <> lit "section").
    { intros ->. apply (proj1 (section_none s) Es ts W). }
    apply pbind_err in H. destruct H as [H|([x|] & Eg & H)]; [|discriminate H|].
    { destruct (str_eqb t (lit "global")) eqn:E; [|apply str_eqb_neq in E; rewrite (global_other s t ts W E) in H; discriminate H].
      apply str_eqb_eq in E. subst t. apply (global_err s e ts W) in H.
      destruct H as [(-> & ->)|(n & t & l & -> & ->)]; [now apply re_global|eapply re_global_end; eassumption]. }
    assert (Ng : t <> lit "global").
    { intros ->. apply (proj1 (global_none s) Eg ts W). }
    destruct (ends_with_char 58 t) eqn:E58.
    { apply ends_with_iff in E58. destruct E58 as (n & ->). destruct ts as [|t ts]; [discriminate H|]. injection H as <-.
      eapply re_label; exact W. }
    pose proof (proj1 (ends_with_false 58 t) E58) as Nl.
    apply pbind_err in H. destruct H as [H|([x|] & Ed & H)]; [|discriminate H|].
    { apply data_try_err in H. destruct H as (l & u & text & Sp & I). apply (data_line_iff s l u text t ts W Ns Ng Nl) in Sp.
      eapply re_data; eassumption. }
    apply data_try_none in Ed. apply (no_data_iff s t ts W) in Ed.
    apply pbind_err in H. destruct H as [H|([x|] & Ei & H)]; [|discriminate H|].
    + apply (inst_try_err p s t ts e W) in H. destruct H as [(-> & H)|(-> & H)].
      * apply mov_parse_err in H. destruct H as [(d & o & B & M)|(w0 & b & w1 & Es' & B0 & T & B1 & M)].
        -- eapply re_mov; eassumption.
        -- eapply re_mov_shape; eassumption.
      * apply (push_parse_err s e ts W) in H. destruct H as [(-> & ->)|(t & l & -> & R & N & ->)]; [now apply re_push|].
        eapply re_push_operand; eassumption.
    + injection H as <-. apply (inst_try_other p s t ts W) in Ei. eapply re_other; [exact W|exact Ed|exact Nl|]. apply lit_in. tauto.
  - intro R.
    assert (Sec : forall ts, words s (lit "section" :: ts) -> section_try s = PErr e -> line_body p s = PErr e).
    { intros ts Wt H. unfold line_body. rewrite (Fun _ Wt), H. reflexivity. }
    assert (Glo : forall ts, words s (lit "global" :: ts) -> global_try s = PErr e -> line_body p s = PErr e).
    { intros ts Wt H. unfold line_body. rewrite (Fun _ Wt), (section_other s _ _ Wt), H by discriminate. reflexivity. }
    assert (Ins : forall t ts, words s (t :: ts) -> t <> lit "section" -> t <> lit "global" -> (forall n, t <> n ++ [58]) ->
      no_data t ts -> inst_try p s = PErr e -> line_body p s = PErr e).
    { intros t ts Wt N1 N2 N3 Nd H. rewrite (line_inst p s t ts Wt N1 N2); [rewrite H; reflexivity|now apply ends_with_false|now apply (no_data_iff s t ts Wt)]. }
    assert (Mov : forall n, lit "mov" <> n ++ [58]) by (intro n; apply ends_with_false; reflexivity).
    assert (Push : forall n, lit "push" <> n ++ [58]) by (intro n; apply ends_with_false; reflexivity).
    destruct R as [s H|s n ts H N|s x t ts H|s H|s n t ts H|s n t ts H|s l u text e D I|s d o e ts B H Nd M|s w0 b w1 e ts Es B0 T B1 H Nd M|s H|s t ts H Nd R N|s t ts H Nd Nl Ni].
    + eapply Sec; [exact H|]. apply (section_err s _ _ H). tauto.
    + eapply Sec; [exact H|]. apply (section_err s _ _ H). right. left. eauto 10.
    + eapply Sec; [exact H|]. apply (section_err s _ _ H). right. right. eauto 10.
    + eapply Glo; [exact H|]. apply (global_err s _ _ H). tauto.
    + eapply Glo; [exact H|]. apply (global_err s _ _ H). right. eauto 10.
    + assert (Es : ends_with_char 58 (n ++ [58]) = true) by (apply ends_with_iff; eauto).
      assert (N1 : n ++ [58] <> lit "section") by (intro E; rewrite E in Es; discriminate Es).
      assert (N2 : n ++ [58] <> lit "global") by (intro E; rewrite E in Es; discriminate Es).
      unfold line_body. rewrite (Fun _ H), (section_other s _ _ H N1). cbn [pbind]. rewrite (global_other s _ _ H N2). cbn [pbind].
      rewrite Es. reflexivity.
    + assert (L : split_parts s = Some (l, u, text)).
      { apply line_parts. destruct l; cbn [data_line] in D; tauto. }
      assert (H : exists t ts, words s (t :: ts) /\ t <> lit "section" /\ t <> lit "global" /\ (forall n, t <> n ++ [58])).
      { destruct l as [n|]; cbn [data_line] in D.
        - destruct D as (D & N1 & N2 & N3). destruct (label_layout_words _ _ _ _ D) as (t & ts & Wt). eauto 10.
        - destruct (data_layout_words _ _ _ D) as (t & ts & Wt). exists (unit_name u), (t :: ts). split; [exact Wt|].
          split; [destruct u; discriminate|]. split; [destruct u; discriminate|]. intro n. apply ends_with_false. destruct u; reflexivity. }
      destruct H as (t & ts & Wt & N1 & N2 & N3). apply ends_with_false in N3.
      assert (De : data_try s = PErr e) by (apply data_try_err; eauto).
      unfold line_body. rewrite (Fun _ Wt), (section_other s t ts Wt N1). cbn [pbind]. rewrite (global_other s t ts Wt N2). cbn [pbind].
      rewrite N3, De. reflexivity.
    + eapply Ins; try eassumption; try discriminate. apply (inst_try_err p s _ _ e H). left. split; [reflexivity|].
      apply mov_parse_err. left. eauto.
    + eapply Ins; try eassumption; try discriminate. apply (inst_try_err p s _ _ e H). left. split; [reflexivity|].
      apply mov_parse_err. right. exists w0, b, w1. tauto.
    + eapply Ins; try eassumption; try discriminate.
      * split; [intro u; destruct u; discriminate|discriminate].
      * apply (inst_try_err p s _ _ _ H). right. split; [reflexivity|]. apply (push_parse_err s _ _ H). tauto.
    + eapply Ins; try eassumption; try discriminate. apply (inst_try_err p s _ _ _ H). right. split; [reflexivity|].
      apply (push_parse_err s _ _ H). right. eauto 10.
    + apply lit_in in Ni. destruct Ni as (N1 & N2 & N3 & N4 & N5 & N6).
      rewrite (line_inst p s t ts H N1 N2); [|now apply ends_with_false|now apply (no_data_iff s t ts H)].
      rewrite (proj2 (inst_try_other p s t ts H)) by tauto. reflexivity.
Qed.

(** C67 *)
Lemma top_C67 p s msg : line_parse p s = PErr msg <-> line_reports p s msg.
Proof.
  rewrite line_parse_body, line_body_err. split.
  - intro R. exists (strip_comment s). split; [now apply line_text_iff|exact R].
  - intros (body & T & R). apply line_text_iff in T. now subst body.
Qed.
Lemma line_reports_fun p s m m' : line_reports p s m -> line_reports p s m' -> m = m'.
Proof. rewrite <- !top_C67. congruence. Qed.
Lemma top_C67_cases p s :
  (exists body st, line_text s body /\ accepts p body st) \/ (exists msg, line_reports p s msg) \/
  (p = Debug /\ exists body d o ts, line_text s body /\ mov_body body d o /\ is_reg_name d /\ words o ts /\ expr_overflow ts).
Proof.
  destruct (line_parse p s) as [l|msg|] eqn:E.
  - left. destruct (line_sound p s l E) as (body & st & T & A & _). eauto.
  - right. left. exists msg. now apply top_C67.
  - right. right. now apply line_panic.
Qed.
Lemma top_C67_one p s msg : line_reports p s msg ->
  (forall m, line_reports p s m -> m = msg) /\ (forall body st, line_text s body -> ~ accepts p body st) /\
  (p = Debug -> forall body d o ts, line_text s body -> mov_body body d o -> is_reg_name d -> words o ts -> ~ expr_overflow ts).
Proof.
  intro R. split; [intros m M; eapply line_reports_fun; eassumption|]. apply top_C67 in R. split.
  - intros body st T A. destruct (line_complete p s body st T A) as (l & E & _). congruence.
  - intros P body d o ts T B I W O. assert (line_parse p s = PPanic); [|congruence].
    apply line_panic. split; [exact P|]. exists body, d, o, ts. tauto.
Qed.
