(** Proofs about the parsers: expressions, data, instructions. *)
From Coq Require String.
Import String.StringSyntax.
From Coq Require Import ZifyBool ZifyNat.
From Verif Require Import Base Str X64 SpecX86 Obj Asm SpecAsm PfStr PfTok PfX64 PfX86 PfX64Top PfBytes.
Ltac Zify.zify_post_hook ::= Z.div_mod_to_equations.

(** ** Expressions *)

Lemma plus_not_number bits v : ~ number bits (lit "+") v.
Proof.
  rewrite <- num_try_iff. cbn. congruence.
Qed.
Lemma minus_not_number bits v : ~ number bits (lit "-") v.
Proof. rewrite <- num_try_iff. cbn. congruence. Qed.

Lemma token_num s n : token_try s = Some (TNum n) <-> number 64 s n.
Proof.
  unfold token_try. destruct (str_eqb s (lit "+")) eqn:E1.
  { apply str_eqb_eq in E1. subst. split; [congruence|]. intro H. now apply plus_not_number in H. }
  destruct (str_eqb s (lit "-")) eqn:E2.
  { apply str_eqb_eq in E2. subst. split; [congruence|]. intro H. now apply minus_not_number in H. }
  rewrite <- num_try_iff. destruct (num_try 64 s); split; congruence.
Qed.
Lemma token_plus s : token_try s = Some TPlus <-> s = lit "+".
Proof.
  unfold token_try. destruct (str_eqb s (lit "+")) eqn:E1.
  { apply str_eqb_eq in E1. tauto. }
  apply str_eqb_neq in E1. destruct (str_eqb s (lit "-")); [split; congruence|].
  destruct (num_try 64 s); split; congruence.
Qed.
Lemma token_minus s : token_try s = Some TMinus <-> s = lit "-".
Proof.
  unfold token_try. destruct (str_eqb s (lit "+")) eqn:E1.
  { apply str_eqb_eq in E1. subst. split; [congruence|]. intro H; discriminate H. }
  destruct (str_eqb s (lit "-")) eqn:E2.
  { apply str_eqb_eq in E2. tauto. }
  apply str_eqb_neq in E2. destruct (num_try 64 s); split; congruence.
Qed.
Lemma token_none s : token_try s = None <-> s <> lit "+" /\ s <> lit "-" /\ forall n, ~ number 64 s n.
Proof.
  unfold token_try. destruct (str_eqb s (lit "+")) eqn:E1.
  { apply str_eqb_eq in E1. split; [congruence|tauto]. }
  apply str_eqb_neq in E1. destruct (str_eqb s (lit "-")) eqn:E2.
  { apply str_eqb_eq in E2. split; [congruence|tauto]. }
  apply str_eqb_neq in E2. rewrite <- num_try_none. destruct (num_try 64 s).
  - split; [congruence|]. intros (_ & _ & H). congruence.
  - tauto.
Qed.

Lemma wrapi_signed n : 0 <= n < 2 ^ 64 -> wrapi 64 n = signed64 n.
Proof.
  intro H. unfold wrapi, signed64. change (2 ^ (64 - 1)) with 9223372036854775808.
  change (2 ^ 63) with 9223372036854775808. change (2 ^ 64) with 18446744073709551616 in *.
  destruct (n <? 9223372036854775808) eqn:E; lia.
Qed.
Lemma chki_cases p x :
  (chki p 64 x = Panic /\ p = Debug /\ ~ in_i64 x) \/
  (exists y k, chki p 64 x = Ok y /\ y = x + k * 2 ^ 64 /\ (p = Debug -> in_i64 x /\ y = x)).
Proof.
  unfold chki, inib, in_i64. change (2 ^ (64 - 1)) with (2 ^ 63).
  destruct ((- 2 ^ 63 <=? x) && (x <? 2 ^ 63)) eqn:E.
  - right. exists x, 0. repeat split; lia.
  - destruct p; [left|right].
    + repeat split; lia.
    + exists (wrapi 64 x), (- ((x + 2 ^ 63) / 2 ^ 64)). split; [reflexivity|]. split; [|congruence].
      unfold wrapi. change (2 ^ (64 - 1)) with (2 ^ 63).
      pose proof (Z.div_mod (x + 2 ^ 63) (2 ^ 64) ltac:(lia)). lia.
Qed.
Lemma signed_mod n : exists k, signed64 n = n + k * 2 ^ 64.
Proof. unfold signed64. destruct (n <? 2 ^ 63); [exists 0|exists (-1)]; lia. Qed.

(** the arithmetic of expr.rs:53-57 *)
Definition arith (p : profile) (sg lhs rhs : Z) : presult (option Z) :=
  m <-- plift (chki p 64 (sg * wrapi 64 rhs)) ;;
  r <-- plift (chki p 64 (wrapi 64 lhs + m)) ;;
  POk (Some (wrapu 64 r)).
Lemma in_i64_neg1 b : in_i64 b <-> in_i64 (1 * b).
Proof. now rewrite Z.mul_1_l. Qed.
Lemma signed_in n : 0 <= n < 2 ^ 64 -> in_i64 (signed64 n).
Proof.
  unfold signed64, in_i64. intro. change (2 ^ 63) with 9223372036854775808.
  change (2 ^ 64) with 18446744073709551616 in *. destruct (n <? 9223372036854775808) eqn:E; lia.
Qed.
Definition arith_safe (sg a b : Z) : Prop :=
  in_i64 (sg * signed64 b) /\ in_i64 (signed64 a + sg * signed64 b).
Lemma arith_spec p sg a b : 0 <= a < 2 ^ 64 -> 0 <= b < 2 ^ 64 ->
  (arith p sg a b = PPanic /\ p = Debug /\ ~ arith_safe sg a b) \/
  (arith p sg a b = POk (Some ((a + sg * b) mod 2 ^ 64)) /\ (p = Debug -> arith_safe sg a b)).
Proof.
  intros Ha Hb. unfold arith, arith_safe. rewrite !wrapi_signed by assumption.
  destruct (chki_cases p (sg * signed64 b)) as [(E & P & N) | (m & k & E & Em & D)]; rewrite E; cbn [plift pbind].
  - left. tauto.
  - destruct (chki_cases p (signed64 a + m)) as [(E2 & P & N) | (r & k2 & E2 & Er & D2)]; rewrite E2; cbn [plift pbind].
    + left. split; [reflexivity|]. split; [exact P|]. intros [_ H]. apply N.
      destruct (D P) as [_ ->]. exact H.
    + right. split.
      * f_equal. f_equal. unfold wrapu. destruct (signed_mod a) as [ka Ka]. destruct (signed_mod b) as [kb Kb].
        rewrite Er, Em, Ka, Kb.
        replace (a + ka * 2 ^ 64 + (sg * (b + kb * 2 ^ 64) + k * 2 ^ 64) + k2 * 2 ^ 64)
          with (a + sg * b + (ka + sg * kb + k + k2) * 2 ^ 64) by ring.
        apply Z_mod_plus_full.
      * intro P. destruct (D P) as [D1 ->]. destruct (D2 P) as [D3 _]. split; assumption.
Qed.

Definition op_sign (op : str) (sg : Z) : Prop := op = lit "+" /\ sg = 1 \/ op = lit "-" /\ sg = -1.
Lemma safe_plus a b : 0 <= b < 2 ^ 64 -> (arith_safe 1 a b <-> in_i64 (signed64 a + signed64 b)).
Proof.
  intro H. unfold arith_safe. rewrite !Z.mul_1_l. pose proof (signed_in b H). tauto.
Qed.
Lemma safe_minus a b : arith_safe (-1) a b <-> in_i64 (- signed64 b) /\ in_i64 (signed64 a - signed64 b).
Proof.
  unfold arith_safe. replace (-1 * signed64 b) with (- signed64 b) by ring.
  replace (signed64 a + - signed64 b) with (signed64 a - signed64 b) by ring. tauto.
Qed.

(** all results of the expression parser, by its words *)
Inductive expr_res (p : profile) (ts : list str) : presult (option Z) -> Prop :=
| er_none : (ts = [] \/ exists t l, ts = t :: l /\ t <> lit "+" /\ t <> lit "-" /\ forall n, ~ number 64 t n) ->
    expr_res p ts (POk None)
| er_some n : expr_value p ts n -> expr_res p ts (POk (Some n))
| er_panic : p = Debug -> expr_overflow ts -> expr_res p ts PPanic
| er_err e : (forall n, ~ expr_value p ts n) -> ~ expr_overflow ts ->
    (exists t l, ts = t :: l /\ (t = lit "+" \/ t = lit "-" \/ exists n, number 64 t n)) ->
    expr_res p ts (PErr e).

Lemma expr_try_words p s ts : words s ts -> expr_res p ts (expr_try p s).
Proof.
  intro W. apply split_words in W. unfold expr_try. rewrite W. clear W s.
  destruct ts as [|t1 ts]. { constructor. left. reflexivity. }
  destruct (token_try t1) as [[lhs| |]|] eqn:T1.
  2:{ apply token_plus in T1. subst. apply er_err.
      - intros n H. inversion H; subst; eapply plus_not_number; eassumption.
      - intros (? & ? & ? & ? & ? & ? & E & H & _). injection E as <- _. now apply plus_not_number in H.
      - eauto 10. }
  2:{ apply token_minus in T1. subst. apply er_err.
      - intros n H. inversion H; subst; eapply minus_not_number; eassumption.
      - intros (? & ? & ? & ? & ? & ? & E & H & _). injection E as <- _. now apply minus_not_number in H.
      - eauto 10. }
  2:{ apply token_none in T1. apply er_none. right. eauto 10. }
  apply token_num in T1.
  assert (X : exists t l, t1 :: ts = t :: l /\ (t = lit "+" \/ t = lit "-" \/ exists n, number 64 t n)) by eauto 10.
  destruct ts as [|op ts]. { apply er_some. constructor. exact T1. }
  destruct (token_try op) as [[n2| |]|] eqn:T2.
  { apply token_num in T2. apply er_err; [| |exact X].
    - intros n H. inversion H; subst; [eapply plus_not_number|eapply minus_not_number]; eassumption.
    - intros (? & ? & ? & ? & ? & ? & E & _ & _ & [[-> _] | [-> _]]); injection E as _ -> _;
        [eapply plus_not_number|eapply minus_not_number]; eassumption. }
  3:{ apply token_none in T2. apply er_err; [| |exact X].
      - intros n H. inversion H; subst; tauto.
      - intros (? & ? & ? & ? & ? & ? & E & _ & _ & [[-> _] | [-> _]]); injection E as _ -> _; tauto. }
  all: [> apply token_plus in T2 | apply token_minus in T2]; subst op;
    (destruct ts as [|t3 more];
     [apply er_err; [intros n H; inversion H|intros (? & ? & ? & ? & ? & ? & E & _); discriminate E|exact X]|]).
  all: match goal with |- context [token_try ?t] => destruct (token_try t) as [[rhs| |]|] eqn:T3 end;
    [apply token_num in T3 | | |];
    try (apply er_err; [| |exact X];
     [ intros n H; inversion H; subst;
       match type of T3 with token_try ?t = _ =>
         match goal with N : number 64 t _ |- _ => apply token_num in N; congruence end end
     | intros (? & ? & ? & ? & ? & ? & E & _ & N & _); injection E as _ _ -> _; apply token_num in N; congruence ]).
  - change (expr_res p (t1 :: lit "+" :: t3 :: more) (arith p 1 lhs rhs)).
    pose proof (number_rng _ _ _ T1) as R1. pose proof (number_rng _ _ _ T3) as R3.
    destruct (arith_spec p 1 lhs rhs R1 R3) as [(E & P & N) | (E & D)]; rewrite E.
    + apply er_panic; [exact P|]. exists t1, (lit "+"), t3, more, lhs, rhs.
      rewrite safe_plus in N by exact R3. tauto.
    + rewrite Z.mul_1_l. apply er_some. constructor; try assumption. intro P.
      apply safe_plus; [exact R3|]. exact (D P).
  - change (expr_res p (t1 :: lit "-" :: t3 :: more) (arith p (-1) lhs rhs)).
    pose proof (number_rng _ _ _ T1) as R1. pose proof (number_rng _ _ _ T3) as R3.
    destruct (arith_spec p (-1) lhs rhs R1 R3) as [(E & P & N) | (E & D)]; rewrite E.
    + apply er_panic; [exact P|]. exists t1, (lit "-"), t3, more, lhs, rhs.
      rewrite safe_minus in N. tauto.
    + replace (lhs + -1 * rhs) with (lhs - rhs) by ring. apply er_some. apply ev_sub; [exact T1|exact T3|].
      intro P. apply safe_minus. exact (D P).
Qed.

Lemma expr_value_first p ts n : expr_value p ts n -> exists t l m, ts = t :: l /\ number 64 t m.
Proof. destruct 1; eauto. Qed.
Lemma expr_value_fun p ts n n' : expr_value p ts n -> expr_value p ts n' -> n = n'.
Proof.
  intros H H'. destruct H as [t n N|t1 t2 a b more N1 N2 D|t1 t2 a b more N1 N2 D]; inversion H'; subst.
  - eapply number_fun; eassumption.
  - rewrite (number_fun _ _ _ _ N1 H2), (number_fun _ _ _ _ N2 H4). reflexivity.
  - rewrite (number_fun _ _ _ _ N1 H2), (number_fun _ _ _ _ N2 H4). reflexivity.
Qed.
Lemma expr_value_no_overflow ts n : expr_value Debug ts n -> ~ expr_overflow ts.
Proof.
  intros H (t1 & op & t2 & more & a & b & E & N1 & N2 & O). destruct H; [congruence| |].
  - injection E as -> <- -> ->. destruct O as [[_ O] | [O _]]; [|discriminate O].
    rewrite (number_fun _ _ _ _ N1 H), (number_fun _ _ _ _ N2 H0) in O. tauto.
  - injection E as -> <- -> ->. destruct O as [[O _] | [_ O]]; [discriminate O|].
    rewrite (number_fun _ _ _ _ N1 H), (number_fun _ _ _ _ N2 H0) in O. tauto.
Qed.
Lemma expr_overflow_first ts : expr_overflow ts -> exists t l m, ts = t :: l /\ number 64 t m.
Proof. intros (t1 & ? & ? & ? & a & ? & -> & N & _). eauto. Qed.

Lemma expr_none p s : expr_try p s = POk None <-> not_expr s.
Proof.
  pose proof (words_split s) as W. pose proof (expr_try_words p s _ W) as R.
  set (ts := split_whitespace s) in *. split.
  - intro E. rewrite E in R. inversion R as [H| | |]. destruct H as [H | (t & l & H & N)].
    + left. rewrite H in W. exact W.
    + right. rewrite H in W. exists t, l. tauto.
  - intro NE.
    assert (F : forall t l m, ts = t :: l -> number 64 t m \/ t = lit "+" \/ t = lit "-" -> False).
    { intros t l m Et N. destruct NE as [W0 | (t0 & l0 & W0 & P & M & Nn)].
      - pose proof (words_fun _ _ _ W W0). congruence.
      - pose proof (words_fun _ _ _ W W0) as E. rewrite Et in E. injection E as -> _.
        destruct N as [N|[N|N]]; [now apply Nn in N|congruence|congruence]. }
    destruct R as [H|n H|P H|e H1 H2 H3]; [reflexivity| | |].
    + apply expr_value_first in H. destruct H as (t & l & m & E & N). exfalso. eapply (F t l m); eauto.
    + apply expr_overflow_first in H. destruct H as (t & l & m & E & N). exfalso. eapply (F t l m); eauto.
    + destruct H3 as (t & l & E & [N|[N|[m N]]]); exfalso; [eapply (F t l 0)|eapply (F t l 0)|eapply (F t l m)]; eauto.
Qed.
Lemma expr_some p s n : expr_try p s = POk (Some n) <-> exists ts, words s ts /\ expr_value p ts n.
Proof.
  pose proof (words_split s) as W. pose proof (expr_try_words p s _ W) as R.
  set (ts := split_whitespace s) in *. split.
  - intro E. rewrite E in R. inversion R. eauto.
  - intros (ts' & W' & V). pose proof (words_fun _ _ _ W W') as <-.
    destruct R as [H|n' H|P H|e H1 H2 H3].
    + apply expr_value_first in V. destruct V as (t & l & m & E & N).
      destruct H as [H | (t' & l' & H & _ & _ & Nn)]; [congruence|]. rewrite E in H. injection H as <- _.
      now apply Nn in N.
    + do 2 f_equal. eapply expr_value_fun; eassumption.
    + exfalso. subst p. eapply expr_value_no_overflow; eassumption.
    + now apply H1 in V.
Qed.
Lemma expr_panic p s : expr_try p s = PPanic <-> p = Debug /\ exists ts, words s ts /\ expr_overflow ts.
Proof.
  pose proof (words_split s) as W. pose proof (expr_try_words p s _ W) as R.
  set (ts := split_whitespace s) in *. split.
  - intro E. rewrite E in R. inversion R. eauto.
  - intros (-> & ts' & W' & V). pose proof (words_fun _ _ _ W W') as <-.
    destruct R as [H|n' H|P H|e H1 H2 H3]; [|exfalso; eapply expr_value_no_overflow; eassumption|reflexivity|contradiction].
    apply expr_overflow_first in V. destruct V as (t & l & m & E & N).
    destruct H as [H | (t' & l' & H & _ & _ & Nn)]; [congruence|]. rewrite E in H. injection H as <- _.
    now apply Nn in N.
Qed.
Lemma expr_value_rng p ts n : expr_value p ts n -> 0 <= n < 2 ^ 64.
Proof.
  destruct 1 as [t n H|t1 t2 a b m _ _ _|t1 t2 a b m _ _ _].
  - apply number_rng in H. exact H.
  - apply Z.mod_pos_bound. reflexivity.
  - apply Z.mod_pos_bound. reflexivity.
Qed.
Lemma not_expr_value p o ts n : not_expr o -> words o ts -> ~ expr_value p ts n.
Proof.
  intros N W V. apply (expr_none p) in N. assert (E : expr_try p o = POk (Some n)) by (apply expr_some; eauto). congruence.
Qed.
