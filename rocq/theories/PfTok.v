(** Lemmas on the string functions: words, trimming, splitting, numbers, register names. *)
From Coq Require String.
Import String.StringSyntax.
From Coq Require Import ZifyBool ZifyNat.
From Verif Require Import Base Str X64 SpecX86 Obj Asm SpecAsm PfStr.
Ltac Zify.zify_post_hook ::= Z.div_mod_to_equations.

(** ** White space *)

Lemma is_ws_iff c : is_ws c = true <-> space c.
Proof.
  unfold is_ws, space; cbn [In]; split; intro H.
  - assert (C : c = 9 \/ c = 10 \/ c = 11 \/ c = 12 \/ c = 13 \/ c = 32 \/ c = 0x85 \/ c = 0xA0
      \/ c = 0x1680 \/ (0x2000 <= c <= 0x200A) \/ c = 0x2028 \/ c = 0x2029 \/ c = 0x202F
      \/ c = 0x205F \/ c = 0x3000) by lia.
    lia.
  - repeat (destruct H as [<- | H]; [reflexivity|]). destruct H.
Qed.
Lemma is_ws_false c : is_ws c = false <-> ~ space c.
Proof. rewrite <- is_ws_iff. destruct (is_ws c); split; congruence. Qed.
Lemma space_dec c : {space c} + {~ space c}.
Proof. destruct (is_ws c) eqn:E; [left; apply is_ws_iff|right; apply is_ws_false]; exact E. Qed.
Lemma space_lt c : space c -> 9 <= c.
Proof. unfold space; cbn [In]; lia. Qed.

Lemma blank_nil : blank [].
Proof. constructor. Qed.
Lemma blank_cons c w : space c -> blank w -> blank (c :: w).
Proof. constructor; assumption. Qed.
Lemma blank_app a b : blank (a ++ b) <-> blank a /\ blank b.
Proof. apply Forall_app. Qed.
Lemma blank_rev a : blank a -> blank (rev a).
Proof. apply Forall_rev. Qed.

(** ** drop_while, trim *)

Lemma drop_while_spec p s : exists w,
  s = w ++ drop_while p s /\ Forall (fun c => p c = true) w /\
  match drop_while p s with [] => True | c :: _ => p c = false end.
Proof.
  induction s as [|c s IH]; cbn [drop_while].
  - exists []. repeat split; constructor.
  - destruct (p c) eqn:E.
    + destruct IH as (w & E1 & F & G). exists (c :: w). split; [|split].
      * cbn. f_equal. exact E1.
      * constructor; assumption.
      * exact G.
    + exists []. repeat split; [constructor|exact E].
Qed.
Lemma drop_while_app p w s : Forall (fun c => p c = true) w -> drop_while p (w ++ s) = drop_while p s.
Proof. induction 1 as [|c w H _ IH]; cbn; [reflexivity|now rewrite H]. Qed.
Lemma drop_while_stop p s : match s with [] => True | c :: _ => p c = false end -> drop_while p s = s.
Proof. destruct s as [|c s]; cbn; [reflexivity|now intros ->]. Qed.

Lemma blank_ws w : blank w -> Forall (fun c => is_ws c = true) w.
Proof. apply Forall_impl. intro; apply is_ws_iff. Qed.
Lemma ws_blank w : Forall (fun c => is_ws c = true) w -> blank w.
Proof. apply Forall_impl. intro; apply is_ws_iff. Qed.
Lemma starts_solid_ws s : starts_solid s <-> match s with [] => True | c :: _ => is_ws c = false end.
Proof. destruct s; [reflexivity|]. cbn. symmetry. apply is_ws_false. Qed.

Lemma trim_start_blank w s : blank w -> starts_solid s -> trim_start (w ++ s) = s.
Proof.
  intros W S1. unfold trim_start, trim_start_by.
  rewrite drop_while_app by (apply blank_ws; exact W).
  apply drop_while_stop, starts_solid_ws, S1.
Qed.
Lemma trim_start_spec s : exists w, s = w ++ trim_start s /\ blank w /\ starts_solid (trim_start s).
Proof.
  destruct (drop_while_spec is_ws s) as (w & E & F & G). exists w. split; [exact E|].
  split; [apply ws_blank, F|]. apply starts_solid_ws, G.
Qed.

Lemma starts_solid_app s w : s <> [] -> starts_solid s -> starts_solid (s ++ w).
Proof. destruct s; [congruence|]. trivial. Qed.
Lemma tight_start s : tight s -> starts_solid s.
Proof. intros [H _]; exact H. Qed.
Lemma tight_nil : tight [].
Proof. split; exact I. Qed.
Lemma rev_nonnil {A} (s : list A) : s <> [] -> rev s <> [].
Proof. intros H E. apply H. rewrite <- (rev_involutive s), E. reflexivity. Qed.

Lemma trim_blank w : blank w -> trim w = [].
Proof.
  intro W. unfold trim. assert (E : trim_start w = []).
  { rewrite <- (app_nil_r w). apply trim_start_blank; [exact W|exact I]. }
  rewrite E. reflexivity.
Qed.
Lemma trim_of w1 t w2 : blank w1 -> tight t -> blank w2 -> trim (w1 ++ t ++ w2) = t.
Proof.
  intros W1 [T1 T2] W2. destruct t as [|c t].
  - cbn [app]. apply trim_blank, blank_app. split; assumption.
  - unfold trim. rewrite trim_start_blank; [|exact W1|exact T1].
    unfold trim_end, trim_end_by. rewrite rev_app_distr.
    rewrite drop_while_app by (apply blank_ws, blank_rev, W2).
    rewrite drop_while_stop by (apply starts_solid_ws; exact T2). apply rev_involutive.
Qed.
Lemma trim_spec s : exists w1 w2, s = w1 ++ trim s ++ w2 /\ blank w1 /\ tight (trim s) /\ blank w2.
Proof.
  destruct (trim_start_spec s) as (w & E & W & T).
  destruct (drop_while_spec is_ws (rev (trim_start s))) as (v & E2 & V & G).
  exists w, (rev v). change (trim s) with (rev (drop_while is_ws (rev (trim_start s)))).
  set (u := drop_while is_ws (rev (trim_start s))) in *.
  assert (E3 : trim_start s = rev u ++ rev v).
  { rewrite <- rev_app_distr, <- E2. symmetry. apply rev_involutive. }
  split; [rewrite <- E3; exact E|]. split; [exact W|]. split; [|apply blank_rev, ws_blank, V].
  split; [|rewrite rev_involutive; apply starts_solid_ws, G].
  rewrite E3 in T. destruct (rev u); [exact I|exact T].
Qed.
Lemma trim_tight s : tight s -> trim s = s.
Proof. intro T. rewrite <- (app_nil_r s) at 1. apply (trim_of [] s []); [apply blank_nil|exact T|apply blank_nil]. Qed.
Lemma tight_trim s : tight (trim s).
Proof. destruct (trim_spec s) as (_ & _ & _ & _ & T & _); exact T. Qed.

Lemma word_tight t : word t -> tight t.
Proof.
  intros [_ F]. split.
  - destruct F; [exact I|assumption].
  - apply Forall_rev in F. destruct F; [exact I|assumption].
Qed.

(** ** split_once *)

Lemma split_once_some p s a b : split_once p s = Some (a, b) <->
  exists c, s = a ++ c :: b /\ p c = true /\ Forall (fun x => p x = false) a.
Proof.
  split.
  - revert a b. induction s as [|c s IH]; cbn [split_once]; intros a b H; [congruence|].
    destruct (p c) eqn:E.
    + injection H as <- <-. exists c. repeat split; [exact E|constructor].
    + destruct (split_once p s) as [[a' b']|]; [|congruence]. injection H as <- <-.
      destruct (IH a' b' eq_refl) as (c' & -> & P & F). exists c'. repeat split; [exact P|].
      constructor; assumption.
  - intros (c & -> & P & F). induction F as [|x a Px _ IH]; cbn [split_once app].
    + now rewrite P.
    + rewrite Px, IH. reflexivity.
Qed.
Lemma split_once_none p s : split_once p s = None <-> Forall (fun x => p x = false) s.
Proof.
  induction s as [|c s IH]; cbn [split_once].
  - split; [constructor|reflexivity].
  - destruct (p c) eqn:E.
    + split; [congruence|]. intro H. inversion H. congruence.
    + destruct (split_once p s) as [[a b]|].
      * split; [congruence|]. intro H. inversion H; subst. apply IH in H3. congruence.
      * split; [|reflexivity]. intros _. constructor; [exact E|]. apply IH. reflexivity.
Qed.
Lemma eqb_false_in k s : Forall (fun x => (x =? k) = false) s <-> ~ In k s.
Proof.
  rewrite Forall_forall. split.
  - intros H I. apply H in I. lia.
  - intros H x I. apply Z.eqb_neq. congruence.
Qed.
Lemma split_char k s a b : split_once (fun c => c =? k) s = Some (a, b) <-> s = a ++ k :: b /\ ~ In k a.
Proof.
  rewrite split_once_some. setoid_rewrite eqb_false_in. split.
  - intros (c & -> & E & F). apply Z.eqb_eq in E. subst. split; [reflexivity|exact F].
  - intros (-> & F). exists k. repeat split; [apply Z.eqb_refl|exact F].
Qed.
Lemma split_char_none k s : split_once (fun c => c =? k) s = None <-> ~ In k s.
Proof. rewrite split_once_none. apply eqb_false_in. Qed.
Lemma split_ws s a b : split_once is_ws s = Some (a, b) <->
  exists c, s = a ++ c :: b /\ space c /\ Forall (fun x => ~ space x) a.
Proof.
  rewrite split_once_some. setoid_rewrite is_ws_iff.
  assert (E : Forall (fun x => is_ws x = false) a <-> Forall (fun x => ~ space x) a).
  { split; apply Forall_impl; intro; apply is_ws_false. }
  now setoid_rewrite E.
Qed.
Lemma split_ws_none s : split_once is_ws s = None <-> Forall (fun x => ~ space x) s.
Proof. rewrite split_once_none. split; apply Forall_impl; intro; apply is_ws_false. Qed.

(** ** words *)

Lemma words_blank_app w s ts : blank w -> words s ts -> words (w ++ s) ts.
Proof.
  intros W H. destruct H as [v V | v t rest ts V T R H].
  - constructor. apply blank_app. split; assumption.
  - rewrite app_assoc. constructor; try assumption. apply blank_app. split; assumption.
Qed.
Lemma split_not_nil p s : split p s <> [].
Proof. destruct s as [|c s]; cbn; [congruence|]. destruct (p c); [congruence|]. destruct (split p s); congruence. Qed.

Lemma split_words_aux s w ws : split is_ws s = w :: ws ->
  exists rest, s = w ++ rest /\ starts_blank rest /\ Forall (fun c => ~ space c) w /\
    words rest (filter nonempty ws).
Proof.
  revert w ws. induction s as [|c s IH]; cbn [split]; intros w ws H.
  - injection H as <- <-. exists []. repeat split; [constructor|]. apply words_nil, blank_nil.
  - destruct (is_ws c) eqn:E.
    + injection H as <- <-. apply is_ws_iff in E.
      destruct (split is_ws s) as [|w' ws'] eqn:Es; [now apply split_not_nil in Es|].
      destruct (IH _ _ eq_refl) as (rest & -> & B & F & W). exists (c :: w' ++ rest).
      split; [reflexivity|]. split; [exact E|]. split; [constructor|].
      destruct w' as [|x w']; cbn [filter nonempty].
      * apply (words_blank_app [c]); [|exact W]. apply blank_cons; [exact E|apply blank_nil].
      * change (c :: (x :: w') ++ rest) with ([c] ++ (x :: w') ++ rest). constructor; try assumption.
        -- apply blank_cons; [exact E|apply blank_nil].
        -- split; [congruence|exact F].
    + apply is_ws_false in E.
      destruct (split is_ws s) as [|w' ws'] eqn:Es; [now apply split_not_nil in Es|].
      injection H as <- <-. destruct (IH _ _ eq_refl) as (rest & -> & B & F & W). exists rest.
      repeat split; try assumption. constructor; assumption.
Qed.
Lemma words_split s : words s (split_whitespace s).
Proof.
  unfold split_whitespace. destruct (split is_ws s) as [|w ws] eqn:E; [now apply split_not_nil in E|].
  destruct (split_words_aux _ _ _ E) as (rest & -> & B & F & W).
  destruct w as [|c w]; cbn [filter nonempty]; [exact W|].
  apply (words_cons [] (c :: w)); try assumption; [apply blank_nil|]. split; [congruence|exact F].
Qed.
Lemma split_blank w s : blank w -> split_whitespace (w ++ s) = split_whitespace s.
Proof.
  induction 1 as [|c w C _ IH]; [reflexivity|]. apply is_ws_iff in C.
  unfold split_whitespace in *. cbn [split app]. rewrite C. cbn [filter nonempty]. exact IH.
Qed.
Lemma split_word_aux t rest : Forall (fun c => ~ space c) t -> starts_blank rest ->
  exists ws, split is_ws (t ++ rest) = t :: ws /\ filter nonempty ws = split_whitespace rest.
Proof.
  intros F B. induction F as [|c t C _ IH]; cbn [app].
  - destruct rest as [|c rest]; [exists []; split; reflexivity|]. cbn in B. apply is_ws_iff in B.
    unfold split_whitespace. cbn [split]. rewrite B. eexists. split; [reflexivity|]. reflexivity.
  - destruct IH as (ws & E & W). exists ws. split; [|exact W]. cbn [split].
    apply is_ws_false in C. rewrite C, E. reflexivity.
Qed.
Lemma split_word t rest : word t -> starts_blank rest ->
  split_whitespace (t ++ rest) = t :: split_whitespace rest.
Proof.
  intros [T F] B. destruct (split_word_aux t rest F B) as (ws & E & W).
  unfold split_whitespace at 1. rewrite E. destruct t; [congruence|]. cbn [filter nonempty]. now rewrite W.
Qed.
Lemma split_words s ts : split_whitespace s = ts <-> words s ts.
Proof.
  split; [intros <-; apply words_split|].
  induction 1 as [w W | w t rest ts W T B _ IH].
  - rewrite <- (app_nil_r w), split_blank by exact W. reflexivity.
  - rewrite split_blank, split_word by assumption. now rewrite IH.
Qed.
Lemma words_fun s ts ts' : words s ts -> words s ts' -> ts = ts'.
Proof. rewrite <- !split_words. congruence. Qed.
Lemma words_all s ts : words s ts -> Forall word ts.
Proof. induction 1; constructor; assumption. Qed.
Lemma words_blank s : words s [] <-> blank s.
Proof.
  split; [|apply words_nil]. intro H. inversion H; subst; assumption.
Qed.
Lemma words_app_blank s w ts : blank w -> words s ts -> words (s ++ w) ts.
Proof.
  intros W H. induction H as [v V | v t rest ts V T B H IH].
  - constructor. apply blank_app. split; assumption.
  - rewrite <- !app_assoc. constructor; try assumption. destruct rest; [|exact B].
    destruct W; [exact I|assumption].
Qed.
(** the first word and what follows it *)
Lemma words_first s t ts : words s (t :: ts) ->
  exists w rest, s = w ++ t ++ rest /\ blank w /\ word t /\ starts_blank rest /\ words rest ts.
Proof. intro H. inversion H; subst. eauto 10. Qed.
Lemma words_one t : word t -> words t [t].
Proof.
  intro T. rewrite <- (app_nil_r t) at 1. apply (words_cons [] t []); try assumption; try exact I; try apply blank_nil.
  apply words_nil, blank_nil.
Qed.

(** ** Numbers *)

Lemma to_digit_iff radix c d : radix <= 16 -> (to_digit radix c = Some d <-> digit radix c d).
Proof.
  intro R. unfold to_digit, rng. split.
  - intro H.
    destruct ((48 <=? c) && (c <=? 57)) eqn:E1; [|destruct ((97 <=? c) && (c <=? 122)) eqn:E2;
      [|destruct ((65 <=? c) && (c <=? 90)) eqn:E3; [|congruence]]].
    + destruct (c - 48 <? radix) eqn:L; [|congruence]. injection H as <-.
      replace c with (48 + (c - 48)) at 1 by lia. constructor; lia.
    + destruct (c - 97 + 10 <? radix) eqn:L; [|congruence]. injection H as <-.
      replace c with (97 + ((c - 97 + 10) - 10)) at 1 by lia. constructor 2; lia.
    + destruct (c - 65 + 10 <? radix) eqn:L; [|congruence]. injection H as <-.
      replace c with (65 + ((c - 65 + 10) - 10)) at 1 by lia. constructor 3; lia.
  - intro H. destruct H as [d H L|d H L|d H L].
    + replace ((48 <=? 48 + d) && (48 + d <=? 57)) with true by lia.
      replace (48 + d - 48) with d by lia. now replace (d <? radix) with true by lia.
    + replace ((48 <=? 97 + (d - 10)) && (97 + (d - 10) <=? 57)) with false by lia.
      replace ((97 <=? 97 + (d - 10)) && (97 + (d - 10) <=? 122)) with true by lia.
      replace (97 + (d - 10) - 97 + 10) with d by lia. now replace (d <? radix) with true by lia.
    + replace ((48 <=? 65 + (d - 10)) && (65 + (d - 10) <=? 57)) with false by lia.
      replace ((97 <=? 65 + (d - 10)) && (65 + (d - 10) <=? 122)) with false by lia.
      replace ((65 <=? 65 + (d - 10)) && (65 + (d - 10) <=? 90)) with true by lia.
      replace (65 + (d - 10) - 65 + 10) with d by lia. now replace (d <? radix) with true by lia.
Qed.
Lemma digit_rng radix c d : digit radix c d -> 0 <= d < 16 /\ d < radix /\
  (48 <= c <= 57 \/ 97 <= c <= 102 \/ 65 <= c <= 70).
Proof. destruct 1; lia. Qed.
Lemma numeral_nonneg radix s v : 0 < radix -> numeral radix s v -> 0 <= v.
Proof.
  intro R. induction 1 as [c d D|s v c d _ IH D]; apply digit_rng in D; [lia|nia].
Qed.
Lemma numeral_chars radix s v : numeral radix s v ->
  s <> [] /\ Forall (fun c => 48 <= c <= 57 \/ 97 <= c <= 102 \/ 65 <= c <= 70) s.
Proof.
  induction 1 as [c d D|s v c d _ [N F] D]; apply digit_rng in D.
  - split; [congruence|]. constructor; [lia|constructor].
  - split; [destruct s; cbn; congruence|]. apply Forall_app. split; [exact F|]. constructor; [lia|constructor].
Qed.

Lemma digits_loop_snoc bits radix s c acc :
  digits_loop bits radix acc (s ++ [c]) =
  match digits_loop bits radix acc s with
  | Some v => digits_loop bits radix v [c]
  | None => None
  end.
Proof.
  revert acc. induction s as [|x s IH]; intro acc; [reflexivity|].
  cbn [app digits_loop]. destruct (to_digit radix x); [|reflexivity].
  destruct (acc * radix <? 2 ^ bits); [|reflexivity].
  destruct (acc * radix + z <? 2 ^ bits); [|reflexivity]. apply IH.
Qed.
Lemma digits_loop_numeral bits radix s v : 0 < radix <= 16 -> s <> [] ->
  (digits_loop bits radix 0 s = Some v <-> numeral radix s v /\ v < 2 ^ bits).
Proof.
  intros R. revert v. induction s as [|c s IH] using rev_ind; intros v N; [congruence|].
  destruct s as [|x s'].
  - cbn [app digits_loop]. split.
    + intro H. destruct (to_digit radix c) as [d|] eqn:D; [|congruence].
      rewrite Z.mul_0_l, Z.add_0_l in H.
      destruct (0 <? 2 ^ bits); [|congruence]. destruct (d <? 2 ^ bits) eqn:L; [|congruence].
      injection H as <-. apply to_digit_iff in D; [|lia]. split; [constructor; exact D|lia].
    + intros [H L]. inversion H as [c' d D E1 E2|s v' c' d H' D E1 E2]; subst.
      * pose proof (digit_rng _ _ _ D). apply to_digit_iff in D; [|lia]. rewrite D, Z.mul_0_l, Z.add_0_l.
        now replace (0 <? 2 ^ bits) with true by lia; replace (v <? 2 ^ bits) with true by lia.
      * destruct s; [now apply numeral_chars in H'|destruct s; discriminate E1].
  - set (s := x :: s') in *. rewrite digits_loop_snoc. cbn [digits_loop]. split.
    + intro H. destruct (digits_loop bits radix 0 s) as [a|] eqn:E; [|congruence].
      destruct (IH a) as [IHa _]; [unfold s; congruence|]. destruct (IHa eq_refl) as [Na La].
      destruct (to_digit radix c) as [d|] eqn:D; [|congruence].
      destruct (a * radix <? 2 ^ bits); [|congruence].
      destruct (a * radix + d <? 2 ^ bits) eqn:L; [|congruence]. injection H as <-.
      apply to_digit_iff in D; [|lia]. split; [constructor; assumption|lia].
    + intros [H L]. inversion H as [c' d D E1 E2|s0 a c' d H' D E1 E2].
      * exfalso. destruct s'; discriminate.
      * change (s0 ++ [c'] = s ++ [c]) in E1. apply app_inj_tail in E1. destruct E1 as [-> ->].
        pose proof (digit_rng _ _ _ D) as Dr. pose proof (numeral_nonneg _ _ _ (proj1 R) H').
        assert (Ea : digits_loop bits radix 0 s = Some a).
        { apply IH; [unfold s; congruence|]. split; [exact H'|]. nia. }
        apply to_digit_iff in D; [|lia]. rewrite Ea, D.
        replace (a * radix <? 2 ^ bits) with true by nia.
        now replace (a * radix + d <? 2 ^ bits) with true by nia.
Qed.
Lemma from_str_radix_iff bits radix s v : 0 < radix <= 16 ->
  (from_str_radix bits radix s = Some v <->
   v < 2 ^ bits /\ exists sg ds, s = sg ++ ds /\ (sg = [] \/ sg = lit "+") /\ numeral radix ds v).
Proof.
  intro R. destruct s as [|c s]; cbn [from_str_radix].
  - split; [congruence|]. intros (_ & sg & ds & E & _ & N). symmetry in E.
    apply app_eq_nil in E. destruct E as [_ ->]. now apply numeral_chars in N.
  - split.
    + intro H. destruct (((c =? 43) || (c =? 45)) && negb (nonempty s)) eqn:E0; [congruence|].
      destruct (c =? 43) eqn:E.
      * apply digits_loop_numeral in H; [|exact R|].
        -- split; [apply H|]. exists [43], s. apply Z.eqb_eq in E. subst c.
           split; [reflexivity|]. split; [right; reflexivity|apply H].
        -- destruct s; [cbn in E0; lia|congruence].
      * apply digits_loop_numeral in H; [|exact R|congruence].
        split; [apply H|]. exists [], (c :: s). split; [reflexivity|]. split; [left; reflexivity|apply H].
    + intros (L & sg & ds & E & [-> | ->] & N); destruct (numeral_chars _ _ _ N) as [Nn F].
      * cbn [app] in E. subst ds. inversion F; subst.
        replace (((c =? 43) || (c =? 45)) && negb (nonempty s)) with false by lia.
        replace (c =? 43) with false by lia. apply digits_loop_numeral; [exact R|congruence|tauto].
      * change (lit "+") with [43] in E. cbn [app] in E. injection E as -> ->.
        destruct ds; [congruence|]. cbn [nonempty]. rewrite Z.eqb_refl. cbn [orb negb andb].
        apply digits_loop_numeral; [exact R|congruence|tauto].
Qed.

Lemma trim_0x_spec s : exists k, s = prefix_0x k ++ trim_0x s /\ starts_with (lit "0x") (trim_0x s) = false.
Proof.
  assert (H : forall n s, (length s <= n)%nat ->
    exists k, s = prefix_0x k ++ trim_0x s /\ starts_with (lit "0x") (trim_0x s) = false).
  { intro n. induction n as [|n IH]; intros s0 L.
    - destruct s0; [|cbn in L; lia]. exists O. split; reflexivity.
    - destruct s0 as [|a [|b s0]]; cbn [trim_0x].
      + exists O. split; reflexivity.
      + exists O. split; [reflexivity|]. change (lit "0x") with [48; 120]. cbn [starts_with]. apply andb_false_r.
      + destruct ((a =? 48) && (b =? 120)) eqn:E.
        * destruct (IH s0) as (k & Ek & S0); [cbn in L; lia|]. exists (S k). split; [|exact S0].
          cbn [prefix_0x]. change (lit "0x") with [48; 120]. cbn [app].
          apply andb_prop in E. destruct E as [Ea Eb]. apply Z.eqb_eq in Ea, Eb. subst a b.
          f_equal. f_equal. exact Ek.
        * exists O. split; [reflexivity|]. change (lit "0x") with [48; 120]. cbn [starts_with]. lia. }
  apply (H (length s)). lia.
Qed.
Lemma trim_0x_prefix k s : starts_with (lit "0x") s = false -> trim_0x (prefix_0x k ++ s) = s.
Proof.
  intro H. induction k as [|k IH]; cbn [prefix_0x app].
  - destruct s as [|a [|b s]]; cbn [trim_0x]; try reflexivity.
    change (lit "0x") with [48; 120] in H. cbn [starts_with] in H.
    replace ((a =? 48) && (b =? 120)) with false by lia. reflexivity.
  - change (lit "0x") with [48; 120]. cbn [app trim_0x]. rewrite !Z.eqb_refl. exact IH.
Qed.
Lemma num_not_0x sg ds radix v : sg = [] \/ sg = lit "+" -> numeral radix ds v ->
  starts_with (lit "0x") (sg ++ ds) = false.
Proof.
  intros Hs N. apply numeral_chars in N. destruct N as [N F].
  destruct Hs as [-> | ->].
  - change (lit "0x") with [48; 120]. cbn [app].
    destruct F as [|a l A [|b l' B _]]; cbn [starts_with]; lia.
  - reflexivity.
Qed.
Lemma num_try_iff bits s v : num_try bits s = Some v <-> number bits s v.
Proof.
  unfold num_try, number. destruct (starts_with (lit "0x") s) eqn:E.
  - rewrite from_str_radix_iff by lia. destruct (trim_0x_spec s) as (k & Ek & S0). split.
    + intros (L & sg & ds & E1 & Sg & N). split; [exact L|]. exists k, sg, ds.
      rewrite <- E1. split; [exact Ek|]. split; [exact Sg|].
      destruct k; [|exact N]. cbn [prefix_0x app] in Ek. congruence.
    + intros (L & k' & sg & ds & E1 & Sg & N). split; [exact L|]. exists sg, ds.
      pose proof (num_not_0x _ _ _ _ Sg N) as X.
      destruct k'.
      * cbn [prefix_0x app] in E1. congruence.
      * rewrite E1, trim_0x_prefix by exact X. split; [reflexivity|]. split; [exact Sg|exact N].
  - rewrite from_str_radix_iff by lia. split.
    + intros (L & sg & ds & E1 & Sg & N). split; [exact L|]. exists O, sg, ds. tauto.
    + intros (L & k & sg & ds & E1 & Sg & N). split; [exact L|]. exists sg, ds.
      destruct k; [tauto|]. subst s. cbn in E. congruence.
Qed.
Lemma num_try_none bits s : num_try bits s = None <-> forall v, ~ number bits s v.
Proof.
  destruct (num_try bits s) as [v|] eqn:E.
  - split; [congruence|]. intro H. apply num_try_iff in E. now apply H in E.
  - split; [|reflexivity]. intros _ v N. apply num_try_iff in N. congruence.
Qed.
Lemma number_fun bits s v v' : number bits s v -> number bits s v' -> v = v'.
Proof. rewrite <- !num_try_iff. congruence. Qed.
Lemma number_rng bits s v : number bits s v -> 0 <= v < 2 ^ bits.
Proof.
  intros (L & k & sg & ds & _ & _ & N). split; [|exact L].
  apply numeral_nonneg in N; [exact N|]. destruct k; lia.
Qed.
Lemma number_bits b b' s v : number b s v -> v < 2 ^ b' -> number b' s v.
Proof. intros (_ & H) L. split; assumption. Qed.
(** the characters of a number *)
Definition numchar (c : Z) : Prop := 48 <= c <= 57 \/ 97 <= c <= 102 \/ 65 <= c <= 70 \/ c = 120 \/ c = 43.
Lemma number_chars bits s v : number bits s v -> s <> [] /\ Forall numchar s.
Proof.
  intros (_ & k & sg & ds & -> & Sg & N). apply numeral_chars in N. destruct N as [N F].
  split.
  - destruct ds; [congruence|]. destruct (prefix_0x k); [|discriminate]. destruct sg; discriminate.
  - apply Forall_app. split; [|apply Forall_app; split].
    + induction k; cbn [prefix_0x]; [constructor|]. apply Forall_app. split; [|exact IHk].
      change (lit "0x") with [48; 120]. unfold numchar. constructor; [lia|]. constructor; [lia|constructor].
    + unfold numchar. destruct Sg as [-> | ->]; [constructor|]. change (lit "+") with [43]. constructor; [lia|constructor].
    + eapply Forall_impl; [|exact F]. unfold numchar. cbn. lia.
Qed.
Lemma numchar_solid c : numchar c -> ~ space c.
Proof. unfold numchar, space. cbn [In]. lia. Qed.
Lemma number_word bits s v : number bits s v -> word s.
Proof.
  intro N. apply number_chars in N. destruct N as [N F]. split; [exact N|].
  eapply Forall_impl; [|exact F]. intro; apply numchar_solid.
Qed.
(** the first character is a digit or `+` *)
Lemma number_first bits c s v : number bits (c :: s) v -> 48 <= c <= 57 \/ c = 43.
Proof.
  intros (_ & k & sg & ds & E & Sg & N). destruct k.
  - cbn [prefix_0x app] in E. destruct Sg as [-> | ->].
    + cbn [app] in E. subst ds. revert N. remember (c :: s) as l eqn:El. intro N.
      assert (G : forall l v, numeral 10 l v -> match l with [] => False | c :: _ => 48 <= c <= 57 end).
      { clear. induction 1 as [c d D|s v c d _ IH D].
        - destruct D; lia.
        - destruct s; [contradiction|exact IH]. }
      apply G in N. subst l. lia.
    + change (lit "+") with [43] in E. cbn [app] in E. injection E as -> _. lia.
  - cbn [prefix_0x] in E. change (lit "0x") with [48; 120] in E. cbn [app] in E. injection E as -> _. lia.
Qed.

Lemma literal_number bits s v : literal s v -> v < 2 ^ bits -> number bits s v.
Proof.
  intros [N | (ds & -> & N)] L; (split; [exact L|]).
  - exists O, [], s. repeat split; [left; reflexivity|exact N].
  - exists 1%nat, [], ds. repeat split; [left; reflexivity|exact N].
Qed.
Lemma numeral_fun radix s v v' : 0 < radix <= 16 -> numeral radix s v -> numeral radix s v' -> v = v'.
Proof.
  intros R N N'. pose proof (proj1 (numeral_chars _ _ _ N)) as Nn.
  assert (B : exists bits, v < 2 ^ bits /\ v' < 2 ^ bits).
  { exists (Z.max v v'). pose proof (numeral_nonneg _ _ _ (proj1 R) N). pose proof (numeral_nonneg _ _ _ (proj1 R) N').
    assert (Z.max v v' < 2 ^ Z.max v v') by (apply Z.pow_gt_lin_r; lia). lia. }
  destruct B as (bits & B1 & B2).
  pose proof (proj2 (digits_loop_numeral bits radix s v R Nn) (conj N B1)).
  pose proof (proj2 (digits_loop_numeral bits radix s v' R Nn) (conj N' B2)). congruence.
Qed.

(** ** Keyword tables *)

Lemma str_match_in {A} s (arms : list (str * A)) a : str_match s arms = Some a -> In (s, a) arms.
Proof.
  induction arms as [|[k b] arms IH]; cbn [str_match]; [congruence|].
  destruct (str_eqb s k) eqn:E; intro H.
  - injection H as <-. apply str_eqb_eq in E. subst. left. reflexivity.
  - right. apply IH, H.
Qed.
Ltac table H :=
  apply str_match_in in H; cbn [In] in H;
  repeat (destruct H as [H|H]; [injection H as <- <-; reflexivity|]); destruct H.
Lemma reg64_try_iff s r : reg64_try s = Some r <-> s = name64 r.
Proof. split; [intro H; table H|intros ->; now destruct r]. Qed.
Lemma reg32_try_iff s r : reg32_try s = Some r <-> s = name32 r.
Proof. split; [intro H; table H|intros ->; now destruct r]. Qed.
Lemma reg16_try_iff s r : reg16_try s = Some r <-> s = name16 r.
Proof. split; [intro H; table H|intros ->; now destruct r]. Qed.
Lemma align_try_iff s u : align_try s = Some u <-> s = unit_name u.
Proof. split; [intro H; table H|intros ->; now destruct u]. Qed.
Definition sect_try (s : str) := str_match s [(lit ".text", SText); (lit ".data", SData); (lit ".bss", SBss)].
Lemma sect_try_iff s x : sect_try s = Some x <-> s = sect_name x.
Proof. split; [intro H; table H|intros ->; now destruct x]. Qed.
Lemma try_none {A} (f : str -> option A) (g : A -> str) s :
  (forall s a, f s = Some a <-> s = g a) -> (f s = None <-> forall a, s <> g a).
Proof.
  intro H. destruct (f s) as [a|] eqn:E.
  - split; [congruence|]. intro N. apply H in E. now apply N in E.
  - split; [|reflexivity]. intros _ a Ea. apply H in Ea. congruence.
Qed.
