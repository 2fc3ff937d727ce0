(** Proofs about the data directives. *)
From Coq Require String.
Import String.StringSyntax.
From Coq Require Import ZifyBool ZifyNat.
From Verif Require Import Base Str X64 SpecX86 Obj Asm SpecAsm PfStr PfTok PfX64 PfX86 PfX64Top PfBytes.
Ltac Zify.zify_post_hook ::= Z.div_mod_to_equations.

Lemma is_delim_iff c : is_delim c = true <-> delim c.
Proof. unfold is_delim, delim. rewrite orb_true_iff, is_ws_iff, Z.eqb_eq. tauto. Qed.
Lemma is_delim_false c : is_delim c = false <-> ~ delim c.
Proof. rewrite <- is_delim_iff. destruct (is_delim c); split; congruence. Qed.

(** ** Items *)

Definition def_item (d : data_def) : item := match d with DNum n => INum n | DStr s => IStr s end.

Lemma write_num_iff n u bs : 0 <= n < 2 ^ 64 -> (write_num n u = POk bs <-> item_bytes u (INum n) bs).
Proof.
  intro R. unfold item_bytes.
  assert (G : forall k, n < 256 ^ Z.of_nat k -> (POk (le_bytes k n) = POk bs <->
     n < 256 ^ Z.of_nat k /\ length bs = k /\ bytes_ok bs /\ lev bs = n)).
  { intros k L. split.
    - intro E. injection E as <-. split; [exact L|]. split; [apply le_bytes_length|].
      split; [apply le_bytes_bytes|]. apply lev_le_bytes_id. unfold inu.
      change 256 with (2 ^ 8) in L. rewrite <- Z.pow_mul_r in L by lia. lia.
    - intros (_ & Lb & B & E). f_equal. rewrite <- E. apply le_bytes_lev; assumption. }
  destruct u; cbn [write_num unit_size]; unfold as_uint.
  - destruct (n <? 2 ^ 8) eqn:E; [apply (G 1%nat); cbn; lia|]. split; [congruence|].
    change (256 ^ Z.of_nat 1) with (2 ^ 8). lia.
  - destruct (n <? 2 ^ 16) eqn:E; [apply (G 2%nat); change (256 ^ Z.of_nat 2) with (2 ^ 16); lia|].
    split; [congruence|]. change (256 ^ Z.of_nat 2) with (2 ^ 16). lia.
  - destruct (n <? 2 ^ 32) eqn:E; [apply (G 4%nat); change (256 ^ Z.of_nat 4) with (2 ^ 32); lia|].
    split; [congruence|]. change (256 ^ Z.of_nat 4) with (2 ^ 32). lia.
  - apply (G 8%nat). change (256 ^ Z.of_nat 8) with (2 ^ 64). lia.
Qed.
Lemma write_num_no_panic n u : write_num n u <> PPanic.
Proof. destruct u; cbn [write_num]; unfold as_uint; try congruence; match goal with |- context [if ?b then _ else _] => destruct b end; congruence. Qed.

Definition pad_of (u : align) (n : Z) : Z :=
  match u with DB => 0 | DW => n mod 2 | DD => (4 - n mod 4) mod 4 | DQ => (8 - n mod 8) mod 8 end.
Lemma padded_fun u bs out out' : (0 < u)%nat -> padded u bs out -> padded u bs out' -> out = out'.
Proof.
  intros U (n & -> & Ln & M) (m & -> & Lm & M'). f_equal. f_equal.
  rewrite app_length, repeat_length in M, M'.
  apply Nat.mod_divides in M; [|lia]. apply Nat.mod_divides in M'; [|lia].
  destruct M as [q Q], M' as [q' Q'].
  assert (q = q') by (clear -U Ln Lm Q Q'; destruct (Nat.lt_trichotomy q q') as [H|[H|H]]; [nia|exact H|nia]).
  subst. lia.
Qed.
Lemma padded_pad u bs : padded (unit_size u) bs (bs ++ repeat 0 (Z.to_nat (pad_of u (zlen bs)))).
Proof.
  exists (Z.to_nat (pad_of u (zlen bs))). split; [reflexivity|].
  rewrite app_length, repeat_length. unfold zlen. destruct u; cbn [pad_of unit_size]; lia.
Qed.
Lemma write_str_iff s u bs : write_str s u = POk bs <-> item_bytes u (IStr s) bs.
Proof.
  unfold write_str. change (match u with DB => 0 | DW => str_len s mod 2 | DD => (4 - str_len s mod 4) mod 4
    | DQ => (8 - str_len s mod 8) mod 8 end) with (pad_of u (zlen (utf8 s))).
  cbn [item_bytes]. pose proof (padded_pad u (utf8 s)) as P. split.
  - intro E. injection E as <-. exact P.
  - intro H. f_equal. eapply padded_fun; [|exact P|exact H]. destruct u; cbn; lia.
Qed.

Definition def_ok (d : data_def) : Prop := match d with DNum n => 0 <= n < 2 ^ 64 | DStr _ => True end.
Lemma write_to_iff d u bs : def_ok d -> (write_to d u = POk bs <-> item_bytes u (def_item d) bs).
Proof. destruct d; intro H; [apply write_num_iff; exact H|apply write_str_iff]. Qed.
Lemma write_to_no_panic d u : write_to d u <> PPanic.
Proof. destruct d; [apply write_num_no_panic|cbn; unfold write_str; congruence]. Qed.

(** ** One item of the text *)

(** [s] starts with item [it], the next item starting at [rest] *)
Inductive item_at : str -> item -> str -> Prop :=
| ia_last : forall t n, number 64 t n -> item_at t (INum n) []
| ia_num : forall t n c w rest, number 64 t n -> delim c -> blank w -> starts_solid rest ->
    item_at (t ++ c :: w ++ rest) (INum n) rest
| ia_str : forall s sep rest, ~ In 34 s -> Forall delim sep ->
    match rest with [] => True | c :: _ => ~ delim c end ->
    item_at (34 :: s ++ 34 :: sep ++ rest) (IStr s) rest.

Lemma items_cons s it rest its : item_at s it rest -> items_text rest its -> items_text s (it :: its).
Proof.
  intros A T. destruct A as [t n N|t n c w rest N C W R|s sep rest Q F R].
  - inversion T as [E|t' n' N' E|t' n' c' w' r' l' N' C' W' R' T' E|s' sep' r' l' Q' F' R' T' E]; subst.
    + constructor. exact N.
    + exfalso. apply number_chars in N'. tauto.
    + exfalso. destruct t'; discriminate.
  - constructor; assumption.
  - constructor; assumption.
Qed.
Lemma items_uncons s it its : items_text s (it :: its) -> exists rest, item_at s it rest /\ items_text rest its.
Proof.
  intro H. inversion H; subst.
  - exists []. split; constructor; assumption.
  - exists rest. split; [constructor; assumption|assumption].
  - exists rest. split; [constructor; assumption|assumption].
Qed.
Lemma item_at_shorter s it rest : item_at s it rest -> (length rest < length s)%nat.
Proof.
  destruct 1; cbn [length]; rewrite ?app_length; cbn [length]; rewrite ?app_length; cbn [length];
    rewrite ?app_length; try lia.
  apply number_chars in H. destruct t; [tauto|cbn; lia].
Qed.

Lemma number_no_delim bits t n : number bits t n -> Forall (fun c => is_delim c = false) t.
Proof.
  intro N. apply number_chars in N. destruct N as [_ F]. eapply Forall_impl; [|exact F]. cbn.
  intros c C. apply is_delim_false. intros [S0 | E].
  - now apply numchar_solid in C.
  - unfold numchar in C. lia.
Qed.
Lemma data_next_item s it rest : item_at s it rest ->
  exists d, def_item d = it /\ def_ok d /\ data_next s = Some (POk (d, rest)).
Proof.
  destruct 1 as [t n N|t n c w rest N C W R|s sep rest Q F R].
  - exists (DNum n). split; [reflexivity|]. split; [apply number_rng in N; exact N|].
    pose proof (number_chars _ _ _ N) as [Nn Fc]. destruct t as [|x t]; [congruence|].
    unfold data_next. inversion Fc; subst. unfold numchar in H1.
    replace (x =? 34) with false by lia. unfold split_delim_once.
    rewrite (proj2 (split_once_none _ _) (number_no_delim _ _ _ N)).
    unfold num_parse. apply num_try_iff in N. rewrite N. reflexivity.
  - exists (DNum n). split; [reflexivity|]. split; [apply number_rng in N; exact N|].
    pose proof (number_chars _ _ _ N) as [Nn Fc]. destruct t as [|x t]; [congruence|].
    unfold data_next. cbn [app]. inversion Fc; subst. unfold numchar in H1.
    replace (x =? 34) with false by lia. unfold split_delim_once.
    change (x :: t ++ c :: w ++ rest) with ((x :: t) ++ c :: w ++ rest).
    assert (E : split_once is_delim ((x :: t) ++ c :: w ++ rest) = Some (x :: t, w ++ rest)).
    { apply split_once_some. exists c. split; [reflexivity|]. split; [apply is_delim_iff, C|].
      eapply number_no_delim, N. }
    rewrite E, trim_start_blank by assumption.
    unfold num_parse. apply num_try_iff in N. rewrite N. reflexivity.
  - exists (DStr s). split; [reflexivity|]. split; [exact I|].
    unfold data_next. rewrite Z.eqb_refl.
    assert (E : split_once (fun c => c =? 34) (s ++ 34 :: sep ++ rest) = Some (s, sep ++ rest)).
    { apply split_char. split; [reflexivity|exact Q]. }
    rewrite E. unfold trim_start_by. rewrite drop_while_app.
    + rewrite drop_while_stop; [reflexivity|]. destruct rest; [exact I|]. apply is_delim_false, R.
    + eapply Forall_impl; [|exact F]. intro; apply is_delim_iff.
Qed.
Lemma data_next_inv s d rest : data_next s = Some (POk (d, rest)) -> item_at s (def_item d) rest /\ def_ok d.
Proof.
  destruct s as [|c s]; cbn [data_next]; [congruence|].
  destruct (c =? 34) eqn:E.
  - apply Z.eqb_eq in E. subst c. destruct (split_once (fun c => c =? 34) s) as [[a b]|] eqn:S0; [|congruence].
    intro H. injection H as <- <-. apply split_char in S0. destruct S0 as [-> Q].
    destruct (drop_while_spec is_delim b) as (w & Eb & F & G). split; [|exact I].
    rewrite Eb at 1. cbn [def_item]. constructor; [exact Q| |].
    + eapply Forall_impl; [|exact F]. intro; apply is_delim_iff.
    + unfold trim_start_by. destruct (drop_while is_delim b); [exact I|]. apply is_delim_false, G.
  - unfold split_delim_once. destruct (split_once is_delim (c :: s)) as [[a b]|] eqn:S0.
    + intro H. unfold num_parse in H. destruct (num_try 64 a) as [n|] eqn:N; cbn [pbind] in H; [|congruence].
      injection H as <- <-. apply num_try_iff in N. apply split_once_some in S0.
      destruct S0 as (x & -> & X & _). destruct (trim_start_spec b) as (w & Eb & W & R).
      rewrite Eb at 1. split; [|exact (number_rng _ _ _ N)]. constructor; try assumption. apply is_delim_iff, X.
    + intro H. unfold num_parse in H. destruct (num_try 64 (c :: s)) as [n|] eqn:N; cbn [pbind] in H; [|congruence].
      injection H as <- <-. apply num_try_iff in N. split; [|exact (number_rng _ _ _ N)]. constructor. exact N.
Qed.
Lemma data_next_no_panic s : data_next s <> Some PPanic.
Proof.
  destruct s as [|c s]; cbn [data_next]; [congruence|]. destruct (c =? 34).
  - destruct (split_once (fun c => c =? 34) s) as [[a b]|]; congruence.
  - destruct (split_delim_once (c :: s)) as [a b]. unfold num_parse. destruct (num_try 64 a); cbn; congruence.
Qed.
Lemma data_next_none s : data_next s = None <-> s = [].
Proof.
  destruct s as [|c s]; cbn [data_next]; [tauto|]. split; [|congruence].
  destruct (c =? 34); [destruct (split_once (fun c => c =? 34) s) as [[a b]|]; congruence|].
  destruct (split_delim_once (c :: s)); congruence.
Qed.

(** ** The loop *)

(** [length s] steps are enough: the fuel never runs out *)
Lemma data_loop_no_panic fuel s u acc : (length s <= fuel)%nat -> data_loop fuel s u acc <> PPanic.
Proof.
  revert s acc. induction fuel as [|fuel IH]; intros s acc L.
  - destruct s; [cbn; congruence|cbn in L; lia].
  - cbn [data_loop]. destruct (data_next s) as [[[d rest]|e|]|] eqn:N; cbn [pbind]; try congruence.
    + destruct (data_next_inv _ _ _ N) as [A _]. apply item_at_shorter in A. cbn [fst snd].
      destruct (write_to d u) as [bs|e|] eqn:W; cbn [pbind]; try congruence.
      * apply IH. lia.
      * now apply write_to_no_panic in W.
    + now apply data_next_no_panic in N.
Qed.
(** more fuel changes nothing *)
Lemma data_loop_fuel f f' s u acc : (length s <= f)%nat -> (length s <= f')%nat ->
  data_loop f s u acc = data_loop f' s u acc.
Proof.
  revert f' s acc. induction f as [|f IH]; intros f' s acc L L'.
  - destruct s; [|cbn in L; lia]. destruct f'; reflexivity.
  - destruct f' as [|f'].
    { destruct s; [|cbn in L'; lia]. reflexivity. }
    cbn [data_loop]. destruct (data_next s) as [[[d rest]|e|]|] eqn:N; try reflexivity.
    cbn [pbind fst snd]. destruct (write_to d u); try reflexivity. cbn [pbind].
    destruct (data_next_inv _ _ _ N) as [A _]. apply item_at_shorter in A. apply IH; lia.
Qed.
Lemma data_loop_sound fuel s u acc bs : data_loop fuel s u acc = POk bs ->
  exists its out, items_text s its /\ items_bytes u its out /\ bs = acc ++ out.
Proof.
  revert s acc. induction fuel as [|fuel IH]; intros s acc H; cbn [data_loop] in H;
    destruct (data_next s) as [[[d rest]|e|]|] eqn:N; cbn [pbind fst snd] in H; try congruence.
  - apply data_next_none in N. subst s. injection H as <-. exists [], []. split; [constructor|].
    split; [exists []; split; [constructor|reflexivity]|symmetry; apply app_nil_r].
  - destruct (write_to d u) as [b|e|] eqn:W; cbn [pbind] in H; try congruence.
    destruct (data_next_inv _ _ _ N) as [A D]. apply IH in H.
    destruct H as (its & out & T & (bss & F & ->) & ->).
    exists (def_item d :: its), (b ++ concat bss). split; [eapply items_cons; eassumption|]. split.
    + exists (b :: bss). split; [|reflexivity]. constructor; [|exact F]. apply write_to_iff; assumption.
    + symmetry. apply app_assoc.
  - apply data_next_none in N. subst s. injection H as <-. exists [], []. split; [constructor|].
    split; [exists []; split; [constructor|reflexivity]|symmetry; apply app_nil_r].
Qed.
Lemma data_loop_complete fuel s u acc its out : (length s <= fuel)%nat ->
  items_text s its -> items_bytes u its out -> data_loop fuel s u acc = POk (acc ++ out).
Proof.
  intros L T (bss & F & ->). revert fuel s acc L T. induction F as [|it b its bss B F IH]; intros fuel s acc L T.
  - inversion T; subst. cbn [concat]. rewrite app_nil_r. destruct fuel; reflexivity.
  - apply items_uncons in T. destruct T as (rest & A & T).
    pose proof (item_at_shorter _ _ _ A) as Sh. destruct fuel as [|fuel]; [lia|].
    destruct (data_next_item _ _ _ A) as (d & <- & D & E). cbn [data_loop]. rewrite E. cbn [pbind fst snd].
    apply write_to_iff in B; [|exact D]. rewrite B. cbn [pbind]. rewrite IH; [|lia|exact T].
    cbn [concat]. now rewrite app_assoc.
Qed.

(** ** The parts of a data line *)

Lemma tight_last_space s c : tight (s ++ [c]) -> ~ space c.
Proof. intros [_ H]. rewrite rev_app_distr in H. exact H. Qed.
Lemma nospace_tight t : Forall (fun c => ~ space c) t -> tight t.
Proof.
  intro F. destruct t; [apply tight_nil|]. apply word_tight. split; [congruence|exact F].
Qed.
Lemma tight_suffix a c b : tight (a ++ c :: b) -> space c ->
  exists w, b = w ++ trim b /\ blank w /\ trim b <> [] /\ tight (trim b).
Proof.
  intros T C. destruct (trim_spec b) as (w1 & w2 & E & W1 & T2 & W2).
  assert (w2 = [] /\ trim b <> []) as [-> N].
  { destruct T as [_ T]. rewrite rev_app_distr in T. cbn [rev] in T. rewrite E in T at 1.
    rewrite !rev_app_distr in T. apply blank_rev in W2. destruct (rev w2) as [|x r] eqn:R.
    - split; [apply (f_equal (@rev Z)) in R; rewrite rev_involutive in R; exact R|].
      intro Nn. rewrite Nn in T. cbn [rev app] in T. apply blank_rev in W1.
      destruct (rev w1) as [|y r1]; [now apply T|]. inversion W1; subst. now apply T.
    - inversion W2; subst. now exfalso; apply T. }
  exists w1. rewrite app_nil_r in E. tauto.
Qed.
Lemma split_once_ws s a b : tight s ->
  (split_whitespace_once s = Some (a, b) <->
   exists c w, s = a ++ c :: w ++ b /\ word a /\ space c /\ blank w /\ b <> [] /\ tight b).
Proof.
  intro T. unfold split_whitespace_once. split.
  - intro H. destruct (split_once is_ws s) as [[s1 s2]|] eqn:E; [|congruence].
    injection H as <- <-. apply split_ws in E. destruct E as (c & -> & C & F).
    rewrite (trim_tight s1) by (apply nospace_tight; exact F).
    destruct (tight_suffix _ _ _ T C) as (w & Eb & W & N & Tb). exists c, w.
    rewrite Eb at 1. repeat split; try assumption; try apply Tb.
    intros ->. apply tight_start in T. now apply T.
  - intros (c & w & -> & A & C & W & N & Tb).
    assert (E : split_once is_ws (a ++ c :: w ++ b) = Some (a, w ++ b)).
    { apply split_ws. exists c. split; [reflexivity|]. split; [exact C|apply A]. }
    rewrite E. rewrite (trim_tight a) by (apply word_tight; exact A).
    f_equal. f_equal. rewrite <- (app_nil_r b) at 1. apply trim_of; [exact W|exact Tb|apply blank_nil].
Qed.

Lemma unit_word u : word (unit_name u).
Proof.
  destruct u; (split; [discriminate|]); repeat constructor; apply is_ws_false; reflexivity.
Qed.
Lemma tight_join a c w b : word a -> b <> [] -> tight b -> tight (a ++ c :: w ++ b).
Proof.
  intros A N [_ T]. split.
  - apply starts_solid_app; [apply A|]. apply word_tight, A.
  - rewrite rev_app_distr. cbn [rev]. rewrite !rev_app_distr, <- !app_assoc.
    apply starts_solid_app; [apply rev_nonnil, N|exact T].
Qed.
Lemma split_parts_none_label s u text : split_parts s = Some (None, u, text) <-> data_layout s u text.
Proof.
  unfold split_parts. rewrite (trim_tight (trim s)) by apply tight_trim. split.
  - intro H. destruct (split_whitespace_once (trim s)) as [[t1 rmn]|] eqn:E; [|congruence].
    apply split_once_ws in E; [|apply tight_trim]. destruct E as (c & w & E & A & C & W & N & T).
    destruct (align_try t1) as [a|] eqn:Al.
    + injection H as -> ->. apply align_try_iff in Al. subst t1.
      destruct (trim_spec s) as (v1 & v2 & Es & V1 & _ & V2). exists v1, c, w, v2.
      rewrite Es, E. repeat split; try assumption; try apply T. now rewrite <- !app_assoc; cbn [app]; rewrite <- app_assoc.
    + destruct (split_whitespace_once rmn) as [[t2 rmn2]|]; [|congruence].
      destruct (align_try t2); congruence.
  - intros (w0 & c & w1 & w2 & -> & W0 & C & W1 & W2 & N & T).
    assert (E : trim (w0 ++ unit_name u ++ c :: w1 ++ text ++ w2) = unit_name u ++ c :: w1 ++ text).
    { replace (w0 ++ unit_name u ++ c :: w1 ++ text ++ w2)
        with (w0 ++ (unit_name u ++ c :: w1 ++ text) ++ w2) by (rewrite <- !app_assoc; cbn [app]; rewrite <- app_assoc; reflexivity).
      apply trim_of; try assumption. apply tight_join; [apply unit_word|exact N|exact T]. }
    rewrite E.
    assert (E2 : split_whitespace_once (unit_name u ++ c :: w1 ++ text) = Some (unit_name u, text)).
    { apply split_once_ws; [apply tight_join; [apply unit_word|exact N|exact T]|].
      exists c, w1. repeat split; try assumption; try apply unit_word; apply T. }
    rewrite E2. now rewrite (proj2 (align_try_iff _ u) eq_refl).
Qed.
Lemma split_parts_label s n u text : split_parts s = Some (Some n, u, text) <-> label_layout s n u text.
Proof.
  unfold split_parts. rewrite (trim_tight (trim s)) by apply tight_trim. split.
  - intro H. destruct (split_whitespace_once (trim s)) as [[t1 rmn]|] eqn:E; [|congruence].
    apply split_once_ws in E; [|apply tight_trim]. destruct E as (c & w & E & A & C & W & N & T).
    destruct (align_try t1) as [a|] eqn:Al; [congruence|].
    destruct (split_whitespace_once rmn) as [[t2 rmn2]|] eqn:E2; [|congruence].
    apply split_once_ws in E2; [|exact T]. destruct E2 as (c2 & w2 & E2 & A2 & C2 & W2 & N2 & T2).
    destruct (align_try t2) as [a|] eqn:Al2; [|congruence]. injection H as -> -> ->.
    apply align_try_iff in Al2. subst t2.
    destruct (trim_spec s) as (v1 & v2 & Es & V1 & _ & V2). exists v1, c, w, c2, w2, v2.
    rewrite Es, E, E2. repeat match goal with |- _ /\ _ => split end; try assumption.
    + rewrite <- !app_assoc; cbn [app]; rewrite <- !app_assoc; cbn [app]; rewrite <- app_assoc. reflexivity.
    + apply (proj1 (try_none align_try unit_name n align_try_iff)). exact Al.
  - intros (w0 & c & w1 & c2 & w2 & w3 & -> & Wn & Nu & W0 & C & W1 & C2 & W2 & W3 & N & T).
    pose proof (tight_join (unit_name u) c2 w2 text (unit_word u) N T) as T2.
    assert (N2 : unit_name u ++ c2 :: w2 ++ text <> []) by (destruct u; discriminate).
    pose proof (tight_join n c w1 _ Wn N2 T2) as T1.
    assert (E : trim (w0 ++ n ++ c :: w1 ++ unit_name u ++ c2 :: w2 ++ text ++ w3)
      = n ++ c :: w1 ++ unit_name u ++ c2 :: w2 ++ text).
    { replace (w0 ++ n ++ c :: w1 ++ unit_name u ++ c2 :: w2 ++ text ++ w3)
        with (w0 ++ (n ++ c :: w1 ++ unit_name u ++ c2 :: w2 ++ text) ++ w3)
        by (rewrite <- !app_assoc; cbn [app]; rewrite <- !app_assoc; cbn [app]; rewrite <- app_assoc; reflexivity).
      apply trim_of; assumption. }
    rewrite E.
    assert (E2 : split_whitespace_once (n ++ c :: w1 ++ unit_name u ++ c2 :: w2 ++ text)
      = Some (n, unit_name u ++ c2 :: w2 ++ text)).
    { apply split_once_ws; [exact T1|]. exists c, w1. tauto. }
    rewrite E2. rewrite (proj2 (try_none align_try unit_name n align_try_iff) Nu).
    assert (E3 : split_whitespace_once (unit_name u ++ c2 :: w2 ++ text) = Some (unit_name u, text)).
    { apply split_once_ws; [exact T2|]. exists c2, w2. pose proof (unit_word u). tauto. }
    rewrite E3. now rewrite (proj2 (align_try_iff _ u) eq_refl).
Qed.

Lemma words_nonempty s : s <> [] -> tight s -> exists t ts, words s (t :: ts).
Proof.
  intros N T. pose proof (words_split s) as W. destruct (split_whitespace s) as [|t ts]; [|eauto].
  apply words_blank in W. destruct s; [congruence|]. inversion W; subst. now apply T in H1.
Qed.
Lemma words_space c s ts : space c -> words s ts -> words (c :: s) ts.
Proof. intros C W. apply (words_blank_app [c]); [|exact W]. apply blank_cons; [exact C|apply blank_nil]. Qed.
Lemma data_layout_words s u text : data_layout s u text -> exists t ts, words s (unit_name u :: t :: ts).
Proof.
  intros (w0 & c & w1 & w2 & -> & W0 & C & W1 & W2 & N & T).
  destruct (words_nonempty text N T) as (t & ts & W). exists t, ts.
  apply words_cons; [exact W0|apply unit_word|exact C|].
  apply words_space; [exact C|]. apply words_blank_app; [exact W1|]. apply words_app_blank; assumption.
Qed.
Lemma label_layout_words s n u text : label_layout s n u text -> exists t ts, words s (n :: unit_name u :: t :: ts).
Proof.
  intros (w0 & c & w1 & c2 & w2 & w3 & -> & Wn & Nu & W0 & C & W1 & C2 & W2 & W3 & N & T).
  destruct (words_nonempty text N T) as (t & ts & W). exists t, ts.
  apply words_cons; [exact W0|exact Wn|exact C|]. apply words_space; [exact C|].
  apply words_cons; [exact W1|apply unit_word|exact C2|].
  apply words_space; [exact C2|]. apply words_blank_app; [exact W2|]. apply words_app_blank; assumption.
Qed.
(** the words alone tell whether the line is data *)
Lemma layout_of_words s n t ts : words s (n :: t :: ts) -> exists c w w' text,
  s = w ++ n ++ c :: w' ++ text /\ blank w /\ blank w' /\ space c /\ words text (t :: ts) /\ starts_solid text.
Proof.
  intro H. apply words_first in H. destruct H as (w & rest & -> & W & Wn & B & H).
  destruct rest as [|c rest]; [apply split_words in H; discriminate H|].
  destruct (trim_start_spec rest) as (w' & E & W' & S0). exists c, w, w', (trim_start rest).
  rewrite E at 1. repeat match goal with |- _ /\ _ => split end; try assumption; try reflexivity.
  rewrite E in H. apply split_words. apply split_words in H.
  change (c :: w' ++ trim_start rest) with ((c :: w') ++ trim_start rest) in H.
  rewrite split_blank in H; [exact H|]. apply blank_cons; [exact B|exact W'].
Qed.
Lemma solid_layout text t ts : words text (t :: ts) -> starts_solid text ->
  exists body w, text = body ++ w /\ blank w /\ body <> [] /\ tight body.
Proof.
  intros H S0. destruct (trim_spec text) as (w1 & w2 & E & W1 & T & W2).
  assert (w1 = []) as ->.
  { destruct w1 as [|c w1]; [reflexivity|]. rewrite E in S0. inversion W1; subst. now apply S0 in H2. }
  exists (trim text), w2. split; [exact E|]. split; [exact W2|]. split; [|exact T].
  intro Z0. rewrite Z0 in E. cbn [app] in E. subst text. apply words_blank in W2.
  pose proof (words_fun _ _ _ H W2). congruence.
Qed.
Lemma words_data_layout s u t ts : words s (unit_name u :: t :: ts) -> exists text, data_layout s u text.
Proof.
  intro H. apply layout_of_words in H. destruct H as (c & w & w' & text & -> & W & W' & C & H & S0).
  destruct (solid_layout _ _ _ H S0) as (body & v & -> & V & N & T). exists body, w, c, w', v. tauto.
Qed.
Lemma words_label_layout s n u t ts : words s (n :: unit_name u :: t :: ts) -> (forall u', n <> unit_name u') ->
  exists text, label_layout s n u text.
Proof.
  intros H Nu. pose proof (words_all _ _ H) as F. inversion F as [|? ? Wn _]; subst.
  apply layout_of_words in H. destruct H as (c & w & w' & text & -> & W & W' & C & H & S0).
  apply layout_of_words in H. destruct H as (c2 & w2 & w2' & text2 & -> & W2 & W2' & C2 & H & S2).
  destruct (solid_layout _ _ _ H S2) as (body & v & -> & V & N & T).
  exists body, w, c, (w' ++ w2), c2, w2', v. split.
  - rewrite <- !app_assoc. reflexivity.
  - pose proof (proj2 (blank_app w' w2) (conj W' W2)). tauto.
Qed.
Lemma split_parts_none s : split_parts s = None <->
  forall t ts, words s (t :: ts) ->
    (forall u, t = unit_name u -> ts = []) /\
    (forall u t' l, (forall u', t <> unit_name u') -> ts = unit_name u :: t' :: l -> False).
Proof.
  split.
  - intros E t ts W. split.
    + intros u ->. destruct ts as [|t' ts]; [reflexivity|]. apply words_data_layout in W.
      destruct W as (text & W). apply split_parts_none_label in W. congruence.
    + intros u t' l Nu ->. apply words_label_layout in W; [|exact Nu]. destruct W as (text & W).
      apply split_parts_label in W. congruence.
  - intro H. destruct (split_parts s) as [[[[n|] u] text]|] eqn:E; [| |reflexivity].
    + apply split_parts_label in E. pose proof (label_layout_words _ _ _ _ E) as (t & ts & W).
      destruct (H _ _ W) as [_ H2]. exfalso. destruct E as (? & ? & ? & ? & ? & ? & _ & _ & Nu & _). eapply H2; eauto.
    + apply split_parts_none_label in E. pose proof (data_layout_words _ _ _ E) as (t & ts & W).
      destruct (H _ _ W) as [H1 _]. specialize (H1 _ eq_refl). congruence.
Qed.

(** ** The directive *)

Lemma data_try_no_panic s : data_try s <> PPanic.
Proof.
  unfold data_try. destruct (split_parts s) as [[[l u] text]|]; [|congruence].
  destruct (data_loop (length text) text u []) eqn:E; cbn [pbind]; try congruence.
  now apply data_loop_no_panic in E.
Qed.
Lemma data_try_none s : data_try s = POk None <-> split_parts s = None.
Proof.
  unfold data_try. destruct (split_parts s) as [[[l u] text]|]; [|tauto].
  split; [|congruence]. destruct (data_loop (length text) text u []); cbn [pbind]; congruence.
Qed.
Lemma data_try_some s d : data_try s = POk (Some d) <->
  exists u text its, items_text text its /\ items_bytes u its (da_bytes d) /\
    match da_label d with None => data_layout s u text | Some n => label_layout s n u text end.
Proof.
  unfold data_try. split.
  - intro H. destruct (split_parts s) as [[[l u] text]|] eqn:E; [|congruence].
    destruct (data_loop (length text) text u []) as [bs| |] eqn:L; cbn [pbind] in H; try congruence.
    injection H as <-. apply data_loop_sound in L. destruct L as (its & out & T & B & ->). cbn [da_label da_bytes app].
    exists u, text, its. split; [exact T|]. split; [exact B|].
    destruct l; [apply split_parts_label|apply split_parts_none_label]; exact E.
  - intros (u & text & its & T & B & L).
    assert (E : split_parts s = Some (da_label d, u, text)).
    { destruct (da_label d); [apply split_parts_label|apply split_parts_none_label]; exact L. }
    rewrite E. rewrite (data_loop_complete _ _ _ _ _ _ (le_n _) T B). cbn [pbind app]. now destruct d.
Qed.
