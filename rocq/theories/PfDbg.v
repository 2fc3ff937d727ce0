(** Lemmas about the `Debug` formatters. *)
From Coq Require Import ZifyBool ZifyNat.
From Coq Require String.
Import String.StringSyntax.
From Verif Require Import Base Str Mac SpecMacho PfMac PfMacTop Dbg SpecDbg PropsMac.

(** ** layout *)
Lemma join_concat e es : join_comma (e :: es) = e ++ concat (map (app (lit ", ")) es).
Proof.
  revert e. induction es as [|x es IH]; intro e; [cbn; now rewrite app_nil_r|].
  cbn [map concat]. rewrite <- app_assoc, <- IH. reflexivity.
Qed.

Lemma split_line l r : Forall (fun c => c <> 10) l -> split (Z.eqb 10) (l ++ 10 :: r) = l :: split (Z.eqb 10) r.
Proof.
  induction 1 as [|c l H _ IH]; [reflexivity|]. cbn [app split]. rewrite IH.
  destruct (Z.eqb_spec 10 c); [congruence|reflexivity].
Qed.
Lemma split_last l : Forall (fun c => c <> 10) l -> split (Z.eqb 10) l = [l].
Proof.
  induction 1 as [|c l H _ IH]; [reflexivity|]. cbn [split]. rewrite IH.
  destruct (Z.eqb_spec 10 c); [congruence|reflexivity].
Qed.
Definition one_line (s : str) : Prop := Forall (fun c => c <> 10) s.
Lemma one_line_b s : forallb (fun c => negb (c =? 10)) s = true -> one_line s.
Proof. rewrite forallb_forall. unfold one_line. rewrite Forall_forall. intros H c I. specialize (H c I). lia. Qed.

Lemma entries_listed alt o c es : one_line o -> one_line c -> Forall one_line es ->
  listed alt o c es (dbg_entries alt o c es).
Proof.
  intros Ho Hc H. unfold dbg_entries. destruct es as [|e es]; [now destruct alt|]. destruct alt.
  - cbn [listed]. generalize dependent (e :: es). intros l H. rewrite <- app_comm_cons, split_line by exact Ho.
    cbn [app]. f_equal. induction H as [|x l Hx _ IH]; cbn [flat_map map app]; [now apply split_last|].
    rewrite <- !app_assoc. cbn [app]. rewrite (app_assoc (lit "    ")), (app_assoc _ (lit ",")), split_line.
    + rewrite <- app_assoc. f_equal. exact IH.
    + unfold one_line in Hx. rewrite !Forall_app. repeat split; auto; apply one_line_b; reflexivity.
  - cbn [listed]. rewrite join_concat, <- app_assoc. reflexivity.
Qed.

(** ** injectivity *)
Lemma pre_or x r y r' : x ++ r = y ++ r' -> starts_with x y = true \/ starts_with y x = true.
Proof.
  revert y. induction x as [|a x IH]; intros [|b y] H; cbn [starts_with]; auto.
  cbn in H. injection H as -> H. rewrite Z.eqb_refl. cbn. apply (IH y H).
Qed.

Section Inj.
Context {A : Type} (E : A -> str) (P : A -> Prop) (o c : Z).
Hypothesis free : forall a b, P a -> P b -> starts_with (E a) (E b) = true -> a = b.
Hypothesis head : forall a, P a -> exists h s, E a = h :: s /\ h <> c /\ h <> 10.
Hypothesis closing : c <> 44 /\ c <> 32.

Lemma entry_inj a b r r' : P a -> P b -> E a ++ r = E b ++ r' -> a = b /\ r = r'.
Proof.
  intros Ha Hb H. assert (a = b) as ->.
  { destruct (pre_or _ _ _ _ H) as [X|X]; [now apply free|symmetry; now apply free]. }
  split; [reflexivity|]. now apply app_inv_head in H.
Qed.

Lemma plain_inj l : forall l', Forall P l -> Forall P l' ->
  join_comma (map E l) ++ [c] = join_comma (map E l') ++ [c] -> l = l'.
Proof.
  assert (N : forall b l', Forall P (b :: l') -> [c] = join_comma (map E (b :: l')) ++ [c] -> False).
  { intros b l' F H. inversion F; subst. destruct (head b) as (h & s & Eh & D & _); auto.
    cbn [map] in H. rewrite join_concat, Eh in H. cbn in H. congruence. }
  induction l as [|a l IH]; intros [|b l'] F F' H; auto.
  - destruct (N b l' F' H).
  - destruct (N a l F (eq_sym H)).
  - inversion F; inversion F'; subst. cbn [map] in H. rewrite !join_concat, <- !app_assoc in H.
    apply entry_inj in H; auto. destruct H as [-> H]. f_equal.
    destruct l as [|x l], l' as [|y l']; auto.
    + cbn in H. destruct closing. congruence.
    + cbn in H. destruct closing. congruence.
    + apply IH; auto. cbn [map concat] in H |- *. rewrite !join_concat. repeat rewrite <- app_assoc in H. repeat rewrite <- app_assoc.
      now apply app_inv_head in H.
Qed.

Definition pretty (l : list A) := flat_map (fun e => lit "    " ++ e ++ lit "," ++ [10]) (map E l).
Lemma pretty_inj l : forall l', Forall P l -> Forall P l' -> pretty l ++ [c] = pretty l' ++ [c] -> l = l'.
Proof.
  induction l as [|a l IH]; intros [|b l'] F F' H; auto.
  - cbn in H. destruct closing. congruence.
  - cbn in H. destruct closing. congruence.
  - inversion F; inversion F'; subst. unfold pretty in H. cbn [map flat_map] in H. rewrite <- !app_assoc in H.
    apply app_inv_head in H. apply entry_inj in H; auto. destruct H as [-> H]. f_equal.
    apply app_inv_head in H. cbn [app] in H. injection H as H. now apply IH.
Qed.

Lemma entries_inj alt alt' l l' : Forall P l -> Forall P l' ->
  dbg_entries alt [o] [c] (map E l) = dbg_entries alt' [o] [c] (map E l') -> l = l'.
Proof.
  intros F F' H. unfold dbg_entries in H. cbn [app] in H. injection H as H.
  assert (X : forall a b l l', Forall P (a :: l) -> Forall P (b :: l') ->
    10 :: pretty (b :: l') ++ [c] = join_comma (map E (a :: l)) ++ [c] -> False).
  { intros a b m m' G _ X. inversion G; subst. destruct (head a) as (h & s & Eh & _ & D); auto.
    cbn [map] in X. rewrite join_concat, Eh in X. cbn in X. congruence. }
  assert (Y : forall b l', Forall P (b :: l') -> [c] = join_comma (map E (b :: l')) ++ [c] -> False).
  { intros b m F1 H1. assert ([] = b :: m) as N by (now apply plain_inj). discriminate N. }
  assert (W : forall b l', [c] = 10 :: pretty (b :: l') ++ [c] -> False).
  { intros b m H1. discriminate H1. }
  destruct l as [|a l], l' as [|b l']; auto; destruct alt, alt'; cbn [map] in H;
    try (exfalso; first [exact (W _ _ H) | exact (W _ _ (eq_sym H)) | exact (Y _ _ F' H) | exact (Y _ _ F (eq_sym H))]).
  - exact (pretty_inj (a :: l) (b :: l') F F' (f_equal (@tl Z) H)).
  - exfalso. eapply X; [exact F'|exact F|]. exact H.
  - exfalso. eapply X; [exact F|exact F'|]. symmetry. exact H.
  - now apply plain_inj.
Qed.
End Inj.

(** ** string tables *)
Definition byte_text (n : Z) : str := if n =? 0 then [34; 34] else dbg_char n.
Definition all_ascii : list Z := map Z.of_nat (seq 0 128).
Lemma in_ascii c : 0 <= c < 128 -> In c all_ascii.
Proof. intro H. apply in_map_iff. exists (Z.to_nat c). rewrite in_seq. lia. Qed.

Lemma byte_free a b : 0 <= a < 128 -> 0 <= b < 128 -> starts_with (byte_text a) (byte_text b) = true -> a = b.
Proof.
  intros Ha Hb H.
  assert (C : forallb (fun a => forallb (fun b => implb (starts_with (byte_text a) (byte_text b)) (a =? b)) all_ascii) all_ascii = true)
    by (vm_compute; reflexivity).
  rewrite forallb_forall in C. specialize (C a (in_ascii a Ha)). rewrite forallb_forall in C.
  specialize (C b (in_ascii b Hb)). rewrite H in C. cbn in C. lia.
Qed.
Lemma byte_head a : 0 <= a < 128 -> exists h s, byte_text a = h :: s /\ h <> 93 /\ h <> 10.
Proof.
  intro H. unfold byte_text. destruct (a =? 0).
  - exists 34, [34]. split; [reflexivity|split; discriminate].
  - unfold dbg_char. change (lit "'") with [39]. eexists 39, _. split; [reflexivity|split; discriminate].
Qed.
Lemma byte_line a : 0 <= a < 128 -> one_line (byte_text a).
Proof.
  intro H. apply one_line_b.
  assert (C : forallb (fun a => forallb (fun c => negb (c =? 10)) (byte_text a)) all_ascii = true) by (vm_compute; reflexivity).
  rewrite forallb_forall in C. exact (C a (in_ascii a H)).
Qed.

Lemma hex1 d : 0 <= d <= 15 -> hex_val [hex_digit d] d.
Proof.
  intro H. unfold hex_digit. destruct (Z.ltb_spec d 10).
  - exact (hex_09 [] 0 d hex_none ltac:(lia)).
  - replace (87 + d) with (97 + (d - 10)) by lia. exact (hex_af [] 0 d hex_none ltac:(lia)).
Qed.
Lemma hex2 d e : 0 <= d <= 15 -> 0 <= e <= 15 -> hex_val [hex_digit d; hex_digit e] (16 * d + e).
Proof.
  intros H H'. pose proof (hex1 d H) as X. unfold hex_digit at 2. destruct (Z.ltb_spec e 10).
  - exact (hex_09 [_] d e X ltac:(lia)).
  - replace (87 + e) with (97 + (e - 10)) by lia. exact (hex_af [_] d e X ltac:(lia)).
Qed.

Lemma byte_entry_text c : 0 <= c < 128 -> byte_entry c (byte_text c).
Proof.
  intro H. unfold byte_text. destruct (Z.eqb_spec c 0) as [->|N]; [exact be_nul|].
  apply be_char; [lia|]. unfold dbg_char.
  destruct (Z.eqb_spec c 9) as [->|N9]; [exact cl_tab|].
  destruct (Z.eqb_spec c 13) as [->|N13]; [exact cl_cr|].
  destruct (Z.eqb_spec c 10) as [->|N10]; [exact cl_lf|].
  destruct (Z.eqb_spec c 39) as [->|N39]; [exact cl_quote|].
  destruct (Z.eqb_spec c 92) as [->|N92]; [exact cl_backslash|]. cbn [orb].
  destruct ((32 <=? c) && (c <? 127)) eqn:R; [apply cl_plain; lia|].
  assert (X : lit "'" ++ (lit "\u{" ++ show_hex2 c ++ lit "}") ++ lit "'" = lit "'\u{" ++ show_hex2 c ++ lit "}'").
  { rewrite <- !app_assoc. reflexivity. }
  rewrite X. apply cl_unicode.
  - unfold show_hex2. destruct (Z.ltb_spec c 16); [apply hex1; lia|].
    rewrite (Z.div_mod c 16) at 3 by lia. apply hex2.
    + split; [apply Z.div_pos; lia|]. enough (c / 16 < 16) by lia. apply Z.div_lt_upper_bound; lia.
    + pose proof (Z.mod_pos_bound c 16 ltac:(lia)). lia.
  - unfold show_hex2. now destruct (c <? 16).
Qed.

Lemma top_C82_table alt t : ascii_str t ->
  exists es, Forall2 byte_entry t es /\ listed alt (lit "[") (lit "]") es (dbg_stab alt t).
Proof.
  intro H. exists (map byte_text t). split.
  - induction H; cbn [map]; constructor; auto. now apply byte_entry_text.
  - apply entries_listed; [apply one_line_b; reflexivity|apply one_line_b; reflexivity|].
    induction H; cbn [map]; constructor; auto. now apply byte_line.
Qed.
Lemma top_C82_table_inj alt alt' t t' : ascii_str t -> ascii_str t' -> dbg_stab alt t = dbg_stab alt' t' -> t = t'.
Proof. apply (entries_inj byte_text (fun c => 0 <= c < 128) 91 93 byte_free byte_head). lia. Qed.
Lemma top_C82_table_ascii d t : bytes_ok d -> stab_from_vec d = Ok t -> t = d /\ ascii_str t.
Proof.
  intros B H. unfold stab_from_vec in H.
  destruct (rassert _) as [[]|] in H; cbn [bind] in H; [|discriminate].
  destruct (rassert _) as [[]|] in H; cbn [bind] in H; [|discriminate].
  unfold rassert in H. destruct (forallb _ d) eqn:E; cbn [bind] in H; [|discriminate]. injection H as <-.
  split; [reflexivity|]. unfold ascii_str. rewrite forallb_forall in E. unfold bytes_ok in B. rewrite Forall_forall in B |- *.
  intros c I. specialize (E c I). specialize (B c I). unfold isbyte, is_ascii in *. lia.
Qed.

Lemma top_C82_push_ascii t s t' : ascii_str t -> str_ok s -> stab_push t s = Ok t' -> ascii_str t'.
Proof.
  intros A S H. unfold stab_push, str_is_ascii in H. destruct (forallb is_ascii s) eqn:E; [|discriminate].
  injection H as <-. unfold ascii_str in *. rewrite !Forall_app. split; [exact A|]. split; [|repeat constructor; lia].
  rewrite forallb_forall in E. apply Forall_forall. intros x I. apply in_map_iff in I. destruct I as (c & <- & I).
  specialize (E c I). unfold str_ok in S. rewrite Forall_forall in S. specialize (S c I).
  unfold is_ascii in E. unfold ischar in S. unfold wrapu. change (2 ^ 8) with 256. rewrite Z.mod_small; lia.
Qed.

(** ** flags and attributes *)
Lemma flag_free a b : True -> True -> starts_with (dbg_flag a) (dbg_flag b) = true -> a = b.
Proof. intros _ _. destruct a, b; try reflexivity; intro H; vm_compute in H; discriminate H. Qed.
Lemma attr_free a b : True -> True -> starts_with (dbg_attr a) (dbg_attr b) = true -> a = b.
Proof. intros _ _. destruct a, b; try reflexivity; intro H; vm_compute in H; discriminate H. Qed.
Lemma flag_head a : True -> exists h s, dbg_flag a = h :: s /\ h <> 125 /\ h <> 10.
Proof. intros _. destruct a; do 2 eexists; (split; [reflexivity|split; discriminate]). Qed.
Lemma attr_head a : True -> exists h s, dbg_attr a = h :: s /\ h <> 125 /\ h <> 10.
Proof. intros _. destruct a; do 2 eexists; (split; [reflexivity|split; discriminate]). Qed.
Lemma all_true {A} (l : list A) : Forall (fun _ => True) l.
Proof. induction l; auto. Qed.

Lemma top_C82_flags_inj alt alt' l l' : dbg_flags alt l = dbg_flags alt' l' -> l = l'.
Proof.
  apply (entries_inj dbg_flag (fun _ => True) 123 125 flag_free flag_head); [lia|apply all_true|apply all_true].
Qed.
Lemma top_C82_attrs_inj alt alt' l l' : dbg_attrs alt l = dbg_attrs alt' l' -> l = l'.
Proof.
  apply (entries_inj dbg_attr (fun _ => True) 123 125 attr_free attr_head); [lia|apply all_true|apply all_true].
Qed.

Lemma flag_camel f : camel_of (mh_name (flag_bit f)) (dbg_flag f).
Proof. destruct f; eexists; split; reflexivity. Qed.
Lemma attr_camel f : camel_of (s_attr_name (attr_bit f)) (dbg_attr f).
Proof. destruct f; eexists; split; reflexivity. Qed.

Lemma top_C82_flags alt w fs : inu 32 w -> flags_from_u32 w = Ok fs ->
  exists names, Forall2 (fun i n => camel_of (mh_name i) n) (bits_in w (count_from 0 32)) names /\
    listed alt (lit "{") (lit "}") names (dbg_flags alt fs).
Proof.
  intros W H. apply (C12_flags_from_u32 w fs W) in H. rewrite <- H. exists (map dbg_flag fs). split.
  - clear. induction fs; cbn [map]; constructor; auto. apply flag_camel.
  - apply entries_listed; [apply one_line_b; reflexivity|apply one_line_b; reflexivity|].
    clear. induction fs as [|f fs IH]; cbn [map]; constructor; auto. apply one_line_b. now destruct f.
Qed.
Lemma top_C82_attrs alt w fs : inu 32 w -> section_attrs_from_u32 w = Ok fs ->
  exists names, Forall2 (fun i n => camel_of (s_attr_name i) n) (bits_in w (count_from 8 24)) names /\
    listed alt (lit "{") (lit "}") names (dbg_attrs alt fs).
Proof.
  intros W H. apply (C12_attrs_from_u32 w fs W) in H. rewrite <- H. exists (map dbg_attr fs). split.
  - clear. induction fs; cbn [map]; constructor; auto. apply attr_camel.
  - apply entries_listed; [apply one_line_b; reflexivity|apply one_line_b; reflexivity|].
    clear. induction fs as [|f fs IH]; cbn [map]; constructor; auto. apply one_line_b. now destruct f.
Qed.
