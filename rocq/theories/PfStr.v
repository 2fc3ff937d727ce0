(** Lemmas about the string functions of [Str]. *)
From Coq Require Import ZifyBool ZifyNat.
From Verif Require Import Base Str SpecMacho.
Ltac Zify.zify_post_hook ::= Z.div_mod_to_equations.

Lemma str_eqb_eq a b : str_eqb a b = true <-> a = b.
Proof.
  revert b; induction a as [|x a IH]; destruct b as [|y b]; cbn [str_eqb]; try (split; congruence).
  rewrite andb_true_iff, Z.eqb_eq, IH. split; [now intros [-> ->]|intros H; now injection H].
Qed.
Lemma str_eqb_refl a : str_eqb a a = true.
Proof. now apply str_eqb_eq. Qed.
Lemma str_eqb_neq a b : str_eqb a b = false <-> a <> b.
Proof. rewrite <- not_true_iff_false, str_eqb_eq. reflexivity. Qed.
Definition str_eq_dec (a b : str) : {a = b} + {a <> b}.
Proof. destruct (str_eqb a b) eqn:E; [left; now apply str_eqb_eq|right; now apply str_eqb_neq]. Defined.

(** ** UTF-8 *)

Ltac tf := match goal with
  | |- context [if ?c then _ else _] =>
      first [ replace c with true by (unfold rng, cont, rng; lia)
            | replace c with false by (unfold rng, cont, rng; lia) ]
  end; cbv iota.

Lemma from_utf8_char c l : ischar c -> from_utf8 (utf8_char c ++ l) = ocons c (from_utf8 l).
Proof.
  intros H. unfold ischar in H. unfold utf8_char.
  destruct (c <? 0x80) eqn:E1; [|destruct (c <? 0x800) eqn:E2; [|destruct (c <? 0x10000) eqn:E3]];
    cbn [app from_utf8]; repeat tf; try reflexivity; f_equal; lia.
Qed.

Lemma from_utf8_utf8 s : str_ok s -> from_utf8 (utf8 s) = Some s.
Proof.
  unfold utf8. induction 1 as [|c s Hc Hs IH]; [reflexivity|].
  cbn [flat_map]. rewrite from_utf8_char, IH by assumption. reflexivity.
Qed.

Lemma ocons_some {A} (a : A) o l : ocons a o = Some l -> exists l', o = Some l' /\ l = a :: l'.
Proof. destruct o as [l'|]; [|discriminate]. intros H. injection H as <-. now exists l'. Qed.

Lemma from_utf8_inv l s : bytes_ok l -> from_utf8 l = Some s -> str_ok s /\ utf8 s = l.
Proof.
  revert s. remember (length l) as n eqn:Hn. revert l Hn.
  induction n as [n IH] using lt_wf_ind. intros l Hn s Hb H.
  destruct l as [|b0 l1]; [injection H as <-; split; [constructor|reflexivity]|].
  cbn [from_utf8] in H. inversion_clear Hb as [|? ? B0 Hb1]. unfold isbyte in B0.
  assert (step : forall c l', (length l' < n)%nat -> bytes_ok l' -> ocons c (from_utf8 l') = Some s ->
            ischar c -> utf8_char c ++ l' = b0 :: l1 -> str_ok s /\ utf8 s = b0 :: l1).
  { intros c l' L Hb' E Hc Eq. apply ocons_some in E. destruct E as (s' & E & ->).
    destruct (IH (length l') L l' eq_refl s' Hb' E) as [I1 I2].
    split; [now constructor|]. unfold utf8 in *. cbn [flat_map]. now rewrite I2. }
  destruct (rng 0 127 b0) eqn:R0.
  { eapply step; eauto; [cbn [length] in Hn; lia| |]; unfold rng in R0.
    - unfold ischar; lia.
    - unfold utf8_char. replace (b0 <? 128) with true by lia. reflexivity. }
  destruct l1 as [|b1 l2]; [discriminate|]. inversion_clear Hb1 as [|? ? B1 Hb2]. unfold isbyte in B1.
  destruct (rng 0xC2 0xDF b0 && cont b1) eqn:R1.
  { eapply step; eauto; [cbn [length] in Hn; lia| |]; unfold cont, rng in R1.
    - unfold ischar; lia.
    - unfold utf8_char. repeat tf. cbn [app]. f_equal; [lia|]. f_equal. lia. }
  destruct l2 as [|b2 l3]; [discriminate|]. inversion_clear Hb2 as [|? ? B2 Hb3]. unfold isbyte in B2.
  match type of H with (if ?c then _ else _) = _ => destruct c eqn:R2 end.
  { eapply step; eauto; [cbn [length] in Hn; lia| |]; unfold cont, rng in R2.
    - unfold ischar; lia.
    - unfold utf8_char. repeat tf. cbn [app]. f_equal; [lia|]. f_equal; [lia|]. f_equal. lia. }
  destruct l3 as [|b3 l4]; [discriminate|]. inversion_clear Hb3 as [|? ? B3 Hb4]. unfold isbyte in B3.
  match type of H with (if ?c then _ else _) = _ => destruct c eqn:R3 end; [|discriminate].
  eapply step; eauto; [cbn [length] in Hn; lia| |]; unfold cont, rng in R3.
  - unfold ischar; lia.
  - unfold utf8_char. repeat tf. cbn [app]. f_equal; [lia|]. f_equal; [lia|]. f_equal; [lia|]. f_equal. lia.
Qed.

Lemma utf8_char_bytes c : ischar c -> bytes_ok (utf8_char c).
Proof.
  intros H. unfold ischar in H. unfold utf8_char.
  destruct (c <? 0x80) eqn:E1; [|destruct (c <? 0x800) eqn:E2; [|destruct (c <? 0x10000) eqn:E3]];
    repeat (constructor; [unfold isbyte; lia|]); constructor.
Qed.
Lemma utf8_bytes s : str_ok s -> bytes_ok (utf8 s).
Proof.
  unfold utf8. induction 1 as [|c s Hc Hs IH]; cbn [flat_map]; [constructor|].
  apply Forall_app. split; [now apply utf8_char_bytes|exact IH].
Qed.
Lemma utf8_app a b : utf8 (a ++ b) = utf8 a ++ utf8 b.
Proof. unfold utf8. apply flat_map_app. Qed.

(** ** ASCII *)

Lemma str_is_ascii_iff s : str_ok s -> (str_is_ascii s = true <-> ascii_str s).
Proof.
  unfold str_is_ascii, ascii_str, str_ok. intros H. rewrite forallb_forall, Forall_forall.
  rewrite Forall_forall in H. unfold is_ascii, ischar in *. split; intros G x Hx; specialize (G x Hx); specialize (H x Hx); lia.
Qed.
Lemma ascii_str_ok s : ascii_str s -> str_ok s.
Proof. apply Forall_impl. unfold ischar. lia. Qed.
Lemma utf8_ascii s : ascii_str s -> utf8 s = s.
Proof.
  unfold utf8. induction 1 as [|c s Hc Hs IH]; [reflexivity|]. cbn [flat_map]. unfold utf8_char at 1.
  replace (c <? 128) with true by lia. cbn [app]. now rewrite IH.
Qed.
Lemma from_utf8_ascii s : ascii_str s -> from_utf8 s = Some s.
Proof. intros H. rewrite <- (utf8_ascii s H) at 1. apply from_utf8_utf8. now apply ascii_str_ok. Qed.
Lemma map_wrapu8_ascii s : ascii_str s -> map (wrapu 8) s = s.
Proof.
  induction 1 as [|c s Hc Hs IH]; [reflexivity|]. cbn [map]. rewrite IH. unfold wrapu.
  rewrite Z.mod_small; [reflexivity|]. change (2 ^ 8) with 256. lia.
Qed.
Lemma ascii_bytes s : ascii_str s -> bytes_ok s.
Proof. apply Forall_impl. unfold isbyte. lia. Qed.

(** the UTF-8 length is at least the number of characters, with equality for ASCII *)
Lemma utf8_char_length c : (1 <= length (utf8_char c))%nat.
Proof. unfold utf8_char. repeat destruct (_ <? _); cbn [length]; lia. Qed.
Lemma utf8_length_ge s : (length s <= length (utf8 s))%nat.
Proof.
  unfold utf8. induction s as [|c s IH]; [cbn; lia|]. cbn [flat_map length]. rewrite app_length.
  pose proof (utf8_char_length c). lia.
Qed.
