(** Proofs for C92, continued: what the text of a field tells. *)
From Coq Require Import String.
From Verif Require Import Base Str X64 Mac SpecMacho Obj SpecObj Asm SpecAsm Dbg SpecDbg PfTok SpecDiag PfDiag Derive SpecDerive PfDerive PfDerive2 PfDerive3.

Lemma dec_chars n t : decimal n t -> t <> [] /\ Forall (fun c => c <> 45) t.
Proof.
  intros [N _]. apply numeral_chars in N. destruct N as [N F]. split; [exact N|]. eapply Forall_impl; [|exact F]. cbv beta. lia.
Qed.
Lemma dec_val n m t : decimal n t -> decimal m t -> n = m.
Proof. intros [N _] [M _]. eapply (numeral_fun 10); [lia|eassumption|eassumption]. Qed.
Lemma no_minus n m t : decimal n (lit "-" ++ t) -> decimal m t -> False.
Proof. intros D _. apply dec_chars in D. destruct D as [_ F]. inversion F; subst. congruence. Qed.
Lemma num_text alt n t t' : shown alt (FNum n) t -> shown alt (FNum n) t' -> t = t'.
Proof.
  intros A B. inversion A as [? ? La Da|? ? La Da| | | | | | | |]; subst;
  inversion B as [? ? Lb Db|? ? Lb Db| | | | | | | |]; subst; try lia; [|f_equal]; eapply decimal_fun; eassumption.
Qed.
Lemma num_value alt n m t : shown alt (FNum n) t -> shown alt (FNum m) t -> n = m.
Proof.
  intros A B. inversion A as [? ? La Da|? ta La Da| | | | | | | |]; subst;
  inversion B as [? ? Lb Db E1|? tb Lb Db E1| | | | | | | |]; subst.
  - eapply dec_val; eassumption.
  - exfalso. eapply no_minus; eassumption.
  - exfalso. eapply no_minus; eassumption.
  - pose proof (dec_val _ _ _ Da Db). lia.
Qed.

(** a literal stands for one string *)
Lemma hex_snoc ds c n : hex_val (ds ++ [c]) n -> exists m d, hex_val ds m /\ n = 16 * m + d /\
  (0 <= d <= 9 /\ c = 48 + d \/ 10 <= d <= 15 /\ c = 97 + (d - 10)).
Proof.
  remember (ds ++ [c]) as l eqn:E. intro H. destruct H as [|ds' m d H D|ds' m d H D].
  - symmetry in E. apply app_eq_nil in E. destruct E; discriminate.
  - apply app_inj_tail in E. destruct E as [-> <-]. exists m, d. repeat split; try assumption; lia.
  - apply app_inj_tail in E. destruct E as [-> <-]. exists m, d. repeat split; try assumption; lia.
Qed.
Lemma hex_val_fun ds n m : hex_val ds n -> hex_val ds m -> n = m.
Proof.
  intro H. revert m. induction H as [|ds n d H IH D|ds n d H IH D]; intros m M.
  - remember [] as l eqn:E. destruct M as [|? ? ? ? ?|? ? ? ? ?]; [reflexivity| |]; apply app_eq_nil in E; destruct E; discriminate.
  - apply hex_snoc in M. destruct M as (m' & d' & M & -> & K). rewrite (IH _ M). lia.
  - apply hex_snoc in M. destruct M as (m' & d' & M & -> & K). rewrite (IH _ M). lia.
Qed.
Lemma hex_val_chars ds n : hex_val ds n -> Forall (fun c => c <> 125) ds.
Proof.
  induction 1 as [|ds n d H IH D|ds n d H IH D]; [constructor| |]; apply Forall_app; (split; [exact IH|]); constructor; try constructor; lia.
Qed.
Lemma until_brace a b x y : Forall (fun c => c <> 125) a -> Forall (fun c => c <> 125) b -> a ++ 125 :: x = b ++ 125 :: y -> a = b /\ x = y.
Proof.
  intro Fa. revert b. induction Fa as [|c a N Fa IH]; intros b Fb E.
  - destruct b as [|c b]; [injection E as ->; now split|]. injection E as <- _. inversion Fb; congruence.
  - destruct b as [|c' b]; [injection E as -> _; congruence|]. injection E as -> E. inversion Fb; subst.
    destruct (IH b) as [-> ->]; auto.
Qed.
Lemma str_char_fun t c t' c' x y : str_char t c -> str_char t' c' -> t ++ x = t' ++ y -> c = c' /\ x = y.
Proof.
  intros A B E.
  destruct A as [c N1 N2 N3 N4| | | | | | |ds n H Ne]; destruct B as [c' M1 M2 M3 M4| | | | | | |ds' n' H' Ne'];
    cbn [lit app] in E; try (injection E; intros; subst; try congruence; now split); try discriminate E.
  - rewrite <- !app_assoc in E. apply (app_inv_head (lit "\u{")) in E.
    change (lit "}" ++ x) with (125 :: x) in E. change (lit "}" ++ y) with (125 :: y) in E.
    destruct (until_brace ds ds' x y (hex_val_chars _ _ H) (hex_val_chars _ _ H') E) as [-> ->].
    split; [eapply hex_val_fun; eassumption|reflexivity].
Qed.
Lemma str_char_ne t c : str_char t c -> t <> [].
Proof. intros []; discriminate. Qed.
Lemma str_chars_fun b s s' : str_chars b s -> str_chars b s' -> s = s'.
Proof.
  intro H. revert s'. induction H as [|t c ts s C H IH]; intros s' H'.
  - inversion H' as [E|t' c' ts' r C' K E]; [reflexivity|]. apply app_eq_nil in E. destruct E as [E _]. now apply str_char_ne in C'.
  - inversion H' as [E|t' c' ts' r C' K E].
    + symmetry in E. apply app_eq_nil in E. destruct E as [E _]. now apply str_char_ne in C.
    + symmetry in E. destruct (str_char_fun _ _ _ _ _ _ C C' E) as [-> ->]. f_equal. now apply IH.
Qed.
Lemma literal_fun t s s' : string_literal t s -> string_literal t s' -> s = s'.
Proof.
  intros (b & H & E) (b' & H' & E'). rewrite E in E'. apply (app_inv_head [34]) in E'. apply app_inv_tail in E'. subst b'.
  eapply str_chars_fun; eassumption.
Qed.

Lemma top_C92_texts : forall alt,
  (forall n t t', shown alt (FNum n) t -> shown alt (FNum n) t' -> t = t') /\
  (forall n m t, shown alt (FNum n) t -> shown alt (FNum m) t -> n = m) /\
  (forall b c t, shown alt (FBool b) t -> shown alt (FBool c) t -> b = c) /\
  (forall s r t, shown alt (FStr s) t -> shown alt (FStr r) t -> s = r).
Proof.
  intro alt. split; [intros n t t'; apply num_text|]. split; [intros n m t; apply num_value|]. split.
  - intros b c t A B. inversion A; subst; inversion B; subst; try reflexivity; discriminate.
  - intros s r t A B. inversion A; subst; inversion B; subst. eapply literal_fun; eassumption.
Qed.
