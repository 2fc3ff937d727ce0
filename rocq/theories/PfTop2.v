(** Top-level lemmas about assembler runs: C45-C47, C51. *)
From Coq Require String.
Import String.StringSyntax.
From Coq Require Import ZifyBool ZifyNat.
From Verif Require Import Base Str X64 SpecX86 Obj Asm SpecAsm Assembler SpecRun PfStr PfTok PfRun PfRun2 PfRun3 PfRun4 PfRun5.
From Coq Require Import Sorting.Sorted.
Ltac Zify.zify_post_hook ::= Z.div_mod_to_equations.

Lemma session_prog p ins a pr : Forall bytes_ok ins -> session p ins a -> sources_are p ins pr ->
  assembled pr a /\ bss_clean pr /\ wf pr.
Proof.
  intros B S R. destruct (top_session p ins a B S) as (pr' & R' & C & A).
  assert (pr' = pr) by (eapply sources_are_fun; eassumption). subst. split; [exact A|]. split; [exact C|]. eapply sources_are_wf; exact R.
Qed.
Lemma out_labels_app a b : forall off, out_labels off (a ++ b) = out_labels off a ++ out_labels (off + zlen (out_bytes a)) b.
Proof.
  induction a as [|[st bs] a IH]; intro off; cbn [app out_labels out_bytes flat_map snd].
  - f_equal. unfold out_bytes, zlen. cbn. lia.
  - rewrite IH, <- app_assoc. f_equal. f_equal. f_equal. unfold zlen. unfold out_bytes. cbn [flat_map snd]. rewrite app_length. lia.
Qed.
Lemma label_count_out l : forall off, length (out_labels off l) = label_count l.
Proof.
  unfold label_count. induction l as [|[st bs] l IH]; intro off; cbn [out_labels filter fst length]; [reflexivity|].
  rewrite app_length, IH. destruct (stmt_label st); cbn [length]; lia.
Qed.
Lemma sec_symbols_of pr s : sec_symbols (object_of pr) s =
  map (fun x => SyRef (fst x) (snd x) (is_global pr (fst x))) (out_labels 0 (during s SText pr)).
Proof. now destruct s. Qed.
Lemma during_here st bs pre post n : stmt_label st = Some n -> let s := last_sect SText pre in
  during s SText (pre ++ (st, bs) :: post) = during s SText pre ++ (st, bs) :: during s s post.
Proof.
  intros L s. rewrite during_app. fold s. f_equal. cbn [during].
  assert (X : sect_eqb s s = true) by (now apply sect_eqb_eq). destruct st; cbn [stmt_label] in L; try discriminate; rewrite X; reflexivity.
Qed.
Lemma top_C45 p ins a pr : Forall bytes_ok ins -> session p ins a -> sources_are p ins pr ->
  forall pre st bs post n, pr = pre ++ (st, bs) :: post -> stmt_label st = Some n ->
  let s := last_sect SText pre in
  nth_error (sec_symbols (as_obj a) s) (label_count (during s SText pre)) =
    Some (SyRef n (zlen (out_bytes (during s SText pre))) (is_global pr n)).
Proof.
  intros B S R pre st bs post n E L s. destruct (session_prog _ _ _ _ B S R) as ((-> & _) & _). rewrite sec_symbols_of.
  rewrite nth_error_map. rewrite E at 1. pose proof (during_here st bs pre post n L) as D. cbn zeta in D. fold s in D. rewrite D.
  rewrite out_labels_app, <- (label_count_out _ 0), nth_error_app2, Nat.sub_diag by lia. cbn [out_labels]. rewrite L.
  cbn [app nth_error option_map fst snd]. reflexivity.
Qed.
Lemma out_labels_nth l : forall off j n o, nth_error (out_labels off l) j = Some (n, o) ->
  exists l1 st bs l2, l = l1 ++ (st, bs) :: l2 /\ stmt_label st = Some n /\ o = off + zlen (out_bytes l1) /\ j = label_count l1.
Proof.
  induction l as [|[st bs] l IH]; intros off j n o H; cbn [out_labels] in H; [destruct j; discriminate H|].
  destruct (stmt_label st) as [m|] eqn:L; cbn [app] in H.
  - destruct j as [|j]; cbn [nth_error] in H.
    + injection H as <- <-. exists [], st, bs, l. repeat split; try assumption. unfold zlen. cbn. lia.
    + apply IH in H. destruct H as (l1 & st' & bs' & l2 & -> & L' & -> & ->). exists ((st, bs) :: l1), st', bs', l2.
      split; [reflexivity|]. split; [exact L'|]. split.
      * unfold zlen, out_bytes. cbn [flat_map snd]. rewrite app_length. lia.
      * unfold label_count. cbn [filter fst]. rewrite L. reflexivity.
  - apply IH in H. destruct H as (l1 & st' & bs' & l2 & -> & L' & -> & ->). exists ((st, bs) :: l1), st', bs', l2.
    split; [reflexivity|]. split; [exact L'|]. split.
    + unfold zlen, out_bytes. cbn [flat_map snd]. rewrite app_length. lia.
    + unfold label_count. cbn [filter fst]. rewrite L. reflexivity.
Qed.
Lemma during_split s pr : forall cur l1 x l2, during s cur pr = l1 ++ x :: l2 ->
  exists pre post, pr = pre ++ x :: post /\ last_sect cur pre = s /\ during s cur pre = l1.
Proof.
  induction pr as [|[st bs] pr IH]; intros cur l1 x l2 H; [destruct l1; discriminate H|].
  assert (D : (exists s', st = StSection s') \/ during s cur ((st, bs) :: pr) = (if sect_eqb s cur then [(st, bs)] else []) ++ during s cur pr /\ forall s', st <> StSection s').
  { destruct st; try (right; split; [reflexivity|discriminate]). left. eauto. }
  destruct D as [(s' & ->)|(D & N)].
  - cbn [during] in H. apply IH in H. destruct H as (pre & post & -> & E1 & E2). exists ((StSection s', bs) :: pre), post.
    split; [reflexivity|]. cbn [last_sect during]. auto.
  - assert (G : forall l1', during s cur pr = l1' ++ x :: l2 -> exists pre post, (st, bs) :: pr = pre ++ x :: post /\ last_sect cur pre = s /\
        during s cur pre = (if sect_eqb s cur then [(st, bs)] else []) ++ l1').
    { intros l1' H'. apply IH in H'. destruct H' as (pre & post & -> & E1 & E2). exists ((st, bs) :: pre), post. split; [reflexivity|].
      destruct st; cbn [last_sect during]; rewrite ?E2; try (split; [exact E1|reflexivity]). now elim (N s0). }
    rewrite D in H. destruct (sect_eqb s cur) eqn:Q; cbn [app] in H.
    + destruct l1 as [|y l1]; cbn [app] in H.
      * injection H as <- _. exists [], pr. apply sect_eqb_eq in Q. subst. repeat split.
      * injection H as <- H. now apply G in H.
    + now apply G in H.
Qed.
Lemma top_C45_only p ins a pr : Forall bytes_ok ins -> session p ins a -> sources_are p ins pr ->
  forall s j y, nth_error (sec_symbols (as_obj a) s) j = Some y ->
  exists pre st bs post n, pr = pre ++ (st, bs) :: post /\ stmt_label st = Some n /\ last_sect SText pre = s /\
    j = label_count (during s SText pre) /\ y = SyRef n (zlen (out_bytes (during s SText pre))) (is_global pr n).
Proof.
  intros B S R s j y H. destruct (session_prog _ _ _ _ B S R) as ((E & _) & _). rewrite E, sec_symbols_of, nth_error_map in H.
  destruct (nth_error (out_labels 0 (during s SText pr)) j) as [[n o]|] eqn:N; [|discriminate H].
  cbn [option_map fst snd] in H. injection H as <-. apply out_labels_nth in N. destruct N as (l1 & st & bs & l2 & D & L & -> & ->).
  apply during_split in D. destruct D as (pre & post & Ep & Es & Ed). exists pre, st, bs, post, n.
  split; [exact Ep|]. split; [exact L|]. split; [exact Es|]. rewrite Ed. split; [reflexivity|]. reflexivity.
Qed.
Lemma top_C46 p ins a pr : Forall bytes_ok ins -> session p ins a -> sources_are p ins pr ->
  sec_bytes (as_obj a) SText = out_bytes (during SText SText pr) /\ sec_bytes (as_obj a) SData = out_bytes (during SData SText pr) /\
  as_sect a = last_sect SText pr.
Proof. intros B S R. destruct (session_prog _ _ _ _ B S R) as ((-> & -> & _) & _). repeat split. Qed.
Lemma is_global_iff pr n : is_global pr n = true <-> exists bs, In (StGlobal n, bs) pr.
Proof.
  unfold is_global. rewrite existsb_exists. unfold globals. split.
  - intros (g & I & E). apply str_eqb_eq in E. subst g. apply in_flat_map in I. destruct I as ([st bs] & I & J). cbn [fst] in J.
    destruct st; try contradiction. destruct J as [->|[]]. eauto.
  - intros (bs & I). exists n. split; [|apply str_eqb_refl]. apply in_flat_map. exists (StGlobal n, bs). split; [exact I|]. now left.
Qed.
Lemma top_C47 p ins a pr : Forall bytes_ok ins -> session p ins a -> sources_are p ins pr ->
  forall s y, In y (sec_symbols (as_obj a) s) ->
  exists n off g, y = SyRef n off g /\ (g = true <-> exists bs, In (StGlobal n, bs) pr).
Proof.
  intros B S R s y I. destruct (session_prog _ _ _ _ B S R) as ((E & _) & _). rewrite E, sec_symbols_of in I.
  apply in_map_iff in I. destruct I as ((n & o) & <- & _). cbn [fst snd]. exists n, o, (is_global pr n). split; [reflexivity|apply is_global_iff].
Qed.
Lemma top_C51 p ins a : Forall bytes_ok ins -> session p ins a ->
  forall s, zlen (sec_bytes (as_obj a) s) < 2 ^ 31 ->
  Forall (fun r => rl_pcrel r = false /\ exists pre post,
      sec_bytes (as_obj a) s = pre ++ repeat 0 (Z.to_nat (2 ^ rl_len r)) ++ post /\ rl_addr r = zlen pre)
    (sec_relocs_of (as_obj a) s) /\
  StronglySorted rbefore (sec_relocs_of (as_obj a) s).
Proof.
  intros B S s Z. destruct (top_session p ins a B S) as (pr & R & _ & (E & _)). rewrite E in *. pose proof (sources_are_wf _ _ _ R) as W.
  destruct s; cbn [sec_bytes sec_relocs_of object_of o_text o_data] in *.
  - apply (sec_relocs pr SText W). exact Z.
  - apply (sec_relocs pr SData W). exact Z.
  - split; constructor.
Qed.
