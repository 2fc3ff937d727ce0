(** Proofs: a whole run of the command, from the source text to the linked file. *)
From Coq Require String.
Import String.StringSyntax.
From Verif Require Import Base Str X64 SpecX86 Mac SpecMacho Obj Asm SpecAsm SpecRun SpecLink PfX64 PfX86 PfX64Top.
From Verif Require Import PfStr PfObj PfRun PfRun3 PfRun5 PfEnd SpecObj PfLink PfGo Assembler Cli SpecCli PfCli.

Lemma session_one p src a : session p [src] a <-> read_from p asm_new src = Done a.
Proof.
  split.
  - intro H. remember [src] as l eqn:E. destruct H as [|ins a0 input a' H R]; [discriminate|].
    destruct ins as [|x ins]; [|destruct ins; discriminate]. cbn in E. injection E as ->.
    remember [] as l0 eqn:E0. destruct H as [|ins a1 input a2 H R2]; [exact R|destruct ins; discriminate].
  - intro H. apply (ses_read p [] asm_new src a (ses_new p) H).
Qed.
Lemma top_C64 p h args w cf i o src : config_init args = Done cf -> w_slot w (cf_input cf) = Some i ->
  w_data w i = Some src -> w_slot w (cf_output cf) = Some o -> i <> o -> bytes_ok src -> ~ In 0 src ->
  (forall pr, sources_are p [src] pr -> fits (object_of pr) /\ size_ok p pr) ->
  (status (snd (main p h args w)) = 0 <-> exists pr, sources_are p [src] pr /\ bss_clean pr /\ linkable pr).
Proof.
  intros C I D O N B Z0 Fi. pose proof (top_C54_output p h args w cf i o src C I D O N) as M.
  assert (Bs : Forall bytes_ok [src]) by (constructor; [exact B|constructor]).
  assert (Zs : Forall (fun i => ~ In 0 i) [src]) by (constructor; [exact Z0|constructor]).
  split.
  - intro St. destruct (read_from p asm_new src) as [a|c e|] eqn:R.
    + destruct M as [_ M]. apply session_one in R. destruct (session_facts p [src] a Bs R) as (pr & Sr & Cl & _).
      exists pr. split; [exact Sr|]. split; [exact Cl|]. destruct (Fi pr Sr) as [Ft _].
      destruct (snd (asm_write_into p h a)) eqn:Ew.
      * exact (proj1 (top_C52_written p h [src] a pr Bs Zs R Sr Ft) Ew).
      * rewrite M in St. discriminate.
    + destruct M as [_ M]. rewrite M in St. cbn [status] in St. subst c.
      assert (X : forall ls, source_lines src ls -> False).
      { intros ls Sl. destruct (proj1 (top_exit p [] asm_new [] src ls (Forall_nil _) B (ses_new p) ltac:(exists []; split; [constructor|reflexivity]) Sl 0 e) R) as [Q _].
        discriminate. }
      pose proof (raw_lines_spec src) as Sl; set (ls := raw_lines src) in Sl. exfalso. exact (X ls Sl).
    + destruct M as [_ M]. rewrite M in St. discriminate.
  - intros (pr & Sr & Cl & Lk). destruct (Fi pr Sr) as [Ft Sz].
    destruct (top_session_complete p [src] pr Bs Sr Cl Sz) as (a & S0 & _).
    pose proof (proj1 (session_one p src a) S0) as R. rewrite R in M. destruct M as [_ M]. rewrite M.
    rewrite (proj2 (top_C52_written p h [src] a pr Bs Zs S0 Sr Ft) Lk). reflexivity.
Qed.
Lemma top_C64_file p h args w cf i o src pr : config_init args = Done cf -> w_slot w (cf_input cf) = Some i ->
  w_data w i = Some src -> w_slot w (cf_output cf) = Some o -> i <> o -> bytes_ok src -> ~ In 0 src ->
  sources_are p [src] pr -> fits (object_of pr) -> small pr -> zlen (syms (object_of pr)) <= 2 ^ 24 ->
  status (snd (main p h args w)) = 0 ->
  exists f, w_data (fst (main p h args w)) o = Some f /\ forall loc,
    (forall n, lookup h f loc n = if is_global pr n then label_addr loc pr n else None) /\
    (forall s, s <> SBss -> out_bytes (during s SText pr) <> [] ->
      exists bss, Forall2 (linked_stmt (label_addr loc pr)) (during s SText pr) bss /\ link h f loc (ordinal pr s) = Some (concat bss)).
Proof.
  intros C I D O N B Z0 Sr Ft Sm Ls St. pose proof (top_C54_output p h args w cf i o src C I D O N) as M.
  assert (Bs : Forall bytes_ok [src]) by (constructor; [exact B|constructor]).
  assert (Zs : Forall (fun i => ~ In 0 i) [src]) by (constructor; [exact Z0|constructor]).
  destruct (read_from p asm_new src) as [a|c e|] eqn:R.
  - destruct M as [Mo M]. apply session_one in R. destruct (asm_write_into p h a) as [f ok] eqn:Ew. cbn [fst snd] in *.
    destruct ok; [|rewrite M in St; discriminate]. exists f. split; [exact Mo|]. intro loc. split.
    + intro n. eapply top_C62; eassumption.
    + intros s Ns E. eapply top_C61; eassumption.
  - exfalso. destruct M as [_ M]. rewrite M in St. cbn [status] in St. subst c. pose proof (raw_lines_spec src) as Sl; set (ls := raw_lines src) in Sl.
    destruct (proj1 (top_exit p [] asm_new [] src ls (Forall_nil _) B (ses_new p) ltac:(exists []; split; [constructor|reflexivity]) Sl 0 e) R) as [Q _].
    discriminate.
  - exfalso. destruct M as [_ M]. rewrite M in St. discriminate.
Qed.

(** ** Names defined twice or not at all *)
Lemma find_some_in {A} (g : A -> bool) l x : find g l = Some x -> In x l /\ g x = true.
Proof. apply find_some. Qed.
(** a name means its first label in .text, or its first in .data if .text has none *)
Lemma top_C65 loc pr n : let text := during SText SText pr in let data := during SData SText pr in
  (forall l1 x l2, text = l1 ++ x :: l2 -> out_bytes text <> [] -> stmt_label (fst x) = Some n ->
     (forall y, In y l1 -> stmt_label (fst y) <> Some n) -> label_addr loc pr n = Some (loc 1 + zlen (out_bytes l1))) /\
  (forall l1 x l2, data = l1 ++ x :: l2 -> out_bytes data <> [] -> stmt_label (fst x) = Some n ->
     (forall y, In y text -> out_bytes text <> [] -> stmt_label (fst y) <> Some n) -> (forall y, In y l1 -> stmt_label (fst y) <> Some n) ->
     label_addr loc pr n = Some (loc (ordinal pr SData) + zlen (out_bytes l1))) /\
  ((forall y, In y text -> stmt_label (fst y) <> Some n) -> (forall y, In y data -> stmt_label (fst y) <> Some n) -> label_addr loc pr n = None).
Proof.
  intros text data.
  assert (No : forall k off l m v, (forall y, In y l -> stmt_label (fst y) <> Some n) ->
     In (m, v) (map (fun x => (fst x, loc k + snd x)) (out_labels off l)) -> str_eqb m n = false).
  { intros k off l m v H I. apply in_map_iff in I. destruct I as ([m' o'] & Em & I). cbn [fst snd] in Em. injection Em as <- <-.
    destruct (out_labels_in _ _ _ _ I) as (y & Iy & Ly & _). destruct (str_eqb m' n) eqn:Es; [|reflexivity].
    apply str_eqb_eq in Es. subst m'. exfalso. exact (H y Iy Ly). }
  split; [intros; eapply text_label_addr; eassumption|]. split.
  - intros l1 x l2 E B L Nt N1. unfold label_addr, labels_at. rewrite find_app_none.
    + unfold sect_labels. fold data. destruct (out_bytes data) as [|b0 bs0] eqn:Eb; [congruence|]. rewrite E, out_labels_app, map_app.
      rewrite find_app_none.
      * destruct x as [st bs]. cbn [out_labels fst] in *. rewrite L. cbn [app map find fst snd]. rewrite str_eqb_refl. reflexivity.
      * intros [m v] I. eapply No; [exact N1|exact I].
    + intros [m v] I. unfold sect_labels in I. fold text in I. destruct (out_bytes text) as [|b0 bs0] eqn:Eb; [destruct I|].
      eapply No; [|exact I]. intros y Iy. apply Nt; [exact Iy|discriminate].
  - intros Nt Nd. unfold label_addr, labels_at. rewrite find_app_none.
    + rewrite <- (app_nil_r (sect_labels loc pr SData)). rewrite find_app_none; [reflexivity|].
      intros [m v] I. unfold sect_labels in I. fold data in I. destruct (out_bytes data); [destruct I|]. eapply No; [exact Nd|exact I].
    + intros [m v] I. unfold sect_labels in I. fold text in I. destruct (out_bytes text); [destruct I|]. eapply No; [exact Nt|exact I].
Qed.
Lemma top_C66 p h ins a pr f loc n : Forall bytes_ok ins -> Forall (fun i => ~ In 0 i) ins -> session p ins a -> sources_are p ins pr ->
  fits (object_of pr) -> asm_write_into p h a = (f, true) ->
  (lookup h f loc n = None <-> is_global pr n = false \/ ~ written_label pr n).
Proof.
  intros B N S0 Sr F Wr. rewrite (top_C62 p h ins a pr f loc n B N S0 Sr F Wr).
  assert (Q : label_addr loc pr n = None <-> ~ written_label pr n).
  { unfold written_label. rewrite <- names_of. unfold label_addr.
    assert (E : names (object_of pr) = map fst (labels_at loc pr)).
    { rewrite <- syms_labels, map_map. unfold names. apply map_ext. intros [[k a0] y]. reflexivity. }
    rewrite E. destruct (find (fun x => str_eqb (fst x) n) (labels_at loc pr)) as [[m v]|] eqn:Fd; cbn [option_map].
    - apply find_some in Fd. destruct Fd as [I Es]. cbn [fst] in Es. apply str_eqb_eq in Es. subst m. split; [discriminate|].
      intro H. exfalso. apply H. apply in_map_iff. exists (n, v). auto.
    - split; [|reflexivity]. intros _ I. apply in_map_iff in I. destruct I as ([m v] & <- & I).
      pose proof (find_none _ _ Fd _ I) as X. cbn [fst] in X. rewrite str_eqb_refl in X. discriminate. }
  destruct (is_global pr n); [rewrite Q|]; split; intro H; auto; try (destruct H as [H|H]; [discriminate|exact H]).
Qed.
