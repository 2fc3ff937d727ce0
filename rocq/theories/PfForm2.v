(** Which objects sources can give. *)
From Coq Require String.
Import String.StringSyntax.
From Coq Require Import ZifyBool ZifyNat Sorted.
From Verif Require Import Base Str X64 SpecX86 Obj Asm SpecAsm SpecDiag Assembler SpecRun SpecForm
  PfStr PfTok PfX64 PfX86 PfX64Top PfBytes PfAsm PfData PfLine PfLine2 PfDiag PfRun PfRun2 PfRun3 PfRun4 PfRun5 PfEnd PfWhole PfMeta PfBoth PfForm.

(** ** Every assembled object has the shape *)

Lemma zlen_app {A} (a b : list A) : zlen (a ++ b) = zlen a + zlen b.
Proof. unfold zlen. rewrite app_length. lia. Qed.
Lemma zlen_nonneg {A} (a : list A) : 0 <= zlen a.
Proof. unfold zlen. lia. Qed.
Lemma out_bytes_app a b : out_bytes (a ++ b) = out_bytes a ++ out_bytes b.
Proof. unfold out_bytes. apply flat_map_app. Qed.

Lemma label_split l : forall off n a, In (n, a) (out_labels off l) ->
  exists l1 st bs l2, l = l1 ++ (st, bs) :: l2 /\ stmt_label st = Some n /\ a = off + zlen (out_bytes l1).
Proof.
  induction l as [|[st bs] l IH]; intros off n a I; cbn [out_labels] in I; [destruct I|].
  apply in_app_or in I. destruct I as [I|I].
  - destruct (stmt_label st) as [m|] eqn:E; [|destruct I]. destruct I as [I|[]]. injection I as <- <-.
    exists [], st, bs, l. cbn. repeat split; [exact E|unfold zlen; cbn; lia].
  - destruct (IH _ _ _ I) as (l1 & st' & bs' & l2 & -> & E & ->). exists ((st, bs) :: l1), st', bs', l2.
    split; [reflexivity|]. split; [exact E|]. cbn [out_bytes flat_map snd]. rewrite zlen_app. unfold out_bytes. lia.
Qed.
Lemma reloc_split l : forall off n k a, In (n, k, a) (out_relocs off l) ->
  exists l1 st bs l2, l = l1 ++ (st, bs) :: l2 /\ stmt_reloc st = Some (n, k) /\ a = off + zlen (out_bytes l1) + zlen bs - 2 ^ k.
Proof.
  induction l as [|[st bs] l IH]; intros off n k a I; cbn [out_relocs] in I; [destruct I|].
  apply in_app_or in I. destruct I as [I|I].
  - destruct (stmt_reloc st) as [[m j]|] eqn:E; [|destruct I]. destruct I as [I|[]]. injection I as <- <- <-.
    exists [], st, bs, l. cbn. repeat split; [exact E|unfold zlen; cbn; lia].
  - destruct (IH _ _ _ _ I) as (l1 & st' & bs' & l2 & -> & E & ->). exists ((st, bs) :: l1), st', bs', l2.
    split; [reflexivity|]. split; [exact E|]. cbn [out_bytes flat_map snd]. rewrite zlen_app. unfold out_bytes. lia.
Qed.
(** a reference as a triple: where its instruction starts and ends *)
Definition tstart (x : str * Z * Z) : Z := snd x - (if snd (fst x) =? 3 then 2 else 1).
Definition tend (x : str * Z * Z) : Z := snd x + 2 ^ snd (fst x).
Definition as_reloc (x : str * Z * Z) : reloc :=
  {| rl_addr := snd x; rl_symbol := fst (fst x); rl_pcrel := false; rl_len := snd (fst x) |}.

Lemma sym_bytes st bs n k : sayable st -> stmt_bytes st bs -> stmt_reloc st = Some (n, k) ->
  exists pre op, bs = pre ++ op ++ repeat 0 (Z.to_nat (2 ^ k)) /\ zlen op = (if k =? 3 then 2 else 1) /\
    (k = 3 /\ operand_name name64 n /\ (exists rex c, op = [rex; c] /\ (rex = 0x48 \/ rex = 0x49) /\ 0xB8 <= c <= 0xBF) \/
     k = 2 /\ operand_name name32 n /\ (exists c, op = [c] /\ 0xB8 <= c <= 0xBF)).
Proof.
  intros S B E. destruct st; cbn in E; try discriminate E; injection E as <- <-; cbn [stmt_bytes sayable] in *.
  - destruct (mov64_bytes _ _ B) as (rex & c & -> & R & C). exists [], [rex; c]. split; [reflexivity|]. split; [reflexivity|].
    left. split; [reflexivity|]. split; [exact S|]. exists rex, c. tauto.
  - destruct (mov32_bytes _ _ B) as (pre & c & -> & R & C). exists pre, [c]. split; [reflexivity|]. split; [reflexivity|].
    right. split; [reflexivity|]. split; [exact S|]. exists c. tauto.
Qed.
Lemma pow_cases k : k = 3 \/ k = 2 -> 2 ^ k = (if k =? 3 then 8 else 4).
Proof. intros [->| ->]; reflexivity. Qed.

Lemma sym_facts l n k a : writable l -> In (n, k, a) (out_relocs 0 l) ->
  mov_at (out_bytes l) (as_reloc (n, k, a)) /\ (k = 3 \/ k = 2) /\
  exists l1 st bs l2, l = l1 ++ (st, bs) :: l2 /\ stmt_reloc st = Some (n, k) /\
    zlen (out_bytes l1) <= tstart (n, k, a) /\ tend (n, k, a) = zlen (out_bytes l1) + zlen bs.
Proof.
  intros W I. destruct (reloc_split _ _ _ _ _ I) as (l1 & st & bs & l2 & -> & E & ->).
  unfold writable in W. apply Forall_app in W. destruct W as [_ W]. inversion W as [|? ? [S B] _]; subst. cbn [fst snd] in *.
  destruct (sym_bytes _ _ _ _ S B E) as (pre & op & Eb & Lo & C).
  assert (K : k = 3 \/ k = 2) by (destruct C as [(-> & _)|(-> & _)]; tauto).
  assert (Lb : zlen bs = zlen pre + (if k =? 3 then 2 else 1) + 2 ^ k).
  { rewrite Eb, !zlen_app, Lo. unfold zlen at 2. rewrite repeat_length. destruct K as [->| ->]; reflexivity || lia. }
  split; [|split; [exact K|]].
  - split; [reflexivity|]. unfold as_reloc. cbn [rl_addr rl_len rl_symbol fst snd].
    exists (out_bytes l1 ++ pre), op, (out_bytes l2). split.
    + rewrite out_bytes_app. change ((st, bs) :: l2) with ([(st, bs)] ++ l2). rewrite out_bytes_app.
      replace (out_bytes [(st, bs)]) with bs by (cbn; now rewrite app_nil_r). rewrite Eb, <- !app_assoc. reflexivity.
    + split; [|exact C]. rewrite !zlen_app, Lo. lia.
  - exists l1, st, bs, l2. split; [reflexivity|]. split; [exact E|]. unfold tstart, tend. cbn [fst snd].
    pose proof (zlen_nonneg pre). lia.
Qed.
Lemma labels_sorted l : forall off, Forall (fun x => off <= snd x <= off + zlen (out_bytes l)) (out_labels off l) /\
  StronglySorted (fun x y => snd x <= snd y) (out_labels off l).
Proof.
  induction l as [|[st bs] l IH]; intro off; cbn [out_labels]; [split; constructor|].
  destruct (IH (off + zlen bs)) as [F S]. cbn [out_bytes flat_map snd]. fold (out_bytes l). rewrite zlen_app.
  pose proof (zlen_nonneg bs). pose proof (zlen_nonneg (out_bytes l)).
  assert (F' : Forall (fun x => off <= snd x <= off + (zlen bs + zlen (out_bytes l))) (out_labels (off + zlen bs) l))
    by (eapply Forall_impl; [|exact F]; cbn; lia).
  destruct (stmt_label st); cbn [app]; [|split; assumption]. split; constructor; try assumption; [cbn; lia|].
  eapply Forall_impl; [|exact F]. cbn. lia.
Qed.
Lemma relocs_sorted l : writable l -> forall off, Forall (fun x => off <= tstart x) (out_relocs off l) /\
  StronglySorted (fun x y => tend x <= tstart y) (out_relocs off l).
Proof.
  induction l as [|[st bs] l IH]; intros W off; cbn [out_relocs]; [split; constructor|].
  inversion W as [|? ? [S B] W']; subst. cbn [fst snd] in *. destruct (IH W' (off + zlen bs)) as [F So]. pose proof (zlen_nonneg bs).
  assert (F' : Forall (fun x => off <= tstart x) (out_relocs (off + zlen bs) l)) by (eapply Forall_impl; [|exact F]; cbn; lia).
  destruct (stmt_reloc st) as [[n k]|] eqn:E; cbn [app]; [|split; assumption].
  destruct (sym_bytes _ _ _ _ S B E) as (pre & op & Eb & Lo & C).
  assert (K : k = 3 \/ k = 2) by (destruct C as [(-> & _)|(-> & _)]; tauto).
  assert (Lb : zlen bs = zlen pre + (if k =? 3 then 2 else 1) + 2 ^ k).
  { rewrite Eb, !zlen_app, Lo. unfold zlen at 2. rewrite repeat_length. destruct K as [->| ->]; reflexivity || lia. }
  pose proof (zlen_nonneg pre). split; constructor; try assumption.
  - unfold tstart. cbn [fst snd]. lia.
  - eapply Forall_impl; [|exact F]. intros x Hx. unfold tend. cbn [fst snd]. cbv beta in Hx. lia.
Qed.

Lemma app_compare {A} (a : list A) x b c y d : a ++ x :: b = c ++ y :: d ->
  (exists e, c = a ++ e) \/ (exists e, a = c ++ y :: e).
Proof.
  revert c. induction a as [|z a IH]; intros c E; [left; now exists c|].
  destruct c as [|w c]; cbn [app] in E; injection E as -> E.
  - right. now exists a.
  - destruct (IH c E) as [(e & ->)|(e & ->)]; [left|right]; now exists e.
Qed.
Lemma label_clear l n a m k b : writable l -> In (n, a) (out_labels 0 l) -> In (m, k, b) (out_relocs 0 l) ->
  a <= tstart (m, k, b) \/ tend (m, k, b) <= a.
Proof.
  intros W I J. destruct (label_split _ _ _ _ I) as (l1 & st & bs & l2 & E1 & _ & ->).
  destruct (sym_facts _ _ _ _ W J) as (_ & _ & k1 & st' & bs' & k2 & E2 & _ & B1 & B2). rewrite E1 in E2.
  apply app_compare in E2. destruct E2 as [(e & ->)|(e & ->)].
  - left. rewrite out_bytes_app, zlen_app in B1. pose proof (zlen_nonneg (out_bytes e)). lia.
  - right. rewrite B2, out_bytes_app. change ((st', bs') :: e) with ([(st', bs')] ++ e). rewrite out_bytes_app, !zlen_app.
    replace (out_bytes [(st', bs')]) with bs' by (cbn; now rewrite app_nil_r). pose proof (zlen_nonneg (out_bytes e)). lia.
Qed.

Lemma writable_during pr s cur : writable pr -> writable (during s cur pr).
Proof.
  unfold writable. revert cur. induction pr as [|[st bs] pr IH]; intros cur W; [constructor|]. inversion W; subst.
  cbn [during]. destruct st; try (apply Forall_app; split; [destruct (sect_eqb s cur); constructor; auto|now apply IH]). now apply IH.
Qed.
Lemma label_sayable l n a off : writable l -> In (n, a) (out_labels off l) -> label_name n.
Proof.
  intros W I. destruct (label_split _ _ _ _ I) as (l1 & st & bs & l2 & -> & E & _).
  unfold writable in W. apply Forall_app in W. destruct W as [_ W]. inversion W as [|? ? [S _] _]; subst. cbn [fst] in S.
  destruct st; cbn in E; try discriminate E; [injection E as ->; exact S|]. subst label. apply S.
Qed.
Lemma writable_bytes l : writable l -> bytes_ok (out_bytes l).
Proof.
  unfold writable, bytes_ok, out_bytes. intro W. apply Forall_flat_map. eapply Forall_impl; [|exact W]. intros [st bs] [S B]. cbn [fst snd] in *.
  destruct (spells_ex st S) as (s & Sp). destruct (spells_accepts Debug st s S Sp) as [A L]. eapply accepts_bytes; [exact A| |exact B].
  apply (line_chars_one s L).
Qed.
Lemma StronglySorted_map {A B} (f : A -> B) (P : A -> A -> Prop) (Q : B -> B -> Prop) l :
  (forall x y, P x y -> Q (f x) (f y)) -> StronglySorted P l -> StronglySorted Q (map f l).
Proof.
  intros H S. induction S as [|x l S IH F]; cbn [map]; constructor; [exact IH|]. apply Forall_map. eapply Forall_impl; [|exact F]. auto.
Qed.
Lemma reloc_addr l x : writable l -> zlen (out_bytes l) < 2 ^ 31 -> In x (out_relocs 0 l) -> as_i32 (snd x) = snd x.
Proof.
  intros W L I. destruct x as [[n k] a]. destruct (sym_facts _ _ _ _ W I) as (_ & K & l1 & st & bs & l2 & -> & _ & B1 & B2).
  rewrite out_bytes_app in L. change ((st, bs) :: l2) with ([(st, bs)] ++ l2) in L. rewrite out_bytes_app, !zlen_app in L.
  replace (out_bytes [(st, bs)]) with bs in L by (cbn; now rewrite app_nil_r).
  pose proof (zlen_nonneg (out_bytes l1)). pose proof (zlen_nonneg (out_bytes l2)). unfold tstart, tend in *. cbn [fst snd] in *.
  assert (0 < 2 ^ k) by (destruct K as [->| ->]; reflexivity).
  unfold as_i32. rewrite Z.mod_small; [lia|]. destruct (k =? 3); lia.
Qed.
Lemma section_shaped pr s : writable pr -> zlen (out_bytes (during s SText pr)) < 2 ^ 31 -> section_shape (sec_of pr s).
Proof.
  intros W L. pose proof (writable_during pr s SText W) as Wl. set (l := during s SText pr) in *.
  assert (R : bs_relocs (sec_of pr s) = map as_reloc (out_relocs 0 l)).
  { cbn. apply map_ext_in. intros x I. unfold as_reloc. now rewrite (reloc_addr l x Wl L I). }
  unfold section_shape. rewrite R. cbn [sec_of bs_bytes bs_symbols]. fold l.
  split; [now apply writable_bytes|]. split; [|split; [|split]].
  - apply Forall_map, Forall_forall. intros [[n k] a] I. apply (sym_facts l n k a Wl I).
  - eapply StronglySorted_map; [|exact (proj2 (relocs_sorted l Wl 0))]. intros x y H. exact H.
  - apply Forall_map, Forall_forall. intros [n a] I. cbn [fst snd label_at]. split; [eapply label_sayable; eassumption|]. split.
    + pose proof (proj1 (labels_sorted l 0)) as F. rewrite Forall_forall in F. apply F in I. cbn in I. lia.
    + apply Forall_map, Forall_forall. intros [[m k] b] J. exact (label_clear l n a m k b Wl I J).
  - eapply StronglySorted_map; [|exact (proj2 (labels_sorted l 0))]. intros x y H. exact H.
Qed.
Lemma clean_bytes pr : wf pr -> bss_clean pr -> out_bytes (during SBss SText pr) = [].
Proof.
  intros W C. unfold bss_clean in C. pose proof (wf_during SBss SText pr W) as F. revert C F.
  generalize (during SBss SText pr). intro l. induction l as [|[st bs] l IH]; intros C F; [reflexivity|].
  inversion C as [|? ? C1 C2]; subst. inversion F as [|? ? F1 F2]; subst. cbn [fst snd] in *.
  cbn [out_bytes flat_map snd]. fold (out_bytes l). rewrite (IH C2 F2). destruct st; try discriminate C1; cbn in F1; now subst bs.
Qed.
Lemma global_sayable pr n : writable pr -> In n (globals pr) -> n <> [].
Proof.
  intros W I. unfold globals in I. apply in_flat_map in I. destruct I as ([st bs] & J & I). unfold writable in W. rewrite Forall_forall in W.
  destruct (W _ J) as [S _]. cbn [fst] in *. destruct st; try contradiction; destruct I as [<-|[]]. apply S.
Qed.
Lemma top_C89_shape p o : assembles p o -> zlen (bs_bytes (o_text o)) < 2 ^ 31 -> zlen (bs_bytes (o_data o)) < 2 ^ 31 -> producible o.
Proof.
  intros (input & a & B & R & <-) L1 L2.
  destruct (top_session p [input] a (Forall_cons _ B (Forall_nil _)) (proj2 (session_one p input a) R)) as (pr & Sr & Cl & As).
  apply sources_one in Sr. pose proof (source_writable _ _ _ Sr) as W. rewrite (proj1 As) in *. clear As.
  assert (Wf : wf pr) by (unfold wf, writable in *; eapply Forall_impl; [|exact W]; cbn; tauto).
  split; [now apply section_shaped|]. split; [now apply section_shaped|]. split; [reflexivity|]. split.
  - cbn. apply Forall_map, Forall_forall. intros [n a'] I. cbn [fst snd label_at]. split; [eapply label_sayable; [|exact I]; now apply writable_during|].
    split; [|constructor]. pose proof (proj1 (labels_sorted (during SBss SText pr) 0)) as F. rewrite Forall_forall in F. apply F in I.
    rewrite (clean_bytes pr Wf Cl) in I. cbn in I. lia.
  - exists (is_global pr). split.
    + destruct (is_global pr []) eqn:G; [|reflexivity]. apply is_global_in in G. now apply (global_sayable pr [] W) in G.
    + unfold every_symbol. cbn. rewrite !Forall_app. repeat split; apply Forall_map, Forall_forall; intros x _; reflexivity.
Qed.

(** ** Every object of that shape is assembled *)

Lemma mov64_ex rex c : rex = 0x48 \/ rex = 0x49 -> 0xB8 <= c <= 0xBF -> exists r, emits (MovRI64 r 0) ([rex; c] ++ repeat 0 8).
Proof.
  intros R C. assert (K : exists r, [rex; c] ++ repeat 0 8 = instr_bytes (MovRI64 r 0)).
  { assert (D : c = 0xB8 \/ c = 0xB9 \/ c = 0xBA \/ c = 0xBB \/ c = 0xBC \/ c = 0xBD \/ c = 0xBE \/ c = 0xBF) by lia.
    destruct R as [->| ->]; decompose [or] D; subst c.
    1: exists RAX. 2: exists RCX. 3: exists RDX. 4: exists RBX. 5: exists RSP. 6: exists RBP. 7: exists RSI. 8: exists RDI.
    9: exists R8. 10: exists R9. 11: exists R10. 12: exists R11. 13: exists R12. 14: exists R13. 15: exists R14. 16: exists R15.
    all: vm_compute; reflexivity. }
  destruct K as (r & ->). exists r. apply emits_bytes; [split; [lia|reflexivity]|exact I].
Qed.
Lemma mov32_ex c : 0xB8 <= c <= 0xBF -> exists r, emits (MovRI32 r 0) ([c] ++ repeat 0 4).
Proof.
  intro C. assert (K : exists r, [c] ++ repeat 0 4 = instr_bytes (MovRI32 r 0)).
  { assert (D : c = 0xB8 \/ c = 0xB9 \/ c = 0xBA \/ c = 0xBB \/ c = 0xBC \/ c = 0xBD \/ c = 0xBE \/ c = 0xBF) by lia.
    decompose [or] D; subst c.
    1: exists EAX. 2: exists ECX. 3: exists EDX. 4: exists EBX. 5: exists ESP. 6: exists EBP. 7: exists ESI. 8: exists EDI.
    all: vm_compute; reflexivity. }
  destruct K as (r & ->). exists r. apply emits_bytes; [split; [lia|reflexivity]|exact I].
Qed.
Ltac nums := change (zlen (repeat 0 (Z.to_nat (2 ^ 3)))) with 8 in *; change (zlen (repeat 0 (Z.to_nat (2 ^ 2)))) with 4 in *;
  change (2 ^ 3) with 8 in *; change (2 ^ 2) with 4 in *; change (3 =? 3) with true in *; change (2 =? 3) with false in *; cbv iota in *;
  repeat match goal with
    | |- context [zlen [?a; ?b]] => change (zlen [a; b]) with 2
    | |- context [zlen [?a]] => change (zlen [a]) with 1
    | H : context [zlen [?a; ?b]] |- _ => change (zlen [a; b]) with 2 in H
    | H : context [zlen [?a]] |- _ => change (zlen [a]) with 1 in H
    end.
(** the reference [x] in [B], which starts at [off] *)
Definition mov_in (off : Z) (B : list Z) (x : str * Z * Z) : Prop :=
  exists pre op post, B = pre ++ op ++ repeat 0 (Z.to_nat (2 ^ snd (fst x))) ++ post /\ snd x = off + zlen pre + zlen op /\
    (snd (fst x) = 3 /\ operand_name name64 (fst (fst x)) /\
       (exists rex c, op = [rex; c] /\ (rex = 0x48 \/ rex = 0x49) /\ 0xB8 <= c <= 0xBF) \/
     snd (fst x) = 2 /\ operand_name name32 (fst (fst x)) /\ (exists c, op = [c] /\ 0xB8 <= c <= 0xBF)).
Lemma prefix_of {A} (a b c d : list A) : a ++ b = c ++ d -> zlen a <= zlen c -> exists e, c = a ++ e /\ b = e ++ d.
Proof.
  revert c. induction a as [|x a IH]; intros c E L; [now exists c|].
  destruct c as [|y c]; [unfold zlen in L; cbn [length] in L; lia|]. cbn [app] in E. injection E as -> E.
  destruct (IH c E) as (e & -> & ->); [unfold zlen in *; cbn [length] in L; lia|]. now exists e.
Qed.
Lemma mov_span off B x : mov_in off B x -> off <= tstart x /\ tstart x + 5 <= tend x /\ tend x <= off + zlen B.
Proof.
  intros (pre & op & post & -> & E & C). unfold tstart, tend. pose proof (zlen_nonneg pre). pose proof (zlen_nonneg post).
  rewrite !zlen_app. destruct C as [(K & _ & rex & c & -> & _)|(K & _ & c & -> & _)]; rewrite K, E; nums; lia.
Qed.
Lemma mov_shift off B1 B2 x : mov_in off (B1 ++ B2) x -> off + zlen B1 <= tstart x -> mov_in (off + zlen B1) B2 x.
Proof.
  intros (pre & op & post & Eb & E & C) L.
  assert (L' : zlen B1 <= zlen pre).
  { unfold tstart in L. destruct C as [(K & _ & rex & c & -> & _)|(K & _ & c & -> & _)]; rewrite K, E in L; nums; lia. }
  destruct (prefix_of _ _ _ _ Eb L') as (e & -> & ->). exists e, op, post. split; [reflexivity|]. split; [|exact C].
  rewrite E, zlen_app. lia.
Qed.
Lemma split_at {A} (l : list A) n : 0 <= n <= zlen l -> exists a b, l = a ++ b /\ zlen a = n.
Proof.
  intro H. exists (firstn (Z.to_nat n) l), (skipn (Z.to_nat n) l). split; [symmetry; apply firstn_skipn|].
  unfold zlen in *. rewrite firstn_length. lia.
Qed.
Definition plain (l : prog) : Prop := Forall (fun x => match fst x with StSection _ | StGlobal _ => False | _ => True end) l.
Definition label_fits (off n : Z) (R : list (str * Z * Z)) (x : str * Z) : Prop :=
  label_name (fst x) /\ off <= snd x <= off + n /\ Forall (fun r => snd x <= tstart r \/ tend r <= snd x) R.

Lemma build n : forall L R B off, (length L + length R = n)%nat -> bytes_ok B ->
  Forall (label_fits off (zlen B) R) L -> StronglySorted (fun x y => snd x <= snd y) L ->
  Forall (mov_in off B) R -> StronglySorted (fun x y => tend x <= tstart y) R ->
  exists l, writable l /\ plain l /\ out_bytes l = B /\ out_labels off l = L /\ out_relocs off l = R /\
    zlen l = 2 * zlen L + 2 * zlen R + 1 /\ 5 * zlen R <= zlen B.
Proof.
  induction n as [|n IH]; intros L R B off En Ob FL SL FR SR.
  - destruct L; [|cbn in En; lia]. destruct R; [|cbn in En; lia]. exists [(StData None B, B)]. cbn.
    split; [constructor; [cbn; split; [split; [exact Ob|exact I]|reflexivity]|constructor]|].
    split; [constructor; [exact I|constructor]|]. rewrite app_nil_r. repeat split. unfold zlen. cbn. lia.
  - assert (Pick : (exists x L', L = x :: L' /\ Forall (fun r => snd x <= tstart r) R) \/
                   (exists r R', R = r :: R' /\ Forall (fun x => tend r <= snd x) L)).
    { destruct L as [|x L]; [right; destruct R as [|r R]; [cbn in En; lia|]; exists r, R; split; [reflexivity|constructor]|].
      destruct R as [|r R]; [left; exists x, L; split; [reflexivity|constructor]|].
      inversion SR as [|? ? SR' FRr]; subst. inversion SL as [|? ? SL' FLx]; subst.
      pose proof (Forall_inv FL) as (_ & _ & Cl). pose proof (Forall_inv Cl) as Cr. cbv beta in Cr.
      destruct (mov_span _ _ _ (Forall_inv FR)) as (_ & Hs & _). destruct Cr as [Cr|Cr].
      - left. exists x, L. split; [reflexivity|]. constructor; [exact Cr|]. eapply Forall_impl; [|exact FRr]. cbv beta. intros; lia.
      - right. exists r, R. split; [reflexivity|]. constructor; [exact Cr|]. eapply Forall_impl; [|exact FLx]. cbv beta. intros; lia. }
    destruct Pick as [(x & L' & -> & Fx)|(r & R' & -> & Fr)].
    + inversion FL as [|? ? (Nx & Bx & _) FL']; subst. inversion SL as [|? ? SL' FLx]; subst.
      destruct (split_at B (snd x - off)) as (B1 & B2 & -> & L1); [lia|].
      unfold bytes_ok in Ob. apply Forall_app in Ob. destruct Ob as [O1 O2].
      destruct (IH L' R B2 (snd x)) as (l & W & P & E1 & E2 & E3 & E4 & E5).
      * cbn in En. lia.
      * exact O2.
      * apply Forall_forall. intros y Iy. rewrite Forall_forall in FL', FLx. destruct (FL' y Iy) as (N & B' & C). specialize (FLx y Iy). cbv beta in FLx.
        rewrite zlen_app in B'. split; [exact N|]. split; [lia|exact C].
      * exact SL'.
      * apply Forall_forall. intros r Ir. rewrite Forall_forall in FR, Fx. specialize (FR r Ir). specialize (Fx r Ir). cbv beta in Fx.
        replace (snd x) with (off + zlen B1) by lia. apply mov_shift; [exact FR|lia].
      * exact SR.
      * exists ((StData None B1, B1) :: (StLabel (fst x), []) :: l). split; [|split; [|split; [|split; [|split; [|split]]]]].
        -- constructor; [cbn; split; [split; [exact O1|exact I]|reflexivity]|]. constructor; [cbn; split; [exact Nx|reflexivity]|exact W].
        -- constructor; [exact I|]. constructor; [exact I|exact P].
        -- cbn [out_bytes flat_map snd app]. fold (out_bytes l). now rewrite E1.
        -- cbn [out_labels stmt_label app]. replace (off + zlen B1 + zlen []) with (snd x) by (unfold zlen at 2; cbn; lia).
           rewrite E2. replace (off + zlen B1) with (snd x) by lia. now destruct x.
        -- cbn [out_relocs stmt_reloc app]. replace (off + zlen B1 + zlen []) with (snd x) by (unfold zlen at 2; cbn; lia). exact E3.
        -- unfold zlen in *. cbn [length]. lia.
        -- rewrite zlen_app. pose proof (zlen_nonneg B1). lia.
    + inversion FR as [|? ? Mr FR']; subst. inversion SR as [|? ? SR' FRr]; subst. pose proof (mov_span _ _ _ Mr) as (S1 & S2 & S3).
      destruct Mr as (pre & op & post & -> & E & C).
      set (z := repeat 0 (Z.to_nat (2 ^ snd (fst r)))) in *.
      assert (Lt : off + zlen (pre ++ op ++ z) = tend r).
      { unfold tend, z. rewrite !zlen_app.
        destruct C as [(K & _)|(K & _)]; rewrite K, E; nums; lia. }
      replace (pre ++ op ++ z ++ post) with ((pre ++ op ++ z) ++ post) in * by (now rewrite <- !app_assoc).
      unfold bytes_ok in Ob. apply Forall_app in Ob. destruct Ob as [O1 O2]. apply Forall_app in O1. destruct O1 as [O1 _].
      destruct (IH L R' post (tend r)) as (l & W & P & E1 & E2 & E3 & E4 & E5).
      * cbn in En. lia.
      * exact O2.
      * apply Forall_forall. intros y Iy. rewrite Forall_forall in FL, Fr. destruct (FL y Iy) as (N & B' & Cy). specialize (Fr y Iy). cbv beta in Fr.
        rewrite zlen_app in B'. split; [exact N|]. split; [lia|]. now inversion Cy.
      * exact SL.
      * apply Forall_forall. intros x Ix. rewrite Forall_forall in FR', FRr. specialize (FR' x Ix). specialize (FRr x Ix). cbv beta in FRr.
        rewrite <- Lt. apply mov_shift; [exact FR'|lia].
      * exact SR'.
      * assert (St : exists st, sayable st /\ stmt_bytes st (op ++ z) /\ stmt_reloc st = Some (fst r) /\ stmt_label st = None /\
          match st with StSection _ | StGlobal _ => False | _ => True end).
        { destruct r as [[m k] a]. cbn [fst snd] in *. destruct C as [(-> & N & rex & c & -> & R & Cc)|(-> & N & c & -> & Cc)].
          - destruct (mov64_ex rex c R Cc) as (g & G). exists (StMovSym64 g m). repeat split; try apply N. exact G.
          - destruct (mov32_ex c Cc) as (g & G). exists (StMovSym32 g m). repeat split; try apply N. exact G. }
        destruct St as (st & Sa & Sb & Sr & Sl & Sp).
        exists ((StData None pre, pre) :: (st, op ++ z) :: l). split; [|split; [|split; [|split; [|split; [|split]]]]].
        -- constructor; [cbn; split; [split; [exact O1|exact I]|reflexivity]|]. constructor; [cbn; split; assumption|exact W].
        -- constructor; [exact I|]. constructor; [exact Sp|exact P].
        -- cbn [out_bytes flat_map snd app]. fold (out_bytes l). rewrite E1. now rewrite <- !app_assoc.
        -- cbn [out_labels app]. rewrite Sl. cbn [stmt_label app]. rewrite zlen_app in Lt. replace (off + zlen pre + zlen (op ++ z)) with (tend r) by lia. exact E2.
        -- cbn [out_relocs stmt_reloc app]. rewrite Sr. rewrite zlen_app in Lt. replace (off + zlen pre + zlen (op ++ z)) with (tend r) by lia. rewrite E3.
           destruct r as [[m k] a]. unfold tend in *. cbn [fst snd app] in *. do 2 f_equal. lia.
        -- unfold zlen in *. cbn [length]. lia.
        -- rewrite (zlen_app (pre ++ op ++ z)). replace (zlen (r :: R')) with (1 + zlen R') by (unfold zlen; cbn [length]; lia). lia.
Qed.

Lemma during_plain s cur l rest : plain l -> during s cur (l ++ rest) = (if sect_eqb s cur then l else []) ++ during s cur rest.
Proof.
  intro P. induction P as [|[st bs] l H P IH]; [now destruct (sect_eqb s cur)|]. cbn [fst] in H. cbn [app during].
  destruct st; try contradiction; rewrite IH; destruct (sect_eqb s cur); reflexivity.
Qed.
Lemma out_labels_app a b : forall off, out_labels off (a ++ b) = out_labels off a ++ out_labels (off + zlen (out_bytes a)) b.
Proof.
  induction a as [|[st bs] a IH]; intro off; cbn [app out_labels].
  - f_equal. unfold zlen. cbn. lia.
  - rewrite IH, app_assoc. do 2 f_equal. cbn [out_bytes flat_map snd]. rewrite zlen_app. unfold out_bytes. lia.
Qed.
Lemma globals_plain l : plain l -> globals l = [].
Proof. intro P. induction P as [|[st bs] l H P IH]; [reflexivity|]. unfold globals in *. cbn [flat_map fst] in *. rewrite IH. now destruct st. Qed.
Lemma globals_app a b : globals (a ++ b) = globals a ++ globals b.
Proof. unfold globals. apply flat_map_app. Qed.

Definition sy_name (y : symbol) : str := match y with SyRef n _ _ => n | _ => [] end.
Definition sy_ext (y : symbol) : bool := match y with SyRef _ _ e => e | _ => false end.
Definition as_label (y : symbol) : str * Z := (sy_name y, addr_of y).
Definition as_triple (r : reloc) : str * Z * Z := (rl_symbol r, rl_len r, rl_addr r).

Lemma zlen_map {A B} (f : A -> B) l : zlen (map f l) = zlen l.
Proof. unfold zlen. now rewrite map_length. Qed.
Lemma section_built s : section_shape s ->
  exists l, writable l /\ plain l /\ out_bytes l = bs_bytes s /\ out_labels 0 l = map as_label (bs_symbols s) /\
    out_relocs 0 l = map as_triple (bs_relocs s) /\
    zlen l = 2 * zlen (bs_symbols s) + 2 * zlen (bs_relocs s) + 1 /\ 5 * zlen (bs_relocs s) <= zlen (bs_bytes s).
Proof.
  intros (Ob & FR & SR & FL & SL).
  destruct (build _ (map as_label (bs_symbols s)) (map as_triple (bs_relocs s)) (bs_bytes s) 0 eq_refl Ob) as (l & H1 & H2 & H3 & H4 & H5 & H6 & H7).
  - apply Forall_map. eapply Forall_impl; [|exact FL]. intros [n|n a e|n a e] Hy; try contradiction. destruct Hy as (N & B & C).
    split; [exact N|]. split; [cbn; lia|]. apply Forall_map. exact C.
  - eapply StronglySorted_map; [|exact SL]. intros x y H. exact H.
  - apply Forall_map. eapply Forall_impl; [|exact FR]. intros r (_ & pre & op & post & E & A & C). exists pre, op, post. cbn [as_triple fst snd].
    split; [exact E|]. split; [rewrite A, zlen_app; lia|exact C].
  - eapply StronglySorted_map; [|exact SR]. intros x y H. exact H.
  - exists l. rewrite !zlen_map in H6. rewrite !zlen_map in H7. repeat split; assumption.
Qed.
Lemma mov_at_addr B r : mov_at B r -> zlen B < 2 ^ 31 -> as_i32 (rl_addr r) = rl_addr r.
Proof.
  intros (_ & pre & op & post & E & A & _) L. rewrite E in L. rewrite A. rewrite !zlen_app in *.
  pose proof (zlen_nonneg pre). pose proof (zlen_nonneg op). pose proof (zlen_nonneg post). pose proof (zlen_nonneg (repeat 0 (Z.to_nat (2 ^ rl_len r)))).
  unfold as_i32. rewrite Z.mod_small; lia.
Qed.
Lemma is_global_iff pr n : is_global pr n = true <-> In n (globals pr).
Proof. apply is_global_in. Qed.

Lemma symbols_back ext (g : str -> bool) ys : Forall (fun y => match y with SyRef n _ e => e = ext n | _ => False end) ys ->
  (forall y, In y ys -> g (sy_name y) = sy_ext y) ->
  map (fun x => SyRef (fst x) (snd x) (g (fst x))) (map as_label ys) = ys.
Proof.
  intros F G. rewrite map_map. rewrite <- (map_id ys) at 2. apply map_ext_in. intros y I. rewrite Forall_forall in F. specialize (F y I).
  specialize (G y I). destruct y as [n|n a e|n a e]; try contradiction. cbn in *. now rewrite G.
Qed.
Lemma relocs_back B rs : Forall (mov_at B) rs -> zlen B < 2 ^ 31 ->
  map (fun x => {| rl_addr := as_i32 (snd x); rl_symbol := fst (fst x); rl_pcrel := false; rl_len := snd (fst x) |}) (map as_triple rs) = rs.
Proof.
  intros F L. rewrite map_map. rewrite <- (map_id rs) at 2. apply map_ext_in. intros r I. rewrite Forall_forall in F. specialize (F r I).
  cbn [as_triple fst snd]. rewrite (mov_at_addr B r F L). destruct F as (P & _). destruct r. cbn in *. now subst.
Qed.

Lemma top_C89_reach o p : producible o -> countable o -> assembles p o.
Proof.
  intros (Ht & Hd & Hs & Hb & ext & E0 & Fe) (Ct & Cd & Cs).
  destruct (section_built _ Ht) as (lt & Wt & Pt & Bt & Lt & Rt & Zt & Yt).
  destruct (section_built _ Hd) as (ld & Wd & Pd & Bd & Ld & Rd & Zd & Yd).
  set (lb := map (fun y => (StLabel (sy_name y), @nil Z)) (bss_symbols (o_bss o))).
  set (G := map sy_name (filter sy_ext (every_symbol o))).
  set (lg := map (fun n => (StGlobal n, @nil Z)) G).
  assert (Nm : forall y, In y (every_symbol o) -> label_name (sy_name y)).
  { intros y I. unfold every_symbol in I. rewrite !in_app_iff in I. destruct Ht as (_ & _ & _ & Ft & _). destruct Hd as (_ & _ & _ & Fd & _).
    rewrite Forall_forall in Ft, Fd, Hb. destruct I as [I|[I|I]]; [apply Ft in I|apply Fd in I|apply Hb in I]; destruct y; try contradiction; apply I. }
  assert (Wb : writable lb).
  { unfold writable, lb. apply Forall_map, Forall_forall. intros y I. cbn [fst snd]. split; [|reflexivity]. apply Nm. unfold every_symbol. rewrite !in_app_iff. tauto. }
  assert (Gx : forall n, In n G -> ext n = true /\ label_name n).
  { intros n I. unfold G in I. apply in_map_iff in I. destruct I as (y & <- & I). apply filter_In in I. destruct I as [I E]. split; [|now apply Nm].
    rewrite Forall_forall in Fe. specialize (Fe y I). destruct y; try contradiction. cbn in *. congruence. }
  assert (Wg : writable lg).
  { unfold writable, lg. apply Forall_map, Forall_forall. intros n I. cbn [fst snd]. split; [|reflexivity]. destruct (Gx n I) as [X (N1 & N2 & _)].
    split; [exact N1|]. split; [|exact N2]. intros ->. congruence. }
  assert (Pb : plain lb) by (unfold plain, lb; apply Forall_map, Forall_forall; intros; exact Logic.I).
  set (pr := lt ++ (StSection SData, []) :: ld ++ (StSection SBss, []) :: lb ++ lg).
  assert (Wp : writable pr).
  { unfold pr, writable. apply Forall_app. split; [exact Wt|]. constructor; [split; [exact Logic.I|reflexivity]|]. apply Forall_app. split; [exact Wd|].
    constructor; [split; [exact Logic.I|reflexivity]|]. apply Forall_app. now split. }
  assert (Dg : forall s cur, during s cur lg = if sect_eqb s cur then lg else []).
  { intros s cur. unfold lg. generalize G. intro g. induction g as [|n g IH]; cbn [map during]; [now destruct (sect_eqb s cur)|]. rewrite IH. now destruct (sect_eqb s cur). }
  assert (Du : forall s, during s SText pr = match s with SText => lt | SData => ld | SBss => lb ++ lg end).
  { intro s. unfold pr. rewrite during_plain by exact Pt. cbn [during]. rewrite during_plain by exact Pd. cbn [during]. rewrite during_plain by exact Pb. rewrite Dg.
    destruct s; cbn [sect_eqb app]; rewrite ?app_nil_r; reflexivity. }
  assert (Gl : globals pr = G).
  { unfold pr. rewrite globals_app, (globals_plain lt Pt). change ((StSection SData, []) :: ld ++ (StSection SBss, []) :: lb ++ lg) with ([(StSection SData, @nil Z)] ++ ld ++ [(StSection SBss, [])] ++ lb ++ lg).
    rewrite !globals_app, (globals_plain ld Pd), (globals_plain lb Pb). cbn [app globals flat_map fst]. unfold lg. generalize G. intro g.
    induction g as [|n g IH]; [reflexivity|]. cbn. unfold globals in IH. now rewrite IH. }
  assert (Ig : forall y, In y (every_symbol o) -> is_global pr (sy_name y) = sy_ext y).
  { intros y I. destruct (sy_ext y) eqn:E.
    - apply is_global_iff. rewrite Gl. unfold G. apply in_map, filter_In. now split.
    - destruct (is_global pr (sy_name y)) eqn:X; [|reflexivity]. apply is_global_iff in X. rewrite Gl in X. destruct (Gx _ X) as [X' _].
      rewrite Forall_forall in Fe. specialize (Fe y I). destruct y; try contradiction. cbn in *. congruence. }
  assert (Cl : bss_clean pr).
  { unfold bss_clean. rewrite Du. apply Forall_app. split; [unfold lb|unfold lg]; apply Forall_map, Forall_forall; reflexivity. }
  assert (Ob : object_of pr = o).
  { unfold every_symbol in Fe. rewrite !Forall_app in Fe. destruct Fe as (F1 & F2 & F3). unfold object_of, sec_of. rewrite !Du.
    assert (I1 : forall y, In y (bs_symbols (o_text o)) -> is_global pr (sy_name y) = sy_ext y) by (intros; apply Ig; unfold every_symbol; rewrite !in_app_iff; tauto).
    assert (I2 : forall y, In y (bs_symbols (o_data o)) -> is_global pr (sy_name y) = sy_ext y) by (intros; apply Ig; unfold every_symbol; rewrite !in_app_iff; tauto).
    assert (I3 : forall y, In y (bss_symbols (o_bss o)) -> is_global pr (sy_name y) = sy_ext y) by (intros; apply Ig; unfold every_symbol; rewrite !in_app_iff; tauto).
    assert (Lb : out_labels 0 (lb ++ lg) = map as_label (bss_symbols (o_bss o))).
    { rewrite out_labels_app. replace (out_labels _ lg) with (@nil (str * Z)).
      - rewrite app_nil_r. unfold lb. clear - Hb. induction Hb as [|y ys H Hb IH]; [reflexivity|]. cbn [map out_labels stmt_label app]. change (0 + zlen []) with 0. rewrite IH. f_equal.
        unfold as_label. destruct y; try contradiction. destruct H as (_ & H & _). cbn. f_equal. lia.
      - unfold lg. generalize G (0 + zlen (out_bytes lb)). intro g. induction g as [|n g IH]; intro z; [reflexivity|]. cbn [map out_labels stmt_label app]. apply IH. }
    rewrite Bt, Lt, Rt, Bd, Ld, Rd, Lb, (symbols_back ext _ _ F1 I1), (symbols_back ext _ _ F2 I2), (symbols_back ext _ _ F3 I3).
    rewrite (relocs_back _ _ (proj1 (proj2 Ht)) Ct), (relocs_back _ _ (proj1 (proj2 Hd)) Cd).
    clear - Hs. destruct o as [[] [] []]. cbn in *. now subst. }
  assert (Sz : size_ok p pr).
  { intros _. split; [unfold small; rewrite !Du, Bt, Bd; now split|].
    assert (Zg : zlen lg <= zlen (every_symbol o)).
    { unfold lg, G, zlen. rewrite !map_length. clear. induction (every_symbol o) as [|y ys IH]; cbn [filter length]; [lia|]. destruct (sy_ext y); cbn [length]; lia. }
    assert (Zb : zlen lb = zlen (bss_symbols (o_bss o))) by (unfold lb, zlen; now rewrite map_length).
    assert (Zp : zlen pr = zlen lt + (1 + (zlen ld + (1 + (zlen lb + zlen lg))))).
    { unfold pr. rewrite zlen_app. f_equal. change ((StSection SData, []) :: ld ++ (StSection SBss, []) :: lb ++ lg) with ([(StSection SData, @nil Z)] ++ ld ++ [(StSection SBss, [])] ++ lb ++ lg).
      rewrite !zlen_app. reflexivity. }
    unfold every_symbol in *. rewrite !zlen_app in *. pose proof (zlen_nonneg (bss_symbols (o_bss o))). pose proof (zlen_nonneg (bs_symbols (o_text o))). pose proof (zlen_nonneg (bs_symbols (o_data o))).
    clear - Zp Zg Zb Zt Zd Yt Yd Ct Cd Cs H H0 H1. lia. }
  destruct (standard_ex pr Wp) as (src & St). destruct (standard_is p pr src Wp St) as [Sr Bs].
  destruct (top_session_complete p [src] pr (Forall_cons _ Bs (Forall_nil _)) (proj2 (sources_one p src pr) Sr) Cl Sz) as (a & Se & As).
  exists src, a. split; [exact Bs|]. split; [now apply session_one|]. now rewrite (proj1 As).
Qed.
Lemma top_C89_image p o : countable o -> (assembles p o <-> producible o).
Proof.
  intro C. split; [|intro P; now apply top_C89_reach]. intro A. eapply top_C89_shape; [exact A|apply C|apply C].
Qed.
