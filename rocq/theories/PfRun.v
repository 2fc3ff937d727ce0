(** Proofs about the assembler state machine. *)
From Coq Require String.
Import String.StringSyntax.
From Coq Require Import ZifyBool ZifyNat.
From Verif Require Import Base Str X64 SpecX86 Obj Asm SpecAsm Assembler SpecRun
  PfStr PfTok PfX64 PfX86 PfX64Top PfBytes PfAsm PfData PfLine PfLine2.
Ltac Zify.zify_post_hook ::= Z.div_mod_to_equations.

(** ** Lines of a source *)

Lemma raw_lines_spec l : source_lines l (raw_lines l).
Proof.
  induction l as [|b l IH]; cbn [raw_lines]; [constructor|].
  destruct (b =? 10) eqn:E.
  - apply Z.eqb_eq in E. subst b. apply (sl_cons [] l); [intros []|exact IH].
  - apply Z.eqb_neq in E. destruct IH as [|x N I|x rest ls N I].
    + apply (sl_last [b]); [discriminate|]. cbn. lia.
    + apply (sl_last (b :: x)); [discriminate|]. cbn [In]. intros [H|H]; [congruence|contradiction].
    + apply (sl_cons (b :: x)); [|assumption]. cbn [In]. intros [H|H]; [congruence|contradiction].
Qed.
Lemma raw_lines_nl x rest : ~ In 10 x -> raw_lines (x ++ 10 :: rest) = (x ++ [10]) :: raw_lines rest.
Proof.
  induction x as [|b x IH]; intro N; cbn [app raw_lines]; [reflexivity|].
  cbn [In] in N. replace (b =? 10) with false by (symmetry; apply Z.eqb_neq; tauto).
  rewrite IH by tauto. reflexivity.
Qed.
Lemma raw_lines_last x : x <> [] -> ~ In 10 x -> raw_lines x = [x].
Proof.
  induction x as [|b x IH]; intros N I; [congruence|]. cbn [raw_lines]. cbn [In] in I.
  replace (b =? 10) with false by (symmetry; apply Z.eqb_neq; tauto).
  destruct x as [|c x]; [reflexivity|]. rewrite IH; [reflexivity|discriminate|tauto].
Qed.
Lemma raw_lines_iff l ls : raw_lines l = ls <-> source_lines l ls.
Proof.
  split; [intros <-; apply raw_lines_spec|].
  induction 1 as [|x N I|x rest ls N S0 IH]; [reflexivity|now apply raw_lines_last|].
  rewrite raw_lines_nl by exact N. now rewrite IH.
Qed.
Lemma raw_lines_concat l : concat (raw_lines l) = l.
Proof.
  pose proof (raw_lines_spec l) as H. induction H as [|x N I|x rest ls N S0 IH]; cbn [concat].
  - reflexivity. - apply app_nil_r. - rewrite IH, <- app_assoc. reflexivity.
Qed.
Lemma raw_lines_app a b : a = [] \/ (exists a', a = a' ++ [10]) ->
  raw_lines (a ++ b) = raw_lines a ++ raw_lines b.
Proof.
  intros [-> | (a' & ->)]; [reflexivity|].
  assert (G : forall n a', (length a' <= n)%nat -> raw_lines ((a' ++ [10]) ++ b) = raw_lines (a' ++ [10]) ++ raw_lines b).
  { clear a'. induction n as [|n IH]; intros a' L.
    - destruct a'; [|cbn in L; lia]. reflexivity.
    - destruct (split_once (fun c => c =? 10) a') as [[x y]|] eqn:E.
      + apply split_char in E. destruct E as [-> N]. rewrite <- !app_assoc. cbn [app].
        rewrite (raw_lines_nl x (y ++ 10 :: b)), (raw_lines_nl x (y ++ [10])) by exact N. cbn [app]. f_equal.
        replace (y ++ 10 :: b) with ((y ++ [10]) ++ b) by (rewrite <- app_assoc; reflexivity).
        apply IH. rewrite app_length in L. cbn in L. lia.
      + apply split_char_none in E. rewrite <- app_assoc. cbn [app]. rewrite (raw_lines_nl a' b), (raw_lines_nl a' []) by exact E. reflexivity. }
  apply (G (length a')). lia.
Qed.
Lemma raw_lines_bytes l : bytes_ok l -> Forall bytes_ok (raw_lines l).
Proof.
  intro B. pose proof (raw_lines_concat l) as E. rewrite <- E in B. revert B. generalize (raw_lines l).
  induction l0 as [|x ls IH]; cbn [concat]; intro B; constructor; apply Forall_app in B; tauto.
Qed.

(** ** Programs extended at the end *)

Lemma during_snoc s cur pr st bs : during s cur (pr ++ [(st, bs)]) = during s cur pr ++
  match st with StSection _ => [] | _ => if sect_eqb s (last_sect cur pr) then [(st, bs)] else [] end.
Proof.
  revert cur. induction pr as [|[x b] pr IH]; intro cur; cbn [app during last_sect].
  - destruct st; cbn [app]; rewrite ?app_nil_r; reflexivity.
  - destruct x; rewrite ?IH, ?app_assoc; reflexivity.
Qed.
Lemma last_sect_snoc cur pr st bs : last_sect cur (pr ++ [(st, bs)]) =
  match st with StSection s => s | _ => last_sect cur pr end.
Proof.
  revert cur. induction pr as [|[x b] pr IH]; intro cur; cbn [app last_sect].
  - destruct st; reflexivity.
  - destruct x; apply IH.
Qed.
Lemma globals_snoc pr st bs : globals (pr ++ [(st, bs)]) =
  globals pr ++ match st with StGlobal n => [n] | _ => [] end.
Proof. unfold globals. rewrite flat_map_app. cbn [flat_map fst]. now rewrite app_nil_r. Qed.
Lemma out_bytes_snoc l st bs : out_bytes (l ++ [(st, bs)]) = out_bytes l ++ bs.
Proof. unfold out_bytes. rewrite flat_map_app. cbn [flat_map snd]. now rewrite app_nil_r. Qed.
Lemma out_labels_snoc off l st bs : out_labels off (l ++ [(st, bs)]) = out_labels off l ++
  match stmt_label st with Some n => [(n, off + zlen (out_bytes l))] | None => [] end.
Proof.
  revert off. induction l as [|[x b] l IH]; intro off; cbn [app out_labels].
  - unfold out_bytes, zlen. cbn. rewrite app_nil_r. destruct (stmt_label st); [|reflexivity].
    rewrite Z.add_0_r. reflexivity.
  - rewrite IH, <- app_assoc. f_equal. f_equal. unfold out_bytes, zlen. cbn [flat_map snd].
    rewrite app_length. destruct (stmt_label st); [|reflexivity]. f_equal. f_equal. lia.
Qed.
Lemma out_relocs_snoc off l st bs : out_relocs off (l ++ [(st, bs)]) = out_relocs off l ++
  match stmt_reloc st with Some (s, k) => [(s, k, off + zlen (out_bytes l) + zlen bs - 2 ^ k)] | None => [] end.
Proof.
  revert off. induction l as [|[x b] l IH]; intro off; cbn [app out_relocs].
  - unfold out_bytes, zlen. cbn [flat_map length app]. rewrite app_nil_r.
    destruct (stmt_reloc st) as [[s k]|]; [|reflexivity]. rewrite Z.add_0_r. reflexivity.
  - rewrite IH, <- app_assoc. f_equal. f_equal. unfold out_bytes, zlen. cbn [flat_map snd].
    rewrite app_length. destruct (stmt_reloc st) as [[s k]|]; [|reflexivity]. f_equal. f_equal. lia.
Qed.

Lemma sect_eqb_eq a b : sect_eqb a b = true <-> a = b.
Proof. destruct a, b; cbn; split; congruence. Qed.

(** ** The representation of a program by an assembler state *)

Definition mk (ext : list str) (y : symbol) : symbol :=
  if existsb (fun s => str_eqb s (sym_name y)) ext then set_ext y else y.
Definition ref_of (pr : prog) (x : str * Z) : symbol := SyRef (fst x) (snd x) (is_global pr (fst x)).
Definition rel_of (x : str * Z * Z) : reloc :=
  {| rl_addr := as_i32 (snd x); rl_symbol := fst (fst x); rl_pcrel := false; rl_len := snd (fst x) |}.

Definition sec_ok (pr : prog) (s : sect) (b : bsection) : Prop :=
  let l := during s SText pr in
  bs_bytes b = out_bytes l /\
  map (mk (globals pr)) (bs_symbols b) = map (ref_of pr) (out_labels 0 l) /\
  bs_relocs b = map rel_of (out_relocs 0 l).
Definition bss_ok (pr : prog) (b : bss_section) : Prop :=
  bss_size b = 0 /\
  map (mk (globals pr)) (bss_symbols b) = map (ref_of pr) (out_labels 0 (during SBss SText pr)).
Definition rep (pr : prog) (a : asm) : Prop :=
  sec_ok pr SText (o_text (as_obj a)) /\ sec_ok pr SData (o_data (as_obj a)) /\ bss_ok pr (o_bss (as_obj a)) /\
  as_sect a = last_sect SText pr /\ as_ext a = globals pr /\ bss_clean pr.

Lemma rep_new : rep [] asm_new.
Proof. unfold rep, sec_ok, bss_ok. repeat split; try reflexivity. constructor. Qed.

Lemma mk_ref pr n off : mk (globals pr) (SyRef n off false) = ref_of pr (n, off).
Proof.
  unfold mk, ref_of, is_global. cbn [sym_name fst snd].
  destruct (existsb (fun s => str_eqb s n) (globals pr)); reflexivity.
Qed.
Lemma set_ext_name y : sym_name (set_ext y) = sym_name y.
Proof. destruct y; reflexivity. Qed.
Lemma set_ext_idem y : set_ext (set_ext y) = set_ext y.
Proof. destruct y; reflexivity. Qed.
Lemma mk_mk e1 e2 y : (forall n, existsb (fun s => str_eqb s n) e1 = true -> existsb (fun s => str_eqb s n) e2 = true) ->
  mk e2 (mk e1 y) = mk e2 y.
Proof.
  intro H. unfold mk. destruct (existsb (fun s => str_eqb s (sym_name y)) e1) eqn:E1; [|reflexivity].
  rewrite set_ext_name, (H _ E1). apply set_ext_idem.
Qed.
Lemma mk_idem e y : mk e (mk e y) = mk e y.
Proof. apply mk_mk. trivial. Qed.

(** marking gives the specified object *)
Lemma rep_mark pr a : rep pr a -> as_obj (mark_ext a) = object_of pr /\ rep pr (mark_ext a) /\
  (as_line a = zlen pr mod 2 ^ 32 -> assembled pr (mark_ext a)).
Proof.
  intros ((T1 & T2 & T3) & (D1 & D2 & D3) & (B1 & B2) & S0 & E & C).
  assert (O : as_obj (mark_ext a) = object_of pr).
  { unfold mark_ext, set_obj, obj_symbols_update. cbn [as_obj]. rewrite E.
    change (fun y : symbol => if existsb (fun s : str => str_eqb s (sym_name y)) (globals pr) then set_ext y else y)
      with (mk (globals pr)).
    rewrite T1, T2, T3, D1, D2, D3, B1, B2. reflexivity. }
  split; [exact O|]. split.
  - unfold rep. rewrite O. cbn [object_of o_text o_data o_bss].
    assert (I : forall l, map (mk (globals pr)) (map (ref_of pr) l) = map (ref_of pr) l).
    { intro l. rewrite map_map. apply map_ext. intros [n off]. unfold mk, ref_of, is_global. cbn [sym_name fst snd].
      destruct (existsb (fun s => str_eqb s n) (globals pr)); reflexivity. }
    unfold sec_ok, bss_ok. cbn [sec_of bs_bytes bs_symbols bs_relocs bss_size bss_symbols].
    change (fun x : str * Z => SyRef (fst x) (snd x) (is_global pr (fst x))) with (ref_of pr).
    rewrite !I. repeat split; assumption.
  - unfold assembled. rewrite O. unfold mark_ext, set_obj. cbn [as_sect as_ext as_line]. tauto.
Qed.

(** ** One statement *)

Lemma is_global_snoc pr st bs n : (forall m, st <> StGlobal m) -> is_global (pr ++ [(st, bs)]) n = is_global pr n.
Proof. intro H. unfold is_global. rewrite globals_snoc. destruct st; rewrite ?app_nil_r; try reflexivity. now destruct (H name). Qed.
Lemma ref_of_snoc pr st bs l : (forall m, st <> StGlobal m) -> map (ref_of (pr ++ [(st, bs)])) l = map (ref_of pr) l.
Proof. intro H. apply map_ext. intros [n off]. unfold ref_of. cbn [fst snd]. now rewrite is_global_snoc. Qed.
Lemma globals_same pr st bs : (forall m, st <> StGlobal m) -> globals (pr ++ [(st, bs)]) = globals pr.
Proof. intro H. rewrite globals_snoc. destruct st; rewrite ?app_nil_r; try reflexivity. now destruct (H name). Qed.
Lemma sec_other pr s b st bs : (forall m, st <> StGlobal m) -> (st = StSection (last_sect SText (pr ++ [(st, bs)])) \/ s <> last_sect SText pr) ->
  sec_ok pr s b -> sec_ok (pr ++ [(st, bs)]) s b.
Proof.
  intros G N (H1 & H2 & H3).
  assert (E : during s SText (pr ++ [(st, bs)]) = during s SText pr).
  { rewrite during_snoc. destruct N as [N|N].
    - rewrite N. apply app_nil_r.
    - destruct (sect_eqb s (last_sect SText pr)) eqn:Q; [apply sect_eqb_eq in Q; congruence|].
      destruct st; apply app_nil_r. }
  unfold sec_ok. rewrite E, globals_same, ref_of_snoc by exact G. tauto.
Qed.
Lemma bss_other pr b st bs : (forall m, st <> StGlobal m) -> (st = StSection (last_sect SText (pr ++ [(st, bs)])) \/ SBss <> last_sect SText pr) ->
  bss_ok pr b -> bss_ok (pr ++ [(st, bs)]) b.
Proof.
  intros G N (H1 & H2).
  assert (E : during SBss SText (pr ++ [(st, bs)]) = during SBss SText pr).
  { rewrite during_snoc. destruct N as [N|N].
    - rewrite N. apply app_nil_r.
    - destruct (sect_eqb SBss (last_sect SText pr)) eqn:Q; [apply sect_eqb_eq in Q; congruence|].
      destruct st; apply app_nil_r. }
  unfold bss_ok. rewrite E, globals_same, ref_of_snoc by exact G. tauto.
Qed.

(** what a statement does to the current byte section *)
Definition sec_step (st : stmt) (bs : list Z) (b : bsection) : bsection :=
  {| bs_bytes := bs_bytes b ++ bs;
     bs_symbols := bs_symbols b ++
       match stmt_label st with Some n => [SyRef n (zlen (bs_bytes b)) false] | None => [] end;
     bs_relocs := bs_relocs b ++
       match stmt_reloc st with Some (s, k) => [rel_of (s, k, zlen (bs_bytes b) + zlen bs - 2 ^ k)] | None => [] end |}.
Lemma sec_this pr s b st bs : (forall m, st <> StGlobal m) -> (forall m, st <> StSection m) -> s = last_sect SText pr ->
  sec_ok pr s b -> sec_ok (pr ++ [(st, bs)]) s (sec_step st bs b).
Proof.
  intros G N E (H1 & H2 & H3).
  assert (Ed : during s SText (pr ++ [(st, bs)]) = during s SText pr ++ [(st, bs)]).
  { rewrite during_snoc. rewrite <- E. replace (sect_eqb s s) with true by (destruct s; reflexivity).
    destruct st; try reflexivity. now destruct (N s0). }
  unfold sec_ok. rewrite Ed, globals_same, ref_of_snoc by exact G. cbn [sec_step bs_bytes bs_symbols bs_relocs].
  rewrite out_bytes_snoc, out_labels_snoc, out_relocs_snoc, !map_app, H1, H2, H3.
  split; [reflexivity|]. split.
  - f_equal. destruct (stmt_label st); [|reflexivity]. cbn [map]. rewrite Z.add_0_l, mk_ref. reflexivity.
  - f_equal. destruct (stmt_reloc st) as [[x k]|]; [|reflexivity]. cbn [map]. rewrite Z.add_0_l. reflexivity.
Qed.
Lemma during_bss_bytes pr : bss_clean pr -> Forall (fun x => stmt_bytes (fst x) (snd x)) (during SBss SText pr) ->
  zlen (out_bytes (during SBss SText pr)) = 0.
Proof.
  intros C F. unfold bss_clean in C. induction (during SBss SText pr) as [|[st b] l IH]; [reflexivity|].
  inversion C; inversion F; subst. cbn [fst snd] in *. unfold out_bytes, zlen in *. cbn [flat_map snd].
  rewrite app_length, Nat2Z.inj_add, IH by assumption. destruct st; cbn in *; try discriminate; subst; reflexivity.
Qed.

(** all pairs of a program have the bytes of their statement *)
Definition wf (pr : prog) : Prop := Forall (fun x => stmt_bytes (fst x) (snd x)) pr.
Lemma during_incl s cur pr x : In x (during s cur pr) -> In x pr.
Proof.
  revert cur. induction pr as [|[st b] pr IH]; intros cur H; cbn [during] in H; [exact H|].
  destruct st; try (apply in_app_iff in H; destruct H as [H|H]; [destruct (sect_eqb s cur); [destruct H as [<-|[]]; left; reflexivity|destruct H]|right; eapply IH; exact H]).
  right. eapply IH. exact H.
Qed.
Lemma wf_during s cur pr : wf pr -> Forall (fun x => stmt_bytes (fst x) (snd x)) (during s cur pr).
Proof. intro H. apply Forall_forall. intros x I. apply during_incl in I. exact (proj1 (Forall_forall _ _) H x I). Qed.

Lemma bss_clean_snoc pr st bs : bss_clean (pr ++ [(st, bs)]) <->
  bss_clean pr /\ (last_sect SText pr = SBss -> stmt_writes st = false).
Proof.
  unfold bss_clean. rewrite during_snoc, Forall_app. split.
  - intros [H1 H2]. split; [exact H1|]. intro E. rewrite E in H2. cbn [sect_eqb] in H2.
    destruct st; try reflexivity; inversion H2; assumption.
  - intros [H1 H2]. split; [exact H1|]. destruct (sect_eqb SBss (last_sect SText pr)) eqn:E.
    + apply sect_eqb_eq in E. specialize (H2 (eq_sym E)). destruct st; constructor; try exact H2; constructor.
    + destruct st; constructor.
Qed.
