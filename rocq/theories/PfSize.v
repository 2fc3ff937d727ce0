(** Bounds by the length of the source. *)
From Coq Require String.
Import String.StringSyntax.
From Coq Require Import ZifyBool ZifyNat.
From Verif Require Import Base Str X64 SpecX86 Mac SpecMacho Obj SpecObj Asm SpecAsm SpecDiag Assembler SpecRun SpecForm SpecSize Cli SpecLink
  PfStr PfTok PfX64 PfX86 PfX64Top PfBytes PfAsm PfData PfLine PfLine2 PfDiag PfRun PfRun2 PfRun3 PfRun4 PfRun5 PfEnd PfWhole PfMeta PfBoth PfForm PfForm2 SpecLoss PfObj3 PfCli PfLoss.

Local Ltac zl := unfold zlen in *; cbn [length] in *; rewrite ?app_length in *; cbn [length] in *.

(** ** One line *)

Lemma words_len s ts : words s ts -> forall t, In t ts -> zlen t <= zlen s.
Proof.
  intro W. induction W as [|w t rest ts B Wd Sb W IH]; intros u I; [destruct I|]. rewrite !zlen_app.
  pose proof (zlen_nonneg w). pose proof (zlen_nonneg rest). pose proof (zlen_nonneg t). destruct I as [<-|I]; [lia|]. specialize (IH u I). lia.
Qed.
Lemma number_len bits t n : number bits t n -> 1 <= zlen t.
Proof.
  intros (_ & k & sg & ds & -> & _ & N). rewrite !zlen_app. pose proof (zlen_nonneg (prefix_0x k)). pose proof (zlen_nonneg sg).
  assert (1 <= zlen ds) by (destruct N; zl; lia). lia.
Qed.
Lemma utf8_len s : zlen s <= zlen (utf8 s).
Proof. unfold zlen. pose proof (utf8_length_ge s). lia. Qed.
Lemma utf8_cons_len c s : zlen (utf8 (c :: s)) = zlen (utf8_char c) + zlen (utf8 s).
Proof. change (utf8 (c :: s)) with (utf8_char c ++ utf8 s). apply zlen_app. Qed.
Lemma char_len c : 1 <= zlen (utf8_char c).
Proof. unfold zlen. pose proof (utf8_char_length c). lia. Qed.
Lemma unit_len u : 1 <= Z.of_nat (unit_size u) <= 8.
Proof. destruct u; cbn; lia. Qed.
Lemma items_len u text its : items_text text its -> forall bss, Forall2 (item_bytes u) its bss -> zlen (concat bss) <= 4 * zlen (utf8 text) + 4.
Proof.
  pose proof (unit_len u) as U. intro T. induction T as [|t n N|t n c w rest its N D B S T IH|s sep rest its Q D S T IH]; intros bss F.
  - inversion F; subst. cbn. lia.
  - inversion F as [|? b ? bs P F']; subst. destruct P as (_ & L & _). inversion F'; subst. cbn [concat]. rewrite app_nil_r. pose proof (number_len _ _ _ N). pose proof (utf8_len t).
    unfold zlen at 1. lia.
  - inversion F as [|? b ? bs P F']; subst. destruct P as (_ & L & _). cbn [concat]. rewrite zlen_app. specialize (IH _ F'). pose proof (number_len _ _ _ N). pose proof (utf8_len t).
    pose proof (char_len c). pose proof (zlen_nonneg (utf8 w)). rewrite utf8_app, zlen_app, utf8_cons_len, utf8_app, zlen_app. assert (zlen b <= 8) by (unfold zlen; lia). lia.
  - inversion F as [|? b ? bs P F']; subst. destruct P as (n & -> & Ln & _). cbn [concat]. rewrite zlen_app. specialize (IH _ F'). rewrite zlen_app.
    assert (zlen (repeat 0 n) <= 7) by (unfold zlen; rewrite repeat_length; lia).
    rewrite utf8_cons_len, utf8_app, zlen_app, utf8_cons_len, utf8_app, zlen_app. change (zlen (utf8_char 34)) with 1.
    pose proof (zlen_nonneg (utf8 s)). pose proof (zlen_nonneg (utf8 sep)). lia.
Qed.
Lemma ten_bytes i bs : sayable (StInstr i) -> emits i bs -> zlen bs <= 10.
Proof.
  intros S E. apply emits_inv in E; [destruct E as [-> _]|destruct i; cbn in S; try contradiction; try exact I; unfold instr_ok; cbn; unfold inu; lia].
  destruct i; cbn in S; try contradiction; try (destruct dst; vm_compute; discriminate); try (destruct dst, src; vm_compute; discriminate); try (destruct r; vm_compute; discriminate); vm_compute; discriminate.
Qed.
Lemma words_utf8 s ts : words s ts -> forall t, In t ts -> zlen (utf8 t) <= zlen (utf8 s).
Proof.
  intro W. induction W as [|w t rest ts B Wd Sb W IH]; intros u I; [destruct I|]. rewrite !utf8_app, !zlen_app.
  pose proof (zlen_nonneg (utf8 w)). pose proof (zlen_nonneg (utf8 rest)). pose proof (zlen_nonneg (utf8 t)). destruct I as [<-|I]; [lia|]. specialize (IH u I). lia.
Qed.
Lemma sayable_len st bs body : sayable st -> stmt_bytes st bs -> match st with StData _ _ => False | _ => True end ->
  3 <= zlen body -> zlen bs <= 4 * zlen (utf8 body).
Proof.
  intros S B D L. pose proof (utf8_len body). assert (zlen bs <= 10); [|lia].
  destruct st; try contradiction; cbn [stmt_bytes] in B; try (subst bs; unfold zlen; cbn; lia); [eapply ten_bytes; eassumption| |].
  - eapply (ten_bytes (MovRI64 dst 0)); [split; [lia|reflexivity]|exact B].
  - eapply (ten_bytes (MovRI32 dst 0)); [split; [lia|reflexivity]|exact B].
Qed.
Lemma accepts_len p body st bs : accepts p body st -> sayable st -> stmt_bytes st bs -> zlen bs <= 4 * zlen (utf8 body).
Proof.
  intros A S B. pose proof (zlen_nonneg (utf8 body)).
  destruct A as [s W|s x W|s n W|s n k W N|w0 u c w1 text w2 its b B0 Sc B1 Nt Tt B2 T Ib|w0 n c1 w1 u c2 w2 text w3 its b B0 Wn N1 N2 N3 N4 S1 B1 S2 B2 Nt Tt B3 T Ib
    |w0 w1 d w2 w3 o w4 st B0 B1 B2 B3 To B4 M|s r more W|s t n more W N|s t n more W N L|s more W N|s more W N].
  - cbn in B. subst bs. change (zlen (@nil Z)) with 0. lia.
  - cbn in B. subst bs. change (zlen (@nil Z)) with 0. lia.
  - cbn in B. subst bs. change (zlen (@nil Z)) with 0. lia.
  - cbn in B. subst bs. change (zlen (@nil Z)) with 0. lia.
  - cbn in B. subst bs. destruct Ib as (bss & F & ->). pose proof (items_len _ _ _ T _ F).
    rewrite !utf8_app, !zlen_app, utf8_cons_len, !utf8_app, !zlen_app. pose proof (char_len c). pose proof (zlen_nonneg (utf8 w0)). pose proof (zlen_nonneg (utf8 w1)). pose proof (zlen_nonneg (utf8 w2)).
    pose proof (zlen_nonneg (utf8 (unit_name u))). lia.
  - cbn in B. subst bs. destruct Ib as (bss & F & ->). pose proof (items_len _ _ _ T _ F).
    rewrite !utf8_app, !zlen_app, utf8_cons_len, !utf8_app, !zlen_app, utf8_cons_len, !utf8_app, !zlen_app. pose proof (char_len c1). pose proof (char_len c2). pose proof (zlen_nonneg (utf8 w0)). pose proof (zlen_nonneg (utf8 w1)).
    pose proof (zlen_nonneg (utf8 w2)). pose proof (zlen_nonneg (utf8 w3)). pose proof (zlen_nonneg (utf8 n)). pose proof (zlen_nonneg (utf8 (unit_name u))). lia.
  - apply (sayable_len st); [exact S|exact B|destruct M; exact I|]. rewrite !zlen_app. change (zlen (lit "mov ")) with 4.
    pose proof (zlen_nonneg w0). pose proof (zlen_nonneg (w1 ++ d ++ w2 ++ 44 :: w3 ++ o ++ w4)). rewrite !zlen_app in *. lia.
  - pose proof (words_len _ _ W _ (or_introl eq_refl)) as L. change (zlen (lit "push")) with 4 in L. apply (sayable_len _ bs s S B I). lia.
  - pose proof (words_len _ _ W _ (or_introl eq_refl)) as L. change (zlen (lit "push")) with 4 in L. apply (sayable_len _ bs s S B I). lia.
  - pose proof (words_len _ _ W _ (or_introl eq_refl)) as L'. change (zlen (lit "push")) with 4 in L'. apply (sayable_len _ bs s S B I). lia.
  - pose proof (words_len _ _ W _ (or_introl eq_refl)) as L. change (zlen (lit "ret")) with 3 in L. apply (sayable_len _ bs s S B I). lia.
  - pose proof (words_len _ _ W _ (or_introl eq_refl)) as L. change (zlen (lit "syscall")) with 7 in L. apply (sayable_len _ bs s S B I). lia.
Qed.
Lemma accepts_label p body st n : accepts p body st -> stmt_label st = Some n -> zlen (utf8 n) + 1 <= zlen (utf8 body).
Proof.
  intros A E. destruct A as [s W|s x W|s m W|s m k W N|w0 u c w1 text w2 its b B0 Sc B1 Nt Tt B2 T Ib|w0 m c1 w1 u c2 w2 text w3 its b B0 Wn N1 N2 N3 N4 S1 B1 S2 B2 Nt Tt B3 T Ib
    |w0 w1 d w2 w3 o w4 st B0 B1 B2 B3 To B4 M|s r more W|s t m more W N|s t m more W N L|s more W N|s more W N]; try discriminate E.
  - injection E as ->. pose proof (words_utf8 _ _ W _ (or_introl eq_refl)) as L. change (repeat 58 (S k)) with (58 :: repeat 58 k) in L. rewrite utf8_app, zlen_app, utf8_cons_len in L.
    pose proof (zlen_nonneg (utf8 (repeat 58 k))). change (zlen (utf8_char 58)) with 1 in L. lia.
  - injection E as ->. rewrite !utf8_app, !zlen_app, utf8_cons_len, !utf8_app, !zlen_app. pose proof (char_len c1). pose proof (zlen_nonneg (utf8 w0)). pose proof (zlen_nonneg (utf8 w1)).
    pose proof (zlen_nonneg (utf8 (unit_name u))). pose proof (zlen_nonneg (utf8 (c2 :: w2 ++ text ++ w3))). lia.
  - destruct M; discriminate E.
Qed.

(** ** Sums over programs *)

Definition lsum {A} (f : A -> Z) (l : list A) : Z := fold_right (fun x a => f x + a) 0 l.
Definition byw (x : stmt * list Z) : Z := zlen (snd x).
Definition labw (x : stmt * list Z) : Z := match stmt_label (fst x) with Some n => zlen (utf8 n) + 1 | None => 0 end.
Lemma byw_pos x : 0 <= byw x.
Proof. apply zlen_nonneg. Qed.
Lemma labw_pos x : 0 <= labw x.
Proof. unfold labw. destruct (stmt_label (fst x)); [|lia]. pose proof (zlen_nonneg (utf8 s)). lia. Qed.
Lemma lsum_pos {A} (f : A -> Z) l : (forall x, 0 <= f x) -> 0 <= lsum f l.
Proof. intro P. induction l as [|x l IH]; cbn; [lia|]. specialize (P x). unfold lsum in IH. lia. Qed.
Lemma lsum_during f pr : (forall x, 0 <= f x) -> forall cur,
  lsum f (during SText cur pr) + lsum f (during SData cur pr) + lsum f (during SBss cur pr) <= lsum f pr.
Proof.
  intro P. induction pr as [|[st bs] pr IH]; intro cur; [cbn; lia|]. pose proof (P (st, bs)) as Px.
  assert (K : forall s, during s cur ((st, bs) :: pr) = match st with StSection s' => during s s' pr | _ => (if sect_eqb s cur then [(st, bs)] else []) ++ during s cur pr end)
    by (intro s; destruct st; reflexivity).
  rewrite !K. change (lsum f ((st, bs) :: pr)) with (f (st, bs) + lsum f pr). assert (C : forall x l, lsum f (x :: l) = f x + lsum f l) by reflexivity. destruct st; try (specialize (IH cur); destruct cur; cbn [sect_eqb app]; rewrite ?C; lia).
  specialize (IH s). lia.
Qed.
Lemma lsum_bytes l : zlen (out_bytes l) = lsum byw l.
Proof. induction l as [|x l IH]; [reflexivity|]. cbn [out_bytes flat_map]. fold (out_bytes l). rewrite zlen_app, IH. reflexivity. Qed.
Lemma lsum_labels l : forall off, lsum (fun x => zlen (utf8 (fst x)) + 1) (out_labels off l) = lsum labw l.
Proof.
  induction l as [|[st bs] l IH]; intro off; [reflexivity|]. cbn [out_labels]. change (lsum labw ((st, bs) :: l)) with (labw (st, bs) + lsum labw l).
  rewrite <- (IH (off + zlen bs)). unfold labw. cbn [fst]. destruct (stmt_label st); cbn [app]; [|lia].
  match goal with |- lsum ?f (?x :: ?l) = _ => change (lsum f (x :: l)) with (f x + lsum f l) end. cbv beta. cbn [fst]. lia.
Qed.
Lemma labels_count l off : zlen (out_labels off l) <= zlen l.
Proof.
  revert off. induction l as [|[st bs] l IH]; intro off; [cbn; lia|]. cbn [out_labels]. rewrite zlen_app. specialize (IH (off + zlen bs)).
  assert (zlen (match stmt_label st with Some n => [(n, off)] | None => [] end) <= 1) by (destruct (stmt_label st); cbn; lia).
  change (zlen ((st, bs) :: l)) with (zlen ([(st, bs)] ++ l)). rewrite zlen_app. change (zlen [(st, bs)]) with 1. lia.
Qed.
Lemma relocs_count l off : zlen (out_relocs off l) <= zlen l.
Proof.
  revert off. induction l as [|[st bs] l IH]; intro off; [cbn; lia|]. cbn [out_relocs]. rewrite zlen_app. specialize (IH (off + zlen bs)).
  assert (zlen (match stmt_reloc st with Some (s, k) => [(s, k, off + zlen bs - 2 ^ k)] | None => [] end) <= 1) by (destruct (stmt_reloc st) as [[]|]; cbn; lia).
  change (zlen ((st, bs) :: l)) with (zlen ([(st, bs)] ++ l)). rewrite zlen_app. change (zlen [(st, bs)]) with 1. lia.
Qed.
Lemma lsum_len {A} (l : list A) : lsum (fun _ => 1) l = zlen l.
Proof. induction l as [|x l IH]; [reflexivity|]. change (zlen (x :: l)) with (zlen ([x] ++ l)). rewrite zlen_app, <- IH. reflexivity. Qed.
Lemma during_count pr : zlen (during SText SText pr) + zlen (during SData SText pr) + zlen (during SBss SText pr) <= zlen pr.
Proof. rewrite <- !lsum_len. apply lsum_during. lia. Qed.

(** ** Whole sources *)

Lemma line_bounds p raw x : (exists b, ~ In 10 b /\ (raw = b \/ raw = b ++ [10])) -> line_is p raw x ->
  byw x <= 4 * zlen raw /\ labw x <= zlen raw.
Proof.
  intros O L. destruct (line_sayable _ _ _ O L) as [S B]. destruct L as (s & body & -> & So & Lt & A & _).
  assert (Lb : zlen (utf8 body) <= zlen (utf8 s)).
  { destruct Lt as (_ & [-> |(c & ->)]); [lia|]. rewrite utf8_app, zlen_app. pose proof (zlen_nonneg (utf8 (59 :: c))). lia. }
  split; [pose proof (accepts_len _ _ _ _ A S B); unfold byw; lia|]. unfold labw. destruct (stmt_label (fst x)) as [n|] eqn:E; [|apply zlen_nonneg].
  pose proof (accepts_label _ _ _ _ A E). lia.
Qed.
Lemma lines_nonempty l ls : source_lines l ls -> Forall (fun r => 1 <= zlen r) ls.
Proof.
  intro S. induction S as [|l N I|l rest ls I S IH]; constructor; try assumption; try constructor.
  - destruct l; [congruence|]. unfold zlen. cbn [length]. lia.
  - rewrite zlen_app. pose proof (zlen_nonneg l). change (zlen [10]) with 1. lia.
Qed.
Lemma source_bounds p input pr : source_is p input pr -> lsum byw pr <= 4 * zlen input /\ lsum labw pr <= zlen input /\ zlen pr <= zlen input.
Proof.
  intros (ls & Sl & F). pose proof (lines_nonempty _ _ Sl) as N. pose proof (source_lines_one _ _ Sl) as O. rewrite <- (source_lines_concat _ _ Sl). clear Sl.
  revert N O. induction F as [|raw x ls pr L F IH]; intros N O; [cbn; lia|]. inversion N as [|? ? N1 N2]; subst. inversion O as [|? ? O1 O2]; subst.
  destruct (IH N2 O2) as (I1 & I2 & I3). destruct (line_bounds _ _ _ O1 L) as [B1 B2]. cbn [concat]. rewrite zlen_app. change (lsum byw (x :: pr)) with (byw x + lsum byw pr).
  change (lsum labw (x :: pr)) with (labw x + lsum labw pr). change (zlen (x :: pr)) with (zlen ([x] ++ pr)). rewrite zlen_app. change (zlen [x]) with 1. lia.
Qed.
Lemma lsum_app {A} (f : A -> Z) a b : lsum f (a ++ b) = lsum f a + lsum f b.
Proof. induction a as [|x a IH]; [reflexivity|]. change (lsum f ((x :: a) ++ b)) with (f x + lsum f (a ++ b)). change (lsum f (x :: a)) with (f x + lsum f a). lia. Qed.
Lemma sources_bounds p ins pr : sources_are p ins pr -> lsum byw pr <= 4 * total ins /\ lsum labw pr <= total ins /\ zlen pr <= total ins.
Proof.
  intros (prs & F & ->). unfold total. induction F as [|i x ins prs S F IH]; [cbn; lia|]. cbn [concat]. rewrite !lsum_app, !zlen_app. pose proof (source_bounds _ _ _ S). lia.
Qed.

(** ** The object *)

Definition nmw (y : symbol) : Z := zlen (utf8 (sym_name y)) + 1.
Lemma nmw_pos y : 0 <= nmw y.
Proof. unfold nmw. pose proof (zlen_nonneg (utf8 (sym_name y))). lia. Qed.
Lemma names_len_sum o : Z.of_nat (names_len o) = lsum (fun x => nmw (snd x)) (syms o).
Proof.
  unfold names_len, names. induction (syms o) as [|[[k a] y] l IH]; [reflexivity|]. cbn [map flat_map]. rewrite app_length, Nat2Z.inj_add, IH.
  match goal with |- _ = lsum ?f (?x :: ?l) => change (lsum f (x :: l)) with (f x + lsum f l) end. cbn [snd]. f_equal. unfold nmw, zlen. rewrite app_length. cbn [length]. lia.
Qed.
Lemma syms_sum f o : (forall y, 0 <= f y) -> lsum (fun x => f (snd x)) (syms o) <= lsum f (every_symbol o).
Proof.
  intro P. assert (M : forall k a l, lsum (fun x : nat * Z * symbol => f (snd x)) (map (fun y => (k, a, y)) l) = lsum f l).
  { intros k a l. induction l as [|y l IH]; [reflexivity|]. cbn [map]. cbn. unfold lsum in IH. now rewrite IH. }
  unfold syms, placed, secs, every_symbol. rewrite !lsum_app. pose proof (lsum_pos f (bs_symbols (o_text o)) P). pose proof (lsum_pos f (bs_symbols (o_data o)) P). pose proof (lsum_pos f (bss_symbols (o_bss o)) P).
  cbn [filter]. destruct (0 <? os_size (text_sec o)), (0 <? os_size (data_sec o)), (0 <? os_size (bss_sec o)); cbn [place flat_map]; rewrite ?lsum_app, ?M; cbn [text_sec data_sec bss_sec os_syms];
    change (lsum (fun x : nat * Z * symbol => f (snd x)) []) with 0; lia.
Qed.
Lemma lsum_map {A B} (g : A -> B) f l : lsum f (map g l) = lsum (fun x => f (g x)) l.
Proof. induction l as [|x l IH]; [reflexivity|]. cbn. unfold lsum in IH. now rewrite IH. Qed.
Lemma object_symbols f pr : lsum f (every_symbol (object_of pr)) =
  lsum (fun x => f (SyRef (fst x) (snd x) (is_global pr (fst x)))) (out_labels 0 (during SText SText pr)) +
  (lsum (fun x => f (SyRef (fst x) (snd x) (is_global pr (fst x)))) (out_labels 0 (during SData SText pr)) +
   lsum (fun x => f (SyRef (fst x) (snd x) (is_global pr (fst x)))) (out_labels 0 (during SBss SText pr))).
Proof. unfold every_symbol. rewrite !lsum_app. cbn [object_of sec_of o_text o_data o_bss bs_symbols bss_symbols]. now rewrite !lsum_map. Qed.
Lemma object_bounds pr : let o := object_of pr in
  zlen (bs_bytes (o_text o)) + zlen (bs_bytes (o_data o)) <= lsum byw pr /\
  zlen (syms o) <= zlen pr /\ Z.of_nat (names_len o) <= lsum labw pr /\ zlen (rels o) <= zlen pr /\
  zlen (flat_map os_bytes (secs o)) <= zlen (bs_bytes (o_text o)) + zlen (bs_bytes (o_data o)) /\
  vm_total o <= zlen (bs_bytes (o_text o)) + zlen (bs_bytes (o_data o)) /\ (length (secs o) <= 2)%nat /\
  Forall (fun '(_, a, y) => match y with SyRef _ off _ => 0 <= a /\ a + off <= zlen (bs_bytes (o_text o)) + zlen (bs_bytes (o_data o)) | _ => False end) (syms o).
Proof.
  cbv zeta. set (o := object_of pr). pose proof (during_count pr) as Dc. pose proof (lsum_during byw pr byw_pos SText) as D1. pose proof (lsum_during labw pr labw_pos SText) as D2.
  pose proof (lsum_pos byw (during SBss SText pr) byw_pos) as D3. pose proof (zlen_nonneg (during SBss SText pr)) as D4. rewrite <- !lsum_bytes in D1. rewrite (lsum_bytes pr) in D1.
  assert (E1 : bs_bytes (o_text o) = out_bytes (during SText SText pr)) by reflexivity. assert (E2 : bs_bytes (o_data o) = out_bytes (during SData SText pr)) by reflexivity.
  assert (E3 : bs_relocs (o_text o) = bs_relocs (sec_of pr SText)) by reflexivity. assert (E4 : bs_relocs (o_data o) = bs_relocs (sec_of pr SData)) by reflexivity.
  assert (R1 : zlen (bs_relocs (o_text o)) <= zlen (during SText SText pr)) by (rewrite E3; cbn [sec_of bs_relocs]; rewrite zlen_map; apply relocs_count).
  assert (R2 : zlen (bs_relocs (o_data o)) <= zlen (during SData SText pr)) by (rewrite E4; cbn [sec_of bs_relocs]; rewrite zlen_map; apply relocs_count).
  assert (P1 := zlen_nonneg (bs_bytes (o_text o))). assert (P2 := zlen_nonneg (bs_bytes (o_data o))).
  assert (P3 := zlen_nonneg (bs_relocs (o_text o))). assert (P4 := zlen_nonneg (bs_relocs (o_data o))). pose proof (zlen_nonneg (out_bytes (during SBss SText pr))) as P5.
  assert (Bz : os_size (bss_sec o) = 0) by reflexivity.
  split; [rewrite E1, E2; lia|]. split; [|split; [|split; [|split; [|split; [|split]]]]].
  - rewrite <- lsum_len. pose proof (syms_sum (fun _ => 1) o ltac:(intro; lia)) as S. cbv beta in S. unfold o in S at 2. rewrite object_symbols in S. cbv beta in S.
    rewrite !lsum_len in S. rewrite lsum_len. pose proof (labels_count (during SText SText pr) 0). pose proof (labels_count (during SData SText pr) 0). pose proof (labels_count (during SBss SText pr) 0). lia.
  - rewrite names_len_sum. pose proof (syms_sum nmw o nmw_pos) as S. unfold o in S at 2. rewrite object_symbols in S. unfold nmw in S at 2 3 4. cbn [sym_name] in S.
    rewrite !lsum_labels in S. lia.
  - unfold rels, secs. cbn [filter]. rewrite Bz. change (0 <? 0) with false. cbv iota.
    destruct (0 <? os_size (text_sec o)), (0 <? os_size (data_sec o)); cbn [flat_map text_sec data_sec os_rels]; rewrite ?zlen_app; change (zlen (@nil reloc)) with 0; lia.
  - unfold secs. cbn [filter]. rewrite Bz. change (0 <? 0) with false. cbv iota.
    destruct (0 <? os_size (text_sec o)), (0 <? os_size (data_sec o)); cbn [flat_map text_sec data_sec os_bytes]; rewrite ?zlen_app; change (zlen (@nil Z)) with 0; lia.
  - unfold vm_total, secs. cbn [filter]. rewrite Bz. change (0 <? 0) with false. cbv iota.
    destruct (0 <? os_size (text_sec o)), (0 <? os_size (data_sec o)); cbn [map fold_right text_sec data_sec os_size]; lia.
  - unfold secs. cbn [filter]. rewrite Bz. change (0 <? 0) with false. cbv iota. destruct (0 <? os_size (text_sec o)), (0 <? os_size (data_sec o)); cbn; lia.
  - assert (L1 := proj1 (labels_sorted (during SText SText pr) 0)). assert (L2 := proj1 (labels_sorted (during SData SText pr) 0)). rewrite <- E1 in L1. rewrite <- E2 in L2.
    assert (M1 : forall k a, 0 <= a -> a + zlen (bs_bytes (o_text o)) <= zlen (bs_bytes (o_text o)) + zlen (bs_bytes (o_data o)) -> Forall (fun '(_, a, y) => match y with SyRef _ off _ => 0 <= a /\ a + off <= zlen (bs_bytes (o_text o)) + zlen (bs_bytes (o_data o)) | _ => False end)
      (map (fun y => (k : nat, a, y)) (os_syms (text_sec o)))).
    { intros k a La Lb. apply Forall_map. change (os_syms (text_sec o)) with (map (fun x => SyRef (fst x) (snd x) (is_global pr (fst x))) (out_labels 0 (during SText SText pr))). apply Forall_map.
      eapply Forall_impl; [|exact L1]. cbv beta. intros x Hx. lia. }
    assert (M2 : forall k a, 0 <= a -> a + zlen (bs_bytes (o_data o)) <= zlen (bs_bytes (o_text o)) + zlen (bs_bytes (o_data o)) -> Forall (fun '(_, a, y) => match y with SyRef _ off _ => 0 <= a /\ a + off <= zlen (bs_bytes (o_text o)) + zlen (bs_bytes (o_data o)) | _ => False end)
      (map (fun y => (k : nat, a, y)) (os_syms (data_sec o)))).
    { intros k a La Lb. apply Forall_map. change (os_syms (data_sec o)) with (map (fun x => SyRef (fst x) (snd x) (is_global pr (fst x))) (out_labels 0 (during SData SText pr))). apply Forall_map.
      eapply Forall_impl; [|exact L2]. cbv beta. intros x Hx. lia. }
    unfold syms, placed, secs. cbn [filter]. rewrite Bz. change (0 <? 0) with false. cbv iota. change (os_size (text_sec o)) with (zlen (bs_bytes (o_text o))). change (os_size (data_sec o)) with (zlen (bs_bytes (o_data o))).
    destruct (0 <? zlen (bs_bytes (o_text o))), (0 <? zlen (bs_bytes (o_data o))); cbn [place flat_map]; rewrite ?app_nil_r; try constructor;
      rewrite ?Forall_app; repeat split; first [apply M1|apply M2]; change (os_size (text_sec o)) with (zlen (bs_bytes (o_text o))); lia.
Qed.
Lemma file_bound pr : Z.of_nat (file_len (object_of pr)) <= 296 + lsum byw pr + 24 * zlen pr + lsum labw pr.
Proof.
  destruct (object_bounds pr) as (O1 & O2 & O3 & O4 & O5 & O6 & O7 & O8). set (o := object_of pr) in *. unfold file_len, pos_strs, pos_syms, pos_rels, pos_data, pos_symtab, pos_sections, data_len, round8.
  assert (R8 : forall n : nat, (8 * ((n + 7) / 8) <= n + 7)%nat) by (intro n; apply Nat.mul_div_le; lia).
  specialize (R8 (length (flat_map os_bytes (secs o)))). unfold zlen in *.
  set (q := (8 * ((length (flat_map os_bytes (secs o)) + 7) / 8))%nat) in *. clearbody q. clear - R8 O1 O2 O3 O4 O5 O7. lia.
Qed.
Lemma top_C90_bytes p input pr : source_is p input pr -> zlen (out_bytes pr) <= 4 * zlen input.
Proof. intro S. rewrite lsum_bytes. apply (source_bounds p input pr S). Qed.
Lemma top_C90_sizes p ins pr : sources_are p ins pr -> ordinary ins ->
  fits (object_of pr) /\ small pr /\ zlen (syms (object_of pr)) <= 2 ^ 24 /\ zlen pr <= 2 ^ 24 /\ forall p', size_ok p' pr.
Proof.
  intros S O. unfold ordinary in O. destruct (sources_bounds _ _ _ S) as (B1 & B2 & B3).
  destruct (object_bounds pr) as (O1 & O2 & O3 & O4 & O5 & O6 & O7 & O8). set (o := object_of pr) in *.
  assert (Sm : small pr).
  { unfold small. change (out_bytes (during SText SText pr)) with (bs_bytes (o_text o)). change (out_bytes (during SData SText pr)) with (bs_bytes (o_data o)).
    pose proof (zlen_nonneg (bs_bytes (o_text o))). pose proof (zlen_nonneg (bs_bytes (o_data o))). lia. }
  split; [|split; [exact Sm|split; [lia|split; [lia|]]]].
  - unfold fits, pos_strs, pos_syms, pos_rels, pos_data, pos_symtab, pos_sections, data_len, round8. split; [|split].
    + assert (R8 : forall n : nat, (8 * ((n + 7) / 8) <= n + 7)%nat) by (intro n; apply Nat.mul_div_le; lia).
      specialize (R8 (length (flat_map os_bytes (secs o)))). unfold zlen in *. split; [|lia].
      set (q := (8 * ((length (flat_map os_bytes (secs o)) + 7) / 8))%nat) in *. clearbody q. clear - R8 O1 O2 O3 O4 O5 O7 B1 B2 B3 O. lia.
    + lia.
    + eapply Forall_impl; [|exact O8]. intros [[k a] y]. destruct y; try tauto. intros. lia.
  - intros p' _. split; [exact Sm|lia].
Qed.

(** ** Runs *)

Lemma lines_bounds p ls pr : Forall2 (line_is p) ls pr -> Forall (fun r => 1 <= zlen r) ls ->
  Forall (fun raw => exists b, ~ In 10 b /\ (raw = b \/ raw = b ++ [10])) ls ->
  lsum byw pr <= 4 * zlen (concat ls) /\ zlen pr <= zlen (concat ls).
Proof.
  intro F. induction F as [|raw x ls pr L F IH]; intros N O; [cbn; lia|]. inversion N as [|? ? N1 N2]; subst. inversion O as [|? ? O1 O2]; subst.
  destruct (IH N2 O2) as (I1 & I3). destruct (line_bounds _ _ _ O1 L) as [B1 B2]. cbn [concat]. rewrite zlen_app. change (lsum byw (x :: pr)) with (byw x + lsum byw pr).
  change (zlen (x :: pr)) with (zlen ([x] ++ pr)). rewrite zlen_app. change (zlen [x]) with 1. lia.
Qed.
Lemma prefix_size p p' src good rest pr : source_lines src (good ++ rest) -> zlen src <= 2 ^ 24 -> Forall2 (line_is p) good pr -> size_ok p' pr /\ zlen pr <= 2 ^ 24.
Proof.
  intros Sl O F. pose proof (lines_nonempty _ _ Sl) as N. pose proof (source_lines_one _ _ Sl) as On. pose proof (source_lines_concat _ _ Sl) as E.
  apply Forall_app in N. apply Forall_app in On. destruct (lines_bounds _ _ _ F (proj1 N) (proj1 On)) as [B1 B2].
  assert (L : zlen (concat good) <= 2 ^ 24) by (rewrite <- E, concat_app, zlen_app in O; pose proof (zlen_nonneg (concat rest)); lia).
  split; [|lia]. intros _. split; [|lia]. unfold small. pose proof (lsum_during byw pr byw_pos SText) as D1. pose proof (lsum_pos byw (during SBss SText pr) byw_pos) as D3.
  rewrite !lsum_bytes. pose proof (lsum_pos byw (during SText SText pr) byw_pos). pose proof (lsum_pos byw (during SData SText pr) byw_pos). lia.
Qed.
Lemma passes_clean p pr raws pr' : passes p pr raws pr' -> bss_clean pr -> bss_clean pr'.
Proof.
  induction 1 as [pr|pr raw [st bs] raws pr' L Nc Wx P IH]; intro C; [exact C|]. apply IH. apply bss_clean_snoc. split; [exact C|exact Wx].
Qed.
Lemma passes_runs p src good rest pr : source_lines src (good ++ rest) -> zlen src <= 2 ^ 24 -> (passes p [] good pr <-> runs p good pr).
Proof.
  intros Sl O. split.
  - intro P. destruct (passes_lines _ _ _ _ P) as (prs & E & F). cbn [app] in E. subst prs. split; [exact F|]. eapply passes_clean; [exact P|constructor].
  - intros [F C]. exact (passes_small p good pr F [] C (proj1 (prefix_size p p src good rest pr Sl O F))).
Qed.
Lemma crashes_line p src good bad rest pr : source_lines src (good ++ bad :: rest) -> zlen src <= 2 ^ 24 -> Forall2 (line_is p) good pr ->
  (crashes p pr bad <-> line_crashes p pr bad).
Proof.
  intros Sl O F. destruct (prefix_size p p _ _ _ _ Sl O F) as [_ Ln]. split.
  - intros [U|P M|s body d o ts P E S0 T Mb D Wd Ov|x Q1 Q2 Q3|x sy k Q1 P Q2 Q3 Q4].
    + now apply lc_utf8.
    + exfalso. pose proof (zlen_nonneg pr). rewrite Z.mod_small in M by lia. lia.
    + eapply lc_expr; eassumption.
    + eapply lc_bss; eassumption.
    + exfalso. assert (Sl' : source_lines src ((good ++ [bad]) ++ rest)) by now rewrite <- app_assoc.
      assert (F' : Forall2 (line_is p) (good ++ [bad]) (pr ++ [x])) by (apply Forall2_app; [exact F|constructor; [exact Q1|constructor]]).
      destruct (prefix_size p p _ _ _ _ Sl' O F') as [Sz _]. apply (small_no_crash p pr bad x Q1 Sz); [intro; congruence|]. eapply cr_huge; eassumption.
  - intros [U|s body d o ts P E S0 T Mb D Wd Ov|x Q1 Q2 Q3]; [now apply cr_utf8|eapply cr_expr; eassumption|eapply cr_bss; eassumption].
Qed.
Lemma errors_line p src good bad rest pr e : source_lines src (good ++ bad :: rest) -> zlen src <= 2 ^ 24 -> Forall2 (line_is p) good pr ->
  (ends_with_error p pr bad e <-> line_errors p pr bad e).
Proof.
  intros Sl O F. unfold ends_with_error, line_errors. rewrite (crashes_line _ _ _ _ _ _ Sl O F). destruct (prefix_size p p _ _ _ _ Sl O F) as [_ Ln].
  pose proof (zlen_nonneg pr). rewrite Z.mod_small by lia. reflexivity.
Qed.

Section Run.
  Variables (p : profile) (h : endian) (args : list str) (w : world) (cf : config) (i o : Z) (src : list Z) (ls : list (list Z)).
  Hypothesis C : config_init args = Done cf.
  Hypothesis I : w_slot w (cf_input cf) = Some i.
  Hypothesis D : w_data w i = Some src.
  Hypothesis O : w_slot w (cf_output cf) = Some o.
  Hypothesis N : i <> o.
  Hypothesis B : bytes_ok src.
  Hypothesis Z0 : ~ In 0 src.
  Hypothesis Sz : zlen src <= 2 ^ 24.
  Lemma one_ordinary : ordinary [src].
  Proof using Sz. unfold ordinary, total. cbn [concat]. now rewrite app_nil_r. Qed.
  Lemma one_is q ks pr : source_lines src ks -> Forall2 (line_is q) ks pr -> sources_are q [src] pr.
  Proof using. intros Sl F. exists [pr]. split; [constructor; [|constructor]; exists ks; auto|]. cbn [concat]. now rewrite app_nil_r. Qed.
  Lemma top_C90_status : source_lines src ls ->
    (status (snd (main p h args w)) = 0 <-> exists pr, runs p ls pr /\ linkable pr) /\
    (status (snd (main p h args w)) = 1 <->
      exists e good bad rest pr, ls = good ++ bad :: rest /\ runs p good pr /\ line_errors p pr bad e) /\
    (status (snd (main p h args w)) = 101 <->
      (exists good bad rest pr, ls = good ++ bad :: rest /\ runs p good pr /\ line_crashes p pr bad) \/
      (exists pr, runs p ls pr /\ ~ linkable pr)).
  Proof using C I D O N B Z0 Sz.
    intro Sl. assert (Sl0 : source_lines src (ls ++ [])) by now rewrite app_nil_r.
    assert (Pw : forall pr, passes p [] ls pr <-> runs p ls pr) by (intro pr; exact (passes_runs p src ls [] pr Sl0 Sz)).
    assert (Pg : forall good bad rest pr, ls = good ++ bad :: rest -> (passes p [] good pr <-> runs p good pr)) by (intros good bad rest pr ->; exact (passes_runs p src good _ pr Sl Sz)).
    assert (Pc : forall good bad rest pr, ls = good ++ bad :: rest -> runs p good pr -> (crashes p pr bad <-> line_crashes p pr bad)) by (intros good bad rest pr -> R; exact (crashes_line p src good bad rest pr Sl Sz (proj1 R))).
    assert (Pe : forall good bad rest pr e, ls = good ++ bad :: rest -> runs p good pr -> (ends_with_error p pr bad e <-> line_errors p pr bad e)) by (intros good bad rest pr e -> R; exact (errors_line p src good bad rest pr e Sl Sz (proj1 R))).
    assert (Ft : forall pr, passes p [] ls pr -> fits (object_of pr)).
    { intros pr P. apply Pw in P. exact (proj1 (top_C90_sizes p [src] pr (one_is p ls pr Sl (proj1 P)) one_ordinary)). }
    destruct (top_C71_status p h args w cf i o src ls C I D O N B Z0 Sl Ft) as (H0 & H1 & H2). rewrite H0, H1, H2. clear H0 H1 H2. split; [|split].
    - split; intros (pr & P & K); exists pr; (split; [now apply Pw|exact K]).
    - split; intros (e & good & bad & rest & pr & E & P & K); exists e, good, bad, rest, pr; (split; [exact E|]).
      + apply (Pg _ _ _ _ E) in P. split; [exact P|]. now apply (Pe _ _ _ _ e E P).
      + split; [now apply (Pg _ _ _ _ E)|]. now apply (Pe _ _ _ _ e E P).
    - split; (intros [(good & bad & rest & pr & E & P & K)|(pr & P & K)]; [left; exists good, bad, rest, pr; split; [exact E|]|right; exists pr; split; [now apply Pw|exact K]]).
      + apply (Pg _ _ _ _ E) in P. split; [exact P|]. now apply (Pc _ _ _ _ E P).
      + split; [now apply (Pg _ _ _ _ E)|]. now apply (Pc _ _ _ _ E P).
  Qed.
  Lemma top_C90_command pr : sources_are p [src] pr -> status (snd (main p h args w)) = 0 ->
    exists f, w_data (fst (main p h args w)) o = Some f /\ zlen f <= 29 * zlen src + 296 /\ forall loc,
      (forall n, lookup h f loc n = if is_global pr n then label_addr loc pr n else None) /\
      (forall s, s <> SBss -> out_bytes (during s SText pr) <> [] ->
        exists bss, Forall2 (linked_stmt (label_addr loc pr)) (during s SText pr) bss /\ link h f loc (ordinal pr s) = Some (concat bss)).
  Proof using C I D O N B Z0 Sz.
    intros Sr St. destruct (top_C90_sizes p [src] pr Sr one_ordinary) as (Ft & Sm & Ns & _ & _).
    destruct (top_C64_file p h args w cf i o src pr C I D O N B Z0 Sr Ft Sm Ns St) as (f & Ef & L). exists f. split; [exact Ef|]. split; [|exact L].
    pose proof (top_C54_output p h args w cf i o src C I D O N) as M. destruct (read_from p asm_new src) as [a|c e|] eqn:R.
    - destruct M as [M1 M2]. assert (Ws : snd (asm_write_into p h a) = true) by (rewrite M2 in St; destruct (snd (asm_write_into p h a)); [reflexivity|discriminate]).
      rewrite M1 in Ef. injection Ef as <-. apply session_one in R. destruct (session_facts p [src] a ltac:(constructor; [exact B|constructor]) R) as (pr' & Sr' & Cl & _ & _ & Eo).
      assert (pr' = pr) by (eapply sources_are_fun; eassumption). subst pr'. pose proof (session_rng _ _ _ Sr Cl Ft) as Rn.
      unfold asm_write_into in *. rewrite Eo in *. destruct (macho_write_into p h (object_of pr)) as [f ok] eqn:Wf. cbn [fst snd] in *. subst ok.
      destruct (write_inv p h _ f Rn Ft Wf) as [Rp ->]. pose proof (sources_bounds _ _ _ Sr) as Bd. unfold total in Bd. cbn [concat] in Bd. rewrite app_nil_r in Bd.
      pose proof (file_bound pr) as Fb. unfold zlen at 1. rewrite (f_len h _ Rn Ft Rp). lia.
    - exfalso. destruct M as [_ M]. rewrite M in St. cbn [status] in St. subst c. pose proof (read_exit p src 0 e B R). discriminate.
    - exfalso. destruct M as [_ M]. rewrite M in St. discriminate.
  Qed.
End Run.

(** ** The two builds *)

Lemma accepts_debug body st : accepts Debug body st -> accepts Release body st.
Proof.
  assert (E : forall ts n, expr_value Debug ts n -> expr_value Release ts n) by (intros ts n V; destruct V; econstructor; eauto; discriminate).
  assert (M : forall d o st, mov_operands Debug d o st -> mov_operands Release d o st) by (intros d o s0 V; destruct V; econstructor; eauto).
  intro A. destruct A; econstructor; eauto.
Qed.
Lemma line_is_debug raw x : line_is Debug raw x -> line_is Release raw x.
Proof. intros (s & body & E & So & T & A & Sb). exists s, body. split; [exact E|]. split; [exact So|]. split; [exact T|]. split; [now apply accepts_debug|exact Sb]. Qed.
Lemma runs_debug raws pr : runs Debug raws pr -> runs Release raws pr.
Proof. intros [F C]. split; [|exact C]. clear C. induction F; constructor; [now apply line_is_debug|assumption]. Qed.
Lemma read_builds src ls : bytes_ok src -> zlen src <= 2 ^ 24 -> source_lines src ls ->
  ~ (exists good bad rest pr, ls = good ++ bad :: rest /\ runs Debug good pr /\ overflowing bad) ->
  read_from Debug asm_new src = read_from Release asm_new src.
Proof.
  intros B Sz Sl No. destruct (read_from Debug asm_new src) as [a|c e|] eqn:R; try (rewrite <- R; symmetry; apply top_C72_read; rewrite R; discriminate).
  symmetry. apply (proj1 (top_crash Debug [] asm_new [] src ls (Forall_nil _) B (ses_new Debug) (no_source Debug) Sl)) in R.
  destruct R as (good & bad & rest & pr & -> & P & Cr). apply (passes_runs Debug src good _ pr Sl Sz) in P. apply (crashes_line Debug src good bad rest pr Sl Sz (proj1 P)) in Cr.
  apply (top_crash Release [] asm_new [] src (good ++ bad :: rest) (Forall_nil _) B (ses_new Release) (no_source Release) Sl). exists good, bad, rest, pr.
  pose proof (runs_debug _ _ P) as P'. split; [reflexivity|]. split; [now apply (passes_runs Release src good _ pr Sl Sz)|].
  apply (crashes_line Release src good bad rest pr Sl Sz (proj1 P')). destruct Cr as [U|s body d o ts Q E S0 T Mb D Wd Ov|x Q1 Q2 Q3].
  - now apply lc_utf8.
  - exfalso. apply No. exists good, bad, rest, pr. split; [reflexivity|]. split; [exact P|]. exists s, body, d, o, ts. tauto.
  - eapply lc_bss; [apply line_is_debug; exact Q1| |]; assumption.
Qed.
Lemma top_C90_builds h args w cf i src ls : config_init args = Done cf -> w_slot w (cf_input cf) = Some i -> w_data w i = Some src ->
  bytes_ok src -> zlen src <= 2 ^ 24 -> source_lines src ls ->
  ~ (exists good bad rest pr, ls = good ++ bad :: rest /\ runs Debug good pr /\ overflowing bad) ->
  main Debug h args w = main Release h args w.
Proof.
  intros C I D B Sz Sl No.
  assert (G : forall o, ran Debug h w o (if i =? o then [] else src) = ran Release h w o (if i =? o then [] else src)).
  { intro o. destruct (i =? o); [reflexivity|]. unfold ran. pose proof (read_builds src ls B Sz Sl No) as E.
    destruct (read_from Debug asm_new src) as [a|c e|] eqn:R; rewrite <- E; try reflexivity.
    replace (asm_write_into Release h a) with (asm_write_into Debug h a); [reflexivity|]. apply session_one in R.
    destruct (session_facts Debug [src] a ltac:(constructor; [exact B|constructor]) R) as (pr & Sr & Cl & _ & _ & Eo). unfold asm_write_into. rewrite Eo.
    destruct (top_C90_sizes Debug [src] pr Sr (one_ordinary src Sz)) as (Ft & _). pose proof (session_rng _ _ _ Sr Cl Ft) as Rn.
    apply top_C87_keeps; try assumption. split; [|reflexivity]. induction (secs (object_of pr)) as [|s l IH]; constructor; [repeat split|exact IH]. }
  unfold main. rewrite C, I, D. destruct (w_slot w (cf_output cf)) as [o|]; [|reflexivity]. specialize (G o). cbv zeta.
  assert (Ei : w_data (put w o []) i = Some (if i =? o then [] else src)) by (unfold put; cbn [w_data]; destruct (i =? o); [reflexivity|exact D]).
  rewrite Ei. exact G.
Qed.
