(** Proofs about the place of a statement's bytes in a file. *)
From Coq Require Import ZifyBool ZifyNat.
From Verif Require Import Base Str X64 SpecX86 Obj SpecObj Asm SpecAsm Assembler SpecRun SpecLocal.
From Verif Require Import PfStr PfTok PfX64 PfX86 PfX64Top PfBytes PfAsm PfData PfLine PfLine2 PfDiag PfRun PfRun2 PfRun3 PfRun4 PfRun5 PfLocal.

Lemma alike_refl x : alike_stmt x x.
Proof. repeat split; auto. Qed.
Lemma alike_refls l : Forall2 alike_stmt l l.
Proof. induction l; constructor; auto using alike_refl. Qed.
Lemma alike_zlen x y : alike_stmt x y -> zlen (snd x) = zlen (snd y).
Proof. intros (L & _). unfold zlen. lia. Qed.

(** the statement is a directive `section` or not *)
Lemma alike_sect x y : alike_stmt x y -> (exists s, fst x = StSection s /\ fst y = StSection s) \/
  ((forall s, fst x <> StSection s) /\ (forall s, fst y <> StSection s)).
Proof.
  intros (_ & _ & _ & _ & S & _). destruct (fst x) as [|s| | | | | |] eqn:E.
  2: { left. exists s. split; [reflexivity|]. now apply S. }
  all: right; split; intros s H; [discriminate|]; apply S in H; discriminate.
Qed.
Lemma during_cons s cur x pr : (forall s, fst x <> StSection s) ->
  during s cur (x :: pr) = (if sect_eqb s cur then [x] else []) ++ during s cur pr.
Proof. intro N. destruct x as [st bs]. cbn [fst] in N. destruct st; try reflexivity. now destruct (N s0). Qed.
Lemma last_cons cur x pr : (forall s, fst x <> StSection s) -> last_sect cur (x :: pr) = last_sect cur pr.
Proof. intro N. destruct x as [st bs]. cbn [fst] in N. destruct st; try reflexivity. now destruct (N s). Qed.

Lemma alike_during s pr pr' : Forall2 alike_stmt pr pr' -> forall cur,
  Forall2 alike_stmt (during s cur pr) (during s cur pr') /\ last_sect cur pr = last_sect cur pr'.
Proof.
  intro F. induction F as [|x y pr pr' H F IH]; intro cur; [split; [constructor|reflexivity]|].
  destruct (alike_sect _ _ H) as [(s' & E & E')|[N N']].
  - destruct x as [st bs], y as [st' bs']. cbn [fst] in *. subst. cbn [during last_sect]. apply IH.
  - rewrite !during_cons, !last_cons by assumption. destruct (IH cur) as [F' L]. split; [|exact L].
    apply Forall2_app; [|exact F']. destruct (sect_eqb s cur); repeat constructor; apply H.
Qed.
Lemma alike_bytes l l' : Forall2 alike_stmt l l' -> length (out_bytes l) = length (out_bytes l').
Proof.
  intro F. induction F as [|x y l l' H F IH]; [reflexivity|]. unfold out_bytes in *. cbn [flat_map]. rewrite !app_length, IH.
  destruct H as (L & _). lia.
Qed.
Lemma alike_labels l l' : Forall2 alike_stmt l l' -> forall off, out_labels off l = out_labels off l' /\ out_relocs off l = out_relocs off l'.
Proof.
  intro F. induction F as [|x y l l' H F IH]; intro off; [split; reflexivity|]. pose proof (alike_zlen _ _ H) as Z.
  destruct H as (_ & L & R & _). destruct x as [st bs], y as [st' bs']. cbn [fst snd] in *. cbn [out_labels out_relocs].
  rewrite Z, L, R. destruct (IH (off + zlen bs')) as [-> ->]. split; reflexivity.
Qed.
Lemma alike_globals l l' : Forall2 alike_stmt l l' -> globals l = globals l'.
Proof.
  intro F. induction F as [|x y l l' H F IH]; [reflexivity|]. unfold globals in *. cbn [flat_map]. rewrite IH. f_equal.
  destruct H as (_ & _ & _ & _ & _ & G).
  destruct (fst x) eqn:E; try (destruct (fst y) eqn:E'; try reflexivity; discriminate (proj2 (G _) eq_refl)).
  rewrite (proj1 (G _) eq_refl). reflexivity.
Qed.

Lemma alike_shape pr pr' : Forall2 alike_stmt pr pr' -> same_shape (object_of pr) (object_of pr').
Proof.
  intro F. pose proof (alike_globals _ _ F) as G.
  assert (D : forall s, Forall2 alike_stmt (during s SText pr) (during s SText pr')) by (intro s; apply alike_during; exact F).
  unfold same_shape, object_of, sec_of, is_global. cbn [o_text o_data o_bss bs_bytes bs_symbols bs_relocs]. rewrite G.
  rewrite !(proj1 (alike_labels _ _ (D _) 0)), !(proj2 (alike_labels _ _ (D _) 0)).
  repeat split; apply alike_bytes, D.
Qed.

(** ** The source is accepted *)

Lemma alike_crash p q q' raw raw' x y : Forall2 alike_stmt q q' -> alike_stmt x y -> line_is p raw x -> line_is p raw' y ->
  ~ crashes p q raw -> ~ crashes p q' raw'.
Proof.
  intros F H L L' N C. pose proof (alike_zlen _ _ H) as Zx. destruct H as (_ & _ & R & _).
  assert (Hu : forall z, line_is p raw' z -> z = y) by (intros z Hz; eapply line_is_fun; eassumption).
  pose proof (proj2 (alike_during SText _ _ F SText)) as LS.
  destruct C as [U|P M|s body d o ts P E S0 T Mb D Wd O|z Q1 Q2 Q3|z sy k Q1 P Q2 Q3 Q4].
  - destruct L' as (s & body & E & S0 & _). now apply (U s).
  - apply N. apply cr_count; [exact P|]. unfold zlen in *. now rewrite (rel_length _ _ _ F).
  - destruct L' as (s' & body' & E' & S' & T' & A' & _). assert (s' = s) by (apply utf8_inj; congruence). subst s'.
    assert (PP : line_parse p s = PPanic) by (apply line_panic; split; [exact P|]; exists body, d, o, ts; tauto).
    destruct (line_complete p s _ _ T' A') as (l & PO & _). congruence.
  - apply Hu in Q1. subst z. apply N. apply (cr_bss p q raw x); congruence.
  - apply Hu in Q1. subst z. apply N. apply (cr_huge p q raw x sy k); try congruence.
    rewrite LS, Zx. unfold zlen at 1. rewrite (alike_bytes _ _ (proj1 (alike_during (last_sect SText q') _ _ F SText))). exact Q4.
Qed.
Lemma alike_passes p raws pr : Forall2 (line_is p) raws pr -> forall raws' pr' q q',
  Forall2 (line_is p) raws' pr' -> Forall2 alike_stmt q q' -> Forall2 alike_stmt pr pr' ->
  passes p q raws (q ++ pr) -> passes p q' raws' (q' ++ pr').
Proof.
  intro F. induction F as [|raw x raws pr L F IH]; intros raws' pr' q q' F' Q A P.
  - inversion A; subst. inversion F'; subst. rewrite app_nil_r. constructor.
  - inversion A as [|? y ? pr1 Hxy A1]; subst. inversion F' as [|raw' ? raws1 ? L' F1]; subst.
    inversion P as [|? ? x' ? ? Lx N W P1]; subst. assert (x' = x) by (eapply line_is_fun; eassumption). subst x'.
    apply pa_cons with (x := y); [exact L'|eapply alike_crash; eassumption| |].
    + rewrite <- (proj2 (alike_during SText _ _ Q SText)). intro E. rewrite <- (W E). symmetry. apply Hxy.
    + replace (q' ++ y :: pr1) with ((q' ++ [y]) ++ pr1) by (rewrite <- app_assoc; reflexivity).
      apply (IH raws1 pr1 (q ++ [x]) (q' ++ [y])); try assumption.
      * apply Forall2_app; [exact Q|]. repeat constructor; apply Hxy.
      * rewrite <- app_assoc. exact P1.
Qed.

Lemma alike_accepted p src src' pr pr' a : bytes_ok src -> bytes_ok src' -> source_is p src pr -> source_is p src' pr' ->
  Forall2 alike_stmt pr pr' -> read_from p asm_new src = Done a ->
  as_obj a = object_of pr /\ passes p [] (raw_lines src) pr /\
  exists a', read_from p asm_new src' = Done a' /\ as_obj a' = object_of pr'.
Proof.
  intros B B' (ls & Sl & Fl) (ls' & Sl' & Fl') A E.
  assert (S0 : sources_are p [] []) by (exists []; split; [constructor|reflexivity]).
  apply (top_done p [] asm_new [] src ls (Forall_nil _) B (ses_new p) S0 Sl) in E. destruct E as (pr0 & P & As).
  destruct (passes_lines _ _ _ _ P) as (prs & E0 & F0). cbn [app] in E0. subst prs.
  assert (pr0 = pr) by (eapply lines_fun; eassumption). subst pr0.
  pose proof (alike_passes p ls pr Fl ls' pr' [] [] Fl' (Forall2_nil _) A P) as P'. cbn [app] in P'.
  split; [apply As|]. split; [apply raw_lines_iff in Sl; subst ls; exact P|].
  destruct (exec_passes p ls' [] asm_new pr') as (a1 & E1 & _).
  { apply (session_ok p [] asm_new []); [constructor|constructor|exact S0]. }
  { apply raw_lines_iff in Sl'. subst ls'. now apply raw_lines_bytes. }
  { exact P'. }
  assert (X : exists a', read_from p asm_new src' = Done a').
  { unfold read_from. apply raw_lines_iff in Sl'. subst ls'. rewrite E1. cbn [obind]. eauto. }
  destruct X as (a' & X). exists a'. split; [exact X|].
  apply (top_done p [] asm_new [] src' ls' (Forall_nil _) B' (ses_new p) S0 Sl') in X. destruct X as (pr1 & P1 & As1).
  assert (pr1 = pr') by (eapply passes_fun; eassumption). subst pr1. apply As1.
Qed.

Lemma top_C100_source : forall p h src src' pr pr' a f b, bytes_ok src -> bytes_ok src' ->
  source_is p src pr -> source_is p src' pr' -> Forall2 alike_stmt pr pr' ->
  read_from p asm_new src = Done a -> asm_write_into p h a = (f, b) ->
  exists a' f', read_from p asm_new src' = Done a' /\ same_shape (as_obj a) (as_obj a') /\
    asm_write_into p h a' = (f', b) /\ overlaid (pos_data (as_obj a)) (contents (as_obj a)) (contents (as_obj a')) f f'.
Proof.
  intros p h src src' pr pr' a f b B B' S S' A E W.
  destruct (alike_accepted p src src' pr pr' a B B' S S' A E) as (Ea & _ & a' & E' & Ea').
  pose proof (alike_shape _ _ A) as Sh. unfold asm_write_into in *. rewrite Ea in *.
  exists a'. destruct (file_sim p h _ _ Sh) as [[X F]|(U & u & u' & r & r' & e & c & LA & X & X' & L & D & D' & Lr & T)].
  - cbn [object_of o_bss bss_size]. lia.
  - exists f. rewrite Ea'. rewrite W in X. repeat split; try (now symmetry); try apply Sh; try apply overlay_same.
  - rewrite W in X. injection X as -> ->. exists (U ++ u' ++ e). rewrite Ea'. split; [exact E'|]. split; [exact Sh|]. split; [exact X'|].
    rewrite D, D', <- LA. now apply overlay_parts.
Qed.

(** ** One line *)

Lemma mid_bytes s cur x y post : alike_stmt x y -> stmt_bytes (fst x) (snd x) -> exists R,
  out_bytes (during s cur (x :: post)) = (if sect_eqb s cur then snd x else []) ++ R /\
  out_bytes (during s cur (y :: post)) = (if sect_eqb s cur then snd y else []) ++ R.
Proof.
  intros H Bx. destruct (alike_sect _ _ H) as [(s' & E & E')|[N N']].
  - destruct H as (L & _). destruct x as [st bs], y as [st' bs']. cbn [fst snd] in *. subst. cbn [stmt_bytes] in Bx. subst bs.
    destruct bs'; [|discriminate]. cbn [during]. exists (out_bytes (during s s' post)). destruct (sect_eqb s cur); split; reflexivity.
  - exists (out_bytes (during s cur post)). rewrite !during_cons by assumption. unfold out_bytes. rewrite !flat_map_app.
    destruct (sect_eqb s cur); cbn [flat_map]; rewrite ?app_nil_r; split; reflexivity.
Qed.

Lemma bss_line p raws pr : forall q r, passes p q raws r -> forall pre x post, Forall2 (line_is p) raws pr -> pr = pre ++ x :: post ->
  last_sect SText (q ++ pre) = SBss -> stmt_writes (fst x) = false.
Proof.
  revert pr. induction raws as [|raw raws IH]; intros pr q r P pre x post F E S.
  - inversion F; subst. destruct pre; discriminate.
  - inversion P as [|? ? x' ? ? Lx N W P1]; subst. destruct pre as [|z pre]; cbn [app] in *; inversion F as [|? ? ? ? L F1]; subst.
    + rewrite app_nil_r in S. assert (x' = x) by (eapply line_is_fun; eassumption). subst x'. now apply W.
    + assert (x' = z) by (eapply line_is_fun; eassumption). subst x'.
      apply (IH (pre ++ x :: post) (q ++ [z]) r P1 pre x post F1 eq_refl). rewrite <- app_assoc. exact S.
Qed.

Lemma contents_mid pre x y post : alike_stmt x y -> stmt_bytes (fst x) (snd x) ->
  (last_sect SText pre = SBss -> snd x = []) -> exists A B, length A = place_after pre (pre ++ x :: post) /\
  contents (object_of (pre ++ x :: post)) = A ++ snd x ++ B /\ contents (object_of (pre ++ y :: post)) = A ++ snd y ++ B.
Proof.
  intros H Bx Bs. unfold contents, place_after, object_of, sec_of. cbn [o_text o_data bs_bytes].
  rewrite !during_app, !out_bytes_app.
  destruct (mid_bytes SText (last_sect SText pre) x y post H Bx) as (Rt & T1 & T2).
  destruct (mid_bytes SData (last_sect SText pre) x y post H Bx) as (Rd & D1 & D2).
  rewrite T1, T2, D1, D2. destruct (last_sect SText pre); cbn [sect_eqb app].
  - exists (out_bytes (during SText SText pre)), (Rt ++ out_bytes (during SData SText pre) ++ Rd).
    rewrite <- !app_assoc. repeat split.
  - exists (out_bytes (during SText SText pre) ++ Rt ++ out_bytes (during SData SText pre)), Rd.
    rewrite <- !app_assoc, !app_length. repeat split. lia.
  - specialize (Bs eq_refl). destruct H as (L & _). rewrite Bs in *. destruct (snd y); [|discriminate].
    eexists [], _. cbn [app length]. repeat split.
Qed.

Lemma top_C100_line : forall p h src src' pre x y post a f, bytes_ok src -> bytes_ok src' ->
  source_is p src (pre ++ x :: post) -> source_is p src' (pre ++ y :: post) -> alike_stmt x y ->
  read_from p asm_new src = Done a -> asm_write_into p h a = (f, true) ->
  exists a' A B, read_from p asm_new src' = Done a' /\
    length A = (pos_data (as_obj a) + place_after pre (pre ++ x :: post))%nat /\
    f = A ++ snd x ++ B /\ asm_write_into p h a' = (A ++ snd y ++ B, true).
Proof.
  intros p h src src' pre x y post a f B B' S S' H E W.
  assert (A : Forall2 alike_stmt (pre ++ x :: post) (pre ++ y :: post)).
  { apply Forall2_app; [apply alike_refls|]. constructor; [exact H|apply alike_refls]. }
  destruct (alike_accepted p src src' _ _ a B B' S S' A E) as (Ea & P & a' & E' & Ea').
  destruct S as (ls & Sl & Fl). pose proof (proj2 (raw_lines_iff _ _) Sl) as El. subst ls.
  assert (Bx : stmt_bytes (fst x) (snd x)).
  { apply Forall2_app_inv_r in Fl. destruct Fl as (l1 & l2 & _ & F2 & _). inversion F2 as [|? ? ? ? L _]; subst.
    now destruct L as (s & body & _ & _ & _ & _ & Q). }
  assert (Bs : last_sect SText pre = SBss -> snd x = []).
  { intro Q. pose proof (bss_line p _ _ [] _ P pre x post Fl eq_refl Q) as Wx. destruct x as [st bs]. cbn [fst snd] in *.
    destruct st; try discriminate; exact Bx. }
  destruct (contents_mid pre x y post H Bx Bs) as (U & V & LU & C1 & C2).
  pose proof (alike_shape _ _ A) as Sh. unfold asm_write_into in *. rewrite Ea in *.
  destruct (file_sim p h _ _ Sh) as [[X F]|(G & u & u' & r & r' & e & c & LA & X & X' & L & D & D' & Lr & T)].
  - cbn [object_of o_bss bss_size]. lia.
  - rewrite W in F. discriminate.
  - rewrite W in X. injection X as -> <-. specialize (T eq_refl). subst r.
    assert (r' = []) by (destruct r'; [reflexivity|discriminate]). subst r'. rewrite app_nil_r in D, D'. subst u u'.
    exists a', (G ++ U), (V ++ e). rewrite Ea', X', C1, C2, app_length, <- !app_assoc. repeat split; [exact E'|lia].
Qed.

(** ** Which statements are alike *)

Lemma instr_alike i i' bs bs' : length bs = length bs' -> alike_stmt (StInstr i, bs) (StInstr i', bs').
Proof. intro L. repeat split; cbn; try assumption; discriminate. Qed.

Lemma top_C100_numbers :
  (forall r n n' bs bs', inu 64 n -> inu 64 n' -> emits (MovRI64 r n) bs -> emits (MovRI64 r n') bs' ->
     alike_stmt (StInstr (MovRI64 r n), bs) (StInstr (MovRI64 r n'), bs') /\
     exists q, bs = q ++ le_bytes 8 n /\ bs' = q ++ le_bytes 8 n') /\
  (forall r n n' bs bs', inu 32 n -> inu 32 n' -> emits (MovRI32 r n) bs -> emits (MovRI32 r n') bs' ->
     alike_stmt (StInstr (MovRI32 r n), bs) (StInstr (MovRI32 r n'), bs') /\
     exists q, bs = q ++ le_bytes 4 n /\ bs' = q ++ le_bytes 4 n') /\
  (forall r n n' bs bs', inu 16 n -> inu 16 n' -> emits (MovRI16 r n) bs -> emits (MovRI16 r n') bs' ->
     alike_stmt (StInstr (MovRI16 r n), bs) (StInstr (MovRI16 r n'), bs') /\
     exists q, bs = q ++ le_bytes 2 n /\ bs' = q ++ le_bytes 2 n') /\
  (forall n n' bs bs', inu 8 n -> inu 8 n' -> emits (PushI8 n) bs -> emits (PushI8 n') bs' ->
     alike_stmt (StInstr (PushI8 n), bs) (StInstr (PushI8 n'), bs') /\ exists q, bs = q ++ [n] /\ bs' = q ++ [n']) /\
  (forall n n' bs bs', inu 32 n -> inu 32 n' -> emits (PushI32 n) bs -> emits (PushI32 n') bs' ->
     alike_stmt (StInstr (PushI32 n), bs) (StInstr (PushI32 n'), bs') /\
     exists q, bs = q ++ le_bytes 4 n /\ bs' = q ++ le_bytes 4 n') /\
  (forall l d d', length d = length d' -> alike_stmt (StData l d, d) (StData l d', d')).
Proof.
  assert (G : forall i i' bs bs' q x x', instr_ok i -> instr_ok i' -> emits i bs -> emits i' bs' -> length x = length x' ->
    instr_bytes i = q ++ x -> instr_bytes i' = q ++ x' ->
    alike_stmt (StInstr i, bs) (StInstr i', bs') /\ exists q, bs = q ++ x /\ bs' = q ++ x').
  { intros i i' bs bs' q x x' O O' E E' L X X'. apply emits_inv in E; [|exact O]. apply emits_inv in E'; [|exact O'].
    destruct E as [-> _], E' as [-> _]. rewrite X, X'. split; [apply instr_alike; rewrite !app_length; lia|]. exists q. split; reflexivity. }
  split; [|split; [|split; [|split; [|split]]]].
  - intros r n n' bs bs' R R' E E'. refine (G (MovRI64 r n) (MovRI64 r n') bs bs' (rexb true false false (ext64 r) ++ [0xB8 + code64 r]) _ _ R R' E E' _ _ _);
      [rewrite !le_bytes_length; reflexivity| |]; cbn [instr_bytes]; rewrite <- app_assoc; reflexivity.
  - intros r n n' bs bs' R R' E E'. refine (G (MovRI32 r n) (MovRI32 r n') bs bs' (rexb false false false (ext32 r) ++ [0xB8 + code32 r]) _ _ R R' E E' _ _ _);
      [rewrite !le_bytes_length; reflexivity| |]; cbn [instr_bytes]; rewrite <- app_assoc; reflexivity.
  - intros r n n' bs bs' R R' E E'. refine (G (MovRI16 r n) (MovRI16 r n') bs bs' ([0x66] ++ rexb false false false (ext16 r) ++ [0xB8 + code16 r]) _ _ R R' E E' _ _ _);
      [rewrite !le_bytes_length; reflexivity| |]; cbn [instr_bytes]; rewrite <- !app_assoc; reflexivity.
  - intros n n' bs bs' R R' E E'. refine (G (PushI8 n) (PushI8 n') bs bs' [0x6A] [n] [n'] R R' E E' eq_refl eq_refl eq_refl).
  - intros n n' bs bs' R R' E E'. refine (G (PushI32 n) (PushI32 n') bs bs' [0x68] _ _ R R' E E' _ eq_refl eq_refl).
    rewrite !le_bytes_length. reflexivity.
  - intros l d d' L. repeat split; cbn; try assumption; discriminate.
Qed.
