(** Proofs about the assembler state machine: properties of sessions. *)
From Coq Require String.
Import String.StringSyntax.
From Coq Require Import ZifyBool ZifyNat Sorted.
From Verif Require Import Base Str X64 SpecX86 Obj Asm SpecAsm Assembler SpecRun
  PfStr PfTok PfX64 PfX86 PfX64Top PfBytes PfAsm PfData PfLine PfLine2 PfDiag PfRun PfRun2 PfRun3 PfRun4.
Ltac Zify.zify_post_hook ::= Z.div_mod_to_equations.

Lemma session_ok p ins a pr : Forall bytes_ok ins -> session p ins a -> sources_are p ins pr -> st_ok pr a.
Proof.
  intros B S0 Sr. destruct (session_rep p ins a S0 B) as (pr' & Sr' & W & R & As).
  assert (pr' = pr) by (eapply sources_are_fun; eassumption). subst pr'. split; [exact R|]. split; [exact W|apply As].
Qed.
Lemma assembled_fun pr a b : assembled pr a -> assembled pr b -> a = b.
Proof. destruct a, b. intros (A1 & A2 & A3 & A4) (B1 & B2 & B3 & B4). cbn in *. congruence. Qed.

Lemma top_done p ins a pr input ls : Forall bytes_ok ins -> bytes_ok input -> session p ins a -> sources_are p ins pr ->
  source_lines input ls ->
  forall a', read_from p a input = Done a' <-> exists pr', passes p pr ls pr' /\ assembled pr' a'.
Proof.
  intros Bi B S0 Sr Sl a'. pose proof (session_ok p ins a pr Bi S0 Sr) as Ok0.
  apply raw_lines_iff in Sl. subst ls. pose proof (raw_lines_bytes _ B) as Bl. unfold read_from. split.
  - destruct (exec_all p a (raw_lines input)) as [a1|c e|] eqn:E; cbn [obind]; try discriminate. injection 1 as <-.
    destruct (exec_done p _ pr a a1 Ok0 Bl E) as (pr' & P & (R & W & L)). exists pr'. split; [exact P|].
    now apply (rep_mark pr' a1 R).
  - intros (pr' & P & As). destruct (exec_passes p _ pr a pr' Ok0 Bl P) as (a1 & E & (R & W & L)).
    rewrite E. cbn [obind]. f_equal. eapply assembled_fun; [|exact As]. now apply (rep_mark pr' a1 R).
Qed.
Lemma top_exit p ins a pr input ls : Forall bytes_ok ins -> bytes_ok input -> session p ins a -> sources_are p ins pr ->
  source_lines input ls ->
  forall c e, read_from p a input = Exit c e <->
    c = 1 /\ exists good bad rest pr', ls = good ++ bad :: rest /\ passes p pr good pr' /\ ends_with_error p pr' bad e.
Proof.
  intros Bi B S0 Sr Sl c e. pose proof (session_ok p ins a pr Bi S0 Sr) as Ok0.
  apply raw_lines_iff in Sl. subst ls. pose proof (raw_lines_bytes _ B) as Bl. unfold read_from. split.
  - destruct (exec_all p a (raw_lines input)) as [a1|c1 e1|] eqn:E; cbn [obind]; try discriminate. injection 1 as <- <-.
    exact (exec_exit p _ pr a c1 e1 Ok0 Bl E).
  - intros (-> & good & bad & rest & pr' & Eq & P & Ee).
    rewrite (proj2 (exec_fail p _ good bad rest pr a pr' Ok0 Bl Eq P) e Ee). reflexivity.
Qed.
Lemma top_crash p ins a pr input ls : Forall bytes_ok ins -> bytes_ok input -> session p ins a -> sources_are p ins pr ->
  source_lines input ls ->
  read_from p a input = Crash <->
    exists good bad rest pr', ls = good ++ bad :: rest /\ passes p pr good pr' /\ crashes p pr' bad.
Proof.
  intros Bi B S0 Sr Sl. pose proof (session_ok p ins a pr Bi S0 Sr) as Ok0.
  apply raw_lines_iff in Sl. subst ls. pose proof (raw_lines_bytes _ B) as Bl. unfold read_from. split.
  - destruct (exec_all p a (raw_lines input)) as [a1|c1 e1|] eqn:E; cbn [obind]; try discriminate. intros _.
    exact (exec_crash p _ pr a Ok0 Bl E).
  - intros (good & bad & rest & pr' & Eq & P & Ee).
    rewrite (proj1 (exec_fail p _ good bad rest pr a pr' Ok0 Bl Eq P) Ee). reflexivity.
Qed.

(** the usual case: small programs pass *)
Lemma during_snoc_this pr st bs : (forall m, st <> StSection m) ->
  during (last_sect SText pr) SText (pr ++ [(st, bs)]) = during (last_sect SText pr) SText pr ++ [(st, bs)].
Proof.
  intro N. rewrite during_snoc.
  replace (sect_eqb (last_sect SText pr) (last_sect SText pr)) with true by (symmetry; now apply sect_eqb_eq).
  destruct st; try reflexivity. now destruct (N s).
Qed.
Lemma small_no_crash p pr raw x : line_is p raw x -> size_ok p (pr ++ [x]) ->
  (last_sect SText pr = SBss -> stmt_writes (fst x) = false) -> ~ crashes p pr raw.
Proof.
  intros L Z Wx C. destruct x as [st bs].
  assert (Hu : forall x, line_is p raw x -> x = (st, bs)) by (intros x Hx; eapply line_is_fun; eassumption).
  destruct C as [U|P M|s body d o ts P E S0 T Mb D Wd O|x Q1 Q2 Q3|x sy k Q1 P Q2 Q3 Q4].
  - destruct L as (s & body & E & S0 & _). now apply (U s).
  - destruct (Z P) as [_ Z2]. unfold zlen in *. rewrite !app_length in *. cbn [length] in *.
    rewrite Z.mod_small in M by lia. lia.
  - destruct L as (s' & body' & E' & S' & T' & A' & _). assert (s' = s) by (apply utf8_inj; congruence). subst s'.
    assert (PP : line_parse p s = PPanic) by (apply line_panic; split; [exact P|]; exists body, d, o, ts; tauto).
    destruct (line_complete p s _ _ T' A') as (l & PO & _). congruence.
  - apply Hu in Q1. subst x. cbn [fst] in *. destruct st; cbn in Q3, Wx; try congruence; discriminate (Wx Q2).
  - apply Hu in Q1. subst x. cbn [fst snd] in *. destruct (Z P) as [Z1 _].
    assert (Ns : forall m, st <> StSection m) by (intros m ->; discriminate Q3).
    assert (S1 : zlen (out_bytes (during (last_sect SText pr) SText (pr ++ [(st, bs)]))) < 2 ^ 31)
      by (destruct Z1 as [Z1 Z2]; destruct (last_sect SText pr); [exact Z1|exact Z2|congruence]).
    rewrite during_snoc_this, out_bytes_snoc in S1 by exact Ns. unfold zlen in *. rewrite app_length in S1.
    assert (0 <= 2 ^ k) by (apply Z.pow_nonneg; lia).
    unfold as_i32 in Q4. rewrite Z.mod_small in Q4 by (change (2 ^ 32) with (2 * 2 ^ 31); lia). lia.
Qed.
Lemma size_ok_app p a b : size_ok p (a ++ b) -> size_ok p a.
Proof.
  intros Z P. destruct (Z P) as [Z1 Z2]. split; [eapply small_app; exact Z1|]. unfold zlen in *. rewrite app_length in Z2. lia.
Qed.
Lemma passes_small p raws prs : Forall2 (line_is p) raws prs -> forall pr, bss_clean (pr ++ prs) -> size_ok p (pr ++ prs) ->
  passes p pr raws (pr ++ prs).
Proof.
  induction 1 as [|raw x raws prs L F IH]; intros pr C Z.
  - rewrite app_nil_r. constructor.
  - replace (pr ++ x :: prs) with ((pr ++ [x]) ++ prs) in * by (rewrite <- app_assoc; reflexivity).
    assert (Wx : last_sect SText pr = SBss -> stmt_writes (fst x) = false).
    { destruct x as [st bs]. apply (bss_clean_snoc pr st bs), (bss_clean_app _ _ C). }
    apply pa_cons with (x := x); [exact L| |exact Wx|apply IH; assumption].
    eapply small_no_crash; [exact L|eapply size_ok_app; exact Z|exact Wx].
Qed.

Lemma Forall2_length {A B} (P : A -> B -> Prop) x y : Forall2 P x y -> length x = length y.
Proof. induction 1; cbn [length]; congruence. Qed.

(** ** C48 *)

Lemma top_C48 p ins a pr input good bad rest prs s msg :
  Forall bytes_ok ins -> bytes_ok input -> session p ins a -> sources_are p ins pr ->
  source_lines input (good ++ bad :: rest) -> Forall2 (line_is p) good prs ->
  bss_clean (pr ++ prs) -> size_ok p (pr ++ prs) -> zlen pr + zlen good + 1 < 2 ^ 32 ->
  bad = utf8 s -> str_ok s -> line_reports p s msg ->
  exists err, bad_line_report (zlen pr + zlen good + 1) msg err /\ read_from p a input = Exit 1 err.
Proof.
  intros Bi B S0 Sr Sl F C Z Ln -> Hs Pr. pose proof (passes_small p good prs F pr C Z) as P.
  pose proof (proj2 (top_C67 p s msg) Pr) as Pl.
  assert (N : forall x, ~ line_is p (utf8 s) x).
  { intros x (s' & body & E & S' & T & A & _). assert (s' = s) by (apply utf8_inj; congruence). subst s'.
    destruct (line_complete p s body _ T A) as (l & E' & _). congruence. }
  assert (Lg : zlen good = zlen prs) by (unfold zlen; now rewrite (Forall2_length _ _ _ F)).
  assert (D : decimal (zlen pr + zlen good + 1) (show_u64 (zlen pr + zlen good + 1))).
  { apply show_decimal. unfold zlen in *. assert (2 ^ 32 < 2 ^ 64) by reflexivity. lia. }
  eexists. split; [eexists; split; [exact D|reflexivity]|].
  apply (top_exit p ins a pr input _ Bi B S0 Sr Sl). split; [reflexivity|].
  exists good, (utf8 s), rest, (pr ++ prs). split; [reflexivity|]. split; [exact P|]. split.
  - intro Cr. destruct Cr as [U|P0 M|s' body d o ts P0 E S' T Mb D0 Wd O|x Q1 Q2 Q3|x sy k Q1 P0 Q2 Q3 Q4].
    + now apply (U s).
    + revert M. unfold zlen in *. rewrite app_length, Nat2Z.inj_add, <- (Forall2_length _ _ _ F).
      rewrite Z.mod_small by lia. lia.
    + assert (s' = s) by (apply utf8_inj; congruence). subst s'.
      assert (line_parse p s = PPanic) by (apply line_panic; split; [exact P0|]; exists body, d, o, ts; tauto). congruence.
    + now apply (N x).
    + now apply (N x).
  - right. split; [exact N|]. exists s, msg. split; [reflexivity|]. split; [exact Hs|]. split; [exact Pr|].
    eexists. split; [|reflexivity].
    replace ((zlen (pr ++ prs) + 1) mod 2 ^ 32) with (zlen pr + zlen good + 1); [exact D|].
    unfold zlen in *. rewrite app_length, Nat2Z.inj_add, <- (Forall2_length _ _ _ F). symmetry. apply Z.mod_small. lia.
Qed.

(** ** C50 *)

Lemma top_C50_size p ins a : Forall bytes_ok ins -> session p ins a -> bss_size (o_bss (as_obj a)) = 0.
Proof. intros B S0. destruct (top_session p ins a B S0) as (pr & _ & _ & (-> & _)). reflexivity. Qed.
Lemma top_C50 p ins a pr input good bad rest prs x :
  Forall bytes_ok ins -> bytes_ok input -> session p ins a -> sources_are p ins pr ->
  source_lines input (good ++ bad :: rest) -> Forall2 (line_is p) good prs ->
  bss_clean (pr ++ prs) -> size_ok p (pr ++ prs ++ [x]) ->
  line_is p bad x -> last_sect SText (pr ++ prs) = SBss -> stmt_writes (fst x) = true ->
  read_from p a input = match stmt_reloc (fst x) with None => Exit 1 bss_msg | Some _ => Crash end.
Proof.
  intros Bi B S0 Sr Sl F C Z L Ls Wx. rewrite app_assoc in Z.
  pose proof (passes_small p good prs F pr C (size_ok_app _ _ _ Z)) as P.
  destruct (stmt_reloc (fst x)) eqn:R.
  - apply (top_crash p ins a pr input _ Bi B S0 Sr Sl). exists good, bad, rest, (pr ++ prs).
    split; [reflexivity|]. split; [exact P|]. apply (cr_bss p (pr ++ prs) bad x); congruence.
  - apply (top_exit p ins a pr input _ Bi B S0 Sr Sl). split; [reflexivity|]. exists good, bad, rest, (pr ++ prs).
    split; [reflexivity|]. split; [exact P|]. split; [|left; exists x; auto].
    intro Cr. destruct x as [st bs]. cbn [fst] in *.
    assert (Hu : forall x, line_is p bad x -> x = (st, bs)) by (intros x Hx; eapply line_is_fun; eassumption).
    destruct Cr as [U|P0 M|s body d o ts P0 E S' T Mb D0 Wd O|y Q1 Q2 Q3|y sy k Q1 P0 Q2 Q3 Q4].
    + destruct L as (s & body & E & S1 & _). now apply (U s).
    + destruct (Z P0) as [_ Z2]. unfold zlen in *. rewrite app_length in Z2. cbn [length] in Z2.
      rewrite Z.mod_small in M by lia. lia.
    + destruct L as (s' & body' & E' & S1 & T' & A' & _). assert (s' = s) by (apply utf8_inj; congruence). subst s'.
      assert (PP : line_parse p s = PPanic) by (apply line_panic; split; [exact P0|]; exists body, d, o, ts; tauto).
      destruct (line_complete p s _ _ T' A') as (l & PO & _). congruence.
    + apply Hu in Q1. subst y. cbn [fst] in Q3. congruence.
    + congruence.
Qed.

(** ** C49 *)

Definition sec_sim (e : list str) (x y : bsection) : Prop :=
  bs_bytes x = bs_bytes y /\ map (mk e) (bs_symbols x) = map (mk e) (bs_symbols y) /\ bs_relocs x = bs_relocs y.
Definition sim (a b : asm) : Prop :=
  as_sect a = as_sect b /\ as_line a = as_line b /\ as_ext a = as_ext b /\
  sec_sim (as_ext a) (o_text (as_obj a)) (o_text (as_obj b)) /\
  sec_sim (as_ext a) (o_data (as_obj a)) (o_data (as_obj b)) /\
  bss_size (o_bss (as_obj a)) = bss_size (o_bss (as_obj b)) /\
  map (mk (as_ext a)) (bss_symbols (o_bss (as_obj a))) = map (mk (as_ext a)) (bss_symbols (o_bss (as_obj b))).
Definition osim (x y : outcome asm) : Prop :=
  match x, y with
  | Done a, Done b => sim a b
  | Exit c e, Exit c' e' => c = c' /\ e = e'
  | Crash, Crash => True
  | _, _ => False
  end.

Lemma mark_sim a : sim (mark_ext a) a.
Proof.
  unfold sim, sec_sim, mark_ext, set_obj, obj_symbols_update. cbn [as_sect as_line as_ext as_obj o_text o_data o_bss bs_bytes bs_symbols bs_relocs bss_size bss_symbols].
  change (fun y : symbol => if existsb (fun s : str => str_eqb s (sym_name y)) (as_ext a) then set_ext y else y) with (mk (as_ext a)).
  assert (I : forall l, map (mk (as_ext a)) (map (mk (as_ext a)) l) = map (mk (as_ext a)) l).
  { intro l. rewrite map_map. apply map_ext. intro y. apply mk_idem. }
  rewrite !I. repeat split.
Qed.
Lemma sim_mark a b : sim a b -> mark_ext a = mark_ext b.
Proof.
  intros (S0 & L & E & (T1 & T2 & T3) & (D1 & D2 & D3) & B1 & B2).
  unfold mark_ext, set_obj, obj_symbols_update. rewrite <- E.
  change (fun y : symbol => if existsb (fun s : str => str_eqb s (sym_name y)) (as_ext a) then set_ext y else y) with (mk (as_ext a)).
  rewrite T1, T2, T3, D1, D2, D3, B1, B2, S0, L. reflexivity.
Qed.
Lemma sim_size a b : sim a b -> cur_size a = cur_size b.
Proof.
  intros (S0 & L & E & (T1 & _) & (D1 & _) & B1 & _). unfold cur_size. rewrite <- S0. destruct (as_sect a); congruence.
Qed.
Lemma sim_label a b n : sim a b -> sim (push_label a n) (push_label b n).
Proof.
  intro H. pose proof (sim_size a b H) as Z. destruct H as (S0 & L & E & (T1 & T2 & T3) & (D1 & D2 & D3) & B1 & B2).
  unfold push_label, push_symbol, set_obj. rewrite <- S0, Z.
  unfold sim, sec_sim. cbn [as_sect as_line as_ext as_obj].
  destruct (as_sect a); unfold upd_text, upd_data, upd_bss, sec_push_symbol;
    cbn [o_text o_data o_bss bs_bytes bs_symbols bs_relocs bss_size bss_symbols];
    rewrite ?map_app; repeat match goal with |- _ /\ _ => split end; congruence.
Qed.
Lemma sim_write a b bs : sim a b -> osim (write_bytes a bs) (write_bytes b bs).
Proof.
  intros (S0 & L & E & (T1 & T2 & T3) & (D1 & D2 & D3) & B1 & B2).
  unfold write_bytes, set_obj. rewrite <- S0. destruct (as_sect a) eqn:Sa; cbn [osim]; [| |split; reflexivity];
  unfold sim, sec_sim, upd_text, upd_data, sec_write; cbn [as_sect as_line as_ext as_obj o_text o_data o_bss bs_bytes bs_symbols bs_relocs bss_size bss_symbols];
    repeat match goal with |- _ /\ _ => split end; congruence.
Qed.
Lemma sim_reloc a b r : sim a b -> osim (push_reloc a r) (push_reloc b r).
Proof.
  intros (S0 & L & E & (T1 & T2 & T3) & (D1 & D2 & D3) & B1 & B2).
  unfold push_reloc, set_obj. rewrite <- S0. destruct (as_sect a) eqn:Sa; cbn [osim]; [| |exact I];
  unfold sim, sec_sim, upd_text, upd_data, sec_push_reloc; cbn [as_sect as_line as_ext as_obj o_text o_data o_bss bs_bytes bs_symbols bs_relocs bss_size bss_symbols];
    repeat match goal with |- _ /\ _ => split end; congruence.
Qed.
Lemma sim_ext a b n : sim a b -> sim (push_ext a n) (push_ext b n).
Proof.
  intros (S0 & L & E & (T1 & T2 & T3) & (D1 & D2 & D3) & B1 & B2).
  assert (M : forall x y, map (mk (as_ext a)) x = map (mk (as_ext a)) y -> map (mk (as_ext a ++ [n])) x = map (mk (as_ext a ++ [n])) y).
  { intros x y H.
    assert (Q : forall l, map (mk (as_ext a ++ [n])) (map (mk (as_ext a)) l) = map (mk (as_ext a ++ [n])) l).
    { intro l. rewrite map_map. apply map_ext. intro z. apply mk_mk. intros m Hm. rewrite existsb_app, Hm. reflexivity. }
    rewrite <- (Q x), H. apply Q. }
  unfold sim, sec_sim, push_ext. cbn [as_sect as_line as_ext as_obj].
  repeat match goal with |- _ /\ _ => split end; try assumption; try congruence; apply M; assumption.
Qed.
Lemma osim_bind x y f : osim x y -> (forall a b, sim a b -> osim (f a) (f b)) -> osim (obind x f) (obind y f).
Proof. destruct x, y; cbn [osim obind]; intros H F; try contradiction; auto. Qed.
Lemma sim_line p a b l : sim a b -> osim (exec_line p a l) (exec_line p b l).
Proof.
  intro H. destruct l as [|x|n|n|d|i]; cbn [exec_line].
  - exact H.
  - cbn [osim]. destruct H as (S0 & L & E & T & D & B). unfold sim, set_cur_sect. cbn [as_sect as_line as_ext as_obj]. tauto.
  - cbn [osim]. now apply sim_label.
  - cbn [osim]. now apply sim_ext.
  - apply sim_write. destruct (da_label d); [now apply sim_label|exact H].
  - apply osim_bind; [|intros; now apply sim_write]. destruct (in_reloc i) as [r|]; [|exact H].
    rewrite <- (sim_size a b H). destruct (chki p 32 (wrapi 32 (cur_size a) + lr_offset r)); cbn [olift obind]; [|exact I].
    now apply sim_reloc.
Qed.
Lemma sim_set_line a b n : sim a b -> sim (set_line a n) (set_line b n).
Proof. intros (S0 & L & E & T & D & B). unfold sim, set_line. cbn [as_sect as_line as_ext as_obj]. tauto. Qed.
Lemma sim_raw p a b r : sim a b -> osim (exec_raw p a r) (exec_raw p b r).
Proof.
  intro H. unfold exec_raw. destruct (from_utf8 r) as [s|]; [|exact I].
  pose proof H as (_ & L & _). rewrite <- L. destruct (chku p 32 (as_line a + 1)) as [n|]; cbn [olift obind]; [|exact I].
  destruct (line_parse p s) as [l|msg|]; cbn [as_line set_line].
  - apply sim_line, sim_set_line, H.
  - split; reflexivity.
  - exact I.
Qed.
Lemma sim_all p rs : forall a b, sim a b -> osim (exec_all p a rs) (exec_all p b rs).
Proof.
  induction rs as [|r rs IH]; intros a b H; cbn [exec_all]; [exact H|].
  apply osim_bind; [now apply sim_raw|exact IH].
Qed.
Lemma sim_read p a b input : sim a b -> read_from p a input = read_from p b input.
Proof.
  intro H. unfold read_from. pose proof (sim_all p (raw_lines input) a b H) as X.
  destruct (exec_all p a (raw_lines input)), (exec_all p b (raw_lines input)); cbn [osim obind] in *; try contradiction.
  - f_equal. now apply sim_mark.
  - destruct X as [-> ->]. reflexivity.
  - reflexivity.
Qed.
Lemma top_C49 p a x y : x = [] \/ (exists x', x = x' ++ [10]) ->
  read_from p a (x ++ y) = obind (read_from p a x) (fun a' => read_from p a' y).
Proof.
  intro H. unfold read_from at 1 2. rewrite (raw_lines_app x y H), exec_all_app.
  destruct (exec_all p a (raw_lines x)) as [a1|c e|]; cbn [obind]; try reflexivity.
  change (obind (exec_all p a1 (raw_lines y)) (fun a0 => Done (mark_ext a0))) with (read_from p a1 y).
  symmetry. apply sim_read, mark_sim.
Qed.

(** ** C51 *)

Lemma reloc_bytes st bs s k : stmt_bytes st bs -> stmt_reloc st = Some (s, k) ->
  exists pre, bs = pre ++ repeat 0 (Z.to_nat (2 ^ k)) /\ 0 <= k /\ 0 < 2 ^ k.
Proof.
  intros B R. destruct st; try discriminate; cbn in R; injection R as <- <-; cbn [stmt_bytes] in B.
  - destruct (emits_inv (MovRI64 dst 0) bs (conj (Z.le_refl 0) eq_refl) B) as [-> _]. cbn [instr_bytes].
    exists (rexb true false false (ext64 dst) ++ [184 + code64 dst]). split; [|lia].
    rewrite app_assoc. reflexivity.
  - destruct (emits_inv (MovRI32 dst 0) bs (conj (Z.le_refl 0) eq_refl) B) as [-> _]. cbn [instr_bytes].
    exists (rexb false false false (ext32 dst) ++ [184 + code32 dst]). split; [|lia].
    rewrite app_assoc. reflexivity.
Qed.
Lemma out_relocs_in l : Forall (fun x => stmt_bytes (fst x) (snd x)) l -> forall off s k o, In (s, k, o) (out_relocs off l) ->
  exists pre post, out_bytes l = pre ++ repeat 0 (Z.to_nat (2 ^ k)) ++ post /\ o = off + zlen pre.
Proof.
  induction 1 as [|[st bs] l H F IH]; intros off s k o I; cbn [out_relocs] in I; [destruct I|].
  cbn [fst snd] in H. apply in_app_iff in I. destruct I as [I|I].
  - destruct (stmt_reloc st) as [[s' k']|] eqn:R; [|destruct I]. destruct I as [E|[]]. injection E as -> -> <-.
    destruct (reloc_bytes _ _ _ _ H R) as (pre & -> & K & P). exists pre, (out_bytes l). unfold out_bytes. cbn [flat_map snd].
    rewrite <- app_assoc. split; [reflexivity|]. unfold zlen. rewrite app_length, repeat_length. lia.
  - destruct (IH _ _ _ _ I) as (pre & post & E & ->). exists (bs ++ pre), post. unfold out_bytes in *. cbn [flat_map snd].
    rewrite E, <- app_assoc. split; [reflexivity|]. unfold zlen. rewrite app_length. lia.
Qed.
Definition before (r1 r2 : str * Z * Z) : Prop := snd r1 + 2 ^ snd (fst r1) <= snd r2.
Lemma out_relocs_low l : Forall (fun x => stmt_bytes (fst x) (snd x)) l -> forall off r, In r (out_relocs off l) -> off <= snd r.
Proof.
  intros F off [[s k] o] I. destruct (out_relocs_in l F off s k o I) as (pre & _ & _ & ->). cbn. unfold zlen. lia.
Qed.
Lemma out_relocs_sorted l : Forall (fun x => stmt_bytes (fst x) (snd x)) l -> forall off, StronglySorted before (out_relocs off l).
Proof.
  induction 1 as [|[st bs] l H F IH]; intro off; cbn [out_relocs]; [constructor|].
  destruct (stmt_reloc st) as [[s k]|] eqn:R; cbn [app]; [|apply IH].
  constructor; [apply IH|]. apply Forall_forall. intros r I. apply (out_relocs_low l F) in I.
  unfold before. cbn [fst snd]. lia.
Qed.
Lemma as_i32_small x : 0 <= x < 2 ^ 31 -> as_i32 x = x.
Proof. intro H. unfold as_i32. rewrite Z.mod_small by (change (2 ^ 32) with (2 * 2 ^ 31); lia). lia. Qed.

Lemma sorted_map {A B} (P : A -> A -> Prop) (Q : B -> B -> Prop) (f : A -> B) l :
  (forall a b, In a l -> In b l -> P a b -> Q (f a) (f b)) -> StronglySorted P l -> StronglySorted Q (map f l).
Proof.
  intros H S0. induction S0 as [|a l S0 IH F]; cbn [map]; [constructor|]. constructor.
  - apply IH. intros. apply H; try (right; assumption). assumption.
  - apply Forall_forall. intros b I. apply in_map_iff in I. destruct I as (x & <- & I).
    apply H; [left; reflexivity|right; exact I|]. exact (proj1 (Forall_forall _ _) F x I).
Qed.
Lemma sec_relocs pr s : wf pr -> zlen (out_bytes (during s SText pr)) < 2 ^ 31 ->
  let b := sec_of pr s in
  Forall (fun r => rl_pcrel r = false /\ exists pre post, bs_bytes b = pre ++ repeat 0 (Z.to_nat (2 ^ rl_len r)) ++ post /\ rl_addr r = zlen pre)
    (bs_relocs b) /\
  StronglySorted rbefore (bs_relocs b).
Proof.
  intros W Z b. pose proof (wf_during s SText pr W) as F. unfold b, sec_of. cbn [bs_bytes bs_relocs].
  assert (G : forall x, In x (out_relocs 0 (during s SText pr)) -> as_i32 (snd x) = snd x /\
     exists pre post, out_bytes (during s SText pr) = pre ++ repeat 0 (Z.to_nat (2 ^ snd (fst x))) ++ post /\ snd x = zlen pre).
  { intros [[y k] o] I. destruct (out_relocs_in _ F 0 y k o I) as (pre & post & E & ->). cbn [fst snd]. rewrite Z.add_0_l. split.
    - apply as_i32_small. rewrite E in Z. unfold zlen in *. rewrite app_length in Z. lia.
    - exists pre, post. split; [exact E|reflexivity]. }
  split.
  - apply Forall_forall. intros r I. apply in_map_iff in I. destruct I as (x & <- & I). cbn [rl_pcrel rl_addr rl_len].
    split; [reflexivity|]. destruct (G x I) as (-> & H). exact H.
  - apply sorted_map with (P := before); [|apply out_relocs_sorted, F].
    intros x y Ix Iy H. unfold rbefore. cbn [rl_addr rl_len]. rewrite (proj1 (G x Ix)), (proj1 (G y Iy)). exact H.
Qed.
