(** Proofs about the assembler state machine: execution. *)
From Coq Require String.
Import String.StringSyntax.
From Coq Require Import ZifyBool ZifyNat.
From Verif Require Import Base Str X64 SpecX86 Obj Asm SpecAsm Assembler SpecRun
  PfStr PfTok PfX64 PfX86 PfX64Top PfBytes PfAsm PfData PfLine PfLine2 PfRun.
Ltac Zify.zify_post_hook ::= Z.div_mod_to_equations.

Lemma chki32 p s o : match chki p 32 (wrapi 32 s + o) with
  | Ok v => v = as_i32 (s + o) /\ (p = Debug -> as_i32 s + o < 2 ^ 31)
  | Panic => p = Debug /\ (0 <= o -> 2 ^ 31 <= as_i32 s + o)
  end.
Proof.
  unfold chki, inib, wrapi, as_i32. change (32 - 1) with 31.
  change (2 ^ 31) with 2147483648. change (2 ^ 32) with 4294967296.
  match goal with |- context[if ?b then _ else _] => destruct b eqn:E end; cbv iota beta.
  - assert (Q : (s + o + 2147483648) mod 4294967296 = (s + 2147483648) mod 4294967296 + o).
    { pose proof (Z.div_mod (s + 2147483648) 4294967296 ltac:(discriminate)) as D.
      set (q := (s + 2147483648) / 4294967296) in *. set (r := (s + 2147483648) mod 4294967296) in *.
      clearbody q r. replace (s + o + 2147483648) with ((r + o) + q * 4294967296) by lia.
      rewrite Z.mod_add by discriminate. apply Z.mod_small. lia. }
    rewrite Q. split; [ring|]. lia.
  - destruct p; cbv iota beta.
    + split; [reflexivity|]. lia.
    + split; [|discriminate]. f_equal. replace ((s + 2147483648) mod 4294967296 - 2147483648 + o + 2147483648)
        with ((s + 2147483648) mod 4294967296 + o) by ring.
      rewrite Z.add_mod_idemp_l by discriminate. f_equal. ring.
Qed.

Lemma cur_size_eq pr a : rep pr a -> wf pr ->
  cur_size a = zlen (out_bytes (during (last_sect SText pr) SText pr)).
Proof.
  intros ((T1 & _) & (D1 & _) & (B1 & _) & S0 & _ & C) W. unfold cur_size. rewrite S0.
  destruct (last_sect SText pr); [now rewrite T1|now rewrite D1|].
  rewrite B1. symmetry. apply during_bss_bytes; [exact C|]. apply wf_during, W.
Qed.

Ltac other := try (first [apply sec_other | apply bss_other]; [intros; discriminate| |assumption]).

(** a statement that leaves the bytes alone, or one in a byte section *)
Lemma rep_section pr a x : rep pr a -> rep (pr ++ [(StSection x, [])]) (set_cur_sect a x).
Proof.
  intros (T & D & B & S0 & E & C). unfold rep, set_cur_sect. cbn [as_obj as_sect as_ext].
  repeat match goal with |- _ /\ _ => split end; other;
    try (left; rewrite last_sect_snoc; reflexivity).
  - now rewrite last_sect_snoc.
  - rewrite globals_snoc, app_nil_r. exact E.
  - apply bss_clean_snoc. split; [exact C|reflexivity].
Qed.
Lemma rep_empty pr a : rep pr a -> rep (pr ++ [(StEmpty, [])]) a.
Proof.
  intros (T & D & B & S0 & E & C).
  assert (X : forall s, during s SText (pr ++ [(StEmpty, [])]) = during s SText pr
    \/ during s SText (pr ++ [(StEmpty, [])]) = during s SText pr ++ [(StEmpty, [])]).
  { intro s. rewrite during_snoc. destruct (sect_eqb s (last_sect SText pr)); [right; reflexivity|left; apply app_nil_r]. }
  assert (G : forall m, StEmpty <> StGlobal m) by discriminate.
  assert (Xs : forall s b, sec_ok pr s b -> sec_ok (pr ++ [(StEmpty, [])]) s b).
  { intros s b H. unfold sec_ok. rewrite globals_same, ref_of_snoc by exact G.
    destruct (X s) as [Q|Q]; rewrite Q; [exact H|].
    rewrite out_bytes_snoc, out_labels_snoc, out_relocs_snoc. cbn [stmt_label stmt_reloc]. rewrite !app_nil_r. exact H. }
  unfold rep. repeat match goal with |- _ /\ _ => split end; try (apply Xs; assumption).
  - destruct B as [B1 B2]. unfold bss_ok. rewrite globals_same, ref_of_snoc by exact G.
    destruct (X SBss) as [Q|Q]; rewrite Q; [split; assumption|].
    rewrite out_labels_snoc. cbn [stmt_label]. rewrite app_nil_r. split; assumption.
  - rewrite last_sect_snoc. exact S0.
  - rewrite globals_snoc, app_nil_r. exact E.
  - apply bss_clean_snoc. split; [exact C|reflexivity].
Qed.
Lemma rep_global pr a n : rep pr a -> rep (pr ++ [(StGlobal n, [])]) (push_ext a n).
Proof.
  intros (T & D & B & S0 & E & C). set (pr' := pr ++ [(StGlobal n, [])]).
  assert (G : globals pr' = globals pr ++ [n]) by (unfold pr'; apply globals_snoc).
  assert (X : forall s, (during s SText pr' = during s SText pr
    \/ during s SText pr' = during s SText pr ++ [(StGlobal n, [])])).
  { intro s. unfold pr'. rewrite during_snoc. destruct (sect_eqb s (last_sect SText pr)); [right; reflexivity|left; apply app_nil_r]. }
  assert (M : forall ys xs, map (mk (globals pr)) ys = map (ref_of pr) xs -> map (mk (globals pr')) ys = map (ref_of pr') xs).
  { intros ys xs H.
    assert (Q : map (mk (globals pr')) (map (mk (globals pr)) ys) = map (mk (globals pr')) ys).
    { rewrite map_map. apply map_ext. intro y. apply mk_mk. intros m Hm. rewrite G, existsb_app, Hm. reflexivity. }
    rewrite <- Q, H, map_map. apply map_ext. intros [m off]. unfold mk, ref_of, is_global. cbn [sym_name fst snd].
    rewrite G, existsb_app. destruct (existsb (fun s => str_eqb s m) (globals pr)); cbn [orb]; [reflexivity|].
    destruct (existsb (fun s => str_eqb s m) [n]); reflexivity. }
  assert (Xs : forall s b, sec_ok pr s b -> sec_ok pr' s b).
  { intros s b (H1 & H2 & H3). unfold sec_ok.
    destruct (X s) as [Q|Q]; rewrite Q.
    - split; [exact H1|]. split; [apply M; exact H2|exact H3].
    - rewrite out_bytes_snoc, out_labels_snoc, out_relocs_snoc. cbn [stmt_label stmt_reloc]. rewrite !app_nil_r.
      split; [exact H1|]. split; [apply M; exact H2|exact H3]. }
  unfold rep, push_ext. cbn [as_obj as_sect as_ext]. repeat match goal with |- _ /\ _ => split end; try (apply Xs; assumption).
  - destruct B as [B1 B2]. unfold bss_ok. destruct (X SBss) as [Q|Q]; rewrite Q.
    + split; [exact B1|apply M; exact B2].
    + rewrite out_labels_snoc. cbn [stmt_label]. rewrite app_nil_r. split; [exact B1|apply M; exact B2].
  - unfold pr'. rewrite last_sect_snoc. exact S0.
  - rewrite G, E. reflexivity.
  - apply bss_clean_snoc. split; [exact C|reflexivity].
Qed.

(** the current byte section is replaced by its [sec_step] *)
Definition obj_step (st : stmt) (bs : list Z) (s : sect) (o : object) : object :=
  match s with
  | SText => upd_text o (sec_step st bs)
  | SData => upd_data o (sec_step st bs)
  | SBss => upd_bss o (fun b => {| bss_size := bss_size b; bss_symbols := bss_symbols b ++
       match stmt_label st with Some n => [SyRef n (bss_size b) false] | None => [] end |})
  end.
Lemma rep_obj_step pr a st bs a' : rep pr a -> wf pr -> (forall m, st <> StGlobal m) -> (forall m, st <> StSection m) ->
  (as_sect a = SBss -> stmt_writes st = false) ->
  as_obj a' = obj_step st bs (as_sect a) (as_obj a) -> as_sect a' = as_sect a -> as_ext a' = as_ext a ->
  rep (pr ++ [(st, bs)]) a'.
Proof.
  intros R W G N Bw Ho Hs He. pose proof R as (T & D & B & S0 & E & C). unfold rep.
  assert (Ls : last_sect SText (pr ++ [(st, bs)]) = as_sect a).
  { rewrite last_sect_snoc, S0. destruct st; try reflexivity. now destruct (N s). }
  rewrite Ls, Hs, He, Ho, globals_same by exact G.
  assert (Cl : bss_clean (pr ++ [(st, bs)])).
  { apply bss_clean_snoc. split; [exact C|]. rewrite <- S0. exact Bw. }
  destruct (as_sect a) eqn:Sa; unfold obj_step, upd_text, upd_data, upd_bss; cbn [o_text o_data o_bss].
  - split; [apply sec_this; [exact G|exact N|exact S0|exact T]|].
    split; [apply sec_other; [exact G|right; congruence|exact D]|].
    split; [apply bss_other; [exact G|right; congruence|exact B]|]. tauto.
  - split; [apply sec_other; [exact G|right; congruence|exact T]|].
    split; [apply sec_this; [exact G|exact N|exact S0|exact D]|].
    split; [apply bss_other; [exact G|right; congruence|exact B]|]. tauto.
  - split; [apply sec_other; [exact G|right; congruence|exact T]|].
    split; [apply sec_other; [exact G|right; congruence|exact D]|].
    split; [|tauto]. destruct B as [B1 B2]. unfold bss_ok. cbn [bss_size bss_symbols].
    split; [exact B1|]. rewrite during_snoc, <- S0. cbn [sect_eqb].
    assert (Q : during SBss SText pr ++ match st with StSection _ => [] | _ => [(st, bs)] end
              = during SBss SText pr ++ [(st, bs)]) by (destruct st; try reflexivity; now destruct (N s)).
    rewrite Q, out_labels_snoc, !map_app, globals_same, ref_of_snoc, B2 by exact G. f_equal.
    destruct (stmt_label st) as [n|]; [|reflexivity]. cbn [map]. rewrite mk_ref, B1.
    assert (Ze : zlen (out_bytes (during SBss SText pr)) = 0) by (apply during_bss_bytes; [exact C|apply wf_during, W]).
    rewrite Ze. unfold ref_of. cbn [fst snd]. rewrite is_global_snoc by exact G. reflexivity.
Qed.

Lemma bam_bytes_fun st l bs : means st l -> stmt_bytes st bs ->
  match l with
  | LInst i => bam_ref (in_bytes i) = bs
  | LData d => da_bytes d = bs
  | _ => bs = []
  end.
Proof.
  intros M B. destruct l; cbn [means] in M; try (subst st; cbn in B; congruence).
  destruct st; try contradiction; destruct M as [M _]; cbn in B; eapply emits_fun; eassumption.
Qed.
Lemma reloc_len st bs s k : stmt_bytes st bs -> stmt_reloc st = Some (s, k) -> 0 <= zlen bs - 2 ^ k /\ 0 <= k.
Proof.
  intros B R. destruct st; try discriminate; cbn in R; injection R as <- <-; cbn [stmt_bytes] in B.
  - pose proof (emits_len64 _ 0 _ (conj (Z.le_refl 0) eq_refl) B) as E. unfold offset_to_imm64 in E.
    change (2 ^ 3) with 8. lia.
  - pose proof (emits_len32 _ 0 _ (conj (Z.le_refl 0) eq_refl) B) as E. unfold offset_to_imm32, b2z in E.
    change (2 ^ 2) with 4. destruct (ext32 dst); lia.
Qed.

(** every way a statement's execution can end *)
Inductive step_res (p : profile) (pr : prog) (st : stmt) (bs : list Z) (line : Z) : outcome asm -> Prop :=
| sr_done a' : (last_sect SText pr = SBss -> stmt_writes st = false) ->
    (p = Debug -> forall s k, stmt_reloc st = Some (s, k) ->
       as_i32 (zlen (out_bytes (during (last_sect SText pr) SText pr))) + (zlen bs - 2 ^ k) < 2 ^ 31) ->
    rep (pr ++ [(st, bs)]) a' -> as_line a' = line -> step_res p pr st bs line (Done a')
| sr_bss : last_sect SText pr = SBss -> stmt_writes st = true -> stmt_reloc st = None ->
    step_res p pr st bs line (Exit 1 bss_msg)
| sr_bss_reloc : last_sect SText pr = SBss -> stmt_writes st = true -> stmt_reloc st <> None ->
    step_res p pr st bs line Crash
| sr_huge s k : last_sect SText pr <> SBss -> p = Debug -> stmt_reloc st = Some (s, k) ->
    2 ^ 31 <= as_i32 (zlen (out_bytes (during (last_sect SText pr) SText pr))) + (zlen bs - 2 ^ k) ->
    step_res p pr st bs line Crash.

Lemma exec_line_res p pr a st l bs : rep pr a -> wf pr -> means st l -> stmt_bytes st bs ->
  step_res p pr st bs (as_line a) (exec_line p a l).
Proof.
  intros R W M B. pose proof (bam_bytes_fun _ _ _ M B) as Bs. pose proof R as (_ & _ & (B1 & _) & S0 & _).
  destruct l as [|x|n|n|d|i]; cbn [exec_line].
  - cbn in M. subst st. subst bs. apply sr_done; [reflexivity|discriminate|apply rep_empty, R|reflexivity].
  - cbn in M. subst st. subst bs. apply sr_done; [reflexivity|discriminate|apply rep_section, R|reflexivity].
  - cbn in M. subst st. subst bs. apply sr_done; [reflexivity|discriminate| |reflexivity].
    eapply rep_obj_step; try exact R; try exact W; try discriminate; try reflexivity.
    unfold push_label, push_symbol, set_obj, obj_step, cur_size. cbn [as_obj as_sect].
    destruct (as_sect a); cbn [stmt_label].
    + unfold upd_text, sec_push_symbol, sec_step. cbn [stmt_label stmt_reloc]. rewrite !app_nil_r. reflexivity.
    + unfold upd_data, sec_push_symbol, sec_step. cbn [stmt_label stmt_reloc]. rewrite !app_nil_r. reflexivity.
    + reflexivity.
  - cbn in M. subst st. subst bs. apply sr_done; [reflexivity|discriminate|apply rep_global, R|reflexivity].
  - cbn in M. subst st. subst bs.
    assert (Ss : as_sect match da_label d with Some label => push_label a label | None => a end = as_sect a)
      by (destruct (da_label d); reflexivity).
    unfold write_bytes. rewrite Ss. destruct (as_sect a) eqn:Sa.
    + apply sr_done; [congruence|discriminate| |destruct (da_label d); reflexivity].
      eapply rep_obj_step; try exact R; try exact W; try discriminate; try reflexivity; try (rewrite Sa; discriminate).
      * rewrite Sa. unfold obj_step, set_obj. cbn [as_obj]. unfold push_label, push_symbol, cur_size. rewrite Sa.
        destruct (da_label d); unfold set_obj, upd_text, sec_push_symbol, sec_write, sec_step; cbn [as_obj o_text o_data o_bss bs_bytes bs_symbols bs_relocs stmt_label stmt_reloc];
          rewrite ?app_nil_r; reflexivity.
      * destruct (da_label d); reflexivity.
      * destruct (da_label d); reflexivity.
    + apply sr_done; [congruence|discriminate| |destruct (da_label d); reflexivity].
      eapply rep_obj_step; try exact R; try exact W; try discriminate; try reflexivity; try (rewrite Sa; discriminate).
      * rewrite Sa. unfold obj_step, set_obj. cbn [as_obj]. unfold push_label, push_symbol, cur_size. rewrite Sa.
        destruct (da_label d); unfold set_obj, upd_data, sec_push_symbol, sec_write, sec_step; cbn [as_obj o_text o_data o_bss bs_bytes bs_symbols bs_relocs stmt_label stmt_reloc];
          rewrite ?app_nil_r; reflexivity.
      * destruct (da_label d); reflexivity.
      * destruct (da_label d); reflexivity.
    + apply sr_bss; [congruence|reflexivity|reflexivity].
  - assert (G : forall m, st <> StGlobal m) by (intros m ->; cbn in M; exact M).
    assert (N : forall m, st <> StSection m) by (intros m ->; cbn in M; exact M).
    assert (Wr : stmt_writes st = true) by (destruct st; cbn in M; try contradiction; reflexivity).
    assert (Lb : stmt_label st = None) by (destruct st; cbn in M; try contradiction; reflexivity).
    assert (Rl : in_reloc i = match stmt_reloc st with
        | Some (s, k) => Some {| lr_offset := zlen bs - 2 ^ k; lr_symbol := s; lr_pcrel := false; lr_len := k |}
        | None => None end).
    { rewrite <- Bs. destruct st; cbn [means] in M; try contradiction; cbn [stmt_reloc]; apply M. }
    rewrite Bs, Rl. pose proof (cur_size_eq pr a R W) as Cs.
    destruct (stmt_reloc st) as [[s k]|] eqn:Rs; cbn [obind].
    + cbn [lr_offset lr_symbol lr_pcrel lr_len].
      destruct (reloc_len _ _ _ _ B Rs) as [Lk K0].
      pose proof (chki32 p (cur_size a) (zlen bs - 2 ^ k)) as Ck.
      destruct (chki p 32 (wrapi 32 (cur_size a) + (zlen bs - 2 ^ k))) as [v|] eqn:Ec; cbn [olift obind].
      * replace (as_i32 (cur_size a + (zlen bs - 2 ^ k))) with (as_i32 (cur_size a + zlen bs - 2 ^ k)) in Ck by (f_equal; lia). destruct Ck as [-> Cd].
        unfold push_reloc, write_bytes. destruct (as_sect a) eqn:Sa; cbn [obind].
        -- unfold set_obj. cbn [as_sect]. rewrite Sa. apply sr_done; [congruence|intros P s' k' Q; rewrite Rs in Q; injection Q as <- <-; rewrite <- Cs; now apply Cd| |reflexivity].
           eapply rep_obj_step; try exact R; try exact W; try assumption; try reflexivity; try (rewrite Sa; discriminate); try (cbn [as_sect set_obj]; congruence).
           rewrite Sa. unfold obj_step, upd_text, sec_push_reloc, sec_write, sec_step.
           cbn [as_obj o_text o_data o_bss bs_bytes bs_symbols bs_relocs]. rewrite Lb, Rs, app_nil_r.
           unfold cur_size. rewrite Sa. reflexivity.
        -- unfold set_obj. cbn [as_sect]. rewrite Sa. apply sr_done; [congruence|intros P s' k' Q; rewrite Rs in Q; injection Q as <- <-; rewrite <- Cs; now apply Cd| |reflexivity].
           eapply rep_obj_step; try exact R; try exact W; try assumption; try reflexivity; try (rewrite Sa; discriminate); try (cbn [as_sect set_obj]; congruence).
           rewrite Sa. unfold obj_step, upd_data, sec_push_reloc, sec_write, sec_step.
           cbn [as_obj o_text o_data o_bss bs_bytes bs_symbols bs_relocs]. rewrite Lb, Rs, app_nil_r.
           unfold cur_size. rewrite Sa. reflexivity.
        -- apply sr_bss_reloc; [congruence|exact Wr|congruence].
      * destruct Ck as [P H].
        destruct (last_sect SText pr) eqn:Ls.
        3: { apply sr_bss_reloc; [exact Ls|exact Wr|congruence]. }
        all: apply sr_huge with (s := s) (k := k); [congruence|exact P|exact Rs|]; rewrite Ls, <- Cs; apply H, Lk.
    + unfold write_bytes. destruct (as_sect a) eqn:Sa.
      * apply sr_done; [congruence|congruence| |reflexivity].
        eapply rep_obj_step; try exact R; try exact W; try assumption; try reflexivity; try (rewrite Sa; discriminate); try (cbn [as_sect set_obj]; congruence).
        rewrite Sa. unfold obj_step, set_obj, upd_text, sec_write, sec_step. cbn [as_obj]. rewrite Lb, Rs, !app_nil_r. reflexivity.
      * apply sr_done; [congruence|congruence| |reflexivity].
        eapply rep_obj_step; try exact R; try exact W; try assumption; try reflexivity; try (rewrite Sa; discriminate); try (cbn [as_sect set_obj]; congruence).
        rewrite Sa. unfold obj_step, set_obj, upd_data, sec_write, sec_step. cbn [as_obj]. rewrite Lb, Rs, !app_nil_r. reflexivity.
      * apply sr_bss; [congruence|exact Wr|exact Rs].
Qed.

(** ** One line *)

Lemma means_bytes st l : means st l -> exists bs, stmt_bytes st bs.
Proof.
  destruct l; cbn [means]; intro M; try (subst st; eexists; reflexivity).
  destruct st; try contradiction; destruct M as [M _]; eexists; exact M.
Qed.

Definition line_msg (n : Z) (msg : str) : str :=
  lit "error at line " ++ show_u64 n ++ lit ": " ++ msg ++ [10].

Inductive raw_res (p : profile) (pr : prog) (raw : list Z) : outcome asm -> Prop :=
| rr_done a' x : line_is p raw x -> (last_sect SText pr = SBss -> stmt_writes (fst x) = false) ->
    rep (pr ++ [x]) a' -> as_line a' = zlen (pr ++ [x]) mod 2 ^ 32 -> raw_res p pr raw (Done a')
| rr_bss x : line_is p raw x -> last_sect SText pr = SBss -> stmt_writes (fst x) = true ->
    stmt_reloc (fst x) = None -> raw_res p pr raw (Exit 1 bss_msg)
| rr_bad s msg : raw = utf8 s -> str_ok s -> line_parse p s = PErr msg -> (forall x, ~ line_is p raw x) ->
    raw_res p pr raw (Exit 1 (line_msg ((zlen pr + 1) mod 2 ^ 32) msg))
| rr_crash : crashes p pr raw -> raw_res p pr raw Crash.

Lemma utf8_inj s s' : str_ok s -> str_ok s' -> utf8 s = utf8 s' -> s = s'.
Proof. intros H H' E. pose proof (from_utf8_utf8 s H). pose proof (from_utf8_utf8 s' H'). congruence. Qed.

Lemma exec_raw_res p pr a raw : rep pr a -> wf pr -> as_line a = zlen pr mod 2 ^ 32 -> bytes_ok raw ->
  raw_res p pr raw (exec_raw p a raw).
Proof.
  intros R W L B. unfold exec_raw. destruct (from_utf8 raw) as [s|] eqn:U.
  2: { apply rr_crash, cr_utf8. intros s Hs ->. rewrite from_utf8_utf8 in U by exact Hs. discriminate. }
  destruct (from_utf8_inv raw s B U) as [Hs Er]. symmetry in Er.
  assert (N : forall n, chku p 32 (as_line a + 1) = Ok n -> n = (zlen pr + 1) mod 2 ^ 32).
  { intros n. unfold chku, inub, wrapu. rewrite L. destruct (andb _ _) eqn:E.
    - injection 1 as <-. lia.
    - destruct p; [discriminate|]. injection 1 as <-. lia. }
  destruct (chku p 32 (as_line a + 1)) as [n|] eqn:C; cbn [olift obind].
  2: { apply rr_crash. revert C. unfold chku, inub. rewrite L. destruct (andb _ _) eqn:E; [discriminate|].
       destruct p; [|discriminate]. intros _. apply cr_count; [reflexivity|]. lia. }
  specialize (N n eq_refl).
  assert (R' : rep pr (set_line a n)) by (destruct R as (? & ? & ? & ? & ? & ?); repeat split; try assumption; apply H || apply H0 || apply H1).
  destruct (line_parse p s) as [l|msg|] eqn:P; cbn [as_line set_line].
  - destruct (line_sound p s l P) as (body & st & T & A & M).
    destruct (means_bytes st l M) as (bs & Hb).
    assert (Li : line_is p raw (st, bs)) by (exists s, body; cbn [fst snd]; exact (conj Er (conj Hs (conj T (conj A Hb))))).
    pose proof (exec_line_res p pr (set_line a n) st l bs R' W M Hb) as X.
    destruct X as [a' X1 X0 X2 X3|X1 X2 X3|X1 X2 X3|sy k X1 X2 X3 X4].
    + eapply rr_done; [exact Li|exact X1|exact X2|]. rewrite X3. cbn [set_line as_line]. rewrite N.
      unfold zlen. rewrite app_length. f_equal. cbn [length]. lia.
    + eapply rr_bss; [exact Li|assumption..].
    + apply rr_crash. eapply cr_bss; [exact Li|assumption..].
    + apply rr_crash. apply (cr_huge p pr raw (st, bs) sy k); assumption.
  - rewrite N. apply rr_bad with (s := s); [exact Er|exact Hs|exact P|].
    intros [st bs] (s' & body & E' & Hs' & T & A & Hb).
    assert (s' = s) by (apply utf8_inj; congruence). subst s'.
    destruct (line_complete p s body _ T A) as (l & P' & _). congruence.
  - apply rr_crash. apply line_panic in P. destruct P as (Pd & body & d & o & ts & T & M & D & Wd & O).
    eapply cr_expr; eassumption.
Qed.
