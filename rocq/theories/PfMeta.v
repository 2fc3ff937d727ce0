(** Edits of a source that do not change its object. *)
From Coq Require Import Lia.
From Verif Require Import Base Str X64 SpecX86 Obj SpecObj Asm SpecAsm Assembler SpecRun Cli SpecCli SpecLink SpecMeta PfStr PfTok PfLine PfLine2 PfRun PfRun3 PfX64Top PfTop PfTop2 PfLink.

Lemma trim_pad w s w' : blank w -> blank w' -> trim (w ++ s ++ w') = trim s.
Proof.
  intros W W'. destruct (trim_spec s) as (w1 & w2 & E & B1 & T & B2).
  rewrite E at 1. replace (w ++ (w1 ++ trim s ++ w2) ++ w') with ((w ++ w1) ++ trim s ++ (w2 ++ w')) by now rewrite <- !app_assoc.
  apply trim_of; [apply blank_app; split; assumption|exact T|apply blank_app; split; assumption].
Qed.
Lemma split_pad w s w' : blank w -> blank w' -> split_whitespace (w ++ s ++ w') = split_whitespace s.
Proof.
  intros W W'. rewrite split_blank by exact W. apply split_words. apply words_app_blank; [exact W'|apply words_split].
Qed.
Lemma line_body_pad p w s w' : blank w -> blank w' -> line_body p (w ++ s ++ w') = line_body p s.
Proof.
  intros W W'. unfold line_body, section_try, global_try, data_try, split_parts, inst_try, mov_parse, push_parse.
  cbv zeta. rewrite ?split_pad, ?trim_pad by assumption. reflexivity.
Qed.
Lemma line_body_blank p w : blank w -> line_body p w = POk LEmpty.
Proof.
  intro W. unfold line_body. replace (split_whitespace w) with (@nil str); [reflexivity|].
  symmetry. apply split_words. now apply words_blank.
Qed.
Lemma restyled_parse p s s' b w1 w2 w1' w2' : blank w1 -> blank w2 -> blank w1' -> blank w2' ->
  line_text s (w1 ++ b ++ w2) -> line_text s' (w1' ++ b ++ w2') -> line_parse p s' = line_parse p s.
Proof.
  intros B1 B2 B1' B2' T T'. rewrite !line_parse_body.
  rewrite (proj1 (line_text_iff _ _) T), (proj1 (line_text_iff _ _) T'). now rewrite !line_body_pad.
Qed.

(** the line number only matters for messages *)
Definition osim (m m' : outcome asm) : Prop :=
  match m, m' with
  | Done a, Done a' => a' = set_line a (as_line a')
  | Exit c _, Exit c' _ => c = c'
  | Crash, Crash => True
  | _, _ => False
  end.
Lemma exec_line_line p a n l : exec_line p (set_line a n) l =
  match exec_line p a l with Done b => Done (set_line b n) | Exit c e => Exit c e | Crash => Crash end.
Proof.
  destruct a as [sc ln ob ex]. destruct l as [|s|name|name|d|i]; cbn; try reflexivity.
  - destruct d as [[lb|] bs]; unfold write_bytes, push_label, push_symbol; destruct sc; reflexivity.
  - unfold cur_size; cbn. destruct (in_reloc i) as [lr|]; unfold push_reloc, write_bytes; cbn.
    + destruct (olift _); cbn; [|reflexivity|reflexivity]. destruct sc; reflexivity.
    + destruct sc; reflexivity.
Qed.
Lemma exec_line_keeps p a l b : exec_line p a l = Done b -> as_line b = as_line a.
Proof.
  intro H. pose proof (exec_line_line p a (as_line a) l) as E. rewrite H in E.
  assert (set_line a (as_line a) = a) as S by (destruct a; reflexivity). rewrite S, H in E. injection E as E.
  rewrite E. reflexivity.
Qed.
Definition lines_ok (p : profile) (n : Z) (ls : list (list Z)) : Prop := p = Debug -> 0 <= n /\ n + zlen ls < 2 ^ 32.
Lemma count_ok p n l ls : lines_ok p n (l :: ls) -> exists m, chku p 32 (n + 1) = Ok m /\ lines_ok p m ls.
Proof.
  intro H. unfold chku. destruct p.
  - destruct (H eq_refl) as [N M]. unfold zlen in M. cbn [length] in M.
    assert (inub 32 (n + 1) = true) as ->. { unfold inub. apply andb_true_iff. split; [apply Z.leb_le|apply Z.ltb_lt]; lia. }
    eexists. split; [reflexivity|]. intros _. unfold zlen. lia.
  - destruct (inub 32 (n + 1)); eexists; (split; [reflexivity|intro; discriminate]).
Qed.

Lemma exec_all_edited p ls ls' : edited ls ls' -> forall a n, lines_ok p (as_line a) ls -> lines_ok p n ls' ->
  osim (exec_all p a ls) (exec_all p (set_line a n) ls').
Proof.
  assert (STEP : forall raw raw' ls ls', (from_utf8 raw = None /\ from_utf8 raw' = None \/
      exists s s', from_utf8 raw = Some s /\ from_utf8 raw' = Some s' /\ line_parse p s' = line_parse p s) ->
    (forall a n, lines_ok p (as_line a) ls -> lines_ok p n ls' -> osim (exec_all p a ls) (exec_all p (set_line a n) ls')) ->
    forall a n, lines_ok p (as_line a) (raw :: ls) -> lines_ok p n (raw' :: ls') ->
    osim (exec_all p a (raw :: ls)) (exec_all p (set_line a n) (raw' :: ls'))).
  { clear. intros raw raw' ls ls' H IH a n O O'. cbn [exec_all]. unfold exec_raw.
    destruct H as [[E E'] | (s & s' & E & E' & P)]; rewrite E, E'; [exact I|].
    change (as_line (set_line a n)) with n.
    destruct (count_ok _ _ _ _ O) as (m & C & M), (count_ok _ _ _ _ O') as (m' & C' & M').
    rewrite C, C'. cbn [olift obind]. cbv zeta. rewrite P. destruct (line_parse p s) as [l|e|]; cbn [obind]; [|reflexivity|exact I].
    change (set_line (set_line a n) m') with (set_line (set_line a m) m').
    rewrite (exec_line_line p (set_line a m) m' l).
    destruct (exec_line p (set_line a m) l) as [b| |] eqn:B; cbn [obind]; [|reflexivity|exact I].
    apply exec_line_keeps in B. apply IH; [rewrite B; exact M|exact M']. }
  assert (SAME : forall raw, from_utf8 raw = None /\ from_utf8 raw = None \/
      exists s s', from_utf8 raw = Some s /\ from_utf8 raw = Some s' /\ line_parse p s' = line_parse p s).
  { clear. intro raw. destruct (from_utf8 raw) as [s|]; [right; exists s, s; auto|left; auto]. }
  assert (SKIP : forall s w ls, str_ok s -> line_text s w -> blank w -> forall a, lines_ok p (as_line a) (utf8 s :: ls) ->
    exists m, lines_ok p m ls /\ exec_all p a (utf8 s :: ls) = exec_all p (set_line a m) ls).
  { clear. intros s w ls K T W a O. destruct (count_ok _ _ _ _ O) as (m & C & M). exists m. split; [exact M|].
    cbn [exec_all]. unfold exec_raw. rewrite from_utf8_utf8 by exact K. rewrite C. cbn [olift obind]. cbv zeta.
    rewrite line_parse_body, (proj1 (line_text_iff _ _) T), line_body_blank by exact W. reflexivity. }
  induction 1 as [|l ls ls' _ IH|l l' ls ls' R _ IH|s w ls ls' K T W _ IH|s w ls ls' K T W _ IH]; intros a n O O'.
  - reflexivity.
  - apply STEP; auto.
  - apply STEP; [|exact IH|exact O|exact O'].
    destruct R as (s & s' & b & w1 & w2 & w1' & w2' & -> & -> & K & K' & B1 & B2 & B1' & B2' & T & T').
    right. exists s, s'. rewrite !from_utf8_utf8 by assumption. repeat split. eapply restyled_parse; [| | | |exact T|exact T']; assumption.
  - destruct (SKIP _ _ _ K T W (set_line a n) O') as (m & M & ->).
    change (set_line (set_line a n) m) with (set_line a m). apply IH; assumption.
  - destruct (SKIP _ _ _ K T W a O) as (m & M & ->).
    change (set_line a n) with (set_line (set_line a m) n). apply IH; assumption.
Qed.
Lemma mark_ext_line a n : mark_ext (set_line a n) = set_line (mark_ext a) n.
Proof. reflexivity. Qed.
Lemma read_edited p src src' ls ls' : source_lines src ls -> source_lines src' ls' -> edited ls ls' ->
  (p = Debug -> zlen ls < 2 ^ 32 /\ zlen ls' < 2 ^ 32) ->
  osim (read_from p asm_new src) (read_from p asm_new src').
Proof.
  intros S S' E B. apply raw_lines_iff in S. apply raw_lines_iff in S'. subst ls ls'. unfold read_from.
  pose proof (exec_all_edited p _ _ E asm_new 0) as H. change (set_line asm_new 0) with asm_new in H.
  assert (osim (exec_all p asm_new (raw_lines src)) (exec_all p asm_new (raw_lines src'))) as K.
  { apply H; intro D; apply B in D; cbn [as_line asm_new]; lia. }
  destruct (exec_all p asm_new (raw_lines src)), (exec_all p asm_new (raw_lines src')); cbn [obind osim] in *; try exact K.
  rewrite K. rewrite mark_ext_line. reflexivity.
Qed.
Lemma top_C73_read p src src' ls ls' a : source_lines src ls -> source_lines src' ls' -> edited ls ls' ->
  (p = Debug -> zlen ls < 2 ^ 32 /\ zlen ls' < 2 ^ 32) ->
  read_from p asm_new src = Done a ->
  exists a', read_from p asm_new src' = Done a' /\ as_obj a' = as_obj a /\ as_sect a' = as_sect a /\ as_ext a' = as_ext a.
Proof.
  intros S S' E B R. pose proof (read_edited p _ _ _ _ S S' E B) as H. rewrite R in H.
  destruct (read_from p asm_new src') as [a'| |]; cbn [osim] in H; try contradiction.
  exists a'. split; [reflexivity|]. rewrite H. auto.
Qed.
Lemma top_C73_main p h args w w' cf i o src src' ls ls' : config_init args = Done cf -> w_slot w (cf_input cf) = Some i ->
  w_slot w (cf_output cf) = Some o -> same_but i src src' w w' ->
  source_lines src ls -> source_lines src' ls' -> edited ls ls' ->
  (p = Debug -> zlen ls < 2 ^ 32 /\ zlen ls' < 2 ^ 32) ->
  status (snd (main p h args w')) = status (snd (main p h args w)) /\
  (forall k, k <> i \/ k = o -> w_data (fst (main p h args w')) k = w_data (fst (main p h args w)) k).
Proof.
  intros C I O (SL & D & D' & K) S S' E B. unfold main. rewrite C, SL, I, D, D', O.
  cbn [w_data put]. cbv zeta. rewrite D, D'.
  assert (forall bs k, k <> i \/ k = o -> (if k =? o then Some bs else w_data w' k) = (if k =? o then Some bs else w_data w k)) as PUT.
  { intros bs k Hk. destruct (Z.eqb_spec k o); [reflexivity|]. apply K. tauto. }
  destruct (i =? o) eqn:IO.
  - destruct (read_from p asm_new []) as [a| |]; cbn [fst snd]; [|split; [reflexivity|apply PUT]|split; [reflexivity|apply PUT]].
    destruct (asm_write_into p h a) as [bs ok]. cbn [fst snd]. split; [reflexivity|].
    intros k Hk. cbn [put w_data]. destruct (Z.eqb_spec k o); [reflexivity|]. apply K. tauto.
  - pose proof (read_edited p _ _ _ _ S S' E B) as H.
    destruct (read_from p asm_new src) as [a|c e|], (read_from p asm_new src') as [a'|c' e'|]; cbn [osim] in H; try contradiction; cbn [fst snd].
    + assert (asm_write_into p h a' = asm_write_into p h a) as ->. { rewrite H. reflexivity. }
      destruct (asm_write_into p h a) as [bs ok]. cbn [fst snd]. split; [reflexivity|].
      intros k Hk. cbn [put w_data]. destruct (Z.eqb_spec k o); [reflexivity|]. apply K. tauto.
    + subst c'. split; [reflexivity|apply PUT].
    + split; [reflexivity|apply PUT].
Qed.

(** ** the same code in another arrangement *)
Lemma contributes_not st bs : contributes st = false -> stmt_bytes st bs -> bs = [] /\ stmt_label st = None /\ stmt_reloc st = None.
Proof. destruct st as [|s|n|n|[l|] b|i|r n|r n]; cbn; try discriminate; intros; repeat split; assumption. Qed.
Lemma filter_bytes l : wf l -> out_bytes (filter (fun x => contributes (fst x)) l) = out_bytes l.
Proof.
  induction 1 as [|[st bs] l S _ IH]; [reflexivity|]. cbn [filter fst snd] in *. destruct (contributes st) eqn:C; cbn [out_bytes flat_map snd].
  - f_equal. exact IH.
  - destruct (contributes_not _ _ C S) as (-> & _). exact IH.
Qed.
Lemma filter_labels l : wf l -> forall off, out_labels off (filter (fun x => contributes (fst x)) l) = out_labels off l.
Proof.
  induction 1 as [|[st bs] l S _ IH]; intro off; [reflexivity|]. cbn [filter fst snd] in *. destruct (contributes st) eqn:C; cbn [out_labels].
  - f_equal. apply IH.
  - destruct (contributes_not _ _ C S) as (-> & -> & _). rewrite IH. cbn. now rewrite Z.add_0_r.
Qed.
Lemma filter_relocs l : wf l -> forall off, out_relocs off (filter (fun x => contributes (fst x)) l) = out_relocs off l.
Proof.
  induction 1 as [|[st bs] l S _ IH]; intro off; [reflexivity|]. cbn [filter fst snd] in *. destruct (contributes st) eqn:C; cbn [out_relocs].
  - f_equal. apply IH.
  - destruct (contributes_not _ _ C S) as (-> & _ & ->). rewrite IH. cbn. now rewrite Z.add_0_r.
Qed.
Lemma is_global_in pr n : is_global pr n = true <-> In n (globals pr).
Proof.
  unfold is_global. rewrite existsb_exists. split.
  - intros (g & G & E). apply str_eqb_eq in E. now subst.
  - intro H. exists n. split; [exact H|now apply str_eqb_eq].
Qed.
Lemma object_same pr pr' : wf pr -> wf pr' -> same_code pr pr' -> object_of pr' = object_of pr.
Proof.
  intros W W' [C G].
  assert (forall s, wf (during s SText pr)) as D by (intro; now apply wf_during).
  assert (forall s, wf (during s SText pr')) as D' by (intro; now apply wf_during).
  assert (B : forall s, out_bytes (during s SText pr') = out_bytes (during s SText pr)).
  { intro s. rewrite <- (filter_bytes _ (D s)), <- (filter_bytes _ (D' s)). fold (code s pr) (code s pr'). now rewrite C. }
  assert (L : forall s off, out_labels off (during s SText pr') = out_labels off (during s SText pr)).
  { intros s off. rewrite <- (filter_labels _ (D s)), <- (filter_labels _ (D' s)). fold (code s pr) (code s pr'). now rewrite C. }
  assert (R : forall s off, out_relocs off (during s SText pr') = out_relocs off (during s SText pr)).
  { intros s off. rewrite <- (filter_relocs _ (D s)), <- (filter_relocs _ (D' s)). fold (code s pr) (code s pr'). now rewrite C. }
  assert (X : forall n, is_global pr' n = is_global pr n).
  { intro n. apply eq_iff_eq_true. rewrite !is_global_in. symmetry. apply G. }
  assert (Y : forall l : list (str * Z), map (fun x => SyRef (fst x) (snd x) (is_global pr' (fst x))) l = map (fun x => SyRef (fst x) (snd x) (is_global pr (fst x))) l).
  { intro l. apply map_ext. intro. now rewrite X. }
  unfold object_of, sec_of. cbv zeta. rewrite !B, !L, !R, !Y. reflexivity.
Qed.
Lemma same_bss pr pr' : same_code pr pr' -> bss_clean pr -> bss_clean pr'.
Proof.
  intros [C _]. unfold bss_clean. rewrite !Forall_forall. intros H x X.
  destruct (stmt_writes (fst x)) eqn:E; [|reflexivity]. rewrite <- E. apply H.
  assert (In x (code SBss pr')) as I'. { apply filter_In. split; [exact X|]. unfold contributes. now rewrite E. }
  rewrite <- C in I'. now apply filter_In in I'.
Qed.
Lemma top_C74 p ins ins' a pr pr' : Forall bytes_ok ins -> Forall bytes_ok ins' -> session p ins a ->
  sources_are p ins pr -> sources_are p ins' pr' -> same_code pr pr' -> size_ok p pr' ->
  exists a', session p ins' a' /\ as_obj a' = as_obj a.
Proof.
  intros O O' S R R' C Z. destruct (top_session _ _ _ O S) as (pr0 & R0 & B & A).
  assert (pr0 = pr) by (eapply sources_are_fun; eassumption). subst pr0.
  destruct (top_session_complete _ _ _ O' R' (same_bss _ _ C B) Z) as (a' & S' & A').
  exists a'. split; [exact S'|]. rewrite (proj1 A), (proj1 A').
  apply object_same; [eapply sources_are_wf; exact R|eapply sources_are_wf; exact R'|exact C].
Qed.
Lemma top_C74_same p p' ins ins' a a' pr pr' : Forall bytes_ok ins -> Forall bytes_ok ins' -> session p ins a -> session p' ins' a' ->
  sources_are p ins pr -> sources_are p' ins' pr' -> same_code pr pr' -> as_obj a' = as_obj a.
Proof.
  intros O O' S S' R R' C. destruct (top_session _ _ _ O S) as (pr0 & R0 & _ & A).
  assert (pr0 = pr) by (eapply sources_are_fun; eassumption). subst pr0.
  destruct (top_session _ _ _ O' S') as (pr1 & R1 & _ & A').
  assert (pr1 = pr') by (eapply sources_are_fun; eassumption). subst pr1.
  rewrite (proj1 A), (proj1 A').
  apply object_same; [eapply sources_are_wf; exact R|eapply sources_are_wf; exact R'|exact C].
Qed.

(** ** renaming *)
Section Rename.
Variable f : str -> str.
Lemma renamed_during s cur pr : during s cur (renamed f pr) = renamed f (during s cur pr).
Proof.
  revert cur. induction pr as [|[st bs] pr IH]; intro cur; [reflexivity|]. unfold renamed in *. cbn [map fst snd].
  destruct st as [|s'|n|n|[l|] b|i|r n|r n]; cbn [rename_stmt during]; try apply IH; rewrite IH; destruct (sect_eqb s cur); reflexivity.
Qed.
Lemma renamed_bytes l : out_bytes (renamed f l) = out_bytes l.
Proof. unfold out_bytes, renamed. induction l as [|x l IH]; [reflexivity|]. cbn. now rewrite IH. Qed.
Lemma renamed_labels l : forall off, out_labels off (renamed f l) = map (fun x => (f (fst x), snd x)) (out_labels off l).
Proof.
  unfold renamed. induction l as [|[st bs] l IH]; intro off; [reflexivity|]. cbn [map fst snd out_labels]. rewrite IH, map_app. f_equal.
  destruct st as [|s'|n|n|[k|] b|i|r n|r n]; reflexivity.
Qed.
Lemma renamed_globals pr : globals (renamed f pr) = map f (globals pr).
Proof.
  unfold globals, renamed. induction pr as [|[st bs] pr IH]; [reflexivity|]. cbn [map flat_map fst snd]. rewrite IH, map_app. f_equal.
  destruct st as [|s'|n|n|[k|] b|i|r n|r n]; reflexivity.
Qed.
Lemma names_during s cur pr n : In n (names_in (during s cur pr)) -> In n (names_in pr).
Proof.
  unfold names_in. rewrite !in_flat_map. intros (x & X & N). exists x. split; [|exact N]. eapply during_incl; exact X.
Qed.
Lemma labels_names l : forall off x, In x (out_labels off l) -> In (fst x) (names_in l).
Proof.
  induction l as [|[st bs] l IH]; intros off x H; [destruct H|]. cbn [out_labels] in H. unfold names_in. cbn [flat_map fst].
  apply in_app_iff in H. apply in_app_iff. destruct H as [H|H]; [left|right; now apply IH in H].
  destruct st as [|s'|n|n|[k|] b|i|r n|r n]; cbn in *; try contradiction; destruct H as [<-|[]]; now left.
Qed.
Lemma renamed_ordinal pr s : ordinal (renamed f pr) s = ordinal pr s.
Proof. unfold ordinal. now rewrite renamed_during, renamed_bytes. Qed.
Lemma renamed_sect_labels loc pr s : sect_labels loc (renamed f pr) s = map (fun x => (f (fst x), snd x)) (sect_labels loc pr s).
Proof.
  unfold sect_labels. rewrite renamed_ordinal, renamed_during, renamed_bytes, renamed_labels.
  destruct (out_bytes _); [reflexivity|]. now rewrite !map_map.
Qed.
Lemma labels_at_names loc pr x : In x (labels_at loc pr) -> In (fst x) (names_in pr).
Proof.
  unfold labels_at, sect_labels. rewrite in_app_iff.
  intros [H|H]; destruct (out_bytes _); try destruct H; apply in_map_iff in H; destruct H as (y & <- & Y); cbn [fst];
    apply labels_names in Y; now apply names_during in Y.
Qed.
Lemma find_renamed (l : list (str * Z)) n names : injective_on f names -> In n names -> (forall x, In x l -> In (fst x) names) ->
  option_map snd (find (fun x => str_eqb (fst x) (f n)) (map (fun x => (f (fst x), snd x)) l)) =
  option_map snd (find (fun x => str_eqb (fst x) n) l).
Proof.
  intros J N H. induction l as [|x l IH]; [reflexivity|]. cbn [map find fst].
  assert (str_eqb (f (fst x)) (f n) = str_eqb (fst x) n) as ->.
  { apply eq_iff_eq_true. rewrite !str_eqb_eq. split; [|congruence]. intro E. apply J; [|exact N|exact E]. apply H. now left. }
  destruct (str_eqb (fst x) n); [reflexivity|]. apply IH. intros y Y. apply H. now right.
Qed.
Lemma renamed_addr loc pr n : injective_on f (names_in pr) -> In n (names_in pr) ->
  label_addr loc (renamed f pr) (f n) = label_addr loc pr n.
Proof.
  intros J N. unfold label_addr. replace (labels_at loc (renamed f pr)) with (map (fun x => (f (fst x), snd x)) (labels_at loc pr)).
  - eapply find_renamed; [exact J|exact N|]. intros x X. now apply labels_at_names in X.
  - unfold labels_at. now rewrite map_app, !renamed_sect_labels.
Qed.
Lemma renamed_global pr n : injective_on f (names_in pr) -> In n (names_in pr) -> is_global (renamed f pr) (f n) = is_global pr n.
Proof.
  intros J N. apply eq_iff_eq_true. rewrite !is_global_in, renamed_globals, in_map_iff. split.
  - intros (m & E & M). replace n with m; [exact M|]. apply J; [|exact N|exact E].
    unfold globals in M. unfold names_in. apply in_flat_map in M. destruct M as (x & X & M). apply in_flat_map. exists x. split; [exact X|].
    destruct (fst x); try destruct M as [<-|[]]; try contradiction. now left.
  - intro H. now exists n.
Qed.
Lemma linked_renamed addr addr' l : (forall n, In n (names_in l) -> addr' (f n) = addr n) -> forall bss bss',
  Forall2 (linked_stmt addr) l bss -> Forall2 (linked_stmt addr') (renamed f l) bss' -> bss' = bss.
Proof.
  induction l as [|[st bs] l IH]; intros H bss bss' A B; inversion A as [|? b ? ? S F]; subst; inversion B as [|? b' ? ? S' F']; subst; [reflexivity|].
  f_equal.
  - unfold linked_stmt in S, S'. cbn [fst snd] in S, S'.
    assert (forall n, In n (stmt_names st) -> addr' (f n) = addr n) as K. { intros n N. apply H. unfold names_in. cbn [flat_map fst]. apply in_app_iff. now left. }
    destruct st as [|s'|n|n|[k|] b0|i|r n|r n]; cbn [rename_stmt] in S'; try congruence.
    + destruct S as (v & V & E), S' as (v' & V' & E'). rewrite (K n) in V' by now left. assert (v' = v) by congruence. subst v'.
      eapply emits_fun; eassumption.
    + destruct S as (v & V & E), S' as (v' & V' & E'). rewrite (K n) in V' by now left. assert (v' = v) by congruence. subst v'.
      eapply emits_fun; eassumption.
  - eapply IH; [|eassumption|eassumption]. intros n N. apply H. unfold names_in in *. cbn [flat_map fst]. apply in_app_iff. now right.
Qed.
End Rename.
Lemma top_C75 p h ins ins' a a' pr f F F' loc :
  Forall bytes_ok ins -> Forall (fun i => ~ In 0 i) ins -> session p ins a -> sources_are p ins pr ->
  Forall bytes_ok ins' -> Forall (fun i => ~ In 0 i) ins' -> session p ins' a' -> sources_are p ins' (renamed f pr) ->
  injective_on f (names_in pr) -> small pr ->
  fits (object_of pr) -> zlen (syms (object_of pr)) <= 2 ^ 24 -> asm_write_into p h a = (F, true) ->
  fits (object_of (renamed f pr)) -> zlen (syms (object_of (renamed f pr))) <= 2 ^ 24 -> asm_write_into p h a' = (F', true) ->
  (forall s, s <> SBss -> out_bytes (during s SText pr) <> [] -> link h F' loc (ordinal pr s) = link h F loc (ordinal pr s)) /\
  (forall n, In n (names_in pr) -> lookup h F' loc (f n) = lookup h F loc n).
Proof.
  intros O N S R O' N' S' R' J Sm Ft Ls Wr Ft' Ls' Wr'. split.
  - intros s Ns E.
    destruct (top_C61 p h ins a pr F loc O N S R Ft Sm Ls Wr s Ns E) as (bss & A & ->).
    assert (small (renamed f pr)) as Sm'. { unfold small in *. now rewrite !renamed_during, !renamed_bytes. }
    assert (out_bytes (during s SText (renamed f pr)) <> []) as E'. { now rewrite renamed_during, renamed_bytes. }
    destruct (top_C61 p h ins' a' _ F' loc O' N' S' R' Ft' Sm' Ls' Wr' s Ns E') as (bss' & A' & L').
    rewrite renamed_ordinal in L'. rewrite L'. do 2 f_equal. rewrite renamed_during in A'.
    eapply linked_renamed; [|exact A|exact A']. intros n I. apply renamed_addr; [exact J|]. eapply names_during; exact I.
  - intros n I. rewrite (top_C62 p h ins a pr F loc n O N S R Ft Wr), (top_C62 p h ins' a' _ F' loc (f n) O' N' S' R' Ft' Wr').
    rewrite renamed_global, renamed_addr by assumption. reflexivity.
Qed.

(** ** later lines only add *)
Lemma same_symbol_refl y : same_symbol y y.
Proof. destruct y; cbn; auto. Qed.
Lemma same_symbol_trans x y z : same_symbol x y -> same_symbol y z -> same_symbol x z.
Proof. destruct x, y, z; cbn; intuition congruence. Qed.
Lemma same_all l : Forall2 same_symbol l l.
Proof. induction l; constructor; [apply same_symbol_refl|assumption]. Qed.
Definition sgrow (l l' : list symbol) : Prop := exists old new, l' = old ++ new /\ Forall2 same_symbol l old.
Lemma sgrow_refl l : sgrow l l.
Proof. exists l, []. rewrite app_nil_r. split; [reflexivity|apply same_all]. Qed.
Lemma f2_trans l m k : Forall2 same_symbol l m -> Forall2 same_symbol m k -> Forall2 same_symbol l k.
Proof.
  intro H. revert k. induction H as [|x y l m X _ IH]; intros k K; inversion K; subst; constructor; [eapply same_symbol_trans; eassumption|auto].
Qed.
Lemma sgrow_trans a b c : sgrow a b -> sgrow b c -> sgrow a c.
Proof.
  intros (o1 & n1 & -> & F1) (o2 & n2 & -> & F2). apply Forall2_app_inv_l in F2. destruct F2 as (p1 & p2 & G1 & G2 & ->).
  exists p1, (p2 ++ n2). rewrite <- app_assoc. split; [reflexivity|]. eapply f2_trans; eassumption.
Qed.
Lemma extends_refl s : extends s s.
Proof. repeat split; try (exists []; now rewrite app_nil_r). apply (sgrow_refl (bs_symbols s)). Qed.
Lemma extends_trans a b c : extends a b -> extends b c -> extends a c.
Proof.
  intros ((b1 & B1) & (r1 & R1) & S1) ((b2 & B2) & (r2 & R2) & S2). split; [|split].
  - exists (b1 ++ b2). now rewrite B2, B1, app_assoc.
  - exists (r1 ++ r2). now rewrite R2, R1, app_assoc.
  - exact (sgrow_trans _ _ _ S1 S2).
Qed.
Lemma grows_refl o : grows o o.
Proof. split; [apply extends_refl|]. split; [apply extends_refl|]. split; [reflexivity|]. apply (sgrow_refl (bss_symbols (o_bss o))). Qed.
Lemma grows_trans a b c : grows a b -> grows b c -> grows a c.
Proof.
  intros (T1 & D1 & Z1 & S1) (T2 & D2 & Z2 & S2). split; [eapply extends_trans; eassumption|]. split; [eapply extends_trans; eassumption|].
  split; [congruence|]. exact (sgrow_trans _ _ _ S1 S2).
Qed.
Lemma grow_sym y s : extends s (sec_push_symbol y s).
Proof. split; [exists []; now rewrite app_nil_r|]. split; [exists []; now rewrite app_nil_r|]. exists (bs_symbols s), [y]. split; [reflexivity|apply same_all]. Qed.
Lemma grow_reloc r s : extends s (sec_push_reloc r s).
Proof. split; [exists []; now rewrite app_nil_r|]. split; [exists [r]; reflexivity|]. apply (sgrow_refl (bs_symbols s)). Qed.
Lemma grow_write b s : extends s (sec_write b s).
Proof. split; [exists b; reflexivity|]. split; [exists []; now rewrite app_nil_r|]. apply (sgrow_refl (bs_symbols s)). Qed.
Lemma grow_text o g : extends (o_text o) (g (o_text o)) -> grows o (upd_text o g).
Proof. intro H. destruct (grows_refl o) as (_ & D & Z & S). split; [exact H|]. split; [exact D|]. split; [exact Z|exact S]. Qed.
Lemma grow_data o g : extends (o_data o) (g (o_data o)) -> grows o (upd_data o g).
Proof. intro H. destruct (grows_refl o) as (T & _ & Z & S). split; [exact T|]. split; [exact H|]. split; [exact Z|exact S]. Qed.
Lemma grow_label a n : grows (as_obj a) (as_obj (push_label a n)).
Proof.
  unfold push_label, push_symbol. cbn [as_obj set_obj]. destruct (as_sect a).
  - apply grow_text, grow_sym.
  - apply grow_data, grow_sym.
  - split; [apply extends_refl|]. split; [apply extends_refl|]. split; [reflexivity|]. cbn. eexists _, _. split; [reflexivity|apply same_all].
Qed.
Lemma grow_bytes a bs b : write_bytes a bs = Done b -> grows (as_obj a) (as_obj b).
Proof.
  unfold write_bytes. destruct (as_sect a); intro H; try discriminate; injection H as <-; cbn [as_obj set_obj].
  - apply grow_text, grow_write.
  - apply grow_data, grow_write.
Qed.
Lemma grow_rel a r b : push_reloc a r = Done b -> grows (as_obj a) (as_obj b).
Proof.
  unfold push_reloc. destruct (as_sect a); intro H; try discriminate; injection H as <-; cbn [as_obj set_obj].
  - apply grow_text, grow_reloc.
  - apply grow_data, grow_reloc.
Qed.
Lemma grow_line p a l b : exec_line p a l = Done b -> grows (as_obj a) (as_obj b).
Proof.
  destruct l as [|s|n|n|d|i]; cbn [exec_line]; intro H; try (injection H as <-; apply grows_refl).
  - injection H as <-. apply grow_label.
  - cbv zeta in H. apply grow_bytes in H. eapply grows_trans; [|exact H]. destruct (da_label d); [apply grow_label|apply grows_refl].
  - destruct (in_reloc i) as [lr|].
    + destruct (olift _) as [ad| |]; cbn [obind] in H; try discriminate.
      destruct (push_reloc a _) as [c| |] eqn:R; cbn [obind] in H; try discriminate.
      apply grow_rel in R. apply grow_bytes in H. eapply grows_trans; eassumption.
    + cbn [obind] in H. now apply grow_bytes in H.
Qed.
Lemma grow_raw p a raw b : exec_raw p a raw = Done b -> grows (as_obj a) (as_obj b).
Proof.
  unfold exec_raw. destruct (from_utf8 raw) as [s|]; [|discriminate].
  destruct (olift _) as [n| |]; cbn [obind]; try discriminate. cbv zeta. destruct (line_parse p s); try discriminate.
  intro H. now apply grow_line in H.
Qed.
Lemma grow_all p ls : forall a b, exec_all p a ls = Done b -> grows (as_obj a) (as_obj b).
Proof.
  induction ls as [|r ls IH]; intros a b H; cbn [exec_all] in H; [injection H as <-; apply grows_refl|].
  destruct (exec_raw p a r) as [c| |] eqn:E; cbn [obind] in H; try discriminate.
  eapply grows_trans; [eapply grow_raw; exact E|now apply IH].
Qed.
Lemma mark_same e y : same_symbol y (if existsb (fun s => str_eqb s (sym_name y)) e then set_ext y else y).
Proof. destruct (existsb _ e); [|apply same_symbol_refl]. destruct y; cbn; auto. Qed.
Lemma mark_all (g : symbol -> symbol) l : (forall y, same_symbol y (g y)) -> sgrow l (map g l).
Proof.
  intro G. exists (map g l), []. rewrite app_nil_r. split; [reflexivity|]. induction l; constructor; auto.
Qed.
Lemma grow_mark a : grows (as_obj a) (as_obj (mark_ext a)).
Proof.
  unfold mark_ext. cbn [as_obj set_obj]. unfold obj_symbols_update. destruct (as_obj a) as [t d b]. cbn.
  set (g := fun y => if existsb _ _ then _ else _). assert (forall y, same_symbol y (g y)) as G by (intro; apply mark_same).
  repeat split; cbn; try (exists []; now rewrite app_nil_r); apply mark_all; exact G.
Qed.
Lemma top_C76 p a input b : read_from p a input = Done b -> grows (as_obj a) (as_obj b).
Proof.
  unfold read_from. destruct (exec_all p a (raw_lines input)) as [c| |] eqn:E; cbn [obind]; try discriminate.
  intro H. injection H as <-. eapply grows_trans; [eapply grow_all; exact E|apply grow_mark].
Qed.

(** ** a concrete line is a statement if the parser says so *)
Definition st_fine (st : stmt) : Prop := match st with StInstr i => instr_ok i /\ instr_mem i = None | _ => True end.
Lemma line_is_of p s l st bs : str_ok s -> line_parse p s = POk l -> means st l -> st_fine st -> stmt_bytes st bs ->
  line_is p (utf8 s) (st, bs).
Proof.
  intros K P M Fi B. destruct (line_sound _ _ _ P) as (body & st' & T & A & M').
  exists s, body. cbn [fst snd]. split; [reflexivity|]. split; [exact K|]. split; [exact T|]. split; [|exact B].
  assert (st = st') as ->; [|exact A]. clear B.
  destruct l; cbn [means] in M, M'; try congruence.
  destruct st, st'; try contradiction; destruct M as [E R], M' as [E' R']; rewrite R in R'; try discriminate R'.
  - destruct Fi as [Ok1 N1]. destruct (accepts_ok _ _ _ A) as [Ok2 N2].
    f_equal. eapply emits_inj; eassumption.
  - injection R' as <-.
    assert (Q : MovRI64 dst 0 = MovRI64 dst0 0) by (eapply emits_inj; try eassumption; try reflexivity; (split; [apply Z.le_refl|reflexivity])).
    injection Q as <-. reflexivity.
  - injection R' as <-.
    assert (Q : MovRI32 dst 0 = MovRI32 dst0 0) by (eapply emits_inj; try eassumption; try reflexivity; (split; [apply Z.le_refl|reflexivity])).
    injection Q as <-. reflexivity.
Qed.
