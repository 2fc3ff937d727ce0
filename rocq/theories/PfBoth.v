(** Proofs: debug and release builds, and the exit status of a whole run. *)
From Coq Require String.
Import String.StringSyntax.
From Verif Require Import Base Str X64 SpecX86 Mac SpecMacho Obj Asm SpecAsm SpecRun SpecLink PfX64 PfX86 PfX64Top.
From Verif Require Import PfStr PfObj PfRun PfRun3 PfRun4 PfRun5 PfEnd SpecObj PfLink PfGo Assembler Cli SpecCli PfCli PfWhole.

(** ** A computation of the debug build panics or agrees with that of the release build *)
Definition ler {A} (d r : res A) : Prop := d = Panic \/ d = r.
Definition lep {A} (d r : presult A) : Prop := d = PPanic \/ d = r.
Definition leo {A} (d r : outcome A) : Prop := d = Crash \/ d = r.
Definition lew (d r : wr) : Prop := snd d = false \/ d = r.
Definition led {A} (d r : reader A) : Prop := forall l, ler (d l) (r l).

Lemma ler_refl {A} (x : res A) : ler x x. Proof. now right. Qed.
Lemma lep_refl {A} (x : presult A) : lep x x. Proof. now right. Qed.
Lemma leo_refl {A} (x : outcome A) : leo x x. Proof. now right. Qed.
Lemma lew_refl (x : wr) : lew x x. Proof. now right. Qed.
Lemma led_refl {A} (x : reader A) : led x x. Proof. intro l. now right. Qed.

Lemma chku_le n x : ler (chku Debug n x) (chku Release n x).
Proof. unfold chku. destruct (inub n x); [now right|now left]. Qed.
Lemma chki_le n x : ler (chki Debug n x) (chki Release n x).
Proof. unfold chki. destruct (inib n x); [now right|now left]. Qed.
Lemma bind_le {A B} (m m' : res A) (k k' : A -> res B) : ler m m' -> (forall x, ler (k x) (k' x)) -> ler (bind m k) (bind m' k').
Proof. intros [->| ->] K; [now left|]. destruct m'; cbn [bind]; [apply K|now left]. Qed.
Lemma mapM_le {A B} (g g' : A -> res B) l : (forall x, ler (g x) (g' x)) -> ler (mapM g l) (mapM g' l).
Proof.
  intro G. induction l as [|x l IH]; cbn [mapM]; [apply ler_refl|]. apply bind_le; [apply G|]. intro y.
  apply bind_le; [apply IH|]. intro; apply ler_refl.
Qed.
Lemma sumu_le n l : ler (sumu Debug n l) (sumu Release n l).
Proof.
  unfold sumu. generalize 0. induction l as [|x l IH]; intro a; cbn [sumu_from]; [apply ler_refl|].
  apply bind_le; [apply chku_le|]. intro; apply IH.
Qed.
Lemma plift_le {A} (m m' : res A) : ler m m' -> lep (plift m) (plift m').
Proof. intros [->| ->]; [now left|now right]. Qed.
Lemma pbind_le {A B} (m m' : presult A) (k k' : A -> presult B) : lep m m' -> (forall x, lep (k x) (k' x)) -> lep (pbind m k) (pbind m' k').
Proof. intros [->| ->] K; [now left|]. destruct m'; cbn [pbind]; [apply K|now right|now left]. Qed.
Lemma olift_le {A} (m m' : res A) : ler m m' -> leo (olift m) (olift m').
Proof. intros [->| ->]; [now left|now right]. Qed.
Lemma obind_le {A B} (m m' : outcome A) (k k' : A -> outcome B) : leo m m' -> (forall x, leo (k x) (k' x)) -> leo (obind m k) (obind m' k').
Proof. intros [->| ->] K; [now left|]. destruct m'; cbn [obind]; [apply K|now right|now left]. Qed.
Lemma wseq_le a a' b b' : lew a a' -> lew b b' -> lew (a >>> b) (a' >>> b').
Proof.
  intros [A| ->] B; [left; unfold wseq; now rewrite A|]. unfold wseq. destruct (snd a') eqn:E; [|now right].
  destruct B as [B| ->]; [left; exact B|now right].
Qed.
Lemma wbind_le {A} (m m' : res A) (k k' : A -> wr) : ler m m' -> (forall x, lew (k x) (k' x)) -> lew (wbind m k) (wbind m' k').
Proof. intros [->| ->] K; [now left|]. destruct m'; cbn [wbind]; [apply K|now right]. Qed.
Lemma rbind_le {A B} (m m' : reader A) (k k' : A -> reader B) : led m m' -> (forall x, led (k x) (k' x)) -> led (rbind m k) (rbind m' k').
Proof.
  intros M K l. unfold rbind. destruct (M l) as [->| ->]; [now left|]. destruct (m' l) as [[a l']|]; [apply K|now left].
Qed.
Lemma rlift_le {A} (m m' : res A) : ler m m' -> led (rlift m) (rlift m').
Proof. intros H l. unfold rlift. destruct H as [->| ->]; [now left|now right]. Qed.

Ltac le_go := repeat first
  [ apply ler_refl | apply lep_refl | apply leo_refl | apply lew_refl | apply led_refl
  | apply chku_le | apply chki_le | apply sumu_le
  | apply bind_le; [|intro] | apply pbind_le; [|intro] | apply obind_le; [|intro] | apply wbind_le; [|intro]
  | apply rbind_le; [|intro] | apply wseq_le | apply plift_le | apply olift_le | apply rlift_le ].

(** the Mach-O writer *)
Lemma aligned_le n x a : ler (aligned Debug n x a) (aligned Release n x a).
Proof. unfold aligned. destruct (a =? 0); [apply ler_refl|]. unfold addu, mulu. le_go. Qed.
Lemma data_start_le o : ler (data_start_of Debug o) (data_start_of Release o).
Proof. unfold data_start_of, addu, mulu. le_go. Qed.
Lemma file_sizes_le o : ler (file_sizes_sum Debug o) (file_sizes_sum Release o).
Proof. apply sumu_le. Qed.
Ltac le_obj := repeat first [apply aligned_le | apply data_start_le | apply file_sizes_le | progress le_go].
Lemma sections_loop_le l : forall a b c, ler (gen_sections_loop Debug l a b c) (gen_sections_loop Release l a b c).
Proof.
  induction l as [|s l IH]; intros a b c; cbn [gen_sections_loop]; [apply ler_refl|]. unfold addu, mulu. le_obj. apply IH.
Qed.
Lemma names_size_le l : ler (names_size Debug l) (names_size Release l).
Proof. unfold names_size. apply bind_le; [apply mapM_le; intro; apply chku_le|]. intro. apply sumu_le. Qed.
Lemma symtab_le o : ler (gen_symtab_command Debug o) (gen_symtab_command Release o).
Proof.
  unfold gen_symtab_command, addu, mulu. le_obj. apply mapM_le. intro. apply names_size_le.
Qed.
Lemma write_data_le l : forall n k k', (forall m, lew (k m) (k' m)) -> lew (write_data_loop Debug l n k) (write_data_loop Release l n k').
Proof.
  induction l as [|s l IH]; intros n k k' K; cbn [write_data_loop]; [apply K|]. unfold addu. le_go. now apply IH.
Qed.
Lemma get_strx_le t name : ler (get_strx Debug t name) (get_strx Release t name).
Proof.
  unfold get_strx. generalize 0. induction (skipn 1 (split is_nul t)) as [|b l IH]; intro i; cbn [get_strx_loop]; [apply ler_refl|].
  apply bind_le; [apply ler_refl|]. intro s. unfold addu. apply bind_le; [apply chku_le|]. intro j.
  destruct (str_eqb s name); [apply ler_refl|]. apply bind_le; [apply chku_le|]. intro. apply IH.
Qed.
Lemma nlists_le sc t l : forall i, ler (gen_nlists_loop Debug sc t i l) (gen_nlists_loop Release sc t i l).
Proof.
  induction l as [|s l IH]; intro i; cbn [gen_nlists_loop]; [apply ler_refl|]. apply bind_le.
  - apply mapM_le. intros [nm|nm v ext|nm x ext]; cbn [gen_nlist64]; (apply bind_le; [apply get_strx_le|intro]); unfold addu; le_go.
  - intro. apply bind_le; [apply IH|]. intro. apply ler_refl.
Qed.
Lemma macho_le h o : lew (macho_write_into Debug h o) (macho_write_into Release h o).
Proof.
  unfold macho_write_into. apply wseq_le.
  { apply wbind_le; [|intro; apply lew_refl]. unfold gen_header64, addu, mulu. le_go. }
  apply wseq_le.
  { apply wbind_le; [|intro; apply lew_refl]. unfold gen_segment_command64, addu, mulu. le_obj. }
  apply wbind_le; [unfold gen_section64s, addu; le_obj; apply sections_loop_le|]. intro sc.
  apply wseq_le; [apply lew_refl|]. apply wseq_le; [apply wbind_le; [apply symtab_le|intro; apply lew_refl]|].
  apply wseq_le.
  { unfold write_section_data_into. apply write_data_le. intro m. apply wbind_le; [unfold padding, subu; le_obj|]. intro; apply lew_refl. }
  apply wbind_le; [apply ler_refl|]. intro t. apply wbind_le; [apply nlists_le|]. intro. apply lew_refl.
Qed.
Lemma top_C72_write h o : snd (macho_write_into Debug h o) = true -> macho_write_into Release h o = macho_write_into Debug h o.
Proof. intro H. destruct (macho_le h o) as [E|E]; [congruence|now symmetry]. Qed.

(** the Mach-O reader *)
Lemma load_le e : led (read_load_command Debug e) (read_load_command Release e).
Proof.
  intro l. unfold read_load_command. destruct (read_u32 e l) as [[cmd l']|]; [|now left].
  generalize (bytes_of e 4 cmd ++ l'). change (led (if cmd =? SEGMENT_TYPE then
         c <~ read_segment64 Debug e ;
         sections <~ read_many (Z.to_nat (sg_nsects c)) (read_section64 e) ;
         rret (LcSegment64 c sections)
       else if cmd =? SYMTAB_TYPE then
         c <~ read_symtab e ; rret (LcSymtab c)
       else if cmd =? DYSYMTAB_TYPE then
         c <~ read_dysymtab e ; rret (LcDysymtab c)
       else if cmd =? BUILD_VERSION_TYPE then
         c <~ read_build_version Debug e ;
         tools <~ read_many (Z.to_nat (bv_ntools c)) (read_build_tool e) ;
         rret (LcBuildVersion c tools)
       else rlift Panic) (if cmd =? SEGMENT_TYPE then
         c <~ read_segment64 Release e ;
         sections <~ read_many (Z.to_nat (sg_nsects c)) (read_section64 e) ;
         rret (LcSegment64 c sections)
       else if cmd =? SYMTAB_TYPE then
         c <~ read_symtab e ; rret (LcSymtab c)
       else if cmd =? DYSYMTAB_TYPE then
         c <~ read_dysymtab e ; rret (LcDysymtab c)
       else if cmd =? BUILD_VERSION_TYPE then
         c <~ read_build_version Release e ;
         tools <~ read_many (Z.to_nat (bv_ntools c)) (read_build_tool e) ;
         rret (LcBuildVersion c tools)
       else rlift Panic)).
  destruct (cmd =? SEGMENT_TYPE).
  { apply rbind_le; [|intro; apply led_refl]. unfold read_segment64. le_go. }
  destruct (cmd =? SYMTAB_TYPE); [apply led_refl|]. destruct (cmd =? DYSYMTAB_TYPE); [apply led_refl|].
  destruct (cmd =? BUILD_VERSION_TYPE); [|apply led_refl].
  apply rbind_le; [|intro; apply led_refl]. unfold read_build_version. le_go.
Qed.
Lemma top_C72_load e l x : read_load_command Debug e l = Ok x -> read_load_command Release e l = Ok x.
Proof. intro H. destruct (load_le e l) as [E|E]; congruence. Qed.

(** the parsers *)
Lemma expr_le s : lep (expr_try Debug s) (expr_try Release s).
Proof.
  unfold expr_try. destruct (split_whitespace s) as [|t1 ts]; [apply lep_refl|].
  destruct (token_try t1) as [[lhs| |]|]; try apply lep_refl. destruct ts as [|t2 ts]; [apply lep_refl|].
  destruct (token_try t2) as [[n| |]|]; try apply lep_refl; (destruct ts as [|t3 ts]; [apply lep_refl|]);
    (destruct (token_try t3) as [[rhs| |]|]; try apply lep_refl); le_go.
Qed.
Lemma mov_le s : lep (mov_parse Debug s) (mov_parse Release s).
Proof.
  unfold mov_parse. destruct (split_once (fun c => c =? 32) (trim s)) as [[opcode remain]|]; [|apply lep_refl].
  destruct (negb (str_eqb opcode (lit "mov"))); [apply lep_refl|].
  destruct (split_once (fun c => c =? 44) remain) as [[s1 s2]|]; [|apply lep_refl]. cbv zeta.
  destruct (reg64_try (trim s1)); [apply pbind_le; [apply expr_le|intro; apply lep_refl]|].
  destruct (reg32_try (trim s1)); [apply pbind_le; [apply expr_le|intro; apply lep_refl]|].
  destruct (reg16_try (trim s1)); [apply pbind_le; [apply expr_le|intro; apply lep_refl]|].
  apply lep_refl.
Qed.
Lemma line_le s : lep (line_parse Debug s) (line_parse Release s).
Proof.
  unfold line_parse. cbv zeta. destruct (split_whitespace (strip_comment s)) as [|t ts] eqn:W; [apply lep_refl|].
  apply pbind_le; [apply lep_refl|]. intros [sec|]; [apply lep_refl|].
  apply pbind_le; [apply lep_refl|]. intros [name|]; [apply lep_refl|].
  destruct (ends_with_char 58 t); [apply lep_refl|].
  apply pbind_le; [apply lep_refl|]. intros [d|]; [apply lep_refl|].
  apply pbind_le; [|intro; apply lep_refl]. unfold inst_try. rewrite W.
  destruct (str_eqb t (lit "mov")); [|apply lep_refl]. apply pbind_le; [apply mov_le|]. intro; apply lep_refl.
Qed.
Lemma top_C72_line s : line_parse Debug s <> PPanic -> line_parse Release s = line_parse Debug s.
Proof. intro H. destruct (line_le s) as [E|E]; [contradiction|now symmetry]. Qed.

(** the assembler *)
Lemma exec_raw_le a raw : leo (exec_raw Debug a raw) (exec_raw Release a raw).
Proof.
  unfold exec_raw. destruct (from_utf8 raw) as [s|]; [|apply leo_refl].
  apply obind_le; [apply olift_le, chku_le|]. intro n. cbv zeta. destruct (line_le s) as [->| ->]; [now left|].
  destruct (line_parse Release s) as [l|m|]; try apply leo_refl. destruct l; try apply leo_refl. cbn [exec_line].
  apply obind_le; [|intro; apply leo_refl]. destruct (in_reloc i); [|apply leo_refl]. le_go.
Qed.
Lemma read_le a input : leo (read_from Debug a input) (read_from Release a input).
Proof.
  unfold read_from. apply obind_le; [|intro; apply leo_refl]. revert a. induction (raw_lines input) as [|r rs IH]; intro a;
    cbn [exec_all]; [apply leo_refl|]. apply obind_le; [apply exec_raw_le|]. intro; apply IH.
Qed.
Lemma top_C72_read a input : read_from Debug a input <> Crash -> read_from Release a input = read_from Debug a input.
Proof. intro H. destruct (read_le a input) as [E|E]; [contradiction|now symmetry]. Qed.
Lemma top_C72_main h args w : snd (main Debug h args w) <> Crash -> main Release h args w = main Debug h args w.
Proof.
  unfold main. destruct (config_init args) as [cf|c e|]; try reflexivity.
  destruct (w_slot w (cf_input cf)) as [i|]; try reflexivity. destruct (w_data w i) as [src|]; try reflexivity.
  destruct (w_slot w (cf_output cf)) as [o|]; try reflexivity. cbv zeta.
  set (inp := match w_data (put w o []) i with Some bs => bs | None => [] end).
  destruct (read_le asm_new inp) as [E|E]; [rewrite E; cbn [snd]; contradiction|]. rewrite E.
  destruct (read_from Release asm_new inp) as [a|c e|]; try reflexivity. unfold asm_write_into.
  destruct (macho_le h (as_obj a)) as [F|F]; [|now rewrite F].
  destruct (macho_write_into Debug h (as_obj a)) as [bs ok]. cbn [snd] in *. subst ok. cbn [snd]. contradiction.
Qed.

(** ** The exit status of a run *)
Lemma no_source p : sources_are p [] [].
Proof. exists []. split; [constructor|reflexivity]. Qed.
Lemma read_exit p src c e : bytes_ok src -> read_from p asm_new src = Exit c e -> c = 1.
Proof.
  intros B R. exact (proj1 (proj1 (top_exit p [] asm_new [] src _ (Forall_nil _) B (ses_new p) (no_source p) (raw_lines_spec src) c e) R)).
Qed.
Lemma top_C71_always p h args w : (forall k bs, w_data w k = Some bs -> bytes_ok bs) ->
  status (snd (main p h args w)) = 0 \/ status (snd (main p h args w)) = 1 \/ status (snd (main p h args w)) = 101.
Proof.
  intro B. unfold main. destruct (config_init args) as [cf|c e|] eqn:C.
  - destruct (w_slot w (cf_input cf)) as [i|]; [|now right; right]. destruct (w_data w i) as [src|] eqn:D; [|now right; right].
    destruct (w_slot w (cf_output cf)) as [o|]; [|now right; right]. cbv zeta.
    set (inp := match w_data (put w o []) i with Some bs => bs | None => [] end).
    assert (Bi : bytes_ok inp).
    { unfold inp, put. cbn [w_data]. destruct (i =? o); [constructor|]. rewrite D. now apply (B i). }
    destruct (read_from p asm_new inp) as [a|c e|] eqn:R; [|right; left; exact (read_exit p inp c e Bi R)|now right; right].
    destruct (asm_write_into p h a) as [bs []]; [now left|now right; right].
  - right. left. apply top_C53 in C. inversion C; reflexivity.
  - now right; right.
Qed.
Section Run.
  Variables (p : profile) (h : endian) (args : list str) (w : world) (cf : config) (i o : Z) (src : list Z) (ls : list (list Z)).
  Hypothesis C : config_init args = Done cf.
  Hypothesis I : w_slot w (cf_input cf) = Some i.
  Hypothesis D : w_data w i = Some src.
  Hypothesis O : w_slot w (cf_output cf) = Some o.
  Hypothesis N : i <> o.
  Hypothesis B : bytes_ok src.
  Hypothesis Z0 : ~ In 0 src.
  Hypothesis Sl : source_lines src ls.
  Lemma top_C71_message e : snd (main p h args w) = Exit 1 e <->
    exists good bad rest pr, ls = good ++ bad :: rest /\ passes p [] good pr /\ ends_with_error p pr bad e.
  Proof using C I D O N B Sl.
    clear Z0. pose proof (top_C54_output p h args w cf i o src C I D O N) as M.
    pose proof (top_exit p [] asm_new [] src ls (Forall_nil _) B (ses_new p) (no_source p) Sl) as X. split.
    - intro E. destruct (read_from p asm_new src) as [a|c e'|] eqn:R.
      + destruct M as [_ M]. rewrite M in E. destruct (snd (asm_write_into p h a)); discriminate.
      + destruct M as [_ M]. rewrite M in E. injection E as -> ->. apply (proj1 (X 1 e)). reflexivity.
      + destruct M as [_ M]. rewrite M in E. discriminate.
    - intro G. pose proof (proj2 (X 1 e) (conj eq_refl G)) as R. rewrite R in M. apply M.
  Qed.
  Lemma top_C71_status : (forall pr, passes p [] ls pr -> fits (object_of pr)) ->
    (status (snd (main p h args w)) = 0 <-> exists pr, passes p [] ls pr /\ linkable pr) /\
    (status (snd (main p h args w)) = 1 <->
      exists e good bad rest pr, ls = good ++ bad :: rest /\ passes p [] good pr /\ ends_with_error p pr bad e) /\
    (status (snd (main p h args w)) = 101 <->
      (exists good bad rest pr, ls = good ++ bad :: rest /\ passes p [] good pr /\ crashes p pr bad) \/
      (exists pr, passes p [] ls pr /\ ~ linkable pr)).
  Proof using C I D O N B Z0 Sl.
    intro Ft. pose proof (top_C54_output p h args w cf i o src C I D O N) as M.
    pose proof (top_exit p [] asm_new [] src ls (Forall_nil _) B (ses_new p) (no_source p) Sl) as X.
    pose proof (top_crash p [] asm_new [] src ls (Forall_nil _) B (ses_new p) (no_source p) Sl) as Y.
    pose proof (top_done p [] asm_new [] src ls (Forall_nil _) B (ses_new p) (no_source p) Sl) as Dn.
    assert (Bs : Forall bytes_ok [src]) by (constructor; [exact B|constructor]).
    assert (Zs : Forall (fun i => ~ In 0 i) [src]) by (constructor; [exact Z0|constructor]).
    assert (ND : (forall a, read_from p asm_new src <> Done a) -> forall pr, ~ passes p [] ls pr).
    { intros H pr P.
      set (a := {| as_sect := last_sect SText pr; as_line := zlen pr mod 2 ^ 32; as_obj := object_of pr; as_ext := globals pr |}).
      apply (H a). apply Dn. exists pr. split; [exact P|]. repeat split. }
    destruct (read_from p asm_new src) as [a|c e|] eqn:R; [clear ND| |]; try specialize (ND ltac:(intros; discriminate)).
    - destruct M as [_ M]. rewrite M. destruct (proj1 (Dn a) eq_refl) as (pr & P & As).
      assert (U : forall pr', passes p [] ls pr' -> pr' = pr) by (intros pr' P'; eapply passes_fun; eassumption).
      assert (Wr : snd (asm_write_into p h a) = true <-> linkable pr).
      { apply (top_C52_written p h [src] a pr Bs Zs); [now apply session_one| |now apply Ft].
        destruct (passes_lines _ _ _ _ P) as (prs & E & F). cbn [app] in E. subst prs. exists [pr].
        split; [constructor; [|constructor]; exists ls; auto|]. cbn [concat]. now rewrite app_nil_r. }
      assert (N1 : ~ exists good bad rest pr', ls = good ++ bad :: rest /\ passes p [] good pr' /\ crashes p pr' bad).
      { intro H. apply Y in H. discriminate. }
      assert (N2 : ~ exists e good bad rest pr', ls = good ++ bad :: rest /\ passes p [] good pr' /\ ends_with_error p pr' bad e).
      { intros [e H]. pose proof (proj2 (X 1 e) (conj eq_refl H)). discriminate. }
      destruct (snd (asm_write_into p h a)); cbn [status].
      + split; [|split].
        * split; [intros _; exists pr; split; [exact P|now apply Wr]|reflexivity].
        * split; [discriminate|contradiction].
        * split; [discriminate|]. intros [H|(pr' & P' & H)]; [contradiction|]. apply U in P'. subst pr'. exfalso. apply H. now apply Wr.
      + assert (NL : ~ linkable pr) by (intro H; apply Wr in H; discriminate). split; [|split].
        * split; [discriminate|]. intros (pr' & P' & H). apply U in P'. subst pr'. contradiction.
        * split; [discriminate|contradiction].
        * split; [|reflexivity]. intros _. right. now exists pr.
    - destruct M as [_ M]. rewrite M. destruct (proj1 (X c e) eq_refl) as [-> G]. cbn [status].
      split; [|split].
      + split; [discriminate|]. intros (pr & P & _). exfalso. exact (ND pr P).
      + split; [intros _; now exists e|reflexivity].
      + split; [discriminate|]. intros [H|(pr & P & _)]; [apply Y in H; discriminate|exfalso; exact (ND pr P)].
    - destruct M as [_ M]. rewrite M. cbn [status]. pose proof (proj1 Y eq_refl) as G. split; [|split].
      + split; [discriminate|]. intros (pr & P & _). exfalso. exact (ND pr P).
      + split; [discriminate|]. intros [e H]. pose proof (proj2 (X 1 e) (conj eq_refl H)). discriminate.
      + split; [intros _; now left|reflexivity].
  Qed.
End Run.
