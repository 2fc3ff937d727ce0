(** Proofs for C92, continued: the text. *)
From Coq Require Import String.
From Verif Require Import Base Str X64 Mac SpecMacho Obj SpecObj Asm SpecAsm Dbg SpecDbg PfTok SpecDiag PfDiag Derive SpecDerive PfDbg PfDerive PfDerive2.

(** ** the characters of the output *)
Definition punct (c : Z) : Prop := In c [32; 34; 40; 41; 44; 58; 91; 93; 123; 125].
Section Chars.
  Variables (P : Z -> Prop) (esc : policy) (alt : bool).
  Hypothesis Hid : forall c, idch c -> P c.
  Hypothesis Hpunct : forall c, punct c -> P c.
  Hypothesis Hnl : alt = true -> P 10.
  Hypothesis Hstr : forall i s, str_ok s -> Forall P (esc_str esc i s).
  Lemma ids_P l : Forall idch l -> Forall P l.
  Proof. apply Forall_impl. exact Hid. Qed.
  Lemma puncts_P l : Forall punct l -> Forall P l.
  Proof. apply Forall_impl. exact Hpunct. Qed.
  Ltac puncts := apply puncts_P; vm_compute; repeat (apply Forall_cons; [tauto|]); apply Forall_nil.
  Lemma ind_P d : Forall P (ind d).
  Proof. apply Forall_forall. intros c I. apply repeat_spec in I. subst. apply Hpunct. vm_compute; tauto. Qed.
  Lemma nl_P d : alt = true -> Forall P (nl d).
  Proof. intros A. constructor; [now apply Hnl|apply ind_P]. Qed.
  Lemma comma_P : P 44.
  Proof. apply Hpunct. vm_compute; tauto. Qed.
  Lemma gap_P k : Forall P (dbg_gap k).
  Proof. destruct k; puncts. Qed.
  Lemma close_P k : Forall P (dbg_close k).
  Proof. destruct k; puncts. Qed.
  Lemma pre_P d k : Forall P (pre alt d k).
  Proof. pose proof (nl_P (S d)) as G. pose proof (gap_P k). unfold pre. destruct alt; [now apply G|assumption]. Qed.
  Lemma sep_P d : Forall P (sep alt d).
  Proof.
    pose proof (nl_P (S d)) as G. pose proof comma_P. assert (Forall P (lit ", ")) by puncts. unfold sep.
    destruct alt; [constructor; [assumption|now apply G]|assumption].
  Qed.
  Lemma post_P d k : Forall P (post alt d k).
  Proof.
    pose proof (nl_P d) as G. pose proof comma_P. pose proof (gap_P k). unfold post.
    destruct alt; [constructor; [assumption|now apply G]|assumption].
  Qed.
  Lemma rest_P d k es : Forall (Forall P) es -> Forall P (rest alt d k es).
  Proof.
    induction 1 as [|e es He F IH]; cbn [rest]; repeat (apply Forall_app; split); try assumption; [apply post_P|apply close_P|apply sep_P].
  Qed.
  Lemma body_P d k es : Forall (Forall P) es -> Forall P (body alt d k es).
  Proof.
    intros F. destruct F as [|e es He F]; [apply close_P|]. cbn [body]. repeat (apply Forall_app; split); [apply pre_P|assumption|now apply rest_P].
  Qed.
  Lemma showd_P v : wf v -> forall d, Forall P (showd esc alt d v).
  Proof.
    induction v as [t|s|k n es IH] using dval_rect'; intros W d.
    - apply ids_P, W.
    - cbn [showd]. constructor; [apply Hpunct; vm_compute; tauto|]. apply Forall_app. split; [now apply Hstr|puncts].
    - cbn [showd]. apply wf_node in W. destruct W as [W E]. apply Forall_app. split.
      + assert (G : Forall idch n) by (destruct k; try tauto; rewrite W; constructor).
        destruct k; cbn [dbg_open]; try (apply Forall_app; split; [now apply ids_P|]); puncts.
      + apply body_P. rewrite Forall_map. rewrite Forall_forall in *. intros e I. destruct (E e I) as [L We].
        apply Forall_app. split; [|now apply IH]. destruct k; cbn [dbg_label]; try constructor. apply Forall_app. split; [now apply ids_P|puncts].
  Qed.
End Chars.

Lemma idch_graph c : idch c -> 32 < c < 127.
Proof. unfold idch. lia. Qed.
Lemma punct_graph c : punct c -> 32 <= c < 127.
Proof. unfold punct. cbn [In]. lia. Qed.
Lemma esc_char_control esc i c : escapes_control esc -> ischar c -> Forall (fun c => ~ control c) (esc_char (esc i c) c).
Proof.
  intros X C. unfold esc_char.
  assert (L : forall c, 32 <= c < 127 -> ~ control c) by (unfold control; intros; lia).
  destruct (Z.eqb_spec c 9); [subst; repeat (constructor; [apply L; vm_compute; split; congruence|]); constructor|].
  destruct (Z.eqb_spec c 13); [subst; repeat (constructor; [apply L; vm_compute; split; congruence|]); constructor|].
  destruct (Z.eqb_spec c 10); [subst; repeat (constructor; [apply L; vm_compute; split; congruence|]); constructor|].
  destruct ((c =? 34) || (c =? 92)) eqn:Q.
  { constructor; [apply L; lia|]. constructor; [apply L; lia|constructor]. }
  destruct (esc i c) eqn:Es.
  { destruct (hex_digits_spec 6 c []) as (ds & E & H & V); [unfold ischar in C; change (16 ^ Z.of_nat 6) with 16777216; lia|lia|].
    rewrite E, app_nil_r. apply Forall_app. split; [repeat (constructor; [apply L; vm_compute; split; congruence|]); constructor|].
    apply Forall_app. split; [|repeat (constructor; [apply L; vm_compute; split; congruence|]); constructor].
    eapply Forall_impl; [|exact H]. intros x. unfold hexch, control. lia. }
  destruct (Z.eqb_spec c 0); [subst; repeat (constructor; [apply L; vm_compute; split; congruence|]); constructor|].
  constructor; [|constructor]. intros K. rewrite X in Es; [discriminate|]. unfold ischar, control in *. lia.
Qed.
Lemma esc_str_control esc i s : escapes_control esc -> str_ok s -> Forall (fun c => ~ control c) (esc_str esc i s).
Proof.
  intros X S. revert i. induction S as [|c s C S IH]; intros i; [constructor|]. cbn [esc_str]. apply Forall_app. split; [now apply esc_char_control|apply IH].
Qed.
Lemma top_C92_control esc alt v : escapes_control esc -> value_ok v ->
  Forall (fun c => ~ control c \/ (alt = true /\ c = 10)) (format esc alt v).
Proof.
  intros X V. pose proof (tree_wf v V) as W. unfold format. rewrite debug_showd by exact W. apply showd_P; try exact W.
  - intros c I. left. apply idch_graph in I. unfold control. lia.
  - intros c I. left. apply punct_graph in I. unfold control. lia.
  - intros A. right. now split.
  - intros i s S. eapply Forall_impl; [|exact (esc_str_control esc i s X S)]. cbn beta. tauto.
Qed.
Lemma top_C92_oneline esc v : value_ok v -> ~ In 10 (format esc false v).
Proof.
  intros V. pose proof (tree_wf v V) as W. unfold format. rewrite debug_showd by exact W.
  enough (F : Forall (fun c => c <> 10) (showd esc false 0 (tree v))) by (intros I; rewrite Forall_forall in F; now apply (F 10)).
  apply showd_P; try exact W.
  - intros c I. apply idch_graph in I. lia.
  - intros c I. apply punct_graph in I. lia.
  - discriminate.
  - intros i s S. apply Forall_forall. intros c I ->. now apply esc_str_no in I.
Qed.

(** ** the two layouts *)
Lemma solid_app a b : filter solid (a ++ b) = filter solid a ++ filter solid b.
Proof. apply filter_app. Qed.
Lemma solid_ind d : filter solid (ind d) = [].
Proof. unfold ind. induction (4 * d)%nat as [|n IH]; [reflexivity|exact IH]. Qed.
Lemma solid_rest d d' k es es' : Forall2 (fun e e' => filter solid e = filter solid e') es es' ->
  filter solid (rest true d k es) = filter solid (rest false d' k es').
Proof.
  induction 1 as [|e e' es es' E F IH]; cbn [rest]; rewrite !solid_app.
  - f_equal. unfold post. change (filter solid (44 :: nl d)) with (filter solid (ind d)). rewrite solid_ind. destruct k; reflexivity.
  - rewrite E, IH. unfold sep. change (filter solid (44 :: nl (S d))) with (filter solid (ind (S d))). now rewrite solid_ind.
Qed.
Lemma solid_showd esc v : forall d d', filter solid (showd esc true d v) = filter solid (showd esc false d' v).
Proof.
  induction v as [t|s|k n es IH] using dval_rect'; intros d d'; try reflexivity.
  cbn [showd]. rewrite !solid_app. f_equal.
  set (f := fun e : str * dval => dbg_label k (fst e) ++ showd esc true (S d) (snd e)).
  set (g := fun e : str * dval => dbg_label k (fst e) ++ showd esc false (S d') (snd e)).
  assert (F : Forall2 (fun e e' => filter solid e = filter solid e') (map f es) (map g es)).
  { induction IH as [|e l He Fl IHl]; [constructor|]. cbn [map]. constructor; [|exact IHl]. subst f g. cbn beta. rewrite !solid_app. f_equal. apply He. }
  destruct F as [|e e' l l' E F]; [reflexivity|]. cbn [body]. rewrite !solid_app. rewrite E, (solid_rest d d' k l l' F).
  unfold pre. change (filter solid (nl (S d))) with (filter solid (ind (S d))). rewrite solid_ind. destruct k; reflexivity.
Qed.
Lemma top_C92_layouts esc v : value_ok v -> filter solid (format esc true v) = filter solid (format esc false v).
Proof. intros V. pose proof (tree_wf v V) as W. unfold format. rewrite !debug_showd by exact W. apply solid_showd. Qed.

(** ** string literals *)
Lemma hex_val_of ds : Forall hexch ds -> hex_val ds (hexv ds).
Proof.
  induction ds as [|c ds IH] using rev_ind; intros F; [constructor|]. apply Forall_app in F. destruct F as [F C]. inversion C as [|? ? H _]; subst.
  rewrite hexv_snoc. unfold unhex. destruct (c <? 58) eqn:L; destruct H as [H|H]; try lia.
  - replace c with (48 + (c - 48)) at 1 by lia. apply hex_09; [now apply IH|lia].
  - replace c with (97 + (c - 87 - 10)) at 1 by lia. apply hex_af; [now apply IH|lia].
Qed.
Lemma hex_ne fuel : forall n acc, (0 < fuel)%nat \/ acc <> [] -> hex_digits fuel n acc <> [].
Proof.
  induction fuel as [|f IH]; intros n acc H; cbn [hex_digits]; [destruct H; [lia|assumption]|].
  destruct (n <? 16); [discriminate|]. apply IH. right. discriminate.
Qed.
Lemma esc_char_lit e c : ischar c -> str_char (esc_char e c) c.
Proof.
  intros C. unfold esc_char.
  destruct (Z.eqb_spec c 9) as [->|N9]; [exact sc_tab|].
  destruct (Z.eqb_spec c 13) as [->|N13]; [exact sc_cr|].
  destruct (Z.eqb_spec c 10) as [->|N10]; [exact sc_lf|].
  destruct (Z.eqb_spec c 34) as [->|N34]; [exact sc_quote|].
  destruct (Z.eqb_spec c 92) as [->|N92]; [exact sc_backslash|].
  cbn [orb]. destruct e.
  - destruct (hex_digits_spec 6 c []) as (ds & E & H & V); [unfold ischar in C; change (16 ^ Z.of_nat 6) with 16777216; lia|lia|].
    pose proof (hex_ne 6 c [] ltac:(lia)) as N. rewrite E, app_nil_r in *. apply sc_unicode; [|exact N]. rewrite <- V. now apply hex_val_of.
  - destruct (Z.eqb_spec c 0) as [->|N0]; [exact sc_nul|]. now apply sc_plain.
Qed.
Lemma esc_str_lit esc s : str_ok s -> forall i, str_chars (esc_str esc i s) s.
Proof. induction 1 as [|c s C S IH]; intros i; cbn [esc_str]; constructor; [now apply esc_char_lit|apply IH]. Qed.
Lemma str_lit esc alt s : str_ok s -> string_literal (debug esc alt (DvStr s)) s.
Proof. intros S. exists (esc_str esc 0 s). split; [now apply esc_str_lit|reflexivity]. Qed.

(** ** records *)
Lemma lines_app a b : ~ In 10 a -> lines (a ++ 10 :: b) = a :: lines b.
Proof.
  induction a as [|c a IH]; intros N; [reflexivity|]. cbn [app lines split] in *. unfold lines in *. cbn [split]. cbn [In] in N.
  destruct (Z.eqb_spec 10 c); [subst; tauto|]. rewrite IH by tauto. reflexivity.
Qed.
Lemma lines_one a : ~ In 10 a -> lines a = [a].
Proof.
  induction a as [|c a IH]; intros N; [reflexivity|]. unfold lines in *. cbn [split]. cbn [In] in N.
  destruct (Z.eqb_spec 10 c); [subst; tauto|]. rewrite IH by tauto. reflexivity.
Qed.
Lemma lines_ne a : lines a <> [].
Proof. destruct a as [|c a]; [discriminate|]. unfold lines. cbn [split]. destruct (10 =? c); [discriminate|]. now destruct (split (Z.eqb 10) a). Qed.
Lemma lines_pad x rest : forall b, lines (pad b (x ++ [10]) ++ rest) =
  match lines x with w :: ws => ((if b then lit "    " else []) ++ w) :: map (app (lit "    ")) ws | [] => [] end ++ lines rest.
Proof.
  induction x as [|c x IH]; intros b.
  - cbn [app pad]. rewrite <- app_assoc. cbn [app]. destruct b; [|reflexivity]. rewrite lines_app by (cbn; intuition discriminate). reflexivity.
  - cbn [app pad]. rewrite <- app_assoc. cbn [app]. pose proof (lines_ne x) as NE. destruct (Z.eqb_spec c 10) as [->|N].
    + change (lines (10 :: x)) with ([] :: lines x). rewrite lines_app by (destruct b; cbn; intuition discriminate). rewrite IH.
      destruct (lines x) as [|w ws]; [congruence|]. cbn [map app]. now rewrite app_nil_r.
    + assert (E : forall y, lines (c :: y) = match lines y with w :: ws => (c :: w) :: ws | [] => [[c]] end).
      { intros y. unfold lines. cbn [split]. destruct (Z.eqb_spec 10 c); [congruence|]. reflexivity. }
      assert (G : lines (c :: pad false (x ++ [10]) ++ rest) = match lines (c :: x) with w :: ws => w :: map (app (lit "    ")) ws | [] => [] end ++ lines rest).
      { rewrite !E, IH. destruct (lines x) as [|w ws]; [congruence|]. reflexivity. }
      destruct b; [|exact G]. cbn [app lit]. rewrite E in G |- *.
      assert (L4 : forall y, lines (lit "    " ++ y) = match lines y with w :: ws => (lit "    " ++ w) :: ws | [] => [] end).
      { intros y. unfold lines. pose proof (lines_ne y) as NY. unfold lines in NY. cbn [lit app]. cbn. destruct (split (Z.eqb 10) y); [congruence|reflexivity]. }
      change (lines (lit "    " ++ (c :: pad false (x ++ [10]) ++ rest)) = match match lines x with w :: ws => (c :: w) :: ws | [] => [[c]] end with w :: ws => (lit "    " ++ w) :: map (app (lit "    ")) ws | [] => [] end ++ lines rest).
      rewrite L4, E. rewrite IH. destruct (lines x) as [|w ws]; [congruence|]. reflexivity.
Qed.
Lemma join_flat e es : join_comma (e :: es) = e ++ flat_map (fun t => lit ", " ++ t) es.
Proof.
  revert e. induction es as [|x es IH]; intros e; [now rewrite app_nil_r|]. change (join_comma (e :: x :: es)) with (e ++ lit ", " ++ join_comma (x :: es)).
  rewrite IH. cbn [flat_map]. now rewrite <- !app_assoc.
Qed.
Lemma join_listed o c es : listed false o c es (o ++ match es with [] => [] | _ => join_comma es end ++ c).
Proof.
  destruct es as [|e es]; [reflexivity|]. cbn [listed]. rewrite join_flat, flat_map_concat_map, <- !app_assoc. reflexivity.
Qed.
Lemma node_lines k name es : ~ In 10 name -> es <> [] -> block true (dbg_open k name) (dbg_close k) es (dbg_node true k name es).
Proof.
  intros N NE. unfold block, dbg_node. destruct es as [|e es]; [congruence|]. cbn [andb length Nat.ltb Nat.leb]. clear NE.
  cbn [app]. rewrite lines_app by (destruct k; cbn [dbg_open]; try rewrite in_app_iff; cbn; intuition discriminate). cbn [app]. f_equal.
  generalize (e :: es) as l. clear e es. induction l as [|e l IH].
  - cbn [flat_map app]. apply lines_one. destruct k; cbn; intuition discriminate.
  - cbn [flat_map]. rewrite <- !app_assoc, <- IH. rewrite (app_assoc e). rewrite lines_pad. f_equal. now destruct (lines (e ++ lit ",")).
Qed.
Lemma node_block alt k name es : k <> KStruct -> ~ In 10 name -> block alt (dbg_open k name) (dbg_close k) es (dbg_node alt k name es).
Proof.
  intros K N. destruct alt; [destruct es as [|e es]; [reflexivity|now apply node_lines]|].
  unfold block, dbg_node. cbn [andb]. pose proof (join_listed (dbg_open k name) (dbg_close k) es) as J. destruct es; [exact J|].
  replace (dbg_gap k) with (@nil Z) by (destruct k; [reflexivity|congruence|reflexivity|reflexivity]). now rewrite app_nil_r.
Qed.
Lemma num_shown alt esc n : num_ok n -> shown alt (FNum n) (debug esc alt (dv_num n)).
Proof.
  intros R. unfold num_ok in R. cbn [debug dv_num]. destruct (n <? 0) eqn:S.
  - change (45 :: show_u64 (- n)) with (lit "-" ++ show_u64 (- n)). apply sh_neg; [lia|]. apply show_decimal. lia.
  - apply sh_num; [lia|]. apply show_decimal. lia.
Qed.
Lemma bool_shown alt esc b : shown alt (FBool b) (debug esc alt (dv_bool b)).
Proof. destruct b; constructor. Qed.
Lemma name_nl s : forallb (fun c => negb (c =? 10)) (lit s) = true -> ~ In 10 (lit s).
Proof. intros F I. rewrite forallb_forall in F. apply F in I. discriminate. Qed.
Lemma struct_text esc alt s l : forallb (fun c => negb (c =? 10)) (lit s) = true -> l <> [] ->
  record_text alt s (map fst l) (map (fun e => debug esc alt (snd e)) l) (debug esc alt (dv_struct s l)).
Proof.
  intros NL N. unfold dv_struct, record_text. cbn [debug]. rewrite map_map. cbn [fst snd dbg_label].
  replace (combine (map fst l) (map (fun e => debug esc alt (snd e)) l)) with (map (fun e : string * dval => (fst e, debug esc alt (snd e))) l)
    by (clear N; induction l as [|x l IH]; [reflexivity|cbn [map combine]; now rewrite IH]).
  rewrite map_map. cbn [fst snd].
  rewrite (map_ext (fun e : string * dval => (lit (fst e) ++ lit ": ") ++ debug esc alt (snd e)) (fun e => lit (fst e) ++ lit ": " ++ debug esc alt (snd e)))
    by (intros e; now rewrite <- app_assoc).
  assert (NE : map (fun e : string * dval => lit (fst e) ++ lit ": " ++ debug esc alt (snd e)) l <> []) by (destruct l; [congruence|discriminate]).
  revert NE. generalize (map (fun e : string * dval => lit (fst e) ++ lit ": " ++ debug esc alt (snd e)) l). intros es NE.
  destruct alt; [apply (node_lines KStruct); [now apply name_nl|exact NE]|].
  pose proof (join_listed (lit s ++ lit " { ") (lit " }") es) as J. unfold dbg_node. cbn [dbg_open dbg_gap dbg_close]. destruct es as [|e es]; [congruence|].
  change (lit " { ") with (lit " {" ++ lit " ") in J |- *. change (lit " }") with (lit " " ++ lit "}") in J |- *. rewrite <- !app_assoc in J. rewrite <- !app_assoc. try rewrite <- (app_assoc (join_comma (e :: es))). exact J.
Qed.
Lemma triple_inv {A B C} (a a' : A) (b b' : B) (c c' : C) : Some (a, b, c) = Some (a', b', c') -> a = a' /\ b = b' /\ c = c'.
Proof. intros E. injection E. tauto. Qed.
Lemma pair_inv {A B} (a a' : A) (b b' : B) : Some (a, b) = Some (a', b') -> a = a' /\ b = b'.
Proof. intros E. injection E. tauto. Qed.
Lemma tuple_text esc alt s l : forallb (fun c => negb (c =? 10)) (lit s) = true -> block alt (lit s ++ lit "(") (lit ")") (map (debug esc alt) l) (debug esc alt (dv_tuple s l)).
Proof.
  intros N. unfold dv_tuple, unlabelled. cbn [debug]. rewrite map_map. cbn [fst snd dbg_label app]. apply (node_block alt KTuple); [discriminate|now apply name_nl].
Qed.
Lemma list_text esc alt l : block alt (lit "[") (lit "]") (map (debug esc alt) l) (debug esc alt (dv_list l)).
Proof.
  unfold dv_list, unlabelled. cbn [debug]. rewrite map_map. cbn [fst snd dbg_label app]. apply (node_block alt KList); [discriminate|intros []].
Qed.
Lemma pair_shown esc alt a b va vb : shown alt va (debug esc alt a) -> shown alt vb (debug esc alt b) -> shown alt (FPair va vb) (debug esc alt (dv_tuple "" [a; b])).
Proof. intros A B. eapply sh_pair; [exact A|exact B|]. exact (tuple_text esc alt "" [a; b] eq_refl). Qed.
Lemma option_shown {A} esc alt (f : A -> fval) (g : A -> dval) o : (forall a, o = Some a -> shown alt (f a) (debug esc alt (g a))) ->
  shown alt (FOpt (option_map f o)) (debug esc alt (dv_option g o)).
Proof.
  intros H. destruct o as [a|]; [|apply sh_none]. cbn [option_map dv_option]. eapply sh_some; [now apply H|]. exact (tuple_text esc alt "Some" [g a] eq_refl).
Qed.
Lemma list_shown {A} esc alt (f : A -> fval) (g : A -> dval) l : Forall (fun a => shown alt (f a) (debug esc alt (g a))) l ->
  shown alt (FList (map f l)) (debug esc alt (dv_list (map g l))).
Proof.
  intros H. eapply sh_list; [|apply list_text]. rewrite map_map. induction H; cbn [map]; constructor; assumption.
Qed.
Lemma bytes_shown esc alt l : bytes_ok l -> shown alt (FList (map FNum l)) (debug esc alt (dv_list (map dv_num l))).
Proof. intros B. apply list_shown. eapply Forall_impl; [|apply byte_num, B]. intros a. apply num_shown. Qed.
Lemma others_shown {A} esc alt (g : A -> value) l : shown alt (FList (map (fun x => FOther (format esc alt (g x))) l)) (debug esc alt (dv_list (map (fun x => tree (g x)) l))).
Proof. apply list_shown. apply Forall_forall. intros a _. apply sh_other. Qed.
Ltac shown1 := first [ apply num_shown; numok | apply bool_shown | apply sh_str, str_lit; assumption | apply bytes_shown; assumption
  | apply (others_shown _ _ VSection64) | apply (others_shown _ _ VBuildTool)
  | apply pair_shown; apply sh_other | apply option_shown; intros ? ?; first [apply sh_other|apply sh_str, str_lit] | apply sh_other ].
Ltac headed := match goal with |- context [debug ?e ?a ?t] => let t' := eval red in t in change t with t' end.
Ltac record := eexists; split; [|unfold format; cbn [tree]; headed; match goal with |- record_text _ _ _ _ (debug ?e ?a (dv_struct ?s ?l)) => exact (struct_text e a s l eq_refl ltac:(discriminate)) end];
  cbn [map snd]; repeat (apply Forall2_cons; [shown1|]); try apply Forall2_nil.
Lemma top_C92_records esc alt v name fields vals : value_ok v -> record_of esc alt v = Some (name, fields, vals) ->
  exists ts, Forall2 (shown alt) vals ts /\ record_text alt name fields ts (format esc alt v).
Proof.
  intros V E. destruct v; cbn [record_of] in E; try discriminate; cbn [value_ok] in V.
  - destruct x as [| |b d i s]; try discriminate. apply triple_inv in E; destruct E as (<- & <- & <-). cbn [mem_ok] in V. rng. record.
  - apply triple_inv in E; destruct E as (<- & <- & <-). rng. record.
  - apply triple_inv in E; destruct E as (<- & <- & <-). unfold header_rng in V. rng. record.
  - apply triple_inv in E; destruct E as (<- & <- & <-). unfold segment_rng in V. rng. record.
  - apply triple_inv in E; destruct E as (<- & <- & <-). unfold section_rng in V. rng. record.
  - apply triple_inv in E; destruct E as (<- & <- & <-). unfold symtab_rng in V. rng. record.
  - apply triple_inv in E; destruct E as (<- & <- & <-). unfold dysymtab_rng in V. rng. record.
  - apply triple_inv in E; destruct E as (<- & <- & <-). unfold version_rng in V. rng. record.
  - apply triple_inv in E; destruct E as (<- & <- & <-). unfold build_version_rng in V. rng. record.
  - apply triple_inv in E; destruct E as (<- & <- & <-). unfold build_tool_rng in V. rng. record.
  - destruct x; try discriminate. apply triple_inv in E; destruct E as (<- & <- & <-). record.
  - apply triple_inv in E; destruct E as (<- & <- & <-). unfold nlist_rng in V. rng. record.
  - apply triple_inv in E; destruct E as (<- & <- & <-). unfold reloc_rng in V. rng. record.
  - unfold symbol_rng in V. destruct x; apply triple_inv in E; destruct E as (<- & <- & <-); cbn [sym_name] in V; rng; record.
  - apply triple_inv in E; destruct E as (<- & <- & <-). rng. record. rewrite H1 in *. assumption.
  - apply triple_inv in E; destruct E as (<- & <- & <-). record.
Qed.
Ltac tuple := eexists; split; [|unfold format; cbn [tree]; headed; match goal with |- block _ _ _ _ (debug ?e ?a (dv_tuple ?s ?l)) => exact (tuple_text e a s l eq_refl) end];
  cbn [map]; repeat (apply Forall2_cons; [shown1|]); try apply Forall2_nil.
Lemma top_C92_tuples esc alt v name vals : value_ok v -> tuple_of esc alt v = Some (name, vals) ->
  exists ts, Forall2 (shown alt) vals ts /\ block alt (lit name ++ lit "(") (lit ")") ts (format esc alt v).
Proof.
  intros V E. destruct v; cbn [tuple_of] in E; try discriminate; cbn [value_ok] in V.
  - destruct x; apply pair_inv in E; destruct E as [<- <-]; tuple.
  - destruct x; try discriminate; apply pair_inv in E; destruct E as [<- <-]; cbn [mem_ok] in V; tuple.
  - destruct x; apply pair_inv in E; destruct E as [<- <-]; tuple.
  - destruct x; apply pair_inv in E; destruct E as [<- <-]; tuple.
  - destruct x; try discriminate; apply pair_inv in E; destruct E as [<- <-]; tuple.
  - apply pair_inv in E; destruct E as [<- <-]; tuple.
  - apply pair_inv in E; destruct E as [<- <-]; tuple.
Qed.

(** ** names *)
Lemma top_C92_registers esc alt :
  (forall r, format esc alt (VReg64 r) = map upper (name_of (Reg64 r))) /\
  (forall r, format esc alt (VReg32 r) = map upper (name_of (Reg32 r))) /\
  (forall r, format esc alt (VReg16 r) = map upper (name_of (Reg16 r))) /\
  (forall r, format esc alt (VReg8 r) = map upper (name_of (Reg8 r))).
Proof. repeat split; intros []; reflexivity. Qed.
Lemma prim_code {A} (disc : A -> Z) all n a : unwrap (from_prim disc all n) = Ok a -> disc a = n.
Proof.
  unfold from_prim. destruct (find _ all) as [b|] eqn:F; [|discriminate]. intros E. injection E as ->. apply find_some in F. lia.
Qed.
Lemma top_C92_names esc alt :
  (forall n x, magic_from_u32 n = Ok x -> camel_of (magic_name n) (format esc alt (VMagic x))) /\
  (forall n x, file_type_from_u32 n = Ok x -> camel_of (mh_filetype n) (format esc alt (VFileType x))) /\
  (forall n x, section_type_from_u32 n = Ok x -> camel_of (s_type_name n) (format esc alt (VSectionType x))) /\
  (forall n x, platform_from_u32 n = Ok x -> camel_of (platform_name n) (format esc alt (VPlatform x))) /\
  (forall n x, tool_from_u32 n = Ok x -> camel_of (tool_name n) (format esc alt (VTool x))) /\
  (forall n x, n_type_from_u8 n = Ok x -> camel_of (n_type_name n) (format esc alt (VNType x))) /\
  (forall n x, debug_symbol_from_u8 n = Ok x -> camel_of (n_type_name n) (format esc alt (VDebugSymbol x))).
Proof.
  repeat split; intros n x H; apply prim_code in H; subst n; destruct x; eexists; split; reflexivity.
Qed.
Lemma top_C92_reloc_names esc alt :
  (forall n x, reloc_length_from_u32 n = Ok x -> camel_of (r_length_name n) (format esc alt (VRelocLength x))) /\
  (forall n x, x86_reloc_from_u8 n = Ok x -> camel_of (generic_reloc_name n) (format esc alt (VX86Reloc x))) /\
  (forall n x, x86_64_reloc_from_u8 n = Ok x -> camel_of (x86_64_reloc_name n) (format esc alt (VX86_64Reloc x))).
Proof.
  repeat split; intros n x H.
  - apply prim_code in H; subst n; destruct x; eexists; split; reflexivity.
  - unfold x86_reloc_from_u8 in H. repeat match type of H with match ?z with _ => _ end = _ => destruct z; try discriminate end; injection H as <-; eexists; split; reflexivity.
  - unfold x86_64_reloc_from_u8 in H. repeat match type of H with match ?z with _ => _ end = _ => destruct z; try discriminate end; injection H as <-; eexists; split; reflexivity.
Qed.
Lemma top_C92_plain esc alt :
  (forall x, camel_of (cpu_subtype_name (cpu_sub_x86_n x)) (format esc alt (VCpuSubX86 x))) /\
  (forall x, camel_of (cpu_subtype_name (cpu_sub_x86_64_n x)) (format esc alt (VCpuSubX86_64 x))) /\
  (forall s, map upper (lit "." ++ format esc alt (VSect s)) = map upper (sect_name s)) /\
  (forall f, camel_of (mh_name (flag_bit f)) (format esc alt (VFlag f))) /\
  (forall f, camel_of (s_attr_name (attr_bit f)) (format esc alt (VAttr f))).
Proof.
  repeat split.
  - intros []. eexists; split; reflexivity.
  - intros []. eexists; split; reflexivity.
  - now intros [].
  - intros f. apply flag_camel.
  - intros f. apply attr_camel.
Qed.

(** ** the formatters written by hand, through the same builders *)
Lemma entries_node {A} esc alt (f : A -> str) l : Forall (fun a => ~ In 10 (f a) /\ f a <> []) l ->
  debug esc alt (dv_set (map (fun a => DvAtom (f a)) l)) = dbg_entries alt (lit "{") (lit "}") (map f l).
Proof.
  intros F. unfold dv_set, unlabelled. cbn [debug]. rewrite !map_map. cbn [fst snd debug dbg_label]. unfold dbg_node, dbg_entries. cbn [dbg_open dbg_gap dbg_close app].
  destruct F as [|a l [Ha Ea] F]; [now destruct alt|]. cbn [map]. destruct alt.
  - f_equal. f_equal. f_equal. cbn [map flat_map].
    assert (G : forall x, ~ In 10 x -> x <> [] -> pad true (x ++ lit "," ++ [10]) = lit "    " ++ x ++ lit "," ++ [10]).
    { intros x N E. rewrite pad_on by (destruct x; [congruence|discriminate]). f_equal. rewrite pad_through by exact N. reflexivity. }
    rewrite G by assumption. f_equal. induction F as [|b l [Hb Eb] F IH]; [reflexivity|]. cbn [map flat_map]. rewrite IH. f_equal. now apply G.
  - now rewrite app_nil_r.
Qed.
Lemma top_C92_sets esc alt :
  (forall l, format esc alt (VFlags l) = dbg_flags alt l) /\ (forall l, format esc alt (VAttrs l) = dbg_attrs alt l).
Proof.
  split; intros l; apply entries_node; apply Forall_forall; intros [] _; (split; [vm_compute; intuition discriminate|discriminate]).
Qed.

Lemma top_C92_byte_orders esc alt e :
  (format esc alt (VEndian e) = lit "Little" <-> bytes_of e 2 1 = [1; 0]) /\ (format esc alt (VEndian e) = lit "Big" <-> bytes_of e 2 1 = [0; 1]).
Proof. destruct e; repeat split; intros H; (reflexivity || discriminate H). Qed.
