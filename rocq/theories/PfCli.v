(** Proofs about the command line: C53, C54. *)
From Coq Require String.
Import String.StringSyntax.
From Coq Require Import ZifyBool ZifyNat.
From Verif Require Import Base Str X64 SpecX86 Obj Asm SpecAsm Assembler Cli SpecCli SpecRun PfStr PfTok PfAsm.

(** ** `std::path` *)
Notation slash := (fun c => c =? 47).
Lemma split_cat a b : split slash (a ++ 47 :: b) = split slash a ++ split slash b.
Proof.
  induction a as [|c a IH]; [reflexivity|]. cbn [app split]. rewrite IH. destruct (c =? 47); [reflexivity|].
  pose proof (split_not_nil slash a) as N. destruct (split slash a) as [|w ws]; [congruence|]. reflexivity.
Qed.
Lemma split_one a : ~ In 47 a -> split slash a = [a].
Proof.
  induction a as [|c a IH]; intro N; [reflexivity|]. cbn [split]. assert (c <> 47 /\ ~ In 47 a) as [H1 H2] by (cbn [In] in N; split; intro; apply N; auto).
  apply Z.eqb_neq in H1. rewrite H1, IH by exact H2. reflexivity.
Qed.
Lemma join_app a b : a <> [] -> b <> [] -> join (a ++ b) = join a ++ 47 :: join b.
Proof.
  induction a as [|w a IH]; intros Na Nb; [congruence|]. destruct a as [|v a].
  - cbn [app join]. destruct b; [congruence|reflexivity].
  - cbn [app]. cbn [app] in IH. change (join (w :: v :: a ++ b)) with (w ++ 47 :: join (v :: a ++ b)). rewrite IH by (assumption || discriminate).
    change (join (w :: v :: a)) with (w ++ 47 :: join (v :: a)). rewrite <- app_assoc. reflexivity.
Qed.
Lemma join_split s : join (split slash s) = s.
Proof.
  induction s as [|c s IH]; [reflexivity|]. cbn [split]. pose proof (split_not_nil slash s) as N. destruct (c =? 47) eqn:E.
  - apply Z.eqb_eq in E. subst. destruct (split slash s) as [|w ws]; [congruence|]. rewrite <- IH. reflexivity.
  - destruct (split slash s) as [|w ws]; [congruence|]. rewrite <- IH. destruct ws; reflexivity.
Qed.
Lemma split_pieces s : Forall (fun w => ~ In 47 w) (split slash s).
Proof.
  induction s as [|c s IH]; [repeat constructor; intros []|]. cbn [split]. destruct (c =? 47) eqn:E; [constructor; [intros []|exact IH]|].
  destruct (split slash s) as [|w ws]; inversion IH; subst; constructor; try constructor; try assumption.
  - intros [H|[]]. lia.
  - intros [H|H]; [lia|contradiction].
Qed.
Definition skip (w : str) : Prop := w = [] \/ w = lit ".".
Lemma skip_iff w : str_eqb w [] || str_eqb w (lit ".") = true <-> skip w.
Proof. rewrite orb_true_iff, !str_eqb_eq. reflexivity. Qed.
Lemma strip_skip ps l : Forall skip ps -> strip_tail (ps ++ l) = strip_tail l.
Proof. induction 1 as [|w ps H _ IH]; [reflexivity|]. cbn [app strip_tail]. now rewrite (proj2 (skip_iff w) H). Qed.
Lemma strip_spec l : exists ps, l = ps ++ strip_tail l /\ Forall skip ps /\ match strip_tail l with [] => True | w :: _ => ~ skip w end.
Proof.
  induction l as [|w l (ps & E & F & H)]; [exists []; repeat split; constructor|]. cbn [strip_tail].
  destruct (str_eqb w [] || str_eqb w (lit ".")) eqn:S.
  - exists (w :: ps). cbn [app]. split; [now rewrite <- E|]. split; [constructor; [now apply skip_iff|exact F]|exact H].
  - exists []. split; [reflexivity|]. split; [constructor|]. rewrite <- skip_iff. congruence.
Qed.
Lemma trailing_split t : trailing t -> forall n, ~ In 47 n -> exists ps, split slash (n ++ t) = n :: ps /\ Forall skip ps.
Proof.
  induction 1 as [|t T IH|t T IH]; intros n N.
  - exists []. rewrite app_nil_r, split_one by exact N. repeat constructor.
  - destruct (IH []) as (ps & E & F); [intros []|]. exists ([] :: ps). rewrite split_cat, split_one by exact N.
    cbn [app] in *. rewrite E. split; [reflexivity|]. constructor; [now left|exact F].
  - destruct (IH [46]) as (ps & E & F); [intros [H|[]]; lia|]. exists ([46] :: ps). rewrite split_cat, split_one by exact N.
    cbn [app] in *. rewrite E. split; [reflexivity|]. constructor; [now right|exact F].
Qed.
Lemma skip_trailing ps : Forall skip ps -> forall n, exists t, join (n :: ps) = n ++ t /\ trailing t.
Proof.
  induction 1 as [|w ps H _ IH]; intro n.
  - exists []. split; [cbn; now rewrite app_nil_r|constructor].
  - destruct (IH w) as (t & E & T). change (join (n :: w :: ps)) with (n ++ 47 :: join (w :: ps)). rewrite E.
    destruct H as [-> | ->].
    + exists (47 :: t). split; [reflexivity|now constructor].
    + exists (47 :: 46 :: t). split; [reflexivity|now constructor].
Qed.
Lemma rev_cons_inv {A} (l : list A) x y : rev l = x :: y -> l = rev y ++ [x].
Proof. intro H. apply (f_equal (@rev A)) in H. rewrite rev_involutive in H. exact H. Qed.
Lemma stem_iff n st : name_stem n st <-> stem n = st.
Proof.
  unfold stem. split.
  - assert (N : forall e, ~ In 46 e -> ~ In 46 (rev e)) by (intros e H I; apply H; apply in_rev; exact I).
    destruct 1 as [st ext Ne Ni|ext Ni|n Ni].
    + assert (E : split_once (fun c => c =? 46) (rev (st ++ 46 :: ext)) = Some (rev ext, rev st)).
      { apply split_char. split; [|apply N, Ni]. rewrite rev_app_distr. cbn [rev]. now rewrite <- app_assoc. }
      rewrite E. destruct (rev st) as [|c r] eqn:Er; [|rewrite <- Er; apply rev_involutive].
      apply (f_equal (@rev Z)) in Er. rewrite rev_involutive in Er. contradiction.
    + assert (E : split_once (fun c => c =? 46) (rev (46 :: ext)) = Some (rev ext, [])).
      { apply split_char. split; [reflexivity|apply N, Ni]. }
      now rewrite E.
    + now rewrite (proj2 (split_char_none 46 (rev n)) (N _ Ni)).
  - destruct (split_once (fun c => c =? 46) (rev n)) as [[a b]|] eqn:E.
    + apply split_char in E. destruct E as [E Na]. apply (f_equal (@rev Z)) in E. rewrite rev_involutive, rev_app_distr in E.
      cbn [rev] in E. rewrite <- app_assoc in E. cbn [app] in E. assert (N : ~ In 46 (rev a)) by (intro I; apply Na; apply in_rev; exact I).
      destruct b as [|c b].
      * intros <-. subst n. now constructor.
      * intros <-. rewrite E. constructor; [|exact N]. intro H. apply (f_equal (@length Z)) in H. rewrite rev_length in H. discriminate H.
    + intros <-. apply split_char_none in E. apply ns_plain. intro I. apply E. apply in_rev. rewrite rev_involutive. exact I.
Qed.
Lemma file_name_split d n t : prefix_dir d -> file_name n -> trailing t ->
  exists l, strip_tail (rev (split slash (d ++ n ++ t))) = n :: rev l /\ forall x, join (l ++ [x]) = d ++ x.
Proof.
  intros D (Ns & N0 & N1 & N2) T. destruct (trailing_split t T n Ns) as (ps & E & F).
  assert (NS : ~ skip n) by (intros [H|H]; congruence).
  assert (K : forall l, strip_tail (rev (l ++ n :: ps)) = n :: rev l).
  { intro l. rewrite rev_app_distr. cbn [rev]. rewrite <- app_assoc. rewrite strip_skip by (apply Forall_rev; exact F).
    cbn [app strip_tail]. destruct (str_eqb n [] || str_eqb n (lit ".")) eqn:Q; [apply skip_iff in Q; contradiction|reflexivity]. }
  destruct D as [-> | (d' & ->)].
  - exists []. cbn [app]. rewrite E. split; [apply (K [])|]. intro x. reflexivity.
  - exists (split slash d'). split.
    + rewrite <- app_assoc. cbn [app]. rewrite split_cat, E. apply K.
    + intro x. rewrite join_app by (apply split_not_nil || discriminate). rewrite join_split, <- app_assoc. reflexivity.
Qed.
Lemma file_name_join path n before : strip_tail (rev (split slash path)) = n :: before -> n <> lit ".." ->
  exists d t, path = d ++ n ++ t /\ prefix_dir d /\ file_name n /\ trailing t.
Proof.
  intros E N2. destruct (strip_spec (rev (split slash path))) as (ps & Es & F & S). rewrite E in Es, S.
  assert (Ep : split slash path = rev before ++ n :: rev ps).
  { rewrite <- (rev_involutive (split slash path)), Es, rev_app_distr. cbn [rev]. now rewrite <- app_assoc. }
  assert (Fn : file_name n).
  { pose proof (split_pieces path) as P. rewrite Ep in P. apply Forall_app in P. destruct P as [_ P]. inversion P; subst.
    split; [assumption|]. split; [intros ->; apply S; now left|]. split; [intros ->; apply S; now right|exact N2]. }
  destruct (skip_trailing (rev ps) (Forall_rev F) n) as (t & Et & T).
  assert (Ej : path = join (rev before ++ n :: rev ps)) by (rewrite <- Ep; symmetry; apply join_split).
  destruct before as [|b before].
  - exists [], t. cbn [rev app] in *. split; [congruence|]. split; [now left|]. auto.
  - exists (join (rev (b :: before)) ++ [47]), t. split; [|split; [right; eauto|auto]].
    rewrite Ej, join_app; [|intro H; apply (f_equal (@length str)) in H; rewrite rev_length in H; discriminate H|discriminate].
    rewrite Et, <- app_assoc. reflexivity.
Qed.
Lemma top_C53_path path out : object_path path out <-> with_extension_o path = out.
Proof.
  unfold with_extension_o. split.
  - destruct 1 as [d n st t D N S T|path H].
    + destruct (file_name_split d n t D N T) as (l & -> & J). destruct N as (_ & _ & _ & N2).
      apply str_eqb_neq in N2. rewrite N2. apply stem_iff in S. rewrite S, rev_involutive, J. now rewrite <- app_assoc.
    + destruct (strip_tail (rev (split slash path))) as [|n before] eqn:E; [reflexivity|].
      destruct (str_eqb n (lit "..")) eqn:Q; [reflexivity|]. apply str_eqb_neq in Q.
      destruct (file_name_join _ _ _ E Q) as (d & t & Ep & D & N & T). now apply H in Ep.
  - destruct (strip_tail (rev (split slash path))) as [|n before] eqn:E.
    + intros <-. apply op_none. intros d n t D N T ->. destruct (file_name_split d n t D N T) as (l & E' & _). congruence.
    + destruct (str_eqb n (lit "..")) eqn:Q.
      * intros <-. apply str_eqb_eq in Q. subst n. apply op_none. intros d n t D N T ->.
        destruct (file_name_split d n t D N T) as (l & E' & _). rewrite E in E'. injection E' as <- _. destruct N as (_ & _ & _ & N). congruence.
      * intros <-. apply str_eqb_neq in Q. destruct (file_name_join _ _ _ E Q) as (d & t & -> & D & N & T).
        destruct (file_name_split d n t D N T) as (l & E' & J). rewrite E in E'. injection E' as ->. rewrite rev_involutive, J, <- app_assoc.
        constructor; try assumption. now apply stem_iff.
Qed.

(** ** Arguments *)
Lemma position_none args : position_o args = None <-> ~ In (lit "-o") args.
Proof.
  induction args as [|a args IH]; cbn [position_o In]; [tauto|]. destruct (str_eqb a (lit "-o")) eqn:E.
  - apply str_eqb_eq in E. split; [congruence|tauto].
  - apply str_eqb_neq in E. destruct (position_o args) as [i|].
    + split; [congruence|]. intro H. exfalso. assert (Some i = None) by (apply IH; tauto). congruence.
    + split; [|reflexivity]. intros _ [H|H]; [congruence|]. now apply IH.
Qed.
Lemma position_some args i : position_o args = Some i <->
  exists pre post, args = pre ++ lit "-o" :: post /\ ~ In (lit "-o") pre /\ length pre = i.
Proof.
  revert i. induction args as [|a args IH]; intro i; cbn [position_o].
  - split; [congruence|]. intros ([|] & post & E & _); discriminate E.
  - destruct (str_eqb a (lit "-o")) eqn:E.
    + apply str_eqb_eq in E. subst a. split.
      * intro H. injection H as <-. exists [], args. split; [reflexivity|]. split; [intros []|reflexivity].
      * intros ([|b pre] & post & E & N & L); [now subst i|]. injection E as <- _. exfalso. apply N. now left.
    + apply str_eqb_neq in E. split.
      * destruct (position_o args) as [j|]; [|congruence]. intro H. injection H as <-.
        destruct (proj1 (IH j) eq_refl) as (pre & post & -> & N & L). exists (a :: pre), post. split; [reflexivity|].
        split; [intros [H|H]; [congruence|contradiction]|]. cbn. now rewrite L.
      * intros ([|b pre] & post & Ea & N & L); [injection Ea as -> _; congruence|]. injection Ea as <- ->.
        destruct i as [|i]; [discriminate L|]. injection L as L.
        assert (Q : position_o (pre ++ lit "-o" :: post) = Some i).
        { apply IH. exists pre, post. split; [reflexivity|]. split; [intro H; apply N; now right|exact L]. }
        now rewrite Q.
Qed.
Lemma vec_remove_app {A} (pre : list A) x post : vec_remove (length pre) (pre ++ x :: post) = Done (x, pre ++ post).
Proof. induction pre as [|a pre IH]; [reflexivity|]. cbn [length app vec_remove]. rewrite IH. reflexivity. Qed.
Lemma vec_remove_end {A} (pre : list A) : vec_remove (length pre) pre = Crash.
Proof. induction pre as [|a pre IH]; [reflexivity|]. cbn [length vec_remove]. now rewrite IH. Qed.

Definition finish (out : option str) (args : list str) : outcome config :=
  if Nat.ltb (length args) 2 then Exit 1 (lit "error: input file is not specified" ++ [10])
  else if Nat.ltb 2 (length args) then Exit 1 (lit "error: invalid command format" ++ [10])
  else obind (vec_remove 1 args) (fun x => let input := fst x in
         Done {| cf_output := match out with Some f => f | None => with_extension_o input end; cf_input := input |}).
Lemma finish_two out prog i : finish out [prog; i] =
  Done {| cf_output := match out with Some f => f | None => with_extension_o i end; cf_input := i |}.
Proof. reflexivity. Qed.
Lemma init_none args : ~ In (lit "-o") args -> config_init args = finish None args.
Proof. intro N. unfold config_init. rewrite (proj2 (position_none args) N). reflexivity. Qed.
Lemma init_some pre out post : ~ In (lit "-o") pre -> config_init (pre ++ lit "-o" :: out :: post) = finish (Some out) (pre ++ post).
Proof.
  intro N. unfold config_init. assert (P : position_o (pre ++ lit "-o" :: out :: post) = Some (length pre)) by (apply position_some; eauto).
  rewrite P, vec_remove_app. cbn [obind fst snd]. rewrite vec_remove_app. reflexivity.
Qed.
Lemma init_last pre : ~ In (lit "-o") pre -> config_init (pre ++ [lit "-o"]) = Crash.
Proof.
  intro N. unfold config_init. assert (P : position_o (pre ++ [lit "-o"]) = Some (length pre)) by (apply position_some; eauto).
  rewrite P, vec_remove_app. cbn [obind fst snd]. rewrite app_nil_r, vec_remove_end. reflexivity.
Qed.
Lemma finish_few out args : (length args < 2)%nat -> finish out args = Exit 1 (lit "error: input file is not specified" ++ [10]).
Proof. intro L. unfold finish. apply Nat.ltb_lt in L. now rewrite L. Qed.
Lemma finish_many out args : (2 < length args)%nat -> finish out args = Exit 1 (lit "error: invalid command format" ++ [10]).
Proof. intro L. unfold finish. replace (Nat.ltb (length args) 2) with false by (symmetry; apply Nat.ltb_ge; lia). apply Nat.ltb_lt in L. now rewrite L. Qed.
Lemma strip_init args rest : strip_o args rest -> exists out, config_init args = finish out rest.
Proof. destruct 1; [exists None; now apply init_none|exists (Some out); now apply init_some]. Qed.
Lemma two {A} (l : list A) : length l = 2%nat -> exists a b, l = [a; b].
Proof. destruct l as [|a [|b [|c l]]]; intro H; try discriminate H. eauto. Qed.
Lemma top_C53 args o : command args o <-> config_init args = o.
Proof.
  split.
  - destruct 1 as [prog i out N P|pre out post prog i N E|pre N|args rest S L|args rest S L].
    + rewrite (init_none _ N), finish_two. apply top_C53_path in P. now rewrite P.
    + rewrite (init_some _ _ _ N), E. apply finish_two.
    + now apply init_last.
    + destruct (strip_init _ _ S) as (out & ->). now apply finish_few.
    + destruct (strip_init _ _ S) as (out & ->). now apply finish_many.
  - intros <-. destruct (position_o args) as [i|] eqn:P.
    + apply position_some in P. destruct P as (pre & [|out post] & -> & N & _).
      * rewrite init_last by exact N. now constructor.
      * rewrite init_some by exact N. destruct (Nat.lt_trichotomy (length (pre ++ post)) 2) as [L|[L|L]].
        -- rewrite finish_few by exact L. eapply co_few; [apply so_one, N|exact L].
        -- destruct (two _ L) as (prog & i' & E). rewrite E, finish_two. now apply (co_out _ _ _ prog).
        -- rewrite finish_many by exact L. eapply co_many; [apply so_one, N|exact L].
    + apply position_none in P. rewrite init_none by exact P. destruct (Nat.lt_trichotomy (length args) 2) as [L|[L|L]].
      * rewrite finish_few by exact L. eapply co_few; [apply so_none, P|exact L].
      * destruct (two _ L) as (prog & i' & ->). rewrite finish_two. constructor; [exact P|]. now apply top_C53_path.
      * rewrite finish_many by exact L. eapply co_many; [apply so_none, P|exact L].
Qed.

(** ** Files *)
Lemma put_same w o bs : w_data (put w o bs) o = Some bs.
Proof. unfold put. cbn [w_data]. now rewrite Z.eqb_refl. Qed.
Lemma put_other w o bs s : s <> o -> w_data (put w o bs) s = w_data w s.
Proof. intro N. unfold put. cbn [w_data]. apply Z.eqb_neq in N. now rewrite N. Qed.

(** The run after the files were opened *)
Definition ran (p : profile) (h : endian) (w : world) (o : Z) (src : list Z) : world * outcome unit :=
  match read_from p asm_new src with
  | Exit c e => (put w o [], Exit c e)
  | Crash => (put w o [], Crash)
  | Done a => let (bs, ok) := asm_write_into p h a in (put (put w o []) o bs, if ok then Done tt else Crash)
  end.
Lemma main_cases p h args w :
  (exists cf i o src, config_init args = Done cf /\ w_slot w (cf_input cf) = Some i /\ w_data w i = Some src /\
     w_slot w (cf_output cf) = Some o /\ main p h args w = ran p h w o (if i =? o then [] else src)) \/
  (fst (main p h args w) = w /\ snd (main p h args w) <> Done tt /\
   ~ (exists cf i o src, config_init args = Done cf /\ w_slot w (cf_input cf) = Some i /\ w_data w i = Some src /\
     w_slot w (cf_output cf) = Some o)).
Proof.
  unfold main. destruct (config_init args) as [cf|c e|] eqn:C.
  2,3: right; split; [reflexivity|]; split; [cbn; congruence|]; intros (? & ? & ? & ? & E & _); discriminate E.
  destruct (w_slot w (cf_input cf)) as [i|] eqn:I.
  2: right; split; [reflexivity|]; split; [cbn; congruence|]; intros (? & ? & ? & ? & E & E' & _); injection E as <-; congruence.
  destruct (w_data w i) as [src|] eqn:D.
  2: right; split; [reflexivity|]; split; [cbn; congruence|]; intros (? & ? & ? & ? & E & E' & E'' & _); injection E as <-;
     congruence.
  destruct (w_slot w (cf_output cf)) as [o|] eqn:O.
  2: right; split; [reflexivity|]; split; [cbn; congruence|]; intros (? & ? & ? & ? & E & E' & E'' & E3); injection E as <-; congruence.
  left. exists cf, i, o, src. repeat match goal with |- _ /\ _ => split end; auto. unfold ran.
  destruct (i =? o) eqn:Q; [apply Z.eqb_eq in Q; subst; rewrite put_same; reflexivity|].
  apply Z.eqb_neq in Q. rewrite put_other, D by exact Q. reflexivity.
Qed.
Lemma ran_other p h w o src s : s <> o -> w_data (fst (ran p h w o src)) s = w_data w s.
Proof.
  intro N. unfold ran. destruct (read_from p asm_new src) as [a|c e|]; cbn [fst].
  - destruct (asm_write_into p h a). cbn [fst]. now rewrite !put_other.
  - now apply put_other.
  - now apply put_other.
Qed.
(** nothing but the file named as output changes *)
Lemma top_C54_others p h args w s :
  (forall cf, config_init args = Done cf -> w_slot w (cf_output cf) <> Some s) ->
  w_data (fst (main p h args w)) s = w_data w s.
Proof.
  intro H. destruct (main_cases p h args w) as [(cf & i & o & src & C & I & D & O & ->)|(-> & _)]; [|reflexivity].
  apply ran_other. intros ->. now apply (H cf C).
Qed.
Lemma top_C54_input p h args w cf i : config_init args = Done cf -> w_slot w (cf_input cf) = Some i ->
  w_slot w (cf_output cf) <> Some i -> w_data (fst (main p h args w)) i = w_data w i.
Proof. intros C I N. apply top_C54_others. intros cf' C'. congruence. Qed.
(** what the output holds afterwards *)
Lemma top_C54_output p h args w cf i o src : config_init args = Done cf -> w_slot w (cf_input cf) = Some i ->
  w_data w i = Some src -> w_slot w (cf_output cf) = Some o -> i <> o ->
  match read_from p asm_new src with
  | Done a => w_data (fst (main p h args w)) o = Some (fst (asm_write_into p h a)) /\
      snd (main p h args w) = if snd (asm_write_into p h a) then Done tt else Crash
  | Exit c e => w_data (fst (main p h args w)) o = Some [] /\ snd (main p h args w) = Exit c e
  | Crash => w_data (fst (main p h args w)) o = Some [] /\ snd (main p h args w) = Crash
  end.
Proof.
  intros C I D O N. destruct (main_cases p h args w) as [(cf' & i' & o' & src' & C' & I' & D' & O' & ->)|(_ & _ & H)].
  - assert (cf' = cf) by congruence. subst cf'. assert (i' = i) by congruence. subst i'.
    assert (o' = o) by congruence. subst o'. assert (src' = src) by congruence. subst src'.
    apply Z.eqb_neq in N. rewrite N. unfold ran. destruct (read_from p asm_new src) as [a|c e|]; cbn [fst snd].
    + destruct (asm_write_into p h a) as [bs ok]. cbn [fst snd]. split; [apply put_same|reflexivity].
    + split; [apply put_same|reflexivity].
    + split; [apply put_same|reflexivity].
  - exfalso. apply H. exists cf, i, o, src. auto.
Qed.
Lemma main_same p h args w cf i src : config_init args = Done cf -> w_slot w (cf_input cf) = Some i ->
  w_data w i = Some src -> w_slot w (cf_output cf) = Some i ->
  main p h args w = ran p h w i [].
Proof.
  intros C I D O. destruct (main_cases p h args w) as [(cf' & i' & o' & src' & C' & I' & D' & O' & ->)|(_ & _ & H)].
  - assert (cf' = cf) by congruence. subst cf'. assert (i' = i) by congruence. subst i'. assert (o' = i) by congruence. subst o'.
    now rewrite Z.eqb_refl.
  - exfalso. apply H. exists cf, i, i, src. auto.
Qed.
Lemma read_nothing p : read_from p asm_new [] = Done asm_new.
Proof. reflexivity. Qed.
Lemma write_nothing p h : asm_write_into p h asm_new = asm_write_into Debug h asm_new /\ snd (asm_write_into Debug h asm_new) = true.
Proof. destruct p, h; vm_compute; split; reflexivity. Qed.
(** naming the input as output replaces the source by the object file of an empty source, and succeeds *)
Lemma top_C54_same p h args w cf i src : config_init args = Done cf -> w_slot w (cf_input cf) = Some i ->
  w_data w i = Some src -> w_slot w (cf_output cf) = Some i ->
  w_data (fst (main p h args w)) i = Some (fst (asm_write_into Debug h asm_new)) /\ snd (main p h args w) = Done tt.
Proof.
  intros C I D O. rewrite (main_same p h args w cf i src C I D O). unfold ran. rewrite read_nothing.
  destruct (write_nothing p h) as [-> E]. destruct (asm_write_into Debug h asm_new) as [bs ok]. cbn [fst snd] in *. rewrite E.
  cbn [fst snd]. split; [apply put_same|reflexivity].
Qed.
(** a command line that is not understood, or a file that cannot be opened, changes nothing *)
Lemma top_C54_refused p h args w :
  (forall cf i o src, config_init args = Done cf -> w_slot w (cf_input cf) = Some i -> w_data w i = Some src ->
     w_slot w (cf_output cf) <> Some o) ->
  fst (main p h args w) = w /\ snd (main p h args w) <> Done tt.
Proof.
  intro H. destruct (main_cases p h args w) as [(cf & i & o & src & C & I & D & O & _)|(E & N & _)]; [|auto].
  exfalso. exact (H _ _ o _ C I D O).
Qed.
