(** Proofs for the conversation with the operating system (C96). *)
From Verif Require Import Base Str X64 Mac Obj Asm Assembler Cli SpecCli Os SpecOs Sink Chunk SpecChunk Talk SpecTalk PfOs PfChunk.

(** ** reading *)
Lemma until_fun acc buf src r rest : until acc buf src r rest -> forall m, read_until acc buf (src ++ m) = (r, (rest, m)).
Proof.
  induction 1 as [acc buf x rest C|acc buf C|acc buf C|acc buf src r rest C U IH|acc buf b bs src r rest C U IH]; intros m; cbn [app].
  - destruct m; cbn [read_until]; rewrite C; reflexivity.
  - cbn [read_until]. rewrite C. reflexivity.
  - cbn [read_until]. rewrite C. reflexivity.
  - cbn [read_until]. rewrite C. apply IH.
  - cbn [read_until]. rewrite C. apply IH.
Qed.
Lemma until_det acc buf s1 r1 b1 s2 r2 b2 m1 m2 : until acc buf s1 r1 b1 -> until acc buf s2 r2 b2 -> s1 ++ m1 = s2 ++ m2 ->
  s1 = s2 /\ r1 = r2 /\ b1 = b2 /\ m1 = m2.
Proof.
  intros U1 U2 E. pose proof (until_fun _ _ _ _ _ U1 m1) as F1. pose proof (until_fun _ _ _ _ _ U2 m2) as F2. rewrite E, F2 in F1.
  injection F1 as -> -> ->. apply app_inv_tail in E. now subst.
Qed.
Definition amount (src : list answer) : nat := fold_right (fun x n => (match x with Got bs => length bs | _ => O end + n)%nat) O src.
Lemma amount_app a b : amount (a ++ b) = (amount a + amount b)%nat.
Proof. induction a as [|x a IH]; [reflexivity|]. cbn [app amount fold_right]. fold (amount (a ++ b)) (amount a). rewrite IH. lia. Qed.
Lemma amount_eof a : amount (a ++ [Got []]) = amount a.
Proof. rewrite amount_app. cbn. lia. Qed.
Lemma until_amount acc buf src raw rest : until acc buf src (Some raw) rest -> (length raw + length rest = length acc + length buf + amount src)%nat.
Proof.
  remember (Some raw) as r eqn:E. intros U. revert raw E.
  induction U as [acc buf x rest C|acc buf C|acc buf C|acc buf src r rest C U IH|acc buf b bs src r rest C U IH]; intros raw E; cbn [amount fold_right].
  - injection E as <-. destruct (cut_app _ _ _ C) as (-> & _ & _). rewrite !app_length. lia.
  - injection E as <-. rewrite app_length. cbn [length]. lia.
  - discriminate.
  - apply IH in E. rewrite app_length in E. cbn [length] in E. fold (amount src). lia.
  - apply IH in E. rewrite app_length in E. fold (amount src). cbn [length] in *. lia.
Qed.
Lemma until_total : forall src acc buf, exists s r rest, until acc buf s r rest /\
  ((exists m, src = s ++ m) \/ (s = src ++ [Got []])).
Proof.
  induction src as [|x src IH]; intros acc buf; destruct (cut buf) as [[y rest]|] eqn:C;
    try (exists [], (Some (acc ++ y)), rest; split; [now constructor|left; eexists; reflexivity]).
  - exists [Got []], (Some (acc ++ buf)), []. split; [now constructor|now right].
  - destruct x as [[|b bs]| |].
    + exists [Got []], (Some (acc ++ buf)), []. split; [now constructor|left; exists src; reflexivity].
    + destruct (IH (acc ++ buf) (b :: bs)) as (s & r & rest & U & [(m & ->)| ->]).
      * exists (Got (b :: bs) :: s), r, rest. split; [now constructor|left; now exists m].
      * exists (Got (b :: bs) :: src ++ [Got []]), r, rest. split; [now constructor|now right].
    + destruct (IH (acc ++ buf) []) as (s & r & rest & U & [(m & ->)| ->]).
      * exists (Interrupted :: s), r, rest. split; [now constructor|left; now exists m].
      * exists (Interrupted :: src ++ [Got []]), r, rest. split; [now constructor|now right].
    + exists [Failed], None, []. split; [now constructor|left; exists src; reflexivity].
Qed.

Lemma lines_fun p a buf src r : lines p a buf src r -> forall m, read_all p a (buf, src ++ m) = r.
Proof.
  induction 1 as [a buf src rest U|a buf src rest U|a buf src raw rest a' src' r U N E L IH|a buf src raw rest c e U N E|a buf src raw rest U N E]; intros m;
    rewrite read_all_step; unfold next_line; cbn [fst snd]; rewrite <- ?app_assoc; rewrite (until_fun _ _ _ _ _ U); try reflexivity.
  - destruct raw; [congruence|]. rewrite E. apply IH.
  - destruct raw; [congruence|]. rewrite E. reflexivity.
  - destruct raw; [congruence|]. rewrite E. reflexivity.
Qed.
Lemma lines_chunks p src r : lines p asm_new [] src r -> forall m, read_chunks p asm_new (src ++ m) = obind r (fun a => Done (mark_ext a)).
Proof. intros L m. rewrite read_chunks_all. now rewrite (lines_fun _ _ _ _ _ L m). Qed.
Lemma lines_det p a buf s1 r1 : lines p a buf s1 r1 -> forall s2 r2 m1 m2, lines p a buf s2 r2 -> s1 ++ m1 = s2 ++ m2 -> s1 = s2 /\ r1 = r2.
Proof.
  induction 1 as [a buf src rest U|a buf src rest U|a buf src raw rest a' src' r U N E L IH|a buf src raw rest c e U N E|a buf src raw rest U N E];
    intros s2 r2 m1 m2 L2 Q; inversion L2 as [? ? ? rest2 U2|? ? ? rest2 U2|? ? src2 raw2 rest2 a2 src2' ? U2 N2 E2 L2'|? ? ? raw2 rest2 c2 e2 U2 N2 E2|? ? ? raw2 rest2 U2 N2 E2]; subst;
    rewrite <- ?app_assoc in Q; destruct (until_det _ _ _ _ _ _ _ _ _ _ U U2 Q) as (-> & R & -> & M); try discriminate R; try (injection R as <-); try congruence; try (split; congruence).
  rewrite E in E2. injection E2 as <-. destruct (IH _ _ _ _ L2' M) as [-> ->]. now split.
Qed.
Lemma repeat_app {A} (x : A) m n : repeat x (m + n) = repeat x m ++ repeat x n.
Proof. induction m as [|m IH]; [reflexivity|]. cbn. now rewrite IH. Qed.
Lemma lines_total p : forall k a buf src, (length buf + amount src <= k)%nat ->
  exists s r n m, lines p a buf s r /\ src ++ repeat (Got []) n = s ++ m.
Proof.
  induction k as [|k IH]; intros a buf src K.
  all: destruct (until_total src [] buf) as (s & r & rest & U & H).
  all: destruct r as [raw|]; [|exists s, Crash; destruct H as [(m & ->)| ->];
    [exists 0%nat, m; split; [econstructor; eassumption|now rewrite app_nil_r]|exists 1%nat, []; split; [econstructor; eassumption|now rewrite app_nil_r]]].
  all: destruct raw as [|b raw]; [exists s, (Done a); destruct H as [(m & ->)| ->];
    [exists 0%nat, m; split; [econstructor; eassumption|now rewrite app_nil_r]|exists 1%nat, []; split; [econstructor; eassumption|now rewrite app_nil_r]]|].
  all: pose proof (until_amount _ _ _ _ _ U) as W; cbn [length] in W.
  1: { destruct H as [(m & ->)| ->]; [rewrite amount_app in K|rewrite amount_eof in W]; clear - K W; lia. }
  assert (N : b :: raw <> []) by discriminate. destruct (exec_raw p a (b :: raw)) as [a'|c e|] eqn:E.
  - destruct H as [(m & ->)| ->].
    + destruct (IH a' rest m) as (s' & r & n & m' & L & Q); [rewrite amount_app in K; clear - K W; lia|].
      exists (s ++ s'), r, n, m'. split; [econstructor; eassumption|]. rewrite <- !app_assoc. now rewrite Q.
    + destruct (IH a' rest []) as (s' & r & n & m' & L & Q); [rewrite amount_eof in W; change (amount []) with O; clear - K W; lia|].
      exists ((src ++ [Got []]) ++ s'), r, (S n), m'. split; [econstructor; eassumption|]. rewrite <- !app_assoc. cbn [app repeat] in *. now rewrite Q.
  - exists s, (Exit c e). destruct H as [(m & ->)| ->];
    [exists 0%nat, m; split; [eapply li_exit; eassumption|now rewrite app_nil_r]|exists 1%nat, []; split; [eapply li_exit; eassumption|now rewrite app_nil_r]].
  - exists s, Crash. destruct H as [(m & ->)| ->];
    [exists 0%nat, m; split; [eapply li_crash; eassumption|now rewrite app_nil_r]|exists 1%nat, []; split; [eapply li_crash; eassumption|now rewrite app_nil_r]].
Qed.

(** ** writing *)
Lemma writes_only bs t ok : writes bs t ok -> Forall is_write t.
Proof. induction 1; repeat (constructor; [exact I|]); auto. Qed.
Lemma writes_answers t : Forall is_write t -> answers t = [] /\ said t = [].
Proof. induction 1 as [|e t W F [IH1 IH2]]; [now split|]. destruct e; try contradiction. now split. Qed.
Lemma writes_taken bs t ok : writes bs t ok -> (exists z, bs = taken t ++ z) /\ (ok = true <-> bs = taken t).
Proof.
  induction 1 as [|x y n t ok N W ([z Z] & I)|x y t ok X W ([z Z] & I)|x y X|x y X]; cbn [taken flat_map].
  - split; [now exists []|]. now split.
  - fold (taken t). assert (X : x ++ y = firstn n x ++ skipn n x ++ y) by (now rewrite app_assoc, firstn_skipn). rewrite X.
    split; [exists z; rewrite Z; now rewrite app_assoc|]. rewrite I. split; [now intros ->|apply app_inv_head].
  - fold (taken t). split; [exists z; exact Z|exact I].
  - split; [now exists (x ++ y)|]. split; [discriminate|]. destruct x; [congruence|discriminate].
  - split; [now exists (x ++ y)|]. split; [discriminate|]. destruct x; [congruence|discriminate].
Qed.
Lemma writes_total : forall l bs, exists t ok, writes bs t ok /\ sink_says l t.
Proof.
  induction l as [|a l IH]; intros [|b bs].
  1, 3: exists [], true; split; [constructor|exact I].
  - exists [Write (b :: bs) (Took (length (b :: bs)))], true. split.
    + rewrite <- (app_nil_r (b :: bs)) at 1. constructor; [cbn; lia|]. rewrite skipn_all. constructor.
    + cbn [sink_says]. now split.
  - destruct a as [n| |].
    + destruct (Nat.min n (length (b :: bs))) as [|k] eqn:M.
      * exists [Write (b :: bs) (Took 0)], false. split; [rewrite <- (app_nil_r (b :: bs)) at 1; now constructor|]. cbn [sink_says reply]. now rewrite M.
      * destruct (IH (skipn (S k) (b :: bs))) as (t & ok & W & SS). exists (Write (b :: bs) (Took (S k)) :: t), ok. split.
        -- rewrite <- (app_nil_r (b :: bs)) at 1. constructor; [lia|]. now rewrite app_nil_r.
        -- cbn [sink_says reply]. now rewrite M.
    + destruct (IH (b :: bs)) as (t & ok & W & SS). exists (Write (b :: bs) WInterrupted :: t), ok. split.
      * rewrite <- (app_nil_r (b :: bs)) at 1. constructor; [discriminate|]. now rewrite app_nil_r.
      * cbn [sink_says reply]. now split.
    + exists [Write (b :: bs) WFailed], false. split; [rewrite <- (app_nil_r (b :: bs)) at 1; now constructor|]. cbn [sink_says reply]. now split.
Qed.

(** ** the whole *)
Lemma answers_app a b : answers (a ++ b) = answers a ++ answers b.
Proof. apply flat_map_app. Qed.
Lemma answers_read src : answers (map Read src) = src.
Proof. induction src as [|x src IH]; [reflexivity|]. cbn. unfold answers in IH. now rewrite IH. Qed.
Lemma said_app a b : said (a ++ b) = said a ++ said b.
Proof. apply flat_map_app. Qed.
Lemma said_read src : said (map Read src) = [].
Proof. induction src as [|x src IH]; [reflexivity|]. exact IH. Qed.
Lemma taken_app a b : taken (a ++ b) = taken a ++ taken b.
Proof. apply flat_map_app. Qed.
Lemma taken_read src : taken (map Read src) = [].
Proof. induction src as [|x src IH]; [reflexivity|]. exact IH. Qed.
Lemma opened_in e src t : is_open e -> ~ is_write e -> In e (map Read src ++ t) -> In e t.
Proof. intros O _ H. apply in_app_or in H. destruct H as [H|H]; [|exact H]. apply in_map_iff in H. destruct H as (x & <- & _). destruct O. Qed.
Lemma leaves_in c msg t r e : leaves c msg t r -> is_open e -> ~ In e t.
Proof. intros [|] O [<-|[]]; destruct O. Qed.

Lemma top_C96_order p h argv t r : run p h argv t r -> exists opens reads wr msgs,
  t = opens ++ map Read reads ++ wr ++ msgs /\ Forall is_write wr /\ (msgs = [] \/ exists m ok, msgs = [Stderr m ok]) /\ (wr = [] \/ msgs = []) /\
  ((exists i o, opens = [OpenIn i true; OpenOut o true]) \/
   reads = [] /\ wr = [] /\ (opens = [] \/ (exists i, opens = [OpenIn i false] /\ msgs = []) \/ (exists i o, opens = [OpenIn i true; OpenOut o false] /\ msgs = []))).
Proof.
  intros [E|c msg t' r' E L|cf E|cf E|cf src E L|cf src c msg t' r' E L V|cf src a t' ok E L W].
  - exists [], [], [], []. repeat split; auto.
  - exists [], [], [], t'. repeat split; auto. right. destruct L; eauto.
  - exists [OpenIn (cf_input cf) false], [], [], []. repeat split; auto. right. repeat split. right. left. eauto.
  - exists [OpenIn (cf_input cf) true; OpenOut (cf_output cf) false], [], [], []. repeat split; auto. right. repeat split. right. right. eauto.
  - exists [OpenIn (cf_input cf) true; OpenOut (cf_output cf) true], src, [], []. rewrite !app_nil_r. repeat split; eauto.
  - exists [OpenIn (cf_input cf) true; OpenOut (cf_output cf) true], src, [], t'. repeat split; eauto. right. destruct V; eauto.
  - exists [OpenIn (cf_input cf) true; OpenOut (cf_output cf) true], src, t', []. rewrite !app_nil_r. repeat split; eauto. eapply writes_only; eassumption.
Qed.
Lemma run_opens p h argv t r e : run p h argv t r -> is_open e -> In e t -> exists cf, config_os argv = Done cf /\
  match e with OpenIn path _ => path = cf_input cf | OpenOut path _ => path = cf_output cf | _ => True end.
Proof.
  assert (R : forall src, is_open e -> ~ In e (map Read src)) by (intros src O H; apply in_map_iff in H; destruct H as (x & <- & _); destruct O).
  intros [E|c msg t' r' E L|cf E|cf E|cf src E L|cf src c msg t' r' E L V|cf src a t' ok E L W] O H.
  - destruct H.
  - now apply (leaves_in _ _ _ _ _ L) in H.
  - exists cf. split; [exact E|]. now destruct H as [<-|[]].
  - exists cf. split; [exact E|]. now destruct H as [<-|[<-|[]]].
  - exists cf. split; [exact E|]. destruct H as [<-|[<-|H]]; try reflexivity. now apply R in H.
  - exists cf. split; [exact E|]. destruct H as [<-|[<-|H]]; try reflexivity. apply in_app_or in H. destruct H as [H|H]; [now apply R in H|now apply (leaves_in _ _ _ _ _ V) in H].
  - exists cf. split; [exact E|]. destruct H as [<-|[<-|H]]; try reflexivity. apply in_app_or in H. destruct H as [H|H]; [now apply R in H|].
    apply writes_only in W. rewrite Forall_forall in W. apply W in H. now destruct e.
Qed.
Lemma top_C96_paths p h argv t r : Forall bytes_ok argv -> Forall unicode argv -> run p h argv t r ->
  (forall path ok, In (OpenIn path ok) t -> exists cf, command argv (Done cf) /\ path = cf_input cf) /\
  (forall path ok, In (OpenOut path ok) t -> exists cf, command argv (Done cf) /\ path = cf_output cf).
Proof.
  intros B U R. split; intros path ok H; match type of H with In ?e _ => destruct (run_opens _ _ _ _ _ e R I H) as (cf & E & P) end; exists cf; (split; [now apply (top_C94_command argv _ B U)|exact P]).
Qed.
Lemma config_crash argv a : Forall bytes_ok argv -> In a argv -> ~ unicode a -> config_os argv = Crash.
Proof.
  intros B H N. unfold config_os. assert (E : env_args argv = Crash); [|now rewrite E].
  induction argv as [|b argv IH]; [destruct H|]. inversion B; subst. cbn [env_args]. destruct (from_utf8 b) as [s|] eqn:F; [|reflexivity]. destruct H as [->|H].
  - exfalso. apply N. exists s. apply PfMore.utf8_text_iff. apply PfStr.from_utf8_inv in F; [|assumption]. now destruct F.
  - now rewrite IH.
Qed.
Lemma top_C96_not_text p h argv t r a : Forall bytes_ok argv -> In a argv -> ~ unicode a -> (run p h argv t r <-> t = [] /\ r = Crash).
Proof.
  intros B H N. pose proof (config_crash argv a B H N) as E. split.
  - intros []; try congruence. now split.
  - intros [-> ->]. now constructor.
Qed.
Lemma top_C96_usage p h argv t r m c : Forall bytes_ok argv -> Forall unicode argv -> command argv (Exit c m) ->
  (run p h argv t r <-> t = [Stderr m true] /\ r = Exit c m \/ t = [Stderr m false] /\ r = Crash).
Proof.
  intros B U C. apply (top_C94_command argv _ B U) in C. split.
  - intros [E|? ? ? ? E V|? E|? E|? ? E|? ? ? ? ? ? E|? ? ? ? ? E]; rewrite C in E; try discriminate E. injection E as <- <-. destruct V; [left|right]; now split.
  - intros [[-> ->]|[-> ->]]; eapply ru_args_exit; try eassumption; constructor.
Qed.
Lemma top_C96_result p h argv t r o : run p h argv t r -> In (OpenOut o true) t ->
  match read_chunks p asm_new (answers t) with
  | Exit c e => taken t = [] /\ (said t = [(e, true)] /\ r = Exit c e \/ said t = [(e, false)] /\ r = Crash)
  | Crash => taken t = [] /\ said t = [] /\ r = Crash
  | Done a => said t = [] /\ (exists z, fst (asm_write_into p h a) = taken t ++ z) /\
      (r = Done tt <-> taken t = fst (asm_write_into p h a) /\ snd (asm_write_into p h a) = true) /\ (r = Done tt \/ r = Crash)
  end.
Proof.
  intros [E|c msg t' r' E V|cf E|cf E|cf src E L|cf src c msg t' r' E L V|cf src a t' ok E L W] H.
  - destruct H.
  - exfalso. exact (leaves_in _ _ _ _ (OpenOut o true) V I H).
  - destruct H as [H|[]]. discriminate.
  - destruct H as [H|[H|[]]]; discriminate.
  - change (answers (_ :: _ :: map Read src)) with (answers (map Read src)). rewrite answers_read. pose proof (lines_chunks _ _ _ L []) as C. rewrite app_nil_r in C. rewrite C. cbn [obind].
    repeat split; [apply taken_read|apply said_read].
  - change (answers (_ :: _ :: map Read src ++ t')) with (answers (map Read src ++ t')). rewrite answers_app, answers_read.
    assert (A : answers t' = []) by now destruct V. rewrite A, app_nil_r. pose proof (lines_chunks _ _ _ L []) as C. rewrite app_nil_r in C. rewrite C. cbn [obind].
    change (taken (_ :: _ :: map Read src ++ t')) with (taken (map Read src ++ t')). change (said (_ :: _ :: map Read src ++ t')) with (said (map Read src ++ t')).
    rewrite taken_app, taken_read, said_app, said_read. destruct V; (split; [reflexivity|]); [left|right]; now split.
  - change (answers (_ :: _ :: map Read src ++ t')) with (answers (map Read src ++ t')). rewrite answers_app, answers_read.
    destruct (writes_answers _ (writes_only _ _ _ W)) as [A S]. rewrite A, app_nil_r. pose proof (lines_chunks _ _ _ L []) as C. rewrite app_nil_r in C. rewrite C. cbn [obind].
    change (taken (_ :: _ :: map Read src ++ t')) with (taken (map Read src ++ t')). change (said (_ :: _ :: map Read src ++ t')) with (said (map Read src ++ t')).
    rewrite taken_app, taken_read, said_app, said_read, S. cbn [app]. destruct (writes_taken _ _ _ W) as [Z K]. split; [reflexivity|]. split; [exact Z|].
    destruct ok; cbn [andb]; destruct (snd (asm_write_into p h (mark_ext a))); (split; [|auto]); split; try discriminate; try (intros [Q ?]; congruence).
    + intros _. split; [now apply eq_sym, K|reflexivity].
    + intros [Q _]. symmetry in Q. apply K in Q. discriminate.
Qed.
Lemma run_lines p h argv t r o : run p h argv t r -> In (OpenOut o true) t -> exists r', lines p asm_new [] (answers t) r'.
Proof.
  intros [E|c msg t' r' E V|cf E|cf E|cf src E L|cf src c msg t' r' E L V|cf src a t' ok E L W] H.
  - destruct H.
  - exfalso. exact (leaves_in _ _ _ _ (OpenOut o true) V I H).
  - destruct H as [H|[]]. discriminate.
  - destruct H as [H|[H|[]]]; discriminate.
  - change (answers (_ :: _ :: map Read src)) with (answers (map Read src)). rewrite answers_read. eauto.
  - change (answers (_ :: _ :: map Read src ++ t')) with (answers (map Read src ++ t')). rewrite answers_app, answers_read.
    assert (A : answers t' = []) by now destruct V. rewrite A, app_nil_r. eauto.
  - change (answers (_ :: _ :: map Read src ++ t')) with (answers (map Read src ++ t')). rewrite answers_app, answers_read.
    destruct (writes_answers _ (writes_only _ _ _ W)) as [A S]. rewrite A, app_nil_r. eauto.
Qed.
Lemma top_C96_enough p h argv t r o m : run p h argv t r -> In (OpenOut o true) t ->
  read_chunks p asm_new (answers t ++ m) = read_chunks p asm_new (answers t).
Proof.
  intros R H. destruct (run_lines _ _ _ _ _ _ R H) as (r' & L). rewrite (lines_chunks _ _ _ L m), <- (app_nil_r (answers t)) at 1. now rewrite <- (lines_chunks _ _ _ L []), app_nil_r.
Qed.
Lemma top_C96_same p h argv t1 r1 t2 r2 o1 o2 m1 m2 : run p h argv t1 r1 -> run p h argv t2 r2 -> In (OpenOut o1 true) t1 -> In (OpenOut o2 true) t2 ->
  answers t1 ++ m1 = answers t2 ++ m2 -> answers t1 = answers t2.
Proof.
  intros R1 R2 H1 H2 E. destruct (run_lines _ _ _ _ _ _ R1 H1) as (l1 & L1). destruct (run_lines _ _ _ _ _ _ R2 H2) as (l2 & L2).
  exact (proj1 (lines_det _ _ _ _ _ L1 _ _ _ _ L2 E)).
Qed.
