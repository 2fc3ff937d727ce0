(** Proofs for the conversation with the operating system: failures (C96). *)
From Verif Require Import Base Str X64 Mac Obj Asm Assembler Cli SpecCli Os SpecOs Sink Chunk SpecChunk Talk SpecTalk PfOs PfChunk PfTalk.

Lemma app_cons_split {A} (a b s1 : list A) x s2 : a ++ b = s1 ++ x :: s2 ->
  (exists m, a = s1 ++ x :: m /\ s2 = m ++ b) \/ (exists m, s1 = a ++ m /\ b = m ++ x :: s2).
Proof.
  revert s1. induction a as [|y a IH]; intros s1 E; [right; now exists s1|]. cbn [app] in E. destruct s1 as [|z s1].
  - injection E as -> <-. left. now exists a.
  - injection E as -> E. destruct (IH _ E) as [(m & -> & ->)|(m & -> & ->)]; [left|right]; now exists m.
Qed.
Lemma until_fatal acc buf src r rest : until acc buf src r rest -> forall s1 s2, src = s1 ++ Failed :: s2 -> s2 = [] /\ r = None.
Proof.
  induction 1 as [acc buf x rest C|acc buf C|acc buf C|acc buf src r rest C U IH|acc buf b bs src r rest C U IH]; intros [|y s1] s2 E; try discriminate E.
  - injection E as E. destruct s1; discriminate.
  - now injection E as <-.
  - injection E as E. destruct s1; discriminate.
  - injection E as _ E. now apply (IH _ _ E).
  - injection E as _ E. now apply (IH _ _ E).
Qed.
Lemma lines_fatal p a buf src r : lines p a buf src r -> forall s1 s2, src = s1 ++ Failed :: s2 -> s2 = [] /\ r = Crash.
Proof.
  induction 1 as [a buf src rest U|a buf src rest U|a buf src raw rest a' src' r U N E L IH|a buf src raw rest c e U N E|a buf src raw rest U N E]; intros s1 s2 Q;
    try (destruct (until_fatal _ _ _ _ _ U _ _ Q) as [-> ?]; try discriminate; now split).
  destruct (app_cons_split _ _ _ _ _ Q) as [(m & M & _)|(m & _ & M)].
  - destruct (until_fatal _ _ _ _ _ U _ _ M) as [_ ?]. discriminate.
  - exact (IH _ _ M).
Qed.
Lemma writes_fatal bs t ok : writes bs t ok -> forall t1 e t2, t = t1 ++ e :: t2 -> fatal e -> t2 = [] /\ ok = false.
Proof.
  induction 1 as [|x y n t ok N W IH|x y t ok X W IH|x y X|x y X]; intros [|e' t1] e t2 E F; try discriminate E; injection E as E1 E2; try subst e; cbn [fatal] in F;
    try (destruct t1; discriminate E2); try (now subst t2).
  - destruct F as [F|F]; [|discriminate]. injection F as F. lia.
  - now apply (IH _ _ _ E2).
  - destruct F; discriminate.
  - now apply (IH _ _ _ E2).
Qed.
Lemma writes_offer bs t ok : writes bs t ok -> forall t1 x w t2, t = t1 ++ Write x w :: t2 ->
  x <> [] /\ (forall n, w = Took n -> (n <= length x)%nat) /\ exists z, bs = taken t1 ++ x ++ z.
Proof.
  induction 1 as [|x y n t ok N W IH|x y t ok X W IH|x y X|x y X]; intros [|e' t1] x' w t2 E; try discriminate E.
  - injection E as <- <- <-. split; [destruct x; [cbn [length] in N; lia|discriminate]|]. split; [intros m M; injection M as <-; lia|]. now exists y.
  - injection E as <- E. destruct (IH _ _ _ _ E) as (X & M & z & Z). split; [exact X|]. split; [exact M|]. exists z. cbn [taken flat_map]. fold (taken t1).
    rewrite <- app_assoc, <- Z, app_assoc. now rewrite firstn_skipn.
  - injection E as <- <- <-. split; [exact X|]. split; [discriminate|]. now exists y.
  - injection E as <- E. exact (IH _ _ _ _ E).
  - injection E as <- <- <-. split; [exact X|]. split; [intros m M; injection M as <-; lia|]. now exists y.
  - injection E as _ E. destruct t1; discriminate.
  - injection E as <- <- <-. split; [exact X|]. split; [discriminate|]. now exists y.
  - injection E as _ E. destruct t1; discriminate.
Qed.
Lemma writes_calm bs t ok : writes bs t ok -> ok = true \/ exists e, In e t /\ fatal e.
Proof.
  induction 1 as [|x y n t ok N W [IH|(e & I & F)]|x y t ok X W [IH|(e & I & F)]|x y X|x y X]; auto; right; try (exists e; split; [now right|exact F]);
    eexists; (split; [now left|]); cbn [fatal]; auto.
Qed.
Lemma leaves_fatal c msg t r : leaves c msg t r -> forall t1 e t2, t = t1 ++ e :: t2 -> fatal e -> t2 = [] /\ r = Crash.
Proof.
  intros [] [|e' t1] e t2 E F; injection E as E1 E2; try (destruct t1; discriminate E2); subst; cbn [fatal] in F; [discriminate|now split].
Qed.
Lemma reads_split src t t1 e t2 : map Read src ++ t = t1 ++ e :: t2 ->
  (exists s1 x s2, src = s1 ++ x :: s2 /\ t1 = map Read s1 /\ e = Read x /\ t2 = map Read s2 ++ t) \/ (exists m, t1 = map Read src ++ m /\ t = m ++ e :: t2).
Proof.
  intros E. destruct (app_cons_split _ _ _ _ _ E) as [(m & M & ->)|(m & -> & ->)]; [left|right; now exists m].
  apply map_eq_app in M. destruct M as (s1 & s & -> & <- & M). destruct s as [|x s2]; [discriminate|]. cbn [map] in M. injection M as <- <-. now exists s1, x, s2.
Qed.
Lemma opens_split i o t0 t1 e t2 : fatal e -> OpenIn i true :: OpenOut o true :: t0 = t1 ++ e :: t2 ->
  exists t1', t1 = OpenIn i true :: OpenOut o true :: t1' /\ t0 = t1' ++ e :: t2.
Proof.
  intros F E. destruct t1 as [|e1 [|e2 t1']]; injection E; intros; subst; try discriminate F. now exists t1'.
Qed.
(** C96: after a failure comes nothing *)
Lemma top_C96_fatal p h argv t1 e t2 r : run p h argv (t1 ++ e :: t2) r -> fatal e -> t2 = [] /\ r = Crash.
Proof.
  intros R F. remember (t1 ++ e :: t2) as t eqn:T.
  destruct R as [E|c msg t r E V|cf E|cf E|cf src E L|cf src c msg t r E L V|cf src a t ok E L W].
  - destruct t1; discriminate.
  - exact (leaves_fatal _ _ _ _ V _ _ _ T F).
  - destruct t1 as [|? t1]; injection T as _ T; [now subst|destruct t1; discriminate].
  - destruct t1 as [|? [|? t1]]; injection T; intros; subst; try discriminate F; [now split|destruct t1; discriminate].
  - destruct (opens_split _ _ _ _ _ _ F T) as (t1' & -> & Q). rewrite <- (app_nil_r (map Read src)) in Q.
    destruct (reads_split _ _ _ _ _ Q) as [(s1 & x & s2 & S & _ & -> & ->)|(m & _ & M)]; [|destruct m; discriminate].
    cbn [fatal] in F. subst x. destruct (lines_fatal _ _ _ _ _ L _ _ S) as [-> ?]. now split.
  - destruct (opens_split _ _ _ _ _ _ F T) as (t1' & -> & Q).
    destruct (reads_split _ _ _ _ _ Q) as [(s1 & x & s2 & S & _ & -> & ->)|(m & _ & M)].
    + cbn [fatal] in F. subst x. destruct (lines_fatal _ _ _ _ _ L _ _ S) as [_ ?]. discriminate.
    + exact (leaves_fatal _ _ _ _ V _ _ _ M F).
  - destruct (opens_split _ _ _ _ _ _ F T) as (t1' & -> & Q).
    destruct (reads_split _ _ _ _ _ Q) as [(s1 & x & s2 & S & _ & -> & ->)|(m & _ & M)].
    + cbn [fatal] in F. subst x. destruct (lines_fatal _ _ _ _ _ L _ _ S) as [_ ?]. discriminate.
    + destruct (writes_fatal _ _ _ W _ _ _ M F) as [-> ->]. now split.
Qed.
(** C96: what is offered is what comes next in the object file *)
Lemma top_C96_offers p h argv t1 x w t2 r : run p h argv (t1 ++ Write x w :: t2) r ->
  x <> [] /\ (forall n, w = Took n -> (n <= length x)%nat) /\
  exists a z, read_chunks p asm_new (answers t1) = Done a /\ fst (asm_write_into p h a) = taken t1 ++ x ++ z.
Proof.
  intros R. remember (t1 ++ Write x w :: t2) as t eqn:T.
  assert (K : forall i o t0, OpenIn i true :: OpenOut o true :: t0 = t1 ++ Write x w :: t2 -> exists t1', t1 = OpenIn i true :: OpenOut o true :: t1' /\ t0 = t1' ++ Write x w :: t2).
  { intros i o t0 Q. destruct t1 as [|e1 [|e2 t1']]; injection Q; intros; subst; try discriminate. now exists t1'. }
  destruct R as [E|c msg t r E V|cf E|cf E|cf src E L|cf src c msg t r E L V|cf src a t ok E L W].
  - destruct t1; discriminate.
  - exfalso. destruct V; destruct t1 as [|? [|? ?]]; discriminate.
  - destruct t1 as [|? [|? t1]]; discriminate.
  - destruct t1 as [|? [|? [|? t1]]]; discriminate.
  - exfalso. destruct (K _ _ _ T) as (t1' & -> & Q). rewrite <- (app_nil_r (map Read src)) in Q.
    destruct (reads_split _ _ _ _ _ Q) as [(s1 & y & s2 & _ & _ & Y & _)|(m & _ & M)]; [discriminate Y|destruct m; discriminate].
  - exfalso. destruct (K _ _ _ T) as (t1' & -> & Q).
    destruct (reads_split _ _ _ _ _ Q) as [(s1 & y & s2 & _ & _ & Y & _)|(m & _ & M)]; [discriminate Y|]. destruct V; destruct m as [|? [|? ?]]; discriminate.
  - destruct (K _ _ _ T) as (t1' & -> & Q).
    destruct (reads_split _ _ _ _ _ Q) as [(s1 & y & s2 & _ & _ & Y & _)|(m & -> & M)]; [discriminate Y|].
    destruct (writes_offer _ _ _ W _ _ _ _ M) as (X & N & z & Z). split; [exact X|]. split; [exact N|]. exists (mark_ext a), z.
    change (answers (_ :: _ :: map Read src ++ m)) with (answers (map Read src ++ m)). change (taken (_ :: _ :: map Read src ++ m)) with (taken (map Read src ++ m)).
    rewrite answers_app, answers_read, taken_app, taken_read. cbn [app]. split; [|exact Z].
    pose proof (writes_only _ _ _ W) as O. rewrite M in O. apply Forall_app in O. destruct O as [O _]. destruct (writes_answers _ O) as [-> _].
    exact (lines_chunks _ _ _ L []).
Qed.
(** C96: without failures the result is that of the command line and of the source *)
Lemma top_C96_calm p h argv t r : Forall bytes_ok argv -> Forall unicode argv -> run p h argv t r -> (forall e, In e t -> ~ fatal e) ->
  (exists c m, command argv (Exit c m) /\ r = Exit c m) \/ (command argv Crash /\ r = Crash) \/
  (exists cf, command argv (Done cf)) /\ r = obind (read_chunks p asm_new (answers t)) (fun a => if snd (asm_write_into p h a) then Done tt else Crash).
Proof.
  intros B U [E|c msg t' r' E V|cf E|cf E|cf src E L|cf src c msg t' r' E L V|cf src a t' ok E L W] N; apply (top_C94_command argv _ B U) in E.
  - right. left. now split.
  - left. exists c, msg. split; [exact E|]. destruct V; [reflexivity|]. exfalso. apply (N _ (or_introl eq_refl)). reflexivity.
  - exfalso. apply (N _ (or_introl eq_refl)). reflexivity.
  - exfalso. apply (N _ (or_intror (or_introl eq_refl))). reflexivity.
  - right. right. split; [now exists cf|]. change (answers (_ :: _ :: map Read src)) with (answers (map Read src)). rewrite answers_read.
    pose proof (lines_chunks _ _ _ L []) as C. rewrite app_nil_r in C. now rewrite C.
  - right. right. split; [now exists cf|]. change (answers (_ :: _ :: map Read src ++ t')) with (answers (map Read src ++ t')). rewrite answers_app, answers_read.
    assert (A : answers t' = []) by now destruct V. rewrite A, (lines_chunks _ _ _ L []). cbn [obind]. destruct V; [reflexivity|]. exfalso.
    apply (N (Stderr msg false)); [|reflexivity]. right. right. apply in_or_app. right. now left.
  - right. right. split; [now exists cf|]. change (answers (_ :: _ :: map Read src ++ t')) with (answers (map Read src ++ t')). rewrite answers_app, answers_read.
    destruct (writes_answers _ (writes_only _ _ _ W)) as [-> _]. rewrite (lines_chunks _ _ _ L []). cbn [obind].
    destruct (writes_calm _ _ _ W) as [->|(e & I & F)]; [reflexivity|]. exfalso. apply (N e); [|exact F]. right. right. apply in_or_app. now right.
Qed.
