(** Proofs for the conversation with the operating system, continued: every operating system can
    be talked to, and a file system that works gives what [main] gives (C96). *)
From Verif Require Import Base Str X64 Mac Obj Asm Assembler Cli Os Sink Chunk SpecChunk Talk SpecTalk PfChunk PfTalk.

Lemma sink_reads l src t : sink_says l (map Read src ++ t) <-> sink_says l t.
Proof. induction src as [|x src IH]; [reflexivity|exact IH]. Qed.
Lemma others_reads i o e src : others_say i o e (map Read src).
Proof. induction src as [|x src IH]; constructor; [exact I|exact IH]. Qed.
Lemma others_writes i o e t : Forall is_write t -> others_say i o e t.
Proof. intros F. eapply Forall_impl; [|exact F]. intros []; cbn; tauto. Qed.
Definition leave (c : Z) (msg : str) (e : bool) : outcome unit := if e then Exit c msg else Crash.
Lemma leave_leaves c msg e : leaves c msg [Stderr msg e] (leave c msg e).
Proof. destruct e; constructor. Qed.
Lemma top_C96_total p h argv src l i o e : exists t r, run p h argv t r /\ source_says src t /\ sink_says l t /\ others_say i o e t.
Proof.
  destruct (config_os argv) as [cf|c msg|] eqn:E.
  - destruct i; [destruct o|].
    + destruct (lines_total p _ asm_new [] src (le_n _)) as (s & r & n & m & L & Q). destruct r as [a|c msg|].
      * destruct (writes_total l (fst (asm_write_into p h (mark_ext a)))) as (t & ok & W & K). eexists _, _. split; [eapply ru_write; eassumption|].
        pose proof (writes_only _ _ _ W) as O. split; [|split].
        -- exists n, m. change (answers (_ :: _ :: map Read s ++ t)) with (answers (map Read s ++ t)). rewrite answers_app, answers_read, (proj1 (writes_answers _ O)), app_nil_r. exact Q.
        -- cbn [sink_says]. now apply sink_reads.
        -- constructor; [reflexivity|]. constructor; [reflexivity|]. apply Forall_app. split; [apply others_reads|now apply others_writes].
      * exists (OpenIn (cf_input cf) true :: OpenOut (cf_output cf) true :: map Read s ++ [Stderr msg e]), (leave c msg e).
        split; [eapply ru_exit; try eassumption; apply leave_leaves|]. split; [|split].
        -- exists n, m. change (answers (_ :: _ :: map Read s ++ ?t)) with (answers (map Read s ++ t)). rewrite answers_app, answers_read. cbn [answers flat_map]. now rewrite app_nil_r.
        -- cbn [sink_says]. now apply sink_reads.
        -- constructor; [reflexivity|]. constructor; [reflexivity|]. apply Forall_app. split; [apply others_reads|]. constructor; [reflexivity|constructor].
      * eexists _, _. split; [eapply ru_panic; eassumption|]. split; [|split].
        -- exists n, m. change (answers (_ :: _ :: map Read s)) with (answers (map Read s)). now rewrite answers_read.
        -- cbn [sink_says]. rewrite <- (app_nil_r (map Read s)). now apply sink_reads.
        -- constructor; [reflexivity|]. constructor; [reflexivity|]. apply others_reads.
    + eexists _, _. split; [eapply ru_out; eassumption|]. split; [exists O, src; apply app_nil_r|]. split; [exact I|]. repeat (constructor; [reflexivity|]). constructor.
    + eexists _, _. split; [eapply ru_in; eassumption|]. split; [exists O, src; apply app_nil_r|]. split; [exact I|]. repeat (constructor; [reflexivity|]). constructor.
  - exists [Stderr msg e], (leave c msg e). split; [eapply ru_args_exit; [exact E|apply leave_leaves]|]. split; [exists O, src; apply app_nil_r|]. split; [exact I|].
    constructor; [reflexivity|constructor].
  - exists [], Crash. split; [now constructor|]. split; [exists O, src; apply app_nil_r|]. split; [exact I|constructor].
Qed.

(** ** a file system that works *)
Definition main_at (p : profile) (h : endian) (c : outcome config) (w : world) : world * outcome unit :=
  match c with
  | Exit c e => (w, Exit c e)
  | Crash => (w, Crash)
  | Done cf =>
      match w_slot w (cf_input cf) with
      | None => (w, Crash)
      | Some i =>
          match w_data w i with
          | None => (w, Crash)
          | Some _ =>
              match w_slot w (cf_output cf) with
              | None => (w, Crash)
              | Some o =>
                  let w := put w o [] in
                  let input := match w_data w i with Some bs => bs | None => [] end in
                  match read_from p asm_new input with
                  | Exit c e => (w, Exit c e)
                  | Crash => (w, Crash)
                  | Done a =>
                      let (bs, ok) := asm_write_into p h a in
                      (put w o bs, if ok then Done tt else Crash)
                  end
              end
          end
      end
  end.
Lemma main_main_at p h args w : main p h args w = main_at p h (config_init args) w.
Proof. reflexivity. Qed.
Lemma main_os_at p h argv w : snd (main_os p h argv w) = snd (main_at p h (config_os argv) w) /\
  forall s, w_data (fst (main_os p h argv w)) s = w_data (fst (main_at p h (config_os argv) w)) s.
Proof.
  unfold main_os, config_os. destruct (env_args argv) as [args|c e|]; cbn [obind]; [|now split|now split]. rewrite main_main_at.
  destruct (config_init args) as [cf|c e|]; cbn [obind main_at]; [|now split|now split]. cbn [cf_input cf_output w_slot w_data put].
  destruct (w_slot w (utf8 (cf_input cf))) as [i|]; [|now split]. destruct (w_data w i); [|now split]. destruct (w_slot w (utf8 (cf_output cf))) as [o|]; [|now split].
  cbv zeta. cbn [w_data put]. destruct (read_from p asm_new _) as [a|c e|]; [|now split|now split]. destruct (asm_write_into p h a) as [bs ok]. now split.
Qed.

Lemma steps_app f a b f' : steps f (a ++ b) f' -> exists f1, steps f a f1 /\ steps f1 b f'.
Proof.
  revert f. induction a as [|x a IH]; intros f S; [exists f; split; [constructor|exact S]|]. inversion S; subst.
  match goal with H : steps _ (a ++ b) _ |- _ => apply IH in H; destruct H as (f1' & S1 & S2) end. exists f1'. split; [econstructor; eassumption|exact S2].
Qed.
Lemma app_steps f a b f1 f' : steps f a f1 -> steps f1 b f' -> steps f (a ++ b) f'.
Proof. induction 1; intros S; [exact S|]. cbn [app]. econstructor; eauto. Qed.

Definition quiet (x : answer) : Prop := x = Got [] \/ x = Interrupted.
Lemma pieces_quiet s l : pieces s l -> l = [] -> Forall quiet s.
Proof. induction 1; intros E; [constructor|discriminate E|]. constructor; [now right|auto]. Qed.
Lemma quiet_pieces s l : pieces s l -> Forall quiet s -> l = [].
Proof. induction 1; intros Q; [reflexivity| |]; inversion Q as [|? ? [E|E] Q']; subst; try discriminate. auto. Qed.
Lemma pieces_app a x b y : pieces a x -> pieces b y -> pieces (a ++ b) (x ++ y).
Proof.
  induction 1 as [|c bs src l P IH|src l P IH]; intros Q; [exact Q| |].
  - change ((c :: bs ++ l) ++ y) with (c :: (bs ++ l) ++ y). rewrite <- app_assoc. cbn [app]. constructor. auto.
  - cbn [app]. constructor. auto.
Qed.
Lemma skipn_skipn_app {A} k (l x y : list A) : skipn k l = x ++ y -> skipn (k + length x) l = y.
Proof.
  revert l. induction k as [|k IH]; intros l E; cbn [skipn Nat.add] in *.
  - subst. rewrite skipn_app, skipn_all, Nat.sub_diag. reflexivity.
  - destruct l as [|a l]; [|now apply IH]. symmetry in E. apply app_eq_nil in E. now destruct E as [-> ->].
Qed.
Lemma steps_reads : forall src w s k o bs f', w_data w s = Some bs -> steps {| f_world := w; f_in := Some (s, k); f_out := o |} (map Read src) f' ->
  (exists k', f' = {| f_world := w; f_in := Some (s, k'); f_out := o |}) /\
  ((exists d y, pieces src d /\ skipn k bs = d ++ y) \/ (exists s1 m, src = s1 ++ Got [] :: m /\ pieces s1 (skipn k bs) /\ Forall quiet m)).
Proof.
  induction src as [|x src IH]; intros w s k o bs f' D S; inversion S as [|? ? f1 ? ? E S']; subst.
  - split; [now exists k|]. left. exists [], (skipn k bs). split; [constructor|reflexivity].
  - inversion E as [| | | |? ? ? ? bs' x' y' D' K X| | | |]; subst.
    + rewrite D in D'. injection D' as <-. destruct (IH _ _ _ _ _ _ D S') as ((k' & ->) & H). split; [now exists k'|].
      pose proof (skipn_skipn_app _ _ _ _ K) as K'. rewrite K' in H. destruct x' as [|b x'].
      * destruct X as [X| ->]; [congruence|]. rewrite K. right. exists [], src. split; [reflexivity|]. split; [constructor|].
        destruct H as [(d & y & P & Q)|(s1 & m & -> & P & Q)].
        -- symmetry in Q. apply app_eq_nil in Q. destruct Q as [-> _]. eapply pieces_quiet; [exact P|reflexivity].
        -- apply Forall_app. split; [eapply pieces_quiet; [exact P|reflexivity]|]. constructor; [now left|exact Q].
      * rewrite K. destruct H as [(d & y & P & ->)|(s1 & m & -> & P & Q)].
        -- left. exists ((b :: x') ++ d), y. split; [now constructor|now rewrite app_assoc].
        -- right. exists (Got (b :: x') :: s1), m. split; [reflexivity|]. split; [now constructor|exact Q].
    + destruct (IH _ _ _ _ _ _ D S') as ((k' & ->) & H). split; [now exists k'|]. destruct H as [(d & y & P & Q)|(s1 & m & -> & P & Q)].
      * left. exists d, y. split; [now constructor|exact Q].
      * right. exists (Interrupted :: s1), m. split; [reflexivity|]. split; [now constructor|exact Q].
Qed.
Lemma quiet_chunks p a m : Forall quiet m -> read_chunks p a m = Done (mark_ext a).
Proof.
  intros Q. destruct (top_C95_all m) as (s & bs & P & H). assert (B : bs = []).
  { apply (quiet_pieces s); [exact P|]. destruct H as [->|(m' & [->| ->])]; [exact Q| |]; apply Forall_app in Q; tauto. }
  subst bs. destruct H as [->|(m' & [->| ->])].
  - now rewrite (top_C95_pieces p a s [] P).
  - now rewrite (top_C95_eof p a s [] m' P (or_introl eq_refl)).
  - apply Forall_app in Q. destruct Q as [_ Q]. inversion Q as [|? ? [E|E]]; discriminate.
Qed.
Lemma world_read p src r w s o bs f' : lines p asm_new [] src r -> w_data w s = Some bs ->
  steps {| f_world := w; f_in := Some (s, O); f_out := o |} (map Read src) f' -> obind r (fun a => Done (mark_ext a)) = read_from p asm_new bs.
Proof.
  intros L D S. destruct (steps_reads _ _ _ _ _ _ _ D S) as (_ & [(d & y & P & Q)|(s1 & m & -> & P & Q)]); cbn [skipn] in *.
  - rewrite Q. assert (Y : exists m, pieces m y). { destruct y as [|b y]; [exists []; constructor|]. exists [Got (b :: y)]. rewrite <- (app_nil_r y) at 2. constructor. constructor. }
    destruct Y as (m & Y). rewrite <- (lines_chunks _ _ _ L m). now rewrite (top_C95_pieces _ _ _ _ (pieces_app _ _ _ _ P Y)).
  - rewrite <- (lines_chunks _ _ _ L []), app_nil_r. destruct (list_eq_dec Z.eq_dec bs []) as [N|N]; [apply top_C95_eof; auto|].
    destruct (Z.eq_dec (last bs 0) 10) as [T|T]; [apply top_C95_eof; auto|]. rewrite (top_C95_pause _ _ _ _ _ P N T). unfold read_from. apply obind_ext.
    intros a. now apply quiet_chunks.
Qed.
Lemma at_end bs x : at_pos bs (length bs) x = bs ++ x.
Proof. unfold at_pos. rewrite firstn_all, skipn_all2 by lia. now rewrite app_nil_r. Qed.
Lemma steps_writes bs t ok : writes bs t ok -> forall w i o pre f', w_data w o = Some pre ->
  steps {| f_world := w; f_in := i; f_out := Some (o, length pre) |} t f' -> ok = true /\
  forall s, w_data (f_world f') s = if s =? o then Some (pre ++ bs) else w_data w s.
Proof.
  induction 1 as [|x y n t ok N W IH|x y t ok X W IH|x y X|x y X]; intros w i o pre f' D S; inversion S as [|? ? f1 ? ? E S']; subst.
  - split; [reflexivity|]. intros s. cbn [f_world]. rewrite app_nil_r. destruct (Z.eqb_spec s o); [now subst|reflexivity].
  - inversion E; subst. match goal with H : w_data w o = Some _ |- _ => rewrite D in H; injection H as <- end.
    rewrite at_end in S'. destruct (IH (put w o (pre ++ firstn n x)) i o (pre ++ firstn n x) f') as (-> & K).
    + cbn [put w_data]. now rewrite Z.eqb_refl.
    + rewrite app_length, firstn_length_le by lia. exact S'.
    + split; [reflexivity|]. intros s. rewrite K. cbn [put w_data]. destruct (s =? o); [|reflexivity]. f_equal. rewrite <- app_assoc. f_equal. now rewrite app_assoc, firstn_skipn.
  - inversion E; subst. now apply (IH w i o pre f').
  - inversion E; subst. lia.
  - inversion E.
Qed.
Lemma top_C96_world p h argv t r w f : run p h argv t r -> steps {| f_world := w; f_in := None; f_out := None |} t f ->
  r = snd (main_os p h argv w) /\ forall s, w_data (f_world f) s = w_data (fst (main_os p h argv w)) s.
Proof.
  intros R S. destruct (main_os_at p h argv w) as [M1 M2]. cut (r = snd (main_at p h (config_os argv) w) /\ forall s, w_data (f_world f) s = w_data (fst (main_at p h (config_os argv) w)) s).
  { intros [-> H]. split; [now rewrite M1|]. intros s. now rewrite M2. }
  clear M1 M2. destruct R as [E|c msg t' r' E V|cf E|cf E|cf src E L|cf src c msg t' r' E L V|cf src a t' ok E L W]; rewrite E; cbn [main_at].
  - inversion S; subst. now split.
  - destruct V; inversion S as [|? ? f1 ? ? Q S']; subst; inversion Q; subst. inversion S'; subst. now split.
  - inversion S as [|? ? f1 ? ? Q S']; subst; inversion Q; subst. inversion S'; subst.
    match goal with H : _ \/ _ |- _ => destruct H as [->|(s & -> & ->)]; now split end.
  - inversion S as [|? ? f1 ? ? Q S']; subst; inversion Q as [? ? ? ? si di Hs Hd| | | | | | | |]; subst. rewrite Hs, Hd. inversion S' as [|? ? f2 ? ? Q2 S'']; subst; inversion Q2 as [| | |? ? ? ? Hn| | | | |]; subst. rewrite Hn. inversion S''; subst. now split.
  - inversion S as [|? ? f1 ? ? Q S']; subst; inversion Q as [? ? ? ? si di Hs Hd| | | | | | | |]; subst. rewrite Hs, Hd. inversion S' as [|? ? f2 ? ? Q2 S'']; subst; inversion Q2 as [| |? ? ? ? so Ho| | | | | |]; subst. rewrite Ho.
    assert (B : exists bs, w_data (put w so []) si = Some bs) by (cbn [put w_data]; destruct (si =? so); eauto). destruct B as (bs & B). cbv zeta. rewrite B.
    rewrite <- (world_read _ _ _ _ _ _ _ _ L B S''). cbn [obind]. destruct (steps_reads _ _ _ _ _ _ _ B S'') as ((k' & ->) & _). now split.
  - inversion S as [|? ? f1 ? ? Q S']; subst; inversion Q as [? ? ? ? si di Hs Hd| | | | | | | |]; subst. rewrite Hs, Hd. inversion S' as [|? ? f2 ? ? Q2 S'']; subst; inversion Q2 as [| |? ? ? ? so Ho| | | | | |]; subst. rewrite Ho.
    assert (B : exists bs, w_data (put w so []) si = Some bs) by (cbn [put w_data]; destruct (si =? so); eauto). destruct B as (bs & B). cbv zeta. rewrite B.
    apply steps_app in S''. destruct S'' as (f3 & S3 & S4).
    rewrite <- (world_read _ _ _ _ _ _ _ _ L B S3). cbn [obind]. destruct (steps_reads _ _ _ _ _ _ _ B S3) as ((k' & ->) & _).
    destruct V; inversion S4 as [|? ? f5 ? ? Q5 S5]; subst; inversion Q5; subst; inversion S5; subst. now split.
  - inversion S as [|? ? f1 ? ? Q S']; subst; inversion Q as [? ? ? ? si di Hs Hd| | | | | | | |]; subst. rewrite Hs, Hd. inversion S' as [|? ? f2 ? ? Q2 S'']; subst; inversion Q2 as [| |? ? ? ? so Ho| | | | | |]; subst. rewrite Ho.
    assert (B : exists bs, w_data (put w so []) si = Some bs) by (cbn [put w_data]; destruct (si =? so); eauto). destruct B as (bs & B). cbv zeta. rewrite B.
    apply steps_app in S''. destruct S'' as (f3 & S3 & S4).
    rewrite <- (world_read _ _ _ _ _ _ _ _ L B S3). cbn [obind]. destruct (steps_reads _ _ _ _ _ _ _ B S3) as ((k' & ->) & _).
    assert (O : w_data (put w so []) so = Some []) by (cbn [put w_data]; now rewrite Z.eqb_refl).
    destruct (steps_writes _ _ _ W _ _ _ _ _ O S4) as (-> & K). destruct (asm_write_into p h (mark_ext a)) as [out fine]. cbn [fst snd andb app] in *. split; [reflexivity|].
    intros s. rewrite K. cbn [put w_data fst]. destruct (s =? so); reflexivity.
Qed.
Lemma quiet_reads : forall n s m w i k o bs, w_data w i = Some bs -> skipn k bs = [] -> repeat (Got []) n = s ++ m ->
  steps {| f_world := w; f_in := Some (i, k); f_out := o |} (map Read s) {| f_world := w; f_in := Some (i, k); f_out := o |}.
Proof.
  induction n as [|n IH]; intros s m w i k o bs D K E; destruct s as [|x s]; try discriminate E; try constructor. cbn [repeat app] in E. injection E as <- E.
  cbn [map]. econstructor; [apply (st_read w i k o bs [] []); auto|]. cbn [length]. rewrite Nat.add_0_r. eapply IH; eassumption.
Qed.
Lemma top_C96_possible p h argv w : exists t r f, run p h argv t r /\ steps {| f_world := w; f_in := None; f_out := None |} t f.
Proof.
  destruct (config_os argv) as [cf|c msg|] eqn:E.
  - destruct (w_slot w (cf_input cf)) as [i|] eqn:II; [destruct (w_data w i) as [d|] eqn:D|].
    + destruct (w_slot w (cf_output cf)) as [o|] eqn:OO.
      * assert (B : exists bs, w_data (put w o []) i = Some bs) by (cbn [put w_data]; destruct (i =? o); eauto). destruct B as (bs & B).
        assert (R : forall s n m, match bs with [] => [] | _ => [Got bs] end ++ repeat (Got []) n = s ++ m -> exists k, steps {| f_world := put w o []; f_in := Some (i, O); f_out := Some (o, O) |}
          (map Read s) {| f_world := put w o []; f_in := Some (i, k); f_out := Some (o, O) |}).
        { intros s n m Q. destruct bs as [|b bs]; [exists O; eapply quiet_reads; [exact B|reflexivity|exact Q]|]. destruct s as [|x s]; [exists O; constructor|].
          cbn [app] in Q. injection Q as <- Q. exists (O + length (b :: bs))%nat. cbn [map]. econstructor; [apply (st_read _ i O _ (b :: bs) (b :: bs) []); [exact B|symmetry; apply app_nil_r|now right]|].
          eapply quiet_reads; [exact B|apply skipn_all|exact Q]. }
        destruct (lines_total p _ asm_new [] (match bs with [] => [] | _ => [Got bs] end) (le_n _)) as (s & r & n & m & L & Q). destruct (R _ _ _ Q) as (k & S).
        assert (S0 : forall t f, steps {| f_world := put w o []; f_in := Some (i, k); f_out := Some (o, O) |} t f ->
          steps {| f_world := w; f_in := None; f_out := None |} (OpenIn (cf_input cf) true :: OpenOut (cf_output cf) true :: map Read s ++ t) f).
        { intros t f T. econstructor; [eapply st_in; eassumption|]. econstructor; [eapply st_out; eassumption|]. eapply app_steps; eassumption. }
        destruct r as [a|c msg|].
        -- destruct (fst (asm_write_into p h (mark_ext a))) as [|x xs] eqn:W.
           ++ eexists _, _, _. split; [eapply (ru_write p h argv cf s a [] true); try eassumption; rewrite W; constructor|]. apply S0. constructor.
           ++ eexists _, _, _. split; [eapply (ru_write p h argv cf s a [Write (x :: xs) (Took (length (x :: xs)))] true); try eassumption; rewrite W|].
              ** rewrite <- (app_nil_r (x :: xs)) at 1. constructor; [cbn; lia|]. rewrite skipn_all. constructor.
              ** apply S0. econstructor; [|constructor]. eapply st_write; [cbn [put w_data]; now rewrite Z.eqb_refl|cbn; lia].
        -- eexists _, _, _. split; [eapply ru_exit; try eassumption; apply le_exit|]. apply S0. econstructor; constructor.
        -- eexists _, _, _. split; [eapply ru_panic; eassumption|]. rewrite <- (app_nil_r (map Read s)). apply S0. constructor.
      * eexists _, _, _. split; [eapply ru_out; exact E|]. econstructor; [eapply st_in; eassumption|]. econstructor; [eapply st_no_out; exact OO|constructor].
    + eexists _, _, _. split; [eapply ru_in; exact E|]. econstructor; [eapply st_no_in; right; eauto|constructor].
    + eexists _, _, _. split; [eapply ru_in; exact E|]. econstructor; [eapply st_no_in; now left|constructor].
  - eexists _, _, _. split; [eapply ru_args_exit; [exact E|apply le_exit]|]. econstructor; constructor.
  - eexists _, _, _. split; [eapply ru_args_panic; exact E|]. constructor.
Qed.
