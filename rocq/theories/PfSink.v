(** Proofs: files that fail. *)
From Coq Require String.
Import String.StringSyntax.
From Verif Require Import Base Str X64 Mac Obj Asm Assembler Cli Sink PfRun PfRun4.

Lemma firstn_plus {A} n k (l : list A) : firstn (n + k) l = firstn n l ++ firstn k (skipn n l).
Proof. revert l. induction n as [|n IH]; intros [|x l]; cbn [Nat.add firstn skipn app]; [reflexivity|reflexivity|now destruct k|now rewrite IH]. Qed.
Lemma write_all_prefix st buf st' ok : write_all st buf st' ok ->
  exists k, (k <= length buf)%nat /\ st' = st ++ firstn k buf /\ ok = Nat.eqb k (length buf).
Proof.
  induction 1 as [st|st buf n st' ok Hn W IH|st buf N].
  - exists 0%nat. cbn. rewrite app_nil_r. auto.
  - destruct IH as (k & Hk & -> & ->). rewrite skipn_length in *. exists (n + k)%nat. split; [lia|].
    split; [rewrite <- app_assoc; f_equal|].
    + symmetry. apply firstn_plus.
    + destruct (Nat.eqb_spec k (length buf - n)), (Nat.eqb_spec (n + k) (length buf)); congruence || lia.
  - exists 0%nat. split; [lia|]. cbn [firstn]. rewrite app_nil_r. split; [reflexivity|]. destruct buf; [congruence|reflexivity].
Qed.
Lemma write_all_take st buf k : (k <= length buf)%nat -> write_all st buf (st ++ firstn k buf) (Nat.eqb k (length buf)).
Proof.
  intro Hk. destruct k as [|k].
  - cbn [firstn]. rewrite app_nil_r. destruct buf as [|b buf]; [constructor|]. now apply wa_fail.
  - apply (wa_some _ _ (S k)); [lia|]. destruct (Nat.eqb_spec (S k) (length buf)) as [E|E].
    + rewrite skipn_all2 by lia. constructor.
    + apply wa_fail. intro Q. assert (L := f_equal (@length Z) Q). rewrite skipn_length in L. cbn [length] in L. lia.
Qed.
Lemma write_all_iff st buf st' ok : write_all st buf st' ok <->
  exists k, (k <= length buf)%nat /\ st' = st ++ firstn k buf /\ ok = Nat.eqb k (length buf).
Proof. split; [apply write_all_prefix|]. intros (k & Hk & -> & ->). now apply write_all_take. Qed.

Lemma write_all_app st x y st' ok : write_all st (x ++ y) st' ok <->
  write_all st x st' false /\ ok = false \/ exists st1, write_all st x st1 true /\ write_all st1 y st' ok.
Proof.
  rewrite !write_all_iff, app_length. split.
  - intros (k & Hk & -> & ->). destruct (Nat.ltb_spec k (length x)) as [L|L].
    + left. split.
      * exists k. split; [lia|]. split; [f_equal; rewrite firstn_app; replace (k - length x)%nat with 0%nat by lia; cbn [firstn]; now rewrite app_nil_r|].
        destruct (Nat.eqb_spec k (length x)); [lia|reflexivity].
      * destruct (Nat.eqb_spec k (length x + length y)); [lia|reflexivity].
    + right. exists (st ++ x). split.
      * apply write_all_iff. exists (length x). split; [lia|]. rewrite firstn_all. split; [reflexivity|]. now rewrite Nat.eqb_refl.
      * rewrite write_all_iff. exists (k - length x)%nat. split; [lia|]. split; [rewrite firstn_app, firstn_all2, app_assoc by lia; reflexivity|].
        destruct (Nat.eqb_spec k (length x + length y)), (Nat.eqb_spec (k - length x) (length y)); congruence || lia.
  - intros [[(k & Hk & -> & E) ->]|(st1 & W1 & W2)].
    + exists k. destruct (Nat.eqb_spec k (length x)) as [|N]; [discriminate|]. split; [lia|].
      split; [f_equal; rewrite firstn_app; replace (k - length x)%nat with 0%nat by lia; cbn [firstn]; now rewrite app_nil_r|].
      destruct (Nat.eqb_spec k (length x + length y)); [lia|reflexivity].
    + rewrite write_all_iff in W1, W2. destruct W1 as (k1 & H1 & -> & E1), W2 as (k2 & H2 & -> & ->). symmetry in E1. apply Nat.eqb_eq in E1. subst k1.
      exists (length x + k2)%nat. split; [lia|]. split; [rewrite <- app_assoc; f_equal; rewrite firstn_all, firstn_app_2; reflexivity|].
      destruct (Nat.eqb_spec k2 (length y)), (Nat.eqb_spec (length x + k2) (length x + length y)); congruence || lia.
Qed.

Lemma top_C80_emit bs st st' ok : on_sink (wemit bs) st st' ok <-> write_all st bs st' ok.
Proof. unfold on_sink, wemit. cbn [fst snd]. split; [intros (o & W & ->); now rewrite andb_true_r|intro W; exists ok; split; [exact W|now rewrite andb_true_r]]. Qed.
Lemma top_C80_panic st st' ok : on_sink wpanic st st' ok <-> st' = st /\ ok = false.
Proof.
  unfold on_sink, wpanic. cbn [fst snd]. split.
  - intros (o & W & ->). rewrite andb_false_r. split; [|reflexivity]. apply write_all_prefix in W. destruct W as ([|k] & Hk & -> & _); cbn in *; [apply app_nil_r|lia].
  - intros [-> ->]. exists true. split; [constructor|reflexivity].
Qed.
Lemma top_C80_seq a b st st' ok : on_sink (a >>> b) st st' ok <->
  on_sink a st st' false /\ ok = false \/ exists st1, on_sink a st st1 true /\ on_sink b st1 st' ok.
Proof.
  unfold on_sink, wseq. destruct a as [x [|]], b as [y oy]; cbn [fst snd].
  - split.
    + intros (o & W & ->). apply write_all_app in W. destruct W as [[W ->]|(st1 & W1 & W2)].
      * left. split; [|reflexivity]. exists false. now split.
      * right. exists st1. split; [exists true; now split|]. exists o. now split.
    + intros [[(o & W & E) ->]|(st1 & (o1 & W1 & E1) & (o2 & W2 & ->))].
      * rewrite andb_true_r in E. subst o. exists false. split; [|reflexivity]. apply write_all_app. left. now split.
      * rewrite andb_true_r in E1. subst o1. exists o2. split; [|reflexivity]. apply write_all_app. right. exists st1. now split.
  - split.
    + intros (o & W & ->). left. rewrite andb_false_r. split; [|reflexivity]. exists o. now rewrite andb_false_r.
    + intros [[(o & W & _) ->]|(st1 & (o1 & _ & E1) & _)].
      * exists o. now rewrite andb_false_r.
      * rewrite andb_false_r in E1. discriminate.
Qed.
Lemma top_C80_limit w st' ok : on_sink w [] st' ok <-> exists limit, write_io limit w = (st', ok).
Proof.
  unfold on_sink. split.
  - intros (o & W & ->). apply write_all_prefix in W. destruct W as (k & Hk & -> & ->). cbn [app]. exists (Some k). unfold write_io.
    destruct (Nat.leb_spec (length (fst w)) k) as [L|L].
    + replace k with (length (fst w)) by lia. rewrite firstn_all, Nat.eqb_refl. destruct w; reflexivity.
    + destruct (Nat.eqb_spec k (length (fst w))); [lia|reflexivity].
  - intros ([k|] & E); unfold write_io in E.
    + destruct (Nat.leb_spec (length (fst w)) k) as [L|L].
      * exists true. rewrite E. cbn [fst snd]. split; [|reflexivity]. apply write_all_iff. exists (length st'). now rewrite firstn_all, Nat.eqb_refl.
      * injection E as <- <-. exists false. split; [|reflexivity]. apply write_all_iff. exists k. split; [lia|]. split; [reflexivity|].
        destruct (Nat.eqb_spec k (length (fst w))); [lia|reflexivity].
    + subst w. exists true. cbn [fst snd]. split; [|reflexivity]. apply write_all_iff. exists (length st'). now rewrite firstn_all, Nat.eqb_refl.
Qed.

(** ** Sources that fail *)
Lemma complete_lines_eq input : exists x y, input = x ++ y /\ (x = [] \/ exists x', x = x' ++ [10]) /\ ~ In 10 y /\ complete_lines input = raw_lines x.
Proof.
  pose proof (raw_lines_spec input) as S. unfold complete_lines. revert S. generalize (raw_lines input) as ls. intros ls S.
  induction S as [|x N I|x rest ls N S0 IH].
  - exists [], []. cbn. intuition.
  - exists [], x. split; [reflexivity|]. split; [now left|]. split; [exact I|]. cbn [filter raw_lines].
    destruct (Z.eqb_spec (last x 0) 10) as [E|]; [|reflexivity]. exfalso. apply I. rewrite <- E.
    destruct (exists_last N) as (x' & a & ->). rewrite last_last. apply in_or_app. right. now left.
  - destruct IH as (u & v & -> & U & V & E). exists (x ++ 10 :: u), v. split; [now rewrite <- app_assoc|]. split; [right|split; [exact V|]].
    + destruct U as [->|(u' & ->)]; [now exists x|]. exists (x ++ 10 :: u'). now rewrite <- app_assoc.
    + cbn [filter]. rewrite last_last. cbn [Z.eqb Pos.eqb]. rewrite E, raw_lines_nl by exact N. reflexivity.
Qed.
Lemma failing_lines k input : exists rest, raw_lines input = complete_lines (firstn k input) ++ rest.
Proof.
  destruct (complete_lines_eq (firstn k input)) as (x & y & E & X & _ & ->). exists (raw_lines (y ++ skipn k input)).
  rewrite <- (raw_lines_app x) by exact X. f_equal. rewrite app_assoc, <- E. symmetry. apply firstn_skipn.
Qed.
Lemma read_io_exit p a limit input c e : read_io p a limit input = Exit c e -> read_from p a input = Exit c e.
Proof.
  destruct limit as [k|]; [|tauto]. cbn [read_io]. unfold read_from_failing, read_from. destruct (failing_lines k input) as (rest & ->).
  rewrite exec_all_app. destruct (exec_all p a (complete_lines (firstn k input))); cbn [obind]; [discriminate|tauto|discriminate].
Qed.
Lemma read_io_done p a limit input a' : read_io p a limit input = Done a' -> limit = None /\ read_from p a input = Done a'.
Proof.
  destruct limit as [k|]; [|tauto]. cbn [read_io]. unfold read_from_failing. destruct (exec_all _ _ _); discriminate.
Qed.

Lemma write_io_done limit w : snd (write_io limit w) = true <-> snd w = true /\ forall k, limit = Some k -> (length (fst w) <= k)%nat.
Proof.
  unfold write_io. destruct limit as [k|]; [|split; [intro H; split; [exact H|discriminate]|tauto]].
  destruct (Nat.leb_spec (length (fst w)) k) as [L|L]; cbn [snd].
  - split; [intro H; split; [exact H|]; intros k' E; injection E as <-; exact L|tauto].
  - split; [discriminate|]. intros [_ H]. specialize (H k eq_refl). lia.
Qed.
Lemma write_io_full limit w : snd (write_io limit w) = true -> write_io limit w = w.
Proof. unfold write_io. destruct limit as [k|]; [|reflexivity]. destruct (Nat.leb _ k); [reflexivity|discriminate]. Qed.
Lemma write_io_prefix limit w : exists z, fst w = fst (write_io limit w) ++ z.
Proof.
  unfold write_io. destruct limit as [k|]; [|exists []; now rewrite app_nil_r]. destruct (Nat.leb _ k); [exists []; now rewrite app_nil_r|].
  exists (skipn k (fst w)). symmetry. apply firstn_skipn.
Qed.

Lemma top_C80_success p h args w inl outl : snd (main_io p h args w inl outl) = Done tt <->
  snd (main p h args w) = Done tt /\ inl = None /\
  forall k cf o bs, outl = Some k -> config_init args = Done cf -> w_slot w (cf_output cf) = Some o ->
    w_data (fst (main p h args w)) o = Some bs -> (length bs <= k)%nat.
Proof.
  unfold main, main_io. destruct (config_init args) as [cf|c e|] eqn:C; [|cbn [snd]; split; [discriminate|intros [X _]; discriminate X]|cbn [snd]; split; [discriminate|intros [X _]; discriminate X]].
  destruct (w_slot w (cf_input cf)) as [i|]; [|cbn [snd]; split; [discriminate|intros [X _]; discriminate X]]. destruct (w_data w i) as [src|]; [|cbn [snd]; split; [discriminate|intros [X _]; discriminate X]].
  destruct (w_slot w (cf_output cf)) as [o|] eqn:O; [|cbn [snd]; split; [discriminate|intros [X _]; discriminate X]]. cbv zeta. set (inp := match w_data (put w o []) i with Some bs => bs | None => [] end).
  destruct (read_io p asm_new inl inp) as [a|c e|] eqn:R; [apply read_io_done in R; destruct R as [Ln R]; rewrite R|apply read_io_exit in R; rewrite R; cbn [snd]; split; [discriminate|intros [X _]; discriminate X]|]; cbn [snd].
  - destruct (write_io outl (asm_write_into p h a)) as [bs1 ok1] eqn:W. destruct (asm_write_into p h a) as [bs0 ok0] eqn:W0. cbn [fst snd].
    pose proof (write_io_done outl (asm_write_into p h a)) as X. rewrite W0, W in X. cbn [fst snd] in X. split.
    + intro H. destruct ok1; [|discriminate]. destruct (proj1 X eq_refl) as [-> Y]. split; [reflexivity|]. split; [exact Ln|].
      intros k cf' o' bs E E1 E2. injection E1 as <-. rewrite O in E2. injection E2 as <-. cbn [put w_data]. rewrite Z.eqb_refl. injection 1 as <-. now apply Y.
    + intros (H & _ & Y). destruct ok0; [|discriminate]. replace ok1 with true; [reflexivity|]. symmetry. apply X. split; [reflexivity|].
      intros k E. apply (Y k cf o bs0 E eq_refl O). cbn [put w_data]. now rewrite Z.eqb_refl.
  - split; [discriminate|]. intros (H & -> & _). cbn [read_io] in R. rewrite R in H. discriminate H.
Qed.
Lemma top_C80_same p h args w inl outl : snd (main_io p h args w inl outl) <> Crash -> main_io p h args w inl outl = main p h args w.
Proof.
  unfold main, main_io. destruct (config_init args) as [cf|c e|] eqn:C; [|reflexivity|reflexivity].
  destruct (w_slot w (cf_input cf)) as [i|]; [|reflexivity]. destruct (w_data w i) as [src|]; [|reflexivity].
  destruct (w_slot w (cf_output cf)) as [o|] eqn:O; [|reflexivity]. cbv zeta. set (inp := match w_data (put w o []) i with Some bs => bs | None => [] end).
  destruct (read_io p asm_new inl inp) as [a|c e|] eqn:R; [apply read_io_done in R; destruct R as [Ln R]; rewrite R|apply read_io_exit in R; rewrite R; reflexivity|]; cbn [snd].
  - pose proof (write_io_full outl (asm_write_into p h a)) as F. destruct (write_io outl (asm_write_into p h a)) as [bs1 ok1]. cbn [snd] in *.
    destruct ok1; [|congruence]. intros _. now rewrite <- (F eq_refl).
  - congruence.
Qed.
Lemma top_C80_prefix p h args w inl outl s : match w_data (fst (main_io p h args w inl outl)) s with
  | None => w_data (fst (main p h args w)) s = None
  | Some bs' => exists z, w_data (fst (main p h args w)) s = Some (bs' ++ z)
  end.
Proof.
  assert (Q : forall v : world, match w_data v s with None => w_data v s = None | Some bs' => exists z, w_data v s = Some (bs' ++ z) end).
  { intro v. destruct (w_data v s) as [b|]; [|reflexivity]. exists []. now rewrite app_nil_r. }
  unfold main, main_io. destruct (config_init args) as [cf|c e|] eqn:C; [|apply Q|apply Q].
  destruct (w_slot w (cf_input cf)) as [i|]; [|apply Q]. destruct (w_data w i) as [src|]; [|apply Q].
  destruct (w_slot w (cf_output cf)) as [o|] eqn:O; [|apply Q]. cbv zeta. set (inp := match w_data (put w o []) i with Some bs => bs | None => [] end).
  destruct (read_io p asm_new inl inp) as [a|c e|] eqn:R; [apply read_io_done in R; destruct R as [Ln R]; rewrite R|apply read_io_exit in R; rewrite R; apply Q|]; cbn [fst].
  - destruct (write_io_prefix outl (asm_write_into p h a)) as (z & E). destruct (write_io outl (asm_write_into p h a)) as [bs1 ok1].
    destruct (asm_write_into p h a) as [bs0 ok0]. cbn [fst put w_data] in *. destruct (s =? o); [exists z; now rewrite E|apply Q].
  - destruct (read_from p asm_new inp) as [a|c e|]; [|apply Q|apply Q]. destruct (asm_write_into p h a) as [bs0 ok0]. cbn [fst put w_data].
    destruct (s =? o); [exists bs0; reflexivity|apply Q].
Qed.
