(** Lemmas about bytes, byte order, readers and writers. *)
From Coq Require Import ZifyBool ZifyNat.
From Verif Require Import Base Str SpecMacho.
From Verif Require Export PfX64.
Ltac Zify.zify_post_hook ::= Z.div_mod_to_equations.

(** ** Values and bytes *)

Lemma pow256_S n : 256 ^ Z.of_nat (S n) = 256 * 256 ^ Z.of_nat n.
Proof. rewrite Nat2Z.inj_succ, Z.pow_succ_r by lia. reflexivity. Qed.

Lemma pow256_pow2 n : 256 ^ Z.of_nat n = 2 ^ (8 * Z.of_nat n).
Proof. rewrite Z.pow_mul_r by lia. reflexivity. Qed.

Lemma pow256_pos n : 0 < 256 ^ Z.of_nat n.
Proof. apply Z.pow_pos_nonneg; lia. Qed.

Lemma le_val_le_bytes n x : le_val (le_bytes n x) = x mod 256 ^ Z.of_nat n.
Proof.
  revert x; induction n as [|n IH]; intros x.
  - cbn. now rewrite Z.mod_1_r.
  - cbn [le_bytes le_val]. rewrite IH, pow256_S, Z.rem_mul_r; [lia|lia|apply pow256_pos].
Qed.

Lemma le_val_range l : bytes_ok l -> 0 <= le_val l < 256 ^ Z.of_nat (length l).
Proof.
  induction 1 as [|b l Hb Hl IH]; [cbn; lia|].
  cbn [length le_val]. rewrite pow256_S. unfold isbyte in Hb. nia.
Qed.

Lemma le_bytes_le_val l : bytes_ok l -> le_bytes (length l) (le_val l) = l.
Proof.
  induction 1 as [|b l Hb Hl IH]; [reflexivity|].
  cbn [length le_val le_bytes]. unfold isbyte in Hb.
  rewrite (Z.mul_comm 256), Z.mod_add, Z.div_add by lia.
  rewrite Z.mod_small, Z.div_small by lia. cbn [Z.add]. now rewrite IH.
Qed.

Lemma le_bytes_bytes n x : bytes_ok (le_bytes n x).
Proof.
  revert x; induction n as [|n IH]; intros x; cbn [le_bytes]; constructor; [|apply IH].
  unfold isbyte. lia.
Qed.

Lemma bytes_ok_rev l : bytes_ok l -> bytes_ok (rev l).
Proof. unfold bytes_ok. apply Forall_rev. Qed.
Lemma bytes_ok_app a b : bytes_ok (a ++ b) <-> bytes_ok a /\ bytes_ok b.
Proof. unfold bytes_ok. apply Forall_app. Qed.
Lemma bytes_ok_firstn n l : bytes_ok l -> bytes_ok (firstn n l).
Proof. intros H. rewrite <- (firstn_skipn n l) in H. now apply bytes_ok_app in H. Qed.
Lemma bytes_ok_skipn n l : bytes_ok l -> bytes_ok (skipn n l).
Proof. intros H. rewrite <- (firstn_skipn n l) in H. now apply bytes_ok_app in H. Qed.
Lemma bytes_ok_repeat0 n : bytes_ok (repeat 0 n).
Proof. induction n; cbn [repeat]; constructor; auto. unfold isbyte; lia. Qed.
Lemma bytes_ok_concat ls : Forall bytes_ok ls -> bytes_ok (concat ls).
Proof. induction 1; cbn [concat]; [constructor|apply bytes_ok_app; auto]. Qed.

Lemma bytes_of_length e n x : length (bytes_of e n x) = n.
Proof. destruct e; cbn [bytes_of]; rewrite ?rev_length; apply le_bytes_length. Qed.
Lemma bytes_of_ok e n x : bytes_ok (bytes_of e n x).
Proof. destruct e; cbn [bytes_of]; [|apply bytes_ok_rev]; apply le_bytes_bytes. Qed.
Lemma val_bytes e n x : inu (8 * Z.of_nat n) x -> val_of e (bytes_of e n x) = x.
Proof.
  intros H. unfold inu in H. rewrite <- pow256_pow2 in H.
  destruct e; cbn [val_of bytes_of]; rewrite ?rev_involutive, le_val_le_bytes; apply Z.mod_small; lia.
Qed.
Lemma val_of_range e l n : bytes_ok l -> length l = n -> inu (8 * Z.of_nat n) (val_of e l).
Proof.
  intros H <-. unfold inu. rewrite <- pow256_pow2.
  destruct e; cbn [val_of]; [now apply le_val_range|].
  rewrite <- (rev_length l). apply le_val_range. now apply bytes_ok_rev.
Qed.
Lemma bytes_val e l n : bytes_ok l -> length l = n -> bytes_of e n (val_of e l) = l.
Proof.
  intros H <-. destruct e; cbn [val_of bytes_of]; [now apply le_bytes_le_val|].
  rewrite <- (rev_length l), le_bytes_le_val by now apply bytes_ok_rev. apply rev_involutive.
Qed.

(** ** The specification's integers *)

Lemma msb_val_app a l acc : msb_val acc (a ++ l) = msb_val (msb_val acc a) l.
Proof. revert acc; induction a as [|x a IH]; intros acc; [reflexivity|]. cbn [app msb_val]. apply IH. Qed.
Lemma msb_val_rev l : msb_val 0 (rev l) = le_val l.
Proof.
  induction l as [|b l IH]; [reflexivity|]. cbn [rev le_val].
  rewrite msb_val_app, IH. cbn [msb_val]. lia.
Qed.
Lemma uint_val e l : uint e l = val_of e l.
Proof. destruct e; cbn [uint val_of]; [apply msb_val_rev|]. now rewrite <- msb_val_rev, rev_involutive. Qed.

Lemma slice_app_r {A} off n (a l : list A) :
  (length a <= off)%nat -> slice off n (a ++ l) = slice (off - length a) n l.
Proof.
  intros H. unfold slice. rewrite skipn_app, skipn_all2 by lia. reflexivity.
Qed.
Lemma slice_app_l {A} off n (a l : list A) :
  (off + n <= length a)%nat -> slice off n (a ++ l) = slice off n a.
Proof.
  intros H. unfold slice. rewrite skipn_app, firstn_app, skipn_length.
  replace (n - (length a - off))%nat with 0%nat by lia. cbn [firstn]. now rewrite app_nil_r.
Qed.
Lemma slice_hd {A} n (a l : list A) : length a = n -> slice 0 n (a ++ l) = a.
Proof.
  intros <-. unfold slice. cbn [skipn]. rewrite firstn_app, Nat.sub_diag, firstn_O, app_nil_r.
  apply firstn_all.
Qed.
Lemma slice_all {A} (a : list A) n : length a = n -> slice 0 n a = a.
Proof. intros <-. unfold slice. cbn [skipn]. apply firstn_all. Qed.
Lemma slice_length {A} off n (l : list A) :
  (off + n <= length l)%nat -> length (slice off n l) = n.
Proof. intros H. unfold slice. rewrite firstn_length, skipn_length. lia. Qed.
Lemma slice_cons_S {A} off n (x : A) l : slice (S off) n (x :: l) = slice off n l.
Proof. unfold slice. now rewrite skipn_cons. Qed.

Lemma fld_hd e n x l : inu (8 * Z.of_nat n) x -> fld e 0 n (bytes_of e n x ++ l) = x.
Proof.
  intros H. unfold fld. rewrite slice_hd by apply bytes_of_length.
  rewrite uint_val. now apply val_bytes.
Qed.
Lemma fld_skip e off n a l : (length a <= off)%nat ->
  fld e off n (a ++ l) = fld e (off - length a) n l.
Proof. intros H. unfold fld. now rewrite slice_app_r. Qed.
Lemma fld_name_skip off n a l : (length a <= off)%nat ->
  fld_name off n (a ++ l) = fld_name (off - length a) n l.
Proof. intros H. unfold fld_name. now rewrite slice_app_r. Qed.

Lemma signed_wrapu x : ini 32 x -> signed 32 (wrapu 32 x) = x.
Proof.
  unfold ini, signed, wrapu. change (2 ^ (32 - 1)) with 2147483648. change (2 ^ 32) with 4294967296.
  intros H. destruct (x mod 4294967296 <? 2147483648) eqn:E; lia.
Qed.
Lemma wrapi_signed x : inu 32 x -> wrapi 32 x = signed 32 x.
Proof.
  unfold inu, signed, wrapi. change (2 ^ (32 - 1)) with 2147483648. change (2 ^ 32) with 4294967296.
  intros H. destruct (x <? 2147483648) eqn:E; lia.
Qed.
Lemma wrapi_wrapu x : ini 32 x -> wrapi 32 (wrapu 32 x) = x.
Proof.
  unfold ini, wrapi, wrapu. change (2 ^ (32 - 1)) with 2147483648. change (2 ^ 32) with 4294967296. lia.
Qed.
Lemma wrapu_wrapi x : inu 32 x -> wrapu 32 (wrapi 32 x) = x.
Proof.
  unfold inu, wrapi, wrapu. change (2 ^ (32 - 1)) with 2147483648. change (2 ^ 32) with 4294967296. lia.
Qed.
Lemma wrapi_range x : ini 32 (wrapi 32 x).
Proof.
  unfold ini, wrapi. change (2 ^ (32 - 1)) with 2147483648. change (2 ^ 32) with 4294967296. lia.
Qed.
Lemma wrapu_range n x : 0 <= n -> inu n (wrapu n x).
Proof. intros H. unfold inu, wrapu. apply Z.mod_pos_bound. now apply Z.pow_pos_nonneg. Qed.

(** ** Writers *)

Lemma wseq_ok a b : wseq (a, true) (b, true) = (a ++ b, true).
Proof. reflexivity. Qed.
Lemma wemit_eq bs : wemit bs = (bs, true).
Proof. reflexivity. Qed.
Lemma wlist_map_ok {A} (f : A -> wr) (g : A -> list Z) l :
  (forall x, In x l -> f x = (g x, true)) -> wlist (map f l) = (concat (map g l), true).
Proof.
  induction l as [|x l IH]; intros H; [reflexivity|].
  cbn [map wlist fold_right concat]. rewrite H by now left.
  fold (wlist (map f l)). rewrite IH by (intros y Hy; apply H; now right). reflexivity.
Qed.

(** ** Readers *)

Lemma rbind_ok {A B} (m : reader A) (k : A -> reader B) l r :
  rbind m k l = Ok r <-> exists a l', m l = Ok (a, l') /\ k a l' = Ok r.
Proof.
  unfold rbind. split.
  - destruct (m l) as [[a l']|] eqn:E; [|discriminate]. intros H. now exists a, l'.
  - intros (a & l' & E & H). now rewrite E.
Qed.
Lemma rlift_ok {A} (m : res A) l a l' : rlift m l = Ok (a, l') <-> m = Ok a /\ l' = l.
Proof.
  unfold rlift. destruct m as [x|]; split.
  - intros H. injection H as -> ->. now split.
  - intros [H ->]. now injection H as ->.
  - discriminate.
  - now intros [H _].
Qed.
Lemma rret_ok {A} (x : A) l a l' : rret x l = Ok (a, l') <-> a = x /\ l' = l.
Proof. unfold rret. split; [intros H; injection H; auto|now intros [-> ->]]. Qed.
Lemma rbind_lift_ok {A B} (m : res A) (k : A -> reader B) l r :
  rbind (rlift m) k l = Ok r <-> exists a, m = Ok a /\ k a l = Ok r.
Proof.
  unfold rbind, rlift. destruct m as [x|]; split.
  - intros H. now exists x.
  - intros (a & H & H2). now injection H as ->.
  - discriminate.
  - now intros (a & H & _).
Qed.
Lemma rbind_lift {A B} (a : A) (k : A -> reader B) l : rbind (rlift (Ok a)) k l = k a l.
Proof. reflexivity. Qed.
Lemma rbind_step {A B} (m : reader A) (k : A -> reader B) l a l' :
  m l = Ok (a, l') -> rbind m k l = k a l'.
Proof. unfold rbind. now intros ->. Qed.
Lemma rassert_ok b u : rassert b = Ok u <-> b = true.
Proof. destruct u. unfold rassert. destruct b; split; congruence. Qed.
Lemma unwrap_ok {A} (o : option A) a : unwrap o = Ok a <-> o = Some a.
Proof. destruct o; cbn [unwrap]; split; congruence. Qed.

Lemma read_exact_app n a l : length a = n -> read_exact n (a ++ l) = Ok (a, l).
Proof.
  intros <-. unfold read_exact. rewrite app_length.
  replace (Nat.leb (length a) (length a + length l)) with true by (symmetry; apply Nat.leb_le; lia).
  now rewrite firstn_app, skipn_app, Nat.sub_diag, firstn_all, skipn_all, firstn_O, app_nil_r.
Qed.
Lemma read_exact_inv n l a l' : read_exact n l = Ok (a, l') -> l = a ++ l' /\ length a = n.
Proof.
  unfold read_exact. destruct (Nat.leb_spec n (length l)) as [H|H]; [|discriminate].
  intros E. apply Ok_inj in E. injection E as <- <-. rewrite firstn_skipn, firstn_length. split; [reflexivity|lia].
Qed.

(** ** Prefix readers: a successful read used a prefix [c] of the input, works whatever
    follows, and fails on every proper prefix of [c]. *)
Definition uses {A} (m : reader A) (c : list Z) (a : A) : Prop :=
  (forall t, m (c ++ t) = Ok (a, t)) /\ (forall c' d, c = c' ++ d -> d <> [] -> m c' = Panic).
Definition prefix_reader {A} (m : reader A) : Prop :=
  forall l a r, m l = Ok (a, r) -> exists c, l = c ++ r /\ uses m c a.

Lemma uses_rret {A} (a : A) : uses (rret a) [] a.
Proof.
  split; [reflexivity|]. intros c' d H Hd. symmetry in H. apply app_eq_nil in H. now destruct H.
Qed.
Lemma pr_rret {A} (a : A) : prefix_reader (rret a).
Proof.
  intros l x r H. unfold rret in H. injection H as <- <-. exists []. split; [reflexivity|apply uses_rret].
Qed.
Lemma pr_rlift {A} (m : res A) : prefix_reader (rlift m).
Proof.
  intros l x r H. apply rlift_ok in H. destruct H as [-> ->]. exists []. split; [reflexivity|].
  apply (uses_rret x).
Qed.
Lemma pr_read_exact n : prefix_reader (read_exact n).
Proof.
  intros l x r H. apply read_exact_inv in H. destruct H as [-> H]. exists x. split; [reflexivity|].
  split; [intros t; now apply read_exact_app|].
  intros c' d -> Hd. unfold read_exact.
  rewrite app_length in H.
  assert (length d <> 0)%nat by (now destruct d).
  destruct (Nat.leb_spec n (length c')); [lia|reflexivity].
Qed.
Lemma uses_bind {A B} (m : reader A) (k : A -> reader B) c1 a c2 b :
  uses m c1 a -> uses (k a) c2 b -> uses (rbind m k) (c1 ++ c2) b.
Proof.
  intros [H1 P1] [H2 P2]. split.
  - intros t. unfold rbind. rewrite <- app_assoc, H1. apply H2.
  - intros c' d E Hd. unfold rbind.
    destruct (Nat.le_gt_cases (length c1) (length c')) as [L|L].
    + assert (exists u, c' = c1 ++ u /\ c2 = u ++ d) as (u & -> & ->).
      { exists (skipn (length c1) c'). apply (f_equal (firstn (length c1))) in E as E1.
        rewrite !firstn_app, Nat.sub_diag, firstn_O, app_nil_r, firstn_all in E1.
        replace (length c1 - length c')%nat with 0%nat in E1 by lia.
        rewrite firstn_O, app_nil_r in E1.
        split; [rewrite E1 at 1; symmetry; apply firstn_skipn|].
        apply (f_equal (skipn (length c1))) in E.
        rewrite !skipn_app, Nat.sub_diag, skipn_O, skipn_all in E. cbn [app] in E.
        replace (length c1 - length c')%nat with 0%nat in E by lia. exact E. }
      rewrite H1. eapply P2; eauto.
    + rewrite (P1 c' (skipn (length c') c1)); [reflexivity| |].
      * apply (f_equal (firstn (length c'))) in E.
        rewrite !firstn_app, Nat.sub_diag, firstn_O, app_nil_r, firstn_all in E.
        replace (length c' - length c1)%nat with 0%nat in E by lia.
        rewrite firstn_O, app_nil_r in E. rewrite <- E at 1. symmetry; apply firstn_skipn.
      * intros Hn. apply (f_equal (@length Z)) in Hn. rewrite skipn_length in Hn. cbn in Hn. lia.
Qed.
Lemma pr_rbind {A B} (m : reader A) (k : A -> reader B) :
  prefix_reader m -> (forall a, prefix_reader (k a)) -> prefix_reader (rbind m k).
Proof.
  intros Hm Hk l b r H. apply rbind_ok in H. destruct H as (a & l' & H1 & H2).
  apply Hm in H1. destruct H1 as (c1 & -> & U1).
  apply Hk in H2. destruct H2 as (c2 & -> & U2).
  exists (c1 ++ c2). split; [now rewrite app_assoc|]. eapply uses_bind; eauto.
Qed.
Lemma pr_read_many {A} n (m : reader A) : prefix_reader m -> prefix_reader (read_many n m).
Proof.
  intros H. induction n as [|n IH]; cbn [read_many]; [apply pr_rret|].
  apply pr_rbind; [exact H|]. intros a. apply pr_rbind; [exact IH|]. intros x. apply pr_rret.
Qed.

(** reading a list of records back *)
Lemma read_many_app {A} (m : reader A) (f : A -> list Z) xs l :
  (forall x t, In x xs -> m (f x ++ t) = Ok (x, t)) ->
  read_many (length xs) m (concat (map f xs) ++ l) = Ok (xs, l).
Proof.
  revert l. induction xs as [|x xs IH]; intros l H; [reflexivity|].
  cbn [length read_many map concat]. rewrite <- app_assoc.
  erewrite rbind_step by (apply H; now left).
  erewrite rbind_step by (apply IH; intros y t Hy; apply H; now right).
  reflexivity.
Qed.
