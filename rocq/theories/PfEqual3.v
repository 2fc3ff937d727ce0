(** BytesAtMost and `==`: lemmas for C97. *)
From Coq Require Import Bool.
From Verif Require Import Base Str X64 Mac Obj Asm Derive SpecDerive PfBytes Equal SpecEqual PfEqual.

Lemma rbind_ok {A B} (x : res A) (f : A -> res B) b : (y <- x ;; f y) = Ok b -> exists a, x = Ok a /\ f a = Ok b.
Proof. destruct x; cbn; [eauto|discriminate]. Qed.
Lemma ok_inj {A} (a b : A) : Ok a = Ok b -> a = b.
Proof. congruence. Qed.
Lemma clean_with_len max n b : bam_with_len max n = Ok b -> rest_zero max b /\ bam_len b = n.
Proof.
  unfold bam_with_len. destruct (Nat.leb n max) eqn:E; cbn; [|discriminate]. apply Nat.leb_le in E. intros H. injection H as <-. split; [|reflexivity].
  exists (repeat 0 n). rewrite repeat_length. cbn. split; [exact E|]. split; [|reflexivity]. rewrite <- repeat_app. f_equal. lia.
Qed.
Lemma clean_put max b bs : rest_zero max b -> (length bs <= bam_len b)%nat -> rest_zero max (bam_put b bs).
Proof.
  intros (l & L & E & N) H. exists (bs ++ skipn (length bs) l). cbn [bam_put bam_bytes bam_len].
  rewrite app_length, skipn_length, E. split; [lia|]. split; [|lia].
  rewrite skipn_app. replace (length bs - length l)%nat with 0%nat by lia. rewrite <- app_assoc. cbn [skipn]. repeat f_equal. lia.
Qed.
Lemma clean_set max b k v c : rest_zero max b -> bam_set b k v = Ok c -> rest_zero max c.
Proof.
  intros (l & L & E & N). unfold bam_set. destruct (Nat.ltb k (bam_len b)) eqn:K; [|discriminate]. apply Nat.ltb_lt in K. intros H.
  apply (f_equal (fun r => match r with Ok x => x | Panic => b end)) in H. cbv beta iota in H. subst c.
  exists (firstn k l ++ v :: skipn (S k) l). cbn [bam_bytes bam_len].
  assert (Q : length (firstn k l ++ v :: skipn (S k) l) = length l).
  { rewrite app_length. cbn [length]. rewrite firstn_length, skipn_length. lia. }
  rewrite Q. split; [exact L|]. split; [|exact N]. rewrite E, firstn_app, skipn_app.
  replace (k - length l)%nat with 0%nat by lia. replace (S k - length l)%nat with 0%nat by lia. cbn [firstn skipn]. rewrite app_nil_r.
  now rewrite <- app_assoc.
Qed.
Lemma clean_le k n : length (le_bytes k n) = k.
Proof. exact (bytes_of_length Little k n). Qed.
Lemma clean_array max a b : bam_from_array max a = Ok b -> rest_zero max b.
Proof.
  unfold bam_from_array. intros H. apply rbind_ok in H. destruct H as (_ & _ & H). apply rbind_ok in H. destruct H as (c & C & H). injection H as <-.
  apply clean_with_len in C. destruct C as (C & N). apply clean_put; [exact C|lia].
Qed.
Lemma made_clean max b : made max b -> rest_zero max b.
Proof.
  induction 1 as [n b H|a b H|n b H|n b H|n b H|n b H|b bs _ IH H|b k v c _ IH H].
  - now apply clean_with_len in H.
  - now apply clean_array in H.
  - unfold bam_from_u8 in H. apply rbind_ok in H. destruct H as (_ & _ & H). now apply clean_array in H.
  - unfold bam_from_u16 in H. apply rbind_ok in H. destruct H as (_ & _ & H). apply rbind_ok in H. destruct H as (c & C & H). apply ok_inj in H. subst b.
    apply clean_with_len in C. destruct C as (C & N). apply clean_put; [exact C|]. rewrite clean_le. lia.
  - unfold bam_from_u32 in H. apply rbind_ok in H. destruct H as (_ & _ & H). apply rbind_ok in H. destruct H as (c & C & H). apply ok_inj in H. subst b.
    apply clean_with_len in C. destruct C as (C & N). apply clean_put; [exact C|]. rewrite clean_le. lia.
  - unfold bam_from_u64 in H. apply rbind_ok in H. destruct H as (_ & _ & H). apply rbind_ok in H. destruct H as (c & C & H). apply ok_inj in H. subst b.
    apply clean_with_len in C. destruct C as (C & N). apply clean_put; [exact C|]. rewrite clean_le. lia.
  - now apply clean_put.
  - eapply clean_set; eauto.
Qed.
Lemma cur_cap c bs d : cur_write c bs = Ok d -> snd d = snd c /\ (length (fst d) <= snd c)%nat.
Proof.
  destruct c as [w cap]. unfold cur_write. destruct (Nat.leb _ cap) eqn:E; [|discriminate]. apply Nat.leb_le in E. intros H. injection H as <-.
  cbn. rewrite app_length. lia.
Qed.
Lemma to_bytes_made bc b : to_bytes bc = Ok b -> made 15 b.
Proof.
  unfold to_bytes. intros H. apply rbind_ok in H. destruct H as (z & Z & H). pose proof (clean_with_len _ _ _ Z) as (_ & N).
  do 7 (apply rbind_ok in H; let c := fresh "c" in let C := fresh "C" in destruct H as (c & C & H); apply cur_cap in C). injection H as <-.
  apply made_put; [eapply made_with_len; exact Z|]. rewrite N. cbn [snd] in *.
  decompose [and] C. decompose [and] C0. decompose [and] C1. decompose [and] C2. decompose [and] C3. decompose [and] C4. decompose [and] C5. congruence || (etransitivity; [eassumption|]; apply Nat.eq_le_incl; congruence).
Qed.
Lemma encode_made e b : encode e = Ok b -> made 15 b.
Proof.
  unfold encode. intros H. do 5 (apply rbind_ok in H; destruct H as (? & ? & H)).
  now apply to_bytes_made in H.
Qed.
Lemma clean_ref max b : rest_zero max b -> exists l, bam_ref b = l /\ b = {| bam_bytes := l ++ repeat 0 (max - length l); bam_len := length l |}.
Proof.
  intros (l & L & E & N). exists l. unfold bam_ref. rewrite E, N, firstn_app, firstn_all, Nat.sub_diag. cbn [firstn]. rewrite app_nil_r.
  split; [reflexivity|]. destruct b; cbn in *. now subst.
Qed.
Lemma eq_clean max b c : rest_zero max b -> rest_zero max c -> (eq_bam b c = true <-> bam_ref b = bam_ref c).
Proof.
  intros B C. rewrite eq_bam_iff. split; [now intros ->|]. intros R.
  destruct (clean_ref max b B) as (l & L & ->), (clean_ref max c C) as (m & M & ->). assert (l = m) by congruence. now subst l.
Qed.
Lemma top_C97_clean max b : made max b -> rest_zero max b.
Proof. apply made_clean. Qed.
Lemma top_C97_encoded e i b : encode e = Ok b \/ bytecode_of i = Ok b -> made 15 b.
Proof.
  intros [H|H]; [now apply encode_made in H|]. destruct i; cbn [bytecode_of] in H; now apply encode_made in H.
Qed.
Lemma top_C97_bytes max b c : made max b -> made max c -> (eq_value (VBytes b) (VBytes c) = true <-> bam_ref b = bam_ref c).
Proof. intros B C. cbn [eq_value]. now apply (eq_clean max); apply made_clean. Qed.
