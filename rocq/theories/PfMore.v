(** Relocation type codes, UTF-8 and small observers. *)
From Verif Require Import Base Str Mac PfBytes PfStr SpecMore X64 SpecX86 PfX64.

Lemma x86_64_codes_spec n t :
  (x86_64_reloc_from_u8 n = Ok t <-> In (n, t) x86_64_codes) /\ (x86_64_reloc_to_u8 t = n <-> In (n, t) x86_64_codes).
Proof.
  split.
  - unfold x86_64_codes. cbn [In]. split.
    + destruct n as [|n|n]; [cbn; intro H; injection H as <-; auto| |discriminate].
      repeat match goal with q : positive |- _ => destruct q; try discriminate end; cbn; intro H; injection H as <-; tauto.
    + intro H. repeat (destruct H as [H|H]; [injection H as <- <-; reflexivity|]). destruct H.
  - unfold x86_64_codes. cbn [In]. split.
    + intros <-. destruct t; cbn; tauto.
    + intro H. repeat (destruct H as [H|H]; [injection H as <- <-; reflexivity|]). destruct H.
Qed.
Lemma x86_codes_spec n t :
  (x86_reloc_from_u8 n = Ok t <-> In (n, t) x86_codes) /\ (x86_reloc_to_u8 t = n <-> In (n, t) x86_codes).
Proof.
  split.
  - unfold x86_codes. cbn [In]. split.
    + destruct n as [|n|n]; [cbn; intro H; injection H as <-; auto| |discriminate].
      repeat match goal with q : positive |- _ => destruct q; try discriminate end; cbn; intro H; injection H as <-; tauto.
    + intro H. repeat (destruct H as [H|H]; [injection H as <- <-; reflexivity|]). destruct H.
  - unfold x86_codes. cbn [In]. split.
    + intros <-. destruct t; cbn; tauto.
    + intro H. repeat (destruct H as [H|H]; [injection H as <- <-; reflexivity|]). destruct H.
Qed.

Lemma top_C06_empty max b : bam_built max b -> (bam_is_empty b = true <-> bam_ref b = []).
Proof.
  intro B. apply bam_built_inv in B. unfold bam_is_empty. rewrite Nat.eqb_eq. unfold bam_ref.
  destruct B as [B1 B2]. split.
  - intros ->. reflexivity.
  - intro H. apply (f_equal (@length Z)) in H. rewrite firstn_length in H. cbn [length] in H. lia.
Qed.

Lemma encodes_char c bs : encodes c bs <-> ischar c /\ bs = utf8_char c.
Proof.
  unfold utf8_char. split.
  - intro E. destruct E as [c H|c y x Hx E H|c z y x Hx Hy E H N|c u z y x Hx Hy Hz E H]; unfold ischar.
    + replace (c <? 128) with true by lia. split; [lia|reflexivity].
    + replace (c <? 128) with false by lia. replace (c <? 2048) with true by lia. split; [lia|].
      replace (c / 64) with y by lia. replace (c mod 64) with x by lia. reflexivity.
    + replace (c <? 128) with false by lia. replace (c <? 2048) with false by lia. replace (c <? 65536) with true by lia.
      split; [lia|]. replace (c / 4096) with z by lia. replace ((c / 64) mod 64) with y by lia. replace (c mod 64) with x by lia. reflexivity.
    + replace (c <? 128) with false by lia. replace (c <? 2048) with false by lia. replace (c <? 65536) with false by lia.
      split; [lia|]. replace (c / 262144) with u by lia. replace ((c / 4096) mod 64) with z by lia.
      replace ((c / 64) mod 64) with y by lia. replace (c mod 64) with x by lia. reflexivity.
  - intros [C ->]. unfold ischar in C.
    destruct (c <? 128) eqn:E1; [apply enc1; lia|].
    destruct (c <? 2048) eqn:E2; [apply enc2; lia|].
    destruct (c <? 65536) eqn:E3; [apply enc3; lia|].
    apply enc4; lia.
Qed.
Lemma utf8_text_iff s bs : utf8_text s bs <-> str_ok s /\ bs = utf8 s.
Proof.
  split.
  - intros (bss & F & ->). induction F as [|c b s bss E F IH]; [split; [constructor|reflexivity]|].
    apply encodes_char in E. destruct E as [C ->]. destruct IH as [IH1 IH2]. split; [constructor; assumption|].
    cbn [concat utf8 flat_map]. rewrite IH2. reflexivity.
  - intros [S ->]. exists (map utf8_char s). split.
    + induction S as [|c s C S IH]; constructor; [now apply encodes_char|exact IH].
    + unfold utf8. now rewrite flat_map_concat_map.
Qed.
Lemma top_C70_decode bs s : bytes_ok bs -> (from_utf8 bs = Some s <-> utf8_text s bs).
Proof.
  intro B. rewrite utf8_text_iff. split.
  - intro H. apply from_utf8_inv in H; [|exact B]. destruct H. split; congruence.
  - intros [S ->]. now apply from_utf8_utf8.
Qed.
Lemma top_C70_encode s bs : str_ok s -> (utf8 s = bs <-> utf8_text s bs).
Proof. intro S. rewrite utf8_text_iff. split; [intros <-; auto|intros [_ ->]; reflexivity]. Qed.
Lemma top_C70_unique bs s s' : utf8_text s bs -> utf8_text s' bs -> s = s'.
Proof.
  rewrite !utf8_text_iff. intros [S ->] [S' E]. apply (f_equal from_utf8) in E.
  rewrite !from_utf8_utf8 in E by assumption. now injection E.
Qed.
