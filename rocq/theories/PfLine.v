(** Proofs about the parsers of instructions and lines. *)
From Coq Require String.
Import String.StringSyntax.
From Coq Require Import ZifyBool ZifyNat.
From Verif Require Import Base Str X64 SpecX86 Obj Asm SpecAsm PfStr PfTok PfX64 PfX86 PfX64Top PfBytes PfAsm PfData.
Ltac Zify.zify_post_hook ::= Z.div_mod_to_equations.

(** ** Names *)

Definition plain (s : str) : bool :=
  nonempty s && forallb (fun c => negb (is_ws c) && negb (c =? 44)) s
  && match s with c :: _ => negb (rng 48 57 c) && negb (c =? 43) && negb (c =? 45) | [] => false end.
Lemma plain_spec s : plain s = true -> word s /\ ~ In 44 s /\ (forall bits v, ~ number bits s v) /\
  s <> lit "+" /\ s <> lit "-".
Proof.
  unfold plain, rng. intro H. apply andb_prop in H. destruct H as [H F]. apply andb_prop in H. destruct H as [N A].
  assert (G : Forall (fun c => ~ space c /\ c <> 44) s).
  { apply Forall_forall. intros c I. rewrite forallb_forall in A. apply A in I. apply andb_prop in I.
    destruct I as [I1 I2]. split; [apply is_ws_false; destruct (is_ws c); [discriminate I1|reflexivity]|lia]. }
  destruct s as [|c s]; [discriminate N|]. repeat match goal with |- _ /\ _ => split end.
  - split; [congruence|]. eapply Forall_impl; [|exact G]. cbn. tauto.
  - intro I. rewrite Forall_forall in G. apply G in I. tauto.
  - intros bits v V. apply number_first in V. lia.
  - intros E. injection E as -> _. discriminate F.
  - intros E. injection E as -> _. discriminate F.
Qed.
Lemma name64_plain r : plain (name64 r) = true. Proof. now destruct r. Qed.
Lemma name32_plain r : plain (name32 r) = true. Proof. now destruct r. Qed.
Lemma name16_plain r : plain (name16 r) = true. Proof. now destruct r. Qed.
Lemma is_reg_plain d : is_reg_name d -> plain d = true.
Proof. intros [[r ->] | [[r ->] | [r ->]]]; [apply name64_plain|apply name32_plain|apply name16_plain]. Qed.
Lemma plain_not_expr s : plain s = true -> not_expr s.
Proof.
  intro H. apply plain_spec in H. destruct H as (W & _ & N & P & M). right. exists s, [].
  split; [apply words_one, W|]. auto.
Qed.

(** ** Instructions *)

Lemma inst_new_ok i : instr_ok i -> instr_mem i = None ->
  exists x, inst_new i = POk x /\ in_reloc x = None /\ emits i (bam_ref (in_bytes x)).
Proof.
  intros H N. destruct (top_C01 i [] H N) as (bs & E & _). destruct E as (b & Eb & R).
  exists {| in_bytes := b; in_reloc := None |}. unfold inst_new. rewrite Eb. cbn [plift pbind].
  split; [reflexivity|]. split; [reflexivity|]. exists b. split; [exact Eb|reflexivity].
Qed.

Lemma emits_len64 r n bs : inu 64 n -> emits (MovRI64 r n) bs -> offset_to_imm64 r = zlen bs - 8.
Proof.
  intros H E. destruct (emits_inv (MovRI64 r n) bs H E) as [-> _]. unfold zlen, offset_to_imm64.
  destruct r; cbn [instr_bytes app length]; rewrite ?app_length, ?le_bytes_length; reflexivity.
Qed.
Lemma emits_len32 r n bs : inu 32 n -> emits (MovRI32 r n) bs -> offset_to_imm32 r = zlen bs - 4.
Proof.
  intros H E. destruct (emits_inv (MovRI32 r n) bs H E) as [-> _]. unfold zlen, offset_to_imm32.
  destruct r; cbn [instr_bytes app length ext32 b2z]; rewrite ?app_length, ?le_bytes_length; reflexivity.
Qed.

(** *** mov *)

Definition mov_ops (p : profile) (d o : str) : presult inst :=
  match reg64_try d with
  | Some dst =>
      e <-- expr_try p o ;;
      match e with
      | Some n => inst_new (MovRI64 dst n)
      | None =>
          match reg64_try o with
          | Some src => inst_new (MovRR64 dst src)
          | None =>
              i <-- inst_new (MovRI64 dst 0) ;;
              POk (with_reloc i {| lr_offset := offset_to_imm64 dst; lr_symbol := o;
                                   lr_pcrel := false; lr_len := 3 |})
          end
      end
  | None =>
  match reg32_try d with
  | Some dst =>
      e <-- expr_try p o ;;
      match e with
      | Some n =>
          match as_uint 32 n with
          | Some imm => inst_new (MovRI32 dst imm)
          | None => PErr (show_u64 n ++ lit " is not 32bit")
          end
      | None =>
          match reg32_try o with
          | Some src => inst_new (MovRR32 dst src)
          | None =>
              i <-- inst_new (MovRI32 dst 0) ;;
              POk (with_reloc i {| lr_offset := offset_to_imm32 dst; lr_symbol := o;
                                   lr_pcrel := false; lr_len := 2 |})
          end
      end
  | None =>
  match reg16_try d with
  | Some dst =>
      e <-- expr_try p o ;;
      match e with
      | Some n =>
          match as_uint 16 n with
          | Some imm => inst_new (MovRI16 dst imm)
          | None => PErr (show_u64 n ++ lit " is not 16bit")
          end
      | None =>
          match reg16_try o with
          | Some src => inst_new (MovRR16 dst src)
          | None => PErr (lit "invalid second operand")
          end
      end
  | None => PErr (lit "invalid first operand")
  end
  end
  end.

Lemma lit_mov_sp l : lit "mov " ++ l = lit "mov" ++ 32 :: l.
Proof. reflexivity. Qed.
Lemma trim_mov w0 x w : blank w0 -> blank w -> tight (lit "mov" ++ x) -> trim (w0 ++ (lit "mov" ++ x) ++ w) = lit "mov" ++ x.
Proof. intros. apply trim_of; assumption. Qed.

Lemma mov_parse_body p s d o : mov_body s d o -> mov_parse p s = mov_ops p d o.
Proof.
  intros (w0 & w1 & w2 & w3 & w4 & -> & W0 & W1 & W2 & W3 & W4 & Td & Nd & To).
  assert (Nw : forall w, blank w -> ~ In 44 w).
  { intros w W I. apply (proj1 (Forall_forall _ _) W) in I. revert I. unfold space. cbn [In]. lia. }
  assert (E : exists s2, trim (w0 ++ lit "mov " ++ w1 ++ d ++ w2 ++ 44 :: w3 ++ o ++ w4)
              = lit "mov" ++ 32 :: (w1 ++ d ++ w2) ++ 44 :: s2 /\ trim s2 = o).
  { rewrite lit_mov_sp. destruct o as [|x o].
    - exists []. split; [|reflexivity].
      replace (w0 ++ lit "mov" ++ 32 :: w1 ++ d ++ w2 ++ 44 :: w3 ++ [] ++ w4)
        with (w0 ++ (lit "mov" ++ 32 :: (w1 ++ d ++ w2) ++ [44]) ++ w3 ++ w4)
        by (rewrite <- !app_assoc; cbn [app]; rewrite <- !app_assoc; reflexivity).
      apply trim_of; [exact W0| |apply blank_app; split; assumption].
      split; [apply is_ws_false; reflexivity|].
      replace (lit "mov" ++ 32 :: (w1 ++ d ++ w2) ++ [44]) with ((lit "mov" ++ 32 :: w1 ++ d ++ w2) ++ [44])
        by (rewrite <- app_assoc; reflexivity).
      rewrite rev_app_distr. apply is_ws_false. reflexivity.
    - exists (w3 ++ x :: o). split.
      + replace (w0 ++ lit "mov" ++ 32 :: w1 ++ d ++ w2 ++ 44 :: w3 ++ (x :: o) ++ w4)
          with (w0 ++ (lit "mov" ++ 32 :: (w1 ++ d ++ w2) ++ 44 :: w3 ++ x :: o) ++ w4)
          by (rewrite <- !app_assoc; cbn [app]; rewrite <- !app_assoc; cbn [app]; rewrite <- !app_assoc; reflexivity).
        apply trim_of; [exact W0| |exact W4].
        split; [apply is_ws_false; reflexivity|].
        replace (lit "mov" ++ 32 :: (w1 ++ d ++ w2) ++ 44 :: w3 ++ x :: o)
          with ((lit "mov" ++ 32 :: (w1 ++ d ++ w2) ++ 44 :: w3) ++ x :: o)
          by (rewrite <- !app_assoc; cbn [app]; rewrite <- !app_assoc; reflexivity).
        rewrite rev_app_distr. apply starts_solid_app; [apply rev_nonnil; congruence|apply To].
      + rewrite <- (app_nil_r (x :: o)) at 1. apply trim_of; [exact W3|exact To|apply blank_nil]. }
  destruct E as (s2 & E & E2). unfold mov_parse. rewrite E.
  assert (S1 : split_once (fun c => c =? 32) (lit "mov" ++ 32 :: (w1 ++ d ++ w2) ++ 44 :: s2)
    = Some (lit "mov", (w1 ++ d ++ w2) ++ 44 :: s2)).
  { apply split_char. split; [reflexivity|]. cbn. lia. }
  rewrite S1, str_eqb_refl. cbn [negb].
  assert (S2 : split_once (fun c => c =? 44) ((w1 ++ d ++ w2) ++ 44 :: s2) = Some (w1 ++ d ++ w2, s2)).
  { apply split_char. split; [reflexivity|]. rewrite !in_app_iff. intros [I|[I|I]].
    - exact (Nw _ W1 I). - exact (Nd I). - exact (Nw _ W2 I). }
  rewrite S2, trim_of, E2 by assumption. reflexivity.
Qed.
Lemma mov_parse_inv p s : (exists e, mov_parse p s = PErr e) \/ exists d o, mov_body s d o.
Proof.
  unfold mov_parse. destruct (split_once (fun c => c =? 32) (trim s)) as [[opc rem]|] eqn:S1; [|eauto].
  destruct (str_eqb opc (lit "mov")) eqn:E; cbn [negb]; [|eauto].
  destruct (split_once (fun c => c =? 44) rem) as [[s1 s2]|] eqn:S2; [|eauto].
  right. exists (trim s1), (trim s2). apply str_eqb_eq in E. subst opc.
  apply split_char in S1. destruct S1 as [S1 _]. apply split_char in S2. destruct S2 as [-> N].
  destruct (trim_spec s) as (v1 & v2 & Es & V1 & _ & V2).
  destruct (trim_spec s1) as (w1 & w2 & E1 & W1 & T1 & W2).
  destruct (trim_spec s2) as (w3 & w4 & E2 & W3 & T2 & W4).
  exists v1, w1, w2, w3, (w4 ++ v2). rewrite S1 in Es. split.
  - rewrite Es, lit_mov_sp. rewrite E1 at 1. rewrite E2 at 1.
    rewrite <- !app_assoc; cbn [app]; rewrite <- !app_assoc; cbn [app]; rewrite <- !app_assoc. reflexivity.
  - pose proof (proj2 (blank_app w4 v2) (conj W4 V2)).
    assert (~ In 44 (trim s1)) by (intro I; apply N; rewrite E1, !in_app_iff; tauto). tauto.
Qed.

Lemma as_uint_some b n m : as_uint b n = Some m <-> n < 2 ^ b /\ m = n.
Proof. unfold as_uint. destruct (n <? 2 ^ b) eqn:E; split; intro H; try (injection H as <-); try lia; try congruence. destruct H as [_ ->]. reflexivity. Qed.

Lemma pbind_ok {A B} (m : presult A) (k : A -> presult B) b : pbind m k = POk b -> exists a, m = POk a /\ k a = POk b.
Proof. destruct m; cbn; intro H; try congruence. eauto. Qed.
Lemma inst_new_inv i x : inst_new i = POk x -> in_reloc x = None /\ emits i (bam_ref (in_bytes x)).
Proof.
  unfold inst_new. intro H. apply pbind_ok in H. destruct H as (b & E & H). injection H as <-.
  destruct (bytecode_of i) as [b'|] eqn:Eb; cbn [plift] in E; [|congruence]. injection E as ->.
  split; [reflexivity|]. exists b. split; [exact Eb|reflexivity].
Qed.

Lemma mov_ops_sound p d o i : mov_ops p d o = POk i -> exists st, mov_operands p d o st /\ means st (LInst i).
Proof.
  unfold mov_ops. intro H.
  destruct (reg64_try d) as [r|] eqn:R64.
  { apply reg64_try_iff in R64. subst d. apply pbind_ok in H. destruct H as ([n|] & E & H).
    - apply expr_some in E. destruct E as (ts & W & V). apply inst_new_inv in H.
      exists (StInstr (MovRI64 r n)). split; [eapply mo_imm64; eassumption|]. cbn. tauto.
    - apply expr_none in E. destruct (reg64_try o) as [r'|] eqn:Ro.
      + apply reg64_try_iff in Ro. subst o. apply inst_new_inv in H.
        exists (StInstr (MovRR64 r r')). split; [apply mo_reg64|]. cbn. tauto.
      + apply pbind_ok in H. destruct H as (x & H & E2). injection E2 as <-. apply inst_new_inv in H. destruct H as [_ H].
        exists (StMovSym64 r o). split.
        * apply mo_sym64; [exact E|]. exact (proj1 (try_none reg64_try name64 o reg64_try_iff) Ro).
        * cbn [means with_reloc in_bytes in_reloc]. split; [exact H|].
          rewrite (emits_len64 r 0 _ ltac:(unfold inu; lia) H). reflexivity. }
  destruct (reg32_try d) as [r|] eqn:R32.
  { apply reg32_try_iff in R32. subst d. apply pbind_ok in H. destruct H as ([n|] & E & H).
    - apply expr_some in E. destruct E as (ts & W & V). destruct (as_uint 32 n) as [m|] eqn:U; [|congruence].
      apply as_uint_some in U. destruct U as [L ->]. apply inst_new_inv in H.
      exists (StInstr (MovRI32 r n)). split; [eapply mo_imm32; eassumption|]. cbn. tauto.
    - apply expr_none in E. destruct (reg32_try o) as [r'|] eqn:Ro.
      + apply reg32_try_iff in Ro. subst o. apply inst_new_inv in H.
        exists (StInstr (MovRR32 r r')). split; [apply mo_reg32|]. cbn. tauto.
      + apply pbind_ok in H. destruct H as (x & H & E2). injection E2 as <-. apply inst_new_inv in H. destruct H as [_ H].
        exists (StMovSym32 r o). split.
        * apply mo_sym32; [exact E|]. exact (proj1 (try_none reg32_try name32 o reg32_try_iff) Ro).
        * cbn [means with_reloc in_bytes in_reloc]. split; [exact H|].
          rewrite (emits_len32 r 0 _ ltac:(unfold inu; lia) H). reflexivity. }
  destruct (reg16_try d) as [r|] eqn:R16; [|congruence].
  apply reg16_try_iff in R16. subst d. apply pbind_ok in H. destruct H as ([n|] & E & H).
  - apply expr_some in E. destruct E as (ts & W & V). destruct (as_uint 16 n) as [m|] eqn:U; [|congruence].
    apply as_uint_some in U. destruct U as [L ->]. apply inst_new_inv in H.
    exists (StInstr (MovRI16 r n)). split; [eapply mo_imm16; eassumption|]. cbn. tauto.
  - apply expr_none in E. destruct (reg16_try o) as [r'|] eqn:Ro; [|congruence].
    apply reg16_try_iff in Ro. subst o. apply inst_new_inv in H.
    exists (StInstr (MovRR16 r r')). split; [apply mo_reg16|]. cbn. tauto.
Qed.

Lemma reg64_32 r : reg64_try (name32 r) = None. Proof. now destruct r. Qed.
Lemma reg64_16 r : reg64_try (name16 r) = None. Proof. now destruct r. Qed.
Lemma reg32_16 r : reg32_try (name16 r) = None. Proof. now destruct r. Qed.
Lemma reg32_64 r : reg32_try (name64 r) = None. Proof. now destruct r. Qed.
Lemma reg16_64 r : reg16_try (name64 r) = None. Proof. now destruct r. Qed.
Lemma reg16_32 r : reg16_try (name32 r) = None. Proof. now destruct r. Qed.
Lemma t64 r : reg64_try (name64 r) = Some r. Proof. now apply reg64_try_iff. Qed.
Lemma t32 r : reg32_try (name32 r) = Some r. Proof. now apply reg32_try_iff. Qed.
Lemma t16 r : reg16_try (name16 r) = Some r. Proof. now apply reg16_try_iff. Qed.

Lemma mov_ops_complete p d o st : mov_operands p d o st -> exists i, mov_ops p d o = POk i /\ means st (LInst i).
Proof.
  assert (NN : forall i, instr_ok i -> instr_mem i = None -> exists x, inst_new i = POk x /\ means (StInstr i) (LInst x)).
  { intros i H1 H2. destruct (inst_new_ok i H1 H2) as (x & E & R & Em). exists x. split; [exact E|]. cbn. tauto. }
  intro H. destruct H as [r o ts n W V|r o ts n W V L|r o ts n W V L|r r'|r r'|r r'|r o N Nr|r o N Nr]; unfold mov_ops.
  - rewrite t64. rewrite (proj2 (expr_some p o n)) by eauto. cbn [pbind]. apply NN; [|reflexivity].
    apply expr_value_rng in V. exact V.
  - rewrite reg64_32, t32. rewrite (proj2 (expr_some p o n)) by eauto. cbn [pbind].
    rewrite (proj2 (as_uint_some 32 n n)) by tauto. apply NN; [|reflexivity].
    apply expr_value_rng in V. cbn; unfold inu; lia.
  - rewrite reg64_16, reg32_16, t16. rewrite (proj2 (expr_some p o n)) by eauto. cbn [pbind].
    rewrite (proj2 (as_uint_some 16 n n)) by tauto. apply NN; [|reflexivity].
    apply expr_value_rng in V. cbn; unfold inu; lia.
  - rewrite !t64. rewrite (proj2 (expr_none p _)) by apply plain_not_expr, name64_plain. cbn [pbind].
    apply NN; [exact I|reflexivity].
  - rewrite reg64_32, !t32. rewrite (proj2 (expr_none p _)) by apply plain_not_expr, name32_plain. cbn [pbind].
    apply NN; [exact I|reflexivity].
  - rewrite reg64_16, reg32_16, !t16. rewrite (proj2 (expr_none p _)) by apply plain_not_expr, name16_plain. cbn [pbind].
    apply NN; [exact I|reflexivity].
  - rewrite t64. rewrite (proj2 (expr_none p _)) by exact N. cbn [pbind].
    rewrite (proj2 (try_none reg64_try name64 o reg64_try_iff) Nr).
    destruct (inst_new_ok (MovRI64 r 0)) as (x & E & _ & Em); [cbn; unfold inu; lia|reflexivity|].
    rewrite E. cbn [pbind]. eexists. split; [reflexivity|]. cbn [means with_reloc in_bytes in_reloc].
    split; [exact Em|]. rewrite (emits_len64 r 0 _ ltac:(unfold inu; lia) Em). reflexivity.
  - rewrite reg64_32, t32. rewrite (proj2 (expr_none p _)) by exact N. cbn [pbind].
    rewrite (proj2 (try_none reg32_try name32 o reg32_try_iff) Nr).
    destruct (inst_new_ok (MovRI32 r 0)) as (x & E & _ & Em); [cbn; unfold inu; lia|reflexivity|].
    rewrite E. cbn [pbind]. eexists. split; [reflexivity|]. cbn [means with_reloc in_bytes in_reloc].
    split; [exact Em|]. rewrite (emits_len32 r 0 _ ltac:(unfold inu; lia) Em). reflexivity.
Qed.
Lemma mov_operands_reg p d o st : mov_operands p d o st -> is_reg_name d.
Proof. unfold is_reg_name. destruct 1; eauto. Qed.
Lemma inst_new_no_panic i : instr_ok i -> instr_mem i = None -> inst_new i <> PPanic.
Proof. intros H1 H2. destruct (inst_new_ok i H1 H2) as (x & E & _). congruence. Qed.
Lemma pbind_panic {A B} (m : presult A) (k : A -> presult B) :
  pbind m k = PPanic -> m = PPanic \/ exists a, m = POk a /\ k a = PPanic.
Proof. destruct m; cbn; intro H; try congruence; eauto. Qed.
Lemma mov_ops_panic p d o : mov_ops p d o = PPanic <->
  is_reg_name d /\ p = Debug /\ exists ts, words o ts /\ expr_overflow ts.
Proof.
  assert (R0 : forall r, inst_new (MovRI64 r 0) <> PPanic) by (intro; apply inst_new_no_panic; [cbn; unfold inu; lia|reflexivity]).
  assert (R1 : forall r, inst_new (MovRI32 r 0) <> PPanic) by (intro; apply inst_new_no_panic; [cbn; unfold inu; lia|reflexivity]).
  rewrite <- expr_panic. unfold mov_ops. split.
  - intro H. destruct (reg64_try d) as [r|] eqn:R64.
    { apply reg64_try_iff in R64. split; [left; eauto|].
      apply pbind_panic in H. destruct H as [H|([n|] & E & H)]; [exact H| |].
      - exfalso. apply expr_some in E. destruct E as (ts & _ & V). apply expr_value_rng in V.
        apply inst_new_no_panic in H; [exact H|exact V|reflexivity].
      - exfalso. destruct (reg64_try o).
        + apply inst_new_no_panic in H; [exact H|exact I|reflexivity].
        + apply pbind_panic in H. destruct H as [H|(x & _ & H)]; [now apply R0 in H|congruence]. }
    destruct (reg32_try d) as [r|] eqn:R32.
    { apply reg32_try_iff in R32. split; [right; left; eauto|].
      apply pbind_panic in H. destruct H as [H|([n|] & E & H)]; [exact H| |].
      - exfalso. apply expr_some in E. destruct E as (ts & _ & V). apply expr_value_rng in V.
        destruct (as_uint 32 n) as [m|] eqn:U; [|congruence]. apply as_uint_some in U. destruct U as [L ->].
        apply inst_new_no_panic in H; [exact H|cbn; unfold inu; lia|reflexivity].
      - exfalso. destruct (reg32_try o).
        + apply inst_new_no_panic in H; [exact H|exact I|reflexivity].
        + apply pbind_panic in H. destruct H as [H|(x & _ & H)]; [now apply R1 in H|congruence]. }
    destruct (reg16_try d) as [r|] eqn:R16; [|congruence].
    apply reg16_try_iff in R16. split; [right; right; eauto|].
    apply pbind_panic in H. destruct H as [H|([n|] & E & H)]; [exact H| |].
    + exfalso. apply expr_some in E. destruct E as (ts & _ & V). apply expr_value_rng in V.
      destruct (as_uint 16 n) as [m|] eqn:U; [|congruence]. apply as_uint_some in U. destruct U as [L ->].
      apply inst_new_no_panic in H; [exact H|cbn; unfold inu; lia|reflexivity].
    + exfalso. destruct (reg16_try o); [|congruence]. apply inst_new_no_panic in H; [exact H|exact I|reflexivity].
  - intros ([[r ->] | [[r ->] | [r ->]]] & E).
    + now rewrite t64, E.
    + now rewrite reg64_32, t32, E.
    + now rewrite reg64_16, reg32_16, t16, E.
Qed.
