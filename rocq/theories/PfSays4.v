(** Proofs about panic messages: the encoder. *)
From Coq Require String.
Import String.StringSyntax.
From Verif Require Import Base Str Mac X64 SpecX86 SpecEnc Says SpecSays PfX64 PfX86 PfX64Top PfEnc.

Lemma forget_quiet {A} (m : res A) : forget (quiet_res m) = m.
Proof. now destruct m. Qed.

Lemma s_encode_agree e : forget (s_encode e) = encode e.
Proof.
  unfold s_encode, encode. destruct (en_opcode e) as [o|]; [|reflexivity].
  destruct (en_imm e) as [i|]; [|reflexivity].
  destruct (bam_with_len 4 0) as [nd|]; [|reflexivity]. cbn [quiet_res sbind bind].
  match goal with |- forget (sbind (quiet_res ?X) _) = bind ?Y _ => change Y with X; destruct X as [bc|] end;
    [|reflexivity]. cbn [quiet_res sbind bind].
  destruct (Nat.eqb (bam_len i) 8 && negb (en_rex_w e)); [reflexivity|]. cbn [negb rassert bind]. apply forget_quiet.
Qed.

Lemma s_built_agree cs : forget (s_built cs) = built cs.
Proof.
  unfold s_built, built. destruct (calls_on enc_new cs) as [e|]; [|reflexivity]. apply s_encode_agree.
Qed.

(** the builder panics as soon as one argument is too long *)
Lemma calls_quiet cs w : ~ Forall fits cs -> s_built cs = Dies w -> w = Std.
Proof.
  intros N H. unfold s_built in H. rewrite (calls_on_bad cs _ _ enc_new_is N) in H. cbn in H. congruence.
Qed.

Lemma modrm_part_fine cs e rex o nd : Forall call_rng cs -> final cs e ->
  (exists bc, modrm_part e rex o nd = Ok bc) <-> modrm_fine cs.
Proof.
  intros H (opc & imm & _ & _ & ->). unfold modrm_part, modrm_fine. cbn [en_modrm en_prefix].
  destruct (the_modrm cs) as [[r m]|] eqn:E; [|split; [congruence|eauto]].
  pose proof (rng_modrm cs H) as W. rewrite E in W. destruct W as [W1 Hok]. split.
  - intros [bc B] r' m' E'. injection E' as <- <-. split.
    + destruct r as [x|x|x|n]; auto. destruct (Z.leb_spec n 7); [assumption|]. exfalso. revert B.
      unfold modrm_set_reg at 1, rassert. cbn [reg_like rl_u8 rl_reg].
      destruct (Z.leb_spec n 7); [lia|]. cbn [bind]. discriminate.
    + destruct m as [x|x|x|[x d|d|b d i s]]; cbn [rm_scale mem_scale_ok]; auto.
      destruct (Z.leb_spec 0 s); destruct (Z.leb_spec s 3); try lia; exfalso; revert B;
      destruct (modrm_set_reg _ _) as [m1|]; cbn [bind]; try discriminate;
      destruct (modrm_set_mode _ _) as [m2|]; cbn [bind]; try discriminate;
      destruct (modrm_set_rm _ _) as [m3|]; cbn [bind]; try discriminate;
      cbn [rm_like rm_mem rm_sib mem_sib_byte]; (destruct b; rewrite sib_panic by lia; discriminate).
  - intros F. assert (F' : modrm_fine cs) by (intros r' m' E'; apply F; congruence).
    destruct (tail_bytes cs H F' _ _ E) as (Hr & _ & Hs).
    destruct (rm_parts m Hok Hs) as (R1 & R2 & sib & d & R3 & (db & R4 & _) & _).
    pose proof (modrm_ok _ _ _ R1 (reg_range r Hr) R2) as M.
    destruct (modrm_set_reg modrm_new (rl_reg (reg_like r))) as [m1|]; [|discriminate]. cbn [bind] in *.
    destruct (modrm_set_mode m1 (rm_mode (rm_like m))) as [m2|]; [|discriminate]. cbn [bind] in *.
    rewrite M. cbn [bind]. rewrite R3, R4. cbn [bind]. eauto.
Qed.

Lemma top_C99_encoder : forall cs x, Forall call_rng cs ->
  forget (s_built cs) = built cs /\ (s_built cs = Dies (Said x) <-> encoder_says cs x).
Proof.
  intros cs x H. split; [apply s_built_agree|].
  assert (S : encoder_says cs x <-> Forall fits cs /\ modrm_fine cs /\ imm_len (the_imm cs) = 8%nat /\ w_flag cs = false /\
    x = lit "64bit immediate value is only valid on 64bit operand mode").
  { unfold encoder_says. rewrite fits_all. unfold modrm_fine, rm_scale. tauto. }
  rewrite S. clear S.
  assert (D : Forall fits cs \/ ~ Forall fits cs).
  { destruct (Forall_dec fits (fun c => ltac:(destruct c; cbn; try (now left); apply Compare_dec.le_dec)) cs); auto. }
  destruct D as [F|F].
  2: { split; [intro D; apply (calls_quiet _ _ F) in D; discriminate|tauto]. }
  unfold s_built. destruct (calls_final cs F) as (e & -> & Fe). cbn [quiet_res sbind].
  pose proof (fun rex o nd => modrm_part_fine cs e rex o nd H Fe) as P.
  destruct Fe as (opc & imm & (ob & -> & Ho & _) & (ib & -> & Hi & Li) & Ee).
  rewrite <- imm_list_len, <- Li, bam_ref_length by exact Hi.
  assert (E1 : en_opcode e = Ok ob) by (now rewrite Ee). assert (E2 : en_imm e = Ok ib) by (now rewrite Ee).
  assert (E3 : en_rex_w e = w_flag cs) by (now rewrite Ee). clear Ee.
  unfold s_encode. rewrite E1, E2. cbn [quiet_res sbind].
  destruct (bam_with_len_0 4) as (nd & -> & _). cbn [quiet_res sbind].
  match goal with |- context [modrm_part e ?X ob nd] => specialize (P X ob nd); destruct (modrm_part e X ob nd) as [bc|] end;
    cbn [quiet_res sbind].
  - assert (M : modrm_fine cs) by (apply P; eauto).
    rewrite E3.
    destruct (Nat.eqb_spec (bam_len ib) 8); destruct (w_flag cs); cbn [andb negb].
    2: { split; [intro D|intros (_ & _ & _ & _ & ->); reflexivity].
         assert (x = lit "64bit immediate value is only valid on 64bit operand mode") by congruence. tauto. }
    all: split; [destruct (to_bytes _); discriminate|]; intros (_ & _ & ? & ? & _); congruence.
  - split; [discriminate|]. intros (_ & M & _). apply P in M. destruct M as [? ?]. discriminate.
Qed.
