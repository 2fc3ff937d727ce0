(** Lemmas about the instruction builder. *)
From Coq Require Import ZifyBool ZifyNat.
From Verif Require Import Base X64 SpecX86 SpecEnc PfX64 PfX86.

Ltac Zify.zify_post_hook ::= Z.div_mod_to_equations.

Definition fits (c : call) : Prop :=
  match c with
  | SetOpcode i => (imm_len i <= 3)%nat
  | SetImm i => (imm_len i <= 8)%nat
  | _ => True
  end.

Definition imm_list (i : immarg) : list Z :=
  match i with
  | ImmBytes l => l
  | Imm8 n => [n]
  | Imm16 n => le_bytes 2 n
  | Imm32 n => le_bytes 4 n
  | Imm64 n => le_bytes 8 n
  end.

Lemma imm_list_len i : length (imm_list i) = imm_len i.
Proof. destruct i; cbn [imm_list imm_len]; rewrite ?le_bytes_length; reflexivity. Qed.

Lemma imm_list_is i : call_rng (SetImm i) -> imm_is i (imm_list i) /\ bytes_ok (imm_list i).
Proof.
  intro H. unfold imm_is. rewrite imm_list_len.
  destruct i as [l|n|n|n|n]; cbn [call_rng imm_list] in *.
  - auto.
  - assert (bytes_ok [n]) as B by (repeat constructor; unfold inu in H; cbn in H; unfold isbyte, inu; lia).
    repeat split; auto. cbn [lev]. lia.
  - pose proof (le_bytes_ok 2 n). repeat split; auto. apply lev_le_bytes_id. exact H.
  - pose proof (le_bytes_ok 4 n). repeat split; auto. apply lev_le_bytes_id. exact H.
  - pose proof (le_bytes_ok 8 n). repeat split; auto. apply lev_le_bytes_id. exact H.
Qed.

Lemma imm_bam_ok max i : (imm_len i <= max)%nat -> is_bam (imm_bam max i) (imm_list i).
Proof.
  destruct i; cbn [imm_len imm_bam imm_list]; intro H.
  - now apply bam_from_array_ok.
  - apply bam_from_u8_ok; lia.
  - apply bam_from_u16_ok; lia.
  - apply bam_from_u32_ok; lia.
  - apply bam_from_u64_ok; lia.
Qed.

Lemma array_panic max l : (max < length l)%nat -> bam_from_array max l = Panic.
Proof.
  intro H. destruct (bam_from_array max l) eqn:E; [|reflexivity].
  assert (exists b, bam_from_array max l = Ok b) as X by eauto. apply bam_from_array_iff in X. lia.
Qed.

Lemma imm_bam_panic max i : (max < imm_len i)%nat -> imm_bam max i = Panic.
Proof.
  destruct i; cbn [imm_len imm_bam]; intro H; [now apply array_panic| | | |];
    unfold bam_from_u8, bam_from_u16, bam_from_u32, bam_from_u64, bam_from_array, bam_with_len, rassert; cbn [length];
    repeat match goal with |- context [Nat.leb ?a ?b] => destruct (Nat.leb_spec a b) end; cbn [bind]; reflexivity || lia.
Qed.

(** the state after some calls *)
Record st := { s_p : option Z; s_w : bool; s_b : bool; s_o : immarg; s_m : option (regop * rmarg); s_i : immarg }.
Definition st0 := {| s_p := None; s_w := false; s_b := false; s_o := ImmBytes []; s_m := None; s_i := ImmBytes [] |}.
Definition upd_st (s : st) (c : call) : st :=
  match c with
  | SetPrefix p => {| s_p := Some p; s_w := s_w s; s_b := s_b s; s_o := s_o s; s_m := s_m s; s_i := s_i s |}
  | SetW w => {| s_p := s_p s; s_w := w; s_b := s_b s; s_o := s_o s; s_m := s_m s; s_i := s_i s |}
  | SetB b => {| s_p := s_p s; s_w := s_w s; s_b := b; s_o := s_o s; s_m := s_m s; s_i := s_i s |}
  | SetOpcode l => {| s_p := s_p s; s_w := s_w s; s_b := s_b s; s_o := l; s_m := s_m s; s_i := s_i s |}
  | SetModRM r m => {| s_p := s_p s; s_w := s_w s; s_b := s_b s; s_o := s_o s; s_m := Some (r, m); s_i := s_i s |}
  | SetImm i => {| s_p := s_p s; s_w := s_w s; s_b := s_b s; s_o := s_o s; s_m := s_m s; s_i := i |}
  end.
Definition run_st (s : st) (cs : list call) := fold_left upd_st cs s.

Definition enc_is (e : encoder) (s : st) : Prop :=
  en_prefix e = s_p s /\ en_rex_w e = s_w s /\ en_rex_b e = s_b s /\
  is_bam (en_opcode e) (imm_list (s_o s)) /\
  en_modrm e = match s_m s with Some (r, m) => Some (reg_like r, rm_like m) | None => None end /\
  is_bam (en_imm e) (imm_list (s_i s)).

Lemma call_on_is e s c : enc_is e s -> fits c -> enc_is (call_on e c) (upd_st s c).
Proof.
  intros (H1 & H2 & H3 & H4 & H5 & H6) F. unfold enc_is.
  destruct c; cbn [call_on upd_st enc_prefix enc_rex_w enc_rex_b enc_opcode_from enc_modrm enc_imm
    en_prefix en_rex_w en_rex_b en_opcode en_modrm en_imm s_p s_w s_b s_o s_m s_i];
    repeat split; auto.
  - now apply imm_bam_ok.
  - now apply imm_bam_ok.
Qed.

Lemma calls_on_ok cs : forall e s, enc_is e s -> Forall fits cs ->
  exists e', calls_on e cs = Ok e' /\ enc_is e' (run_st s cs).
Proof.
  induction cs as [|c cs IH]; intros e s H F; cbn [calls_on run_st fold_left].
  - eauto.
  - inversion F; subst. pose proof (call_on_is _ _ c H H2) as H'.
    destruct (IH _ _ H' H3) as (e' & E & Q). exists e'. split; [|exact Q].
    destruct H' as (_ & _ & _ & (o & -> & _) & _ & (i & -> & _)). exact E.
Qed.

Lemma fits_dec c : fits c \/ ~ fits c.
Proof. destruct c; cbn [fits]; auto; lia. Qed.

Lemma calls_on_bad cs : forall e s, enc_is e s -> ~ Forall fits cs -> calls_on e cs = Panic.
Proof.
  induction cs as [|c cs IH]; intros e s H F; cbn [calls_on].
  - destruct F. constructor.
  - destruct (fits_dec c) as [Fc|Fc].
    + pose proof (call_on_is _ _ c H Fc) as H'.
      rewrite (IH _ _ H' (fun X => F (Forall_cons _ Fc X))).
      destruct H' as (_ & _ & _ & (o & -> & _) & _ & (i & -> & _)). reflexivity.
    + destruct H as (_ & _ & _ & (o & Ho & _) & _ & _).
      destruct c as [| | |i| |i]; cbn [fits] in Fc; try (exfalso; now apply Fc);
        cbn [call_on enc_opcode_from enc_imm en_opcode en_imm].
      * rewrite imm_bam_panic by lia. reflexivity.
      * rewrite Ho, imm_bam_panic by lia. reflexivity.
Qed.

Lemma enc_new_is : enc_is enc_new st0.
Proof. repeat split; try reflexivity; apply bam_with_len_0. Qed.

Lemma last_call_app {A} (f : call -> option A) a b :
  last_call f (a ++ b) = match last_call f b with Some x => Some x | None => last_call f a end.
Proof.
  induction a as [|c a IH]; cbn [app last_call]; [now destruct (last_call f b)|].
  rewrite IH. now destruct (last_call f b).
Qed.

Lemma run_st_last cs :
  run_st st0 cs = {| s_p := the_prefix cs; s_w := w_flag cs; s_b := b_flag cs; s_o := the_opcode cs;
                     s_m := the_modrm cs; s_i := the_imm cs |}.
Proof.
  induction cs as [|c cs IH] using rev_ind; [reflexivity|].
  unfold run_st in *. rewrite fold_left_app, IH. cbn [fold_left].
  unfold the_prefix, w_flag, b_flag, the_opcode, the_modrm, the_imm. rewrite !last_call_app.
  destruct c; reflexivity.
Qed.

(** ** encode, in general *)

Lemma to_bytes_long p x o m s d i :
  bam_wf o -> bam_wf d -> bam_wf i ->
  (15 < length (olist p ++ olist x ++ bam_ref o ++ olist m ++ olist s ++ bam_ref d ++ bam_ref i))%nat ->
  to_bytes {| bc_prefix := p; bc_rex := x; bc_opcode := o; bc_modrm := m;
              bc_sib := s; bc_disp := d; bc_imm := i |} = Panic.
Proof.
  intros Ho Hd Hi. unfold to_bytes; cbn [bc_prefix bc_rex bc_opcode bc_modrm bc_sib bc_disp bc_imm].
  rewrite !app_length, !olen_olist, !bam_ref_length by assumption. intros H.
  unfold bam_with_len, rassert, bind. destruct (Nat.leb_spec
    (olen p + olen x + bam_len o + olen m + olen s + bam_len d + bam_len i)%nat 15); [lia|reflexivity].
Qed.

Lemma encode_plain_panic p w b opc o imm im :
  is_bam opc o -> is_bam imm im ->
  ~ ((length im = 8%nat -> w = true) /\ (length (olist p ++ rexb w false false b ++ o ++ im) <= 15)%nat) ->
  encode {| en_prefix := p; en_rex_w := w; en_rex_b := b; en_opcode := opc;
                    en_modrm := None; en_imm := imm |} = Panic.
Proof.
  intros (ob & -> & Ho & <-) (ib & -> & Hi & <-) N.
  unfold encode; cbn [en_opcode en_imm en_modrm en_rex_w en_rex_b en_prefix bind].
  destruct (bam_with_len_0 4) as (nd & -> & Hnd & Hnd'). cbn [bind].
  rewrite bam_ref_length in N by assumption.
  destruct (Nat.eqb (bam_len ib) 8 && negb w) eqn:E8; [reflexivity|].
  cbn [negb rassert bind bc_prefix bc_rex bc_opcode bc_modrm bc_sib bc_disp bc_imm].
  apply to_bytes_long; auto. rewrite Hnd'. cbn [olist app].
  match goal with |- context [olist p ++ olist ?X ++ _] =>
    assert (rexb w false false b = olist X) as R by (destruct w, b; reflexivity) end.
  rewrite <- R.
  destruct (Nat.leb_spec (length (olist p ++ rexb w false false b ++ bam_ref ob ++ bam_ref ib)) 15); [|lia].
  exfalso. apply N. split; [|lia]. intro. destruct w; [reflexivity|]. lia.
Qed.

Lemma encode_reg_panic p w b opc o imm im r rm :
  is_bam opc o -> is_bam imm im -> 7 < rl_reg r ->
  encode {| en_prefix := p; en_rex_w := w; en_rex_b := b; en_opcode := opc;
            en_modrm := Some (r, rm); en_imm := imm |} = Panic.
Proof.
  intros (ob & -> & Ho & <-) (ib & -> & Hi & <-) H.
  unfold encode; cbn [en_opcode en_imm en_modrm en_rex_w en_rex_b en_prefix bind].
  destruct (bam_with_len_0 4) as (nd & -> & Hnd & Hnd'). cbn [bind].
  unfold modrm_set_reg, rassert. destruct (Z.leb_spec (rl_reg r) 7); [lia|reflexivity].
Qed.

Lemma encode_modrm_panic p w b opc o imm im r rm sib d :
  is_bam opc o -> is_bam imm im ->
  0 <= rl_reg r <= 7 -> 0 <= rm_mode rm <= 3 -> 0 <= rm_rm rm <= 7 ->
  rm_sib rm = Ok sib -> is_bam (rm_disp rm) d ->
  let l := olist p ++ rexb w (rl_rex_r r) (rm_rex_x rm) (b || rm_rex_b rm) ++ o
           ++ [64 * rm_mode rm + 8 * rl_reg r + rm_rm rm] ++ olist sib ++ d ++ im in
  ~ ((length im = 8%nat -> w = true) /\ (length l <= 15)%nat) ->
  encode {| en_prefix := p; en_rex_w := w; en_rex_b := b; en_opcode := opc;
                    en_modrm := Some (r, rm); en_imm := imm |} = Panic.
Proof.
  intros (ob & -> & Ho & <-) (ib & -> & Hi & <-) Hr Hm Hrm Hs (db & Hd & Hdw & <-) l.
  unfold encode; cbn [en_opcode en_imm en_modrm en_rex_w en_rex_b en_prefix bind].
  destruct (bam_with_len_0 4) as (nd & -> & Hnd & Hnd'). cbn [bind].
  pose proof (modrm_ok _ _ _ Hm Hr Hrm) as M.
  destruct (modrm_set_reg modrm_new (rl_reg r)) as [m1|] eqn:E1; [|discriminate].
  cbn [bind] in *. destruct (modrm_set_mode m1 (rm_mode rm)) as [m2|] eqn:E2; [|discriminate].
  cbn [bind] in *. rewrite M. cbn [bind]. rewrite Hs, Hd. cbn [bind].
  rewrite (bam_ref_length ib) by assumption.
  destruct (Nat.eqb (bam_len ib) 8 && negb w) eqn:E8; [reflexivity|].
  cbn [negb rassert bind bc_prefix bc_rex bc_opcode bc_modrm bc_sib bc_disp bc_imm].
  intro N.
  match goal with |- to_bytes {| bc_prefix := _; bc_rex := ?X; bc_opcode := _;
       bc_modrm := _; bc_sib := _; bc_disp := _; bc_imm := _ |} = _ => set (rx := X) end.
  assert (rexb w (rl_rex_r r) (rm_rex_x rm) (b || rm_rex_b rm) = olist rx) as R
    by (subst rx; destruct w, b, (rl_rex_r r), (rm_rex_x rm), (rm_rex_b rm); reflexivity).
  apply to_bytes_long; auto. subst l. rewrite R in N. cbn [olist].
  match goal with |- (15 < ?n)%nat => destruct (Nat.leb_spec n 15) as [L|L]; [|exact L] end.
  exfalso. apply N. split; [|exact L]. intro. destruct w; [reflexivity|]. lia.
Qed.

(** ** The operands *)

Definition sib_list (m : mem64) : list Z :=
  match m with
  | RegOffset r _ => if is_rsp_r12 r then [0x24] else []
  | RipOffset _ => []
  | MSib None _ i s => [64 * s + 8 * code64 i + 5]
  | MSib (Some b) _ i s => [64 * s + 8 * code64 i + code64 b]
  end.
Definition disp_list (m : mem64) : list Z :=
  match m with
  | RegOffset r d =>
      if d =? 0 then if is_rbp_r13 r then [0] else []
      else if d <=? 256 then [d mod 256] else le_bytes 4 d
  | RipOffset d => le_bytes 4 d
  | MSib None d _ _ => le_bytes 4 d
  | MSib (Some b) d _ _ =>
      if d =? 0 then if is_rbp_r13 b then [0] else []
      else if d <=? 256 then [d mod 256] else le_bytes 4 d
  end.
Definition rm_ok (m : rmarg) : Prop := match m with ArgMem m => mem_ok m | _ => True end.
Definition rm_scale (m : rmarg) : Prop := match m with ArgMem m => mem_scale_ok m | _ => True end.
Definition rm_tail (r : Z) (m : rmarg) : list Z :=
  match m with
  | ArgReg64 x => [192 + 8 * r + code64 x]
  | ArgReg32 x => [192 + 8 * r + code32 x]
  | ArgReg16 x => [192 + 8 * r + code16 x]
  | ArgMem m => mem_bytes m r
  end.

Lemma rm_parts m : rm_ok m -> rm_scale m ->
  0 <= rm_mode (rm_like m) <= 3 /\ 0 <= rm_rm (rm_like m) <= 7 /\
  exists sib d, rm_sib (rm_like m) = Ok sib /\ is_bam (rm_disp (rm_like m)) d /\
    forall r, [64 * rm_mode (rm_like m) + 8 * r + rm_rm (rm_like m)] ++ olist sib ++ d = rm_tail r m.
Proof.
  intros Hok Hs. destruct m as [r|r|r|m]; cbn [rm_like rm_ok rm_scale rm_tail] in *.
  1-3: cbn [rm64 rm32 rm16 rm_reg rm_mode rm_rm rm_sib rm_disp];
       (split; [lia|split]); [apply code64_range || apply code32_range || apply code16_range|];
       exists None, []; (split; [reflexivity|split; [apply bam_with_len_0|reflexivity]]).
  cbn [rm_mem rm_mode rm_rm rm_sib rm_disp].
  pose proof (mem_mode_range m). split; [lia|]. split; [apply mem_rm_range|].
  destruct (mem_sib_part m Hok Hs) as (o & Eo & Lo). destruct (mem_disp_part m Hok) as (d & Bd & _ & Ed).
  exists o, d. split; [exact Eo|split; [exact Bd|]]. intro r. unfold mem_bytes. now rewrite Lo, Ed.
Qed.

Lemma rsp_hw r : is_rsp_r12 r = (hw64 r mod 8 =? 4).
Proof. now destruct r. Qed.
Lemma rbp_hw r : is_rbp_r13 r = (hw64 r mod 8 =? 5).
Proof. now destruct r. Qed.

Lemma rm_tail_len r m : length (rm_tail r m) = rm_len m.
Proof.
  assert (D : forall (b : reg64) (d : Z), length (if d =? 0 then if is_rbp_r13 b then [0] else []
      else if d <=? 256 then [d mod 256] else le_bytes 4 d) = disp_len b d).
  { intros b d. unfold disp_len. rewrite rbp_hw. destruct (d =? 0); [now destruct (hw64 b mod 8 =? 5)|].
    destruct (d <=? 256); [reflexivity|apply le_bytes_length]. }
  destruct m as [x|x|x|[x d|d|[b|] d i s]]; cbn [rm_tail rm_len]; try reflexivity.
  unfold mem_bytes. rewrite !app_length, D, rsp_hw. destruct (hw64 x mod 8 =? 4); reflexivity.
  unfold mem_bytes. rewrite !app_length, D. reflexivity.
Qed.

Lemma hw_b2z r : b2z (ext64 r) = hw64 r / 8.
Proof. now destruct r. Qed.
Lemma hw32_b2z r : b2z (ext32 r) = hw32 r / 8.
Proof. now destruct r. Qed.
Lemma hw16_b2z r : b2z (ext16 r) = hw16 r / 8.
Proof. now destruct r. Qed.

Lemma rm_b m : b2z (rm_rex_b (rm_like m)) = b_num m / 8.
Proof.
  destruct m as [x|x|x|[x d|d|[b|] d i s]]; cbn [rm_like rm_mem rm64 rm32 rm16 rm_reg rm_rex_b mem_rex_b b_num];
    try reflexivity; try apply hw_b2z; try apply hw32_b2z; apply hw16_b2z.
Qed.
Lemma rm_x m : b2z (rm_rex_x (rm_like m)) = x_num m / 8.
Proof.
  destruct m as [x|x|x|[x d|d|[b|] d i s]]; cbn [rm_like rm_mem rm64 rm32 rm16 rm_reg rm_rex_x mem_rex_x x_num];
    try reflexivity; apply hw_b2z.
Qed.
Lemma b_num_range m : 0 <= b_num m < 16.
Proof. destruct m as [x|x|x|[x d|d|[b|] d i s]]; cbn [b_num]; try lia; try (destruct x; cbn; lia). destruct b; cbn; lia. Qed.
Lemma rm_b_flag m : rm_rex_b (rm_like m) = (8 <=? b_num m).
Proof. pose proof (rm_b m). pose proof (b_num_range m). destruct (rm_rex_b (rm_like m)); cbn [b2z] in *; lia. Qed.

Definition ext_ok (r : regop) : Prop := match r with OpExt n => inu 8 n /\ n <= 7 | _ => True end.
Lemma reg_range r : ext_ok r -> 0 <= rl_reg (reg_like r) <= 7.
Proof.
  destruct r as [x|x|x|n]; cbn; intro H; [apply code64_range|apply code32_range|apply code16_range|unfold inu in H; lia].
Qed.
Lemma rl_bits r : ext_ok r -> rl_reg (reg_like r) + 8 * b2z (rl_rex_r (reg_like r)) = reg_num r
  /\ b2z (rl_rex_r (reg_like r)) = reg_num r / 8.
Proof.
  destruct r as [x|x|x|n]; cbn [reg_like rl64 rl32 rl16 rl_u8 rl_reg rl_rex_r reg_num ext_ok]; intro H.
  - now destruct x.
  - now destruct x.
  - now destruct x.
  - unfold inu in H. cbn [b2z]. split; lia.
Qed.

Lemma rm_tail_dec w r m rest :
  ext_ok r -> rm_ok m -> rm_scale m ->
  dec_modrm {| rw := w; rr := reg_num r / 8; rx := x_num m / 8; rb := b_num m / 8 |}
            (rm_tail (rl_reg (reg_like r)) m ++ rest) = Some (reg_num r, rm_seen m, rest).
Proof.
  intros Hr Hok Hs. pose proof (reg_range r Hr) as R. destruct (rl_bits r Hr) as [E1 E2].
  rewrite <- E2, <- E1, <- rm_x, <- rm_b.
  assert (W : forall l, dec_modrm {| rw := w; rr := b2z (rl_rex_r (reg_like r)); rx := b2z (rm_rex_x (rm_like m));
             rb := b2z (rm_rex_b (rm_like m)) |} l
          = dec_modrm (mkrex true (rl_rex_r (reg_like r)) (rm_rex_x (rm_like m)) (rm_rex_b (rm_like m))) l)
    by (intro l; reflexivity).
  rewrite W. clear W.
  destruct m as [x|x|x|m]; cbn [rm_like rm_mem rm64 rm32 rm16 rm_reg rm_rex_x rm_rex_b rm_tail rm_seen app].
  - rewrite dec_modrm_reg by (auto; apply code64_range). now rewrite hw64_code.
  - rewrite dec_modrm_reg by (auto; apply code32_range). now rewrite hw32_code.
  - rewrite dec_modrm_reg by (auto; apply code16_range). now rewrite hw16_code.
  - now rewrite dec_modrm_mem by auto.
Qed.

Lemma rexb_bytes w r x b :
  rexb w r x b = rex_bytes {| rw := bit w; rr := b2z r; rx := b2z x; rb := bit b |}.
Proof. destruct w, r, x, b; reflexivity. Qed.

(** ** The builder *)

Definition modrm_wf (o : option (regop * rmarg)) : Prop :=
  match o with
  | Some (r, m) => match r with OpExt n => inu 8 n | _ => True end /\ rm_ok m
  | None => True
  end.
Lemma rng_modrm cs : Forall call_rng cs -> modrm_wf (the_modrm cs).
Proof.
  unfold the_modrm. induction 1 as [|c cs H _ IH]; cbn [last_call]; [exact I|].
  destruct (last_call _ cs) as [[r m]|]; [exact IH|]. destruct c; exact I || exact H.
Qed.
Lemma rng_imm cs : Forall call_rng cs -> call_rng (SetImm (the_imm cs)).
Proof.
  unfold the_imm. induction 1 as [|c cs H _ IH]; cbn [last_call]; [constructor|].
  destruct (last_call _ cs) as [i|]; [exact IH|]. destruct c; try exact (Forall_nil _). exact H.
Qed.
Lemma rng_opcode cs : Forall call_rng cs -> call_rng (SetImm (the_opcode cs)).
Proof.
  unfold the_opcode. induction 1 as [|c cs H _ IH]; cbn [last_call]; [constructor|].
  destruct (last_call _ cs) as [i|]; [exact IH|]. destruct c; try exact (Forall_nil _). exact H.
Qed.
Lemma rng_prefix cs : Forall call_rng cs -> bytes_ok (olist (the_prefix cs)).
Proof.
  unfold the_prefix. induction 1 as [|c cs H _ IH]; cbn [last_call]; [constructor|].
  destruct (last_call _ cs) as [i|]; [exact IH|]. destruct c; try constructor; [exact H|constructor].
Qed.

Lemma fits_all cs : Forall fits cs <->
  (forall i, In (SetOpcode i) cs -> (imm_len i <= 3)%nat) /\
  (forall i, In (SetImm i) cs -> (imm_len i <= 8)%nat).
Proof.
  rewrite Forall_forall. split.
  - intro H. split; intros l I; exact (H _ I).
  - intros [H1 H2] c I. destruct c as [| | |i| |i]; cbn [fits]; auto.
Qed.

Definition tail_of (cs : list call) : list Z :=
  match the_modrm cs with Some (r, m) => rm_tail (rl_reg (reg_like r)) m | None => [] end.
Definition modrm_fine (cs : list call) : Prop :=
  forall r m, the_modrm cs = Some (r, m) -> match r with OpExt n => n <= 7 | _ => True end /\ rm_scale m.
Definition all_bytes (cs : list call) : list Z :=
  olist (the_prefix cs) ++ rex_bytes (the_rex cs) ++ imm_list (the_opcode cs) ++ tail_of cs ++ imm_list (the_imm cs).

Lemma all_bytes_len cs : length (all_bytes cs) = built_len cs.
Proof.
  unfold all_bytes, built_len, tail_of. rewrite !app_length, !imm_list_len.
  assert (length (olist (the_prefix cs)) = match the_prefix cs with Some _ => 1 | None => 0 end)%nat as ->
    by (now destruct (the_prefix cs)).
  destruct (the_modrm cs) as [[r m]|]; [rewrite rm_tail_len|cbn [length]]; lia.
Qed.

(** the state reached *)
Definition final (cs : list call) (e : encoder) : Prop :=
  exists opc imm, is_bam opc (imm_list (the_opcode cs)) /\ is_bam imm (imm_list (the_imm cs)) /\
  e = {| en_prefix := the_prefix cs; en_rex_w := w_flag cs; en_rex_b := b_flag cs; en_opcode := opc;
         en_modrm := match the_modrm cs with Some (r, m) => Some (reg_like r, rm_like m) | None => None end;
         en_imm := imm |}.
Lemma calls_final cs : Forall fits cs -> exists e, calls_on enc_new cs = Ok e /\ final cs e.
Proof.
  intro F. destruct (calls_on_ok cs _ _ enc_new_is F) as (e & E & Q). exists e. split; [exact E|].
  rewrite run_st_last in Q. destruct Q as (Q1 & Q2 & Q3 & Q4 & Q5 & Q6).
  cbn [s_p s_w s_b s_o s_m s_i] in *. destruct e as [p w b o m i].
  cbn [en_prefix en_rex_w en_rex_b en_opcode en_modrm en_imm] in *. subst. exists o, i. auto.
Qed.

Lemma tail_bytes cs : Forall call_rng cs -> modrm_fine cs ->
  forall r m, the_modrm cs = Some (r, m) -> ext_ok r /\ rm_ok m /\ rm_scale m.
Proof.
  intros H F r m E. pose proof (rng_modrm cs H) as W. destruct (F _ _ E) as [F1 F2].
  rewrite E in W. destruct W as [W1 W2]. repeat split; auto. destruct r; cbn; auto.
Qed.

Lemma rexb_the cs r m : the_modrm cs = Some (r, m) -> ext_ok r ->
  rexb (w_flag cs) (rl_rex_r (reg_like r)) (rm_rex_x (rm_like m)) (b_flag cs || rm_rex_b (rm_like m))
  = rex_bytes (the_rex cs).
Proof.
  intros E Hr. rewrite rexb_bytes. unfold the_rex. rewrite E, rm_b_flag, rm_x.
  destruct (rl_bits r Hr) as [_ ->]. reflexivity.
Qed.

Lemma build_ok cs : Forall call_rng cs -> Forall fits cs -> modrm_fine cs ->
  (imm_len (the_imm cs) = 8%nat -> w_flag cs = true) -> (built_len cs <= 15)%nat ->
  is_bam (built cs) (all_bytes cs).
Proof.
  intros H F M H8 L. unfold built. destruct (calls_final cs F) as (e & -> & opc & imm & Bo & Bi & ->).
  cbn [bind]. rewrite <- all_bytes_len in L. rewrite <- imm_list_len in H8.
  unfold all_bytes, tail_of in *. destruct (the_modrm cs) as [[r m]|] eqn:E.
  - destruct (tail_bytes cs H M _ _ E) as (Hr & Hok & Hs).
    destruct (rm_parts m Hok Hs) as (R1 & R2 & sib & d & R3 & R4 & R5).
    rewrite <- (R5 (rl_reg (reg_like r))), <- (rexb_the cs r m E Hr), <- !app_assoc in L |- *.
    apply encode_modrm; auto. now apply reg_range.
  - replace (rex_bytes (the_rex cs)) with (rexb (w_flag cs) false false (b_flag cs)) in L |- *.
    + cbn [app] in *. now apply encode_plain.
    + rewrite rexb_bytes. unfold the_rex. rewrite E, Bool.orb_false_r. reflexivity.
Qed.

Lemma build_panic cs : Forall call_rng cs -> Forall fits cs ->
  ~ (modrm_fine cs /\ (imm_len (the_imm cs) = 8%nat -> w_flag cs = true) /\ (built_len cs <= 15)%nat) ->
  built cs = Panic.
Proof.
  intros H F N. unfold built. destruct (calls_final cs F) as (e & -> & opc & imm & Bo & Bi & ->).
  cbn [bind]. rewrite <- all_bytes_len, <- imm_list_len in N.
  unfold all_bytes, tail_of in *. destruct (the_modrm cs) as [[r m]|] eqn:E.
  - pose proof (rng_modrm cs H) as W. rewrite E in W. destruct W as [W1 Hok].
    assert (X : (exists n, r = OpExt n /\ 7 < n) \/ ext_ok r).
    { destruct r as [x|x|x|n]; cbn; auto. destruct (Z.leb_spec n 7); [right; auto|left; eauto]. }
    destruct X as [(n & -> & Hn)|Hr]; [now apply (encode_reg_panic _ _ _ _ _ _ _ _ _ Bo Bi)|].
    assert (X : rm_scale m \/ ~ rm_scale m).
    { destruct m as [x|x|x|[x d|d|[b|] d i s]]; cbn; auto; lia. }
    destruct X as [Hs|Hs].
    + destruct (rm_parts m Hok Hs) as (R1 & R2 & sib & d & R3 & R4 & R5).
      rewrite <- (R5 (rl_reg (reg_like r))), <- (rexb_the cs r m E Hr), <- !app_assoc in N.
      apply (encode_modrm_panic _ _ _ _ _ _ _ _ _ _ _ Bo Bi (reg_range r Hr) R1 R2 R3 R4).
      cbn zeta. intros [N1 N2]. apply N. split; [|split; assumption].
      intros r' m' E'. rewrite E in E'. injection E' as <- <-. split; [|exact Hs].
      destruct r; cbn in Hr |- *; auto. tauto.
    + apply (encode_modrm_sib_panic _ _ _ _ _ _ _ _ _ Bo Bi).
      destruct m as [x|x|x|[x d|d|b d i s]]; try (exfalso; apply Hs; exact I).
      cbn [rm_scale mem_scale_ok] in Hs. cbn [rm_like rm_mem rm_sib mem_sib_byte].
      destruct b; rewrite sib_panic by lia; reflexivity.
  - apply (encode_plain_panic _ _ _ _ _ _ _ Bo Bi). intros [N1 N2]. apply N.
    split; [intros r m E'; congruence|]. split; [exact N1|].
    cbn [app] in *. replace (rex_bytes (the_rex cs)) with (rexb (w_flag cs) false false (b_flag cs)); [exact N2|].
    rewrite rexb_bytes. unfold the_rex. rewrite E, Bool.orb_false_r. reflexivity.
Qed.

Lemma enc_split cs : encodable cs <-> Forall fits cs /\ modrm_fine cs /\
  (imm_len (the_imm cs) = 8%nat -> w_flag cs = true) /\ (built_len cs <= 15)%nat.
Proof. unfold encodable. rewrite fits_all. unfold modrm_fine, rm_scale. tauto. Qed.

Lemma rm_tail_ok r m : 0 <= r <= 7 -> rm_ok m -> rm_scale m -> bytes_ok (rm_tail r m).
Proof.
  intros Hr Hok Hs. destruct m as [x|x|x|m]; cbn [rm_tail].
  - pose proof (code64_range x). apply Forall_cons; [unfold isbyte; lia|constructor].
  - pose proof (code32_range x). apply Forall_cons; [unfold isbyte; lia|constructor].
  - pose proof (code16_range x). apply Forall_cons; [unfold isbyte; lia|constructor].
  - now apply mem_bytes_ok.
Qed.

Lemma all_bytes_ok cs : Forall call_rng cs -> modrm_fine cs -> bytes_ok (all_bytes cs).
Proof.
  intros H M. unfold all_bytes, bytes_ok. rewrite !Forall_app. split; [now apply rng_prefix|].
  split; [|split; [now apply imm_list_is, rng_opcode|split; [|now apply imm_list_is, rng_imm]]].
  - destruct (the_modrm cs) as [[r m]|] eqn:E.
    + destruct (tail_bytes cs H M _ _ E) as (Hr & _). rewrite <- (rexb_the cs r m E Hr). apply rexb_ok.
    + unfold the_rex. rewrite E, Bool.orb_false_r.
      exact (eq_ind _ bytes_ok (rexb_ok (w_flag cs) false false (b_flag cs)) _ (rexb_bytes _ false false _)).
  - unfold tail_of. destruct (the_modrm cs) as [[r m]|] eqn:E; [|constructor].
    destruct (tail_bytes cs H M _ _ E) as (Hr & Hok & Hs). apply rm_tail_ok; auto. now apply reg_range.
Qed.

Lemma top_C77_build cs : Forall call_rng cs -> encodable cs ->
  exists b opc tail imm,
    built cs = Ok b /\
    bam_ref b = match the_prefix cs with Some p => [p] | None => [] end
                ++ rex_bytes (the_rex cs) ++ opc ++ tail ++ imm /\
    bytes_ok (bam_ref b) /\ length (bam_ref b) = built_len cs /\
    imm_is (the_opcode cs) opc /\ imm_is (the_imm cs) imm /\
    match the_modrm cs with
    | None => tail = []
    | Some (r, m) => length tail = rm_len m /\
        forall rest, dec_modrm (operand_rex cs m) (tail ++ rest) = Some (reg_num r, rm_seen m, rest)
    end.
Proof.
  intros H E. apply enc_split in E. destruct E as (F & M & H8 & L).
  destruct (build_ok cs H F M H8 L) as (b & Eb & Wb & Rb). exists b, (imm_list (the_opcode cs)), (tail_of cs), (imm_list (the_imm cs)).
  rewrite Rb. split; [exact Eb|]. split; [unfold all_bytes; now destruct (the_prefix cs)|].
  split; [now apply all_bytes_ok|]. split; [apply all_bytes_len|].
  split; [now apply imm_list_is, rng_opcode|]. split; [now apply imm_list_is, rng_imm|].
  unfold tail_of, operand_rex, the_rex. destruct (the_modrm cs) as [[r m]|] eqn:Em; [|reflexivity].
  split; [apply rm_tail_len|]. intro rest. destruct (tail_bytes cs H M _ _ Em) as (Hr & Hok & Hs).
  cbn [rw rr rx]. now apply rm_tail_dec.
Qed.

Lemma top_C77_panics cs : Forall call_rng cs -> (built cs = Panic <-> ~ encodable cs).
Proof.
  intros H. split.
  - intros E X. destruct (top_C77_build cs H X) as (b & _ & _ & _ & Eb & _). congruence.
  - intro N. rewrite enc_split in N. assert (D : Forall fits cs \/ ~ Forall fits cs).
    { clear. induction cs as [|c cs [IH|IH]].
      - left; constructor.
      - destruct (fits_dec c); [left; now constructor|right; intro X; inversion X; auto].
      - right; intro X; inversion X; auto. }
    destruct D as [F|F].
    + apply build_panic; auto; tauto.
    + unfold built. now rewrite (calls_on_bad cs _ _ enc_new_is F).
Qed.

(** ** Setters *)

Definition all8 : list Z := map Z.of_nat (seq 0 256).
Lemma in_all8 x : inu 8 x -> In x all8.
Proof.
  unfold inu. change (2 ^ 8) with 256. intro H. unfold all8. apply in_map_iff. exists (Z.to_nat x).
  split; [lia|]. apply in_seq. lia.
Qed.
Definition bit_setb (k : Z) (v : bool) (x y : Z) : bool :=
  (0 <=? y) && (y <? 256) &&
  forallb (fun i => Bool.eqb (Z.testbit y i) (if i =? k then v else Z.testbit x i)) [0; 1; 2; 3; 4; 5; 6; 7].
Lemma bit_setb_ok k v x y : bit_setb k v x y = true -> bit_set k v x y.
Proof.
  unfold bit_setb, bit_set, inu. change (2 ^ 8) with 256. rewrite !andb_true_iff. intros [[H1 H2] H].
  split; [lia|]. intros i Hi. rewrite forallb_forall in H. apply Bool.eqb_prop. apply H.
  assert (i = 0 \/ i = 1 \/ i = 2 \/ i = 3 \/ i = 4 \/ i = 5 \/ i = 6 \/ i = 7) as D by lia.
  destruct D as [->|[->|[->|[->|[->|[->|[->| ->]]]]]]]; cbn; tauto.
Qed.

Lemma top_C78_rex x v : inu 8 x ->
  bit_set 3 v x (rex_set_w x v) /\ bit_set 2 v x (rex_set_r x v) /\
  bit_set 1 v x (rex_set_x x v) /\ bit_set 0 v x (rex_set_b x v).
Proof.
  intro H. apply in_all8 in H.
  assert (A : forallb (fun x => forallb (fun v =>
      bit_setb 3 v x (rex_set_w x v) && bit_setb 2 v x (rex_set_r x v) &&
      bit_setb 1 v x (rex_set_x x v) && bit_setb 0 v x (rex_set_b x v)) [true; false]) all8 = true)
    by (vm_compute; reflexivity).
  rewrite forallb_forall in A. specialize (A x H). rewrite forallb_forall in A.
  assert (B : In v [true; false]) by (destruct v; cbn; auto). specialize (A v B).
  rewrite !andb_true_iff in A. destruct A as [[[A1 A2] A3] A4].
  split; [|split; [|split]]; now apply bit_setb_ok.
Qed.

Lemma top_C78_modrm mode r rm mode' r' rm' :
  0 <= mode <= 3 -> 0 <= r <= 7 -> 0 <= rm <= 7 ->
  (0 <= mode' -> modrm_set_mode (modrm_byte mode r rm) mode' = if mode' <=? 3 then Ok (modrm_byte mode' r rm) else Panic) /\
  (0 <= r' -> modrm_set_reg (modrm_byte mode r rm) r' = if r' <=? 7 then Ok (modrm_byte mode r' rm) else Panic) /\
  (0 <= rm' -> modrm_set_rm (modrm_byte mode r rm) rm' = if rm' <=? 7 then Ok (modrm_byte mode r rm') else Panic).
Proof.
  intros Hm Hr Hrm. unfold modrm_set_mode, modrm_set_reg, modrm_set_rm, rassert, modrm_byte, wrapu.
  assert (L1 : Z.land (64 * mode + 8 * r + rm) 0x3F = 8 * r + rm).
  { change 0x3F with (Z.ones 6). rewrite Z.land_ones by lia. change (2 ^ 6) with 64. lia. }
  assert (L2 : Z.land (64 * mode + 8 * r + rm) 0xC7 = 64 * mode + rm).
  { assert (mode = 0 \/ mode = 1 \/ mode = 2 \/ mode = 3) as M by lia.
    assert (r = 0 \/ r = 1 \/ r = 2 \/ r = 3 \/ r = 4 \/ r = 5 \/ r = 6 \/ r = 7) as R by lia.
    assert (rm = 0 \/ rm = 1 \/ rm = 2 \/ rm = 3 \/ rm = 4 \/ rm = 5 \/ rm = 6 \/ rm = 7) as RM by lia.
    destruct M as [->|[->|[->| ->]]];
    destruct R as [->|[->|[->|[->|[->|[->|[->| ->]]]]]]];
    destruct RM as [->|[->|[->|[->|[->|[->|[->| ->]]]]]]]; reflexivity. }
  assert (L3 : Z.land (64 * mode + 8 * r + rm) 0xF8 = 64 * mode + 8 * r).
  { assert (mode = 0 \/ mode = 1 \/ mode = 2 \/ mode = 3) as M by lia.
    assert (r = 0 \/ r = 1 \/ r = 2 \/ r = 3 \/ r = 4 \/ r = 5 \/ r = 6 \/ r = 7) as R by lia.
    assert (rm = 0 \/ rm = 1 \/ rm = 2 \/ rm = 3 \/ rm = 4 \/ rm = 5 \/ rm = 6 \/ rm = 7) as RM by lia.
    destruct M as [->|[->|[->| ->]]];
    destruct R as [->|[->|[->|[->|[->|[->|[->| ->]]]]]]];
    destruct RM as [->|[->|[->|[->|[->|[->|[->| ->]]]]]]]; reflexivity. }
  rewrite L1, L2, L3, !Z.shiftl_mul_pow2 by lia. change (2 ^ 6) with 64. change (2 ^ 3) with 8. change (2 ^ 8) with 256.
  repeat split; intro; match goal with |- context [?a <=? ?b] => destruct (Z.leb_spec a b) end;
    cbn [bind]; try reflexivity; f_equal; lia.
Qed.

Lemma top_C78_sib s i b : 0 <= s -> 0 <= i -> 0 <= b ->
  sib_new s i b = if (s <=? 3) && (i <=? 7) && (b <=? 7) then Ok (64 * s + 8 * i + b) else Panic.
Proof.
  intros. destruct (Z.leb_spec s 3), (Z.leb_spec i 7), (Z.leb_spec b 7); cbn [andb];
    try (apply sib_ok; lia); unfold sib_new, rassert.
  all: destruct (Z.leb_spec s 3), (Z.leb_spec i 7), (Z.leb_spec b 7); try lia; reflexivity.
Qed.

Lemma top_C78_regs a b rest :
  dec_modrm {| rw := 1; rr := bit (rex_r_bit a); rx := 0; rb := bit (rex_b_bit b) |}
            (modrm_byte (mode_bits b) (reg_bits a) (rm_bits b) :: rest)
  = Some (hw64 a, RmReg (hw64 b), rest).
Proof. destruct a, b; reflexivity. Qed.
