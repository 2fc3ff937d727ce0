(** The encoder against the independent decoder and machine. *)
From Coq Require Import ZifyBool ZifyNat.
From Verif Require Import Base X64 SpecX86 PfX64.

Ltac Zify.zify_post_hook ::= Z.div_mod_to_equations.

(** ** Decoding *)

Lemma pow256 n : 2 ^ (8 * Z.of_nat (S n)) = 256 * 2 ^ (8 * Z.of_nat n).
Proof.
  replace (8 * Z.of_nat (S n)) with (8 + 8 * Z.of_nat n) by lia.
  rewrite Z.pow_add_r by lia. reflexivity.
Qed.

Lemma lev_le_bytes n x : lev (le_bytes n x) = x mod 2 ^ (8 * Z.of_nat n).
Proof.
  revert x; induction n as [|n IH]; intros x.
  - cbn. now rewrite Z.mod_1_r.
  - cbn [le_bytes lev]. rewrite IH, pow256.
    rewrite Z.rem_mul_r by (try lia; apply Z.pow_pos_nonneg; lia). reflexivity.
Qed.

Lemma lev_le_bytes_id n x : inu (8 * Z.of_nat n) x -> lev (le_bytes n x) = x.
Proof. intros H. rewrite lev_le_bytes. now apply Z.mod_small. Qed.

Lemma take_app n l r : length l = n -> take n (l ++ r) = Some (l, r).
Proof.
  intros <-. unfold take. destruct (Nat.ltb_spec (length (l ++ r)) (length l)) as [H|H].
  - rewrite app_length in H. lia.
  - rewrite firstn_app, skipn_app, Nat.sub_diag, firstn_all, skipn_all. cbn. now rewrite app_nil_r.
Qed.

Lemma dec_imm_le n x r : inu (8 * Z.of_nat n) x -> dec_imm n (le_bytes n x ++ r) = Some (x, r).
Proof.
  intros H. unfold dec_imm. rewrite take_app by apply le_bytes_length. cbn [obind].
  now rewrite lev_le_bytes_id.
Qed.

Lemma dec_disp4 d r : inu 32 d -> dec_disp 4 (le_bytes 4 d ++ r) = Some (sext 32 d, r).
Proof.
  intros H. unfold dec_disp. rewrite take_app by apply le_bytes_length. cbn [obind].
  rewrite lev_le_bytes_id by exact H. reflexivity.
Qed.

Lemma dec_disp1 d r : dec_disp 1 ([d] ++ r) = Some (sext 8 d, r).
Proof.
  unfold dec_disp. rewrite take_app by reflexivity. cbn [obind lev].
  replace (d + 256 * 0) with d by lia. reflexivity.
Qed.

Definition mkrex (w r x b : bool) : rex :=
  {| rw := b2z w; rr := b2z r; rx := b2z x; rb := b2z b |}.

Lemma dec_rex_rexb w r x b o l :
  o / 16 <> 4 -> dec_rex (rexb w r x b ++ o :: l) = (mkrex w r x b, o :: l).
Proof.
  intros H. unfold dec_rex, rexb.
  destruct w, r, x, b; cbn [orb app b2z]; try reflexivity.
  destruct (o / 16 =? 4) eqn:E; [lia|reflexivity].
Qed.

Lemma decode_nopfx w r x b o l :
  o / 16 <> 4 -> o <> 0x66 ->
  decode (rexb w r x b ++ o :: l) = dec_op false (mkrex w r x b) (o :: l).
Proof.
  intros H H66. unfold decode.
  replace (match rexb w r x b ++ o :: l with
           | b0 :: l' => if b0 =? 102 then (true, l') else (false, rexb w r x b ++ o :: l)
           | [] => (false, rexb w r x b ++ o :: l) end)
    with (false, rexb w r x b ++ o :: l).
  - rewrite dec_rex_rexb by assumption. reflexivity.
  - unfold rexb. destruct w, r, x, b; cbn [orb app b2z]; try reflexivity.
    destruct (o =? 102) eqn:E; [lia|reflexivity].
Qed.

Lemma decode_66 w r x b o l :
  o / 16 <> 4 ->
  decode (0x66 :: rexb w r x b ++ o :: l) = dec_op true (mkrex w r x b) (o :: l).
Proof.
  intros H. unfold decode. cbn [Z.eqb Pos.eqb]. rewrite dec_rex_rexb by assumption. reflexivity.
Qed.

Lemma hw64_code r : hw64 r = code64 r + 8 * b2z (ext64 r).
Proof. destruct r; reflexivity. Qed.
Lemma hw32_code r : hw32 r = code32 r + 8 * b2z (ext32 r).
Proof. destruct r; reflexivity. Qed.
Lemma hw16_code r : hw16 r = code16 r + 8 * b2z (ext16 r).
Proof. destruct r; reflexivity. Qed.

Lemma modrm_fields mode r rm :
  0 <= mode <= 3 -> 0 <= r <= 7 -> 0 <= rm <= 7 ->
  let m := 64 * mode + 8 * r + rm in
  m / 64 = mode /\ (m / 8) mod 8 = r /\ m mod 8 = rm.
Proof. intros H1 H2 H3 m. subst m. lia. Qed.

Lemma dec_modrm_reg w r b reg rm l :
  0 <= reg <= 7 -> 0 <= rm <= 7 ->
  dec_modrm (mkrex w r false b) (192 + 8 * reg + rm :: l)
  = Some (reg + 8 * b2z r, RmReg (rm + 8 * b2z b), l).
Proof.
  intros Hr Hm. unfold dec_modrm. cbn [rr rb mkrex].
  destruct (modrm_fields 3 reg rm ltac:(lia) Hr Hm) as (E1 & E2 & E3).
  change (64 * 3) with 192 in *. rewrite E1, E2, E3. reflexivity.
Qed.

Lemma doc_index_code i s :
  (if code64 i + 8 * b2z (ext64 i) =? 4 then None else Some (code64 i + 8 * b2z (ext64 i), s))
  = doc_index i s.
Proof. destruct i; reflexivity. Qed.

(** based operands: mode, then displacement *)
Lemma based_disp b d l (base : reg64) :
  inu 32 d ->
  b = is_rbp_r13 base ->
  let mode := if d =? 0 then if b then 1 else 0 else if d <=? 256 then 1 else 2 in
  dec_disp (disp_size mode)
    ((if d =? 0 then if b then [0] else [] else if d <=? 256 then [d mod 256] else le_bytes 4 d) ++ l)
  = Some (if d <=? 256 then sext 8 (d mod 256) else sext 32 d, l).
Proof.
  intros Hd _ mode. subst mode. unfold inu in Hd.
  destruct (d =? 0) eqn:E0.
  - assert (d = 0) as -> by lia. destruct b; [apply dec_disp1|reflexivity].
  - destruct (d <=? 256) eqn:E1.
    + apply dec_disp1.
    + apply dec_disp4. exact Hd.
Qed.

Lemma mem_mode_based_reg r d : inu 32 d ->
  mem_mode (RegOffset r d) = if d =? 0 then if is_rbp_r13 r then 1 else 0 else if d <=? 256 then 1 else 2.
Proof.
  intros H. unfold inu in H. cbn [mem_mode]. destruct (d =? 0) eqn:E.
  - destruct (is_rbp_r13 r); reflexivity.
  - rewrite andb_false_r. destruct (1 <=? d) eqn:E1; [|lia]. reflexivity.
Qed.
Lemma mem_mode_based_sib b d i s : inu 32 d ->
  mem_mode (MSib (Some b) d i s) = if d =? 0 then if is_rbp_r13 b then 1 else 0 else if d <=? 256 then 1 else 2.
Proof.
  intros H. unfold inu in H. cbn [mem_mode].
  destruct (0 <=? d) eqn:E0; [|lia]. cbn [andb].
  destruct (d =? 0) eqn:E.
  - assert (d = 0) as -> by lia. destruct (is_rbp_r13 b); reflexivity.
  - destruct (1 <=? d) eqn:E1; [|lia]. destruct (is_rbp_r13 b); destruct (d <=? 256); reflexivity.
Qed.

Lemma dec_modrm_mem w ext reg m l :
  mem_ok m -> mem_scale_ok m -> 0 <= reg <= 7 ->
  dec_modrm (mkrex w ext (mem_rex_x m) (mem_rex_b m)) (mem_bytes m reg ++ l)
  = Some (reg + 8 * b2z ext, RmMem (doc_addr m (cpu_disp m)), l).
Proof.
  intros Hok Hs Hreg.
  unfold mem_bytes, dec_modrm. rewrite <- !app_assoc. cbn [app].
  destruct (modrm_fields (mem_mode m) reg (mem_rm m)
    ltac:(pose proof (mem_mode_range m); lia) Hreg (mem_rm_range m)) as (E1 & E2 & E3).
  rewrite E1, E2, E3. clear E1 E2 E3.
  assert (mem_mode m =? 3 = false) as -> by (pose proof (mem_mode_range m); lia).
  cbn [rr rb rx mkrex].
  destruct m as [r d|d|[b|] d i s]; cbn [mem_ok mem_scale_ok] in *.
  - (* [reg + disp] *)
    pose proof (based_disp (is_rbp_r13 r) d l r Hok eq_refl) as D. cbv zeta in D.
    rewrite <- (mem_mode_based_reg r d Hok) in D.
    cbn [mem_rm mem_rex_b mem_rex_x doc_addr cpu_disp].
    destruct (is_rsp_r12 r) eqn:Er.
    + (* through SIB *)
      assert (code64 r =? 4 = true) as -> by (destruct r; try discriminate; reflexivity).
      cbn [app]. change (36 / 8) with 4. change (4 mod 8) with 4. change (36 mod 8) with 4.
      cbn [b2z Z.mul Z.add Z.eqb Pos.eqb andb]. rewrite D. cbn [obind].
      rewrite hw64_code. replace (code64 r) with 4 by (destruct r; try discriminate; reflexivity). reflexivity.
    + assert (code64 r =? 4 = false) as -> by (destruct r; try discriminate; reflexivity).
      replace ((code64 r =? 5) && (mem_mode (RegOffset r d) =? 0)) with false.
      2:{ rewrite (mem_mode_based_reg r d Hok). destruct r; try reflexivity; cbn;
          destruct (d =? 0); try reflexivity; destruct (d <=? 256); reflexivity. }
      cbn [app]. rewrite D. cbn [obind]. rewrite hw64_code. reflexivity.
  - (* RIP *)
    cbn [mem_rm mem_mode Z.eqb Pos.eqb andb app]. rewrite dec_disp4 by exact Hok. reflexivity.
  - destruct Hok as [Hd Hs8]. unfold inu in Hs8.
    pose proof (based_disp (is_rbp_r13 b) d l b Hd eq_refl) as D. cbv zeta in D.
    rewrite <- (mem_mode_based_sib b d i s Hd) in D.
    cbn [mem_rm mem_rex_b mem_rex_x doc_addr cpu_disp Z.eqb Pos.eqb app].
    destruct (modrm_fields s (code64 i) (code64 b) ltac:(lia) (code64_range i) (code64_range b)) as (E1 & E2 & E3).
    rewrite E1, E2, E3.
    replace ((code64 b =? 5) && (mem_mode (MSib (Some b) d i s) =? 0)) with false.
    2:{ rewrite (mem_mode_based_sib b d i s Hd). destruct b; try reflexivity; cbn;
        destruct (d =? 0); try reflexivity; destruct (d <=? 256); reflexivity. }
    rewrite D. cbn [obind]. rewrite doc_index_code, hw64_code. reflexivity.
  - destruct Hok as [Hd Hs8]. unfold inu in Hs8.
    cbn [mem_rm mem_rex_b mem_rex_x doc_addr cpu_disp Z.eqb Pos.eqb app mem_mode].
    destruct (modrm_fields s (code64 i) 5 ltac:(lia) (code64_range i) ltac:(lia)) as (E1 & E2 & E3).
    rewrite E1, E2, E3. cbn [Z.eqb Pos.eqb andb].
    rewrite dec_disp4 by exact Hd. cbn [obind]. rewrite doc_index_code. reflexivity.
Qed.

Lemma decode_bytes i l :
  instr_ok i -> instr_scale_ok i -> decode (instr_bytes i ++ l) = Some (cpu_op i, l).
Proof.
  intros Hok Hsc.
  assert (forall (f : Z -> Z) c, 0 <= c <= 7 -> c = 0 \/ c = 1 \/ c = 2 \/ c = 3 \/ c = 4 \/ c = 5 \/ c = 6 \/ c = 7) as Z8 by (intros; lia).
  destruct i; cbn [instr_bytes instr_ok] in *; unfold cpu_op, instr_scale_ok in *;
    cbn [instr_mem doc_op_with push_value] in *; rewrite <- ?app_assoc; cbn [app].
  - rewrite decode_nopfx by (try lia; discriminate). unfold dec_op. cbn [Z.eqb Pos.eqb].
    rewrite dec_modrm_mem by (try assumption; apply code64_range). cbn [obind].
    rewrite hw64_code. reflexivity.
  - rewrite decode_66 by discriminate. unfold dec_op. cbn [Z.eqb Pos.eqb].
    rewrite dec_modrm_reg by apply code16_range. cbn [obind]. rewrite !hw16_code. reflexivity.
  - rewrite decode_nopfx by (try lia; discriminate). unfold dec_op. cbn [Z.eqb Pos.eqb].
    rewrite dec_modrm_reg by apply code32_range. cbn [obind]. rewrite !hw32_code. reflexivity.
  - rewrite decode_nopfx by (try lia; discriminate). unfold dec_op. cbn [Z.eqb Pos.eqb].
    rewrite dec_modrm_reg by apply code64_range. cbn [obind]. rewrite !hw64_code. reflexivity.
  - pose proof (code16_range dst) as R. rewrite decode_66 by lia. rewrite hw16_code.
    destruct (Z8 id _ R) as [E|[E|[E|[E|[E|[E|[E|E]]]]]]]; rewrite E; unfold dec_op;
      cbn -[le_bytes dec_imm]; change (Z.to_nat _) with 2%nat; (rewrite dec_imm_le by exact Hok); reflexivity.
  - pose proof (code32_range dst) as R. rewrite decode_nopfx by lia. rewrite hw32_code.
    destruct (Z8 id _ R) as [E|[E|[E|[E|[E|[E|[E|E]]]]]]]; rewrite E; unfold dec_op;
      cbn -[le_bytes dec_imm]; change (Z.to_nat _) with 4%nat; (rewrite dec_imm_le by exact Hok); reflexivity.
  - pose proof (code64_range dst) as R. rewrite decode_nopfx by lia. rewrite hw64_code.
    destruct (Z8 id _ R) as [E|[E|[E|[E|[E|[E|[E|E]]]]]]]; rewrite E; unfold dec_op;
      cbn -[le_bytes dec_imm]; change (Z.to_nat _) with 8%nat; (rewrite dec_imm_le by exact Hok); reflexivity.
  - pose proof (decode_nopfx false false false false 0x6A (imm :: l) ltac:(discriminate) ltac:(discriminate)) as D.
    cbn [rexb orb app] in D. rewrite D. unfold dec_op. cbn -[dec_imm sext].
    unfold dec_imm. cbn [take length Nat.ltb Nat.leb obind firstn skipn lev].
    unfold take; cbn [length Nat.ltb Nat.leb firstn skipn obind lev].
    replace (imm + 256 * 0) with imm by lia. reflexivity.
  - pose proof (decode_66 false false false false 0x68 (le_bytes 2 imm ++ l) ltac:(discriminate)) as D.
    cbn [rexb orb app] in D. rewrite D. unfold dec_op. cbn -[dec_imm sext le_bytes].
    rewrite dec_imm_le by exact Hok. reflexivity.
  - pose proof (decode_nopfx false false false false 0x68 (le_bytes 4 imm ++ l) ltac:(discriminate) ltac:(discriminate)) as D.
    cbn [rexb orb app] in D. rewrite D. unfold dec_op. cbn -[dec_imm sext le_bytes].
    rewrite dec_imm_le by exact Hok. reflexivity.
  - pose proof (code16_range r) as R. rewrite decode_66 by lia. rewrite hw16_code.
    destruct (Z8 id _ R) as [E|[E|[E|[E|[E|[E|[E|E]]]]]]]; rewrite E; reflexivity.
  - pose proof (code64_range r) as R. rewrite decode_nopfx by lia. rewrite hw64_code.
    destruct (Z8 id _ R) as [E|[E|[E|[E|[E|[E|[E|E]]]]]]]; rewrite E; reflexivity.
  - pose proof (code16_range r) as R. rewrite decode_66 by lia. rewrite hw16_code.
    destruct (Z8 id _ R) as [E|[E|[E|[E|[E|[E|[E|E]]]]]]]; rewrite E; reflexivity.
  - pose proof (code64_range r) as R. rewrite decode_nopfx by lia. rewrite hw64_code.
    destruct (Z8 id _ R) as [E|[E|[E|[E|[E|[E|[E|E]]]]]]]; rewrite E; reflexivity.
  - rewrite decode_nopfx by (try lia; discriminate). unfold dec_op. cbn [Z.eqb Pos.eqb].
    rewrite dec_modrm_mem by (try assumption; apply code64_range). cbn [obind].
    rewrite hw64_code. reflexivity.
  - reflexivity.
  - reflexivity.
Qed.

(** ** Displacements *)

Lemma sext8_range d : 0 <= d <= 256 -> sext 8 (d mod 256) = if d <? 128 then d else d - 256.
Proof.
  intros H. unfold sext. change (2 ^ (8 - 1)) with 128. change (2 ^ 8) with 256.
  destruct (d mod 256 <? 128) eqn:E1; destruct (d <? 128) eqn:E2; lia.
Qed.

Lemma sext32_range d : inu 32 d -> sext 32 d = if d <? 2 ^ 31 then d else d - 2 ^ 32.
Proof. reflexivity. Qed.

Lemma cpu_disp_exact m : mem_ok m -> (cpu_disp m = mem_disp m <-> disp_exact m).
Proof.
  intros H.
  assert (forall d, inu 32 d ->
    ((if d <=? 256 then sext 8 (d mod 256) else sext 32 d) = d <-> (d < 128 \/ 256 < d < 2 ^ 31))) as G.
  { intros d Hd. unfold inu in Hd. destruct (d <=? 256) eqn:E.
    - rewrite sext8_range by lia. destruct (d <? 128) eqn:E2; lia.
    - rewrite sext32_range by exact Hd. destruct (d <? 2 ^ 31) eqn:E2; lia. }
  assert (forall d, inu 32 d -> (sext 32 d = d <-> d < 2 ^ 31)) as G2.
  { intros d Hd. unfold inu in Hd. rewrite sext32_range by exact Hd. destruct (d <? 2 ^ 31) eqn:E2; lia. }
  destruct m as [r d|d|[b|] d i s]; cbn [mem_ok cpu_disp mem_disp disp_exact] in *.
  - now apply G.
  - now apply G2.
  - now apply G.
  - now apply G2.
Qed.

(** what the CPU sees when it is wrong *)
Lemma cpu_disp_value m : mem_ok m ->
  cpu_disp m = mem_disp m
  \/ (128 <= mem_disp m <= 256 /\ cpu_disp m = mem_disp m - 256)
  \/ (2 ^ 31 <= mem_disp m /\ cpu_disp m = mem_disp m - 2 ^ 32).
Proof.
  intros H.
  assert (forall d, inu 32 d -> let c := (if d <=? 256 then sext 8 (d mod 256) else sext 32 d) in
     c = d \/ (128 <= d <= 256 /\ c = d - 256) \/ (2 ^ 31 <= d /\ c = d - 2 ^ 32)) as G.
  { intros d Hd c. subst c. unfold inu in Hd. destruct (d <=? 256) eqn:E.
    - rewrite sext8_range by lia. destruct (d <? 128) eqn:E2; lia.
    - rewrite sext32_range by exact Hd. destruct (d <? 2 ^ 31) eqn:E2; lia. }
  assert (forall d, inu 32 d -> sext 32 d = d \/ (2 ^ 31 <= d /\ sext 32 d = d - 2 ^ 32)) as G2.
  { intros d Hd. unfold inu in Hd. rewrite sext32_range by exact Hd. destruct (d <? 2 ^ 31) eqn:E2; lia. }
  destruct m as [r d|d|[b|] d i s]; cbn [mem_ok cpu_disp mem_disp disp_exact] in *.
  - now apply G.
  - specialize (G2 d H). tauto.
  - now apply G.
  - specialize (G2 d (proj1 H)). tauto.
Qed.

(** ** Sequences *)

Lemma instr_bytes_length i :
  instr_ok i -> (1 <= length (instr_bytes i) <= 15)%nat.
Proof.
  intros H.
  assert (forall w r x b, (length (rexb w r x b) <= 1)%nat) as R by apply rexb_length.
  destruct i; cbn [instr_bytes instr_ok] in *; rewrite ?app_length; cbn [length]; rewrite ?le_bytes_length;
    repeat match goal with |- context [length (rexb ?a ?b ?c ?d)] => pose proof (R a b c d); generalize dependent (length (rexb a b c d)); intros end;
    try lia.
  - pose proof (mem_bytes_length dst (code64 src) H). lia.
  - pose proof (mem_bytes_length src (code64 dst) H). lia.
Qed.

Definition seq_bytes (is : list instr) : list Z := concat (map instr_bytes is).

Lemma decode_all_seq is :
  Forall (fun i => instr_ok i /\ instr_scale_ok i) is ->
  forall fuel, (length (seq_bytes is) <= fuel)%nat ->
  decode_all fuel (seq_bytes is) = Some (map cpu_op is).
Proof.
  induction is as [|i is IH]; intros HF fuel Hf.
  - destruct fuel; reflexivity.
  - inversion_clear HF as [|? ? [Hok Hsc] HF'].
    unfold seq_bytes in *. cbn [map concat] in *. rewrite app_length in Hf.
    pose proof (instr_bytes_length i Hok) as L.
    destruct fuel as [|f]; [lia|].
    destruct (instr_bytes i ++ concat (map instr_bytes is)) eqn:E.
    { apply app_eq_nil in E. destruct E as [E _]. rewrite E in L. cbn in L. lia. }
    cbn [decode_all]. rewrite <- E, decode_bytes by assumption. cbn [obind].
    rewrite IH by (try assumption; lia). reflexivity.
Qed.

Lemma prefix_free i j l :
  instr_ok i -> instr_scale_ok i -> instr_ok j -> instr_scale_ok j ->
  instr_bytes j = instr_bytes i ++ l -> l = [] /\ cpu_op i = cpu_op j.
Proof.
  intros Hi Hsi Hj Hsj E.
  pose proof (decode_bytes i l Hi Hsi) as D1. pose proof (decode_bytes j [] Hj Hsj) as D2.
  rewrite app_nil_r, E, D1 in D2. injection D2 as E1 E2. now split.
Qed.

(** ** Bytes are bytes *)

Lemma le_bytes_ok n x : bytes_ok (le_bytes n x).
Proof.
  revert x; induction n as [|n IH]; intros x; cbn [le_bytes]; constructor.
  - unfold isbyte. lia.
  - apply IH.
Qed.

Lemma rexb_ok w r x b : bytes_ok (rexb w r x b).
Proof. destruct w, r, x, b; repeat constructor; cbn; lia. Qed.

Lemma mem_bytes_ok m reg : mem_ok m -> mem_scale_ok m -> 0 <= reg <= 7 -> bytes_ok (mem_bytes m reg).
Proof.
  intros H Hs Hr. unfold mem_bytes, bytes_ok. rewrite !Forall_app.
  pose proof (mem_mode_range m). pose proof (mem_rm_range m).
  split; [|split].
  - constructor; [unfold isbyte; lia|constructor].
  - destruct m as [r d|d|[b|] d i s]; cbn [mem_ok mem_scale_ok] in *.
    + destruct (is_rsp_r12 r); repeat constructor; lia.
    + constructor.
    + pose proof (code64_range i). pose proof (code64_range b). unfold inu in H. constructor; [unfold isbyte; lia|constructor].
    + pose proof (code64_range i). unfold inu in H. constructor; [unfold isbyte; lia|constructor].
  - assert (forall (r : reg64) d, bytes_ok (if d =? 0 then if is_rbp_r13 r then [0] else []
         else if d <=? 256 then [d mod 256] else le_bytes 4 d)) as G.
    { intros r d. destruct (d =? 0); [destruct (is_rbp_r13 r); repeat constructor; lia|].
      destruct (d <=? 256); [|apply le_bytes_ok]. constructor; [unfold isbyte; lia|constructor]. }
    destruct m as [r d|d|[b|] d i s]; try apply G; apply le_bytes_ok.
Qed.

Lemma instr_bytes_ok i : instr_ok i -> instr_scale_ok i -> bytes_ok (instr_bytes i).
Proof.
  intros H Hs. unfold instr_scale_ok in Hs.
  destruct i; cbn [instr_bytes instr_ok instr_mem] in *; unfold bytes_ok, inu in *; rewrite ?Forall_app;
  repeat match goal with
  | |- _ /\ _ => split
  | |- Forall isbyte (rexb _ _ _ _) => apply rexb_ok
  | |- Forall isbyte (le_bytes _ _) => apply le_bytes_ok
  | |- Forall isbyte (mem_bytes _ _) => apply mem_bytes_ok; try assumption; apply code64_range
  | |- Forall isbyte [] => constructor
  | |- Forall isbyte (_ :: _) => constructor
  | |- isbyte (_ + code16 ?r) => pose proof (code16_range r); unfold isbyte; lia
  | |- isbyte (_ + code32 ?r) => pose proof (code32_range r); unfold isbyte; lia
  | |- isbyte (_ + code64 ?r) => pose proof (code64_range r); unfold isbyte; lia
  | |- isbyte (192 + 8 * code16 ?r + code16 ?r') => pose proof (code16_range r); pose proof (code16_range r'); unfold isbyte; lia
  | |- isbyte (192 + 8 * code32 ?r + code32 ?r') => pose proof (code32_range r); pose proof (code32_range r'); unfold isbyte; lia
  | |- isbyte (192 + 8 * code64 ?r + code64 ?r') => pose proof (code64_range r); pose proof (code64_range r'); unfold isbyte; lia
  | |- isbyte _ => unfold isbyte; lia
  end.
Qed.

(** ** Machine *)

Lemma fetch_length n f a : length (fetch n f a) = n.
Proof. revert a; induction n as [|n IH]; intros a; cbn [fetch length]; [reflexivity|]. now rewrite IH. Qed.

Lemma fetch_app n m f a : fetch (n + m) f a = fetch n f a ++ fetch m f (a + Z.of_nat n).
Proof.
  revert a; induction n as [|n IH]; intros a; cbn [fetch Nat.add app].
  - now rewrite Z.add_0_r.
  - rewrite IH. replace (a + 1 + Z.of_nat n) with (a + Z.of_nat (S n)) by lia. reflexivity.
Qed.

Lemma fetch_ext n f g a :
  (forall k, 0 <= k < Z.of_nat n -> f ((a + k) mod W64) = g ((a + k) mod W64)) ->
  fetch n f a = fetch n g a.
Proof.
  revert a; induction n as [|n IH]; intros a H; cbn [fetch]; [reflexivity|].
  f_equal.
  - specialize (H 0 ltac:(lia)). now rewrite Z.add_0_r in H.
  - apply IH. intros k Hk. specialize (H (k + 1) ltac:(lia)).
    now replace (a + 1 + k) with (a + (k + 1)) by lia.
Qed.

Lemma load_range n f a : (forall x, 0 <= f x < 256) -> 0 <= load n f a < 2 ^ (8 * Z.of_nat n).
Proof.
  intros H. unfold load. revert a; induction n as [|n IH]; intros a.
  - cbn. lia.
  - cbn [fetch lev]. rewrite pow256. specialize (IH (a + 1)). specialize (H (a mod W64)). lia.
Qed.

(** storing then loading *)
Lemma fetch_store n f a v k0 (m : nat) :
  0 <= k0 -> k0 + Z.of_nat m <= Z.of_nat n -> Z.of_nat n <= W64 ->
  fetch m (store n f a v) (a + k0) = le_bytes m (v / 2 ^ (8 * k0)).
Proof.
  revert k0; induction m as [|m IH]; intros k0 H0 Hn Hw; [reflexivity|].
  cbn [fetch le_bytes]. f_equal.
  - unfold store.
    replace (((a + k0) mod W64 - a) mod W64) with k0.
    + destruct (k0 <? Z.of_nat n) eqn:E; [reflexivity|lia].
    + rewrite Zminus_mod_idemp_l. replace (a + k0 - a) with k0 by lia.
      symmetry. apply Z.mod_small. lia.
  - replace (a + k0 + 1) with (a + (k0 + 1)) by lia. rewrite IH by lia. f_equal.
    replace (8 * (k0 + 1)) with (8 * k0 + 8) by lia. rewrite Z.pow_add_r by lia.
    rewrite <- Z.div_div by (try lia; apply Z.pow_pos_nonneg; lia). reflexivity.
Qed.

Lemma load_store n f a v : Z.of_nat n <= W64 -> load n (store n f a v) a = v mod 2 ^ (8 * Z.of_nat n).
Proof.
  intros H. unfold load. pose proof (fetch_store n f a v 0 n ltac:(lia) ltac:(lia) H) as F.
  rewrite Z.add_0_r in F. rewrite F, lev_le_bytes. rewrite Z.mul_0_r, Z.pow_0_r, Z.div_1_r. reflexivity.
Qed.

Lemma store_other n f a v x : Z.of_nat n <= (x - a) mod W64 -> store n f a v x = f x.
Proof. intros H. unfold store. destruct ((x - a) mod W64 <? Z.of_nat n) eqn:E; [lia|reflexivity]. Qed.

Lemma upd_same f r v : upd f r v r = v.
Proof. unfold upd. now rewrite Z.eqb_refl. Qed.
Lemma upd_other f r v x : x <> r -> upd f r v x = f x.
Proof. intros H. unfold upd. destruct (x =? r) eqn:E; [lia|reflexivity]. Qed.

Lemma hw64_inj a b : hw64 a = hw64 b -> a = b.
Proof. destruct a, b; cbn; intros H; try reflexivity; discriminate. Qed.

Lemma ea_doc s next m d :
  ea s next (doc_addr m d) = doc_ea s next m d.
Proof.
  destruct m as [r x|x|[b|] x i sc]; cbn [doc_addr doc_ea ea a_base a_index a_disp]; unfold ea;
    cbn [a_base a_index a_disp]; rewrite ?Z.add_0_r; try reflexivity;
    destruct i; reflexivity.
Qed.

Lemma step_decoded s i :
  instr_ok i -> instr_scale_ok i ->
  fetch (length (instr_bytes i)) (mem s) (rip s) = instr_bytes i ->
  step s = exec (cpu_op i) ((rip s + Z.of_nat (length (instr_bytes i))) mod W64) s.
Proof.
  intros Hok Hs Hf. pose proof (instr_bytes_length i Hok) as L.
  unfold step.
  replace 15%nat with (length (instr_bytes i) + (15 - length (instr_bytes i)))%nat at 1 by lia.
  rewrite fetch_app, Hf, decode_bytes by assumption. rewrite fetch_length.
  f_equal. f_equal. lia.
Qed.

Lemma W64_pow : W64 = 2 ^ (8 * Z.of_nat 8).
Proof. reflexivity. Qed.

Lemma exec_effect s i next len :
  instr_ok i -> mach_ok s -> next = (rip s + len) mod W64 ->
  match exec (cpu_op i) next s with
  | Next s' =>
      i <> Syscall /\
      effect i (match instr_mem i with Some m => cpu_disp m | None => 0 end) (push_value i) len s s'
  | SysCall s' => i = Syscall /\ effect i 0 0 len s s'
  | Fault => False
  end.
Proof.
  intros Hok (Hr & Hm & Hp) ->.
  assert (forall (f : Z -> Z) r v x, ~ In x [r] -> upd f r v x = f x) as U1
    by (intros; apply upd_other; cbn in *; intuition).
  destruct i; unfold cpu_op; cbn [instr_mem doc_op_with push_value exec effect regs mem rip] in *;
    unfold set_reg, push, regs_but, mem_same, mem_but;
    cbn [regs mem rip Z.eqb Pos.eqb nbytes]; (split; [discriminate|]) || (split; [reflexivity|]).
  - rewrite ea_doc. split; [|split; [|split]].
    + change (nbytes 64) with 8%nat. rewrite load_store by (cbn; unfold W64; lia).
      rewrite <- W64_pow. now apply Z.mod_small.
    + intros x Hx. apply store_other. exact Hx.
    + reflexivity.
    + reflexivity.
  - rewrite upd_same. repeat split; try lia.
    intros r Hn. now apply U1.
  - rewrite upd_same. repeat split; try reflexivity. intros r Hn. now apply U1.
  - rewrite upd_same. repeat split; try reflexivity.
    + apply Z.mod_small. apply Hr.
    + intros r Hn. now apply U1.
  - unfold inu in Hok. rewrite upd_same. repeat split.
    + rewrite Z.add_comm, Z.mod_add by lia. rewrite Z.mod_mod by lia. now apply Z.mod_small.
    + lia.
    + intros r Hn. now apply U1.
  - rewrite upd_same. repeat split; try reflexivity.
    + apply Z.mod_small. exact Hok.
    + intros r Hn. now apply U1.
  - rewrite upd_same. repeat split; try reflexivity.
    + apply Z.mod_small. exact Hok.
    + intros r Hn. now apply U1.
  - rewrite upd_same. repeat split; try reflexivity.
    + change (nbytes 64) with 8%nat. rewrite load_store by (unfold W64; lia).
      rewrite <- W64_pow. apply Z.mod_mod. unfold W64; lia.
    + intros x Hx. now apply store_other.
    + intros r Hn. now apply U1.
  - rewrite upd_same. repeat split; try reflexivity.
    + change (nbytes 16) with 2%nat. rewrite load_store by (unfold W64; lia).
      change (2 ^ (8 * Z.of_nat 2)) with (2 ^ 16). change W64 with (2 ^ 16 * 2 ^ 48).
      rewrite Z.rem_mul_r by lia. rewrite Z.mul_comm, Z.mod_add by lia. apply Z.mod_mod. lia.
    + intros x Hx. now apply store_other.
    + intros r Hn. now apply U1.
  - rewrite upd_same. repeat split; try reflexivity.
    + change (nbytes 64) with 8%nat. rewrite load_store by (unfold W64; lia).
      rewrite <- W64_pow. apply Z.mod_mod. unfold W64; lia.
    + intros x Hx. now apply store_other.
    + intros r Hn. now apply U1.
  - rewrite upd_same. repeat split; try reflexivity.
    + change (nbytes 16) with 2%nat. rewrite load_store by (unfold W64; lia). reflexivity.
    + intros x Hx. now apply store_other.
    + intros r' Hn. now apply U1.
  - rewrite upd_same. repeat split; try reflexivity.
    + change (nbytes 64) with 8%nat. rewrite load_store by (unfold W64; lia).
      rewrite <- W64_pow. apply Z.mod_small. apply Hr.
    + intros x Hx. now apply store_other.
    + intros r' Hn. now apply U1.
  - (* pop 16 *)
    change (nbytes 16) with 2%nat. rewrite upd_same.
    pose proof (load_range 2 (mem s) (regs s rsp) Hm) as L. change (2 ^ (8 * Z.of_nat 2)) with (2 ^ 16) in L.
    repeat split; try reflexivity.
    + rewrite Z.add_comm, Z.mod_add by lia. rewrite Z.mod_mod by lia. apply Z.mod_small. exact L.
    + intros Hne. rewrite upd_other by (destruct r; cbn; try discriminate; congruence). lia.
    + intros Hne. rewrite upd_other by (destruct r; cbn; try discriminate; congruence).
      apply upd_same.
    + intros x Hn. cbn [In] in Hn. rewrite upd_other by intuition. apply upd_other. intuition.
  - (* pop 64 *)
    change (nbytes 64) with 8%nat. rewrite upd_same.
    pose proof (load_range 8 (mem s) (regs s rsp) Hm) as L. rewrite <- W64_pow in L.
    repeat split; try reflexivity.
    + apply Z.mod_small. exact L.
    + intros Hne. rewrite upd_other by (destruct r; cbn; try discriminate; congruence).
      apply upd_same.
    + intros x Hn. cbn [In] in Hn. rewrite upd_other by intuition. apply upd_other. intuition.
  - rewrite upd_same, ea_doc. repeat split; try reflexivity.
    + apply Z.mod_small. destruct src as [? ?|?|? ? ? ?]; cbn [doc_ea]; apply Z.mod_pos_bound; unfold W64; lia.
    + intros x Hn. now apply U1.
  - rewrite upd_same. repeat split; try reflexivity. intros x Hn. now apply U1.
  - repeat split; reflexivity.
Qed.

Lemma step_effect s i :
  instr_ok i -> instr_scale_ok i -> mach_ok s ->
  fetch (length (instr_bytes i)) (mem s) (rip s) = instr_bytes i ->
  let len := Z.of_nat (length (instr_bytes i)) in
  match step s with
  | Next s' =>
      i <> Syscall /\
      effect i (match instr_mem i with Some m => cpu_disp m | None => 0 end) (push_value i) len s s'
  | SysCall s' => i = Syscall /\ effect i 0 0 len s s'
  | Fault => False
  end.
Proof.
  intros Hok Hs Hm Hf len. rewrite (step_decoded s i) by assumption.
  now apply exec_effect.
Qed.

(** ** Straight-line programs *)

Lemma emits_bytes i : instr_ok i -> instr_scale_ok i -> emits i (instr_bytes i).
Proof. intros H Hs. destruct (bytecode_bytes i H Hs) as (b & E & _ & R). exists b. now split. Qed.

Lemma exec_straight_ok s i next :
  instr_ok i -> straight i -> mach_ok s -> 0 <= next < W64 ->
  exists s', exec (cpu_op i) next s = Next s' /\ mach_ok s' /\ mem s' = mem s /\ rip s' = next.
Proof.
  intros Hok Hst (Hr & Hm & Hp) Hn.
  assert (forall f w d v, (forall r, 0 <= f r < W64) -> w = 16 \/ w = 32 \/ w = 64 ->
            forall r, 0 <= set_reg w f d v r < W64) as SR.
  { intros f w d v Hf Hw r. unfold set_reg, upd. destruct (r =? d); [|apply Hf].
    destruct Hw as [->|[->| ->]]; cbn [Z.eqb Pos.eqb].
    - specialize (Hf d). change W64 with (2 ^ 16 * 2 ^ 48) in *. pose proof (Z.mod_pos_bound v (2 ^ 16) ltac:(lia)).
      lia.
    - pose proof (Z.mod_pos_bound v (2 ^ 32) ltac:(lia)). unfold W64 in *. lia.
    - apply Z.mod_pos_bound. unfold W64; lia. }
  assert (forall d v, (forall r, 0 <= upd (regs s) d (v mod W64) r < W64)) as SU.
  { intros d v r. unfold upd. destruct (r =? d); [|apply Hr]. apply Z.mod_pos_bound. unfold W64; lia. }
  destruct i; cbn [straight] in Hst; try tauto; unfold cpu_op; cbn [instr_mem doc_op_with exec];
    (eexists; split; [reflexivity|]); (split; [|split; reflexivity]);
    unfold mach_ok; cbn [regs mem rip]; (split; [|split; [assumption|assumption]]);
    apply SR; try assumption; try tauto; apply SU.
Qed.

Lemma app_inv_length {A} (a b c d : list A) : length a = length c -> a ++ b = c ++ d -> a = c /\ b = d.
Proof.
  revert c; induction a as [|x a IH]; intros [|y c] L E; cbn in *; try discriminate.
  - now split.
  - injection E as -> E. injection L as L. destruct (IH c L E) as [-> ->]. now split.
Qed.

Lemma fetch_mod n f a : fetch n f (a mod W64) = fetch n f a.
Proof.
  assert (forall m k b, fetch m f (b + k * W64) = fetch m f b) as G.
  { induction m as [|m IH]; intros k b; cbn [fetch]; [reflexivity|]. f_equal.
    - f_equal. apply Z.mod_add. unfold W64; lia.
    - replace (b + k * W64 + 1) with (b + 1 + k * W64) by lia. apply IH. }
  rewrite <- (G n (a / W64) (a mod W64)). f_equal.
  pose proof (Z.div_mod a W64 ltac:(unfold W64; lia)). lia.
Qed.

Lemma steps_straight is : forall s,
  Forall (fun i => instr_ok i /\ instr_scale_ok i /\ straight i) is ->
  mach_ok s ->
  fetch (length (seq_bytes is)) (mem s) (rip s) = seq_bytes is ->
  exists s', steps (length is) s = Next s' /\ runs is s s' /\ mem s' = mem s /\
             rip s' = (rip s + Z.of_nat (length (seq_bytes is))) mod W64.
Proof.
  induction is as [|i is IH]; intros s HF Hm Hf.
  - exists s. cbn [steps length]. split; [reflexivity|]. split; [constructor|]. split; [reflexivity|].
    unfold seq_bytes. cbn [map concat length]. rewrite Z.add_0_r. symmetry. apply Z.mod_small. apply Hm.
  - inversion_clear HF as [|? ? (Hok & Hsc & Hst) HF'].
    unfold seq_bytes in *. cbn [map concat] in *. rewrite app_length in *. rewrite fetch_app in Hf.
    apply app_inv_length in Hf; [|apply fetch_length]. destruct Hf as [Hf1 Hf2].
    set (next := (rip s + Z.of_nat (length (instr_bytes i))) mod W64).
    destruct (exec_straight_ok s i next Hok Hst Hm) as (s1 & E1 & Hm1 & Em & Er).
    { apply Z.mod_pos_bound. unfold W64; lia. }
    pose proof (exec_effect s i next (Z.of_nat (length (instr_bytes i))) Hok Hm eq_refl) as X.
    rewrite E1 in X. destruct X as [_ X].
    destruct (IH s1 HF' Hm1) as (s2 & E2 & R2 & M2 & P2).
    { rewrite Em, Er. subst next. rewrite fetch_mod. exact Hf2. }
    exists s2. cbn [steps length]. rewrite (step_decoded s i) by assumption. fold next. rewrite E1.
    split; [exact E2|]. split; [econstructor; [now apply emits_bytes|eassumption|eassumption]|]. split; [congruence|].
    rewrite P2, Er. subst next. rewrite Zplus_mod_idemp_l. f_equal. lia.
Qed.
