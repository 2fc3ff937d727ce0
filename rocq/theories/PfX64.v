(** Lemmas about the encoder model. *)
From Coq Require Import ZifyBool ZifyNat.
From Verif Require Import Base X64 SpecX86.

Ltac Zify.zify_post_hook ::= Z.div_mod_to_equations.

(** ** BytesAtMost *)

Lemma Ok_inj {A} (a b : A) : Ok a = Ok b -> a = b.
Proof. congruence. Qed.

Definition bam_wf (b : bam) : Prop := (bam_len b <= length (bam_bytes b))%nat.

Lemma bam_ref_length b : bam_wf b -> length (bam_ref b) = bam_len b.
Proof. unfold bam_wf, bam_ref. intros H. rewrite firstn_length. lia. Qed.

Definition is_bam (m : res bam) (l : list Z) : Prop :=
  exists b, m = Ok b /\ bam_wf b /\ bam_ref b = l.

Lemma is_bam_len m l : is_bam m l -> exists b, m = Ok b /\ bam_ref b = l /\ bam_len b = length l.
Proof.
  intros (b & -> & Hw & <-). exists b. repeat split. symmetry. now apply bam_ref_length.
Qed.

Lemma bam_put_full max (l : list Z) :
  (length l <= max)%nat ->
  is_bam (Ok (bam_put {| bam_bytes := repeat 0 max; bam_len := length l |} l)) l.
Proof.
  intros H. eexists; split; [reflexivity|]. unfold bam_wf, bam_ref, bam_put; cbn [bam_len bam_bytes].
  split.
  - rewrite app_length. lia.
  - rewrite firstn_app, Nat.sub_diag, firstn_all. cbn. now rewrite app_nil_r.
Qed.

Lemma bam_with_len_0 max : is_bam (bam_with_len max 0) [].
Proof.
  unfold bam_with_len, rassert, bind. cbn. eexists; split; [reflexivity|].
  split; [unfold bam_wf; cbn; lia|reflexivity].
Qed.

Lemma bam_from_array_ok max l : (length l <= max)%nat -> is_bam (bam_from_array max l) l.
Proof.
  intros H. unfold bam_from_array, bam_with_len, rassert, bind.
  destruct (Nat.leb_spec (length l) max); [|lia]. now apply bam_put_full.
Qed.

Lemma le_bytes_length n x : length (le_bytes n x) = n.
Proof. revert x; induction n as [|n IH]; intros x; cbn [le_bytes length]; [reflexivity|]. now rewrite IH. Qed.

Lemma bam_from_u8_ok max n : (1 <= max)%nat -> is_bam (bam_from_u8 max n) [n].
Proof.
  intros H. unfold bam_from_u8, rassert, bind. destruct (Nat.leb_spec 1 max); [|lia].
  now apply bam_from_array_ok.
Qed.

Lemma bam_from_int_ok g k max n (Hg : (g <= k)%nat) :
  (k <= max)%nat ->
  is_bam (bind (rassert (Nat.leb g max)) (fun _ =>
          bind (bam_with_len max k) (fun b => Ok (bam_put b (le_bytes k n))))) (le_bytes k n).
Proof.
  intros H. unfold bam_with_len, rassert, bind.
  destruct (Nat.leb_spec g max); [|lia]. destruct (Nat.leb_spec k max); [|lia].
  pose proof (bam_put_full max (le_bytes k n)) as P. rewrite le_bytes_length in P. now apply P.
Qed.

Lemma bam_from_u16_ok max n : (2 <= max)%nat -> is_bam (bam_from_u16 max n) (le_bytes 2 n).
Proof. intros H. apply (bam_from_int_ok 1 2); lia. Qed.
Lemma bam_from_u32_ok max n : (4 <= max)%nat -> is_bam (bam_from_u32 max n) (le_bytes 4 n).
Proof. intros H. apply (bam_from_int_ok 4 4); lia. Qed.
Lemma bam_from_u64_ok max n : (8 <= max)%nat -> is_bam (bam_from_u64 max n) (le_bytes 8 n).
Proof. intros H. apply (bam_from_int_ok 8 8); lia. Qed.

(** ** to_bytes *)

Lemma olen_olist {A} (o : option A) : length (olist o) = olen o.
Proof. now destruct o. Qed.

Lemma to_bytes_ok p x o m s d i :
  bam_wf o -> bam_wf d -> bam_wf i ->
  (length (olist p ++ olist x ++ bam_ref o ++ olist m ++ olist s ++ bam_ref d ++ bam_ref i) <= 15)%nat ->
  is_bam (to_bytes {| bc_prefix := p; bc_rex := x; bc_opcode := o; bc_modrm := m;
                      bc_sib := s; bc_disp := d; bc_imm := i |})
         (olist p ++ olist x ++ bam_ref o ++ olist m ++ olist s ++ bam_ref d ++ bam_ref i).
Proof.
  intros Ho Hd Hi. unfold to_bytes; cbn [bc_prefix bc_rex bc_opcode bc_modrm bc_sib bc_disp bc_imm].
  rewrite !app_length, !olen_olist, !bam_ref_length by assumption. intros H.
  unfold bam_with_len, rassert, bind. destruct (Nat.leb_spec
    (olen p + olen x + bam_len o + olen m + olen s + bam_len d + bam_len i)%nat 15); [|lia].
  unfold cur_write.
  repeat match goal with
  | |- context [Nat.leb ?a ?b] =>
      let H := fresh in destruct (Nat.leb_spec a b) as [H|H];
      [| exfalso; revert H; rewrite ?app_length, ?olen_olist, ?bam_ref_length by assumption;
         cbn [length]; lia]
  end.
  cbn [fst app]. rewrite <- !app_assoc.
  set (l := olist p ++ _).
  replace (olen p + olen x + bam_len o + olen m + olen s + bam_len d + bam_len i)%nat with (length l).
  - apply bam_put_full. subst l. rewrite !app_length, !olen_olist, !bam_ref_length by assumption. lia.
  - subst l. rewrite !app_length, !olen_olist, !bam_ref_length by assumption. lia.
Qed.

(** ** Rex, ModRM, Sib as numbers *)

Definition rexb (w r x b : bool) : list Z :=
  if w || r || x || b then [64 + 8 * b2z w + 4 * b2z r + 2 * b2z x + b2z b] else [].

Lemma modrm_ok mode r rm :
  0 <= mode <= 3 -> 0 <= r <= 7 -> 0 <= rm <= 7 ->
  (m <- modrm_set_reg modrm_new r ;;
   m <- modrm_set_mode m mode ;;
   modrm_set_rm m rm) = Ok (64 * mode + 8 * r + rm).
Proof.
  intros Hm Hr Hrm.
  assert (mode = 0 \/ mode = 1 \/ mode = 2 \/ mode = 3) as M by lia.
  assert (r = 0 \/ r = 1 \/ r = 2 \/ r = 3 \/ r = 4 \/ r = 5 \/ r = 6 \/ r = 7) as R by lia.
  assert (rm = 0 \/ rm = 1 \/ rm = 2 \/ rm = 3 \/ rm = 4 \/ rm = 5 \/ rm = 6 \/ rm = 7) as RM by lia.
  destruct M as [->|[->|[->| ->]]];
  destruct R as [->|[->|[->|[->|[->|[->|[->| ->]]]]]]];
  destruct RM as [->|[->|[->|[->|[->|[->|[->| ->]]]]]]]; reflexivity.
Qed.

Lemma sib_ok s i b :
  0 <= s <= 3 -> 0 <= i <= 7 -> 0 <= b <= 7 -> sib_new s i b = Ok (64 * s + 8 * i + b).
Proof.
  intros Hs Hi Hb.
  assert (s = 0 \/ s = 1 \/ s = 2 \/ s = 3) as M by lia.
  assert (i = 0 \/ i = 1 \/ i = 2 \/ i = 3 \/ i = 4 \/ i = 5 \/ i = 6 \/ i = 7) as R by lia.
  assert (b = 0 \/ b = 1 \/ b = 2 \/ b = 3 \/ b = 4 \/ b = 5 \/ b = 6 \/ b = 7) as RM by lia.
  destruct M as [->|[->|[->| ->]]];
  destruct R as [->|[->|[->|[->|[->|[->|[->| ->]]]]]]];
  destruct RM as [->|[->|[->|[->|[->|[->|[->| ->]]]]]]]; reflexivity.
Qed.

Lemma sib_panic s i b : 3 < s -> sib_new s i b = Panic.
Proof. intros H. unfold sib_new, rassert, bind. destruct (s <=? 3) eqn:E; [lia|reflexivity]. Qed.

(** ** encode *)

Lemma encode_plain p w b opc o imm im :
  is_bam opc o -> is_bam imm im -> (length im = 8%nat -> w = true) ->
  (length (olist p ++ rexb w false false b ++ o ++ im) <= 15)%nat ->
  is_bam (encode {| en_prefix := p; en_rex_w := w; en_rex_b := b; en_opcode := opc;
                    en_modrm := None; en_imm := imm |})
         (olist p ++ rexb w false false b ++ o ++ im).
Proof.
  intros (ob & -> & Ho & <-) (ib & -> & Hi & <-) H8 Hlen.
  unfold encode; cbn [en_opcode en_imm en_modrm en_rex_w en_rex_b en_prefix bind].
  destruct (bam_with_len_0 4) as (nd & -> & Hnd & Hnd'). cbn [bind].
  replace (Nat.eqb (bam_len ib) 8 && negb w) with false.
  2:{ rewrite bam_ref_length in H8 by assumption. destruct (Nat.eqb_spec (bam_len ib) 8); destruct w; try reflexivity.
      now specialize (H8 e). }
  cbn [negb rassert bind bc_prefix bc_rex bc_opcode bc_modrm bc_sib bc_disp bc_imm].
  assert (rexb w false false b =
    olist (if b then Some (rex_set_b (rex_or_new (if w then Some (rex_set_w rex_new true) else None)) true)
           else if w then Some (rex_set_w rex_new true) else None)) as R
    by (destruct w, b; reflexivity).
  rewrite R in *.
  pose proof (to_bytes_ok p (if b then Some (rex_set_b (rex_or_new (if w then Some (rex_set_w rex_new true) else None)) true)
           else if w then Some (rex_set_w rex_new true) else None) ob None None nd ib Ho Hnd Hi) as T.
  rewrite Hnd' in T. cbn [olist app] in T. now apply T.
Qed.

Lemma encode_modrm p w b opc o imm im r rm sib d :
  is_bam opc o -> is_bam imm im -> (length im = 8%nat -> w = true) ->
  0 <= rl_reg r <= 7 -> 0 <= rm_mode rm <= 3 -> 0 <= rm_rm rm <= 7 ->
  rm_sib rm = Ok sib -> is_bam (rm_disp rm) d ->
  let l := olist p ++ rexb w (rl_rex_r r) (rm_rex_x rm) (b || rm_rex_b rm) ++ o
           ++ [64 * rm_mode rm + 8 * rl_reg r + rm_rm rm] ++ olist sib ++ d ++ im in
  (length l <= 15)%nat ->
  is_bam (encode {| en_prefix := p; en_rex_w := w; en_rex_b := b; en_opcode := opc;
                    en_modrm := Some (r, rm); en_imm := imm |}) l.
Proof.
  intros (ob & -> & Ho & <-) (ib & -> & Hi & <-) H8 Hr Hm Hrm Hs (db & Hd & Hdw & <-) l.
  unfold encode; cbn [en_opcode en_imm en_modrm en_rex_w en_rex_b en_prefix bind].
  destruct (bam_with_len_0 4) as (nd & -> & Hnd & Hnd'). cbn [bind].
  pose proof (modrm_ok _ _ _ Hm Hr Hrm) as M.
  destruct (modrm_set_reg modrm_new (rl_reg r)) as [m1|] eqn:E1; [|discriminate].
  cbn [bind] in *. destruct (modrm_set_mode m1 (rm_mode rm)) as [m2|] eqn:E2; [|discriminate].
  cbn [bind] in *. rewrite M. cbn [bind]. rewrite Hs, Hd. cbn [bind].
  replace (Nat.eqb (bam_len ib) 8 && negb w) with false.
  2:{ rewrite bam_ref_length in H8 by assumption. destruct (Nat.eqb_spec (bam_len ib) 8); destruct w; try reflexivity.
      now specialize (H8 e). }
  cbn [negb rassert bind bc_prefix bc_rex bc_opcode bc_modrm bc_sib bc_disp bc_imm].
  match goal with |- _ -> is_bam (to_bytes {| bc_prefix := _; bc_rex := ?X; bc_opcode := _;
       bc_modrm := _; bc_sib := _; bc_disp := _; bc_imm := _ |}) _ => set (rx := X) end.
  assert (rexb w (rl_rex_r r) (rm_rex_x rm) (b || rm_rex_b rm) = olist rx) as R
    by (subst rx; destruct w, b, (rl_rex_r r), (rm_rex_x rm), (rm_rex_b rm); reflexivity).
  subst l. rewrite R. intros Hlen.
  pose proof (to_bytes_ok p rx ob (Some (64 * rm_mode rm + 8 * rl_reg r + rm_rm rm)) sib db ib Ho Hdw Hi) as T.
  cbn [olist] in T. now apply T.
Qed.

Lemma encode_modrm_sib_panic p w b opc o imm im r rm :
  is_bam opc o -> is_bam imm im -> rm_sib rm = Panic ->
  encode {| en_prefix := p; en_rex_w := w; en_rex_b := b; en_opcode := opc;
            en_modrm := Some (r, rm); en_imm := imm |} = Panic.
Proof.
  intros (ob & -> & Ho & <-) (ib & -> & Hi & <-) Hs.
  unfold encode; cbn [en_opcode en_imm en_modrm en_rex_w en_rex_b en_prefix bind].
  destruct (bam_with_len_0 4) as (nd & -> & Hnd & Hnd'). cbn [bind].
  destruct (modrm_set_reg modrm_new (rl_reg r)) as [m1|]; [|reflexivity].
  cbn [bind]. destruct (modrm_set_mode m1 (rm_mode rm)) as [m2|]; [|reflexivity].
  cbn [bind]. destruct (modrm_set_rm m2 (rm_rm rm)) as [m3|]; [|reflexivity].
  cbn [bind]. now rewrite Hs.
Qed.

(** ** The bytes of each instruction *)

Definition opt_nil : list Z := [].

(** memory operand: ModRM mode, rm, SIB byte, displacement bytes *)
Definition mem_bytes (m : mem64) (reg : Z) : list Z :=
  [64 * mem_mode m + 8 * reg + mem_rm m]
  ++ match m with
     | RegOffset r _ => if is_rsp_r12 r then [0x24] else []
     | RipOffset _ => []
     | MSib None _ i s => [64 * s + 8 * code64 i + 5]
     | MSib (Some b) _ i s => [64 * s + 8 * code64 i + code64 b]
     end
  ++ match m with
     | RegOffset r d =>
         if d =? 0 then if is_rbp_r13 r then [0] else []
         else if d <=? 256 then [d mod 256] else le_bytes 4 d
     | RipOffset d => le_bytes 4 d
     | MSib None d _ _ => le_bytes 4 d
     | MSib (Some b) d _ _ =>
         if d =? 0 then if is_rbp_r13 b then [0] else []
         else if d <=? 256 then [d mod 256] else le_bytes 4 d
     end.

Definition instr_bytes (i : instr) : list Z :=
  match i with
  | MovMR64 m s => rexb true (ext64 s) (mem_rex_x m) (mem_rex_b m) ++ [0x89] ++ mem_bytes m (code64 s)
  | MovRR16 a b => [0x66] ++ rexb false (ext16 b) false (ext16 a) ++ [0x89; 192 + 8 * code16 b + code16 a]
  | MovRR32 a b => rexb false (ext32 b) false (ext32 a) ++ [0x89; 192 + 8 * code32 b + code32 a]
  | MovRR64 a b => rexb true (ext64 b) false (ext64 a) ++ [0x89; 192 + 8 * code64 b + code64 a]
  | MovRI16 r n => [0x66] ++ rexb false false false (ext16 r) ++ [0xB8 + code16 r] ++ le_bytes 2 n
  | MovRI32 r n => rexb false false false (ext32 r) ++ [0xB8 + code32 r] ++ le_bytes 4 n
  | MovRI64 r n => rexb true false false (ext64 r) ++ [0xB8 + code64 r] ++ le_bytes 8 n
  | PushI8 n => [0x6A; n]
  | PushI16 n => [0x66; 0x68] ++ le_bytes 2 n
  | PushI32 n => [0x68] ++ le_bytes 4 n
  | PushR16 r => [0x66] ++ rexb false false false (ext16 r) ++ [0x50 + code16 r]
  | PushR64 r => rexb false false false (ext64 r) ++ [0x50 + code64 r]
  | PopR16 r => [0x66] ++ rexb false false false (ext16 r) ++ [0x58 + code16 r]
  | PopR64 r => rexb false false false (ext64 r) ++ [0x58 + code64 r]
  | Lea64 r m => rexb true (ext64 r) (mem_rex_x m) (mem_rex_b m) ++ [0x8D] ++ mem_bytes m (code64 r)
  | Ret => [0xC3]
  | Syscall => [0x0F; 0x05]
  end.

Definition instr_scale_ok (i : instr) : Prop :=
  match instr_mem i with Some m => mem_scale_ok m | None => True end.

Lemma code64_range r : 0 <= code64 r <= 7.
Proof. destruct r; cbn; lia. Qed.
Lemma code32_range r : 0 <= code32 r <= 7.
Proof. apply code64_range. Qed.
Lemma code16_range r : 0 <= code16 r <= 7.
Proof. apply code32_range. Qed.

Lemma rexb_length w r x b : (length (rexb w r x b) <= 1)%nat.
Proof. unfold rexb. destruct (w || r || x || b); cbn; lia. Qed.

Lemma mem_disp_part m (Hok : mem_ok m) :
  exists d, is_bam (mem_disp_bytes m) d /\ (length d <= 4)%nat /\
  d = match m with
     | RegOffset r d =>
         if d =? 0 then if is_rbp_r13 r then [0] else []
         else if d <=? 256 then [d mod 256] else le_bytes 4 d
     | RipOffset d => le_bytes 4 d
     | MSib None d _ _ => le_bytes 4 d
     | MSib (Some b) d _ _ =>
         if d =? 0 then if is_rbp_r13 b then [0] else []
         else if d <=? 256 then [d mod 256] else le_bytes 4 d
     end.
Proof.
  assert (forall r d, inu 32 d -> exists l,
    is_bam (if is_rbp_r13 r && (d =? 0) then bam_from_u8 4 0
      else if d =? 0 then bam_with_len 4 0
      else if (1 <=? d) && (d <=? 256) then bam_from_u8 4 (wrapu 8 d)
      else bam_from_u32 4 d) l /\ (length l <= 4)%nat /\
    l = if d =? 0 then if is_rbp_r13 r then [0] else []
         else if d <=? 256 then [d mod 256] else le_bytes 4 d) as G.
  { intros r d Hd. unfold inu in Hd. eexists; split; [|split; [|reflexivity]].
    - destruct (is_rbp_r13 r); cbn [andb]; destruct (d =? 0) eqn:E.
      + apply bam_from_u8_ok; lia.
      + destruct (1 <=? d) eqn:E1; [|lia]. cbn [andb]. destruct (d <=? 256) eqn:E2.
        * apply bam_from_u8_ok; lia.
        * apply bam_from_u32_ok; lia.
      + apply bam_with_len_0.
      + destruct (1 <=? d) eqn:E1; [|lia]. cbn [andb]. destruct (d <=? 256) eqn:E2.
        * apply bam_from_u8_ok; lia.
        * apply bam_from_u32_ok; lia.
    - destruct (d =? 0); [destruct (is_rbp_r13 r); cbn; lia|].
      destruct (d <=? 256); cbn [length]; [lia|]. rewrite le_bytes_length; lia. }
  destruct m as [r d|d|[b|] d i s]; cbn [mem_disp_bytes mem_ok] in *.
  - now apply G.
  - eexists; split; [apply bam_from_u32_ok; lia|]. rewrite le_bytes_length. split; [lia|reflexivity].
  - now apply G.
  - eexists; split; [apply bam_from_u32_ok; lia|]. rewrite le_bytes_length. split; [lia|reflexivity].
Qed.

Lemma mem_sib_part m (Hok : mem_ok m) (Hs : mem_scale_ok m) :
  exists o, mem_sib_byte m = Ok o /\
  olist o = match m with
     | RegOffset r _ => if is_rsp_r12 r then [0x24] else []
     | RipOffset _ => []
     | MSib None _ i s => [64 * s + 8 * code64 i + 5]
     | MSib (Some b) _ i s => [64 * s + 8 * code64 i + code64 b]
     end.
Proof.
  destruct m as [r d|d|[b|] d i s]; cbn [mem_sib_byte mem_ok mem_scale_ok] in *.
  - destruct (is_rsp_r12 r); eexists; split; reflexivity.
  - eexists; split; reflexivity.
  - pose proof (code64_range i). pose proof (code64_range b). unfold inu in Hok.
    rewrite sib_ok by lia. eexists; split; reflexivity.
  - pose proof (code64_range i). unfold inu in Hok.
    rewrite sib_ok by lia. eexists; split; reflexivity.
Qed.

Lemma mem_mode_range m : 0 <= mem_mode m <= 2.
Proof.
  destruct m as [r d|d|[b|] d i s]; cbn [mem_mode];
  repeat match goal with |- context [if ?c then _ else _] => destruct c end; lia.
Qed.
Lemma mem_rm_range m : 0 <= mem_rm m <= 7.
Proof. destruct m; cbn [mem_rm]; try lia. apply code64_range. Qed.

Lemma mem_bytes_length m reg : mem_ok m -> (1 <= length (mem_bytes m reg) <= 6)%nat.
Proof.
  intros H. destruct (mem_disp_part m H) as (d & _ & Hd & E).
  unfold mem_bytes. rewrite <- E, !app_length. cbn [length].
  destruct m as [r d'|d'|[b|] d' i s]; try (destruct (is_rsp_r12 r)); cbn [length]; lia.
Qed.

Lemma bytecode_mem w opc reg ext m o :
  is_bam opc [o] ->
  mem_ok m -> mem_scale_ok m -> 0 <= reg <= 7 ->
  is_bam (encode {| en_prefix := None; en_rex_w := w; en_rex_b := false; en_opcode := opc;
                    en_modrm := Some ({| rl_rex_r := ext; rl_reg := reg |}, rm_mem m);
                    en_imm := bam_with_len 8 0 |})
         (rexb w ext (mem_rex_x m) (mem_rex_b m) ++ [o] ++ mem_bytes m reg).
Proof.
  intros Ho Hok Hs Hreg.
  destruct (mem_disp_part m Hok) as (d & Hd & Hdl & E).
  destruct (mem_sib_part m Hok Hs) as (sb & Hsb & Es).
  pose proof (encode_modrm None w false opc [o] (bam_with_len 8 0) []
    {| rl_rex_r := ext; rl_reg := reg |} (rm_mem m) sb d Ho (bam_with_len_0 8)) as L.
  cbn [rl_reg rl_rex_r rm_mem rm_mode rm_rm rm_sib rm_disp rm_rex_x rm_rex_b olist orb] in L.
  pose proof (mem_mode_range m). pose proof (mem_rm_range m).
  unfold mem_bytes. rewrite <- Es, <- E.
  rewrite app_nil_r in L. cbn [app] in *. apply L; try assumption; try lia; try discriminate.
  rewrite !app_length. cbn [length]. rewrite !app_length.
  pose proof (rexb_length w ext (mem_rex_x m) (mem_rex_b m)).
  destruct sb; cbn [olist length]; lia.
Qed.

Lemma bytecode_bytes i :
  instr_ok i -> instr_scale_ok i -> is_bam (bytecode_of i) (instr_bytes i).
Proof.
  intros Hok Hsc.
  assert (forall p r a ca ea, 0 <= rl_reg r <= 7 -> 0 <= ca <= 7 -> rm_reg ea ca = a -> forall w,
    is_bam (encode (enc_modrm r a (enc_opcode [0x89]
      {| en_prefix := p; en_rex_w := w; en_rex_b := false; en_opcode := bam_with_len 3 0;
         en_modrm := None; en_imm := bam_with_len 8 0 |})))
      (olist p ++ rexb w (rl_rex_r r) false ea ++ [0x89; 192 + 8 * rl_reg r + ca])) as RR.
  { intros p r a ca ea Hr Ha <- w. unfold enc_modrm, enc_opcode, enc_opcode_from; cbn [en_prefix en_rex_w en_rex_b en_opcode en_modrm en_imm].
    pose proof (encode_modrm p w false (bam_from_array 3 [0x89]) [0x89] (bam_with_len 8 0) []
      r (rm_reg ea ca) None [] (bam_from_array_ok 3 [0x89] ltac:(cbn; lia)) (bam_with_len_0 8)) as L.
    cbn [rm_reg rm_mode rm_rm rm_sib rm_disp rm_rex_x rm_rex_b olist orb app] in L.
    cbn [rm_reg rm_mode rm_rm rm_sib rm_disp rm_rex_x rm_rex_b olist orb app].
    apply L; try assumption; try lia; try discriminate; try reflexivity.
    - apply bam_with_len_0.
    - rewrite !app_length. pose proof (rexb_length w (rl_rex_r r) false ea).
      rewrite olen_olist. destruct p; cbn [olen length]; lia. }
  assert (forall p w b o imm im, is_bam imm im -> (length im = 8%nat -> w = true) -> (length im <= 8)%nat ->
     (length o <= 3)%nat ->
     is_bam (encode {| en_prefix := p; en_rex_w := w; en_rex_b := b; en_opcode := bam_from_array 3 o;
                    en_modrm := None; en_imm := imm |})
            (olist p ++ rexb w false false b ++ o ++ im)) as PL.
  { intros p w b o imm im Hi H8 Hl Ho. apply encode_plain; try assumption.
    - apply bam_from_array_ok; assumption.
    - rewrite !app_length. pose proof (rexb_length w false false b).
      rewrite olen_olist. destruct p; cbn [olen]; lia. }
  destruct i; cbn [bytecode_of instr_bytes instr_ok] in *.
  - apply bytecode_mem; try assumption. + apply bam_from_array_ok; cbn; lia. + apply code64_range.
  - apply (RR (Some 0x66) (rl16 src) (rm16 dst) (code16 dst) (ext16 dst)); try apply code16_range; reflexivity.
  - apply (RR None (rl32 src) (rm32 dst) (code32 dst) (ext32 dst)); try apply code32_range; reflexivity.
  - apply (RR None (rl64 src) (rm64 dst) (code64 dst) (ext64 dst)); try apply code64_range; reflexivity.
  - apply (PL (Some 0x66) false (ext16 dst) [0xB8 + code16 dst] (bam_from_u16 8 imm) (le_bytes 2 imm));
    rewrite ?le_bytes_length; try (cbn; lia); try discriminate. apply bam_from_u16_ok; lia.
  - apply (PL None false (ext32 dst) [0xB8 + code32 dst] (bam_from_u32 8 imm) (le_bytes 4 imm));
    rewrite ?le_bytes_length; try (cbn; lia); try discriminate. apply bam_from_u32_ok; lia.
  - apply (PL None true (ext64 dst) [0xB8 + code64 dst] (bam_from_u64 8 imm) (le_bytes 8 imm));
    rewrite ?le_bytes_length; try (cbn; lia); try reflexivity. apply bam_from_u64_ok; lia.
  - apply (PL None false false [0x6A] (bam_from_u8 8 imm) [imm]); try (cbn; lia); try discriminate. apply bam_from_u8_ok; lia.
  - apply (PL (Some 0x66) false false [0x68] (bam_from_u16 8 imm) (le_bytes 2 imm));
    rewrite ?le_bytes_length; try (cbn; lia); try discriminate. apply bam_from_u16_ok; lia.
  - apply (PL None false false [0x68] (bam_from_u32 8 imm) (le_bytes 4 imm));
    rewrite ?le_bytes_length; try (cbn; lia); try discriminate. apply bam_from_u32_ok; lia.
  - pose proof (PL (Some 0x66) false (ext16 r) [0x50 + code16 r] (bam_with_len 8 0) [] (bam_with_len_0 8)) as Q.
    rewrite app_nil_r in Q. apply Q; try (cbn; lia); discriminate.
  - pose proof (PL None false (ext64 r) [0x50 + code64 r] (bam_with_len 8 0) [] (bam_with_len_0 8)) as Q.
    rewrite app_nil_r in Q. apply Q; try (cbn; lia); discriminate.
  - pose proof (PL (Some 0x66) false (ext16 r) [0x58 + code16 r] (bam_with_len 8 0) [] (bam_with_len_0 8)) as Q.
    rewrite app_nil_r in Q. apply Q; try (cbn; lia); discriminate.
  - pose proof (PL None false (ext64 r) [0x58 + code64 r] (bam_with_len 8 0) [] (bam_with_len_0 8)) as Q.
    rewrite app_nil_r in Q. apply Q; try (cbn; lia); discriminate.
  - apply bytecode_mem; try assumption. + apply bam_from_array_ok; cbn; lia. + apply code64_range.
  - apply (PL None false false [0xC3] (bam_with_len 8 0) [] (bam_with_len_0 8)); try (cbn; lia); discriminate.
  - apply (PL None false false [0x0F; 0x05] (bam_with_len 8 0) [] (bam_with_len_0 8)); try (cbn; lia); discriminate.
Qed.

Lemma bytecode_scale_panic i :
  instr_ok i -> ~ instr_scale_ok i -> bytecode_of i = Panic.
Proof.
  intros Hok Hs. unfold instr_scale_ok in Hs.
  assert (forall m, ~ mem_scale_ok m -> mem_sib_byte m = Panic) as P.
  { intros m Hm. destruct m as [r d|d|[b|] d ix s]; cbn [mem_scale_ok mem_sib_byte] in *; try tauto.
    - rewrite sib_panic by lia. reflexivity.
    - rewrite sib_panic by lia. reflexivity. }
  destruct i; cbn [instr_mem] in Hs; try tauto; cbn [bytecode_of].
  - apply (encode_modrm_sib_panic _ _ _ _ [0x89] _ []); [apply bam_from_array_ok; cbn; lia|apply bam_with_len_0|]. now apply P.
  - apply (encode_modrm_sib_panic _ _ _ _ [0x8D] _ []); [apply bam_from_array_ok; cbn; lia|apply bam_with_len_0|]. now apply P.
Qed.

(** ** BytesAtMost: conversions, writes through as_mut, equality *)

Lemma bam_with_len_iff max n : (exists b, bam_with_len max n = Ok b) <-> (n <= max)%nat.
Proof.
  unfold bam_with_len, rassert, bind. destruct (Nat.leb_spec n max); split; intros H'; try lia.
  - eauto.
  - destruct H' as [b Hb]. discriminate.
Qed.

Lemma bam_from_array_iff max a : (exists b, bam_from_array max a = Ok b) <-> (length a <= max)%nat.
Proof.
  split.
  - intros [b Hb]. unfold bam_from_array, rassert, bind in Hb.
    destruct (Nat.leb_spec (length a) max); [assumption|discriminate].
  - intros H. destruct (bam_from_array_ok max a H) as (b & -> & _). eauto.
Qed.

Lemma bam_from_u8_iff max n : (exists b, bam_from_u8 max n = Ok b) <-> (1 <= max)%nat.
Proof.
  split.
  - intros [b Hb]. unfold bam_from_u8, rassert, bind in Hb.
    destruct (Nat.leb_spec 1 max); [assumption|discriminate].
  - intros H. destruct (bam_from_u8_ok max n H) as (b & -> & _). eauto.
Qed.

Lemma bam_from_int_iff g k max n : (g <= k)%nat ->
  (exists b, bind (rassert (Nat.leb g max)) (fun _ =>
          bind (bam_with_len max k) (fun b => Ok (bam_put b (le_bytes k n)))) = Ok b) <-> (k <= max)%nat.
Proof.
  intros Hg. unfold bam_with_len, rassert, bind.
  destruct (Nat.leb_spec g max); destruct (Nat.leb_spec k max); split; intros H'; try lia; eauto;
  destruct H' as [b Hb]; discriminate.
Qed.

Lemma bam_from_u16_iff max n : (exists b, bam_from_u16 max n = Ok b) <-> (2 <= max)%nat.
Proof. apply (bam_from_int_iff 1 2); lia. Qed.
Lemma bam_from_u32_iff max n : (exists b, bam_from_u32 max n = Ok b) <-> (4 <= max)%nat.
Proof. apply (bam_from_int_iff 4 4); lia. Qed.
Lemma bam_from_u64_iff max n : (exists b, bam_from_u64 max n = Ok b) <-> (8 <= max)%nat.
Proof. apply (bam_from_int_iff 8 8); lia. Qed.

Definition bam_inv (max : nat) (b : bam) : Prop :=
  length (bam_bytes b) = max /\ (bam_len b <= max)%nat /\
  skipn (bam_len b) (bam_bytes b) = repeat 0 (max - bam_len b).

Lemma skipn_skipn {A} n m (l : list A) : skipn n (skipn m l) = skipn (n + m) l.
Proof.
  revert l; induction m as [|m IH]; intros l.
  - now rewrite Nat.add_0_r.
  - rewrite Nat.add_succ_r. destruct l as [|x l]; cbn [skipn]; [now rewrite skipn_nil|]. apply IH.
Qed.

Lemma skipn_repeat {A} (x : A) n m : skipn n (repeat x m) = repeat x (m - n).
Proof.
  revert m; induction n as [|n IH]; intros m; cbn [skipn].
  - now rewrite Nat.sub_0_r.
  - destruct m as [|m]; cbn [repeat]; [reflexivity|]. rewrite IH. reflexivity.
Qed.

Lemma bam_inv_put max l :
  (length l <= max)%nat -> bam_inv max (bam_put {| bam_bytes := repeat 0 max; bam_len := length l |} l).
Proof.
  intros H. unfold bam_inv, bam_put; cbn [bam_bytes bam_len]. rewrite skipn_repeat.
  rewrite app_length, repeat_length. split; [lia|]. split; [lia|].
  rewrite skipn_app, skipn_all, Nat.sub_diag. reflexivity.
Qed.

Lemma bam_built_inv max b : bam_built max b -> bam_inv max b.
Proof.
  assert (forall n b, bam_with_len max n = Ok b -> (n <= max)%nat /\ b = {| bam_bytes := repeat 0 max; bam_len := n |}) as WL.
  { intros n b' H. unfold bam_with_len, rassert, bind in H. destruct (Nat.leb_spec n max); [|discriminate].
    injection H as <-. now split. }
  assert (forall k n b, (k <= max)%nat -> b = bam_put {| bam_bytes := repeat 0 max; bam_len := k |} (le_bytes k n) -> bam_inv max b) as IN.
  { intros k n b' Hk ->. pose proof (bam_inv_put max (le_bytes k n)) as P. rewrite le_bytes_length in P. now apply P. }
  induction 1 as [n b H|a b H|n b H|n b H|n b H|n b H|b b' k v HB IH H].
  - apply WL in H. destruct H as [H ->]. unfold bam_inv; cbn [bam_bytes bam_len].
    rewrite repeat_length, skipn_repeat. repeat split; lia.
  - unfold bam_from_array, rassert, bind in H. destruct (Nat.leb_spec (length a) max); [|discriminate].
    destruct (bam_with_len max (length a)) eqn:E; [|discriminate]. apply WL in E. destruct E as [E ->].
    injection H as <-. now apply bam_inv_put.
  - unfold bam_from_u8, bam_from_array, rassert, bind in H. destruct (Nat.leb_spec 1 max); [|discriminate].
    destruct (Nat.leb_spec (length [n]) max); [|discriminate].
    destruct (bam_with_len max (length [n])) eqn:E; [|discriminate]. apply WL in E. destruct E as [E ->].
    injection H as <-. now apply bam_inv_put.
  - unfold bam_from_u16, rassert, bind in H. destruct (Nat.leb_spec 1 max); [|discriminate].
    destruct (bam_with_len max 2) eqn:E; [|discriminate]. apply WL in E. destruct E as [E ->].
    apply (IN 2%nat n); [assumption|]. now injection H as H.
  - unfold bam_from_u32, rassert, bind in H. destruct (Nat.leb_spec 4 max); [|discriminate].
    destruct (bam_with_len max 4) eqn:E; [|discriminate]. apply WL in E. destruct E as [E ->].
    apply (IN 4%nat n); [assumption|]. now injection H as H.
  - unfold bam_from_u64, rassert, bind in H. destruct (Nat.leb_spec 8 max); [|discriminate].
    destruct (bam_with_len max 8) eqn:E; [|discriminate]. apply WL in E. destruct E as [E ->].
    apply (IN 8%nat n); [assumption|]. now injection H as H.
  - destruct IH as (L & Hl & Z). unfold bam_set in H.
    destruct (Nat.ltb_spec k (bam_len b)) as [Hk|]; [|discriminate]. apply Ok_inj in H; subst b'.
    unfold bam_inv; cbn [bam_bytes bam_len].
    rewrite app_length; cbn [length]. rewrite firstn_length, skipn_length. split; [lia|]. split; [lia|].
    rewrite skipn_app. rewrite (skipn_all2 (firstn k _)) by (rewrite firstn_length; lia).
    rewrite firstn_length, Nat.min_l by lia.
    replace (bam_len b - k)%nat with (S (bam_len b - S k)) by lia. rewrite skipn_cons.
    rewrite skipn_skipn. replace (bam_len b - S k + S k)%nat with (bam_len b) by lia. exact Z.
Qed.

Lemma bam_eq_iff max a b : bam_built max a -> bam_built max b -> (a = b <-> bam_ref a = bam_ref b).
Proof.
  intros Ha Hb. apply bam_built_inv in Ha, Hb. destruct Ha as (La & Ha & Za), Hb as (Lb & Hb & Zb).
  split; [now intros ->|]. intros E.
  assert (bam_len a = bam_len b) as EL.
  { apply (f_equal (@length Z)) in E. unfold bam_ref in E. rewrite !firstn_length in E. lia. }
  destruct a as [ba la], b as [bb lb]; unfold bam_ref in *; cbn [bam_bytes bam_len] in *. subst lb.
  f_equal. rewrite <- (firstn_skipn la ba), <- (firstn_skipn la bb). congruence.
Qed.

Lemma bam_set_ref b k v b' :
  bam_wf b -> bam_set b k v = Ok b' ->
  (k < bam_len b)%nat /\ bam_len b' = bam_len b /\
  bam_ref b' = firstn k (bam_ref b) ++ v :: skipn (S k) (bam_ref b).
Proof.
  intros Hw H. unfold bam_set in H. destruct (Nat.ltb_spec k (bam_len b)) as [Hk|]; [|discriminate].
  apply Ok_inj in H; subst b'. split; [assumption|]. split; [reflexivity|].
  unfold bam_ref, bam_wf in *; cbn [bam_bytes bam_len].
  rewrite firstn_app, firstn_firstn, firstn_length, !Nat.min_r by lia.
  rewrite (Nat.min_l k) by lia.
  rewrite firstn_firstn, Nat.min_l by lia. f_equal.
  replace (bam_len b - k)%nat with (S (bam_len b - S k)) by lia. cbn [firstn]. f_equal.
  rewrite skipn_firstn_comm. reflexivity.
Qed.
