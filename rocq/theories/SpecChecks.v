(** The specifications themselves, checked: where a specification is a relation it leaves no
    choice, where it is a condition it is met by the extreme values and not by the next ones, and
    the decoder agrees with encodings made by hand from the SDM.  Nothing here is about the code. *)
From Coq Require String.
Import String.StringSyntax.
From Verif Require Import Base Str X64 Mac SpecMacho SpecX86 Asm SpecAsm SpecDbg Derive SpecDerive SpecEnc.

(** ** The decoder of SpecX86.v: operand sizes *)
Example push_sizes :
  decode [0x50] = Some (OPush 64 0, []) /\ decode [0x66; 0x50] = Some (OPush 16 0, []) /\
  decode [0x48; 0x50] = Some (OPush 64 0, []) /\ decode [0x66; 0x48; 0x50] = Some (OPush 64 0, []) /\
  decode [0x66; 0x41; 0x5F] = Some (OPop 16 15, []) /\ decode [0x66; 0x49; 0x5F] = Some (OPop 64 15, []) /\
  decode [0x66; 0x68; 0xFE; 0xFF; 7] = Some (OPushImm 16 (-2), [7]) /\
  decode [0x68; 0xFE; 0xFF; 0xFF; 0xFF; 7] = Some (OPushImm 64 (-2), [7]) /\
  decode [0x66; 0x6A; 0x80] = Some (OPushImm 16 (-128), []).
Proof. repeat split; reflexivity. Qed.
Example mov_sizes :
  decode [0x89; 0xC8] = Some (OMovStore 32 (RmReg 0) 1, []) /\ decode [0x66; 0x89; 0xC8] = Some (OMovStore 16 (RmReg 0) 1, []) /\
  decode [0x66; 0x48; 0x89; 0xC8] = Some (OMovStore 64 (RmReg 0) 1, []) /\
  decode [0x44; 0x8B; 0xC8] = Some (OMovLoad 32 9 (RmReg 0), []) /\ decode [0x41; 0x8B; 0xC8] = Some (OMovLoad 32 1 (RmReg 8), []) /\
  decode [0xB9; 1; 2; 3; 4; 5] = Some (OMovImm 32 1 0x04030201, [5]) /\
  decode [0x66; 0xB9; 1; 2; 3] = Some (OMovImm 16 1 0x0201, [3]) /\
  decode [0x49; 0xBF; 1; 0; 0; 0; 0; 0; 0; 0x80] = Some (OMovImm 64 15 0x8000000000000001, []).
Proof. repeat split; reflexivity. Qed.
(** SDM vol. 2 table 2-2, 2-3 and the notes below them *)
Example address_forms : let lea r b i d := Some (OLea 64 r {| a_base := b; a_index := i; a_disp := d |}, []) in
  decode [0x48; 0x8D; 0x00] = lea 0 (BReg 0) None 0 /\
  decode [0x48; 0x8D; 0x05; 0xFF; 0xFF; 0xFF; 0xFF] = lea 0 BRip None (-1) /\
  decode [0x49; 0x8D; 0x05; 1; 0; 0; 0] = lea 0 BRip None 1 /\                       (* REX.B does not matter *)
  decode [0x48; 0x8D; 0x45; 0] = lea 0 (BReg 5) None 0 /\ decode [0x49; 0x8D; 0x45; 0x7F] = lea 0 (BReg 13) None 127 /\
  decode [0x48; 0x8D; 0x04; 0x24] = lea 0 (BReg 4) None 0 /\ decode [0x49; 0x8D; 0x04; 0x24] = lea 0 (BReg 12) None 0 /\
  decode [0x4A; 0x8D; 0x04; 0x24] = lea 0 (BReg 4) (Some (12, 0)) 0 /\                (* r12 can be an index, rsp not *)
  decode [0x48; 0x8D; 0x04; 0xE4] = lea 0 (BReg 4) None 0 /\
  decode [0x48; 0x8D; 0x04; 0x25; 0; 0; 0; 0x80] = lea 0 BNone None (- 2 ^ 31) /\
  decode [0x49; 0x8D; 0x04; 0x25; 8; 0; 0; 0] = lea 0 BNone None 8 /\
  decode [0x49; 0x8D; 0x44; 0x85; 8] = lea 0 (BReg 13) (Some (0, 2)) 8 /\
  decode [0x4C; 0x8D; 0xBC; 0xD3; 0; 1; 0; 0] = lea 15 (BReg 3) (Some (2, 3)) 256 /\
  decode [0x48; 0x8D; 0xC0] = None.
Proof. repeat split; reflexivity. Qed.
(** too short, and opcodes that are not described *)
Example not_decoded : decode [] = None /\ decode [0x48] = None /\ decode [0x66] = None /\ decode [0x0F] = None /\
  decode [0x0F; 0x0B] = None /\ decode [0x90] = None /\ decode [0xB8; 1; 2; 3] = None /\ decode [0x89] = None /\
  decode [0x89; 0x44; 0x24] = None /\ decode [0x89; 0x84; 0x24; 0; 0; 0] = None.
Proof. repeat split; reflexivity. Qed.

(** ** The machine of SpecX86.v *)
(** a write of 64 bits replaces a register, one of 32 clears its upper half, one of 16 keeps the rest *)
Example register_writes : let f := upd (fun _ => 0) 3 0x1122334455667788 in
  set_reg 64 f 3 (2 ^ 64 + 5) 3 = 5 /\ set_reg 32 f 3 0xFFFFFFFF9 3 = 0xFFFFFFF9 /\ set_reg 16 f 3 0x1FFFF 3 = 0x112233445566FFFF /\
  set_reg 16 f 3 7 4 = 0.
Proof. repeat split; reflexivity. Qed.
(** memory wraps at 2^64 *)
Example memory_wraps : let m := store 4 (fun _ => 0) (2 ^ 64 - 2) 0x04030201 in
  map m [2 ^ 64 - 3; 2 ^ 64 - 2; 2 ^ 64 - 1; 0; 1; 2] = [0; 1; 2; 3; 4; 0] /\ load 4 m (2 ^ 64 - 2) = 0x04030201.
Proof. split; reflexivity. Qed.
Lemma store_load_same n f a v : 0 <= v < 2 ^ (8 * Z.of_nat n) -> Z.of_nat n <= W64 -> load n (store n f a v) a = v.
Proof.
  intros V N. unfold load.
  assert (H : forall k j, (j + k = n)%nat -> fetch k (store n f a v) (a + Z.of_nat j) = map (byte_of v) (map Z.of_nat (seq j k))).
  { induction k as [|k IH]; intros j E; [reflexivity|]. cbn [fetch seq map]. f_equal.
    - unfold store. replace ((a + Z.of_nat j) mod W64 - a) with ((a + Z.of_nat j) mod W64 - a) by reflexivity.
      assert (Q : ((a + Z.of_nat j) mod W64 - a) mod W64 = Z.of_nat j).
      { rewrite Zminus_mod_idemp_l. replace (a + Z.of_nat j - a) with (Z.of_nat j) by lia. apply Z.mod_small. lia. }
      rewrite Q. destruct (Z.ltb_spec (Z.of_nat j) (Z.of_nat n)); [reflexivity|lia].
    - replace (a + Z.of_nat j + 1) with (a + Z.of_nat (S j)) by lia. apply IH. lia. }
  specialize (H n 0%nat eq_refl). replace (a + Z.of_nat 0) with a in H by lia. rewrite H. clear H N f a.
  assert (G : forall k j w, w = v / 2 ^ (8 * Z.of_nat j) -> 0 <= w < 2 ^ (8 * Z.of_nat k) ->
    lev (map (byte_of v) (map Z.of_nat (seq j k))) = w).
  { induction k as [|k IH]; intros j w E B.
    - replace (8 * Z.of_nat 0) with 0 in B by lia. change (2 ^ 0) with 1 in B. cbn. lia.
    - cbn [seq map lev]. unfold byte_of at 1. rewrite <- E.
      rewrite (IH (S j) (w / 256)).
      + pose proof (Z.div_mod w 256). lia.
      + rewrite E, Z.div_div by (try apply Z.pow_nonzero; try apply Z.pow_pos_nonneg; lia).
        f_equal. replace 256 with (2 ^ 8) by reflexivity. rewrite <- Z.pow_add_r by lia. f_equal. lia.
      + split; [apply Z.div_pos; lia|]. apply Z.div_lt_upper_bound; [lia|].
        replace 256 with (2 ^ 8) by reflexivity. rewrite <- Z.pow_add_r by lia.
        replace (8 + 8 * Z.of_nat k) with (8 * Z.of_nat (S k)) by lia. lia. }
  apply (G n 0%nat); [|exact V]. replace (8 * Z.of_nat 0) with 0 by lia. change (2 ^ 0) with 1. now rewrite Z.div_1_r.
Qed.

(** ** Single bits: one byte only *)
Lemma bit_set_unique k v x y y' : bit_set k v x y -> bit_set k v x y' -> y = y'.
Proof.
  intros [B H] [B' H']. apply Z.bits_inj'. intros i Hi.
  destruct (Z.lt_ge_cases i 8) as [L|L]; [now rewrite H, H' by lia|].
  unfold inu in B, B'. change (2 ^ 8) with 256 in B, B'.
  assert (G : forall z, 0 <= z < 256 -> Z.testbit z i = false).
  { intros z Bz. destruct (Z.eq_dec z 0) as [->|N]; [apply Z.bits_0|]. apply Z.bits_above_log2; [lia|].
    apply Z.log2_lt_pow2; [lia|]. apply Z.lt_le_trans with 256; [lia|]. change 256 with (2 ^ 8). apply Z.pow_le_mono_r; lia. }
  now rewrite !G.
Qed.
(** the three fields of a ModRM byte can be read back *)
Lemma modrm_byte_fields m r b : 0 <= m <= 3 -> 0 <= r <= 7 -> 0 <= b <= 7 ->
  inu 8 (modrm_byte m r b) /\ modrm_byte m r b / 64 = m /\ (modrm_byte m r b / 8) mod 8 = r /\ modrm_byte m r b mod 8 = b.
Proof.
  intros. unfold modrm_byte, inu. change (2 ^ 8) with 256. split; [lia|].
  repeat split; Z.div_mod_to_equations; lia.
Qed.

(** ** Values of the Rust types: the largest are in, the next is not *)
Example value_extremes :
  value_ok (VExpr 0) /\ value_ok (VExpr (2 ^ 64 - 1)) /\ ~ value_ok (VExpr (2 ^ 64)) /\ ~ value_ok (VExpr (-1)) /\
  value_ok (VGlobalSymbol [0; 0xD7FF; 0xE000; 0x10FFFF]) /\ ~ value_ok (VGlobalSymbol [0xD800]) /\ ~ value_ok (VParseError [0x110000]) /\
  value_ok (VVersion {| v_major := 0xFFFF; v_minor := 0xFF; v_release := 0xFF |}) /\
  ~ value_ok (VVersion {| v_major := 0x10000; v_minor := 0; v_release := 0 |}) /\
  ~ value_ok (VVersion {| v_major := 0; v_minor := 0x100; v_release := 0 |}) /\
  value_ok (VRelocInfo {| r_address := - 2 ^ 31; r_symbolnum := 2 ^ 32 - 1; r_pcrel := true; r_length := LenByte; r_extern := false; r_type := 255 |}) /\
  ~ value_ok (VRelocInfo {| r_address := 2 ^ 31; r_symbolnum := 0; r_pcrel := true; r_length := LenByte; r_extern := false; r_type := 0 |}) /\
  value_ok (VData {| da_label := None; da_bytes := [0; 255] |}) /\ ~ value_ok (VData {| da_label := None; da_bytes := [256] |}).
Proof.
  cbn [value_ok version_rng reloc_rng v_major v_minor v_release r_address r_symbolnum r_type da_bytes da_label].
  unfold version_rng, reloc_rng, str_ok, bytes_ok, ischar, isbyte, inu, ini. cbn [v_major v_minor v_release r_address r_symbolnum r_type].
  repeat match goal with
  | |- _ /\ _ => split
  | |- ~ _ => let H := fresh in intro H
  | |- Forall _ _ => constructor
  | |- True => exact I
  | H : _ /\ _ |- _ => destruct H
  | H : Forall _ (_ :: _) |- _ => inversion H; subst; clear H
  | |- _ => lia
  end.
Qed.
(** the condition on the escaping of strings leaves printable characters free *)
Example escapes_minimal : escapes_control (fun _ c => (c <? 32) || (c =? 127)) /\
  ~ escapes_control (fun _ c => c <? 32) /\ ~ escapes_control (fun _ c => (c <? 31) || (c =? 127)).
Proof.
  split; [|split].
  - intros i c [H| ->]; [|reflexivity]. apply orb_true_iff. left. apply Z.ltb_lt. lia.
  - intro H. specialize (H 0%nat 127 (or_intror eq_refl)). discriminate H.
  - intro H. assert (B : 1 <= 31 < 32 \/ 31 = 127) by lia. specialize (H 0%nat 31 B). discriminate H.
Qed.
Example upper_letters : map upper (lit "azAZ09_{`") = lit "AZAZ09_{`".
Proof. reflexivity. Qed.
