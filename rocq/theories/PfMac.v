(** Lemmas about the Mach-O codecs: primitive fields, enumerations, bit sets. *)
From Coq Require Import ZifyBool ZifyNat Sorting.Sorted.
From Verif Require Import Base Str Mac SpecMacho.
From Verif Require Export PfBytes PfStr.
Ltac Zify.zify_post_hook ::= Z.div_mod_to_equations.

(** ** Primitive readers on a suffix of the input *)

Lemma rbind_uint_skip {B} n e off l (k : Z -> reader B) : (0 < n)%nat ->
  rbind (read_uint n e) k (skipn off l) =
  if Nat.leb (off + n) (length l) then k (fld e off n l) (skipn (off + n) l) else Panic.
Proof.
  intros Hn. unfold rbind, read_uint, rbind, read_exact, rret. rewrite skipn_length, skipn_skipn.
  unfold fld, slice. rewrite uint_val, (Nat.add_comm n off).
  destruct (Nat.leb_spec (off + n) (length l)), (Nat.leb_spec n (length l - off)); try lia; reflexivity.
Qed.
Lemma rbind_u8_skip {B} off l (k : Z -> reader B) :
  rbind read_u8 k (skipn off l) =
  if Nat.leb (off + 1) (length l) then k (fld Little off 1 l) (skipn (off + 1) l) else Panic.
Proof. apply rbind_uint_skip. lia. Qed.
Lemma rbind_u16_skip {B} e off l (k : Z -> reader B) :
  rbind (read_u16 e) k (skipn off l) =
  if Nat.leb (off + 2) (length l) then k (fld e off 2 l) (skipn (off + 2) l) else Panic.
Proof. apply rbind_uint_skip. lia. Qed.
Lemma rbind_u32_skip {B} e off l (k : Z -> reader B) :
  rbind (read_u32 e) k (skipn off l) =
  if Nat.leb (off + 4) (length l) then k (fld e off 4 l) (skipn (off + 4) l) else Panic.
Proof. apply rbind_uint_skip. lia. Qed.
Lemma rbind_u64_skip {B} e off l (k : Z -> reader B) :
  rbind (read_u64 e) k (skipn off l) =
  if Nat.leb (off + 8) (length l) then k (fld e off 8 l) (skipn (off + 8) l) else Panic.
Proof. apply rbind_uint_skip. lia. Qed.

Lemma fld_range e off n l : bytes_ok l -> (off + n <= length l)%nat -> inu (8 * Z.of_nat n) (fld e off n l).
Proof.
  intros H L. unfold fld. rewrite uint_val. apply val_of_range; [|now apply slice_length].
  unfold slice. now apply bytes_ok_firstn, bytes_ok_skipn.
Qed.
Lemma fld1_endian e e' off l : fld e off 1 l = fld e' off 1 l.
Proof.
  unfold fld. set (s := slice off 1 l).
  assert (length s <= 1)%nat by (unfold s, slice; rewrite firstn_length; lia).
  destruct s as [|a [|b s]]; cbn [length] in *; [| |lia]; now destruct e, e'.
Qed.

Lemma rbind_i32_skip {B} e off l (k : Z -> reader B) : bytes_ok l ->
  rbind (read_i32 e) k (skipn off l) =
  if Nat.leb (off + 4) (length l) then k (fld_i32 e off l) (skipn (off + 4) l) else Panic.
Proof.
  intros Hb.
  pose proof (rbind_u32_skip e off l (fun n => rret (wrapi 32 n))) as H.
  unfold read_i32. unfold rbind at 1. rewrite H.
  destruct (Nat.leb_spec (off + 4) (length l)) as [L|L]; [|reflexivity].
  unfold rret. unfold fld_i32. now rewrite wrapi_signed by now apply fld_range.
Qed.

Lemma hd_split_nul l : hd [] (split is_nul l) = until_nul l.
Proof.
  induction l as [|b l IH]; [reflexivity|]. cbn [split until_nul]. unfold is_nul at 1.
  destruct (b =? 0); [reflexivity|]. rewrite <- IH. destruct (split is_nul l); reflexivity.
Qed.
Lemma until_nul_bytes l : bytes_ok l -> bytes_ok (until_nul l).
Proof.
  induction 1 as [|b l Hb Hl IH]; cbn [until_nul]; [constructor|].
  destruct (b =? 0); [constructor|]. now constructor.
Qed.

Lemma rbind_name_skip {B} n off l (k : str -> reader B) :
  (0 < n)%nat ->
  rbind (read_fixed_size_string n) k (skipn off l) =
  if Nat.leb (off + n) (length l)
  then match from_utf8 (fld_name off n l) with
       | Some s => k s (skipn (off + n) l)
       | None => Panic
       end
  else Panic.
Proof.
  intros Hn. unfold rbind, read_fixed_size_string, rbind, read_exact, rlift.
  rewrite skipn_length, skipn_skipn, (Nat.add_comm n off).
  destruct (Nat.leb_spec (off + n) (length l)), (Nat.leb_spec n (length l - off)); try lia; [|reflexivity].
  change (fun b : Z => b =? 0) with is_nul. rewrite hd_split_nul.
  unfold fld_name, slice. destruct (from_utf8 _); reflexivity.
Qed.
Lemma fld_name_utf8 off n l s : bytes_ok l ->
  (from_utf8 (fld_name off n l) = Some s <-> str_ok s /\ fld_name off n l = utf8 s).
Proof.
  intros Hb. split.
  - intros H. apply from_utf8_inv in H; [|].
    + destruct H as [H1 H2]. split; [exact H1|now symmetry].
    + unfold fld_name, slice. now apply until_nul_bytes, bytes_ok_firstn, bytes_ok_skipn.
  - intros [H1 ->]. now apply from_utf8_utf8.
Qed.

(** ** Writing names *)

Lemma until_nul_app_nul a l : Forall (fun c => 1 <= c < 128) a -> until_nul (a ++ 0 :: l) = a.
Proof.
  induction 1 as [|c a Hc Ha IH]; [reflexivity|]. cbn [app until_nul].
  replace (c =? 0) with false by lia. now rewrite IH.
Qed.
Lemma until_nul_none a : Forall (fun c => 1 <= c < 128) a -> until_nul a = a.
Proof.
  induction 1 as [|c a Hc Ha IH]; [reflexivity|]. cbn [app until_nul].
  replace (c =? 0) with false by lia. now rewrite IH.
Qed.
Lemma until_nul_pad a n : Forall (fun c => 1 <= c < 128) a -> until_nul (a ++ repeat 0 n) = a.
Proof.
  intros H. destruct n as [|n]; cbn [repeat].
  - rewrite app_nil_r. now apply until_nul_none.
  - now apply until_nul_app_nul.
Qed.
Lemma name16_ascii s : name16 s -> ascii_str s.
Proof. intros [H _]. revert H. apply Forall_impl. lia. Qed.

Lemma write_name_ok s n : ascii_str s -> (length s <= n)%nat ->
  write_fixed_size_string s n = (s ++ repeat 0 (n - length s), true).
Proof.
  intros H L. unfold write_fixed_size_string, str_len.
  rewrite (proj2 (str_is_ascii_iff s (ascii_str_ok s H)) H), utf8_ascii, map_wrapu8_ascii by assumption.
  unfold zlen. replace (Z.of_nat (length s) <=? Z.of_nat n) with true by lia. reflexivity.
Qed.
Definition name_bytes (s : str) : list Z := s ++ repeat 0 (16 - length s).
Lemma write_name16 s : name16 s -> write_fixed_size_string s 16 = (name_bytes s, true).
Proof. intros H. apply write_name_ok; [now apply name16_ascii|apply H]. Qed.
Lemma name_bytes_length s : name16 s -> length (name_bytes s) = 16%nat.
Proof. intros [_ H]. unfold name_bytes. rewrite app_length, repeat_length. lia. Qed.
Lemma name_bytes_ok s : name16 s -> bytes_ok (name_bytes s).
Proof.
  intros H. apply bytes_ok_app. split; [|apply bytes_ok_repeat0]. now apply ascii_bytes, name16_ascii.
Qed.
Lemma fld_name_hd s l : name16 s -> fld_name 0 16 (name_bytes s ++ l) = utf8 s.
Proof.
  intros H. unfold fld_name. rewrite slice_hd by now apply name_bytes_length.
  rewrite utf8_ascii by now apply name16_ascii. apply until_nul_pad. apply H.
Qed.

(** ** Enumerations *)

Lemma from_prim_iff {A} (disc : A -> Z) all n a :
  (forall x, In x all) -> (forall x y, disc x = disc y -> x = y) ->
  (unwrap (from_prim disc all n) = Ok a <-> disc a = n).
Proof.
  intros Hall Hinj. rewrite unwrap_ok. unfold from_prim. split.
  - intros H. apply find_some in H. lia.
  - intros <-. destruct (find (fun a0 => disc a0 =? disc a) all) as [b|] eqn:E.
    + apply find_some in E. f_equal. apply Hinj. lia.
    + exfalso. pose proof (find_none _ _ E a (Hall a)) as F. cbn beta in F. lia.
Qed.
Ltac enum := apply from_prim_iff;
  [ intros []; cbn; tauto
  | intros [] []; cbn; intros; congruence || discriminate ].

Lemma magic_from_iff n m : magic_from_u32 n = Ok m <-> magic_num m = n.
Proof. replace (magic_num m) with (magic_to_u32 m) by now destruct m. enum. Qed.
Lemma file_type_from_iff n m : file_type_from_u32 n = Ok m <-> file_type_num m = n.
Proof. replace (file_type_num m) with (file_type_to_u32 m) by now destruct m. enum. Qed.
Lemma section_type_from_iff n m : section_type_from_u32 n = Ok m <-> section_type_num m = n.
Proof. replace (section_type_num m) with (section_type_to_u32 m) by now destruct m. enum. Qed.
Lemma platform_from_iff n m : platform_from_u32 n = Ok m <-> platform_num m = n.
Proof. replace (platform_num m) with (platform_to_u32 m) by now destruct m. enum. Qed.
Lemma tool_from_iff n m : tool_from_u32 n = Ok m <-> tool_num m = n.
Proof. replace (tool_num m) with (tool_to_u32 m) by now destruct m. enum. Qed.
Lemma n_type_from_iff n m : n_type_from_u8 n = Ok m <-> n_type_num m = n.
Proof. replace (n_type_num m) with (n_type_to_u8 m) by now destruct m. enum. Qed.
Lemma reloc_length_from_iff n m : reloc_length_from_u32 n = Ok m <-> reloc_length_num m = n.
Proof. replace (reloc_length_num m) with (reloc_length_to_u32 m) by now destruct m. enum. Qed.
Lemma flag_from_iff n m : flag_from_u32 n = Ok m <-> 2 ^ flag_bit m = n.
Proof. replace (2 ^ flag_bit m) with (flag_to_u32 m) by now destruct m. enum. Qed.
Lemma section_attr_from_iff n m : section_attr_from_u32 n = Ok m <-> 2 ^ attr_bit m = n.
Proof. replace (2 ^ attr_bit m) with (section_attr_to_u32 m) by now destruct m. enum. Qed.

Lemma cpu_from_iff t s c : cpu_from t s = Ok c <-> cpu_nums c = (t, s).
Proof.
  unfold cpu_from, CPU_TYPE_X86_64, CPU_TYPE_X86, CPU_ARCH_ABI64.
  change (Z.lor 7 16777216) with 16777223.
  destruct (t =? 7) eqn:E1; [|destruct (t =? 16777223) eqn:E2].
  - unfold from_prim, find, cpu_sub_x86_n. destruct (3 =? s) eqn:E3; cbn [unwrap bind].
    + split; [intros H; injection H as <-; cbn; f_equal; lia|].
      destruct c as [[]|[]]; cbn; intros H; injection H; intros; [reflexivity|lia].
    + split; [discriminate|]. destruct c as [[]|[]]; cbn; intros H; injection H; lia.
  - unfold from_prim, find, cpu_sub_x86_64_n. destruct (3 =? s) eqn:E3; cbn [unwrap bind].
    + split; [intros H; injection H as <-; cbn; f_equal; lia|].
      destruct c as [[]|[]]; cbn; intros H; injection H; intros; [lia|reflexivity].
    + split; [discriminate|]. destruct c as [[]|[]]; cbn; intros H; injection H; lia.
  - split; [discriminate|]. destruct c as [[]|[]]; cbn; intros H; injection H; lia.
Qed.

(** ** Bit sets *)

Lemma land_shiftl_1 n i : 0 <= i -> Z.land n (Z.shiftl 1 i) = if Z.testbit n i then 2 ^ i else 0.
Proof.
  intros Hi. rewrite Z.shiftl_1_l. apply Z.bits_inj'. intros k Hk.
  rewrite Z.land_spec, Z.pow2_bits_eqb by lia.
  destruct (Z.eqb_spec i k) as [->|Hne].
  - rewrite andb_true_r. destruct (Z.testbit n k) eqn:E; [now rewrite Z.pow2_bits_true|now rewrite Z.bits_0].
  - rewrite andb_false_r. destruct (Z.testbit n i); [now rewrite Z.pow2_bits_false|now rewrite Z.bits_0].
Qed.

Section Bits.
  Variable A : Type.
  Variable bit : A -> Z.
  Variable from : Z -> res A.
  Variable to : A -> Z.
  Hypothesis bit_pos : forall a, 0 <= bit a.
  Hypothesis from_iff : forall n a, from n = Ok a <-> 2 ^ bit a = n.
  Hypothesis to_eq : forall a, to a = 2 ^ bit a.

  Lemma bits_from_iff n is fs : Forall (fun i => 0 <= i) is ->
    (bits_from from n is = Ok fs <-> map bit fs = bits_in n is).
  Proof using bit_pos from_iff. clear to_eq to.
    intros H. revert fs. induction H as [|i is Hi Hs IH]; intros fs.
    - cbn. split; [intros E; now injection E as <-|]. destruct fs; [reflexivity|discriminate].
    - unfold bits_in in *. cbn [bits_from filter]. rewrite land_shiftl_1 by assumption.
      destruct (Z.testbit n i) eqn:T.
      + assert (0 < 2 ^ i) by (apply Z.pow_pos_nonneg; lia).
        replace (2 ^ i =? 0) with false by lia. cbn [negb]. split.
        * destruct (from (2 ^ i)) as [a|] eqn:Fr; [|discriminate]. cbn [bind].
          destruct (bits_from from n is) as [fs'|] eqn:Er; [|discriminate]. cbn [bind].
          intros E; injection E as <-. cbn [map]. f_equal.
          -- apply from_iff in Fr. apply Z.pow_inj_r in Fr; [exact Fr|lia|auto|lia].
          -- now apply IH.
        * destruct fs as [|a fs]; [discriminate|]. cbn [map]. intros E. injection E as E1 E2.
          assert (from (2 ^ i) = Ok a) as -> by (apply from_iff; now rewrite E1).
          cbn [bind]. apply IH in E2. now rewrite E2.
      + cbn [Z.eqb negb]. apply IH.
  Qed.

  Lemma to_bitset fs : is_bitset bit fs (fold_left (fun n f => Z.lor n (to f)) fs 0).
  Proof using bit_pos to_eq. clear from_iff from.
    assert (G : forall acc i, 0 <= i ->
      Z.testbit (fold_left (fun n f => Z.lor n (to f)) fs acc) i = true <->
      Z.testbit acc i = true \/ exists a, In a fs /\ bit a = i).
    { induction fs as [|f fs IH]; intros acc i Hi; cbn [fold_left].
      - split; [now left|]. intros [H|(a & [] & _)]; exact H.
      - rewrite IH by assumption. rewrite Z.lor_spec, orb_true_iff, to_eq, Z.pow2_bits_eqb by auto.
        rewrite Z.eqb_eq. split.
        + intros [[H|H]|(a & H1 & H2)]; [now left|right; exists f; now split; [left|]|].
          right; exists a; now split; [right|].
        + intros [H|(a & [<-|H1] & H2)]; [tauto|tauto|]. right. now exists a. }
    intros i Hi. rewrite G by assumption. rewrite Z.bits_0. split; [intros [H|H]; [discriminate|exact H]|now right].
  Qed.

  Lemma bitset_unique fs w w' : 0 <= w -> 0 <= w' -> is_bitset bit fs w -> is_bitset bit fs w' -> w = w'.
  Proof using. clear to_eq to from_iff from bit_pos.
    intros Hw Hw' H H'. apply Z.bits_inj'. intros i Hi. specialize (H i Hi). specialize (H' i Hi).
    destruct (Z.testbit w i), (Z.testbit w' i); try reflexivity; exfalso;
      [assert (false = true) by (apply H', H; reflexivity)|assert (false = true) by (apply H, H'; reflexivity)];
      discriminate.
  Qed.

  (** a list of the bits of [w] within the range is a bit set of [w] if [w] has no others *)
  Lemma bits_in_bitset fs w is :
    (forall i, 0 <= i -> Z.testbit w i = true -> In i is) ->
    map bit fs = bits_in w is -> is_bitset bit fs w.
  Proof using. clear to_eq to from_iff from bit_pos.
    intros Hr E i Hi. split.
    - intros T. assert (I : In i (bits_in w is)) by (apply filter_In; auto).
      rewrite <- E in I. apply in_map_iff in I. destruct I as (a & H1 & H2). now exists a.
    - intros (a & H1 & <-). assert (I : In (bit a) (map bit fs)) by now apply in_map.
      rewrite E in I. apply filter_In in I. apply I.
  Qed.

  Lemma bits_in_exists fs w is : Forall (fun i => 0 <= i) is -> is_bitset bit fs w ->
    exists fs', map bit fs' = bits_in w is.
  Proof using. clear to_eq to from_iff from bit_pos.
    intros Hp H. induction is as [|i is IH]; [now exists []|].
    inversion_clear Hp as [|? ? Hi Hp']. destruct (IH Hp') as (fs' & E). unfold bits_in in *. cbn [filter].
    destruct (Z.testbit w i) eqn:T; [|now exists fs'].
    apply H in T; [|exact Hi]. destruct T as (a & _ & Ha). exists (a :: fs'). cbn [map]. now rewrite Ha, E.
  Qed.
End Bits.

Lemma zrange_count lo n : zrange lo n = count_from lo n.
Proof.
  unfold zrange. assert (G : forall k, map (fun j => lo + Z.of_nat j) (seq k n) = count_from (lo + Z.of_nat k) n).
  { induction n as [|n IH]; intros k; [reflexivity|]. cbn [seq map count_from]. f_equal.
    rewrite IH. f_equal. lia. }
  rewrite G. f_equal. lia.
Qed.
Lemma count_from_in lo n i : In i (count_from lo n) <-> lo <= i < lo + Z.of_nat n.
Proof.
  revert lo; induction n as [|n IH]; intros lo; cbn [count_from In].
  - lia.
  - rewrite IH. lia.
Qed.
Lemma count_from_pos lo n : 0 <= lo -> Forall (fun i => 0 <= i) (count_from lo n).
Proof. intros H. apply Forall_forall. intros i Hi. apply count_from_in in Hi. lia. Qed.
Lemma count_from_sorted lo n : StronglySorted Z.lt (count_from lo n).
Proof.
  revert lo; induction n as [|n IH]; intros lo; cbn [count_from]; constructor; [apply IH|].
  apply Forall_forall. intros i Hi. apply count_from_in in Hi. lia.
Qed.
Lemma sorted_filter (f : Z -> bool) l : StronglySorted Z.lt l -> StronglySorted Z.lt (filter f l).
Proof.
  induction 1 as [|a l Hs IH Hf]; cbn [filter]; [constructor|].
  destruct (f a); [|exact IH]. constructor; [exact IH|].
  apply Forall_forall. intros x Hx. apply filter_In in Hx. rewrite Forall_forall in Hf. now apply Hf.
Qed.

Lemma flag_bit_pos f : 0 <= flag_bit f.
Proof. destruct f; cbn; lia. Qed.
Lemma attr_bit_pos f : 0 <= attr_bit f.
Proof. destruct f; cbn; lia. Qed.
Lemma flag_to_eq f : flag_to_u32 f = 2 ^ flag_bit f.
Proof. now destruct f. Qed.
Lemma attr_to_eq f : section_attr_to_u32 f = 2 ^ attr_bit f.
Proof. now destruct f. Qed.

Lemma flags_from_iff n fs :
  flags_from_u32 n = Ok fs <-> map flag_bit fs = bits_in n (count_from 0 32).
Proof.
  unfold flags_from_u32. rewrite zrange_count. apply bits_from_iff.
  - apply flag_bit_pos.
  - apply flag_from_iff.
  - apply count_from_pos. lia.
Qed.
Lemma attrs_from_iff n fs :
  section_attrs_from_u32 n = Ok fs <-> map attr_bit fs = bits_in n (count_from 8 24).
Proof.
  unfold section_attrs_from_u32. rewrite zrange_count. apply bits_from_iff.
  - apply attr_bit_pos.
  - apply section_attr_from_iff.
  - apply count_from_pos. lia.
Qed.
Lemma flags_to_bitset fs : is_bitset flag_bit fs (flags_to_u32 fs).
Proof. apply (to_bitset _ flag_bit flag_to_u32 flag_bit_pos flag_to_eq). Qed.
Lemma attrs_to_bitset fs : is_bitset attr_bit fs (section_attrs_to_u32 fs).
Proof. apply (to_bitset _ attr_bit section_attr_to_u32 attr_bit_pos attr_to_eq). Qed.

Lemma testbit_bound w n i : inu n w -> 0 <= n <= i -> Z.testbit w i = false.
Proof.
  intros [H0 H] Hi. destruct (Z.eq_dec w 0) as [->|Hw]; [apply Z.bits_0|].
  apply Z.bits_above_log2; [exact H0|]. apply Z.log2_lt_pow2; [lia|].
  apply Z.lt_le_trans with (1 := H). apply Z.pow_le_mono_r; lia.
Qed.
Lemma bound_testbit w n : 0 <= w -> 0 <= n -> (forall i, n <= i -> Z.testbit w i = false) -> inu n w.
Proof.
  intros H0 Hn H. split; [exact H0|]. destruct (Z.eq_dec w 0) as [->|Hw]; [now apply Z.pow_pos_nonneg|].
  apply Z.log2_lt_pow2; [lia|]. destruct (Z.lt_ge_cases (Z.log2 w) n) as [L|L]; [exact L|].
  specialize (H _ L). rewrite Z.bit_log2 in H by lia. discriminate.
Qed.
Lemma fold_lor_nonneg {A} (to : A -> Z) (Ht : forall a, 0 <= to a) fs acc : 0 <= acc ->
  0 <= fold_left (fun n f => Z.lor n (to f)) fs acc.
Proof.
  revert acc; induction fs as [|f fs IH]; intros acc H; cbn [fold_left]; [exact H|].
  apply IH. apply Z.lor_nonneg. split; [exact H|apply Ht].
Qed.
Lemma flags_to_range fs : inu 32 (flags_to_u32 fs).
Proof.
  apply bound_testbit; [|lia|].
  - apply fold_lor_nonneg; [|lia]. intros []; cbn; lia.
  - intros i Hi. destruct (Z.testbit _ i) eqn:T; [|reflexivity].
    apply flags_to_bitset in T; [|lia]. destruct T as (a & _ & H). destruct a; cbn in H; lia.
Qed.
Lemma attrs_to_range fs : inu 32 (section_attrs_to_u32 fs).
Proof.
  apply bound_testbit; [|lia|].
  - apply fold_lor_nonneg; [|lia]. intros []; cbn; lia.
  - intros i Hi. destruct (Z.testbit _ i) eqn:T; [|reflexivity].
    apply attrs_to_bitset in T; [|lia]. destruct T as (a & _ & H). destruct a; cbn in H; lia.
Qed.
Lemma attrs_to_low fs i : 0 <= i < 8 -> Z.testbit (section_attrs_to_u32 fs) i = false.
Proof.
  intros Hi. destruct (Z.testbit _ i) eqn:T; [|reflexivity].
  apply attrs_to_bitset in T; [|lia]. destruct T as (a & _ & H). destruct a; cbn in H; lia.
Qed.
