(** Headers, load commands, and the codec properties C10-C22. *)
From Coq Require Import ZifyBool ZifyNat Sorting.Sorted.
From Verif Require Import Base Str Mac SpecMacho.
From Verif Require Export PfMacRead.
Ltac Zify.zify_post_hook ::= Z.div_mod_to_equations.

(** ** canonical lists *)

Lemma mem_bit_iff {A} (bit : A -> Z) (inj : forall a b, bit a = bit b -> a = b) a l :
  mem_bit bit a l = true <-> In a l.
Proof.
  unfold mem_bit. rewrite existsb_exists. split.
  - intros (b & Hb & E). apply Z.eqb_eq, inj in E. now subst b.
  - intros H. exists a. split; [exact H|apply Z.eqb_refl].
Qed.
Lemma attr_bit_inj a b : attr_bit a = attr_bit b -> a = b.
Proof. destruct a, b; cbn; congruence. Qed.
Lemma flag_bit_inj a b : flag_bit a = flag_bit b -> a = b.
Proof. destruct a, b; cbn; congruence. Qed.
Lemma attr_order_in a : In a attr_order.
Proof. destruct a; cbn; tauto. Qed.
Lemma flag_order_in a : In a flag_order.
Proof. destruct a; cbn; tauto. Qed.
Lemma sort_attrs_in a l : In a (sort_attrs l) <-> In a l.
Proof.
  unfold sort_attrs. rewrite filter_In, (mem_bit_iff attr_bit attr_bit_inj). pose proof (attr_order_in a). tauto.
Qed.
Lemma sort_flags_in a l : In a (sort_flags l) <-> In a l.
Proof.
  unfold sort_flags. rewrite filter_In, (mem_bit_iff flag_bit flag_bit_inj). pose proof (flag_order_in a). tauto.
Qed.
Lemma map_filter_sorted {A} (bit : A -> Z) f l : StronglySorted Z.lt (map bit l) -> StronglySorted Z.lt (map bit (filter f l)).
Proof.
  induction l as [|a l IH]; cbn [map filter]; [auto|]. intros H. inversion_clear H as [|? ? S F].
  destruct (f a); [|now apply IH]. cbn [map]. constructor; [now apply IH|].
  rewrite Forall_forall in *. intros x Hx. apply F. apply in_map_iff in Hx. destruct Hx as (b & <- & Hb).
  apply in_map. apply filter_In in Hb. apply Hb.
Qed.
Lemma sort_attrs_sorted l : attrs_canon (sort_attrs l).
Proof.
  apply map_filter_sorted. cbn. repeat (constructor; [|repeat (constructor; [lia|]); constructor]). constructor.
Qed.
Lemma sort_flags_sorted l : StronglySorted Z.lt (map flag_bit (sort_flags l)).
Proof.
  apply map_filter_sorted. cbn. repeat (constructor; [|repeat (constructor; [lia|]); constructor]). constructor.
Qed.
Lemma map_inj_eq {A} (bit : A -> Z) (inj : forall a b, bit a = bit b -> a = b) l m : map bit l = map bit m -> l = m.
Proof.
  revert m; induction l as [|a l IH]; destruct m as [|b m]; cbn [map]; intros H; try congruence.
  injection H as H1 H2. f_equal; auto.
Qed.
Lemma canon_unique {A} (bit : A -> Z) (inj : forall a b, bit a = bit b -> a = b) l m :
  StronglySorted Z.lt (map bit l) -> StronglySorted Z.lt (map bit m) -> (forall a, In a l <-> In a m) -> l = m.
Proof.
  intros S1 S2 E. apply (map_inj_eq bit inj). apply sorted_ext; auto.
  intros i. rewrite !in_map_iff. split; intros (a & <- & H); exists a; split; auto; now apply E.
Qed.
Lemma sort_attrs_id l : attrs_canon l -> sort_attrs l = l.
Proof.
  intros H. apply (canon_unique attr_bit attr_bit_inj); [apply sort_attrs_sorted|exact H|intros a; apply sort_attrs_in].
Qed.
Lemma is_bitset_members {A} (bit : A -> Z) l m w : (forall a, In a l <-> In a m) -> is_bitset bit l w -> is_bitset bit m w.
Proof.
  intros E H i Hi. rewrite (H i Hi). split; intros (a & Ha & Hb); exists a; split; auto; now apply E.
Qed.

(** ** C12 *)

Lemma top_C12_to fs : is_bitset flag_bit fs (flags_to_u32 fs) /\ inu 32 (flags_to_u32 fs).
Proof. split; [apply flags_to_bitset|apply flags_to_range]. Qed.
Lemma top_C12_to_attrs fs : is_bitset attr_bit fs (section_attrs_to_u32 fs) /\ inu 32 (section_attrs_to_u32 fs).
Proof. split; [apply attrs_to_bitset|apply attrs_to_range]. Qed.
Lemma u32_bits_range w i : inu 32 w -> 0 <= i -> Z.testbit w i = true -> 0 <= i < 0 + Z.of_nat 32.
Proof.
  intros R Hi T. destruct (Z.lt_ge_cases i 32) as [L|L]; [lia|].
  rewrite (testbit_bound w 32) in T by (assumption || lia). discriminate.
Qed.
Lemma flags_from_canon w fs : inu 32 w ->
  (flags_from_u32 w = Ok fs <-> is_bitset flag_bit fs w /\ StronglySorted Z.lt (map flag_bit fs)).
Proof.
  intros R. rewrite flags_from_iff. apply bits_canon; [lia| |apply flag_bit_pos].
  intros i. now apply u32_bits_range.
Qed.
Lemma top_C12_round fs : flags_from_u32 (flags_to_u32 fs) = Ok (sort_flags fs).
Proof.
  apply flags_from_canon; [apply flags_to_range|]. split; [|apply sort_flags_sorted].
  apply is_bitset_members with (l := fs); [intros a; symmetry; apply sort_flags_in|apply flags_to_bitset].
Qed.
Lemma top_C12_round_attrs fs : section_attrs_from_u32 (section_attrs_to_u32 fs) = Ok (sort_attrs fs).
Proof.
  apply attrs_from_iff, bits_canon; [lia| |apply attr_bit_pos|].
  - intros i Hi T. apply attrs_to_bitset in T; [|exact Hi]. destruct T as (a & _ & <-). destruct a; cbn; lia.
  - split; [|apply sort_attrs_sorted].
    apply is_bitset_members with (l := fs); [intros a; symmetry; apply sort_attrs_in|apply attrs_to_bitset].
Qed.
Lemma top_C12_panic w : inu 32 w ->
  (flags_from_u32 w = Panic <-> exists i, 0 <= i /\ Z.testbit w i = true /\ forall f, flag_bit f <> i).
Proof.
  intros R. split.
  - intros E.
    (* if every set bit were known the sorted list would be a result *)
    destruct (filter (fun i => Z.testbit w i && negb (existsb (fun f => flag_bit f =? i) flag_order)) (count_from 0 32)) as [|i is] eqn:F.
    + exfalso.
      assert (K : forall i, 0 <= i -> Z.testbit w i = true -> exists f, flag_bit f = i).
      { intros i Hi T. assert (In i (count_from 0 32)) as I by (apply count_from_in; now apply (u32_bits_range w i)).
        destruct (existsb (fun f => flag_bit f =? i) flag_order) eqn:X.
        - apply existsb_exists in X. destruct X as (f & _ & X). exists f. lia.
        - exfalso. assert (In i []) as []. rewrite <- F. apply filter_In. split; [exact I|]. rewrite T, X. reflexivity. }
      set (fs := filter (fun f => Z.testbit w (flag_bit f)) flag_order).
      assert (flags_from_u32 w = Ok fs) as E'; [|rewrite E in E'; discriminate].
      apply flags_from_canon; [exact R|]. split.
      * intros i Hi. split.
        -- intros T. destruct (K i Hi T) as (f & <-). exists f. split; [|reflexivity].
           apply filter_In. split; [apply flag_order_in|exact T].
        -- intros (f & Hf & <-). apply filter_In in Hf. apply Hf.
      * apply map_filter_sorted. cbn. repeat (constructor; [|repeat (constructor; [lia|]); constructor]). constructor.
    + assert (In i (i :: is)) as I by now left. rewrite <- F in I. apply filter_In in I. destruct I as [I1 I2].
      apply count_from_in in I1. exists i. split; [lia|]. apply andb_true_iff in I2. destruct I2 as [T X].
      split; [exact T|]. intros f Hf. apply negb_true_iff in X.
      assert (existsb (fun f => flag_bit f =? i) flag_order = true) as X'; [|rewrite X in X'; discriminate].
      apply existsb_exists. exists f. split; [apply flag_order_in|lia].
  - intros (i & Hi & T & N). destruct (flags_from_u32 w) as [fs|] eqn:E; [|reflexivity].
    apply flags_from_canon in E; [|exact R]. destruct E as [B _]. apply B in T; [|exact Hi].
    destruct T as (f & _ & Hf). exfalso. now apply (N f).
Qed.
Lemma top_C12_from w fs : inu 32 w -> (flags_from_u32 w = Ok fs <-> map flag_bit fs = bits_in w (count_from 0 32)).
Proof. intros _. apply flags_from_iff. Qed.
Lemma top_C12_from_attrs w fs : inu 32 w ->
  (section_attrs_from_u32 w = Ok fs <-> map attr_bit fs = bits_in w (count_from 8 24)).
Proof. intros _. apply attrs_from_iff. Qed.
Lemma top_C12_refuted : exists fs, section_attrs_from_u32 (section_attrs_to_u32 fs) <> Ok fs.
Proof. exists [SomeInstructions; PureInstructions; LocReloc]. vm_compute. discriminate. Qed.

(** ** Header *)

Lemma swap_swap e : swap (swap e) = e.
Proof. now destruct e. Qed.

Lemma fld_i32_eq e o l v : bytes_ok l -> (o + 4 <= length l)%nat -> 0 <= v < 2 ^ 31 ->
  (fld_i32 e o l = v <-> fld e o 4 l = v).
Proof.
  intros Hb L Hv. unfold fld_i32, signed. pose proof (fld_range e o 4 l Hb L) as [F1 F2].
  change (2 ^ (8 * Z.of_nat 4)) with 4294967296 in F2.
  change (2 ^ (32 - 1)) with 2147483648. change (2 ^ 32) with 4294967296. change (2 ^ 31) with 2147483648 in Hv.
  destruct (fld e o 4 l <? 2147483648) eqn:E; lia.
Qed.

Lemma header_read h o l x e r : bytes_ok l ->
  (read_header64 h (skipn o l) = Ok ((x, e), r) <->
   magic_endian h (h_magic x) e /\ fld h o 4 l = magic_num (h_magic x) /\
   header_at e o l (fld e o 4 l) x /\ StronglySorted Z.lt (map flag_bit (h_flags x)) /\
   r = skipn (o + 32) l).
Proof.
  intros Hb. unfold read_header64, header_at. rstep.
  destruct (magic_from_u32 (fld h o 4 l)) as [m|] eqn:EM.
  2:{ split; [discriminate|]. intros H'. decompose [and] H'.
      assert (magic_from_u32 (fld h o 4 l) = Ok (h_magic x)) as EM'
        by (apply magic_from_iff; congruence). rewrite EM in EM'. discriminate. }
  rewrite rbind_lift. apply magic_from_iff in EM.
  assert (EQM : forall m', magic_num m' = fld h o 4 l -> m' = m)
    by (intros m'; rewrite <- EM; destruct m, m'; cbn; congruence).
  rewrite rbind_lift_ok.
  assert (ME : forall a, match m with Magic64 | Magic32 => Ok h | Cigam64 | Cigam32 => Ok (swap h) | _ => Panic end = Ok a
                <-> magic_endian h m a).
  { intros a. destruct m; cbn; split; intros G; try discriminate; try contradiction; try (apply Ok_inj in G); congruence. }
  split.
  - intros (e' & E' & H'). apply ME in E'. revert H'.
    match goal with |- ?a = _ -> ?b => cut (a = Ok ((x, e), r) -> b); [tauto|] end.
    rewrite rbind_i32_skip by assumption.
    destruct (Nat.leb_spec (o + 4 + 4) (length l)); [|discriminate]. norm_off.
    rewrite rbind_i32_skip by assumption.
    destruct (Nat.leb_spec (o + 8 + 4) (length l)); [|discriminate]. norm_off.
    rewrite rbind_lift_ok. intros (cpu & HC & H'). apply cpu_from_iff in HC. revert H'.
    rewrite rbind_u32_skip. destruct (Nat.leb_spec (o + 12 + 4) (length l)); [|discriminate]. norm_off.
    rewrite rbind_lift_ok. intros (ft & HF & H'). apply file_type_from_iff in HF. revert H'.
    rewrite rbind_u32_skip. destruct (Nat.leb_spec (o + 16 + 4) (length l)); [|discriminate]. norm_off.
    rewrite rbind_u32_skip. destruct (Nat.leb_spec (o + 20 + 4) (length l)); [|discriminate]. norm_off.
    rewrite rbind_u32_skip. destruct (Nat.leb_spec (o + 24 + 4) (length l)); [|discriminate]. norm_off.
    rewrite rbind_lift_ok. intros (fl & HG & H').
    apply flags_from_canon in HG; [|apply (fld_range e' (o + 24) 4 l Hb); lia]. destruct HG as [HG1 HG2]. revert H'.
    rewrite rbind_u32_skip. destruct (Nat.leb_spec (o + 28 + 4) (length l)); [|discriminate]. norm_off.
    intros E. apply Ok_inj in E. injection E as <- <- <-. projs.
    assert (fld e' (o + 4) 4 l = fst (cpu_nums cpu) /\ fld e' (o + 8) 4 l = snd (cpu_nums cpu)) as [C1 C2].
    { assert (0 <= fst (cpu_nums cpu) < 2 ^ 31 /\ 0 <= snd (cpu_nums cpu) < 2 ^ 31) as [K1 K2]
        by (destruct cpu; cbn; lia).
      split; apply fld_i32_eq; auto; try lia; now rewrite HC. }
    split; [exact E'|]. split; [congruence|].
    split; [|split; [exact HG2|reflexivity]].
    split; [lia|]. split; [reflexivity|]. split; [exact C1|]. split; [exact C2|].
    split; [congruence|]. split; [reflexivity|]. split; [reflexivity|]. split; [exact HG1|reflexivity].
  - intros (M1 & M2 & (L & _ & C1 & C2 & F1 & N1 & N2 & FL & RS) & SO & ->).
    assert (h_magic x = m) as <- by (apply EQM; now rewrite M2).
    exists e. split; [now apply ME|].
    assert (B1 : forall {B} a (k : Z -> reader B), (a + 4 <= o + 32)%nat ->
       rbind (read_u32 e) k (skipn a l) = k (fld e a 4 l) (skipn (a + 4) l)).
    { intros B a k Ha. rewrite rbind_u32_skip. destruct (Nat.leb_spec (a + 4) (length l)); [reflexivity|lia]. }
    assert (B2 : forall {B} a (k : Z -> reader B), (a + 4 <= o + 32)%nat ->
       rbind (read_i32 e) k (skipn a l) = k (fld_i32 e a l) (skipn (a + 4) l)).
    { intros B a k Ha. rewrite rbind_i32_skip by assumption. destruct (Nat.leb_spec (a + 4) (length l)); [reflexivity|lia]. }
    rewrite B2 by lia. norm_off. rewrite B2 by lia. norm_off.
    assert (cpu_from (fld_i32 e (o + 4) l) (fld_i32 e (o + 8) l) = Ok (h_cpu x)) as ->.
    { apply cpu_from_iff.
      assert (fld_i32 e (o + 4) l = fst (cpu_nums (h_cpu x))) as ->
        by (apply fld_i32_eq; auto; try lia; destruct (h_cpu x); cbn; lia).
      assert (fld_i32 e (o + 8) l = snd (cpu_nums (h_cpu x))) as ->
        by (apply fld_i32_eq; auto; try lia; destruct (h_cpu x); cbn; lia).
      now destruct (cpu_nums (h_cpu x)). }
    rewrite rbind_lift, B1 by lia. norm_off.
    rewrite (proj2 (file_type_from_iff _ (h_file_type x))) by congruence.
    rewrite rbind_lift, B1 by lia. norm_off. rewrite B1 by lia. norm_off. rewrite B1 by lia. norm_off.
    rewrite (proj2 (flags_from_canon _ (h_flags x) (fld_range e (o + 24) 4 l Hb ltac:(lia)))) by now split.
    rewrite rbind_lift, B1 by lia. norm_off.
    rewrite N1, N2, RS. now destruct x.
Qed.

(** the magic as another host sees it *)
Lemma magic_cross w r m l : m = Magic64 \/ m = Magic32 ->
  fld r 0 4 (bytes_of w 4 (magic_to_u32 m) ++ l) = magic_num (if endian_eqb w r then m else magic_swap m).
Proof.
  intros H. unfold fld. rewrite slice_hd by apply bytes_of_length.
  destruct H as [-> | ->]; destruct w, r; vm_compute; reflexivity.
Qed.
Lemma header_at_ext e l t m x : header_at e 0 l m x -> length l = 32%nat -> header_at e 0 (l ++ t) m x.
Proof. intros H L. apply (header_local 0 (l ++ t) l); [now apply slice_hd|exact L|exact H]. Qed.

Lemma top_C10 w r x rest : header_rng x -> (h_magic x = Magic64 \/ h_magic x = Magic32) -> bytes_ok rest ->
  exists bs x', write_header64 w x = (bs, true) /\ length bs = 32%nat /\
    read_header64 r (bs ++ rest) = Ok ((x', w), rest) /\
    h_magic x' = (if endian_eqb w r then h_magic x else magic_swap (h_magic x)) /\
    h_cpu x' = h_cpu x /\ h_file_type x' = h_file_type x /\ h_ncmds x' = h_ncmds x /\
    h_size_of_cmds x' = h_size_of_cmds x /\ h_reserved x' = h_reserved x /\
    h_flags x' = sort_flags (h_flags x).
Proof.
  intros R M Hr. exists (header_bytes w x).
  exists {| h_magic := if endian_eqb w r then h_magic x else magic_swap (h_magic x);
            h_cpu := h_cpu x; h_file_type := h_file_type x; h_ncmds := h_ncmds x;
            h_size_of_cmds := h_size_of_cmds x; h_flags := sort_flags (h_flags x);
            h_reserved := h_reserved x |}.
  projs. split; [apply header_write|]. split; [apply header_bytes_length|].
  split; [|repeat split].
  change (header_bytes w x ++ rest) with (skipn 0 (header_bytes w x ++ rest)).
  apply header_read; [apply bytes_ok_app; split; [apply header_bytes_ok|exact Hr]|]. projs.
  split; [|split; [|split; [|split]]].
  - destruct M as [-> | ->]; destruct w, r; reflexivity.
  - unfold header_bytes. rewrite <- app_assoc. now apply magic_cross.
  - pose proof (header_at_ext w _ rest _ _ (header_bytes_at w x R) (header_bytes_length w x)) as H.
    unfold header_at in *. projs_in. decompose [and] H.
    repeat match goal with |- _ /\ _ => split end; try assumption; try reflexivity.
    eapply is_bitset_members; [|eassumption]. intros a. symmetry. apply sort_flags_in.
  - apply sort_flags_sorted.
  - cbn [Nat.add]. rewrite skipn_app, skipn_all2 by (rewrite header_bytes_length; lia).
    rewrite header_bytes_length. reflexivity.
Qed.

(** C11 *)
Lemma top_C11 h l x e r : bytes_ok l ->
  (read_header64 h l = Ok ((x, e), r) <->
   magic_endian h (h_magic x) e /\ fld h 0 4 l = magic_num (h_magic x) /\
   header_at e 0 l (fld e 0 4 l) x /\ StronglySorted Z.lt (map flag_bit (h_flags x)) /\
   r = skipn 32 l).
Proof. exact (header_read h 0 l x e r). Qed.

Lemma top_C11_accept h l : bytes_ok l ->
  ((exists x e r, read_header64 h l = Ok ((x, e), r)) <->
   (32 <= length l)%nat /\
   exists e, ((fld h 0 4 l = 0xFEEDFACF \/ fld h 0 4 l = 0xFEEDFACE) /\ e = h \/
              (fld h 0 4 l = 0xCFFAEDFE \/ fld h 0 4 l = 0xCEFAEDFE) /\ e = swap h) /\
     (fld e 4 4 l = 7 \/ fld e 4 4 l = 0x01000007) /\ fld e 8 4 l = 3 /\
     (1 <= fld e 12 4 l <= 8 \/ fld e 12 4 l = 10) /\
     (forall i, 0 <= i -> Z.testbit (fld e 24 4 l) i = true -> exists f, flag_bit f = i)).
Proof.
  intros Hb. split.
  - intros (x & e & r & H). apply top_C11 in H; [|exact Hb].
    destruct H as (M1 & M2 & (L & _ & C1 & C2 & F1 & _ & _ & FL & _) & _ & _). cbn [Nat.add] in *.
    split; [lia|]. exists e. split; [|split; [|split; [|split]]].
    + destruct (h_magic x); cbn in M1, M2; try contradiction; tauto.
    + rewrite C1. destruct (h_cpu x); cbn; tauto.
    + rewrite C2. destruct (h_cpu x); reflexivity.
    + rewrite F1. destruct (h_file_type x); cbn; lia.
    + intros i Hi T. apply FL in T; [|exact Hi]. destruct T as (f & _ & T). now exists f.
  - intros (L & e & M & C & S & F & FL).
    assert (exists m, magic_endian h m e /\ fld h 0 4 l = magic_num m) as (m & M1 & M2).
    { destruct M as [[[M| M] ->]|[[M|M] ->]];
        [exists Magic64|exists Magic32|exists Cigam64|exists Cigam32]; now split. }
    assert (exists c, fld e 4 4 l = fst (cpu_nums c) /\ fld e 8 4 l = snd (cpu_nums c)) as (c & C1 & C2).
    { destruct C as [C|C]; [exists (CpuX86 X86All)|exists (CpuX86_64 X86_64All)]; now split. }
    assert (exists ft, fld e 12 4 l = file_type_num ft) as (ft & F1).
    { assert (fld e 12 4 l = 1 \/ fld e 12 4 l = 2 \/ fld e 12 4 l = 3 \/ fld e 12 4 l = 4 \/ fld e 12 4 l = 5 \/
        fld e 12 4 l = 6 \/ fld e 12 4 l = 7 \/ fld e 12 4 l = 8 \/ fld e 12 4 l = 10) as G by lia.
      decompose [or] G; [exists FtObject|exists FtExecute|exists FtFVMLib|exists FtCore|exists FtPreload|
        exists FtDylib|exists FtDylinker|exists FtBundle|exists FtDsym]; assumption. }
    set (fs := filter (fun f => Z.testbit (fld e 24 4 l) (flag_bit f)) flag_order).
    exists {| h_magic := m; h_cpu := c; h_file_type := ft; h_ncmds := fld e 16 4 l;
              h_size_of_cmds := fld e 20 4 l; h_flags := fs; h_reserved := fld e 28 4 l |}, e, (skipn 32 l).
    apply top_C11; [exact Hb|]. unfold header_at. projs. cbn [Nat.add].
    split; [exact M1|]. split; [exact M2|]. split; [|split; [|reflexivity]].
    + repeat match goal with |- _ /\ _ => split end; try assumption; try reflexivity.
      intros i Hi. split.
      * intros T. destruct (FL i Hi T) as (f & <-). exists f. split; [|reflexivity].
        apply filter_In. split; [apply flag_order_in|exact T].
      * intros (f & Hf & <-). apply filter_In in Hf. apply Hf.
    + apply map_filter_sorted. cbn. repeat (constructor; [|repeat (constructor; [lia|]); constructor]). constructor.
Qed.

(** ** C13 *)

Lemma skipn_app_len {A} n (a b : list A) : length a = n -> skipn n (a ++ b) = b.
Proof. intros <-. rewrite skipn_app, skipn_all, Nat.sub_diag. reflexivity. Qed.

Lemma cmdsize_ok_any p base unit n size : size = base + unit * n -> inu 32 size -> cmdsize_ok p base unit n size.
Proof. intros -> H. destruct p; cbn; [reflexivity|]. symmetry. now apply Z.mod_small. Qed.

Lemma top_C13_segment p h x rest : segment_rng x -> name16 (sg_segname x) -> sg_cmd x = 0x19 ->
  sg_cmdsize x = 72 + 80 * sg_nsects x -> bytes_ok rest ->
  exists bs, write_segment64 h x = (bs, true) /\ length bs = 72%nat /\
             read_segment64 p h (bs ++ rest) = Ok (x, rest).
Proof.
  intros R N C S Hr. exists (segment_bytes h x).
  split; [now apply segment_write|]. split; [now apply segment_bytes_length|].
  change (segment_bytes h x ++ rest) with (skipn 0 (segment_bytes h x ++ rest)).
  apply segment_read; [apply bytes_ok_app; split; [now apply segment_bytes_ok|exact Hr]|].
  split; [|split; [apply R|split; [exact C|split]]].
  - apply (segment_local 0 _ (segment_bytes h x)); [apply slice_hd|..]; try now apply segment_bytes_length.
    now apply segment_bytes_at.
  - apply cmdsize_ok_any; [exact S|apply R].
  - cbn [Nat.add]. symmetry. now apply skipn_app_len, segment_bytes_length.
Qed.

Lemma section_at_canon e o l x : section_at e o l x -> section_at e o l (section_canon x).
Proof.
  intros H. unfold section_at in *. unfold section_canon. projs. decompose [and] H.
  repeat match goal with |- _ /\ _ => split end; try assumption.
  eapply is_bitset_members; [|eassumption]. intros a. symmetry. apply sort_attrs_in.
Qed.
Lemma section_read_back h x l o : bytes_ok l -> section_rng x -> name16 (sc_sectname x) -> name16 (sc_segname x) ->
  slice o 80 l = section_bytes h x ->
  read_section64 h (skipn o l) = Ok (section_canon x, skipn (o + 80) l).
Proof.
  intros Hb R N N' E. apply section_read; [exact Hb|].
  split; [|split; [apply R|split; [apply R|split; [apply sort_attrs_sorted|reflexivity]]]].
  apply section_at_canon. apply (section_local o _ _ _ _ E); [now apply section_bytes_length|].
  now apply section_bytes_at.
Qed.
Lemma top_C13_section h x rest : section_rng x -> name16 (sc_sectname x) -> name16 (sc_segname x) -> bytes_ok rest ->
  exists bs, write_section64 h x = (bs, true) /\ length bs = 80%nat /\
             read_section64 h (bs ++ rest) = Ok (section_canon x, rest).
Proof.
  intros R N N' Hr. exists (section_bytes h x).
  split; [now apply section_write|]. split; [now apply section_bytes_length|].
  change (section_bytes h x ++ rest) with (skipn 0 (section_bytes h x ++ rest)).
  rewrite section_read_back with (x := x); try assumption.
  - f_equal. f_equal. cbn [Nat.add]. now apply skipn_app_len, section_bytes_length.
  - apply bytes_ok_app; split; [now apply section_bytes_ok|exact Hr].
  - now apply slice_hd, section_bytes_length.
Qed.
Lemma top_C13_canon x : section_canon x = x <-> StronglySorted Z.lt (map attr_bit (sc_attrs x)).
Proof.
  split.
  - intros E. rewrite <- E. apply sort_attrs_sorted.
  - intros S. destruct x. unfold section_canon. projs_in. now rewrite sort_attrs_id.
Qed.

(** ** C14 *)

Lemma slice_join {A} k n m (l : list A) : slice k n l ++ slice (k + n) m l = slice k (n + m) l.
Proof.
  unfold slice. rewrite Nat.add_comm, <- skipn_skipn. generalize (skipn k l) as t. intros t.
  revert t; induction n as [|n IH]; intros [|x t]; cbn [firstn skipn app]; try reflexivity.
  - cbn [Nat.add firstn]. now rewrite firstn_nil.
  - cbn [Nat.add firstn]. f_equal. apply IH.
Qed.
Lemma bytes_of_fld e k n l : bytes_ok l -> (k + n <= length l)%nat -> bytes_of e n (fld e k n l) = slice k n l.
Proof.
  intros Hb L. unfold fld. rewrite uint_val. apply bytes_val; [|now apply slice_length].
  unfold slice. now apply bytes_ok_firstn, bytes_ok_skipn.
Qed.
Ltac refold l :=
  repeat match goal with E : fld ?e ?k ?n l = ?y |- context [bytes_of ?e ?n ?y] =>
           rewrite <- E end;
  rewrite !bytes_of_fld by (assumption || lia);
  rewrite app_nil_r;
  repeat (rewrite slice_join; cbn [Nat.add]);
  try (rewrite !app_assoc; repeat (rewrite slice_join; cbn [Nat.add])).

Lemma symtab_rebytes e l x : bytes_ok l -> symtab_at e 0 l x -> symtab_bytes e x = firstn 24 l.
Proof.
  intros Hb H. unfold symtab_at in H. decompose [and] H. unfold symtab_bytes. cbn [Nat.add] in *.
  refold l. reflexivity.
Qed.
Lemma dysymtab_rebytes e l x : bytes_ok l -> dysymtab_at e 0 l x -> dysymtab_bytes e x = firstn 80 l.
Proof.
  intros Hb H. unfold dysymtab_at in H. decompose [and] H. unfold dysymtab_bytes. cbn [Nat.add] in *.
  refold l. reflexivity.
Qed.

Lemma top_C14_symtab h x rest : symtab_rng x -> st_cmd x = 2 -> st_cmdsize x = 24 -> bytes_ok rest ->
  exists bs, write_symtab h x = (bs, true) /\ length bs = 24%nat /\ read_symtab h (bs ++ rest) = Ok (x, rest).
Proof.
  intros R C S Hr. exists (symtab_bytes h x).
  split; [apply symtab_write|]. split; [apply symtab_bytes_length|].
  change (symtab_bytes h x ++ rest) with (skipn 0 (symtab_bytes h x ++ rest)).
  apply symtab_read; [apply bytes_ok_app; split; [apply symtab_bytes_ok|exact Hr]|].
  split; [|split; [exact C|split; [exact S|cbn [Nat.add]; symmetry; apply skipn_app_len, symtab_bytes_length]]].
  apply (symtab_local 0 _ (symtab_bytes h x)); [apply slice_hd|..]; try apply symtab_bytes_length.
  now apply symtab_bytes_at.
Qed.
Lemma top_C14_symtab_back e l x r : bytes_ok l -> read_symtab e l = Ok (x, r) ->
  write_symtab e x = (firstn 24 l, true) /\ l = firstn 24 l ++ r.
Proof.
  intros Hb H. apply (symtab_read e 0) in H; [|exact Hb]. destruct H as (A & _ & _ & ->).
  rewrite symtab_write, (symtab_rebytes e l x) by assumption. split; [reflexivity|].
  symmetry. apply firstn_skipn.
Qed.
Lemma top_C14_symtab_accept e l : bytes_ok l ->
  ((exists x r, read_symtab e l = Ok (x, r)) <-> (24 <= length l)%nat /\ fld e 0 4 l = 2 /\ fld e 4 4 l = 24).
Proof.
  intros Hb. split.
  - intros (x & r & H). apply (symtab_read e 0) in H; [|exact Hb]. destruct H as (A & C & S & _).
    unfold symtab_at in A. decompose [and] A. cbn [Nat.add] in *. repeat split; lia.
  - intros (L & C & S).
    exists {| st_cmd := 2; st_cmdsize := 24; st_symoff := fld e 8 4 l; st_nsyms := fld e 12 4 l;
              st_stroff := fld e 16 4 l; st_strsize := fld e 20 4 l |}, (skipn 24 l).
    apply (symtab_read e 0); [exact Hb|]. unfold symtab_at. projs. cbn [Nat.add]. repeat split; assumption || lia.
Qed.
Lemma top_C14_dysymtab h x rest : dysymtab_rng x -> dy_cmd x = 11 -> dy_cmdsize x = 80 -> bytes_ok rest ->
  exists bs, write_dysymtab h x = (bs, true) /\ length bs = 80%nat /\ read_dysymtab h (bs ++ rest) = Ok (x, rest).
Proof.
  intros R C S Hr. exists (dysymtab_bytes h x).
  split; [apply dysymtab_write|]. split; [apply dysymtab_bytes_length|].
  change (dysymtab_bytes h x ++ rest) with (skipn 0 (dysymtab_bytes h x ++ rest)).
  apply dysymtab_read; [apply bytes_ok_app; split; [apply dysymtab_bytes_ok|exact Hr]|].
  split; [|split; [exact C|split; [exact S|cbn [Nat.add]; symmetry; apply skipn_app_len, dysymtab_bytes_length]]].
  apply (dysymtab_local 0 _ (dysymtab_bytes h x)); [apply slice_hd|..]; try apply dysymtab_bytes_length.
  now apply dysymtab_bytes_at.
Qed.
Lemma top_C14_dysymtab_back e l x r : bytes_ok l -> read_dysymtab e l = Ok (x, r) ->
  write_dysymtab e x = (firstn 80 l, true) /\ l = firstn 80 l ++ r.
Proof.
  intros Hb H. apply (dysymtab_read e 0) in H; [|exact Hb]. destruct H as (A & _ & _ & ->).
  rewrite dysymtab_write, (dysymtab_rebytes e l x) by assumption. split; [reflexivity|].
  symmetry. apply firstn_skipn.
Qed.
Lemma top_C14_dysymtab_accept e l : bytes_ok l ->
  ((exists x r, read_dysymtab e l = Ok (x, r)) <-> (80 <= length l)%nat /\ fld e 0 4 l = 11 /\ fld e 4 4 l = 80).
Proof.
  intros Hb. split.
  - intros (x & r & H). apply (dysymtab_read e 0) in H; [|exact Hb]. destruct H as (A & C & S & _).
    unfold dysymtab_at in A. decompose [and] A. cbn [Nat.add] in *. repeat split; lia.
  - intros (L & C & S).
    exists {| dy_cmd := 11; dy_cmdsize := 80; dy_ilocalsym := fld e 8 4 l; dy_nlocalsym := fld e 12 4 l;
              dy_iextdefsym := fld e 16 4 l; dy_nextdefsym := fld e 20 4 l; dy_iundefsym := fld e 24 4 l;
              dy_nundefsym := fld e 28 4 l; dy_tocoff := fld e 32 4 l; dy_ntoc := fld e 36 4 l;
              dy_modtaboff := fld e 40 4 l; dy_nmodtab := fld e 44 4 l; dy_extrefsymoff := fld e 48 4 l;
              dy_nextrefsyms := fld e 52 4 l; dy_indirectsymoff := fld e 56 4 l;
              dy_nindirectsyms := fld e 60 4 l; dy_extreloff := fld e 64 4 l; dy_nextrel := fld e 68 4 l;
              dy_locreloff := fld e 72 4 l; dy_nlocrel := fld e 76 4 l |}, (skipn 80 l).
    apply (dysymtab_read e 0); [exact Hb|]. unfold dysymtab_at. projs. cbn [Nat.add]. repeat split; assumption || lia.
Qed.

(** ** C15 *)

Lemma top_C15_version : (forall v, version_rng v -> version_from_u32 (version_to_u32 v) = v /\ version_to_u32 v = version_num v)
  /\ (forall n, inu 32 n -> version_to_u32 (version_from_u32 n) = n).
Proof.
  split.
  - intros v R. rewrite version_to_num by assumption. split; [|reflexivity].
    apply version_from_iff; [now apply version_num_range|]. now split.
  - intros n H. destruct (version_from_num n H) as [R E]. now rewrite version_to_num.
Qed.
Lemma top_C15_build p h x rest : build_version_rng x -> bv_cmd x = 0x32 ->
  bv_cmdsize x = 24 + 8 * bv_ntools x -> bytes_ok rest ->
  exists bs, write_build_version h x = (bs, true) /\ length bs = 24%nat /\
             read_build_version p h (bs ++ rest) = Ok (x, rest).
Proof.
  intros R C S Hr. exists (build_version_bytes h x).
  split; [apply build_version_write|]. split; [apply build_version_bytes_length|].
  change (build_version_bytes h x ++ rest) with (skipn 0 (build_version_bytes h x ++ rest)).
  apply build_version_read; [apply bytes_ok_app; split; [apply build_version_bytes_ok|exact Hr]|].
  split; [|split; [apply R|split; [apply R|split; [exact C|split]]]].
  - apply (build_version_local 0 _ (build_version_bytes h x)); [apply slice_hd|..]; try apply build_version_bytes_length.
    now apply build_version_bytes_at.
  - apply cmdsize_ok_any; [exact S|apply R].
  - cbn [Nat.add]. symmetry. apply skipn_app_len, build_version_bytes_length.
Qed.
Lemma top_C15_build_reject p e l x r : bytes_ok l -> read_build_version p e l = Ok (x, r) ->
  cmdsize_ok p 24 8 (fld e 20 4 l) (fld e 4 4 l) /\ fld e 0 4 l = 0x32.
Proof.
  intros Hb H. apply (build_version_read p e 0) in H; [|exact Hb]. destruct H as (A & _ & _ & C & S & _).
  unfold build_version_at in A. decompose [and] A. cbn [Nat.add] in *. split; congruence.
Qed.
Lemma build_tool_read_back h x l o : bytes_ok l -> build_tool_rng x ->
  slice o 8 l = build_tool_bytes h x ->
  read_build_tool h (skipn o l) = Ok (x, skipn (o + 8) l).
Proof.
  intros Hb R E. apply build_tool_read; [exact Hb|]. split; [|reflexivity].
  apply (build_tool_local o _ _ _ _ E); [apply build_tool_bytes_length|]. now apply build_tool_bytes_at.
Qed.
Lemma top_C15_tool h x rest : build_tool_rng x -> bytes_ok rest ->
  exists bs, write_build_tool h x = (bs, true) /\ length bs = 8%nat /\
             read_build_tool h (bs ++ rest) = Ok (x, rest).
Proof.
  intros R Hr. exists (build_tool_bytes h x).
  split; [apply build_tool_write|]. split; [apply build_tool_bytes_length|].
  change (build_tool_bytes h x ++ rest) with (skipn 0 (build_tool_bytes h x ++ rest)).
  rewrite build_tool_read_back with (x := x); try assumption.
  - f_equal. f_equal. cbn [Nat.add]. apply skipn_app_len, build_tool_bytes_length.
  - apply bytes_ok_app; split; [apply build_tool_bytes_ok|exact Hr].
  - apply slice_hd, build_tool_bytes_length.
Qed.

(** ** Load commands *)

(** reading [n] records of [size] bytes at an offset *)
Lemma read_many_at {A} (m : reader A) (P : nat -> A -> Prop) size l :
  (forall o x r, m (skipn o l) = Ok (x, r) <-> P o x /\ r = skipn (o + size) l) ->
  forall n o xs r, read_many n m (skipn o l) = Ok (xs, r) <->
    length xs = n /\ list_at P size o xs /\ r = skipn (o + size * n) l.
Proof.
  intros H. induction n as [|n IH]; intros o xs r; cbn [read_many].
  - rewrite Nat.mul_0_r, Nat.add_0_r. rewrite rret_ok. split.
    + intros [-> ->]. repeat split.
    + intros (L & _ & ->). destruct xs; [now split|discriminate].
  - rewrite rbind_ok. split.
    + intros (x & l' & H1 & H2). apply H in H1. destruct H1 as [H1 ->].
      apply rbind_ok in H2. destruct H2 as (ys & l'' & H2 & H3). apply IH in H2. destruct H2 as (L & H2 & ->).
      apply rret_ok in H3. destruct H3 as [-> ->]. cbn [length list_at]. repeat split; auto.
      f_equal. lia.
    + intros (L & H1 & ->). destruct xs as [|x xs]; [discriminate|]. cbn [length list_at] in *.
      destruct H1 as [H1 H2]. exists x, (skipn (o + size) l). split; [now apply H|].
      apply rbind_ok. exists xs, (skipn (o + size * S n) l). split; [|reflexivity].
      apply IH. split; [lia|]. split; [exact H2|]. f_equal. lia.
Qed.

Definition read_lc_direct (p : profile) (e : endian) : reader load_command := fun l =>
  match read_u32 e l with
  | Panic => Panic
  | Ok (cmd, l') =>
      (if cmd =? SEGMENT_TYPE then
         c <~ read_segment64 p e ;
         sections <~ read_many (Z.to_nat (sg_nsects c)) (read_section64 e) ;
         rret (LcSegment64 c sections)
       else if cmd =? SYMTAB_TYPE then
         c <~ read_symtab e ; rret (LcSymtab c)
       else if cmd =? DYSYMTAB_TYPE then
         c <~ read_dysymtab e ; rret (LcDysymtab c)
       else if cmd =? BUILD_VERSION_TYPE then
         c <~ read_build_version p e ;
         tools <~ read_many (Z.to_nat (bv_ntools c)) (read_build_tool e) ;
         rret (LcBuildVersion c tools)
       else rlift Panic) l
  end.

Lemma read_u32_inv e l x r : bytes_ok l -> read_u32 e l = Ok (x, r) -> l = bytes_of e 4 x ++ r /\ inu 32 x.
Proof.
  intros Hb H. unfold read_u32, read_uint in H. apply rbind_ok in H. destruct H as (bs & l' & H1 & H2).
  apply read_exact_inv in H1. destruct H1 as [-> L]. apply rret_ok in H2. destruct H2 as [-> ->].
  apply bytes_ok_app in Hb. destruct Hb as [Hb _]. rewrite bytes_val by assumption. split; [reflexivity|].
  now apply (val_of_range e bs 4).
Qed.
Lemma read_lc_direct_eq p e l : bytes_ok l -> read_load_command p e l = read_lc_direct p e l.
Proof.
  intros Hb. unfold read_load_command, read_lc_direct. destruct (read_u32 e l) as [[cmd l']|] eqn:E; [|reflexivity].
  apply read_u32_inv in E; [|exact Hb]. destruct E as [-> _]. reflexivity.
Qed.

Lemma list_at_impl {A} (P Q : nat -> A -> Prop) size o xs :
  (forall o x, P o x -> Q o x) -> list_at P size o xs -> list_at Q size o xs.
Proof. intros H. revert o; induction xs as [|x xs IH]; intros o; cbn [list_at]; [auto|]. intros [H1 H2]. split; auto. Qed.
Lemma list_at_conj {A} (P : nat -> A -> Prop) (Q : A -> Prop) size o xs :
  list_at (fun o x => P o x /\ Q x) size o xs <-> list_at P size o xs /\ Forall Q xs.
Proof.
  revert o; induction xs as [|x xs IH]; intros o; cbn [list_at].
  - split; [split; constructor|auto].
  - rewrite IH. split.
    + intros ((H1 & H2) & H3 & H4). split; [split; auto|constructor; auto].
    + intros ((H1 & H2) & H3). inversion_clear H3. auto.
Qed.

(** what [read_from_in] accepts *)
Definition lc_valid (p : profile) (c : load_command) : Prop :=
  match c with
  | LcSegment64 s ss =>
      str_ok (sg_segname s) /\ sg_cmd s = 25 /\ cmdsize_ok p 72 80 (sg_nsects s) (sg_cmdsize s) /\
      Z.to_nat (sg_nsects s) = length ss /\
      Forall (fun x => str_ok (sc_sectname x) /\ str_ok (sc_segname x) /\ attrs_canon (sc_attrs x)) ss
  | LcSymtab s => st_cmd s = 2 /\ st_cmdsize s = 24
  | LcDysymtab s => dy_cmd s = 11 /\ dy_cmdsize s = 80
  | LcBuildVersion b ts =>
      version_rng (bv_minos b) /\ version_rng (bv_sdk b) /\ bv_cmd b = 50 /\
      cmdsize_ok p 24 8 (bv_ntools b) (bv_cmdsize b) /\ Z.to_nat (bv_ntools b) = length ts
  end.

Lemma read_u32_skip e o l : read_u32 e (skipn o l) = if Nat.leb (o + 4) (length l) then Ok (fld e o 4 l, skipn (o + 4) l) else Panic.
Proof.
  pose proof (rbind_u32_skip e o l (fun x => rret x)) as H. unfold rbind, rret in H.
  destruct (read_u32 e (skipn o l)) as [[a b]|]; exact H.
Qed.

Lemma lc_read p e o l c r : bytes_ok l ->
  (read_load_command p e (skipn o l) = Ok (c, r) <->
   lc_at e o l c /\ lc_valid p c /\ r = skipn (o + lc_len c) l).
Proof.
  intros Hb. rewrite read_lc_direct_eq by now apply bytes_ok_skipn.
  unfold read_lc_direct. rewrite read_u32_skip.
  destruct (Nat.leb_spec (o + 4) (length l)) as [L|L].
  2:{ split; [discriminate|]. intros (A & _ & _). exfalso.
      destruct c; cbn [lc_at] in A; [destruct A as ((A & _) & _)|destruct A as (A & _)|destruct A as (A & _)|destruct A as ((A & _) & _)]; lia. }
  unfold SEGMENT_TYPE, SYMTAB_TYPE, DYSYMTAB_TYPE, BUILD_VERSION_TYPE.
  assert (CMD : forall c, lc_at e o l c -> fld e o 4 l = lc_cmd c).
  { intros c'. destruct c' as [s ss|s|s|s ss]; cbn [lc_at lc_cmd];
      unfold segment_at, symtab_at, dysymtab_at, build_version_at; intros A; decompose [and] A; assumption. }
  destruct (fld e o 4 l =? 25) eqn:E1; [|destruct (fld e o 4 l =? 2) eqn:E2; [|destruct (fld e o 4 l =? 11) eqn:E3; [|destruct (fld e o 4 l =? 50) eqn:E4]]].
  - rewrite rbind_ok. split.
    + intros (s & l1 & H1 & H2). apply segment_read in H1; [|exact Hb]. destruct H1 as (A & N & C & S & ->).
      apply rbind_ok in H2. destruct H2 as (ss & l2 & H2 & H3).
      apply (read_many_at (read_section64 e) (fun o x => section_at e o l x /\ (str_ok (sc_sectname x) /\ str_ok (sc_segname x) /\ attrs_canon (sc_attrs x))) 80 l) in H2.
      2:{ intros o' x' r'. rewrite section_read by exact Hb. tauto. }
      destruct H2 as (L1 & H2 & ->). apply rret_ok in H3. destruct H3 as [-> ->].
      apply list_at_conj in H2. destruct H2 as [H2 H3].
      cbn [lc_at lc_valid lc_len]. repeat match goal with |- _ /\ _ => split end; auto.
      f_equal. lia.
    + intros (A & V & ->). destruct c as [s ss|s|s|s ss]; cbn [lc_at lc_valid lc_len] in *;
        [|exfalso; apply (CMD (LcSymtab s)) in A; cbn [lc_cmd] in A; lia
         |exfalso; apply (CMD (LcDysymtab s)) in A; cbn [lc_cmd] in A; lia
         |exfalso; apply (CMD (LcBuildVersion s ss)) in A; cbn [lc_cmd] in A; lia].
      destruct A as [A1 A2]. destruct V as (N & C & S & K & F).
      exists s, (skipn (o + 72) l). split; [apply segment_read; [exact Hb|]; repeat match goal with |- _ /\ _ => split end; assumption || reflexivity|].
      apply rbind_ok. exists ss, (skipn (o + 72 + 80 * length ss) l). split.
      * apply (read_many_at (read_section64 e) (fun o x => section_at e o l x /\ (str_ok (sc_sectname x) /\ str_ok (sc_segname x) /\ attrs_canon (sc_attrs x))) 80 l).
        { intros o' x' r'. rewrite section_read by exact Hb. tauto. }
        split; [now symmetry|]. split; [now apply list_at_conj|]. now rewrite K.
      * apply rret_ok. split; [reflexivity|]. f_equal. lia.
  - rewrite rbind_ok. split.
    + intros (s & l1 & H1 & H2). apply symtab_read in H1; [|exact Hb]. destruct H1 as (A & C & S & ->).
      apply rret_ok in H2. destruct H2 as [-> ->]. cbn [lc_at lc_valid lc_len]. auto.
    + intros (A & V & ->). pose proof (CMD c A) as K.
      destruct c as [s ss|s|s|s ss]; cbn [lc_at lc_valid lc_len lc_cmd] in *; decompose [and] V; try (exfalso; lia).
      exists s, (skipn (o + 24) l). split; [apply symtab_read; auto|reflexivity].
  - rewrite rbind_ok. split.
    + intros (s & l1 & H1 & H2). apply dysymtab_read in H1; [|exact Hb]. destruct H1 as (A & C & S & ->).
      apply rret_ok in H2. destruct H2 as [-> ->]. cbn [lc_at lc_valid lc_len]. auto.
    + intros (A & V & ->). pose proof (CMD c A) as K.
      destruct c as [s ss|s|s|s ss]; cbn [lc_at lc_valid lc_len lc_cmd] in *; decompose [and] V; try (exfalso; lia).
      exists s, (skipn (o + 80) l). split; [apply dysymtab_read; auto|reflexivity].
  - rewrite rbind_ok. split.
    + intros (s & l1 & H1 & H2). apply build_version_read in H1; [|exact Hb]. destruct H1 as (A & N & N' & C & S & ->).
      apply rbind_ok in H2. destruct H2 as (ss & l2 & H2 & H3).
      apply (read_many_at (read_build_tool e) (fun o x => build_tool_at e o l x) 8 l) in H2.
      2:{ intros o' x' r'. now apply build_tool_read. }
      destruct H2 as (L1 & H2 & ->). apply rret_ok in H3. destruct H3 as [-> ->].
      cbn [lc_at lc_valid lc_len]. repeat match goal with |- _ /\ _ => split end; auto.
      f_equal. lia.
    + intros (A & V & ->). pose proof (CMD c A) as K.
      destruct c as [s ss|s|s|s ss]; cbn [lc_at lc_valid lc_len lc_cmd] in *; try (exfalso; decompose [and] V; lia).
      destruct A as [A1 A2]. destruct V as (N & N' & C & S & K').
      exists s, (skipn (o + 24) l). split; [apply build_version_read; [exact Hb|]; repeat match goal with |- _ /\ _ => split end; assumption || reflexivity|].
      apply rbind_ok. exists ss, (skipn (o + 24 + 8 * length ss) l). split.
      * apply (read_many_at (read_build_tool e) (fun o x => build_tool_at e o l x) 8 l).
        { intros o' x' r'. now apply build_tool_read. }
        split; [now symmetry|]. split; [exact A2|]. now rewrite K'.
      * apply rret_ok. split; [reflexivity|]. f_equal. lia.
  - split; [discriminate|]. intros (A & V & _). pose proof (CMD c A) as K.
    destruct c as [s ss|s|s|s ss]; cbn [lc_at lc_valid lc_len lc_cmd] in *; decompose [and] V; lia.
Qed.

(** writing load commands *)
Definition lc_bytes (h : endian) (c : load_command) : list Z :=
  match c with
  | LcSegment64 s ss => segment_bytes h s ++ concat (map (section_bytes h) ss)
  | LcSymtab s => symtab_bytes h s
  | LcDysymtab s => dysymtab_bytes h s
  | LcBuildVersion b ts => build_version_bytes h b ++ concat (map (build_tool_bytes h) ts)
  end.
Lemma concat_length_const {A} (f : A -> list Z) n xs : (forall x, In x xs -> length (f x) = n) ->
  length (concat (map f xs)) = (n * length xs)%nat.
Proof.
  induction xs as [|x xs IH]; intros H; [cbn; lia|]. cbn [map concat length]. rewrite app_length, IH, H.
  - lia.
  - now left.
  - intros y Hy. apply H. now right.
Qed.
Lemma lc_write h c : lc_wf c -> write_load_command h c = (lc_bytes h c, true).
Proof.
  intros W. destruct c as [s ss|s|s|s ss]; cbn [lc_wf write_load_command lc_bytes] in *.
  - destruct W as (R & N & _ & _ & _ & F). rewrite segment_write by assumption.
    rewrite (wlist_map_ok _ (section_bytes h)); [reflexivity|].
    intros x Hx. rewrite Forall_forall in F. destruct (F x Hx) as (_ & N1 & N2). now apply section_write.
  - apply symtab_write.
  - apply dysymtab_write.
  - rewrite build_version_write. rewrite (wlist_map_ok _ (build_tool_bytes h)); [reflexivity|].
    intros x Hx. apply build_tool_write.
Qed.
Lemma lc_bytes_length h c : lc_wf c -> length (lc_bytes h c) = lc_len c.
Proof.
  intros W. destruct c as [s ss|s|s|s ss]; cbn [lc_wf lc_bytes lc_len] in *.
  - destruct W as (R & N & _ & _ & _ & F). rewrite app_length, segment_bytes_length by assumption.
    rewrite (concat_length_const _ 80); [reflexivity|].
    intros x Hx. rewrite Forall_forall in F. destruct (F x Hx) as (_ & N1 & N2). now apply section_bytes_length.
  - apply symtab_bytes_length.
  - apply dysymtab_bytes_length.
  - rewrite app_length, build_version_bytes_length. rewrite (concat_length_const _ 8); [reflexivity|].
    intros x Hx. apply build_tool_bytes_length.
Qed.
Lemma lc_bytes_ok h c : lc_wf c -> bytes_ok (lc_bytes h c).
Proof.
  intros W. destruct c as [s ss|s|s|s ss]; cbn [lc_wf lc_bytes] in *.
  - destruct W as (R & N & _ & _ & _ & F). apply bytes_ok_app. split; [now apply segment_bytes_ok|].
    apply bytes_ok_concat. apply Forall_map. revert F. apply Forall_impl. intros x (_ & N1 & N2). now apply section_bytes_ok.
  - apply symtab_bytes_ok.
  - apply dysymtab_bytes_ok.
  - apply bytes_ok_app. split; [apply build_version_bytes_ok|].
    apply bytes_ok_concat. apply Forall_map. apply Forall_forall. intros x _. apply build_tool_bytes_ok.
Qed.

(** a slice equal to a concatenation of fixed-size records *)
Lemma list_at_concat {A} (f : A -> list Z) size (P : nat -> A -> Prop) l o xs :
  (forall x, In x xs -> length (f x) = size) ->
  (forall o' x, In x xs -> slice o' size l = f x -> P o' x) ->
  slice o (size * length xs) l = concat (map f xs) ->
  list_at P size o xs.
Proof.
  revert o; induction xs as [|x xs IH]; intros o HL HP E; [exact I|]. cbn [list_at].
  cbn [map concat length] in E. replace (size * S (length xs))%nat with (size + size * length xs)%nat in E by lia.
  rewrite <- slice_join in E.
  assert (length (slice o size l) = size) as Ls.
  { assert (T : length (slice o size l ++ slice (o + size) (size * length xs) l) = (size + size * length xs)%nat).
    { rewrite E, app_length, HL by now left. f_equal. rewrite (concat_length_const _ size); [reflexivity|].
      intros y Hy. apply HL. now right. }
    rewrite app_length in T. unfold slice in *. rewrite !firstn_length in *. lia. }
  assert (slice o size l = f x /\ slice (o + size) (size * length xs) l = concat (map f xs)) as [E1 E2].
  { split.
    - apply (f_equal (firstn size)) in E. rewrite !firstn_app, Ls, HL, Nat.sub_diag, !firstn_O, !app_nil_r in E by now left.
      rewrite firstn_all2 in E by lia. rewrite E. apply firstn_all2. rewrite HL by now left. lia.
    - apply (f_equal (skipn size)) in E. rewrite !skipn_app, Ls, HL, Nat.sub_diag, !skipn_O in E by now left.
      rewrite !skipn_all2 in E by (rewrite ?Ls, ?HL by (now left); lia). exact E. }
  split; [apply HP; [now left|exact E1]|]. apply IH; [intros y Hy; apply HL; now right|intros; apply HP; [now right|auto]|exact E2].
Qed.

Lemma slice_split_app {A} o n m (l a b : list A) :
  slice o (n + m) l = a ++ b -> length a = n -> length b = m -> slice o n l = a /\ slice (o + n) m l = b.
Proof.
  intros E La Lb. rewrite <- slice_join in E.
  assert (length (slice o n l) = n) as Ls.
  { assert (T : length (slice o n l ++ slice (o + n) m l) = (n + m)%nat) by (rewrite E, app_length; lia).
    rewrite app_length in T. unfold slice in *. rewrite !firstn_length in *. lia. }
  split.
  - apply (f_equal (firstn n)) in E. rewrite !firstn_app, Ls, La, Nat.sub_diag, !firstn_O, !app_nil_r in E.
    rewrite firstn_all2 in E by lia. rewrite E. apply firstn_all2. lia.
  - apply (f_equal (skipn n)) in E. rewrite !skipn_app, Ls, La, Nat.sub_diag, !skipn_O in E.
    rewrite !skipn_all2 in E by lia. exact E.
Qed.

Lemma lc_bytes_at h c l o : lc_wf c -> slice o (lc_len c) l = lc_bytes h c -> lc_at h o l c.
Proof.
  intros W E. destruct c as [s ss|s|s|s ss]; cbn [lc_wf lc_bytes lc_len lc_at] in *.
  - destruct W as (R & N & _ & _ & _ & F). rewrite Forall_forall in F.
    assert (SL : forall x, In x ss -> length (section_bytes h x) = 80%nat)
      by (intros x Hx; destruct (F x Hx) as (_ & N1 & N2); now apply section_bytes_length).
    apply slice_split_app in E; [|now apply segment_bytes_length|now apply concat_length_const].
    destruct E as [E1 E2]. split.
    + apply (segment_local o _ _ _ _ E1); [now apply segment_bytes_length|now apply segment_bytes_at].
    + apply (list_at_concat (section_bytes h)) with (l := l); [exact SL| |exact E2].
      intros o' x Hx E. destruct (F x Hx) as (R' & N1 & N2).
      apply (section_local o' _ _ _ _ E); [now apply SL|now apply section_bytes_at].
  - apply (symtab_local o _ _ _ _ E); [apply symtab_bytes_length|apply symtab_bytes_at, W].
  - apply (dysymtab_local o _ _ _ _ E); [apply dysymtab_bytes_length|apply dysymtab_bytes_at, W].
  - destruct W as (R & _ & _ & _ & F). rewrite Forall_forall in F.
    assert (SL : forall x, In x ss -> length (build_tool_bytes h x) = 8%nat) by (intros; apply build_tool_bytes_length).
    apply slice_split_app in E; [|apply build_version_bytes_length|now apply concat_length_const].
    destruct E as [E1 E2]. split.
    + apply (build_version_local o _ _ _ _ E1); [apply build_version_bytes_length|now apply build_version_bytes_at].
    + apply (list_at_concat (build_tool_bytes h)) with (l := l); [exact SL| |exact E2].
      intros o' x Hx E. apply (build_tool_local o' _ _ _ _ E); [now apply SL|apply build_tool_bytes_at; auto].
Qed.
Lemma list_at_map {A B} (g : A -> B) (P : nat -> A -> Prop) (Q : nat -> B -> Prop) size o xs :
  (forall o x, P o x -> Q o (g x)) -> list_at P size o xs -> list_at Q size o (map g xs).
Proof. intros H. revert o; induction xs as [|x xs IH]; intros o; cbn [list_at map]; [auto|]. intros [H1 H2]. split; auto. Qed.
Lemma lc_at_canon e o l c : lc_at e o l c -> lc_at e o l (lc_canon c).
Proof.
  destruct c as [s ss|s|s|s ss]; cbn [lc_at lc_canon]; auto. intros [H1 H2]. split; [exact H1|].
  revert H2. apply list_at_map. intros o' x. apply section_at_canon.
Qed.
Lemma lc_len_canon c : lc_len (lc_canon c) = lc_len c.
Proof. destruct c; cbn [lc_len lc_canon]; try reflexivity. now rewrite map_length. Qed.
Lemma lc_wf_valid p c : lc_wf c -> lc_valid p (lc_canon c).
Proof.
  destruct c as [s ss|s|s|s ss]; cbn [lc_wf lc_canon lc_valid].
  - intros (R & N & C & K & S & F). split; [apply R|]. split; [exact C|].
    split; [apply cmdsize_ok_any; [now rewrite K|apply R]|]. split; [rewrite map_length, K; unfold zlen; lia|].
    apply Forall_map. revert F. apply Forall_impl. intros x (R' & N1 & N2). unfold section_canon. projs.
    split; [apply R'|]. split; [apply R'|apply sort_attrs_sorted].
  - intros (_ & C & S). now split.
  - intros (_ & C & S). now split.
  - intros (R & C & K & S & F). destruct R as (R1 & R2 & R3 & R4 & R5).
    repeat match goal with |- _ /\ _ => split end; auto; [apply cmdsize_ok_any; [now rewrite K|exact R2]|rewrite K; unfold zlen; lia].
Qed.
Lemma lc_read_back p h c l o : bytes_ok l -> lc_wf c -> slice o (lc_len c) l = lc_bytes h c ->
  read_load_command p h (skipn o l) = Ok (lc_canon c, skipn (o + lc_len c) l).
Proof.
  intros Hb W E. apply lc_read; [exact Hb|].
  split; [apply lc_at_canon; now apply (lc_bytes_at h c l o)|]. split; [now apply lc_wf_valid|].
  now rewrite lc_len_canon.
Qed.
Lemma lc_size_cmd c : lc_wf c -> lc_cmd_size c = Z.of_nat (lc_len c).
Proof.
  destruct c as [s ss|s|s|s ss]; cbn [lc_wf lc_cmd_size lc_len]; unfold zlen; intros H; decompose [and] H; lia.
Qed.
Lemma top_C16 p h c rest : lc_wf c -> bytes_ok rest ->
  exists bs, write_load_command h c = (bs, true) /\ Z.of_nat (length bs) = lc_cmd_size c /\
    fld h 0 4 bs = lc_cmd c /\ fld h 4 4 bs = lc_cmd_size c /\
    read_load_command p h (bs ++ rest) = Ok (lc_canon c, rest).
Proof.
  intros W Hr. exists (lc_bytes h c). split; [now apply lc_write|].
  pose proof (lc_bytes_length h c W) as L. split; [rewrite L; symmetry; now apply lc_size_cmd|].
  assert (A : lc_at h 0 (lc_bytes h c) c) by (apply lc_bytes_at; [exact W|now apply slice_all]).
  split; [|split].
  - destruct c as [s ss|s|s|s ss]; cbn [lc_at lc_cmd] in *;
      unfold segment_at, symtab_at, dysymtab_at, build_version_at in A; decompose [and] A; assumption.
  - destruct c as [s ss|s|s|s ss]; cbn [lc_at lc_cmd_size] in *;
      unfold segment_at, symtab_at, dysymtab_at, build_version_at in A; cbn [Nat.add] in A; decompose [and] A; assumption.
  - change (lc_bytes h c ++ rest) with (skipn 0 (lc_bytes h c ++ rest)).
    rewrite (lc_read_back p h c); [|apply bytes_ok_app; split; [now apply lc_bytes_ok|exact Hr]|exact W|now apply slice_hd].
    cbn [Nat.add]. rewrite <- L. now rewrite skipn_app_len.
Qed.
Lemma top_C16_seq p h cs rest : Forall lc_wf cs -> bytes_ok rest ->
  exists bs, wlist (map (write_load_command h) cs) = (bs, true) /\
    Z.of_nat (length bs) = fold_right Z.add 0 (map lc_cmd_size cs) /\
    read_many (length cs) (read_load_command p h) (bs ++ rest) = Ok (map lc_canon cs, rest).
Proof.
  intros F Hr. exists (concat (map (lc_bytes h) cs)).
  split; [apply wlist_map_ok; intros c Hc; rewrite Forall_forall in F; now apply lc_write, F|]. split.
  - induction F as [|c cs W F IH]; [reflexivity|]. cbn [map concat fold_right]. rewrite app_length, lc_bytes_length, lc_size_cmd by assumption. lia.
  - revert rest Hr. induction F as [|c cs W F IH]; intros rest Hr; [reflexivity|].
    cbn [map concat length read_many]. rewrite <- app_assoc.
    assert (OK : bytes_ok (concat (map (lc_bytes h) cs) ++ rest)).
    { apply bytes_ok_app. split; [|exact Hr]. apply bytes_ok_concat, Forall_map.
      revert F. apply Forall_impl. intros a. apply lc_bytes_ok. }
    erewrite rbind_step.
    2:{ destruct (top_C16 p h c (concat (map (lc_bytes h) cs) ++ rest) W OK) as (bs & W1 & _ & _ & _ & RD).
        rewrite lc_write in W1 by exact W. injection W1 as <-. exact RD. }
    erewrite rbind_step by now apply IH. reflexivity.
Qed.
Lemma top_C16_canon c : lc_canon c = c <->
  match c with LcSegment64 _ ss => Forall (fun x => StronglySorted Z.lt (map attr_bit (sc_attrs x))) ss | _ => True end.
Proof.
  destruct c as [s ss|s|s|s ss]; cbn [lc_canon]; try (split; auto; fail). split.
  - intros E. injection E as E. induction ss as [|x ss IH]; [constructor|]. cbn [map] in E. injection E as E1 E2.
    constructor; [now apply top_C13_canon|now apply IH].
  - intros F. f_equal. induction F as [|x ss S F IH]; [reflexivity|]. cbn [map]. f_equal; [now apply top_C13_canon|exact IH].
Qed.
