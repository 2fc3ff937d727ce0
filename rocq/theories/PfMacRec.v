(** Record codecs: what each writer writes, what each reader accepts and returns. *)
From Coq Require Import ZifyBool ZifyNat Sorting.Sorted.
From Verif Require Import Base Str Mac SpecMacho.
From Verif Require Export PfMac.
Ltac Zify.zify_post_hook ::= Z.div_mod_to_equations.

(** ** Locality: a record at [o] depends only on its own bytes *)

Lemma slice_slice {A} o k n N (l : list A) : (k + n <= N)%nat ->
  slice (o + k) n l = slice k n (slice o N l).
Proof.
  intros H. unfold slice. rewrite skipn_firstn_comm, firstn_firstn, skipn_skipn.
  rewrite Nat.min_l by lia. now rewrite (Nat.add_comm k o).
Qed.
Lemma fld_local e o k n N l : (k + n <= N)%nat -> fld e (o + k) n l = fld e k n (slice o N l).
Proof. intros H. unfold fld. now rewrite (slice_slice o k n N). Qed.
Lemma fld_local0 e o n N l : (n <= N)%nat -> fld e o n l = fld e 0 n (slice o N l).
Proof. intros H. rewrite <- (Nat.add_0_r o) at 1. now apply fld_local. Qed.
Lemma fld_i32_local e o k N l : (k + 4 <= N)%nat -> fld_i32 e (o + k) l = fld_i32 e k (slice o N l).
Proof. intros H. unfold fld_i32. now rewrite (fld_local e o k 4 N). Qed.
Lemma fld_i32_local0 e o N l : (4 <= N)%nat -> fld_i32 e o l = fld_i32 e 0 (slice o N l).
Proof. intros H. unfold fld_i32. now rewrite (fld_local0 e o 4 N). Qed.
Lemma fld_name_local o k n N l : (k + n <= N)%nat -> fld_name (o + k) n l = fld_name k n (slice o N l).
Proof. intros H. unfold fld_name. now rewrite (slice_slice o k n N). Qed.
Lemma fld_name_local0 o n N l : (n <= N)%nat -> fld_name o n l = fld_name 0 n (slice o N l).
Proof. intros H. rewrite <- (Nat.add_0_r o) at 1. now apply fld_name_local. Qed.

Ltac localize o N l :=
  repeat first
    [ rewrite (fld_i32_local _ o _ N l) by lia
    | rewrite (fld_i32_local0 _ o N l) by lia
    | rewrite (fld_name_local o _ _ N l) by lia
    | rewrite (fld_name_local0 o _ N l) by lia
    | rewrite (fld_local _ o _ _ N l) by lia
    | rewrite (fld_local0 _ o _ N l) by lia ].
Section Local.
  Variables (o : nat) (l : list Z) (bs : list Z).
  Lemma header_local e m x : slice o 32 l = bs -> length bs = 32%nat ->
    (header_at e o l m x <-> header_at e 0 bs m x).
  Proof.
    intros E L. assert (o + 32 <= length l)%nat
      by (subst bs; unfold slice in L; rewrite firstn_length, skipn_length in L; lia).
    unfold header_at. localize o 32%nat l. rewrite E. cbn [Nat.add]. intuition lia.
  Qed.
  Lemma segment_local e x : slice o 72 l = bs -> length bs = 72%nat ->
    (segment_at e o l x <-> segment_at e 0 bs x).
  Proof.
    intros E L. assert (o + 72 <= length l)%nat
      by (subst bs; unfold slice in L; rewrite firstn_length, skipn_length in L; lia).
    unfold segment_at. localize o 72%nat l. rewrite E. cbn [Nat.add].
    split; (intros (? & H1); split; [lia|exact H1]).
  Qed.
  Lemma section_local e x : slice o 80 l = bs -> length bs = 80%nat ->
    (section_at e o l x <-> section_at e 0 bs x).
  Proof.
    intros E L. assert (o + 80 <= length l)%nat
      by (subst bs; unfold slice in L; rewrite firstn_length, skipn_length in L; lia).
    unfold section_at. localize o 80%nat l. rewrite E. cbn [Nat.add].
    split; (intros (? & H1); split; [lia|exact H1]).
  Qed.
  Lemma symtab_local e x : slice o 24 l = bs -> length bs = 24%nat ->
    (symtab_at e o l x <-> symtab_at e 0 bs x).
  Proof.
    intros E L. assert (o + 24 <= length l)%nat
      by (subst bs; unfold slice in L; rewrite firstn_length, skipn_length in L; lia).
    unfold symtab_at. localize o 24%nat l. rewrite E. cbn [Nat.add].
    split; (intros (? & H1); split; [lia|exact H1]).
  Qed.
  Lemma dysymtab_local e x : slice o 80 l = bs -> length bs = 80%nat ->
    (dysymtab_at e o l x <-> dysymtab_at e 0 bs x).
  Proof.
    intros E L. assert (o + 80 <= length l)%nat
      by (subst bs; unfold slice in L; rewrite firstn_length, skipn_length in L; lia).
    unfold dysymtab_at. localize o 80%nat l. rewrite E. cbn [Nat.add].
    split; (intros (? & H1); split; [lia|exact H1]).
  Qed.
  Lemma build_version_local e x : slice o 24 l = bs -> length bs = 24%nat ->
    (build_version_at e o l x <-> build_version_at e 0 bs x).
  Proof.
    intros E L. assert (o + 24 <= length l)%nat
      by (subst bs; unfold slice in L; rewrite firstn_length, skipn_length in L; lia).
    unfold build_version_at. localize o 24%nat l. rewrite E. cbn [Nat.add].
    split; (intros (? & H1); split; [lia|exact H1]).
  Qed.
  Lemma build_tool_local e x : slice o 8 l = bs -> length bs = 8%nat ->
    (build_tool_at e o l x <-> build_tool_at e 0 bs x).
  Proof.
    intros E L. assert (o + 8 <= length l)%nat
      by (subst bs; unfold slice in L; rewrite firstn_length, skipn_length in L; lia).
    unfold build_tool_at. localize o 8%nat l. rewrite E. cbn [Nat.add].
    split; (intros (? & H1); split; [lia|exact H1]).
  Qed.
  Lemma nlist_local e x : slice o 16 l = bs -> length bs = 16%nat ->
    (nlist_at e o l x <-> nlist_at e 0 bs x).
  Proof.
    intros E L. assert (o + 16 <= length l)%nat
      by (subst bs; unfold slice in L; rewrite firstn_length, skipn_length in L; lia).
    unfold nlist_at. localize o 16%nat l. rewrite E. cbn [Nat.add].
    split; (intros (? & H1); split; [lia|exact H1]).
  Qed.
  Lemma reloc_local e x : slice o 8 l = bs -> length bs = 8%nat ->
    (reloc_at e o l x <-> reloc_at e 0 bs x).
  Proof.
    intros E L. assert (o + 8 <= length l)%nat
      by (subst bs; unfold slice in L; rewrite firstn_length, skipn_length in L; lia).
    unfold reloc_at. localize o 8%nat l. rewrite E. cbn [Nat.add].
    split; (intros (? & H1); split; [lia|exact H1]).
  Qed.
End Local.

(** ** Writers *)

Ltac lens := repeat rewrite app_length; repeat rewrite bytes_of_length; repeat rewrite name_bytes_length by assumption.
Ltac oks := repeat first [apply bytes_of_ok | apply name_bytes_ok; assumption | apply bytes_ok_app; split].
Ltac fld_go :=
  repeat (rewrite fld_skip by (rewrite ?bytes_of_length, ?name_bytes_length by assumption; lia));
  match goal with
  | |- fld ?e ?o ?n (bytes_of ?e ?n ?x ++ ?l) = ?y =>
      replace o with 0%nat by (rewrite ?bytes_of_length, ?name_bytes_length by assumption; reflexivity);
      apply fld_hd
  end.
Ltac fld_name_go :=
  repeat (rewrite fld_name_skip by (rewrite ?bytes_of_length, ?name_bytes_length by assumption; lia));
  match goal with
  | |- fld_name ?o ?n (name_bytes ?x ++ ?l) = ?y =>
      replace o with 0%nat by (rewrite ?bytes_of_length, ?name_bytes_length by assumption; reflexivity);
      apply fld_name_hd
  end.

(** the byte layout of each record, as right-nested appends ending in [] *)
Definition header_bytes (h : endian) (x : header64) : list Z :=
  bytes_of h 4 (magic_to_u32 (h_magic x)) ++ bytes_of h 4 (wrapu 32 (fst (cpu_to (h_cpu x)))) ++
  bytes_of h 4 (wrapu 32 (snd (cpu_to (h_cpu x)))) ++ bytes_of h 4 (file_type_to_u32 (h_file_type x)) ++
  bytes_of h 4 (h_ncmds x) ++ bytes_of h 4 (h_size_of_cmds x) ++
  bytes_of h 4 (flags_to_u32 (h_flags x)) ++ bytes_of h 4 (h_reserved x) ++ [].

Lemma header_write h x : write_header64 h x = (header_bytes h x, true).
Proof. unfold header_bytes. rewrite app_nil_r. reflexivity. Qed.
Lemma header_bytes_length h x : length (header_bytes h x) = 32%nat.
Proof. unfold header_bytes. now lens. Qed.
Lemma header_bytes_ok h x : bytes_ok (header_bytes h x).
Proof. unfold header_bytes. oks. constructor. Qed.
Lemma header_bytes_at h x : header_rng x -> header_at h 0 (header_bytes h x) (magic_num (h_magic x)) x.
Proof.
  intros (R1 & R2 & R3). unfold header_at. rewrite header_bytes_length. unfold header_bytes.
  cbn [Nat.add].
  split; [lia|].
  assert (HM : magic_to_u32 (h_magic x) = magic_num (h_magic x)) by now destruct (h_magic x).
  split; [rewrite HM; fld_go; destruct (h_magic x); unfold inu; cbn; lia|].
  assert (HC1 : wrapu 32 (fst (cpu_to (h_cpu x))) = fst (cpu_nums (h_cpu x))) by now destruct (h_cpu x) as [[]|[]].
  assert (HC2 : wrapu 32 (snd (cpu_to (h_cpu x))) = snd (cpu_nums (h_cpu x))) by now destruct (h_cpu x) as [[]|[]].
  rewrite HC1, HC2.
  split; [fld_go; destruct (h_cpu x); unfold inu; cbn; lia|].
  split; [fld_go; destruct (h_cpu x); unfold inu; cbn; lia|].
  assert (HF : file_type_to_u32 (h_file_type x) = file_type_num (h_file_type x)) by now destruct (h_file_type x).
  rewrite HF.
  split; [fld_go; destruct (h_file_type x); unfold inu; cbn; lia|].
  split; [now fld_go|]. split; [now fld_go|].
  split; [|now fld_go].
  assert (E : forall w, w = flags_to_u32 (h_flags x) -> is_bitset flag_bit (h_flags x) w)
    by (intros w ->; apply flags_to_bitset).
  apply E. fld_go. apply flags_to_range.
Qed.

Definition segment_bytes (h : endian) (x : segment64) : list Z :=
  bytes_of h 4 (sg_cmd x) ++ bytes_of h 4 (sg_cmdsize x) ++ name_bytes (sg_segname x) ++
  bytes_of h 8 (sg_vmaddr x) ++ bytes_of h 8 (sg_vmsize x) ++ bytes_of h 8 (sg_fileoff x) ++
  bytes_of h 8 (sg_filesize x) ++ bytes_of h 4 (wrapu 32 (sg_maxprot x)) ++
  bytes_of h 4 (wrapu 32 (sg_initprot x)) ++ bytes_of h 4 (sg_nsects x) ++
  bytes_of h 4 (sg_flags x) ++ [].
Lemma segment_write h x : name16 (sg_segname x) -> write_segment64 h x = (segment_bytes h x, true).
Proof.
  intros H. unfold write_segment64, segment_bytes. rewrite write_name16 by assumption.
  rewrite app_nil_r. reflexivity.
Qed.
Lemma segment_bytes_length h x : name16 (sg_segname x) -> length (segment_bytes h x) = 72%nat.
Proof. intros H. unfold segment_bytes. now lens. Qed.
Lemma segment_bytes_ok h x : name16 (sg_segname x) -> bytes_ok (segment_bytes h x).
Proof. intros H. unfold segment_bytes. oks. constructor. Qed.
Lemma i32_go e o l x : ini 32 x -> fld e o 4 l = wrapu 32 x -> fld_i32 e o l = x.
Proof. intros R E. unfold fld_i32. rewrite E. now apply signed_wrapu. Qed.
Lemma segment_bytes_at h x : segment_rng x -> name16 (sg_segname x) -> segment_at h 0 (segment_bytes h x) x.
Proof.
  intros (R1 & R2 & R3 & R4 & R5 & R6 & R7 & R8 & R9 & R10 & R11) N. unfold segment_at.
  rewrite segment_bytes_length by assumption. unfold segment_bytes. cbn [Nat.add].
  split; [lia|].
  split; [now fld_go|]. split; [now fld_go|]. split; [now fld_name_go|].
  split; [now fld_go|]. split; [now fld_go|]. split; [now fld_go|]. split; [now fld_go|].
  split; [apply i32_go; [assumption|]; fld_go; apply wrapu_range; lia|].
  split; [apply i32_go; [assumption|]; fld_go; apply wrapu_range; lia|].
  split; [now fld_go|]. now fld_go.
Qed.

Definition section_flags (x : section64) : Z :=
  Z.lor (section_attrs_to_u32 (sc_attrs x)) (section_type_to_u32 (sc_type x)).
Definition section_bytes (h : endian) (x : section64) : list Z :=
  name_bytes (sc_sectname x) ++ name_bytes (sc_segname x) ++ bytes_of h 8 (sc_addr x) ++
  bytes_of h 8 (sc_size x) ++ bytes_of h 4 (sc_offset x) ++ bytes_of h 4 (sc_align x) ++
  bytes_of h 4 (sc_reloff x) ++ bytes_of h 4 (sc_nreloc x) ++ bytes_of h 4 (section_flags x) ++
  bytes_of h 4 (sc_reserved1 x) ++ bytes_of h 4 (sc_reserved2 x) ++ bytes_of h 4 (sc_reserved3 x) ++ [].
Lemma section_write h x : name16 (sc_sectname x) -> name16 (sc_segname x) ->
  write_section64 h x = (section_bytes h x, true).
Proof.
  intros H H'. unfold write_section64, section_bytes. rewrite !write_name16 by assumption.
  rewrite app_nil_r. reflexivity.
Qed.
Lemma section_bytes_length h x : name16 (sc_sectname x) -> name16 (sc_segname x) ->
  length (section_bytes h x) = 80%nat.
Proof. intros H H'. unfold section_bytes. now lens. Qed.
Lemma section_bytes_ok h x : name16 (sc_sectname x) -> name16 (sc_segname x) -> bytes_ok (section_bytes h x).
Proof. intros H H'. unfold section_bytes. oks. constructor. Qed.

Lemma lor_low_high a t : inu 8 t -> (forall i, 0 <= i < 8 -> Z.testbit a i = false) ->
  Z.lor a t mod 256 = t /\ 256 * (Z.lor a t / 256) = a.
Proof.
  intros Ht Ha. change 256 with (2 ^ 8).
  rewrite <- Z.land_ones, <- Z.shiftr_div_pow2, Z.mul_comm, <- Z.shiftl_mul_pow2 by lia.
  split; apply Z.bits_inj'; intros i Hi.
  - rewrite Z.land_spec, Z.lor_spec. destruct (Z.lt_ge_cases i 8) as [L|L].
    + rewrite Z.ones_spec_low by lia. rewrite Ha by lia. cbn [orb]. apply andb_true_r.
    + rewrite Z.ones_spec_high by lia. rewrite andb_false_r. symmetry. apply testbit_bound with (n := 8); [exact Ht|lia].
  - destruct (Z.lt_ge_cases i 8) as [L|L].
    + rewrite Z.shiftl_spec_low by lia. symmetry. apply Ha. lia.
    + rewrite Z.shiftl_spec_high, Z.shiftr_spec, Z.lor_spec by lia. replace (i - 8 + 8) with i by lia.
      rewrite (testbit_bound t 8) by (exact Ht || lia). apply orb_false_r.
Qed.
Lemma section_flags_props x :
  inu 32 (section_flags x) /\ section_flags x mod 256 = section_type_num (sc_type x) /\
  256 * (section_flags x / 256) = section_attrs_to_u32 (sc_attrs x).
Proof.
  assert (HT : section_type_to_u32 (sc_type x) = section_type_num (sc_type x)) by now destruct (sc_type x).
  assert (HR : inu 8 (section_type_num (sc_type x))) by (destruct (sc_type x); unfold inu; cbn; lia).
  unfold section_flags. rewrite HT. split.
  - pose proof (attrs_to_range (sc_attrs x)) as [A1 A2]. apply bound_testbit; [|lia|].
    + apply Z.lor_nonneg. split; [exact A1|apply HR].
    + intros i Hi. rewrite Z.lor_spec, (testbit_bound _ 32 i (attrs_to_range _)), (testbit_bound _ 8 i HR) by lia.
      reflexivity.
  - apply lor_low_high; [exact HR|]. intros i Hi. now apply attrs_to_low.
Qed.
Lemma section_bytes_at h x : section_rng x -> name16 (sc_sectname x) -> name16 (sc_segname x) ->
  section_at h 0 (section_bytes h x) x.
Proof.
  intros (R1 & R2 & R3 & R4 & R5 & R6 & R7 & R8 & R9 & R10 & R11) N N'. unfold section_at.
  rewrite section_bytes_length by assumption. unfold section_bytes. cbn [Nat.add].
  destruct (section_flags_props x) as (F1 & F2 & F3).
  split; [lia|].
  split; [now fld_name_go|]. split; [now fld_name_go|].
  split; [now fld_go|]. split; [now fld_go|]. split; [now fld_go|]. split; [now fld_go|].
  split; [now fld_go|]. split; [now fld_go|].
  match goal with |- ?w mod 256 = _ /\ _ => assert (EF : w = section_flags x) by now fld_go end.
  rewrite EF, F2, F3.
  split; [reflexivity|]. split; [apply attrs_to_bitset|].
  split; [now fld_go|]. split; [now fld_go|]. now fld_go.
Qed.

Definition symtab_bytes (h : endian) (x : symtab) : list Z :=
  bytes_of h 4 (st_cmd x) ++ bytes_of h 4 (st_cmdsize x) ++ bytes_of h 4 (st_symoff x) ++
  bytes_of h 4 (st_nsyms x) ++ bytes_of h 4 (st_stroff x) ++ bytes_of h 4 (st_strsize x) ++ [].
Lemma symtab_write h x : write_symtab h x = (symtab_bytes h x, true).
Proof. unfold symtab_bytes. rewrite app_nil_r. reflexivity. Qed.
Lemma symtab_bytes_length h x : length (symtab_bytes h x) = 24%nat.
Proof. unfold symtab_bytes. now lens. Qed.
Lemma symtab_bytes_ok h x : bytes_ok (symtab_bytes h x).
Proof. unfold symtab_bytes. oks. constructor. Qed.
Lemma symtab_bytes_at h x : symtab_rng x -> symtab_at h 0 (symtab_bytes h x) x.
Proof.
  intros (R1 & R2 & R3 & R4 & R5 & R6). unfold symtab_at. rewrite symtab_bytes_length.
  unfold symtab_bytes. cbn [Nat.add]. split; [lia|]. repeat (split; [now fld_go|]). now fld_go.
Qed.

Definition dysymtab_bytes (h : endian) (x : dysymtab) : list Z :=
  bytes_of h 4 (dy_cmd x) ++ bytes_of h 4 (dy_cmdsize x) ++ bytes_of h 4 (dy_ilocalsym x) ++
  bytes_of h 4 (dy_nlocalsym x) ++ bytes_of h 4 (dy_iextdefsym x) ++ bytes_of h 4 (dy_nextdefsym x) ++
  bytes_of h 4 (dy_iundefsym x) ++ bytes_of h 4 (dy_nundefsym x) ++ bytes_of h 4 (dy_tocoff x) ++
  bytes_of h 4 (dy_ntoc x) ++ bytes_of h 4 (dy_modtaboff x) ++ bytes_of h 4 (dy_nmodtab x) ++
  bytes_of h 4 (dy_extrefsymoff x) ++ bytes_of h 4 (dy_nextrefsyms x) ++
  bytes_of h 4 (dy_indirectsymoff x) ++ bytes_of h 4 (dy_nindirectsyms x) ++
  bytes_of h 4 (dy_extreloff x) ++ bytes_of h 4 (dy_nextrel x) ++ bytes_of h 4 (dy_locreloff x) ++
  bytes_of h 4 (dy_nlocrel x) ++ [].
Lemma dysymtab_write h x : write_dysymtab h x = (dysymtab_bytes h x, true).
Proof. unfold dysymtab_bytes. rewrite app_nil_r. reflexivity. Qed.
Lemma dysymtab_bytes_length h x : length (dysymtab_bytes h x) = 80%nat.
Proof. unfold dysymtab_bytes. now lens. Qed.
Lemma dysymtab_bytes_ok h x : bytes_ok (dysymtab_bytes h x).
Proof. unfold dysymtab_bytes. oks. constructor. Qed.
Lemma dysymtab_bytes_at h x : dysymtab_rng x -> dysymtab_at h 0 (dysymtab_bytes h x) x.
Proof.
  intros (R1 & R2 & R3 & R4 & R5 & R6 & R7 & R8 & R9 & R10 & R11 & R12 & R13 & R14 & R15 & R16 & R17 & R18 & R19 & R20).
  unfold dysymtab_at. rewrite dysymtab_bytes_length.
  unfold dysymtab_bytes. cbn [Nat.add]. split; [lia|]. repeat (split; [now fld_go|]). now fld_go.
Qed.

(** versions *)
Lemma version_to_num v : version_rng v -> version_to_u32 v = version_num v.
Proof.
  intros ((A1 & A2) & (B1 & B2) & (C1 & C2)). unfold version_to_u32, version_num, wrapu.
  rewrite Z.lor_0_l, !Z.shiftl_mul_pow2 by lia.
  change (2 ^ 16) with 65536 in *. change (2 ^ 8) with 256 in *. change (2 ^ 32) with 4294967296.
  rewrite !Z.mod_small by nia.
  assert (E1 : Z.lor (v_major v * 65536) (v_minor v * 256) = v_major v * 65536 + v_minor v * 256).
  { rewrite <- Z.lxor_lor, <- Z.add_nocarry_lxor; try reflexivity;
      apply Z.bits_inj'; intros i Hi; rewrite Z.bits_0, Z.land_spec;
      change 65536 with (2 ^ 16); change 256 with (2 ^ 8).
    all: destruct (Z.lt_ge_cases i 16) as [L|L];
      [rewrite Z.mul_pow2_bits_low by lia; reflexivity|].
    all: rewrite (testbit_bound (v_minor v * 2 ^ 8) 16) by (unfold inu; lia); apply andb_false_r. }
  rewrite E1.
  rewrite <- Z.lxor_lor, <- Z.add_nocarry_lxor; try reflexivity;
    apply Z.bits_inj'; intros i Hi; rewrite Z.bits_0, Z.land_spec;
    replace (v_major v * 65536 + v_minor v * 256) with ((v_major v * 256 + v_minor v) * 2 ^ 8) by lia.
  all: destruct (Z.lt_ge_cases i 8) as [L|L];
    [rewrite Z.mul_pow2_bits_low by lia; reflexivity|].
  all: rewrite (testbit_bound (v_release v) 8) by (unfold inu; lia); apply andb_false_r.
Qed.
Lemma land_mask n lo len : 0 <= lo -> 0 <= len ->
  Z.shiftr (Z.land n (Z.shiftl (Z.ones len) lo)) lo = (n / 2 ^ lo) mod 2 ^ len.
Proof.
  intros Hl Hn. rewrite <- Z.land_ones, <- Z.shiftr_div_pow2 by lia.
  rewrite Z.shiftr_land. f_equal. rewrite Z.shiftr_shiftl_l by lia.
  replace (lo - lo) with 0 by lia. apply Z.shiftl_0_r.
Qed.
Lemma version_from_num n : inu 32 n ->
  version_rng (version_from_u32 n) /\ version_num (version_from_u32 n) = n.
Proof.
  intros [N1 N2]. unfold version_from_u32.
  assert (E1 : Z.shiftr (Z.land n 0xFFFF0000) 16 = (n / 65536) mod 65536)
    by (apply (land_mask n 16 16); lia).
  assert (E2 : Z.shiftr (Z.land n 0x0000FF00) 8 = (n / 256) mod 256) by (apply (land_mask n 8 8); lia).
  assert (E3 : Z.land n 0x000000FF = n mod 256) by (apply (Z.land_ones n 8); lia).
  rewrite E1, E2, E3. unfold version_rng, version_num, wrapu, inu. cbn [v_major v_minor v_release].
  change (2 ^ 16) with 65536. change (2 ^ 8) with 256. change (2 ^ 32) with 4294967296 in *.
  rewrite !Z.mod_mod by lia. repeat split; try lia.
Qed.
Lemma version_num_inj v w : version_rng v -> version_rng w -> version_num v = version_num w -> v = w.
Proof.
  destruct v as [a b c], w as [a' b' c']. unfold version_rng, version_num, inu. cbn [v_major v_minor v_release].
  change (2 ^ 16) with 65536. change (2 ^ 8) with 256. intros. f_equal; lia.
Qed.
Lemma version_num_range v : version_rng v -> inu 32 (version_num v).
Proof.
  unfold version_rng, version_num, inu.
  change (2 ^ 16) with 65536. change (2 ^ 8) with 256. change (2 ^ 32) with 4294967296. lia.
Qed.
Lemma version_from_iff n v : inu 32 n -> (version_from_u32 n = v <-> version_rng v /\ version_num v = n).
Proof.
  intros H. destruct (version_from_num n H) as [R E]. split; [now intros <-|].
  intros [R' E']. apply version_num_inj; [assumption|assumption|congruence].
Qed.

Definition build_version_bytes (h : endian) (x : build_version) : list Z :=
  bytes_of h 4 (bv_cmd x) ++ bytes_of h 4 (bv_cmdsize x) ++ bytes_of h 4 (platform_to_u32 (bv_platform x)) ++
  bytes_of h 4 (version_to_u32 (bv_minos x)) ++ bytes_of h 4 (version_to_u32 (bv_sdk x)) ++
  bytes_of h 4 (bv_ntools x) ++ [].
Lemma build_version_write h x : write_build_version h x = (build_version_bytes h x, true).
Proof. unfold build_version_bytes. rewrite app_nil_r. reflexivity. Qed.
Lemma build_version_bytes_length h x : length (build_version_bytes h x) = 24%nat.
Proof. unfold build_version_bytes. now lens. Qed.
Lemma build_version_bytes_ok h x : bytes_ok (build_version_bytes h x).
Proof. unfold build_version_bytes. oks. constructor. Qed.
Lemma build_version_bytes_at h x : build_version_rng x -> build_version_at h 0 (build_version_bytes h x) x.
Proof.
  intros (R1 & R2 & R3 & R4 & R5). unfold build_version_at. rewrite build_version_bytes_length.
  unfold build_version_bytes. cbn [Nat.add]. rewrite !version_to_num by assumption.
  assert (HP : platform_to_u32 (bv_platform x) = platform_num (bv_platform x)) by now destruct (bv_platform x).
  rewrite HP.
  split; [lia|]. split; [now fld_go|]. split; [now fld_go|].
  split; [fld_go; destruct (bv_platform x); unfold inu; cbn; lia|].
  split; [fld_go; now apply version_num_range|]. split; [fld_go; now apply version_num_range|]. now fld_go.
Qed.

Definition build_tool_bytes (h : endian) (x : build_tool) : list Z :=
  bytes_of h 4 (tool_to_u32 (bt_tool x)) ++ bytes_of h 4 (bt_version x) ++ [].
Lemma build_tool_write h x : write_build_tool h x = (build_tool_bytes h x, true).
Proof. unfold build_tool_bytes. rewrite app_nil_r. reflexivity. Qed.
Lemma build_tool_bytes_length h x : length (build_tool_bytes h x) = 8%nat.
Proof. unfold build_tool_bytes. now lens. Qed.
Lemma build_tool_bytes_ok h x : bytes_ok (build_tool_bytes h x).
Proof. unfold build_tool_bytes. oks. constructor. Qed.
Lemma build_tool_bytes_at h x : build_tool_rng x -> build_tool_at h 0 (build_tool_bytes h x) x.
Proof.
  intros R1. unfold build_tool_at. rewrite build_tool_bytes_length.
  unfold build_tool_bytes. cbn [Nat.add].
  assert (HP : tool_to_u32 (bt_tool x) = tool_num (bt_tool x)) by now destruct (bt_tool x).
  rewrite HP.
  split; [lia|]. split; [fld_go; destruct (bt_tool x); unfold inu; cbn; lia|]. now fld_go.
Qed.

Definition nlist_bytes (h : endian) (x : nlist64) : list Z :=
  bytes_of h 4 (nl_strx x) ++ bytes_of h 1 (n_type_field_to_u8 (nl_type x)) ++
  bytes_of h 1 (nl_sect x) ++ bytes_of h 2 (nl_desc x) ++ bytes_of h 8 (nl_value x) ++ [].
Lemma bytes_of_1 e x : bytes_of e 1 x = [x mod 256].
Proof. now destruct e. Qed.
Lemma nlist_write h x : write_nlist64 h x = (nlist_bytes h x, true).
Proof. unfold nlist_bytes. rewrite app_nil_r, !bytes_of_1. reflexivity. Qed.
Lemma nlist_bytes_length h x : length (nlist_bytes h x) = 16%nat.
Proof. unfold nlist_bytes. now lens. Qed.
Lemma nlist_bytes_ok h x : bytes_ok (nlist_bytes h x).
Proof. unfold nlist_bytes. oks. constructor. Qed.
Lemma n_type_field_to_byte f : n_type_byte f (n_type_field_to_u8 f) /\ inu 8 (n_type_field_to_u8 f).
Proof. destruct f as [[] [] []|[]]; cbn; unfold inu; cbn; lia. Qed.
Lemma nlist_bytes_at h x : nlist_rng x -> nlist_at h 0 (nlist_bytes h x) x.
Proof.
  intros (R1 & R2 & R3 & R4). unfold nlist_at. rewrite nlist_bytes_length.
  unfold nlist_bytes. cbn [Nat.add].
  destruct (n_type_field_to_byte (nl_type x)) as [B1 B2].
  split; [lia|]. split; [now fld_go|].
  split; [|split; [now fld_go|split; [now fld_go|now fld_go]]].
  match goal with |- n_type_byte _ ?w => assert (E : w = n_type_field_to_u8 (nl_type x)) by (now fld_go) end.
  now rewrite E.
Qed.

Definition reloc_word_of (h : endian) (x : reloc_info) : Z :=
  match h with
  | Little =>
      Z.lor (Z.lor (Z.lor (Z.lor (Z.lor 0 (r_symbolnum x))
        (b2z (r_pcrel x) * 0x01000000))
        (wrapu 32 (Z.shiftl (reloc_length_to_u32 (r_length x)) 25)))
        (b2z (r_extern x) * 0x08000000))
        (wrapu 32 (Z.shiftl (r_type x) 28))
  | Big =>
      Z.lor (Z.lor (Z.lor (Z.lor (Z.lor 0 (wrapu 32 (Z.shiftl (r_symbolnum x) 8)))
        (b2z (r_pcrel x) * 0x00000080))
        (wrapu 32 (Z.shiftl (reloc_length_to_u32 (r_length x)) 5)))
        (b2z (r_extern x) * 0x00000010))
        (r_type x)
  end.
Definition reloc_bytes (h : endian) (x : reloc_info) : list Z :=
  bytes_of h 4 (wrapu 32 (r_address x)) ++ bytes_of h 4 (reloc_word_of h x) ++ [].
Lemma reloc_write h x : write_reloc_info h x = (reloc_bytes h x, true).
Proof. unfold reloc_bytes. rewrite app_nil_r. reflexivity. Qed.
Lemma reloc_bytes_length h x : length (reloc_bytes h x) = 8%nat.
Proof. unfold reloc_bytes. now lens. Qed.
Lemma reloc_bytes_ok h x : bytes_ok (reloc_bytes h x).
Proof. unfold reloc_bytes. oks. constructor. Qed.

(** disjoint or is addition *)
Lemma lor_add a b k : 0 <= k -> inu k a -> b mod 2 ^ k = 0 -> Z.lor a b = a + b.
Proof.
  intros Hk Ha Hb. rewrite <- Z.lxor_lor, <- Z.add_nocarry_lxor; try reflexivity;
    apply Z.bits_inj'; intros i Hi; rewrite Z.bits_0, Z.land_spec.
  all: destruct (Z.lt_ge_cases i k) as [L|L];
    [|rewrite (testbit_bound a k) by (exact Ha || lia); reflexivity].
  all: replace b with (b / 2 ^ k * 2 ^ k) by (pose proof (Z.pow_pos_nonneg 2 k); lia);
    rewrite (Z.mul_pow2_bits_low _ k i) by lia; apply andb_false_r.
Qed.
Lemma reloc_word_eq h x : reloc_fits x -> reloc_word_of h x = reloc_word h x /\ inu 32 (reloc_word h x).
Proof.
  intros [[A1 A2] [B1 B2]]. unfold reloc_word_of, reloc_word, wrapu.
  assert (HL : reloc_length_to_u32 (r_length x) = reloc_length_num (r_length x)) by now destruct (r_length x).
  assert (HL2 : 0 <= reloc_length_num (r_length x) < 4) by (destruct (r_length x); cbn; lia).
  rewrite HL. rewrite !Z.shiftl_mul_pow2 by lia. rewrite Z.lor_0_l.
  assert (P : b2z (r_pcrel x) = bit01 (r_pcrel x)) by reflexivity.
  assert (Q : b2z (r_extern x) = bit01 (r_extern x)) by reflexivity.
  rewrite P, Q.
  assert (0 <= bit01 (r_pcrel x) <= 1) by (destruct (r_pcrel x); cbn; lia).
  assert (0 <= bit01 (r_extern x) <= 1) by (destruct (r_extern x); cbn; lia).
  change (2 ^ 24) with 16777216 in *. change (2 ^ 25) with 33554432. change (2 ^ 27) with 134217728.
  change (2 ^ 28) with 268435456. change (2 ^ 8) with 256. change (2 ^ 7) with 128. change (2 ^ 5) with 32.
  change (2 ^ 4) with 16 in *. unfold inu. change (2 ^ 32) with 4294967296.
  set (p := bit01 (r_pcrel x)) in *. set (q := bit01 (r_extern x)) in *.
  set (len := reloc_length_num (r_length x)) in *. set (sn := r_symbolnum x) in *. set (t := r_type x) in *.
  destruct h.
  - rewrite !Z.mod_small by lia.
    rewrite (lor_add sn (p * 16777216) 24) by (unfold inu; try change (2 ^ 24) with 16777216; lia).
    rewrite (lor_add _ (len * 33554432) 25) by (unfold inu; try change (2 ^ 25) with 33554432; lia).
    rewrite (lor_add _ (q * 134217728) 27) by (unfold inu; try change (2 ^ 27) with 134217728; lia).
    rewrite (lor_add _ (t * 268435456) 28) by (unfold inu; try change (2 ^ 28) with 268435456; lia).
    lia.
  - rewrite !Z.mod_small by lia.
    rewrite (Z.lor_comm (sn * 256)).
    rewrite (lor_add (p * 128) (sn * 256) 8) by (unfold inu; try change (2 ^ 8) with 256; lia).
    rewrite (Z.lor_comm _ (len * 32)).
    rewrite (lor_add (len * 32) _ 7) by (unfold inu; try change (2 ^ 7) with 128; lia).
    rewrite (Z.lor_comm _ (q * 16)).
    rewrite (lor_add (q * 16) _ 5) by (unfold inu; try change (2 ^ 5) with 32; lia).
    rewrite (Z.lor_comm _ t).
    rewrite (lor_add t _ 4) by (unfold inu; try change (2 ^ 4) with 16; lia).
    lia.
Qed.
Lemma reloc_bytes_at h x : reloc_rng x -> reloc_fits x -> reloc_at h 0 (reloc_bytes h x) x.
Proof.
  intros (R1 & R2 & R3) F. unfold reloc_at. rewrite reloc_bytes_length.
  unfold reloc_bytes. cbn [Nat.add]. destruct (reloc_word_eq h x F) as [-> W].
  split; [lia|]. split; [apply i32_go; [assumption|]; fld_go; apply wrapu_range; lia|]. now fld_go.
Qed.
