(** Proofs about panic messages: the records of a file. *)
From Coq Require String.
Import String.StringSyntax.
From Coq Require Import ZifyBool ZifyNat Sorting.Sorted.
From Verif Require Import Base Str SpecAsm SpecDiag Mac SpecMacho SpecMore Cli SpecCli SpecOs X64 Obj Asm Assembler SpecRun Says SpecSays
  PfStr PfTok PfBytes PfMac PfMacRead PfMacTop PfMore PfDiag PfOs PfSays.
Ltac Zify.zify_post_hook ::= Z.div_mod_to_equations.

(** ** Steps of a reader that dies *)

Lemma q_bind {A B} (m : reader A) (k : A -> sreader B) l x :
  sr_bind (sr_quiet m) k l = Dies (Said x) <-> exists a l', m l = Ok (a, l') /\ k a l' = Dies (Said x).
Proof.
  unfold sr_bind, sr_quiet, quiet_res. destruct (m l) as [[a l']|].
  - split; [intros H; now exists a, l'|intros (b & l2 & E & H); now injection E as <- <-].
  - split; [discriminate|intros (b & l2 & E & _); discriminate].
Qed.
Lemma q_none {A B} (m : reader A) (k : A -> sreader B) l x : (forall a l' , k a l' <> Dies (Said x)) -> sr_bind (sr_quiet m) k l <> Dies (Said x).
Proof. intros K H. apply q_bind in H. destruct H as (a & l' & _ & H). now apply (K a l'). Qed.
Lemma q_uint {B} n e off l (k : Z -> sreader B) x : (0 < n)%nat ->
  (sr_bind (sr_quiet (read_uint n e)) k (skipn off l) = Dies (Said x) <->
   (off + n <= length l)%nat /\ k (fld e off n l) (skipn (off + n) l) = Dies (Said x)).
Proof.
  intros Hn. pose proof (rbind_uint_skip n e off l rret Hn) as R. unfold rbind, rret in R.
  unfold sr_bind, sr_quiet, quiet_res. destruct (read_uint n e (skipn off l)) as [[a l']|];
    destruct (Nat.leb_spec (off + n) (length l)) as [L|L]; try discriminate R.
  - injection R as -> ->. tauto.
  - split; [discriminate|intros [? _]; lia].
Qed.
Lemma q_u32 {B} e off l (k : Z -> sreader B) x :
  sr_bind (sr_quiet (read_u32 e)) k (skipn off l) = Dies (Said x) <->
  (off + 4 <= length l)%nat /\ k (fld e off 4 l) (skipn (off + 4) l) = Dies (Said x).
Proof. apply q_uint. lia. Qed.
Lemma q_u64 {B} e off l (k : Z -> sreader B) x :
  sr_bind (sr_quiet (read_u64 e)) k (skipn off l) = Dies (Said x) <->
  (off + 8 <= length l)%nat /\ k (fld e off 8 l) (skipn (off + 8) l) = Dies (Said x).
Proof. apply q_uint. lia. Qed.
Lemma q_u8 {B} e off l (k : Z -> sreader B) x :
  sr_bind (sr_quiet read_u8) k (skipn off l) = Dies (Said x) <->
  (off + 1 <= length l)%nat /\ k (fld e off 1 l) (skipn (off + 1) l) = Dies (Said x).
Proof. rewrite (fld1_endian e Little). apply q_uint. lia. Qed.
Lemma q_i32 {B} e off l (k : Z -> sreader B) x : bytes_ok l ->
  (sr_bind (sr_quiet (read_i32 e)) k (skipn off l) = Dies (Said x) <->
   (off + 4 <= length l)%nat /\ k (fld_i32 e off l) (skipn (off + 4) l) = Dies (Said x)).
Proof.
  intros Hb. pose proof (rbind_i32_skip e off l rret Hb) as R. unfold rbind, rret in R.
  unfold sr_bind, sr_quiet, quiet_res. destruct (read_i32 e (skipn off l)) as [[a l']|];
    destruct (Nat.leb_spec (off + 4) (length l)) as [L|L]; try discriminate R.
  - injection R as -> ->. tauto.
  - split; [discriminate|intros [? _]; lia].
Qed.
Lemma q_name {B} n off l (k : str -> sreader B) x : (0 < n)%nat -> bytes_ok l ->
  (sr_bind (sr_quiet (read_fixed_size_string n)) k (skipn off l) = Dies (Said x) <->
   (off + n <= length l)%nat /\ exists s, from_utf8 (fld_name off n l) = Some s /\ k s (skipn (off + n) l) = Dies (Said x)).
Proof.
  intros Hn Hb. pose proof (rbind_name_skip n off l rret Hn) as R. unfold rbind, rret in R.
  unfold sr_bind, sr_quiet, quiet_res. destruct (read_fixed_size_string n (skipn off l)) as [[a l']|];
    destruct (Nat.leb_spec (off + n) (length l)) as [L|L]; try discriminate R.
  - destruct (from_utf8 _) as [s|]; [|discriminate R]. injection R as -> ->. split.
    + intros H. split; [exact L|]. now exists s.
    + intros (_ & s' & E & H). now injection E as <-.
  - destruct (from_utf8 _) as [s|]; [discriminate R|]. split; [discriminate|]. intros (_ & s & E & _). discriminate E.
  - split; [discriminate|intros [? _]; lia].
Qed.
Lemma l_bind {A B} (m : say A) (k : A -> sreader B) l x :
  sr_bind (sr_lift m) k l = Dies (Said x) <-> m = Dies (Said x) \/ exists a, m = Val a /\ k a l = Dies (Said x).
Proof.
  unfold sr_bind, sr_lift. destruct m as [a|w]; cbn [sbind].
  - split; [intros H; right; now exists a|intros [H|(b & E & H)]; [discriminate|now injection E as <-]].
  - split; [intros H; left; congruence|intros [H|(b & E & _)]; [congruence|discriminate]].
Qed.
Lemma l_quiet {A B} (m : res A) (k : A -> sreader B) l x :
  sr_bind (sr_lift (quiet_res m)) k l = Dies (Said x) <-> exists a, m = Ok a /\ k a l = Dies (Said x).
Proof.
  rewrite l_bind. destruct m as [a|]; cbn [quiet_res].
  - split; [intros [H|(b & E & H)]; [discriminate|injection E as <-; now exists a]|intros (b & E & H); injection E as <-; right; now exists a].
  - split; [intros [H|(b & E & H)]; discriminate|intros (b & E & H); discriminate].
Qed.
Lemma name_text off n l : bytes_ok l -> (unicode (fld_name off n l) <-> exists s, from_utf8 (fld_name off n l) = Some s).
Proof.
  intros Hb. assert (B : bytes_ok (fld_name off n l)) by (apply until_nul_bytes; unfold slice; now apply bytes_ok_firstn, bytes_ok_skipn).
  rewrite unicode_iff by exact B. split.
  - intros (s & S & <-). exists s. now apply from_utf8_utf8.
  - intros (s & E). exists s. now apply from_utf8_inv.
Qed.
(** an enumeration: the message names the number exactly when there is no variant *)
Lemma or_dies {A} (disc num : A -> Z) all n m x : (forall a, In a all) -> (forall a, disc a = num a) ->
  (or_panic (from_prim disc all n) m = Dies (Said x) <-> unnumbered num n /\ x = m).
Proof.
  intros Hall Hd. unfold or_panic, from_prim, unnumbered. destruct (find _ all) as [a|] eqn:F.
  - apply find_some in F. split; [discriminate|]. intros [N _]. exfalso. apply (N a). rewrite <- Hd. lia.
  - split.
    + intros H. injection H as <-. split; [|reflexivity]. intros a. pose proof (find_none _ _ F a (Hall a)) as E. cbn beta in E. rewrite Hd in E. lia.
    + intros [_ ->]. reflexivity.
Qed.
Lemma or_val {A} (disc num : A -> Z) all n m : (forall a, In a all) -> (forall a, disc a = num a) ->
  ((exists a, or_panic (from_prim disc all n) m = Val a) <-> exists a, num a = n).
Proof.
  intros Hall Hd. unfold or_panic, from_prim. destruct (find _ all) as [a|] eqn:F.
  - apply find_some in F. split; intros _; exists a; [|reflexivity]. rewrite <- Hd. lia.
  - split; intros (a & E); [discriminate|]. pose proof (find_none _ _ F a (Hall a)) as E'. cbn beta in E'. rewrite Hd in E'. lia.
Qed.

(** ** Records *)

Lemma ty_dies n x : inu 32 n -> (s_section_type n = Dies (Said x) <-> unnumbered section_type_num n /\ exists ds, upper_hex n ds /\ x = lit "Unsupported section type 0x" ++ ds).
Proof.
  intros R. unfold s_section_type. rewrite (or_dies section_type_to_u32 section_type_num) by (intros []; cbn; tauto). split; intros [U H]; (split; [exact U|]).
  - exists (show_upper n). split; [now apply show_upper_spec|exact H].
  - destruct H as (ds & D & ->). apply show_upper_iff in D; [|exact R]. now subst ds.
Qed.
Lemma ty_val n : (exists t, s_section_type n = Val t) <-> exists t, section_type_num t = n.
Proof. apply (or_val section_type_to_u32 section_type_num); intros []; cbn; tauto. Qed.
Lemma attr_dies i x : 0 <= i < 32 -> (s_section_attr (2 ^ i) = Dies (Said x) <-> unnumbered attr_bit i /\ exists ds, upper_hex (2 ^ i) ds /\ x = lit "Unsupported section attribute 0x" ++ ds).
Proof.
  intros R. assert (R2 : inu 32 (2 ^ i)) by (split; [apply Z.pow_nonneg; lia|apply Z.pow_lt_mono_r; lia]).
  unfold s_section_attr. rewrite (or_dies section_attr_to_u32 (fun a => 2 ^ attr_bit a)) by (intros []; cbn; tauto).
  assert (U : unnumbered (fun a => 2 ^ attr_bit a) (2 ^ i) <-> unnumbered attr_bit i).
  { unfold unnumbered. split; intros N a E; apply (N a); [now rewrite E|]. apply (Z.pow_inj_r 2) in E; [exact E|lia|destruct a; cbn; lia|lia]. }
  rewrite U. split; intros [N H]; (split; [exact N|]).
  - exists (show_upper (2 ^ i)). split; [now apply show_upper_spec|exact H].
  - destruct H as (ds & D & ->). apply show_upper_iff in D; [|exact R2]. now subst ds.
Qed.
Lemma attr_val i : 0 <= i < 32 -> ((exists a, s_section_attr (2 ^ i) = Val a) <-> exists a, attr_bit a = i).
Proof.
  intros R. unfold s_section_attr. rewrite (or_val section_attr_to_u32 (fun a => 2 ^ attr_bit a)) by (intros []; cbn; tauto).
  split; intros (a & E); exists a; [|now rewrite E]. apply (Z.pow_inj_r 2) in E; [exact E|lia|destruct a; cbn; lia|lia].
Qed.
Lemma attr_cases i : 0 <= i < 32 -> (exists a, s_section_attr (2 ^ i) = Val a) \/ exists x, s_section_attr (2 ^ i) = Dies (Said x).
Proof. intros _. unfold s_section_attr, or_panic. destruct (from_prim _ _ _); eauto. Qed.
Lemma bits_die w n : forall lo x, 0 <= lo -> lo + Z.of_nat n <= 32 ->
  (s_bits s_section_attr w (zrange lo n) = Dies (Said x) <->
   exists i, lo <= i < lo + Z.of_nat n /\ Z.testbit w i = true /\ (forall j, lo <= j < i -> Z.testbit w j = true -> exists a, attr_bit a = j) /\
     s_section_attr (2 ^ i) = Dies (Said x)).
Proof.
  induction n as [|n IH]; intros lo x Hlo Hn.
  - cbn. split; [discriminate|intros (i & R & _); lia].
  - assert (Zr : zrange lo (S n) = lo :: zrange (lo + 1) n).
    { unfold zrange. cbn [seq map]. f_equal; [lia|]. rewrite <- seq_shift, map_map. apply map_ext. intros k. lia. }
    rewrite Zr. cbn [s_bits]. rewrite land_shiftl_1 by exact Hlo. specialize (IH (lo + 1)). destruct (Z.testbit w lo) eqn:T.
    + assert (0 < 2 ^ lo) by (apply Z.pow_pos_nonneg; lia). replace (2 ^ lo =? 0) with false by lia. cbn [negb].
      destruct (attr_cases lo) as [(a & E)|(y & E)]; [lia| |]; rewrite E; cbn [sbind].
      * assert (K : exists b, attr_bit b = lo) by (apply attr_val; [lia|now exists a]).
        split.
        -- intros H0. destruct (s_bits s_section_attr w (zrange (lo + 1) n)) as [fs|v] eqn:Eb; cbn [sbind] in H0; [discriminate|].
           injection H0 as ->. destruct (proj1 (IH x ltac:(lia) ltac:(lia)) eq_refl) as (i & R & Ti & J & D).
           exists i. split; [lia|]. split; [exact Ti|]. split; [|exact D]. intros j Rj Tj. destruct (Z.eq_dec j lo) as [->|]; [exact K|apply J; [lia|exact Tj]].
        -- intros (i & R & Ti & J & D). destruct (Z.eq_dec i lo) as [->|]; [rewrite E in D; discriminate|].
           rewrite (proj2 (IH x ltac:(lia) ltac:(lia))); [reflexivity|]. exists i. split; [lia|]. split; [exact Ti|]. split; [|exact D]. intros j Rj. apply J. lia.
      * split.
        -- intros H0. exists lo. split; [lia|]. split; [exact T|]. split; [lia|]. rewrite E. congruence.
        -- intros (i & R & Ti & J & D). destruct (Z.eq_dec i lo) as [->|]; [rewrite E in D; congruence|]. exfalso.
           apply (attr_val lo ltac:(lia)) in J; [|lia|exact T] . destruct J as (a & J). rewrite E in J. discriminate.
    + cbn [Z.eqb negb]. rewrite IH by lia. split; intros (i & R & Ti & J & D); exists i.
      * split; [lia|]. split; [exact Ti|]. split; [|exact D]. intros j Rj Tj. destruct (Z.eq_dec j lo) as [->|]; [congruence|apply J; [lia|exact Tj]].
      * destruct (Z.eq_dec i lo) as [->|]; [congruence|]. split; [lia|]. split; [exact Ti|]. split; [|exact D]. intros j Rj. apply J. lia.
Qed.

Ltac rest := repeat (apply q_none; intros ? ?); discriminate.
Lemma section_iff e o l x : bytes_ok l -> (s_section64 e (skipn o l) = Dies (Said x) <-> section_says e o l x).
Proof.
  intros Hb. unfold s_section64, section_says. set (f := fld e (o + 64) 4 l).
  assert (Fr : (o + 68 <= length l)%nat -> inu 32 f) by (intros L; apply (fld_range e (o + 64) 4 l Hb); lia).
  assert (Bt : inu 32 f -> forall i, 8 <= i < 32 -> Z.testbit (256 * (f / 256)) i = Z.testbit f i).
  { intros R i Hi. rewrite testbit_high_part by lia. destruct (i <? 8) eqn:E; [lia|reflexivity]. }
  rewrite q_name by (assumption || lia). split.
  - intros (L1 & s & E1 & H). apply q_name in H; [|lia|exact Hb]. destruct H as (L2 & s' & E2 & H).
    apply q_u64 in H. destruct H as [_ H]. apply q_u64 in H. destruct H as [_ H].
    do 5 (apply q_u32 in H; destruct H as [? H]). replace (o + 16 + 16 + 8 + 8 + 4 + 4 + 4 + 4)%nat with (o + 64)%nat in H by lia. fold f in H.
    assert (L : (o + 68 <= length l)%nat) by lia. specialize (Fr L). specialize (Bt Fr).
    split; [exact L|]. split; [apply name_text; [exact Hb|now exists s]|]. split; [apply name_text; [exact Hb|now exists s']|].
    rewrite land_type_mask, land_attrs_mask in H by exact Fr. cbn zeta. apply l_bind in H. destruct H as [H|(t & Et & H)].
    + left. apply ty_dies in H; [exact H|]. unfold inu in *. lia.
    + right. split; [apply ty_val; now exists t|]. apply l_bind in H. destruct H as [H|(fs & _ & H)].
      * apply bits_die in H; [|lia|lia]. destruct H as (i & R & T & J & D). change (8 + Z.of_nat 24) with 32 in R. apply attr_dies in D; [|lia]. destruct D as (U & ds & D & ->).
        exists i, ds. split; [exact R|]. split; [rewrite <- Bt by lia; exact T|]. split; [exact U|]. split; [|now split].
        intros j Rj Tj. apply J; [exact Rj|]. rewrite Bt by lia. exact Tj.
      * exfalso. revert H. rest.
  - intros (L & N1 & N2 & H). specialize (Fr L). specialize (Bt Fr). apply name_text in N1; [|exact Hb]. apply name_text in N2; [|exact Hb].
    destruct N1 as (s & E1). destruct N2 as (s' & E2). split; [lia|]. exists s. split; [exact E1|].
    apply q_name; [lia|exact Hb|]. split; [lia|]. exists s'. split; [exact E2|].
    do 2 (apply q_u64; split; [lia|]). do 5 (apply q_u32; split; [lia|]). replace (o + 16 + 16 + 8 + 8 + 4 + 4 + 4 + 4)%nat with (o + 64)%nat by lia. fold f.
    rewrite land_type_mask, land_attrs_mask by exact Fr. apply l_bind. cbn zeta in H. destruct H as [H|(T & i & ds & R & Ti & U & J & D & ->)].
    + left. apply ty_dies; [unfold inu in *; lia|exact H].
    + right. apply ty_val in T. destruct T as (t & T). exists t. split; [exact T|]. apply l_bind. left. apply bits_die; [lia|lia|].
      exists i. change (8 + Z.of_nat 24) with 32. split; [exact R|]. split; [rewrite Bt by lia; exact Ti|]. split.
      * intros j Rj Tj. rewrite Bt in Tj by lia. now apply J.
      * apply attr_dies; [lia|]. split; [exact U|]. now exists ds.
Qed.

Lemma platform_dies n x : inu 32 n -> (s_platform n = Dies (Said x) <-> unnumbered platform_num n /\ exists ds, decimal n ds /\ x = lit "Invalid platform number " ++ ds).
Proof.
  intros R. assert (R2 : inu 64 n) by (unfold inu in *; lia). unfold s_platform. rewrite (or_dies platform_to_u32 platform_num) by (intros []; cbn; tauto). split; intros [U H]; (split; [exact U|]).
  - exists (show_u64 n). split; [now apply show_dec_iff|exact H].
  - destruct H as (ds & D & ->). apply show_dec_iff in D; [|exact R2]. now subst ds.
Qed.
Lemma tool_dies n x : inu 32 n -> (s_tool n = Dies (Said x) <-> unnumbered tool_num n /\ exists ds, decimal n ds /\ x = lit "Unsupported tool number " ++ ds).
Proof.
  intros R. assert (R2 : inu 64 n) by (unfold inu in *; lia). unfold s_tool. rewrite (or_dies tool_to_u32 tool_num) by (intros []; cbn; tauto). split; intros [U H]; (split; [exact U|]).
  - exists (show_u64 n). split; [now apply show_dec_iff|exact H].
  - destruct H as (ds & D & ->). apply show_dec_iff in D; [|exact R2]. now subst ds.
Qed.
Lemma bv_iff p e o l x : bytes_ok l -> (s_build_version p e (skipn o l) = Dies (Said x) <-> build_version_says e o l x).
Proof.
  intros Hb. unfold s_build_version, build_version_says, rassert, BUILD_VERSION_TYPE. rewrite q_u32. split.
  - intros (L1 & H). apply l_quiet in H. destruct H as (u & E & H). destruct (fld e o 4 l =? 50) eqn:C; [|discriminate E].
    apply q_u32 in H. destruct H as [_ H]. apply q_u32 in H. destruct H as [L H]. replace (o + 4 + 4)%nat with (o + 8)%nat in * by lia.
    split; [lia|]. split; [lia|]. apply l_bind in H. destruct H as [H|(t & _ & H)].
    + apply platform_dies in H; [exact H|]. apply (fld_range e (o + 8) 4 l Hb). lia.
    + exfalso. revert H. apply q_none. intros ? ?. apply q_none. intros ? ?. apply q_none. intros nt ? H.
      apply l_quiet in H. destruct H as (? & _ & H). apply l_quiet in H. destruct H as (? & _ & H). apply l_quiet in H. destruct H as (? & _ & H). discriminate.
  - intros (L & C & U). split; [lia|]. rewrite C. change (50 =? 50) with true. apply l_quiet. exists tt. split; [reflexivity|].
    apply q_u32. split; [lia|]. apply q_u32. split; [lia|]. replace (o + 4 + 4)%nat with (o + 8)%nat by lia. apply l_bind. left.
    apply platform_dies; [apply (fld_range e (o + 8) 4 l Hb); lia|exact U].
Qed.
Lemma tool_iff e o l x : bytes_ok l -> (s_build_tool e (skipn o l) = Dies (Said x) <-> build_tool_says e o l x).
Proof.
  intros Hb. unfold s_build_tool, build_tool_says. rewrite q_u32. split; intros (L & H); (split; [exact L|]).
  - apply l_bind in H. destruct H as [H|(t & _ & H)]; [|exfalso; revert H; rest]. apply tool_dies in H; [exact H|]. now apply (fld_range e o 4 l Hb).
  - apply l_bind. left. apply tool_dies; [now apply (fld_range e o 4 l Hb)|exact H].
Qed.
