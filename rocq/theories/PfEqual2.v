(** Records and their bytes: lemmas for C98. *)
From Coq Require Import Bool Sorting.Sorted.
From Verif Require Import Base Str X64 Mac SpecMacho Obj SpecObj Asm Derive SpecDerive PfBytes PfMacRec PfMacRead PfMacTop PfMacTop2 PfRead Equal SpecEqual PfEqual.

Lemma app_len {A} (a b c d : list A) : length a = length c -> a ++ b = c ++ d -> a = c /\ b = d.
Proof.
  revert c. induction a as [|x a IH]; intros [|y c] L E; cbn in *; try discriminate; [now split|].
  injection E as -> E. injection L as L. destruct (IH c L E) as [-> ->]. now split.
Qed.
Lemma wseq_iff a b c d : snd a = true -> snd c = true -> length (fst a) = length (fst c) ->
  (a >>> b = c >>> d <-> a = c /\ b = d).
Proof.
  destruct a as [a x], b as [b y], c as [c z], d as [d w]. cbn. intros -> -> L. cbn. split.
  - intros H. injection H as H ->. destruct (app_len a b c d L H) as (-> & ->). now split.
  - intros (H & H'). injection H as ->. injection H' as -> ->. reflexivity.
Qed.
Lemma wok a b f : a >>> b = (f, true) -> snd a = true /\ snd b = true.
Proof. destruct a as [a []], b as [b x]; cbn; intros H; [now injection H|discriminate]. Qed.

(** numbers *)
Lemma wnum h k n a b : inu (8 * Z.of_nat k) a -> inu (8 * Z.of_nat k) b -> n = k -> (wemit (bytes_of h n a) = wemit (bytes_of h n b) <-> a = b).
Proof.
  intros A B ->. split; [|now intros ->]. intros H. injection H as H. rewrite <- (val_bytes h k a A), <- (val_bytes h k b B). congruence.
Qed.
Lemma w32 h a b : inu 32 a -> inu 32 b -> (write_u32 h a = write_u32 h b <-> a = b).
Proof. intros A B. now apply (wnum h 4). Qed.
Lemma w64 h a b : inu 64 a -> inu 64 b -> (write_u64 h a = write_u64 h b <-> a = b).
Proof. intros A B. now apply (wnum h 8). Qed.
Lemma wi32 h a b : ini 32 a -> ini 32 b -> (write_i32 h a = write_i32 h b <-> a = b).
Proof.
  intros A B. unfold write_i32. assert (R : forall x, inu (8 * Z.of_nat 4) (wrapu 32 x)) by (intros x; unfold inu, wrapu; cbn; apply Z.mod_pos_bound; lia).
  rewrite (wnum h 4 4 _ _ (R a) (R b) eq_refl). split; [|now intros ->]. intros H.
  rewrite <- (wrapi_wrapu a A), <- (wrapi_wrapu b B). congruence.
Qed.
(** coded values *)
Ltac small := intros []; unfold inu; cbn; lia.
Lemma wcode {A} (code : A -> Z) h a b : (forall x, inu 32 (code x)) -> (forall x y, code x = code y -> x = y) ->
  (write_u32 h (code a) = write_u32 h (code b) <-> a = b).
Proof. intros R I. rewrite (w32 h _ _ (R a) (R b)). split; [apply I|now intros ->]. Qed.
Lemma wmagic h a b : write_u32 h (magic_to_u32 a) = write_u32 h (magic_to_u32 b) <-> a = b.
Proof. apply wcode; [small|intros [] []; cbn; congruence]. Qed.
Lemma wfile h a b : write_u32 h (file_type_to_u32 a) = write_u32 h (file_type_to_u32 b) <-> a = b.
Proof. apply wcode; [small|intros [] []; cbn; congruence]. Qed.
Lemma wplatform h a b : write_u32 h (platform_to_u32 a) = write_u32 h (platform_to_u32 b) <-> a = b.
Proof. apply wcode; [small|intros [] []; cbn; congruence]. Qed.
Lemma wcpu h a b : write_i32 h (fst (cpu_to a)) = write_i32 h (fst (cpu_to b)) /\ write_i32 h (snd (cpu_to a)) = write_i32 h (snd (cpu_to b)) <-> a = b.
Proof.
  rewrite (wi32 h (fst (cpu_to a)) (fst (cpu_to b))) by (clear; first [destruct a as [[]|[]]|destruct b as [[]|[]]]; vm_compute; split; congruence).
  split; [|now intros ->]. destruct a as [[]|[]], b as [[]|[]]; cbn; intros (H & _); congruence || discriminate.
Qed.
Lemma wversion h a b : version_rng a -> version_rng b -> (write_u32 h (version_to_u32 a) = write_u32 h (version_to_u32 b) <-> a = b).
Proof.
  intros A B. destruct (proj1 top_C15_version a A) as (Ra & Na). destruct (proj1 top_C15_version b B) as (Rb & Nb).
  rewrite w32; [split; congruence| |].
  - rewrite Na. unfold version_num, version_rng, inu in *. lia.
  - rewrite Nb. unfold version_num, version_rng, inu in *. lia.
Qed.

(** bit sets *)
Lemma bitset_fun {A} (bit : A -> Z) l m v w : (forall a, 0 <= bit a) -> (forall a b, bit a = bit b -> a = b) -> 0 <= v -> 0 <= w ->
  is_bitset bit l v -> is_bitset bit m w -> (v = w <-> alike_set l m).
Proof.
  intros P I V W L M. split.
  - intros <- a. split; intros H.
    + destruct (proj1 (M (bit a) (P a)) (proj2 (L (bit a) (P a)) (ex_intro _ a (conj H eq_refl)))) as (b & B & E). apply I in E. now subst.
    + destruct (proj1 (L (bit a) (P a)) (proj2 (M (bit a) (P a)) (ex_intro _ a (conj H eq_refl)))) as (b & B & E). apply I in E. now subst.
  - intros E. apply Z.bits_inj'. intros i Hi. apply eq_true_iff_eq. rewrite (L i Hi), (M i Hi).
    split; intros (a & H & B); exists a; (split; [now apply E|exact B]).
Qed.
Lemma flag_pos a : 0 <= flag_bit a. Proof. destruct a; cbn; lia. Qed.
Lemma attr_pos a : 8 <= attr_bit a. Proof. destruct a; cbn; lia. Qed.
Lemma wflags h l m : write_u32 h (flags_to_u32 l) = write_u32 h (flags_to_u32 m) <-> alike_set l m.
Proof.
  destruct (top_C12_to l) as (L & Rl), (top_C12_to m) as (M & Rm). rewrite (w32 h _ _ Rl Rm).
  apply (bitset_fun flag_bit); try assumption; [exact flag_pos|exact flag_bit_inj|apply Rl|apply Rm].
Qed.
Lemma attrs_low l i : 0 <= i < 8 -> Z.testbit (section_attrs_to_u32 l) i = false.
Proof.
  intros Hi. destruct (Z.testbit _ i) eqn:E; [|reflexivity]. apply (proj1 (top_C12_to_attrs l)) in E; [|lia]. destruct E as (a & _ & B).
  pose proof (attr_pos a). lia.
Qed.
Lemma type_high t i : 8 <= i -> Z.testbit (section_type_to_u32 t) i = false.
Proof.
  intros Hi. rewrite <- (Z.mod_small (section_type_to_u32 t) (2 ^ 8)) by (destruct t; cbn; lia). apply Z.mod_pow2_bits_high. lia.
Qed.
Lemma wsect h l m s t : write_u32 h (Z.lor (section_attrs_to_u32 l) (section_type_to_u32 s)) =
  write_u32 h (Z.lor (section_attrs_to_u32 m) (section_type_to_u32 t)) <-> alike_set l m /\ s = t.
Proof.
  destruct (top_C12_to_attrs l) as (L & Rl), (top_C12_to_attrs m) as (M & Rm).
  assert (S : forall u, inu 32 (section_type_to_u32 u)) by small.
  assert (R : forall v u, inu 32 v -> inu 32 (Z.lor v (section_type_to_u32 u))).
  { intros v u V. specialize (S u). unfold inu in *. split; [apply Z.lor_nonneg; lia|].
    destruct (Z.eq_dec (Z.lor v (section_type_to_u32 u)) 0) as [->|N]; [lia|].
    apply Z.log2_lt_pow2; [assert (0 <= Z.lor v (section_type_to_u32 u)) by (apply Z.lor_nonneg; lia); lia|].
    rewrite Z.log2_lor by lia. apply Z.max_lub_lt.
    - destruct (Z.eq_dec v 0) as [->|]; [cbn; lia|]. apply Z.log2_lt_pow2; lia.
    - destruct (Z.eq_dec (section_type_to_u32 u) 0) as [->|]; [cbn; lia|]. apply Z.log2_lt_pow2; lia. }
  rewrite (w32 h _ _ (R _ _ Rl) (R _ _ Rm)).
  rewrite <- (bitset_fun attr_bit l m _ _ ltac:(intros a; pose proof (attr_pos a); lia) attr_bit_inj (proj1 Rl) (proj1 Rm) L M).
  split; [|now intros (-> & ->)]. intros E.
  assert (B : forall i, 0 <= i -> Z.testbit (section_attrs_to_u32 l) i || Z.testbit (section_type_to_u32 s) i =
                               Z.testbit (section_attrs_to_u32 m) i || Z.testbit (section_type_to_u32 t) i).
  { intros i _. rewrite <- !Z.lor_spec. now rewrite E. }
  split.
  - apply Z.bits_inj'. intros i Hi. destruct (Z.lt_ge_cases i 8) as [G|G]; [now rewrite !attrs_low by lia|].
    specialize (B i Hi). rewrite !(type_high _ i G), !orb_false_r in B. exact B.
  - assert (Q : section_type_to_u32 s = section_type_to_u32 t).
    { apply Z.bits_inj'. intros i Hi. destruct (Z.lt_ge_cases i 8) as [G|G]; [|now rewrite !type_high by lia].
      specialize (B i Hi). rewrite !attrs_low in B by lia. exact B. }
    clear - Q. destruct s, t; cbn in Q; congruence.
Qed.

(** names *)
Lemma wname_len s n : str_ok s -> snd (write_fixed_size_string s n) = true -> length (fst (write_fixed_size_string s n)) = n.
Proof.
  intros S A. destruct (top_C21_write s n S) as (As & Ws & _). destruct (proj1 As A) as (S1 & S2). rewrite (Ws S1 S2). cbn [fst].
  rewrite app_length, repeat_length. lia.
Qed.
Lemma pad_zero (s t : str) i j : s ++ repeat 0 i = t ++ repeat 0 j -> forall n, (length s <= n)%nat -> (length t <= n)%nat ->
  s ++ repeat 0 (n - length s) = t ++ repeat 0 (n - length t).
Proof.
  revert t j. induction s as [|c s IH]; intros t j E n Ls Lt.
  - cbn [app length] in *. rewrite Nat.sub_0_r.
    assert (Z : Forall (fun x => x = 0) t).
    { apply Forall_forall. intros x X. assert (In x (repeat 0 i)) by (rewrite E; apply in_or_app; now left). now apply repeat_spec in H. }
    clear E Ls. revert n Lt. induction Z as [|x t -> Z IH]; intros n Lt; cbn [app length] in *; [now rewrite Nat.sub_0_r|].
    destruct n as [|n]; [lia|]. cbn [repeat Nat.sub]. f_equal. apply IH. lia.
  - destruct t as [|d t].
    + cbn [app length] in *. rewrite Nat.sub_0_r. destruct n as [|n]; [lia|]. destruct j as [|j]; [discriminate|]. cbn [repeat] in E.
      injection E as -> E. cbn [repeat Nat.sub]. f_equal. specialize (IH [] j E n ltac:(lia) ltac:(cbn; lia)).
      cbn [app length] in IH. now rewrite Nat.sub_0_r in IH.
    + cbn [app length] in *. injection E as -> E. destruct n as [|n]; [lia|]. cbn [Nat.sub]. f_equal. apply (IH t j); [exact E|lia|lia].
Qed.
Lemma wname s t n : str_ok s -> str_ok t -> snd (write_fixed_size_string s n) = true -> snd (write_fixed_size_string t n) = true ->
  (write_fixed_size_string s n = write_fixed_size_string t n <-> alike_name s t).
Proof.
  intros S T A B. destruct (top_C21_write s n S) as (As & Ws & _). destruct (top_C21_write t n T) as (At & Wt & _).
  destruct (proj1 As A) as (S1 & S2), (proj1 At B) as (T1 & T2). rewrite (Ws S1 S2), (Wt T1 T2). split.
  - intros H. injection H as H. now exists (n - length s)%nat, (n - length t)%nat.
  - intros (i & j & E). now rewrite (pad_zero s t i j E n S2 T2).
Qed.

(** records *)
Ltac wside := first [reflexivity | assumption | (cbn [fst write_u32 write_u64 write_i32 wemit]; rewrite !bytes_of_length; reflexivity)
  | (rewrite !wname_len by assumption; reflexivity)].
Ltac wsplit := rewrite !wseq_iff by wside.
Lemma header_bytes h x y : header_rng x -> header_rng y -> (write_header64 h x = write_header64 h y <-> alike_header x y).
Proof.
  intros (A1 & A2 & A3) (B1 & B2 & B3). unfold write_header64, alike_header. wsplit.
  rewrite wmagic, wfile, wflags, !w32 by assumption. rewrite <- (wcpu h (h_cpu x) (h_cpu y)). tauto.
Qed.
Lemma symtab_bytes h x y : symtab_rng x -> symtab_rng y -> (write_symtab h x = write_symtab h y <-> x = y).
Proof.
  intros A B. unfold symtab_rng in A, B. decompose [and] A. decompose [and] B. unfold write_symtab. wsplit. rewrite !w32 by assumption.
  clear. destruct x, y; cbn. split; [intros H; decompose [and] H; now subst|intros H; inversion H; tauto].
Qed.
Lemma dysymtab_bytes h x y : dysymtab_rng x -> dysymtab_rng y -> (write_dysymtab h x = write_dysymtab h y <-> x = y).
Proof.
  intros A B. unfold dysymtab_rng in A, B. decompose [and] A. decompose [and] B. unfold write_dysymtab. wsplit. rewrite !w32 by assumption.
  clear. destruct x, y; cbn. split; [intros H; decompose [and] H; now subst|intros H; inversion H; tauto].
Qed.
Lemma build_version_bytes h x y : build_version_rng x -> build_version_rng y -> (write_build_version h x = write_build_version h y <-> x = y).
Proof.
  intros (A1 & A2 & A3 & A4 & A5) (B1 & B2 & B3 & B4 & B5). unfold write_build_version. wsplit.
  rewrite wplatform, !wversion, !w32 by assumption.
  clear. destruct x, y; cbn. split; [intros H; decompose [and] H; now subst|intros H; inversion H; tauto].
Qed.
Lemma build_tool_bytes_iff h x y : build_tool_rng x -> build_tool_rng y -> (write_build_tool h x = write_build_tool h y <-> x = y).
Proof.
  intros A B. unfold write_build_tool. wsplit. rewrite w32 by assumption. rewrite (wcode tool_to_u32); [|small|intros [] []; cbn; congruence].
  clear. destruct x, y; cbn. intuition congruence.
Qed.
Lemma nlist_bytes_iff h x y : nlist_rng x -> nlist_rng y -> (write_nlist64 h x = write_nlist64 h y <-> x = y).
Proof.
  intros A B. split; [|now intros ->]. intros H.
  destruct (top_C17 h x [] A ltac:(constructor)) as (f & F & _ & Rx). destruct (top_C17 h y [] B ltac:(constructor)) as (g & G & _ & Ry). congruence.
Qed.
Lemma reloc_bytes_iff h x y : reloc_rng x -> reloc_rng y -> reloc_fits x -> reloc_fits y -> (write_reloc_info h x = write_reloc_info h y <-> x = y).
Proof.
  intros A B (C1 & C2) (D1 & D2). split; [|now intros ->]. intros H.
  destruct (top_C19_write h x [] A ltac:(constructor)) as (f & F & _ & Rx). destruct (top_C19_write h y [] B ltac:(constructor)) as (g & G & _ & Ry).
  pose proof (proj2 Rx (conj (proj2 C1) (proj2 C2))). pose proof (proj2 Ry (conj (proj2 D1) (proj2 D2))). congruence.
Qed.
Lemma wsnd a b : snd (a >>> b) = snd a && snd b.
Proof. destruct a as [a []], b as [b x]; reflexivity. Qed.
Lemma segment_name_ok h x : snd (write_segment64 h x) = true -> snd (write_fixed_size_string (sg_segname x) 16) = true.
Proof. unfold write_segment64. rewrite !wsnd, !andb_true_iff. tauto. Qed.
Lemma section_name_ok h x : snd (write_section64 h x) = true ->
  snd (write_fixed_size_string (sc_sectname x) 16) = true /\ snd (write_fixed_size_string (sc_segname x) 16) = true.
Proof. unfold write_section64. rewrite !wsnd, !andb_true_iff. tauto. Qed.
Lemma segment_bytes h x y : segment_rng x -> segment_rng y -> snd (write_segment64 h x) = true -> snd (write_segment64 h y) = true ->
  (write_segment64 h x = write_segment64 h y <-> alike_segment x y).
Proof.
  intros A B Wx Wy. apply segment_name_ok in Wx. apply segment_name_ok in Wy. unfold segment_rng in A, B. decompose [and] A. decompose [and] B.
  unfold write_segment64, alike_segment. wsplit. rewrite !w32, !w64, !wi32, wname by assumption. tauto.
Qed.
Lemma section_bytes h x y : section_rng x -> section_rng y -> snd (write_section64 h x) = true -> snd (write_section64 h y) = true ->
  (write_section64 h x = write_section64 h y <-> alike_section x y).
Proof.
  intros A B Wx Wy. apply section_name_ok in Wx. apply section_name_ok in Wy. destruct Wx, Wy. unfold section_rng in A, B.
  decompose [and] A. decompose [and] B.
  unfold write_section64, alike_section. wsplit. rewrite wsect, !w32, !w64, !wname by assumption. tauto.
Qed.
Lemma wlen a b : snd a = true -> length (fst (a >>> b)) = (length (fst a) + length (fst b))%nat.
Proof. destruct a as [a []], b as [b x]; cbn; [intros _; apply app_length|discriminate]. Qed.
Lemma w32_len h a : length (fst (write_u32 h a)) = 4%nat. Proof. apply bytes_of_length. Qed.
Lemma w64_len h a : length (fst (write_u64 h a)) = 8%nat. Proof. apply bytes_of_length. Qed.
Lemma wi32_len h a : length (fst (write_i32 h a)) = 4%nat. Proof. apply bytes_of_length. Qed.
Ltac lens := rewrite !wlen by wside; rewrite ?w32_len, ?w64_len, ?wi32_len, ?wname_len by assumption; reflexivity.
Lemma segment_len h x : segment_rng x -> snd (write_segment64 h x) = true -> length (fst (write_segment64 h x)) = 72%nat.
Proof. intros (_ & _ & ? & _) W. apply segment_name_ok in W. unfold write_segment64. lens. Qed.
Lemma section_len h x : section_rng x -> snd (write_section64 h x) = true -> length (fst (write_section64 h x)) = 80%nat.
Proof. intros (? & ? & _) W. apply section_name_ok in W. destruct W. unfold write_section64. lens. Qed.
Lemma build_version_len h x : length (fst (write_build_version h x)) = 24%nat.
Proof. unfold write_build_version. lens. Qed.
Lemma build_tool_len h x : length (fst (write_build_tool h x)) = 8%nat.
Proof. unfold write_build_tool. lens. Qed.
Lemma build_version_ok h x : snd (write_build_version h x) = true. Proof. reflexivity. Qed.
Lemma build_tool_ok h x : snd (write_build_tool h x) = true. Proof. reflexivity. Qed.

(** lists of equal-sized records *)
Lemma wlist_cons a l : wlist (a :: l) = a >>> wlist l. Proof. reflexivity. Qed.
Lemma wlist_iff {A} (w : A -> wr) (P : A -> Prop) (R : A -> A -> Prop) k l m : (0 < k)%nat ->
  (forall a, P a -> snd (w a) = true -> length (fst (w a)) = k) ->
  (forall a b, P a -> P b -> snd (w a) = true -> snd (w b) = true -> (w a = w b <-> R a b)) ->
  Forall P l -> Forall P m -> snd (wlist (map w l)) = true -> snd (wlist (map w m)) = true ->
  (wlist (map w l) = wlist (map w m) <-> Forall2 R l m).
Proof.
  intros K L E Pl. revert m. induction Pl as [|a l Pa Pl IH]; intros m Pm Wl Wm.
  - destruct Pm as [|b m Pb Pm]; [split; [constructor|reflexivity]|]. split; [|intros H; inversion H]. intros H. exfalso.
    cbn [map] in *. rewrite ?wlist_cons in *. rewrite wsnd, andb_true_iff in Wm. destruct Wm as (Wb & Wm).
    apply (f_equal (fun x => length (fst x))) in H. rewrite wlen, L in H by assumption. cbn in H. lia.
  - destruct Pm as [|b m Pb Pm].
    + split; [|intros H; inversion H]. intros H. exfalso. cbn [map] in *. rewrite ?wlist_cons in *. rewrite wsnd, andb_true_iff in Wl. destruct Wl as (Wa & Wl).
      apply (f_equal (fun x => length (fst x))) in H. rewrite wlen, L in H by assumption. cbn in H. lia.
    + cbn [map] in *. rewrite ?wlist_cons in *. rewrite wsnd, andb_true_iff in Wl, Wm. destruct Wl as (Wa & Wl), Wm as (Wb & Wm).
      rewrite wseq_iff; [|exact Wa|exact Wb|now rewrite !L]. rewrite (E a b Pa Pb Wa Wb), (IH m Pm Wl Wm).
      split; [intros (H1 & H2); now constructor|intros H; inversion H; now split].
Qed.

(** the command number is the first word *)
Lemma first_word h a b x y : inu 32 x -> inu 32 y -> write_u32 h x >>> a = write_u32 h y >>> b -> x = y.
Proof. intros X Y H. rewrite wseq_iff in H by wside. now apply (w32 h). Qed.
Definition lc_cmd (v : load_command) : Z :=
  match v with LcSegment64 c _ => sg_cmd c | LcSymtab c => st_cmd c | LcDysymtab c => dy_cmd c | LcBuildVersion c _ => bv_cmd c end.
Lemma lc_head h v : exists a, write_load_command h v = write_u32 h (lc_cmd v) >>> a.
Proof.
  destruct v as [c l|c|c|c l]; cbn [write_load_command lc_cmd].
  - unfold write_segment64. rewrite wseq_assoc. now eexists.
  - unfold write_symtab. now eexists.
  - unfold write_dysymtab. now eexists.
  - unfold write_build_version. rewrite wseq_assoc. now eexists.
Qed.
Lemma lc_same h v w : value_ok (VLoadCommand v) -> value_ok (VLoadCommand w) -> write_load_command h v = write_load_command h w -> lc_cmd v = lc_cmd w.
Proof.
  intros V W E. destruct (lc_head h v) as (a & A), (lc_head h w) as (b & B). rewrite A, B in E. revert E. apply first_word.
  - destruct v as [c l|c|c|c l]; cbn in V |- *; apply V.
  - destruct w as [c l|c|c|c l]; cbn in W |- *; apply W.
Qed.
Lemma Forall2_eq {A} (l m : list A) : Forall2 eq l m <-> l = m.
Proof.
  split; [induction 1; [reflexivity|now subst]|intros <-]. induction l; constructor; auto.
Qed.
Lemma lc_bytes h v w : value_ok (VLoadCommand v) -> value_ok (VLoadCommand w) -> fits_fields (VLoadCommand v) -> fits_fields (VLoadCommand w) ->
  snd (write_load_command h v) = true -> snd (write_load_command h w) = true ->
  (write_load_command h v = write_load_command h w <-> alike (VLoadCommand v) (VLoadCommand w)).
Proof.
  intros V W F G Sv Sw. pose proof (lc_same h v w V W) as E.
  assert (N : lc_cmd v <> lc_cmd w -> VLoadCommand v <> VLoadCommand w) by (intros N Q; injection Q as Q; now subst).
  destruct v as [c l|c|c|c l], w as [d m|d|d|d m]; cbn [fits_fields lc_cmd alike] in *;
    try (split; [intros Q; specialize (E Q); lia|intros Q; exfalso; apply N; [lia|exact Q]]); clear N E; cbn [write_load_command] in *.
  - destruct V as (V1 & V2), W as (W1 & W2). rewrite wsnd, andb_true_iff in Sv, Sw. destruct Sv as (Sv1 & Sv2), Sw as (Sw1 & Sw2).
    rewrite wseq_iff by (assumption || now rewrite !segment_len).
    rewrite (segment_bytes h c d), (wlist_iff (write_section64 h) section_rng alike_section 80 l m); try assumption; try tauto; [lia|apply section_len|].
    intros a b. apply section_bytes.
  - rewrite (symtab_bytes h c d V W). split; congruence.
  - rewrite (dysymtab_bytes h c d V W). split; congruence.
  - destruct V as (V1 & V2), W as (W1 & W2). rewrite wsnd, andb_true_iff in Sv, Sw. destruct Sv as (Sv1 & Sv2), Sw as (Sw1 & Sw2).
    rewrite wseq_iff by (assumption || now rewrite !build_version_len).
    rewrite (build_version_bytes h c d V1 W1), (wlist_iff (write_build_tool h) build_tool_rng eq 8 l m); try assumption.
    + rewrite Forall2_eq. split; [intros (-> & ->); reflexivity|intros Q; injection Q as -> ->; now split].
    + lia.
    + intros a _ _. apply build_tool_len.
    + intros a b A B _ _. now apply build_tool_bytes_iff.
Qed.

Lemma top_C98_equal h a b : value_ok a -> value_ok b -> eq_value a b = true -> write_value h a = write_value h b.
Proof. intros A B E. apply top_C97_content in E; try assumption. now subst. Qed.

Lemma top_C98_bytes h a b f g : type_of a = type_of b -> value_ok a -> value_ok b -> fits_fields a -> fits_fields b ->
  write_value h a = Some (f, true) -> write_value h b = Some (g, true) -> (f = g <-> alike a b).
Proof.
  intros T A B Fa Fb Wa Wb.
  assert (E : f = g <-> write_value h a = write_value h b) by (rewrite Wa, Wb; split; congruence). rewrite E.
  assert (S : forall x y : wr, Some x = Some y <-> x = y) by (intros x y; split; congruence).
  assert (Q : forall (w : wr) f, Some w = Some (f, true) -> snd w = true) by (intros w f' H; injection H as ->; reflexivity).
  destruct a; cbn [write_value] in Wa; try discriminate; destruct b; cbn [type_of] in T; try discriminate; cbn [write_value] in *;
    rewrite S; apply Q in Wa; apply Q in Wb; cbn [value_ok fits_fields] in *.
  - now apply header_bytes.
  - now apply segment_bytes.
  - now apply section_bytes.
  - cbn [alike]. rewrite symtab_bytes by assumption. split; congruence.
  - cbn [alike]. rewrite dysymtab_bytes by assumption. split; congruence.
  - cbn [alike]. rewrite build_version_bytes by assumption. split; congruence.
  - cbn [alike]. rewrite build_tool_bytes_iff by assumption. split; congruence.
  - now apply lc_bytes.
  - cbn [alike]. rewrite nlist_bytes_iff by assumption. split; congruence.
  - cbn [alike]. rewrite reloc_bytes_iff by assumption. split; congruence.
Qed.

(** plain values *)
Lemma plain_alike_name s t : plain_name s -> plain_name t -> alike_name s t -> s = t.
Proof.
  intros S T (i & j & E).
  assert (G : forall (s t : str) i j, plain_name s -> s ++ repeat 0 i = t ++ repeat 0 j -> (j <= i)%nat).
  { clear. intros s t i. induction i as [|i IH]; intros j P E.
    - destruct j as [|j]; [lia|]. exfalso. rewrite app_nil_r in E.
      replace (S j) with (j + 1)%nat in E by lia. rewrite repeat_app, app_assoc in E. exact (P _ E).
    - destruct j as [|j]; [lia|]. apply le_n_S. apply (IH j P).
      replace (S i) with (i + 1)%nat in E by lia. replace (S j) with (j + 1)%nat in E by lia.
      rewrite !repeat_app, !app_assoc in E. now apply app_inj_tail in E. }
  pose proof (G s t i j S E). pose proof (G t s j i T (eq_sym E)). replace j with i in E by lia. now apply app_inv_tail in E.
Qed.
Lemma plain_alike_section x y : plain_section x -> plain_section y -> alike_section x y -> x = y.
Proof.
  intros (A1 & A2 & A3) (B1 & B2 & B3) (N1 & N2 & N3 & N). apply plain_alike_name in N1; try assumption. apply plain_alike_name in N2; try assumption.
  apply (canon_unique attr_bit attr_bit_inj _ _ A3 B3) in N3. clear - N1 N2 N3 N. destruct x, y; cbn in *. decompose [and] N. now subst.
Qed.
Lemma plain_alike_segment x y : plain_name (sg_segname x) -> plain_name (sg_segname y) -> alike_segment x y -> x = y.
Proof. intros A B (N1 & N). apply plain_alike_name in N1; try assumption. clear - N1 N. destruct x, y; cbn in *. decompose [and] N. now subst. Qed.
Lemma alike_refl a : alike a a.
Proof.
  assert (S : forall s, alike_name s s) by (intros s; now exists 0%nat, 0%nat).
  assert (T : forall A (l : list A), alike_set l l) by (intros A l x; tauto).
  assert (U : forall x, alike_section x x) by (intros x; repeat split; auto).
  assert (V : forall x, alike_segment x x) by (intros x; repeat split; auto).
  destruct a; cbn [alike]; auto; [repeat split; auto|]. destruct x; auto. split; [auto|]. induction sections; constructor; auto.
Qed.
Lemma plain_alike a b : plain a -> plain b -> alike a b -> a = b.
Proof.
  destruct a, b; cbn [plain alike]; try (intros _ _ E; exact E || discriminate E); intros A B E;
    try (match goal with l : load_command |- _ => destruct l; discriminate E end).
  - destruct E as (E1 & E2 & E3 & E4 & E5 & E6 & E7). apply (canon_unique flag_bit flag_bit_inj _ _ A B) in E6. f_equal.
    clear - E1 E2 E3 E4 E5 E6 E7. destruct x, x0; cbn in *. now subst.
  - f_equal. now apply plain_alike_segment.
  - f_equal. now apply plain_alike_section.
  - destruct x as [c l|c|c|c l], x0 as [d m|d|d|d m]; try exact E. destruct A as (A1 & A2), B as (B1 & B2), E as (E1 & E2).
    apply plain_alike_segment in E1; try assumption. subst d. f_equal. f_equal.
    induction E2 as [|x y l m Q _ IH]; [reflexivity|]. inversion_clear A2. inversion_clear B2. f_equal; [now apply plain_alike_section|now apply IH].
Qed.
Lemma top_C98_plain h a b f g : type_of a = type_of b -> value_ok a -> value_ok b -> fits_fields a -> fits_fields b -> plain a -> plain b ->
  write_value h a = Some (f, true) -> write_value h b = Some (g, true) -> (f = g <-> eq_value a b = true).
Proof.
  intros T A B Fa Fb Pa Pb Wa Wb. rewrite (top_C98_bytes h a b f g T A B Fa Fb Wa Wb), (top_C97_content a b A B). split.
  - now apply plain_alike.
  - intros ->. apply alike_refl.
Qed.
