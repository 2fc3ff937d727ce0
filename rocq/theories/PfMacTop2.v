(** Symbols, relocations, strings, truncation: C17-C22 and the record layouts. *)
From Coq Require Import ZifyBool ZifyNat Sorting.Sorted.
From Verif Require Import Base Str Mac SpecMacho.
From Verif Require Export PfMacTop.
Ltac Zify.zify_post_hook ::= Z.div_mod_to_equations.

(** ** C17, C18 *)

Lemma nlist_unique e o l x y : nlist_at e o l x -> nlist_at e o l y -> x = y.
Proof.
  unfold nlist_at. intros H1 H2. decompose [and] H1. decompose [and] H2.
  destruct x as [a t b c d], y as [a' t' b' c' d']. projs_in. 
  assert (t = t') as ->.
  { destruct t as [p n x|[]], t' as [p' n' x'|[]]; cbn [n_type_byte] in *.
    - destruct p, n, x, p', n', x'; cbn in *; congruence || (exfalso; lia).
    - exfalso. destruct p, n, x; cbn in *; lia.
    - exfalso. destruct p', n', x'; cbn in *; lia.
    - reflexivity. }
  congruence.
Qed.
Lemma nlist_read_back h x l o : bytes_ok l -> nlist_rng x -> slice o 16 l = nlist_bytes h x ->
  read_nlist64 h (skipn o l) = Ok (x, skipn (o + 16) l).
Proof.
  intros Hb R E. apply nlist_read; [exact Hb|]. split; [|reflexivity].
  apply (nlist_local o _ _ _ _ E); [apply nlist_bytes_length|now apply nlist_bytes_at].
Qed.
Lemma top_C17 h x rest : nlist_rng x -> bytes_ok rest ->
  exists bs, write_nlist64 h x = (bs, true) /\ length bs = 16%nat /\ read_nlist64 h (bs ++ rest) = Ok (x, rest).
Proof.
  intros R Hr. exists (nlist_bytes h x). split; [apply nlist_write|]. split; [apply nlist_bytes_length|].
  change (nlist_bytes h x ++ rest) with (skipn 0 (nlist_bytes h x ++ rest)).
  rewrite (nlist_read_back h x); [|apply bytes_ok_app; split; [apply nlist_bytes_ok|exact Hr]|exact R|apply slice_hd, nlist_bytes_length].
  cbn [Nat.add]. now rewrite skipn_app_len by apply nlist_bytes_length.
Qed.

Lemma top_C18_exact e l x r : bytes_ok l -> read_nlist64 e l = Ok (x, r) ->
  exists b, slice 4 1 l = [b] /\
    write_nlist64 e x = (slice 0 4 l ++ [if b <? 32 then b else 32] ++ slice 5 11 l, true) /\
    l = firstn 16 l ++ r.
Proof.
  intros Hb H. apply (nlist_read e 0) in H; [|exact Hb]. destruct H as (A & ->).
  unfold nlist_at in A. cbn [Nat.add] in A. destruct A as (L & F1 & F2 & F3 & F4 & F5).
  exists (fld e 4 1 l). pose proof (bytes_of_fld e 4 1 l Hb ltac:(lia)) as B1.
  pose proof (fld_range e 4 1 l Hb ltac:(lia)) as [R1 R2]. change (2 ^ (8 * Z.of_nat 1)) with 256 in R2.
  rewrite bytes_of_1, Z.mod_small in B1 by lia. split; [now symmetry|].
  split; [|symmetry; apply firstn_skipn].
  rewrite nlist_write. f_equal. unfold nlist_bytes.
  rewrite <- F1, <- F3, <- F4, <- F5. rewrite (bytes_of_fld e 0 4), (bytes_of_fld e 5 1), (bytes_of_fld e 6 2), (bytes_of_fld e 8 8) by (assumption || lia).
  f_equal. rewrite bytes_of_1. rewrite app_nil_r.
  assert (n_type_field_to_u8 (nl_type x) mod 256 = (if fld e 4 1 l <? 32 then fld e 4 1 l else 32)) as ->.
  { destruct (nl_type x) as [p n q|[]]; cbn [n_type_byte] in F2.
    - rewrite F2. destruct p, n, q; reflexivity.
    - destruct (Z.ltb_spec (fld e 4 1 l) 32); [lia|]. reflexivity. }
  f_equal. rewrite !app_assoc. repeat (rewrite slice_join; cbn [Nat.add]). reflexivity.
Qed.
Lemma slice_16 (l : list Z) b : slice 4 1 l = [b] -> slice 0 4 l ++ [b] ++ slice 5 11 l = firstn 16 l.
Proof.
  intros E. rewrite <- E. change 5%nat with (4 + 1)%nat. rewrite slice_join. cbn [Nat.add].
  change 4%nat with (0 + 4)%nat at 2. rewrite slice_join. reflexivity.
Qed.
Lemma top_C18_partial e l x r : bytes_ok l -> read_nlist64 e l = Ok (x, r) ->
  (write_nlist64 e x = (firstn 16 l, true) <-> fld e 4 1 l <= 32).
Proof.
  intros Hb H. destruct (top_C18_exact e l x r Hb H) as (b & E & W & _). rewrite W.
  assert (fld e 4 1 l = b) as ->. { unfold fld. rewrite E. destruct e; cbn; lia. }
  split.
  - intros G. apply (f_equal fst) in G. cbn [fst] in G. rewrite <- (slice_16 l b E) in G. apply app_inv_head in G. cbn [app] in G.
    injection G as G. destruct (b <? 32) eqn:B; lia.
  - intros G. rewrite <- (slice_16 l b E). destruct (b <? 32) eqn:B; [reflexivity|]. replace b with 32 by lia. reflexivity.
Qed.
Definition stab_entry : list Z := [1; 0; 0; 0; 0x24; 1; 0; 0; 0; 0; 0; 0; 0; 0; 0; 0].
Lemma top_C18_refuted : exists e l x r, bytes_ok l /\ read_nlist64 e l = Ok (x, r) /\ write_nlist64 e x <> (firstn 16 l, true).
Proof.
  exists Little, stab_entry, {| nl_strx := 1; nl_type := Stab Gsym; nl_sect := 1; nl_desc := 0; nl_value := 0 |}, [].
  split; [repeat constructor; unfold inu; lia|]. split; [vm_compute; reflexivity|vm_compute; discriminate].
Qed.

(** ** C19 *)

Lemma reloc_rebytes e l x : bytes_ok l -> reloc_at e 0 l x -> reloc_fits x -> reloc_bytes e x = firstn 8 l.
Proof.
  intros Hb (L & F1 & F2) F. unfold reloc_bytes. cbn [Nat.add] in *.
  destruct (reloc_word_eq e x F) as [-> R]. rewrite <- F2, <- F1.
  unfold fld_i32. rewrite <- wrapi_signed by (apply (fld_range e 0 4 l Hb); lia).
  rewrite wrapu_wrapi by (apply (fld_range e 0 4 l Hb); lia).
  rewrite (bytes_of_fld e 0 4), (bytes_of_fld e 4 4) by (assumption || lia). rewrite app_nil_r.
  change 4%nat with (0 + 4)%nat at 2. rewrite slice_join. reflexivity.
Qed.
Lemma reloc_total e l : bytes_ok l -> (8 <= length l)%nat -> exists x, read_reloc_info e l = Ok (x, skipn 8 l).
Proof.
  intros Hb L.
  set (w := fld e 4 4 l).
  assert (R : inu 32 w) by (apply (fld_range e 4 4 l Hb); lia).
  unfold inu in R. change (2 ^ 32) with 4294967296 in R.
  set (len n := if n =? 0 then LenByte else if n =? 1 then LenWord else if n =? 2 then LenLong else LenQuad).
  assert (LN : forall n, 0 <= n < 4 -> reloc_length_num (len n) = n).
  { intros n Hn. assert (n = 0 \/ n = 1 \/ n = 2 \/ n = 3) as [-> | [-> | [-> | ->]]] by lia; reflexivity. }
  assert (BN : forall n, 0 <= n < 2 -> bit01 (n =? 1) = n).
  { intros n Hn. assert (n = 0 \/ n = 1) as [-> | ->] by lia; reflexivity. }
  exists match e with
    | Little => {| r_address := fld_i32 e 0 l; r_symbolnum := w mod 2 ^ 24; r_pcrel := (w / 2 ^ 24) mod 2 =? 1;
                   r_length := len ((w / 2 ^ 25) mod 4); r_extern := (w / 2 ^ 27) mod 2 =? 1;
                   r_type := w / 2 ^ 28 |}
    | Big => {| r_address := fld_i32 e 0 l; r_symbolnum := w / 2 ^ 8; r_pcrel := (w / 2 ^ 7) mod 2 =? 1;
                   r_length := len ((w / 2 ^ 5) mod 4); r_extern := (w / 2 ^ 4) mod 2 =? 1;
                   r_type := w mod 2 ^ 4 |}
    end.
  apply (reloc_read e 0); [exact Hb|]. unfold reloc_at, reloc_fits, reloc_word, inu. cbn [Nat.add].
  change (2 ^ 24) with 16777216. change (2 ^ 25) with 33554432. change (2 ^ 27) with 134217728.
  change (2 ^ 28) with 268435456. change (2 ^ 8) with 256. change (2 ^ 7) with 128. change (2 ^ 5) with 32.
  change (2 ^ 4) with 16. fold w.
  destruct e; projs; rewrite !BN, !LN by lia;
    (split; [split; [exact L|split; [reflexivity|lia]]|split; [split; lia|reflexivity]]).
Qed.
Lemma top_C19_read e l : bytes_ok l ->
  ((exists x r, read_reloc_info e l = Ok (x, r)) <-> (8 <= length l)%nat) /\
  (forall x r, read_reloc_info e l = Ok (x, r) -> write_reloc_info e x = (firstn 8 l, true) /\ r = skipn 8 l).
Proof.
  intros Hb. split.
  - split.
    + intros (x & r & H). apply (reloc_read e 0) in H; [|exact Hb]. destruct H as ((L & _) & _). lia.
    + intros L. destruct (reloc_total e l Hb L) as (x & H). now exists x, (skipn 8 l).
  - intros x r H. apply (reloc_read e 0) in H; [|exact Hb]. destruct H as (A & F & ->).
    split; [|reflexivity]. rewrite reloc_write. f_equal. now apply reloc_rebytes.
Qed.
Lemma top_C19_write h x rest : reloc_rng x -> bytes_ok rest ->
  exists bs, write_reloc_info h x = (bs, true) /\ length bs = 8%nat /\
    (read_reloc_info h (bs ++ rest) = Ok (x, rest) <-> r_symbolnum x < 2 ^ 24 /\ r_type x < 16).
Proof.
  intros (R1 & R2 & R3) Hr. exists (reloc_bytes h x). split; [apply reloc_write|]. split; [apply reloc_bytes_length|].
  change (reloc_bytes h x ++ rest) with (skipn 0 (reloc_bytes h x ++ rest)).
  assert (Hb : bytes_ok (reloc_bytes h x ++ rest)) by (apply bytes_ok_app; split; [apply reloc_bytes_ok|exact Hr]).
  rewrite reloc_read by exact Hb. unfold inu in *. split.
  - intros (_ & (F1 & F2) & _). unfold inu in *. lia.
  - intros (F1 & F2). assert (F : reloc_fits x) by (unfold reloc_fits, inu; change (2 ^ 4) with 16; lia).
    split; [|split; [exact F|cbn [Nat.add]; symmetry; apply skipn_app_len, reloc_bytes_length]].
    apply (reloc_local 0 _ (reloc_bytes h x)); [apply slice_hd, reloc_bytes_length|apply reloc_bytes_length|].
    now apply reloc_bytes_at.
Qed.

(** ** C20 *)

Lemma clean_ascii s : clean s -> ascii_str s.
Proof. apply Forall_impl. intros c Hc. lia. Qed.
Lemma push_ascii t s : ascii_str s -> stab_push t s = Ok (t ++ s ++ [0]).
Proof.
  intros H. unfold stab_push. assert (E : str_is_ascii s = true) by (apply str_is_ascii_iff; [now apply ascii_str_ok|exact H]).
  rewrite E. now rewrite map_wrapu8_ascii.
Qed.

Lemma split_nul_app a l : clean a -> split is_nul (a ++ 0 :: l) = a :: split is_nul l.
Proof.
  induction a as [|x a IH]; intros H; [reflexivity|]. inversion_clear H as [|? ? Hx Ha].
  cbn [app split]. rewrite (IH Ha). unfold is_nul. destruct (Z.eqb_spec x 0); [lia|reflexivity].
Qed.
Definition stab_bytes (ss : list str) : list Z := concat (map (fun s => s ++ [0]) ss).
Lemma push_all_ok t ss : Forall clean ss -> push_all t ss = Ok (t ++ stab_bytes ss).
Proof.
  revert t; induction ss as [|s ss IH]; intros t F; cbn [push_all].
  - unfold stab_bytes. cbn. now rewrite app_nil_r.
  - inversion_clear F as [|? ? Hs Hss]. rewrite push_ascii by now apply clean_ascii. cbn [bind].
    rewrite IH by assumption. unfold stab_bytes. cbn [map concat]. now rewrite <- !app_assoc.
Qed.
Lemma stab_bytes_length ss : length (stab_bytes ss) = strs_size ss.
Proof.
  induction ss as [|s ss IH]; [reflexivity|]. unfold stab_bytes in *. cbn [map concat strs_size fold_right].
  rewrite !app_length, IH. cbn [length]. unfold strs_size. lia.
Qed.
Lemma stab_bytes_app a b : stab_bytes (a ++ b) = stab_bytes a ++ stab_bytes b.
Proof. unfold stab_bytes. now rewrite map_app, concat_app. Qed.
Lemma stab_bytes_split ss : Forall clean ss -> split is_nul (stab_bytes ss) = ss ++ [[]].
Proof.
  induction ss as [|s ss IH]; intros F; [reflexivity|]. inversion_clear F as [|? ? Hs Hss].
  unfold stab_bytes in *. cbn [map concat]. rewrite <- app_assoc. cbn [app]. rewrite split_nul_app by assumption.
  now rewrite IH.
Qed.
Lemma mapM_utf8 ss : Forall clean ss -> mapM (fun b => unwrap (from_utf8 b)) ss = Ok ss.
Proof.
  induction ss as [|s ss IH]; intros F; [reflexivity|]. inversion_clear F as [|? ? Hs Hss].
  cbn [mapM]. rewrite from_utf8_ascii by now apply clean_ascii. cbn [unwrap bind]. now rewrite IH.
Qed.
Lemma stab_bytes_ascii ss : Forall clean ss -> Forall (fun n => 0 <= n < 128) (stab_bytes ss).
Proof.
  induction ss as [|s ss IH]; intros F; [constructor|]. inversion_clear F as [|? ? Hs Hss].
  unfold stab_bytes in *. cbn [map concat]. apply Forall_app. split; [|now apply IH].
  apply Forall_app. split; [now apply clean_ascii|]. constructor; [lia|constructor].
Qed.
Lemma stab_last ss : exists u, 0 :: stab_bytes ss = u ++ [0].
Proof.
  destruct (list_eq_dec (list_eq_dec Z.eq_dec) ss []) as [-> | N]; [now exists []|].
  destruct (exists_last N) as (a & s & ->). exists (0 :: stab_bytes a ++ s).
  rewrite stab_bytes_app. unfold stab_bytes at 2. cbn [map concat]. rewrite app_nil_r, app_assoc. reflexivity.
Qed.

Lemma top_C20 ss : Forall clean ss -> exists t, push_all stab_with_null ss = Ok t /\
  (forall a s b, ss = a ++ s :: b -> stab_get t (1 + strs_size a) = Ok s) /\
  stab_get t 0 = Ok [] /\ stab_iter t = Ok (ss ++ [[]]) /\ stab_len t = (1 + strs_size ss)%nat /\
  stab_from_vec t = Ok t.
Proof.
  intros F. exists ([0] ++ stab_bytes ss). split; [now apply push_all_ok|].
  split; [|split; [|split; [|split]]].
  - intros a s b ->. unfold stab_get. cbn [app]. rewrite stab_bytes_app. unfold stab_bytes at 2 4. cbn [map concat].
    change (1 + strs_size a)%nat with (S (strs_size a)). cbn [skipn length].
    rewrite <- (stab_bytes_length a). rewrite skipn_app_len by reflexivity.
    destruct (Nat.leb_spec (S (length (stab_bytes a))) (S (length (stab_bytes a ++ (s ++ [0]) ++ concat (map (fun s0 => s0 ++ [0]) b))))) as [L|L];
      [|rewrite app_length in L; lia].
    rewrite <- app_assoc. cbn [app]. apply Forall_app in F. destruct F as [_ F]. inversion_clear F as [|? ? Hs Hss].
    rewrite split_nul_app by assumption. cbn [hd]. rewrite from_utf8_ascii by now apply clean_ascii. reflexivity.
  - unfold stab_get. cbn [Nat.leb skipn app split is_nul]. reflexivity.
  - unfold stab_iter. cbn [app split]. change (is_nul 0) with true. cbn iota. cbn [skipn]. rewrite stab_bytes_split by assumption.
    apply mapM_utf8. apply Forall_app. split; [exact F|]. constructor; [constructor|constructor].
  - unfold stab_len. cbn [app length]. now rewrite stab_bytes_length.
  - unfold stab_from_vec. destruct (stab_last ss) as (u & E). cbn [app]. rewrite E, rev_app_distr. cbn [rev app rassert bind].
    rewrite <- E. cbn [rassert bind].
    assert (forallb (fun n => (n =? 0) || is_ascii n) (0 :: stab_bytes ss) = true) as ->.
    { apply forallb_forall. intros n Hn. destruct Hn as [<- | Hn]; [reflexivity|].
      pose proof (stab_bytes_ascii ss F) as A. rewrite Forall_forall in A. apply A in Hn. unfold is_ascii. lia. }
    reflexivity.
Qed.
Lemma top_C20_panic t s : str_ok s -> (stab_push t s = Panic <-> exists c, In c s /\ 128 <= c).
Proof.
  intros Hs. unfold stab_push. destruct (str_is_ascii s) eqn:E.
  - split; [discriminate|]. intros (c & Hc & L). unfold str_is_ascii in E. rewrite forallb_forall in E.
    apply E in Hc. unfold is_ascii in Hc. lia.
  - split; [intros _|reflexivity]. induction s as [|c s IH]; [discriminate|]. inversion_clear Hs as [|? ? Hc Hs'].
    unfold str_is_ascii in E. cbn [forallb] in E. unfold is_ascii in E at 1. destruct (c <? 128) eqn:L.
    + destruct IH as (d & Hd & G); [exact Hs'|exact E|]. exists d. split; [now right|exact G].
    + exists c. split; [now left|lia].
Qed.
Lemma hd_split_app_nul u w : (exists v, u = v ++ [0]) -> hd [] (split is_nul (u ++ w)) = hd [] (split is_nul u).
Proof.
  intros (v & ->). rewrite !hd_split_nul. induction v as [|x v IH]; [reflexivity|]. cbn [app until_nul].
  destruct (x =? 0); [reflexivity|]. now rewrite IH.
Qed.
Lemma top_C20_stable d t s t' i : str_ok s -> stab_from_vec d = Ok t -> stab_push t s = Ok t' -> (i < stab_len t)%nat ->
  stab_get t' i = stab_get t i /\ stab_from_vec t' = Ok t'.
Proof.
  intros Hs H1 H2 L. unfold stab_len in L.
  unfold stab_from_vec in H1. 
  destruct (match d with 0 :: _ => true | _ => false end) eqn:A; [|discriminate].
  destruct (match rev d with 0 :: _ => true | _ => false end) eqn:B; [|discriminate].
  destruct (forallb (fun n => (n =? 0) || is_ascii n) d) eqn:C; [|discriminate].
  cbn [rassert bind] in H1. apply Ok_inj in H1. subst t.
  assert (exists v, d = v ++ [0]) as (v & Ev).
  { destruct (rev d) as [|z r] eqn:E; [discriminate|]. destruct z; try discriminate. exists (rev r).
    rewrite <- (rev_involutive d), E. reflexivity. }
  unfold stab_push in H2. destruct (str_is_ascii s) eqn:S; [|discriminate]. apply Ok_inj in H2. subst t'.
  split.
  - unfold stab_get. rewrite app_length.
    destruct (Nat.leb_spec i (length d + length (map (wrapu 8) s ++ [0]))); [|lia].
    destruct (Nat.leb_spec i (length d)); [|lia]. do 2 f_equal.
    rewrite skipn_app. replace (i - length d)%nat with 0%nat by lia. rewrite skipn_O. apply hd_split_app_nul.
    exists (skipn i v). rewrite Ev, skipn_app. f_equal. rewrite Ev, app_length in L. cbn [length] in L.
    replace (i - length v)%nat with 0%nat by lia. reflexivity.
  - unfold stab_from_vec.
    assert (match d ++ map (wrapu 8) s ++ [0] with 0 :: _ => true | _ => false end = true) as ->.
    { destruct d as [|[] d]; try discriminate. reflexivity. }
    assert (match rev (d ++ map (wrapu 8) s ++ [0]) with 0 :: _ => true | _ => false end = true) as ->.
    { rewrite !rev_app_distr. reflexivity. }
    assert (forallb (fun n => (n =? 0) || is_ascii n) (d ++ map (wrapu 8) s ++ [0]) = true) as ->; [|reflexivity].
    rewrite !forallb_app, C. cbn [forallb andb Z.eqb orb]. rewrite andb_true_r. apply forallb_forall. intros n Hn.
    apply in_map_iff in Hn. destruct Hn as (c & <- & Hc). unfold str_is_ascii in S. rewrite forallb_forall in S.
    pose proof (S c Hc) as Sc. unfold is_ascii in *. unfold wrapu. change (2 ^ 8) with 256 in *.
    unfold str_ok in Hs. rewrite Forall_forall in Hs. pose proof (Hs c) as G. unfold ischar in G.
    assert (In c s) by assumption. lia.
Qed.

(** ** C21 *)

Lemma utf8_len_ascii s : str_ok s -> str_len s = zlen s -> ascii_str s.
Proof.
  unfold str_len, zlen, ascii_str. induction s as [|c s IH]; intros Hs E; [constructor|].
  inversion_clear Hs as [|? ? Hc Hs']. cbn [utf8 flat_map] in E. rewrite app_length in E.
  pose proof (utf8_length_ge s) as G. fold (utf8 s) in E. cbn [length] in E.
  assert (U : (1 <= length (utf8_char c))%nat /\ (length (utf8_char c) = 1%nat -> c < 128)).
  { unfold utf8_char. destruct (Z.ltb_spec c 128); [cbn; lia|]. destruct (c <? 2048); [cbn; lia|]. destruct (c <? 65536); cbn; lia. }
  assert (length (utf8_char c) = 1%nat) by lia.
  unfold ischar in Hc. constructor; [lia|]. apply IH; [exact Hs'|lia].
Qed.
Lemma top_C21_write s n : str_ok s ->
  (snd (write_fixed_size_string s n) = true <-> ascii_str s /\ (length s <= n)%nat) /\
  (ascii_str s -> (length s <= n)%nat -> write_fixed_size_string s n = (s ++ repeat 0 (n - length s), true)) /\
  (snd (write_fixed_size_string s n) = false -> fst (write_fixed_size_string s n) = []).
Proof.
  intros Hs. split; [|split].
  - unfold write_fixed_size_string. destruct (str_is_ascii s && (str_len s <=? Z.of_nat n)) eqn:E; cbn [wemit wpanic snd].
    + split; [intros _|reflexivity]. apply andb_true_iff in E. destruct E as [E1 E2].
      apply str_is_ascii_iff in E1; [|exact Hs]. split; [exact E1|]. unfold str_len in E2. rewrite utf8_ascii in E2 by exact E1.
      unfold zlen in E2. lia.
    + split; [discriminate|]. intros [A L]. exfalso. apply str_is_ascii_iff in A as A'; [|exact Hs]. rewrite A' in E.
      unfold str_len in E. rewrite utf8_ascii in E by exact A. unfold zlen in E. cbn [andb] in E. lia.
  - intros A L. now apply write_name_ok.
  - unfold write_fixed_size_string. destruct (str_is_ascii s && (str_len s <=? Z.of_nat n)); [discriminate|reflexivity].
Qed.
Lemma read_fixed_at n l : read_fixed_size_string n l =
  if Nat.leb n (length l) then
    match from_utf8 (until_nul (firstn n l)) with Some s => Ok (s, skipn n l) | None => Panic end
  else Panic.
Proof.
  unfold read_fixed_size_string, rbind, read_exact. destruct (Nat.leb n (length l)); [|reflexivity].
  pose proof (hd_split_nul (firstn n l)) as E. unfold is_nul in E. rewrite E.
  destruct (from_utf8 (until_nul (firstn n l))); reflexivity.
Qed.
Lemma top_C21_read n l s r : bytes_ok l ->
  (read_fixed_size_string n l = Ok (s, r) <->
   (n <= length l)%nat /\ str_ok s /\ utf8 s = until_nul (firstn n l) /\ r = skipn n l).
Proof.
  intros Hb. rewrite read_fixed_at. split.
  - destruct (Nat.leb_spec n (length l)) as [L|L]; [|discriminate].
    destruct (from_utf8 (until_nul (firstn n l))) as [s'|] eqn:E; [|discriminate].
    intros H. apply Ok_inj in H. injection H as -> <-.
    apply from_utf8_inv in E; [|apply until_nul_bytes; now apply bytes_ok_firstn]. now destruct E.
  - intros (L & Hs & U & ->). destruct (Nat.leb_spec n (length l)); [|lia].
    rewrite <- U, from_utf8_utf8 by exact Hs. reflexivity.
Qed.
Lemma until_nul_clean l : Forall (fun c => c <> 0) (until_nul l).
Proof. induction l as [|x l IH]; cbn [until_nul]; [constructor|]. destruct (Z.eqb_spec x 0); [constructor|constructor; auto]. Qed.
Lemma top_C21_inverse s n rest : str_ok s -> bytes_ok rest ->
  ((exists bs, write_fixed_size_string s n = (bs, true) /\ read_fixed_size_string n (bs ++ rest) = Ok (s, rest)) <->
   clean s /\ (length s <= n)%nat).
Proof.
  intros Hs Hr. destruct (top_C21_write s n Hs) as (W1 & W2 & _). split.
  - intros (bs & W & R). assert (A : ascii_str s /\ (length s <= n)%nat) by (apply W1; now rewrite W). destruct A as [A L].
    split; [|exact L]. rewrite W2 in W by assumption. injection W as <-.
    apply top_C21_read in R.
    + destruct R as (_ & _ & U & _). rewrite utf8_ascii in U by exact A.
      unfold clean. rewrite Forall_forall. intros c Hc.
      unfold ascii_str in A. rewrite Forall_forall in A. pose proof (A c Hc).
      assert (c <> 0); [|lia]. pose proof (until_nul_clean (firstn n ((s ++ repeat 0 (n - length s)) ++ rest))) as K.
      rewrite <- U in K. rewrite Forall_forall in K. now apply K.
    + apply bytes_ok_app. split; [|exact Hr]. apply bytes_ok_app. split; [now apply ascii_bytes|apply bytes_ok_repeat0].
  - intros [C L]. exists (s ++ repeat 0 (n - length s)). split; [apply W2; [now apply clean_ascii|exact L]|].
    assert (LN : length (s ++ repeat 0 (n - length s)) = n) by (rewrite app_length, repeat_length; lia).
    apply top_C21_read.
    + apply bytes_ok_app. split; [|exact Hr]. apply bytes_ok_app. split; [now apply ascii_bytes, clean_ascii|apply bytes_ok_repeat0].
    + split; [rewrite app_length; lia|]. split; [exact Hs|]. split.
      * rewrite firstn_app, LN, Nat.sub_diag, firstn_O, app_nil_r, firstn_all2 by lia.
        rewrite utf8_ascii by now apply clean_ascii. symmetry. now apply until_nul_pad.
      * rewrite skipn_app_len by exact LN. reflexivity.
Qed.

(** ** C22 *)

Ltac pr := repeat (apply pr_rbind; [|intros ?]); auto using pr_rret, pr_rlift, pr_read_exact.
Lemma pr_read_uint n e : prefix_reader (read_uint n e).
Proof. unfold read_uint. pr. Qed.
Lemma pr_u8 : prefix_reader read_u8. Proof. apply pr_read_uint. Qed.
Lemma pr_u16 e : prefix_reader (read_u16 e). Proof. apply pr_read_uint. Qed.
Lemma pr_u32 e : prefix_reader (read_u32 e). Proof. apply pr_read_uint. Qed.
Lemma pr_u64 e : prefix_reader (read_u64 e). Proof. apply pr_read_uint. Qed.
Lemma pr_i32 e : prefix_reader (read_i32 e). Proof. unfold read_i32. pr; apply pr_u32. Qed.
Lemma pr_fixed n : prefix_reader (read_fixed_size_string n). Proof. unfold read_fixed_size_string. pr. Qed.
Ltac prs := repeat first [apply pr_u8|apply pr_u16|apply pr_u32|apply pr_u64|apply pr_i32|apply pr_fixed
  |apply pr_rret|apply pr_rlift|apply pr_rbind; [|intros ?]].
Lemma pr_header h : prefix_reader (read_header64 h). Proof. unfold read_header64. prs. Qed.
Lemma pr_segment p e : prefix_reader (read_segment64 p e). Proof. unfold read_segment64. prs. Qed.
Lemma pr_section e : prefix_reader (read_section64 e). Proof. unfold read_section64. prs. Qed.
Lemma pr_symtab e : prefix_reader (read_symtab e). Proof. unfold read_symtab. prs. Qed.
Lemma pr_dysymtab e : prefix_reader (read_dysymtab e). Proof. unfold read_dysymtab. prs. Qed.
Lemma pr_build_version p e : prefix_reader (read_build_version p e). Proof. unfold read_build_version. prs. Qed.
Lemma pr_build_tool e : prefix_reader (read_build_tool e). Proof. unfold read_build_tool. prs. Qed.
Lemma pr_nlist e : prefix_reader (read_nlist64 e). Proof. unfold read_nlist64. prs. Qed.
Lemma pr_reloc e : prefix_reader (read_reloc_info e). Proof. unfold read_reloc_info. destruct e; prs. Qed.

(** every strict prefix of what was consumed is rejected *)
Lemma pr_truncate {A} (m : reader A) l x r : prefix_reader m -> m l = Ok (x, r) ->
  exists c, l = c ++ r /\ forall k, (k < length c)%nat -> m (firstn k l) = Panic.
Proof.
  intros P H. destruct (P l x r H) as (c & -> & _ & U). exists c. split; [reflexivity|].
  intros k Hk. rewrite firstn_app. replace (k - length c)%nat with 0%nat by lia. rewrite firstn_O, app_nil_r.
  apply (U _ (skipn k c)); [symmetry; apply firstn_skipn|].
  intros E. apply (f_equal (@length Z)) in E. rewrite skipn_length in E. cbn in E. lia.
Qed.
Lemma app_same_length {A} (a b c d : list A) : a ++ b = c ++ d -> length b = length d -> a = c.
Proof.
  intros E L. apply (f_equal (@length A)) in E as E'. rewrite !app_length in E'.
  apply (f_equal (firstn (length a))) in E. rewrite !firstn_app, Nat.sub_diag, firstn_O, app_nil_r, firstn_all in E.
  replace (length a) with (length c) in E by lia. rewrite Nat.sub_diag, firstn_O, app_nil_r, firstn_all in E. exact E.
Qed.
(** reading a fixed-size record needs its whole size *)
Lemma ok_or_panic {A} (m : res A) : (forall a, m <> Ok a) -> m = Panic.
Proof. destruct m as [a|]; [|reflexivity]. intros H. now destruct (H a). Qed.
Ltac short H at_def := apply ok_or_panic; intros [x r] G; apply H in G; [|assumption];
  unfold at_def in G; decompose [and] G; lia.
Lemma top_C22_fixed p e l : bytes_ok l ->
  ((length l < 32)%nat -> read_header64 e l = Panic) /\
  ((length l < 72)%nat -> read_segment64 p e l = Panic) /\
  ((length l < 80)%nat -> read_section64 e l = Panic) /\
  ((length l < 24)%nat -> read_symtab e l = Panic) /\
  ((length l < 80)%nat -> read_dysymtab e l = Panic) /\
  ((length l < 24)%nat -> read_build_version p e l = Panic) /\
  ((length l < 8)%nat -> read_build_tool e l = Panic) /\
  ((length l < 16)%nat -> read_nlist64 e l = Panic) /\
  ((length l < 8)%nat -> read_reloc_info e l = Panic).
Proof.
  intros Hb. repeat match goal with |- _ /\ _ => split end; intros L.
  - apply ok_or_panic. intros [[x e'] r] G. apply (header_read e 0) in G; [|assumption]. unfold header_at in G. decompose [and] G. lia.
  - short (segment_read p e 0) segment_at.
  - short (section_read e 0) section_at.
  - short (symtab_read e 0) symtab_at.
  - short (dysymtab_read e 0) dysymtab_at.
  - short (build_version_read p e 0) build_version_at.
  - short (build_tool_read e 0) build_tool_at.
  - short (nlist_read e 0) nlist_at.
  - short (reloc_read e 0) reloc_at.
Qed.
Lemma pr_lc_direct p e l : bytes_ok l -> forall x r, read_load_command p e l = Ok (x, r) ->
  exists c, l = c ++ r /\ forall k, (k < length c)%nat -> read_load_command p e (firstn k l) = Panic.
Proof.
  intros Hb x r H.
  (* a reader that has seen [cmd] and then reads the whole command *)
  set (body cmd :=
      (if cmd =? SEGMENT_TYPE then
         c <~ read_segment64 p e ;
         sections <~ read_many (Z.to_nat (sg_nsects c)) (read_section64 e) ;
         rret (LcSegment64 c sections)
       else if cmd =? SYMTAB_TYPE then
         c <~ read_symtab e ; rret (LcSymtab c)
       else if cmd =? DYSYMTAB_TYPE then
         c <~ read_dysymtab e ; rret (LcDysymtab c)
       else if cmd =? BUILD_VERSION_TYPE then
         c <~ read_build_version p e ;
         tools <~ read_many (Z.to_nat (bv_ntools c)) (read_build_tool e) ;
         rret (LcBuildVersion c tools)
       else rlift Panic)).
  assert (PB : forall cmd, prefix_reader (body cmd)).
  { intros cmd. unfold body.
    destruct (cmd =? SEGMENT_TYPE); [|destruct (cmd =? SYMTAB_TYPE); [|destruct (cmd =? DYSYMTAB_TYPE); [|destruct (cmd =? BUILD_VERSION_TYPE); [|apply pr_rlift]]]];
    repeat first [apply pr_segment|apply pr_symtab|apply pr_dysymtab|apply pr_build_version|apply pr_rret
      |apply pr_read_many; first [apply pr_section|apply pr_build_tool]|apply pr_rbind; [|intros ?]]. }
  assert (D : forall l, bytes_ok l -> read_load_command p e l =
            match read_u32 e l with Panic => Panic | Ok (cmd, _) => body cmd l end).
  { intros l' Hl'. rewrite read_lc_direct_eq by exact Hl'. reflexivity. }
  rewrite D in H by exact Hb. destruct (read_u32 e l) as [[cmd l']|] eqn:E; [|discriminate].
  destruct (pr_truncate (body cmd) l x r (PB cmd) H) as (c & Ec & T). exists c. split; [exact Ec|].
  intros k Hk. rewrite D by now apply bytes_ok_firstn.
  destruct (read_u32 e (firstn k l)) as [[cmd' l'']|] eqn:E'; [|reflexivity].
  assert (cmd' = cmd) as ->; [|now apply T].
  change l with (skipn 0 l) in E at 1. change (firstn k l) with (skipn 0 (firstn k l)) in E'.
  rewrite read_u32_skip in E, E'. cbn [Nat.add] in *.
  destruct (Nat.leb_spec 4 (length l)); [|discriminate].
  destruct (Nat.leb_spec 4 (length (firstn k l))); [|discriminate].
  apply (f_equal (fun z => match z with Ok (a, _) => a | Panic => 0 end)) in E, E'. rewrite <- E, <- E'. unfold fld, slice. do 1 f_equal.
  rewrite firstn_length in *. rewrite !skipn_O, firstn_firstn. f_equal. lia.
Qed.
Lemma top_C22_lc p e l x r : bytes_ok l -> read_load_command p e l = Ok (x, r) ->
  l = firstn (lc_len x) l ++ r /\ (lc_len x <= length l)%nat /\
  forall k, (k < lc_len x)%nat -> read_load_command p e (firstn k l) = Panic.
Proof.
  intros Hb H. pose proof H as H'. apply (lc_read p e 0) in H'; [|exact Hb]. destruct H' as (A & V & E). cbn [Nat.add] in E.
  destruct (pr_lc_direct p e l Hb x r H) as (c & Ec & T).
  assert (LL : (lc_len x <= length l)%nat).
  { assert (forall {B} (P : nat -> B -> Prop) size o xs, (forall o x, P o x -> (o + size <= length l)%nat) -> (o <= length l)%nat ->
       list_at P size o xs -> (o + size * length xs <= length l)%nat) as LA.
    { intros B P size o xs HP. revert o. induction xs as [|y xs IH]; intros o Ho; cbn [list_at length].
      - intros _. lia.
      - intros [G1 G2]. apply HP in G1. apply IH in G2; lia. }
    destruct x as [s ss|s|s|s ss]; cbn [lc_at lc_len] in *.
    - destruct A as [(A1 & _) A2]. apply LA in A2; [lia| |lia]. intros o y (G & _). exact G.
    - destruct A as (A1 & _). lia.
    - destruct A as (A1 & _). lia.
    - destruct A as [(A1 & _) A2]. apply LA in A2; [lia| |lia]. intros o y (G & _). exact G. }
  split; [rewrite E; symmetry; apply firstn_skipn|]. split; [exact LL|].
  intros k Hk. apply T. rewrite Ec, app_length in LL. apply (f_equal (@length Z)) in Ec. rewrite app_length in Ec.
  apply (f_equal (@length Z)) in E. rewrite skipn_length in E. lia.
Qed.

(** ** C58: re-emitting a parsed header *)

Lemma header_rebytes e l x : bytes_ok l -> fld e 0 4 l = magic_num (h_magic x) -> header_at e 0 l (fld e 0 4 l) x ->
  header_bytes e x = firstn 32 l.
Proof.
  intros Hb M H. unfold header_at in H. cbn [Nat.add] in H. destruct H as (L & _ & C1 & C2 & F & N1 & N2 & B & R).
  unfold header_bytes.
  assert (flags_to_u32 (h_flags x) = fld e 24 4 l) as EF.
  { apply (bitset_unique flag flag_bit (h_flags x)); [apply flags_to_range|apply (fld_range e 24 4 l Hb); lia|apply flags_to_bitset|exact B]. }
  assert (magic_to_u32 (h_magic x) = magic_num (h_magic x)) as EM by (now destruct (h_magic x)).
  assert (wrapu 32 (fst (cpu_to (h_cpu x))) = fst (cpu_nums (h_cpu x))) as E1 by (destruct (h_cpu x) as [[]|[]]; reflexivity).
  assert (wrapu 32 (snd (cpu_to (h_cpu x))) = snd (cpu_nums (h_cpu x))) as E2 by (destruct (h_cpu x) as [[]|[]]; reflexivity).
  assert (file_type_to_u32 (h_file_type x) = file_type_num (h_file_type x)) as E3 by (now destruct (h_file_type x)).
  rewrite EF, EM, E1, E2, E3, <- M, <- C1, <- C2, <- F, <- N1, <- N2, <- R.
  rewrite !bytes_of_fld by (assumption || lia). rewrite app_nil_r.
  rewrite !app_assoc; repeat (rewrite slice_join; cbn [Nat.add]). reflexivity.
Qed.
Lemma top_C58_native h l x r : bytes_ok l -> read_header64 h l = Ok ((x, h), r) ->
  write_header64 h x = (firstn 32 l, true).
Proof.
  intros Hb H. apply (header_read h 0) in H; [|exact Hb]. destruct H as (_ & M & A & _).
  rewrite header_write. f_equal. now apply header_rebytes.
Qed.
Lemma bytes_of_swap h n v : bytes_of h n v = rev (bytes_of (swap h) n v).
Proof. destruct h; cbn [swap bytes_of]; [now rewrite rev_involutive|reflexivity]. Qed.
Lemma top_C58_swapped h l x r : bytes_ok l -> read_header64 h l = Ok ((x, swap h), r) ->
  write_header64 h x =
    (slice 0 4 l ++ rev (slice 4 4 l) ++ rev (slice 8 4 l) ++ rev (slice 12 4 l) ++ rev (slice 16 4 l) ++
     rev (slice 20 4 l) ++ rev (slice 24 4 l) ++ rev (slice 28 4 l), true).
Proof.
  intros Hb H. apply (header_read h 0) in H; [|exact Hb]. destruct H as (_ & M & A & _).
  rewrite header_write. f_equal. unfold header_at in A. cbn [Nat.add] in A. destruct A as (L & _ & C1 & C2 & F & N1 & N2 & B & R).
  unfold header_bytes.
  assert (flags_to_u32 (h_flags x) = fld (swap h) 24 4 l) as EF.
  { apply (bitset_unique flag flag_bit (h_flags x)); [apply flags_to_range|apply (fld_range (swap h) 24 4 l Hb); lia|apply flags_to_bitset|exact B]. }
  assert (magic_to_u32 (h_magic x) = magic_num (h_magic x)) as EM by (now destruct (h_magic x)).
  assert (wrapu 32 (fst (cpu_to (h_cpu x))) = fst (cpu_nums (h_cpu x))) as E1 by (destruct (h_cpu x) as [[]|[]]; reflexivity).
  assert (wrapu 32 (snd (cpu_to (h_cpu x))) = snd (cpu_nums (h_cpu x))) as E2 by (destruct (h_cpu x) as [[]|[]]; reflexivity).
  assert (file_type_to_u32 (h_file_type x) = file_type_num (h_file_type x)) as E3 by (now destruct (h_file_type x)).
  rewrite EF, EM, E1, E2, E3, <- M, <- C1, <- C2, <- F, <- N1, <- N2, <- R.
  rewrite (bytes_of_fld h 0 4) by (assumption || lia). f_equal.
  rewrite !(bytes_of_swap h). rewrite !bytes_of_fld by (assumption || lia). now rewrite app_nil_r.
Qed.
(** an object-file header of the other byte order *)
Definition swapped_header : list Z :=
  [0xfe; 0xed; 0xfa; 0xcf; 1; 0; 0; 7; 0; 0; 0; 3; 0; 0; 0; 1; 0; 0; 0; 2; 0; 0; 0; 176; 0; 0; 0; 0; 0; 0; 0; 0].
Lemma top_C58_refuted : exists h l x e r, bytes_ok l /\ read_header64 h l = Ok ((x, e), r) /\
  write_header64 h x <> (firstn 32 l, true) /\
  fst (write_header64 h x) <> [] /\ read_header64 h (fst (write_header64 h x)) = Panic.
Proof.
  exists Little, swapped_header.
  eexists _, Big, []. split; [repeat constructor; unfold inu; lia|].
  split; [vm_compute; reflexivity|]. split; [vm_compute; discriminate|]. split; [vm_compute; discriminate|vm_compute; reflexivity].
Qed.

(** ** C57: record layouts *)

Lemma top_C57_write h :
  (forall x, header_rng x -> exists bs, write_header64 h x = (bs, true) /\ length bs = 32%nat /\ header_at h 0 bs (magic_num (h_magic x)) x) /\
  (forall x, segment_rng x -> name16 (sg_segname x) -> exists bs, write_segment64 h x = (bs, true) /\ length bs = 72%nat /\ segment_at h 0 bs x) /\
  (forall x, section_rng x -> name16 (sc_sectname x) -> name16 (sc_segname x) ->
     exists bs, write_section64 h x = (bs, true) /\ length bs = 80%nat /\ section_at h 0 bs x) /\
  (forall x, symtab_rng x -> exists bs, write_symtab h x = (bs, true) /\ length bs = 24%nat /\ symtab_at h 0 bs x) /\
  (forall x, dysymtab_rng x -> exists bs, write_dysymtab h x = (bs, true) /\ length bs = 80%nat /\ dysymtab_at h 0 bs x) /\
  (forall x, build_version_rng x -> exists bs, write_build_version h x = (bs, true) /\ length bs = 24%nat /\ build_version_at h 0 bs x) /\
  (forall x, build_tool_rng x -> exists bs, write_build_tool h x = (bs, true) /\ length bs = 8%nat /\ build_tool_at h 0 bs x) /\
  (forall x, nlist_rng x -> exists bs, write_nlist64 h x = (bs, true) /\ length bs = 16%nat /\ nlist_at h 0 bs x) /\
  (forall x, reloc_rng x -> reloc_fits x -> exists bs, write_reloc_info h x = (bs, true) /\ length bs = 8%nat /\ reloc_at h 0 bs x).
Proof.
  repeat match goal with |- _ /\ _ => split end.
  - intros x R. exists (header_bytes h x). repeat match goal with |- _ /\ _ => split end; [apply header_write|apply header_bytes_length|now apply header_bytes_at].
  - intros x R N. exists (segment_bytes h x). repeat match goal with |- _ /\ _ => split end; [now apply segment_write|now apply segment_bytes_length|now apply segment_bytes_at].
  - intros x R N N'. exists (section_bytes h x). repeat match goal with |- _ /\ _ => split end; [now apply section_write|now apply section_bytes_length|now apply section_bytes_at].
  - intros x R. exists (symtab_bytes h x). repeat match goal with |- _ /\ _ => split end; [apply symtab_write|apply symtab_bytes_length|now apply symtab_bytes_at].
  - intros x R. exists (dysymtab_bytes h x). repeat match goal with |- _ /\ _ => split end; [apply dysymtab_write|apply dysymtab_bytes_length|now apply dysymtab_bytes_at].
  - intros x R. exists (build_version_bytes h x). repeat match goal with |- _ /\ _ => split end; [apply build_version_write|apply build_version_bytes_length|now apply build_version_bytes_at].
  - intros x R. exists (build_tool_bytes h x). repeat match goal with |- _ /\ _ => split end; [apply build_tool_write|apply build_tool_bytes_length|now apply build_tool_bytes_at].
  - intros x R. exists (nlist_bytes h x). repeat match goal with |- _ /\ _ => split end; [apply nlist_write|apply nlist_bytes_length|now apply nlist_bytes_at].
  - intros x R F. exists (reloc_bytes h x). repeat match goal with |- _ /\ _ => split end; [apply reloc_write|apply reloc_bytes_length|now apply reloc_bytes_at].
Qed.
Lemma top_C57_read p e l : bytes_ok l ->
  (forall x r, read_segment64 p e l = Ok (x, r) <->
     segment_at e 0 l x /\ str_ok (sg_segname x) /\ sg_cmd x = 0x19 /\ cmdsize_ok p 72 80 (sg_nsects x) (sg_cmdsize x) /\ r = skipn 72 l) /\
  (forall x r, read_section64 e l = Ok (x, r) <->
     section_at e 0 l x /\ str_ok (sc_sectname x) /\ str_ok (sc_segname x) /\ StronglySorted Z.lt (map attr_bit (sc_attrs x)) /\ r = skipn 80 l) /\
  (forall x r, read_symtab e l = Ok (x, r) <-> symtab_at e 0 l x /\ st_cmd x = 2 /\ st_cmdsize x = 24 /\ r = skipn 24 l) /\
  (forall x r, read_dysymtab e l = Ok (x, r) <-> dysymtab_at e 0 l x /\ dy_cmd x = 0xB /\ dy_cmdsize x = 80 /\ r = skipn 80 l) /\
  (forall x r, read_build_version p e l = Ok (x, r) <->
     build_version_at e 0 l x /\ version_rng (bv_minos x) /\ version_rng (bv_sdk x) /\ bv_cmd x = 0x32 /\
     cmdsize_ok p 24 8 (bv_ntools x) (bv_cmdsize x) /\ r = skipn 24 l) /\
  (forall x r, read_build_tool e l = Ok (x, r) <-> build_tool_at e 0 l x /\ r = skipn 8 l) /\
  (forall x r, read_nlist64 e l = Ok (x, r) <-> nlist_at e 0 l x /\ r = skipn 16 l) /\
  (forall x r, read_reloc_info e l = Ok (x, r) <-> reloc_at e 0 l x /\ reloc_fits x /\ r = skipn 8 l).
Proof.
  intros Hb. repeat match goal with |- _ /\ _ => split end; intros x r.
  - now apply (segment_read p e 0).
  - now apply (section_read e 0).
  - now apply (symtab_read e 0).
  - now apply (dysymtab_read e 0).
  - now apply (build_version_read p e 0).
  - now apply (build_tool_read e 0).
  - now apply (nlist_read e 0).
  - now apply (reloc_read e 0).
Qed.
