(** The Mach-O writer of at-obj: arithmetic, string lookups and the generated records. *)
From Coq Require Import ZifyBool ZifyNat.
From Coq Require String.
Import String.StringSyntax.
From Verif Require Import Base Str Mac Obj SpecMacho SpecObj PfX64 PfBytes PfStr PfMac PfMacRec PfMacRead
  PfMacTop PfMacTop2.
Ltac Zify.zify_post_hook ::= Z.div_mod_to_equations.

(** ** Arithmetic *)
Definition zsum (l : list Z) : Z := fold_right Z.add 0 l.

Lemma chku_in p n x : inu n x -> chku p n x = Ok x.
Proof. unfold inu, chku, inub. intros H. replace ((0 <=? x) && (x <? 2 ^ n)) with true by lia. reflexivity. Qed.
Lemma zsum_nonneg l : Forall (fun x => 0 <= x) l -> 0 <= zsum l.
Proof. induction 1 as [|x l Hx Hl IH]; cbn [zsum fold_right]; [lia|]. fold (zsum l). lia. Qed.
Lemma zsum_app a b : zsum (a ++ b) = zsum a + zsum b.
Proof. induction a as [|x a IH]; cbn [app zsum fold_right]; [reflexivity|]. fold (zsum (a ++ b)) (zsum a). lia. Qed.
Lemma sumu_from_eq p n l acc : 0 <= acc -> Forall (fun x => 0 <= x) l -> acc + zsum l < 2 ^ n ->
  sumu_from p n acc l = Ok (acc + zsum l).
Proof.
  revert acc; induction l as [|x l IH]; intros acc Ha F H; cbn [sumu_from zsum fold_right].
  - f_equal. lia.
  - inversion_clear F as [|? ? Hx Hl]. pose proof (zsum_nonneg l Hl). cbn [zsum fold_right] in H. fold (zsum l) in *.
    rewrite chku_in by (unfold inu; lia). cbn [bind]. rewrite IH by (assumption || lia). f_equal. lia.
Qed.
Lemma sumu_eq p n l : Forall (fun x => 0 <= x) l -> zsum l < 2 ^ n -> sumu p n l = Ok (zsum l).
Proof. intros. unfold sumu. rewrite sumu_from_eq by (assumption || lia). reflexivity. Qed.

Lemma round8_ge n : (n <= round8 n < n + 8)%nat.
Proof. unfold round8. lia. Qed.
Lemma round8_mod n : (round8 n mod 8 = 0)%nat.
Proof. unfold round8. lia. Qed.
Lemma aligned8 p n : Z.of_nat (round8 n) < 2 ^ 32 -> aligned p 32 (Z.of_nat n) 8 = Ok (Z.of_nat (round8 n)).
Proof.
  intros H. unfold aligned, addu, mulu. cbn [Z.eqb]. pose proof (round8_ge n).
  assert (E : Z.of_nat n / 8 + b2z (0 <? Z.of_nat n mod 8) = Z.of_nat ((n + 7) / 8)).
  { unfold b2z. destruct (0 <? Z.of_nat n mod 8) eqn:B; lia. }
  rewrite E. unfold round8 in *. change (2 ^ 32) with 4294967296 in *.
  rewrite chku_in by (unfold inu; change (2 ^ 32) with 4294967296; lia). cbn [bind].
  rewrite chku_in by (unfold inu; change (2 ^ 32) with 4294967296; lia). f_equal. lia.
Qed.

(** ** num.rs in general *)
Lemma aligned_spec p n x a : 0 <= n -> inu n x -> inu n a -> 0 < a ->
  let m := a * ((x + a - 1) / a) in
  x <= m < x + a /\
  (m < 2 ^ n -> aligned p n x a = Ok m) /\
  (2 ^ n <= m -> aligned p n x a = match p with Debug => Panic | Release => Ok (m mod 2 ^ n) end).
Proof.
  intros Hn [X1 X2] [A1 A2] Ha m.
  assert (E : x / a + b2z (0 <? x mod a) = (x + a - 1) / a).
  { pose proof (Z.div_mod x a ltac:(lia)) as D. pose proof (Z.mod_pos_bound x a Ha) as B.
    unfold b2z. destruct (Z.ltb_spec 0 (x mod a)) as [L|L].
    - apply (Z.div_unique_pos _ _ _ (x mod a - 1)); [lia|]. nia.
    - apply (Z.div_unique_pos _ _ _ (x mod a + a - 1)); [lia|]. nia. }
  pose proof (Z.div_mod (x + a - 1) a ltac:(lia)) as D.
  pose proof (Z.mod_pos_bound (x + a - 1) a Ha) as B.
  set (q := (x + a - 1) / a) in *.
  assert (Q0 : 0 <= q) by (apply Z.div_pos; lia).
  assert (Q1 : q <= x).
  { destruct (Z.eq_dec x 0) as [->|N]; [|unfold q; nia].
    assert (E0 : q = 0) by (apply Z.div_small; lia). rewrite E0. lia. }
  assert (X : x <= m < x + a) by (unfold m; fold q; lia).
  split; [exact X|].
  unfold aligned, addu, mulu. replace (a =? 0) with false by lia. rewrite E.
  rewrite chku_in by (unfold inu; lia). cbn [bind]. replace (q * a) with m by (unfold m; fold q; ring).
  split; intros H.
  - apply chku_in. unfold inu. lia.
  - unfold chku, inub. replace ((0 <=? m) && (m <? 2 ^ n)) with false by lia. reflexivity.
Qed.

(** ** Lists *)
Lemma flat_map_concat {A B} (f : A -> list B) l : flat_map f l = concat (map f l).
Proof. apply flat_map_concat_map. Qed.
Lemma zlen_app {A} (a b : list A) : zlen (a ++ b) = zlen a + zlen b.
Proof. unfold zlen. rewrite app_length. lia. Qed.
Lemma zlen_nonneg {A} (a : list A) : 0 <= zlen a.
Proof. unfold zlen. lia. Qed.
Lemma zlen_flat_map {A B} (f : A -> list B) l : zlen (flat_map f l) = zsum (map (fun x => zlen (f x)) l).
Proof.
  induction l as [|x l IH]; [reflexivity|]. cbn [flat_map map zsum fold_right]. rewrite zlen_app, IH. reflexivity.
Qed.
Lemma zlen_flat_map_in {A B} (f : A -> list B) l x : In x l -> 0 <= zlen (f x) <= zlen (flat_map f l).
Proof.
  induction l as [|y l IH]; [contradiction|]. intros [->|H]; cbn [flat_map]; rewrite zlen_app.
  - pose proof (zlen_nonneg (f x)). pose proof (zlen_nonneg (flat_map f l)). lia.
  - specialize (IH H). pose proof (zlen_nonneg (f y)). lia.
Qed.
Lemma flat_map_map {A B C} (g : A -> B) (f : B -> list C) l : flat_map f (map g l) = flat_map (fun x => f (g x)) l.
Proof. now rewrite !flat_map_concat_map, map_map. Qed.
Lemma map_flat_map {A B C} (g : B -> C) (f : A -> list B) l : map g (flat_map f l) = flat_map (fun x => map g (f x)) l.
Proof. induction l as [|x l IH]; [reflexivity|]. cbn [flat_map map]. now rewrite map_app, IH. Qed.
Lemma flat_map_ext' {A B} (f g : A -> list B) l : (forall x, In x l -> f x = g x) -> flat_map f l = flat_map g l.
Proof.
  induction l as [|x l IH]; intros H; [reflexivity|]. cbn [flat_map]. rewrite H by now left. rewrite IH; [reflexivity|].
  intros y Hy. apply H. now right.
Qed.
Lemma mapM_ok {A B} (f : A -> res B) (g : A -> B) l : (forall x, In x l -> f x = Ok (g x)) -> mapM f l = Ok (map g l).
Proof.
  induction l as [|x l IH]; intros H; [reflexivity|]. cbn [mapM map]. rewrite H by now left. cbn [bind].
  rewrite IH; [reflexivity|]. intros y Hy. apply H. now right.
Qed.
Lemma wrapu32_small x : inu 32 x -> wrapu 32 x = x.
Proof. unfold inu, wrapu. intros. now apply Z.mod_small. Qed.

(** ** String-table lookups *)
Lemma split_nul_at x y : split is_nul (x ++ 0 :: y) = split is_nul x ++ split is_nul y.
Proof.
  induction x as [|c x IH]; [reflexivity|]. cbn [app split]. destruct (is_nul c) eqn:E.
  - now rewrite IH.
  - rewrite IH. destruct (split is_nul x) as [|w ws] eqn:S; [|reflexivity].
    exfalso. destruct x as [|d x]; cbn [split] in S; [discriminate|]. destruct (is_nul d); [discriminate|].
    destruct (split is_nul x); discriminate.
Qed.
Lemma split_nul_none u : Forall (fun c => c <> 0) u -> split is_nul u = [u].
Proof.
  induction 1 as [|c u Hc Hu IH]; [reflexivity|]. cbn [split]. unfold is_nul at 1.
  replace (c =? 0) with false by lia. now rewrite IH.
Qed.
Lemma nul_cases u : Forall (fun c => c <> 0) u \/ exists a u', u = a ++ 0 :: u' /\ Forall (fun c => c <> 0) a.
Proof.
  induction u as [|c u [IH|(a & u' & -> & H)]].
  - left; constructor.
  - destruct (Z.eq_dec c 0) as [->|N]; [right; exists [], u; split; [reflexivity|constructor]|left; now constructor].
  - right. destruct (Z.eq_dec c 0) as [->|N]; [exists [], (a ++ 0 :: u'); split; [reflexivity|constructor]|].
    exists (c :: a), u'. split; [reflexivity|now constructor].
Qed.
Lemma until_nul_nz a : Forall (fun c => c <> 0) a -> until_nul a = a.
Proof. induction 1 as [|c a Hc Ha IH]; [reflexivity|]. cbn [until_nul]. replace (c =? 0) with false by lia. now rewrite IH. Qed.
Lemma until_nul_nz_app a l : Forall (fun c => c <> 0) a -> until_nul (a ++ 0 :: l) = a.
Proof. induction 1 as [|c a Hc Ha IH]; [reflexivity|]. cbn [app until_nul]. replace (c =? 0) with false by lia. now rewrite IH. Qed.

Lemma get_strx_loop_spec p name : forall n u b, (length u <= n)%nat -> ascii_str u -> 0 <= b ->
  b + 1 + zlen u < 2 ^ 32 ->
  exists k, get_strx_loop p (split is_nul u) name b = Ok k /\ b + 1 <= k <= b + 1 + zlen u /\
    (In name (split is_nul u) -> until_nul (skipn (Z.to_nat (k - b - 1)) u) = name) /\
    (~ In name (split is_nul u) -> k = b + 1 + zlen u).
Proof.
  induction n as [|n IH]; intros u b L A B H.
  - destruct u; [|cbn in L; lia]. cbn [split get_strx_loop from_utf8 unwrap bind]. unfold zlen in *. cbn [length] in *.
    unfold addu. rewrite chku_in by (unfold inu; lia). cbn [bind].
    destruct (str_eqb [] name) eqn:E.
    + exists (b + 1). apply str_eqb_eq in E. subst name. repeat split; try lia. intros _. rewrite skipn_nil. reflexivity.
    + unfold str_len. cbn [utf8 flat_map]. unfold zlen. cbn [length]. rewrite wrapu32_small by (unfold inu; lia).
      rewrite chku_in by (unfold inu; lia). cbn [bind]. exists (b + 1 + 0). apply str_eqb_neq in E.
      repeat split; try lia. intros [G|[]]. contradiction.
  - destruct (nul_cases u) as [NZ|(a & u' & -> & NZ)].
    + rewrite split_nul_none by assumption. cbn [get_strx_loop]. rewrite from_utf8_ascii by assumption. cbn [unwrap bind].
      pose proof (zlen_nonneg u). unfold addu. rewrite chku_in by (unfold inu; lia). cbn [bind].
      destruct (str_eqb u name) eqn:E.
      * exists (b + 1). apply str_eqb_eq in E. subst name.
        split; [reflexivity|]. split; [lia|]. split; [|intros G; exfalso; apply G; now left].
        intros _. replace (b + 1 - b - 1) with 0 by lia. now apply until_nul_nz.
      * unfold str_len. rewrite utf8_ascii by assumption. rewrite wrapu32_small by (unfold inu; lia).
        rewrite chku_in by (unfold inu; lia). cbn [bind]. exists (b + 1 + zlen u). apply str_eqb_neq in E.
        split; [reflexivity|]. split; [lia|]. split; [intros [G|[]]; contradiction|intros _; reflexivity].
    + rewrite split_nul_at, (split_nul_none a) by assumption. cbn [app get_strx_loop].
      apply Forall_app in A. destruct A as [Aa Au]. inversion_clear Au as [|? ? _ Au'].
      rewrite zlen_app in *. change (0 :: u') with ([0] ++ u') in *. rewrite !zlen_app in *.
      change (zlen [0]) with 1 in *. pose proof (zlen_nonneg a). pose proof (zlen_nonneg u').
      rewrite from_utf8_ascii by assumption. cbn [unwrap bind].
      unfold addu. rewrite chku_in by (unfold inu; lia). cbn [bind].
      destruct (str_eqb a name) eqn:E.
      * exists (b + 1). apply str_eqb_eq in E. subst name.
        split; [reflexivity|]. split; [lia|]. split; [|intros G; exfalso; apply G; now left].
        intros _. replace (b + 1 - b - 1) with 0 by lia. cbn [Z.to_nat skipn app]. now apply until_nul_nz_app.
      * unfold str_len. rewrite utf8_ascii by assumption. rewrite wrapu32_small by (unfold inu; lia).
        rewrite chku_in by (unfold inu; lia). cbn [bind]. apply str_eqb_neq in E.
        destruct (IH u' (b + 1 + zlen a)) as (k & K1 & K2 & K3 & K4); [|assumption|lia|lia|].
        { rewrite !app_length in L. cbn [length] in L. lia. }
        exists k. split; [exact K1|]. split; [lia|]. split.
        -- intros [G|G]; [contradiction|]. specialize (K3 G).
           replace (Z.to_nat (k - b - 1)) with (S (Z.to_nat (k - (b + 1 + zlen a) - 1)) + length a)%nat
             by (unfold zlen in *; lia).
           rewrite <- skipn_skipn, skipn_app_len by reflexivity. exact K3.
        -- intros G. rewrite K4; [lia|]. intros G'. apply G. now right.
Qed.

Lemma in_split_stab s ns : In s ns -> Forall (fun c => c <> 0) s -> In s (split is_nul (stab_bytes ns)).
Proof.
  intros H NZ. induction ns as [|x ns IH]; [contradiction|].
  unfold stab_bytes. cbn [map concat]. rewrite <- app_assoc. cbn [app]. rewrite split_nul_at. apply in_or_app.
  destruct H as [->|H]; [left; rewrite split_nul_none by assumption; now left|right; now apply IH].
Qed.
Lemma split_pieces_nz u w : In w (split is_nul u) -> Forall (fun c => c <> 0) w.
Proof.
  revert w; induction u as [|c u IH]; intros w; cbn [split].
  - intros [<-|[]]. constructor.
  - unfold is_nul at 1. destruct (Z.eqb_spec c 0) as [->|N].
    + intros [<-|H]; [constructor|now apply IH].
    + destruct (split is_nul u) as [|v vs] eqn:S.
      * intros [<-|[]]. constructor; [assumption|constructor].
      * intros [<-|H]; [|apply IH; now right]. constructor; [assumption|apply IH; now left].
Qed.
Lemma has_nul s : existsb (fun c => c =? 0) s = true \/ (existsb (fun c => c =? 0) s = false /\ Forall (fun c => c <> 0) s).
Proof.
  destruct (existsb (fun c => c =? 0) s) eqn:E; [now left|right]. split; [reflexivity|].
  apply Forall_forall. intros c Hc ->. rewrite <- not_true_iff_false in E. apply E. apply existsb_exists. now exists 0.
Qed.

(** string index the writer finds for a name: unspecified but resolving to the name *)
Definition strx (t : stab) (name : str) : Z := match get_strx Release t name with Ok k => k | Panic => 0 end.
Lemma stab_bytes_asc ns : Forall ascii_str ns -> ascii_str (stab_bytes ns).
Proof.
  intros F. unfold stab_bytes, ascii_str. apply Forall_concat. apply Forall_map. revert F. apply Forall_impl.
  intros s Hs. apply Forall_app. split; [exact Hs|]. constructor; [lia|constructor].
Qed.
Lemma get_strx_ok p ns name : Forall ascii_str ns -> In name ns -> zlen (0 :: stab_bytes ns) < 2 ^ 32 ->
  get_strx p (0 :: stab_bytes ns) name = Ok (strx (0 :: stab_bytes ns) name) /\
  0 < strx (0 :: stab_bytes ns) name <= zlen (0 :: stab_bytes ns) /\
  until_nul (skipn (Z.to_nat (strx (0 :: stab_bytes ns) name)) (0 :: stab_bytes ns)) = resolved name.
Proof.
  intros F Hin L. set (u := stab_bytes ns) in *.
  assert (A : ascii_str u) by now apply stab_bytes_asc.
  assert (Lu : zlen (0 :: u) = 1 + zlen u) by (unfold zlen; cbn [length]; lia).
  rewrite Lu in *.
  assert (G : forall q, exists k, get_strx q (0 :: u) name = Ok k /\ 0 < k <= 1 + zlen u /\
            until_nul (skipn (Z.to_nat k) (0 :: u)) = resolved name).
  { intros q. unfold get_strx. cbn [split]. unfold is_nul at 1. cbn [Z.eqb skipn].
    destruct (get_strx_loop_spec q name (length u) u 0) as (k & K1 & K2 & K3 & K4); [lia|assumption|lia|lia|].
    exists k. split; [exact K1|]. split; [lia|]. unfold resolved.
    replace (Z.to_nat k) with (S (Z.to_nat (k - 0 - 1))) by lia. cbn [skipn].
    destruct (has_nul name) as [E|[E NZ]]; rewrite E.
    - rewrite K4. 
      + rewrite skipn_all2 by (unfold zlen; lia). reflexivity.
      + intros G. apply split_pieces_nz in G. apply existsb_exists in E. destruct E as (c & Hc & E).
        rewrite Forall_forall in G. specialize (G c Hc). lia.
    - apply K3. now apply in_split_stab. }
  destruct (G p) as (k & G1 & G2 & G3). destruct (G Release) as (k' & G1' & G2' & G3').
  assert (k = k') as <-.
  { destruct p; [|congruence].
    (* no overflow check fired in Debug, so both builds compute the same *)
    assert (M : forall ps i k0, get_strx_loop Debug ps name i = Ok k0 -> get_strx_loop Release ps name i = Ok k0).
    { induction ps as [|w ps IHp]; intros i k0; cbn [get_strx_loop]; [auto|].
      destruct (unwrap (from_utf8 w)) as [s|]; cbn [bind]; [|discriminate].
      unfold addu, chku. destruct (inub 32 (i + 1)); cbn [bind]; [|discriminate].
      destruct (str_eqb s name); [auto|]. destruct (inub 32 _); cbn [bind]; [|discriminate]. apply IHp. }
    unfold get_strx in *. apply M in G1. congruence. }
  unfold strx. rewrite G1'. auto.
Qed.
Lemma skipn_asc n t : ascii_str t -> ascii_str (skipn n t).
Proof. intros H. rewrite <- (firstn_skipn n t) in H. apply Forall_app in H. apply H. Qed.
Lemma until_nul_asc t : ascii_str t -> ascii_str (until_nul t).
Proof. induction 1 as [|c t Hc Ht IH]; cbn [until_nul]; [constructor|]. destruct (c =? 0); constructor; assumption. Qed.
Lemma stab_get_until t n : ascii_str t -> (n <= length t)%nat -> stab_get t n = Ok (until_nul (skipn n t)).
Proof.
  intros A L. unfold stab_get. replace (Nat.leb n (length t)) with true by (symmetry; apply Nat.leb_le; lia).
  rewrite hd_split_nul, from_utf8_ascii; [reflexivity|]. now apply until_nul_asc, skipn_asc.
Qed.
