(** Proofs for C93 and C94. *)
From Coq Require String.
Import String.StringSyntax.
From Coq Require Import ZifyBool ZifyNat Sorting.Sorted.
From Verif Require Import Base Str X64 SpecX86 Mac SpecMacho Obj Asm SpecAsm SpecMore Assembler Cli SpecCli SpecRun Os SpecOs
  PfStr PfTok PfAsm PfCli PfMac PfMacRead PfMacTop PfMacTop2 SpecRead PfRead PfMore.

(** ** C94 *)
Lemma env_done argv : forall args, Forall bytes_ok argv -> (env_args argv = Done args <-> Forall str_ok args /\ map utf8 args = argv).
Proof.
  induction argv as [|a argv IH]; intros args B.
  - cbn [env_args]. split.
    + intros E. injection E as <-. now split.
    + intros [_ E]. destruct args; [reflexivity|discriminate].
  - inversion B; subst. cbn [env_args]. destruct (from_utf8 a) as [s|] eqn:F.
    + destruct (from_utf8_inv a s ltac:(assumption) F) as [S U]. split.
      * intros E. destruct (env_args argv) as [l| |] eqn:R; try discriminate. cbn [obind] in E. injection E as <-.
        destruct (proj1 (IH l ltac:(assumption)) eq_refl) as [G M]. split; [now constructor|]. cbn [map]. now rewrite U, M.
      * intros [G M]. destruct args as [|s' args]; [discriminate|]. cbn [map] in M. injection M as M1 M2. inversion G; subst.
        assert (s' = s) as -> by (rewrite <- M1, from_utf8_utf8 in F by assumption; congruence).
        rewrite (proj2 (IH args ltac:(assumption))); [reflexivity|]. now split.
    + split; [discriminate|]. intros [G M]. destruct args as [|s' args]; [discriminate|]. cbn [map] in M. injection M as M1 M2. inversion G; subst.
      rewrite from_utf8_utf8 in F by assumption. discriminate.
Qed.
Lemma env_crash argv : env_args argv = Crash \/ exists args, env_args argv = Done args.
Proof.
  induction argv as [|a argv [IH|(l & IH)]]; cbn [env_args]; [right; now exists []|..]; destruct (from_utf8 a) as [s|]; try (now left); rewrite IH; [now left|].
  right. now exists (s :: l).
Qed.
Lemma unicode_iff a : bytes_ok a -> (unicode a <-> exists s, str_ok s /\ utf8 s = a).
Proof.
  intros B. unfold unicode. split; intros (s & H); exists s; [apply utf8_text_iff in H|apply utf8_text_iff]; intuition congruence.
Qed.
Lemma unicode_args argv : Forall bytes_ok argv -> Forall unicode argv -> exists args, env_args argv = Done args /\ Forall str_ok args /\ map utf8 args = argv.
Proof.
  intros B U. destruct (env_crash argv) as [C|(args & E)].
  - exfalso. revert C. induction U as [|a argv Ua U IH]; inversion B; subst; cbn [env_args]; [discriminate|].
    apply unicode_iff in Ua; [|assumption]. destruct Ua as (s & S & <-). rewrite from_utf8_utf8 by exact S.
    destruct (env_crash argv) as [C|(l & ->)]; [intros _; now apply IH|discriminate].
  - exists args. split; [exact E|]. now apply env_done.
Qed.
Lemma not_unicode argv a : Forall bytes_ok argv -> In a argv -> ~ unicode a -> env_args argv = Crash.
Proof.
  intros B I N. destruct (env_crash argv) as [C|(args & E)]; [exact C|]. apply env_done in E; [|exact B]. destruct E as [S M]. exfalso. apply N.
  rewrite <- M in I. apply in_map_iff in I. destruct I as (s & <- & I). rewrite Forall_forall in S. exists s. apply utf8_text_iff. split; [now apply S|reflexivity].
Qed.

(** UTF-8 keeps ASCII apart *)
Lemma char_ascii c : ischar c -> c < 128 -> utf8_char c = [c].
Proof. intros C L. unfold utf8_char. unfold ischar in C. destruct (c <? 128) eqn:E; [reflexivity|lia]. Qed.
Lemma char_high c : ischar c -> 128 <= c -> Forall (fun b => 128 <= b) (utf8_char c) /\ utf8_char c <> [].
Proof.
  intros C L. unfold utf8_char, ischar in *. repeat match goal with |- context [if ?b then _ else _] => destruct b eqn:? end; try lia;
  (split; [repeat (constructor; [Z.to_euclidean_division_equations; lia|]); constructor|discriminate]).
Qed.
Lemma utf8_eqb a b : str_ok a -> str_ok b -> str_eqb (utf8 a) (utf8 b) = str_eqb a b.
Proof.
  intros A B. destruct (str_eqb a b) eqn:E.
  - apply str_eqb_eq in E. subst. now apply str_eqb_eq.
  - destruct (str_eqb (utf8 a) (utf8 b)) eqn:F; [|reflexivity]. apply str_eqb_eq in F.
    apply (f_equal from_utf8) in F. rewrite !from_utf8_utf8 in F by assumption. injection F as <-. rewrite (proj2 (str_eqb_eq a a)) in E by reflexivity. discriminate.
Qed.
Lemma split_high a s : Forall (fun b => 128 <= b) a -> split slash (a ++ s) = match split slash s with [] => [a] | w :: ws => (a ++ w) :: ws end.
Proof.
  induction 1 as [|b a B F IH]; cbn [app]; [pose proof (split_not_nil slash s); now destruct (split slash s)|].
  cbn [split]. rewrite (proj2 (Z.eqb_neq b 47)) by lia. rewrite IH. now destruct (split slash s).
Qed.
Lemma split_utf8 s : str_ok s -> split slash (utf8 s) = map utf8 (split slash s).
Proof.
  induction 1 as [|c s C S IH]; [reflexivity|]. change (utf8 (c :: s)) with (utf8_char c ++ utf8 s). cbn [split].
  pose proof (split_not_nil slash s) as N. destruct (Z.ltb_spec c 128) as [L|L].
  - rewrite char_ascii by assumption. cbn [app split]. rewrite IH. destruct (c =? 47); [reflexivity|].
    destruct (split slash s) as [|w ws]; [congruence|]. cbn [map]. change (utf8 (c :: w)) with (utf8_char c ++ utf8 w). now rewrite char_ascii.
  - destruct (char_high c C L) as [F _]. rewrite (split_high _ _ F), IH. rewrite (proj2 (Z.eqb_neq c 47)) by lia.
    destruct (split slash s) as [|w ws]; [congruence|]. reflexivity.
Qed.
Lemma split_ok s : str_ok s -> Forall str_ok (split slash s).
Proof.
  induction 1 as [|c s C S IH]; [repeat constructor|]. cbn [split]. destruct (c =? 47); [constructor; [constructor|exact IH]|].
  destruct (split slash s) as [|w ws]; [apply Forall_cons; [apply Forall_cons; [exact C|apply Forall_nil]|apply Forall_nil]|]. inversion IH; subst. constructor; [now constructor|assumption].
Qed.
Lemma strip_utf8 l : Forall str_ok l -> strip_tail (map utf8 l) = map utf8 (strip_tail l) /\ Forall str_ok (strip_tail l).
Proof.
  induction 1 as [|w l W L [IH G]]; [split; constructor|]. cbn [map strip_tail].
  change (str_eqb (utf8 w) []) with (str_eqb (utf8 w) (utf8 [])). change (str_eqb (utf8 w) (lit ".")) with (str_eqb (utf8 w) (utf8 (lit "."))).
  rewrite !utf8_eqb; [|exact W|repeat constructor; unfold ischar; lia|exact W|constructor].
  destruct (str_eqb w [] || str_eqb w (lit ".")); [now split|]. split; [reflexivity|now constructor].
Qed.
Lemma in_utf8 s c : str_ok s -> 0 <= c < 128 -> In c (utf8 s) -> In c s.
Proof.
  induction 1 as [|x s X S IH]; [intros _ []|]. intros R I. change (utf8 (x :: s)) with (utf8_char x ++ utf8 s) in I. apply in_app_or in I.
  destruct I as [I|I]; [|right; now apply IH]. destruct (Z.ltb_spec x 128) as [L|L].
  - rewrite char_ascii in I by assumption. destruct I as [->|[]]. now left.
  - destruct (char_high x X L) as [F _]. rewrite Forall_forall in F. apply F in I. lia.
Qed.
Lemma utf8_nil s : str_ok s -> utf8 s = [] -> s = [].
Proof. intros S E. apply (f_equal from_utf8) in E. rewrite from_utf8_utf8 in E by exact S. cbn in E. congruence. Qed.
Lemma stem_utf8 n : str_ok n -> stem (utf8 n) = utf8 (stem n).
Proof.
  intros S. pose proof (proj2 (stem_iff n (stem n)) eq_refl) as H. remember (stem n) as st eqn:E. clear E. apply stem_iff.
  destruct H as [st ext N NI|ext NI|n NI].
  - apply Forall_app in S. destruct S as [S1 S2]. inversion S2; subst. rewrite utf8_app. change (utf8 (46 :: ext)) with (46 :: utf8 ext).
    apply ns_ext; [intros E; now apply utf8_nil in E|]. intros I. apply NI. apply in_utf8; [assumption|lia|exact I].
  - inversion S; subst. change (utf8 (46 :: ext)) with (46 :: utf8 ext). apply ns_hidden. intros I. apply NI. apply in_utf8; [assumption|lia|exact I].
  - apply ns_plain. intros I. apply NI. apply in_utf8; [assumption|lia|exact I].
Qed.
Lemma stem_ok n : str_ok n -> str_ok (stem n).
Proof.
  intros S. pose proof (proj2 (stem_iff n (stem n)) eq_refl) as H. destruct H; [|exact S|exact S]. apply Forall_app in S. tauto.
Qed.
Lemma join_utf8 l : join (map utf8 l) = utf8 (join l).
Proof.
  induction l as [|w l IH]; [reflexivity|]. destruct l as [|v l]; [reflexivity|].
  change (join (map utf8 (w :: v :: l))) with (utf8 w ++ 47 :: join (map utf8 (v :: l))). rewrite IH.
  change (join (w :: v :: l)) with (w ++ 47 :: join (v :: l)). rewrite utf8_app. reflexivity.
Qed.
Lemma extension_utf8 s : str_ok s -> with_extension_o (utf8 s) = utf8 (with_extension_o s).
Proof.
  intros S. unfold with_extension_o. rewrite split_utf8 by exact S. rewrite <- map_rev.
  pose proof (split_ok s S) as F. apply Forall_rev in F. destruct (strip_utf8 _ F) as [-> G].
  destruct (strip_tail (rev (split slash s))) as [|n before]; [reflexivity|]. cbn [map]. inversion G as [|? ? Gn Gb]; subst.
  change (str_eqb (utf8 n) (lit "..")) with (str_eqb (utf8 n) (utf8 (lit ".."))).
  rewrite utf8_eqb; [|exact Gn|repeat constructor; unfold ischar; lia]. destruct (str_eqb n (lit "..")); [reflexivity|].
  rewrite utf8_app. f_equal. rewrite <- join_utf8, map_app, map_rev. f_equal. f_equal. cbn [map]. now rewrite stem_utf8.
Qed.
Lemma position_utf8 args : Forall str_ok args -> position_o (map utf8 args) = position_o args.
Proof.
  induction 1 as [|a args A F IH]; [reflexivity|]. cbn [map position_o]. change (str_eqb (utf8 a) (lit "-o")) with (str_eqb (utf8 a) (utf8 (lit "-o"))).
  rewrite utf8_eqb; [|exact A|repeat constructor; unfold ischar; lia]. now rewrite IH.
Qed.
Lemma remove_map {A B} (f : A -> B) l : forall i, vec_remove i (map f l) = obind (vec_remove i l) (fun x => Done (f (fst x), map f (snd x))).
Proof.
  induction l as [|a l IH]; intros [|i]; try reflexivity. cbn [map vec_remove]. rewrite IH. now destruct (vec_remove i l) as [[]| |].
Qed.
Lemma remove_ok {A} (P : A -> Prop) l : Forall P l -> forall i x, vec_remove i l = Done x -> P (fst x) /\ Forall P (snd x).
Proof.
  induction 1 as [|a l Pa F IH]; intros [|i] x E; try discriminate.
  - injection E as <-. now split.
  - cbn [vec_remove] in E. destruct (vec_remove i l) as [y| |] eqn:R; try discriminate. injection E as <-. apply IH in R. cbn [fst snd]. split; [tauto|]. constructor; tauto.
Qed.
Definition enc_config (c : config) : config := {| cf_output := utf8 (cf_output c); cf_input := utf8 (cf_input c) |}.
Lemma config_utf8 args : Forall str_ok args -> config_init (map utf8 args) = obind (config_init args) (fun c => Done (enc_config c)).
Proof.
  intros S. unfold config_init. rewrite position_utf8 by exact S.
  assert (G : forall out l, Forall str_ok l ->
    (if Nat.ltb (length (map utf8 l)) 2 then Exit 1 (lit "error: input file is not specified" ++ [10])
     else if Nat.ltb 2 (length (map utf8 l)) then Exit 1 (lit "error: invalid command format" ++ [10])
     else obind (vec_remove 1 (map utf8 l)) (fun x => let input := fst x in
        Done {| cf_output := match option_map utf8 out with Some f => f | None => with_extension_o input end; cf_input := input |})) =
    obind (if Nat.ltb (length l) 2 then Exit 1 (lit "error: input file is not specified" ++ [10])
     else if Nat.ltb 2 (length l) then Exit 1 (lit "error: invalid command format" ++ [10])
     else obind (vec_remove 1 l) (fun x => let input := fst x in
        Done {| cf_output := match out with Some f => f | None => with_extension_o input end; cf_input := input |}))
      (fun c => Done (enc_config c))).
  { intros out l L. rewrite map_length. destruct (Nat.ltb (length l) 2); [reflexivity|]. destruct (Nat.ltb 2 (length l)); [reflexivity|].
    rewrite remove_map. destruct (vec_remove 1 l) as [x| |] eqn:R; try reflexivity. apply (remove_ok str_ok l L) in R. cbn [obind fst]. unfold enc_config.
    destruct out; cbn [option_map cf_output cf_input]; [reflexivity|]. now rewrite extension_utf8. }
  destruct (position_o args) as [i|].
  - rewrite remove_map. destruct (vec_remove i args) as [x| |] eqn:R; try reflexivity. apply (remove_ok str_ok args S) in R. cbn [obind snd].
    rewrite remove_map. destruct (vec_remove i (snd x)) as [y| |] eqn:R2; try reflexivity. apply (remove_ok str_ok (snd x)) in R2; [|tauto]. cbn [obind fst snd].
    exact (G (Some (fst y)) (snd y) (proj2 R2)).
  - exact (G None args S).
Qed.
Lemma top_C94_command argv o : Forall bytes_ok argv -> Forall unicode argv -> (config_os argv = o <-> command argv o).
Proof.
  intros B U. destruct (unicode_args argv B U) as (args & E & S & M). unfold config_os. rewrite E. cbn [obind].
  change (fun c => Done {| cf_output := utf8 (cf_output c); cf_input := utf8 (cf_input c) |}) with (fun c => Done (enc_config c)).
  rewrite <- config_utf8 by exact S. rewrite M. symmetry. apply top_C53.
Qed.
Lemma top_C94_bytes p h argv w : Forall bytes_ok argv -> Forall unicode argv -> main_os p h argv w = main p h argv w.
Proof.
  intros B U. destruct (unicode_args argv B U) as (args & E & S & M). unfold main_os. rewrite E. unfold main.
  rewrite <- M. rewrite config_utf8 by exact S. destruct w as [sl dt]. cbn [w_slot w_data].
  destruct (config_init args) as [c|n e|]; cbn [obind]; try reflexivity. unfold enc_config. cbn [cf_input cf_output].
  destruct (sl (utf8 (cf_input c))) as [i|]; [|reflexivity]. destruct (dt i); [|reflexivity]. destruct (sl (utf8 (cf_output c))) as [o|]; [|reflexivity].
  unfold put. cbn [w_slot w_data].
  match goal with |- context [read_from p asm_new ?z] => destruct (read_from p asm_new z) as [a|n e|] end; try reflexivity.
  destruct (asm_write_into p h a) as [bs ok]. reflexivity.
Qed.
Lemma top_C94_not_text p h argv w a : Forall bytes_ok argv -> In a argv -> ~ unicode a -> main_os p h argv w = (w, Crash).
Proof. intros B I N. unfold main_os. now rewrite (not_unicode argv a B I N). Qed.

(** ** C93 *)
Lemma reserves_direct p e l : bytes_ok l -> reserves p e l =
  match read_u32 e l with
  | Panic => []
  | Ok (cmd, _) =>
      if cmd =? SEGMENT_TYPE then match read_segment64 p e l with Ok (c, _) => [sg_nsects c] | Panic => [] end
      else if cmd =? BUILD_VERSION_TYPE then match read_build_version p e l with Ok (c, _) => [bv_ntools c] | Panic => [] end
      else []
  end.
Proof.
  intros B. unfold reserves. destruct (read_u32 e l) as [[cmd l']|] eqn:E; [|reflexivity]. apply read_u32_inv in E; [|exact B]. destruct E as [<- _]. reflexivity.
Qed.
Lemma cmd_read e l : (4 <= length l)%nat -> read_u32 e l = Ok (fld e 0 4 l, skipn 4 l).
Proof. intros L. pose proof (read_u32_skip e 0 l) as R. change (skipn 0 l) with l in R. rewrite R. cbn [Nat.add]. destruct (Nat.leb_spec 4 (length l)); [reflexivity|lia]. Qed.
Lemma top_C93_exact p e l n : bytes_ok l -> (In n (reserves p e l) <-> counts_sections p e l n \/ counts_tools p e l n).
Proof.
  intros B. destruct (top_C57_read p e l B) as (RS & _ & _ & _ & RB & _). rewrite reserves_direct by exact B. split.
  - destruct (read_u32 e l) as [[cmd l']|]; [|intros []]. destruct (cmd =? SEGMENT_TYPE) eqn:E1.
    + destruct (read_segment64 p e l) as [[x r]|] eqn:R; [|intros []]. intros [<-|[]]. left. exists x. pose proof (proj1 (RS x r) eq_refl). tauto.
    + destruct (cmd =? BUILD_VERSION_TYPE) eqn:E2; [|intros []].
      destruct (read_build_version p e l) as [[x r]|] eqn:R; [|intros []]. intros [<-|[]]. right. exists x. pose proof (proj1 (RB x r) eq_refl). tauto.
  - intros [(x & A & N & C & <- & Z)|(x & A & V & V' & C & <- & Z)]; pose proof A as A'; destruct A' as (L & F & _); rewrite cmd_read by lia; rewrite F, C.
    + change (25 =? SEGMENT_TYPE) with true. cbn [negb]. rewrite (proj2 (RS x (skipn 72 l))) by tauto. now left.
    + change (50 =? SEGMENT_TYPE) with false. change (50 =? BUILD_VERSION_TYPE) with true. cbv iota. rewrite (proj2 (RB x (skipn 24 l))) by tauto. now left.
Qed.
Lemma top_C93_once p e l : (length (reserves p e l) <= 1)%nat.
Proof.
  unfold reserves. repeat match goal with |- context [match ?x with _ => _ end] => destruct x end; cbn [length]; lia.
Qed.
Lemma fld4_rng e o l : bytes_ok l -> (o + 4 <= length l)%nat -> 0 <= fld e o 4 l < 2 ^ 32.
Proof. intros B L. exact (fld_range e o 4 l B L). Qed.
Lemma top_C93_bound p e l n : bytes_ok l ->
  (counts_sections p e l n -> 0 <= n < 2 ^ 32 /\ (p = Debug -> n <= 53687090)) /\
  (counts_tools p e l n -> 0 <= n < 2 ^ 32 /\ (p = Debug -> n <= 536870908)).
Proof.
  intros B. split.
  - intros (x & A & _ & _ & <- & Z). unfold segment_at in A. cbn [Nat.add] in A. destruct A as (L & _ & E1 & _ & _ & _ & _ & _ & _ & _ & E2 & _).
    pose proof (fld4_rng e 4 l B ltac:(lia)). pose proof (fld4_rng e 64 l B ltac:(lia)). rewrite E1 in *. rewrite E2 in *. split; [lia|]. intros ->. cbn [cmdsize_ok] in Z. lia.
  - intros (x & A & _ & _ & _ & <- & Z). unfold build_version_at in A. cbn [Nat.add] in A. destruct A as (L & _ & E1 & _ & _ & _ & E2).
    pose proof (fld4_rng e 4 l B ltac:(lia)). pose proof (fld4_rng e 20 l B ltac:(lia)). rewrite E1 in *. rewrite E2 in *. split; [lia|]. intros ->. cbn [cmdsize_ok] in Z. lia.
Qed.
Lemma list_len {A} (P : nat -> A -> Prop) size (L : nat) xs : (forall o x, P o x -> (o + size <= L)%nat) -> forall o, (o <= L)%nat -> list_at P size o xs -> (o + size * length xs <= L)%nat.
Proof.
  intros H. induction xs as [|x xs IH]; intros o O G; cbn [length]; [lia|]. cbn [list_at] in G. destruct G as [A1 A2].
  specialize (IH (o + size)%nat (H _ _ A1) A2). lia.
Qed.
Lemma top_C93_read p e l c r n : bytes_ok l -> read_load_command p e l = Ok (c, r) -> In n (reserves p e l) ->
  match c with
  | LcSegment64 _ ss => n = zlen ss /\ 72 + 80 * n <= zlen l
  | LcBuildVersion _ ts => n = zlen ts /\ 24 + 8 * n <= zlen l
  | _ => False
  end.
Proof.
  intros B R I. apply top_C85_read in R; [|exact B]. destruct R as (A & V & _). apply top_C93_exact in I; [|exact B].
  destruct c as [s ss|s|s|b ts]; cbn [lc_at lc_accepted] in *.
  - destruct A as [A AS]. destruct V as (_ & C & _ & N & _). assert (n = zlen ss) as ->.
    { unfold segment_at in A. cbn [Nat.add] in A. destruct I as [(x & A' & _ & _ & <- & _)|(x & A' & _ & _ & C' & _)].
      - unfold segment_at in A'. cbn [Nat.add] in A'. decompose [and] A. decompose [and] A'. congruence.
      - unfold build_version_at in A'. cbn [Nat.add] in A'. decompose [and] A. decompose [and] A'. congruence. }
    split; [reflexivity|]. destruct A as [L _]. pose proof (list_len (fun o' x => section_at e o' l x) 80 (length l) ss ltac:(intros ? ? [X _]; exact X) 72%nat ltac:(lia) AS). unfold zlen. lia.
  - unfold symtab_at in A. cbn [Nat.add] in A. destruct I as [(x & A' & _ & C' & _)|(x & A' & _ & _ & C' & _)]; unfold segment_at, build_version_at in A'; cbn [Nat.add] in A'; decompose [and] A; decompose [and] A'; intuition congruence.
  - unfold dysymtab_at in A. cbn [Nat.add] in A. destruct I as [(x & A' & _ & C' & _)|(x & A' & _ & _ & C' & _)]; unfold segment_at, build_version_at in A'; cbn [Nat.add] in A'; decompose [and] A; decompose [and] A'; intuition congruence.
  - destruct A as [A AS]. destruct V as (_ & _ & C & _ & N). assert (n = zlen ts) as ->.
    { unfold build_version_at in A. cbn [Nat.add] in A. destruct I as [(x & A' & _ & C' & _)|(x & A' & _ & _ & _ & <- & _)].
      - unfold segment_at in A'. cbn [Nat.add] in A'. decompose [and] A. decompose [and] A'. congruence.
      - unfold build_version_at in A'. cbn [Nat.add] in A'. decompose [and] A. decompose [and] A'. congruence. }
    split; [reflexivity|]. destruct A as [L _]. pose proof (list_len (fun o' x => build_tool_at e o' l x) 8 (length l) ts ltac:(intros ? ? [X _]; exact X) 24%nat ltac:(lia) AS). unfold zlen. lia.
Qed.
(** 72 bytes that say 53687090 sections follow, and 72 that say 4294967295 *)
Definition greedy (e : endian) (size n : Z) : list Z := bytes_of e 4 0x19 ++ bytes_of e 4 size ++ repeat 0 56 ++ bytes_of e 4 n ++ repeat 0 4.
Lemma top_C93_refuted e :
  (exists l, bytes_ok l /\ zlen l = 72 /\ In 53687090 (reserves Debug e l)) /\
  (exists l, bytes_ok l /\ zlen l = 72 /\ In (2 ^ 32 - 1) (reserves Release e l)).
Proof.
  split; [exists (greedy e (72 + 80 * 53687090) 53687090)|exists (greedy e (2 ^ 32 - 8) (2 ^ 32 - 1))]; (split; [|split]).
  1,4: destruct e; vm_compute; repeat (constructor; [split; [discriminate|reflexivity]|]); constructor.
  1,3: destruct e; reflexivity.
  all: destruct e; vm_compute; now left.
Qed.
