(** Proofs about reading load commands and writing them again: C85, C86. *)
From Coq Require Import Sorting.Sorted.
From Verif Require Import Base Str Mac SpecMacho SpecRead PfMacTop2.

Lemma accepted_valid p e o l c : bytes_ok l -> lc_at e o l c -> (lc_accepted p c <-> lc_valid p c).
Proof.
  intros Hb A. destruct c as [s ss|s|s|b ts]; cbn [lc_accepted lc_valid lc_at] in *; try tauto.
  - destruct A as [A _]. unfold attrs_canon. unfold segment_at in A. decompose [and] A.
    pose proof (fld_range e (o + 64) 4 l Hb ltac:(lia)) as [R _].
    assert (Q : Z.to_nat (sg_nsects s) = length ss <-> sg_nsects s = zlen ss) by (unfold zlen; lia). rewrite Q. tauto.
  - destruct A as [A _]. unfold build_version_at in A. decompose [and] A.
    pose proof (fld_range e (o + 20) 4 l Hb ltac:(lia)) as [R _].
    assert (Q : Z.to_nat (bv_ntools b) = length ts <-> bv_ntools b = zlen ts) by (unfold zlen; lia). rewrite Q. tauto.
Qed.
Lemma lc_read_at p e o l c r : bytes_ok l ->
  (read_load_command p e (skipn o l) = Ok (c, r) <-> lc_at e o l c /\ lc_accepted p c /\ r = skipn (o + lc_len c) l).
Proof.
  intro Hb. rewrite lc_read by exact Hb. split; intros (A & B & C); (split; [exact A|]); (split; [|exact C]);
    now apply (accepted_valid p e o l c Hb A).
Qed.
Lemma top_C85_read p e l c r : bytes_ok l ->
  (read_load_command p e l = Ok (c, r) <-> lc_at e 0 l c /\ lc_accepted p c /\ r = skipn (lc_len c) l).
Proof. intro Hb. exact (lc_read_at p e 0 l c r Hb). Qed.
Lemma top_C85_unknown p e l : bytes_ok l -> ~ In (fld e 0 4 l) [0x19; 2; 0xB; 0x32] -> read_load_command p e l = Panic.
Proof.
  intros Hb N. destruct (read_load_command p e l) as [[c r]|] eqn:E; [|reflexivity]. exfalso. apply N.
  apply top_C85_read in E; [|exact Hb]. destruct E as (A & V & _).
  destruct c as [s ss|s|s|b ts]; cbn [lc_at lc_accepted] in *; unfold segment_at, symtab_at, dysymtab_at, build_version_at in A;
    decompose [and] A; decompose [and] V; cbn [Nat.add] in *; cbn [In]; intuition congruence.
Qed.
Lemma top_C85_many p e l cs r : bytes_ok l ->
  (read_many (length cs) (read_load_command p e) l = Ok (cs, r) <->
   exists o, lcs_at p e l 0 cs o /\ r = skipn o l).
Proof.
  intro Hb. change l with (skipn 0 l) at 1. generalize 0%nat as o. induction cs as [|c cs IH]; intros o; cbn [length read_many].
  - rewrite rret_ok. split.
    + intros [_ ->]. exists o. split; [constructor|reflexivity].
    + intros (o' & A & ->). inversion A; subst. now split.
  - rewrite rbind_ok. split.
    + intros (x & l' & H1 & H2). apply lc_read_at in H1; [|exact Hb]. destruct H1 as (A & V & ->).
      apply rbind_ok in H2. destruct H2 as (ys & l'' & H2 & H3). apply rret_ok in H3. destruct H3 as [E ->].
      injection E as -> ->. apply IH in H2. destruct H2 as (o' & H2 & ->). exists o'. split; [|reflexivity]. econstructor; eassumption.
    + intros (o' & A & ->). inversion A as [|? ? ? ? A1 A2 A3]; subst. exists c, (skipn (o + lc_len c) l).
      split; [apply lc_read_at; auto|]. apply rbind_ok. exists cs, (skipn o' l). split; [|reflexivity]. apply IH. eauto.
Qed.

(** ** Writing again *)
Lemma tidy_length f : length (tidy f) = length f.
Proof.
  unfold tidy. rewrite app_length, repeat_length. assert (length (until_nul f) <= length f)%nat; [|lia].
  induction f as [|b f IH]; [auto|]. cbn [until_nul]. destruct (b =? 0); cbn [length]; lia.
Qed.
Lemma until_nul_len f : (length (until_nul f) <= length f)%nat.
Proof. induction f as [|b f IH]; [auto|]. cbn [until_nul]. destruct (b =? 0); cbn [length]; lia. Qed.
Lemma until_nul_nz f : Forall (fun b => b <> 0) (until_nul f).
Proof. induction f as [|b f IH]; [constructor|]. cbn [until_nul]. destruct (b =? 0) eqn:E; constructor; [lia|exact IH]. Qed.
Lemma utf8_low_ascii s : str_ok s -> Forall (fun b => b < 128) (utf8 s) -> ascii_str s.
Proof.
  intros S. induction S as [|c s Hc S IH]; intro F; [constructor|]. unfold utf8 in F. cbn [flat_map] in F.
  apply Forall_app in F. destruct F as [F1 F2]. constructor; [|now apply IH]. unfold ischar in Hc.
  unfold utf8_char in F1. destruct (c <? 128) eqn:E; [lia|]. exfalso.
  destruct (c <? 2048) eqn:E2; [|destruct (c <? 65536) eqn:E3]; apply Forall_inv in F1; cbv beta in F1.
  - pose proof (Z.div_pos c 64 ltac:(lia) ltac:(lia)). lia.
  - pose proof (Z.div_pos c 4096 ltac:(lia) ltac:(lia)). lia.
  - pose proof (Z.div_pos c 262144 ltac:(lia) ltac:(lia)). lia.
Qed.

(** a command as pieces: bytes, and name fields *)
Inductive piece := Raw (b : list Z) | Nam (f : list Z).
Definition piece_bytes (x : piece) : list Z := match x with Raw b => b | Nam f => tidy f end.
Definition piece_okb (x : piece) : bool := match x with Raw _ => true | Nam f => forallb (fun b => b <? 128) (until_nul f) end.
Definition piece_wr (x : piece) : wr := if piece_okb x then (piece_bytes x, true) else ([], false).
Definition pieces_wr (ps : list piece) : wr := wlist (map piece_wr ps).

Lemma wseq_assoc a b c : wseq (wseq a b) c = wseq a (wseq b c).
Proof. destruct a as [a [|]], b as [b [|]], c as [c z]; unfold wseq; cbn [fst snd]; rewrite ?app_assoc; reflexivity. Qed.
Lemma wseq_nil_l a : wseq (wemit []) a = a.
Proof. destruct a as [a z]. reflexivity. Qed.
Lemma wseq_nil_r a : wseq a (wemit []) = a.
Proof. destruct a as [a [|]]; unfold wseq, wemit; cbn [fst snd]; now rewrite ?app_nil_r. Qed.
Lemma wseq_emit a b c : wseq (wemit a) (wseq (wemit b) c) = wseq (wemit (a ++ b)) c.
Proof. destruct c as [c z]. unfold wseq, wemit. cbn [fst snd]. now rewrite app_assoc. Qed.
Lemma wseq_emit2 a b : wseq (wemit a) (wemit b) = wemit (a ++ b).
Proof. reflexivity. Qed.
Lemma wlist_app a b : wlist (a ++ b) = wseq (wlist a) (wlist b).
Proof. induction a as [|x a IH]; [symmetry; apply wseq_nil_l|]. unfold wlist in *. cbn [app fold_right]. now rewrite IH, wseq_assoc. Qed.
Lemma pieces_app a b : pieces_wr (a ++ b) = wseq (pieces_wr a) (pieces_wr b).
Proof. unfold pieces_wr. rewrite map_app. apply wlist_app. Qed.

Lemma piece_okb_iff f : bytes_ok f -> (piece_okb (Nam f) = true <-> ascii_field f).
Proof.
  intro B. unfold piece_okb, ascii_field. rewrite forallb_forall, Forall_forall.
  split; intros H b I; specialize (H b I); lia.
Qed.
Lemma name_again s f : str_ok s -> utf8 s = until_nul f -> length f = 16%nat ->
  write_fixed_size_string s 16 = piece_wr (Nam f).
Proof.
  intros S E L. unfold piece_wr, piece_okb, piece_bytes. pose proof (until_nul_len f) as Lf.
  destruct (forallb (fun b => b <? 128) (until_nul f)) eqn:A.
  - assert (As : ascii_str s). { apply utf8_low_ascii; [exact S|]. rewrite E. apply Forall_forall. intros b I.
      rewrite forallb_forall in A. specialize (A b I). lia. }
    rewrite utf8_ascii in E by exact As. subst s. rewrite write_name_ok by (assumption || lia). unfold tidy. now rewrite L.
  - destruct (write_fixed_size_string s 16) as [w ok] eqn:W. destruct (top_C21_write s 16 S) as (T1 & _ & T3). rewrite W in T1, T3. cbn [fst snd] in *.
    destruct ok; [|now rewrite T3]. exfalso. destruct (proj1 T1 eq_refl) as [As _]. rewrite utf8_ascii in E by exact As. rewrite <- E in A.
    rewrite (proj2 (forallb_forall _ _)) in A; [discriminate|]. intros b I. apply Forall_forall with (x := b) in As; [|exact I]. lia.
Qed.
Definition segment_pieces (l : list Z) (o : nat) : list piece :=
  [Raw (slice o 8 l); Nam (slice (o + 8) 16 l); Raw (slice (o + 24) 48 l)].
Definition section_pieces (l : list Z) (o : nat) : list piece :=
  [Nam (slice o 16 l); Nam (slice (o + 16) 16 l); Raw (slice (o + 32) 48 l)].

Lemma i32_rebytes e o l : bytes_ok l -> (o + 4 <= length l)%nat -> bytes_of e 4 (wrapu 32 (fld_i32 e o l)) = slice o 4 l.
Proof.
  intros Hb L. unfold fld_i32. rewrite <- wrapi_signed by (apply (fld_range e o 4 l Hb); lia).
  rewrite wrapu_wrapi by (apply (fld_range e o 4 l Hb); lia). now apply bytes_of_fld.
Qed.
Lemma segment_again e l o x : bytes_ok l -> segment_at e o l x -> str_ok (sg_segname x) ->
  write_segment64 e x = pieces_wr (segment_pieces l o).
Proof.
  intros Hb A S. unfold segment_at in A. destruct A as (L & F1 & F2 & F3 & F4 & F5 & F6 & F7 & F8 & F9 & F10 & F11).
  unfold write_segment64, pieces_wr, segment_pieces, wlist. cbn [map fold_right]. rewrite wseq_nil_r.
  rewrite (name_again _ (slice (o + 8) 16 l)) by (first [assumption | symmetry; exact F3 | apply slice_length; lia]).
  rewrite <- F1, <- F2, <- F4, <- F5, <- F6, <- F7, <- F8, <- F9, <- F10, <- F11.
  unfold write_u32, write_u64, write_i32.
  rewrite !i32_rebytes by (assumption || lia). rewrite !bytes_of_fld by (assumption || lia).
  rewrite !wseq_emit, !wseq_emit2. cbn [piece_wr piece_okb piece_bytes].
  rewrite (slice_join o 4 4 l). f_equal. f_equal. unfold wemit. f_equal.
  repeat match goal with |- context [slice (o + ?a) ?n l ++ slice (o + ?b) ?m l] =>
    replace (o + b)%nat with (o + a + n)%nat by lia; rewrite (slice_join (o + a) n m l); cbn [Nat.add] end.
  reflexivity.
Qed.

Lemma wseq_piece x y z : wseq (wseq x y) z = wseq x (wseq y z).
Proof. apply wseq_assoc. Qed.
Lemma section_word e o l x : bytes_ok l -> (o + 80 <= length l)%nat -> fld e (o + 64) 4 l mod 256 = section_type_num (sc_type x) ->
  is_bitset attr_bit (sc_attrs x) (256 * (fld e (o + 64) 4 l / 256)) -> section_flags x = fld e (o + 64) 4 l.
Proof.
  intros Hb L T A. destruct (section_flags_props x) as (R & P1 & P2).
  pose proof (fld_range e (o + 64) 4 l Hb ltac:(lia)) as [W _].
  assert (E : section_attrs_to_u32 (sc_attrs x) = 256 * (fld e (o + 64) 4 l / 256)).
  { apply Z.bits_inj'. intros i Hi. pose proof (attrs_to_bitset (sc_attrs x) i Hi) as B1. specialize (A i Hi).
    destruct (Z.testbit (section_attrs_to_u32 (sc_attrs x)) i), (Z.testbit (256 * (fld e (o + 64) 4 l / 256)) i); try reflexivity; exfalso.
    - destruct A as [_ A]. discriminate A. now apply B1.
    - destruct B1 as [_ B1]. discriminate B1. now apply A. }
  rewrite E in P2. rewrite (Z.div_mod (section_flags x) 256), (Z.div_mod (fld e (o + 64) 4 l) 256) by lia. lia.
Qed.
Lemma section_again e l o x : bytes_ok l -> section_at e o l x -> str_ok (sc_sectname x) -> str_ok (sc_segname x) ->
  write_section64 e x = pieces_wr (section_pieces l o).
Proof.
  intros Hb A S S'. unfold section_at in A. destruct A as (L & F1 & F2 & F3 & F4 & F5 & F6 & F7 & F8 & F9 & F10 & F11 & F12 & F13).
  unfold write_section64, pieces_wr, section_pieces, wlist. cbn [map fold_right]. rewrite wseq_nil_r.
  fold (section_flags x). rewrite (section_word e o l x Hb L F9 F10).
  rewrite (name_again _ (slice o 16 l)) by (first [assumption | symmetry; exact F1 | apply slice_length; lia]).
  rewrite (name_again _ (slice (o + 16) 16 l)) by (first [assumption | symmetry; exact F2 | apply slice_length; lia]).
  rewrite <- F3, <- F4, <- F5, <- F6, <- F7, <- F8, <- F11, <- F12, <- F13.
  unfold write_u32, write_u64. rewrite !bytes_of_fld by (assumption || lia).
  rewrite !wseq_emit, !wseq_emit2. cbn [piece_wr piece_okb piece_bytes].
  f_equal. f_equal. unfold wemit. f_equal. rewrite <- ?app_assoc.
  repeat match goal with |- context [slice (o + ?a) ?n l ++ slice (o + ?b) ?m l] =>
    replace (o + b)%nat with (o + a + n)%nat by lia; rewrite (slice_join (o + a) n m l); cbn [Nat.add] end.
  reflexivity.
Qed.
Lemma build_version_rebytes e o l x : bytes_ok l -> build_version_at e o l x -> version_rng (bv_minos x) -> version_rng (bv_sdk x) ->
  write_build_version e x = (slice o 24 l, true).
Proof.
  intros Hb A V1 V2. unfold build_version_at in A. destruct A as (L & F1 & F2 & F3 & F4 & F5 & F6).
  rewrite build_version_write. f_equal. unfold build_version_bytes. rewrite !version_to_num by assumption.
  assert (P : platform_to_u32 (bv_platform x) = platform_num (bv_platform x)) by now destruct (bv_platform x). rewrite P.
  rewrite <- F1, <- F2, <- F3, <- F4, <- F5, <- F6. rewrite !bytes_of_fld by (assumption || lia). rewrite app_nil_r.
  rewrite ?app_assoc. rewrite (slice_join o 4 4 l). cbn [Nat.add].
  repeat match goal with |- context [slice o ?n l ++ slice (o + ?b) ?m l] => rewrite (slice_join o n m l); cbn [Nat.add] end.
  reflexivity.
Qed.
Lemma build_tool_rebytes e o l x : bytes_ok l -> build_tool_at e o l x -> write_build_tool e x = (slice o 8 l, true).
Proof.
  intros Hb A. unfold build_tool_at in A. destruct A as (L & F1 & F2).
  rewrite build_tool_write. f_equal. unfold build_tool_bytes.
  assert (P : tool_to_u32 (bt_tool x) = tool_num (bt_tool x)) by now destruct (bt_tool x). rewrite P.
  rewrite <- F1, <- F2. rewrite !bytes_of_fld by (assumption || lia). rewrite app_nil_r. apply slice_join.
Qed.
Lemma tools_rebytes e l ts : bytes_ok l -> forall o, list_at (fun o' x => build_tool_at e o' l x) 8 o ts ->
  wlist (map (write_build_tool e) ts) = (slice o (8 * length ts) l, true).
Proof.
  intro Hb. induction ts as [|t ts IH]; intros o A; [unfold slice; reflexivity|]. cbn [list_at] in A. destruct A as [A1 A2].
  unfold wlist in *. cbn [map fold_right]. rewrite (build_tool_rebytes e o l t Hb A1), (IH (o + 8)%nat A2).
  unfold wseq. cbn [fst snd]. f_equal. rewrite slice_join. f_equal. cbn [length]. lia.
Qed.
Lemma sections_again e l ss : bytes_ok l -> Forall (fun x => str_ok (sc_sectname x) /\ str_ok (sc_segname x)) ss ->
  forall o, list_at (fun o' x => section_at e o' l x) 80 o ss ->
  wlist (map (write_section64 e) ss) = pieces_wr (flat_map (fun k => section_pieces l (o + 80 * k)) (seq 0 (length ss))).
Proof.
  intros Hb F. induction F as [|x ss [S1 S2] F IH]; intros o A; [reflexivity|]. cbn [list_at] in A. destruct A as [A1 A2].
  cbn [length seq flat_map]. rewrite pieces_app. rewrite <- seq_shift.
  unfold wlist in *. cbn [map fold_right]. rewrite (IH (o + 80)%nat A2). rewrite (section_again e l o x Hb A1 S1 S2).
  replace (o + 80 * 0)%nat with o by lia. f_equal. f_equal. rewrite !flat_map_concat_map, map_map. f_equal. apply map_ext. intro k.
  f_equal. lia.
Qed.
(** the pieces of an accepted command *)
Definition lc_pieces (c : load_command) (l : list Z) : list piece :=
  match c with
  | LcSegment64 _ ss => segment_pieces l 0 ++ flat_map (fun k => section_pieces l (72 + 80 * k)) (seq 0 (length ss))
  | _ => [Raw (firstn (lc_len c) l)]
  end.
Lemma lc_rewrite p e l c r : bytes_ok l -> read_load_command p e l = Ok (c, r) ->
  write_load_command e c = pieces_wr (lc_pieces c l).
Proof.
  intros Hb H. apply top_C85_read in H; [|exact Hb]. destruct H as (A & V & _).
  destruct c as [s ss|s|s|b ts]; cbn [lc_at lc_accepted write_load_command lc_pieces] in *.
  - destruct A as [A1 A2]. destruct V as (V1 & _ & _ & _ & V2). rewrite pieces_app. f_equal; [now apply segment_again|].
    apply sections_again; [exact Hb| |exact A2]. revert V2. apply Forall_impl. tauto.
  - rewrite symtab_write, (symtab_rebytes e l) by assumption. unfold pieces_wr, wlist. cbn [map fold_right]. now rewrite wseq_nil_r.
  - rewrite dysymtab_write, (dysymtab_rebytes e l) by assumption. unfold pieces_wr, wlist. cbn [map fold_right]. now rewrite wseq_nil_r.
  - destruct A as [A1 A2]. destruct V as (V1 & V2 & _). rewrite (build_version_rebytes e 0 l b Hb A1 V1 V2), (tools_rebytes e l ts Hb _ A2).
    unfold pieces_wr, wlist. cbn [map fold_right]. rewrite wseq_nil_r. unfold wseq, piece_wr, piece_okb, piece_bytes. cbn [fst snd]. f_equal.
    cbn [Nat.add]. rewrite (slice_join 0 24 _ l). reflexivity.
Qed.
(** the name pieces with the offsets at which they stand *)
Definition piece_len (x : piece) : nat := match x with Raw b => length b | Nam f => length f end.
Fixpoint nam (o : nat) (ps : list piece) : list (nat * list Z) :=
  match ps with
  | [] => []
  | Raw b :: ps' => nam (o + length b) ps'
  | Nam f :: ps' => (o, f) :: nam (o + length f) ps'
  end.
Fixpoint plen (ps : list piece) : nat := match ps with [] => 0 | x :: ps' => piece_len x + plen ps' end.
Lemma nam_app ps qs : forall o, nam o (ps ++ qs) = nam o ps ++ nam (o + plen ps) qs.
Proof.
  induction ps as [|[b|f] ps IH]; intro o; cbn [app nam plen piece_len]; [now rewrite Nat.add_0_r| |]; rewrite IH, Nat.add_assoc; reflexivity.
Qed.
Lemma piece_bytes_len x : length (piece_bytes x) = piece_len x.
Proof. destruct x as [b|f]; [reflexivity|apply tidy_length]. Qed.
Lemma nam_ge ps : forall o k f, In (k, f) (nam o ps) -> (o <= k)%nat.
Proof.
  induction ps as [|[b|g] ps IH]; intros o k f I; cbn [nam] in I; [destruct I| |].
  - apply IH in I. lia.
  - destruct I as [E|I]; [injection E as -> _; lia|]. apply IH in I. lia.
Qed.
Lemma pieces_good ps : forall o, (forall k f, In (k, f) (nam o ps) -> piece_okb (Nam f) = true) ->
  pieces_wr ps = (concat (map piece_bytes ps), true).
Proof.
  induction ps as [|x ps IH]; intros o H; [reflexivity|]. unfold pieces_wr, wlist in *. cbn [map fold_right concat].
  assert (K : piece_okb x = true) by (destruct x as [b|f]; [reflexivity|apply (H o f); now left]).
  unfold piece_wr at 1. rewrite K. rewrite (IH (o + piece_len x)%nat); [reflexivity|]. intros k f I. apply (H k f).
  destruct x as [b|g]; cbn [nam piece_len] in *; [exact I|right; exact I].
Qed.
Lemma pieces_bad ps : forall o, snd (pieces_wr ps) = false ->
  exists k f, In (k, f) (nam o ps) /\ piece_okb (Nam f) = false /\
    (forall k' f', In (k', f') (nam o ps) -> (k' < k)%nat -> piece_okb (Nam f') = true) /\
    fst (pieces_wr ps) = firstn (k - o) (concat (map piece_bytes ps)).
Proof.
  induction ps as [|x ps IH]; intros o H; [discriminate|]. destruct (piece_okb x) eqn:K.
  - assert (W : pieces_wr (x :: ps) = wseq (piece_bytes x, true) (pieces_wr ps)) by (unfold pieces_wr, wlist; cbn [map fold_right]; unfold piece_wr at 1; now rewrite K).
    rewrite W in *. destruct (pieces_wr ps) as [w ok]. unfold wseq in *. cbn [fst snd] in *.
    destruct (IH (o + piece_len x)%nat H) as (k & f & I & B & G & F). pose proof (nam_ge _ _ _ _ I) as L. exists k, f.
    assert (J : In (k, f) (nam o (x :: ps))) by (destruct x as [b|g]; cbn [nam piece_len] in *; [exact I|right; exact I]).
    split; [exact J|]. split; [exact B|]. split.
    + intros k' f' I' L'. destruct x as [b|g]; cbn [nam piece_len] in *; [now apply (G k')|]. destruct I' as [E|I']; [injection E as _ <-; exact K|now apply (G k')].
    + cbn [map concat]. rewrite F, firstn_app, piece_bytes_len. rewrite (firstn_all2 (piece_bytes x)) by (rewrite piece_bytes_len; lia).
      f_equal. f_equal. lia.
  - destruct x as [b|f]; [discriminate|]. exists o, f. cbn [nam]. split; [now left|]. split; [exact K|]. split.
    + intros k' f' I L. exfalso. destruct I as [E|I]; [injection E as -> _; lia|]. apply nam_ge in I. lia.
    + rewrite Nat.sub_diag. unfold pieces_wr, wlist. cbn [map fold_right]. unfold piece_wr at 1. rewrite K. reflexivity.
Qed.
Lemma pieces_ok_inv ps : forall o k f, snd (pieces_wr ps) = true -> In (k, f) (nam o ps) -> piece_okb (Nam f) = true.
Proof.
  induction ps as [|x ps IH]; intros o k f S J; [destruct J|].
  change (snd (wseq (piece_wr x) (pieces_wr ps)) = true) in S. unfold wseq, piece_wr in S. destruct (piece_okb x) eqn:K; [|discriminate S].
  destruct x as [b|g]; cbn [nam] in J; [exact (IH _ _ _ S J)|]. destruct J as [E|J]; [injection E as _ <-; exact K|exact (IH _ _ _ S J)].
Qed.
Lemma sections_room e l ss : forall o, list_at (fun o' x => section_at e o' l x) 80 o ss -> ss = [] \/ (o + 80 * length ss <= length l)%nat.
Proof.
  induction ss as [|x ss IH]; intros o A; [now left|]. right. cbn [list_at] in A. destruct A as [A1 A2]. unfold section_at in A1. destruct A1 as [L _].
  destruct (IH _ A2) as [->|R]; cbn [length]; lia.
Qed.
Lemma nam_sections l n : forall a, (72 + 80 * (a + n) <= length l)%nat ->
  nam (72 + 80 * a) (flat_map (fun k => section_pieces l (72 + 80 * k)) (seq a n)) =
  map (fun o => (o, slice o 16 l)) (flat_map (fun k => [72 + 80 * k; 88 + 80 * k]%nat) (seq a n)).
Proof.
  induction n as [|n IH]; intros a L; [reflexivity|]. cbn [seq flat_map]. rewrite nam_app, map_app. f_equal.
  - unfold section_pieces. cbn [nam map]. rewrite !slice_length by lia.
    replace (72 + 80 * a + 16)%nat with (88 + 80 * a)%nat by lia. reflexivity.
  - assert (P : plen (section_pieces l (72 + 80 * a)) = 80%nat) by (unfold section_pieces; cbn [plen piece_len]; rewrite !slice_length by lia; lia).
    rewrite P. replace (72 + 80 * a + 80)%nat with (72 + 80 * S a)%nat by lia. apply IH. lia.
Qed.
Lemma nam_pieces e l c : lc_at e 0 l c -> nam 0 (lc_pieces c l) = map (fun o => (o, slice o 16 l)) (name_fields c).
Proof.
  intro A. destruct c as [s ss|s|s|b ts]; cbn [lc_pieces name_fields nam map]; try reflexivity.
  cbn [lc_at] in A. destruct A as [A1 A2]. unfold segment_at in A1. destruct A1 as [L _]. rewrite nam_app.
  assert (P : plen (segment_pieces l 0) = 72%nat) by (unfold segment_pieces; cbn [plen piece_len]; rewrite !slice_length by lia; lia).
  rewrite P. unfold segment_pieces. cbn [nam]. rewrite !slice_length by lia. cbn [app Nat.add]. f_equal.
  destruct (sections_room e l ss _ A2) as [->|R]; [reflexivity|]. apply (nam_sections l (length ss) 0). lia.
Qed.
Lemma again_pieces c l : concat (map piece_bytes (lc_pieces c l)) = lc_again c l.
Proof.
  destruct c as [s ss|s|s|b ts]; cbn [lc_pieces lc_again]; try (cbn [map concat piece_bytes]; apply app_nil_r).
  rewrite map_app, concat_app. unfold segment_pieces. cbn [map concat piece_bytes]. rewrite app_nil_r. rewrite <- !app_assoc. f_equal. f_equal. f_equal.
  induction (seq 0 (length ss)) as [|k ks IH]; [reflexivity|]. cbn [flat_map]. rewrite map_app, concat_app, IH. f_equal.
  unfold section_pieces. cbn [map concat piece_bytes]. rewrite app_nil_r.
  replace (72 + 80 * k + 16)%nat with (88 + 80 * k)%nat by lia. replace (72 + 80 * k + 32)%nat with (104 + 80 * k)%nat by lia. reflexivity.
Qed.
Lemma top_C86_exact p e l c r : bytes_ok l -> read_load_command p e l = Ok (c, r) ->
  (snd (write_load_command e c) = true <-> (forall o, In o (name_fields c) -> ascii_field (slice o 16 l))) /\
  (snd (write_load_command e c) = true -> fst (write_load_command e c) = lc_again c l) /\
  (snd (write_load_command e c) = false ->
   exists o, In o (name_fields c) /\ ~ ascii_field (slice o 16 l) /\
     (forall o', In o' (name_fields c) -> (o' < o)%nat -> ascii_field (slice o' 16 l)) /\
     fst (write_load_command e c) = firstn o (lc_again c l)).
Proof.
  intros Hb H. rewrite (lc_rewrite p e l c r Hb H). apply top_C85_read in H; [|exact Hb]. destruct H as (A & _ & _).
  pose proof (nam_pieces e l c A) as N. rewrite <- (again_pieces c l).
  assert (Bs : forall o, bytes_ok (slice o 16 l)) by (intro o; unfold slice; now apply bytes_ok_firstn, bytes_ok_skipn).
  assert (G : (forall o, In o (name_fields c) -> ascii_field (slice o 16 l)) -> pieces_wr (lc_pieces c l) = (concat (map piece_bytes (lc_pieces c l)), true)).
  { intro F. apply (pieces_good _ 0). intros k f I. rewrite N in I. apply in_map_iff in I. destruct I as (o & E & I). injection E as -> <-.
    apply piece_okb_iff; [apply Bs|now apply F]. }
  assert (B : snd (pieces_wr (lc_pieces c l)) = false -> exists o, In o (name_fields c) /\ ~ ascii_field (slice o 16 l) /\
     (forall o', In o' (name_fields c) -> (o' < o)%nat -> ascii_field (slice o' 16 l)) /\
     fst (pieces_wr (lc_pieces c l)) = firstn o (concat (map piece_bytes (lc_pieces c l)))).
  { intro F. destruct (pieces_bad _ 0%nat F) as (k & f & I & K & M & P). rewrite N in I. apply in_map_iff in I. destruct I as (o & E & I). injection E as -> <-.
    exists k. split; [exact I|]. split; [intro C; apply piece_okb_iff in C; [congruence|apply Bs]|]. split; [|now rewrite Nat.sub_0_r in P].
    intros o' I' L'. apply piece_okb_iff; [apply Bs|]. apply (M o'); [|exact L']. rewrite N. apply in_map_iff. now exists o'. }
  destruct (snd (pieces_wr (lc_pieces c l))) eqn:S.
  - assert (F : forall o, In o (name_fields c) -> ascii_field (slice o 16 l)).
    { intros o I. destruct (piece_okb (Nam (slice o 16 l))) eqn:K; [apply piece_okb_iff; [apply Bs|exact K]|]. exfalso.
      assert (J : In (o, slice o 16 l) (nam 0 (lc_pieces c l))) by (rewrite N; apply in_map_iff; now exists o).
      apply (pieces_ok_inv _ _ _ _ S) in J. congruence. }
    split; [split; auto|]. split; [intros _; now rewrite (G F)|discriminate].
  - split; [split; [discriminate|]|split; [discriminate|exact B]]. intro F. rewrite (G F) in S. discriminate S.
Qed.

Lemma tidy_same f : tidy f = f <-> (forall i j, (i < j)%nat -> nth_error f i = Some 0 -> (j < length f)%nat -> nth_error f j = Some 0).
Proof.
  unfold tidy. induction f as [|b f IH]; cbn [until_nul].
  - split; [|reflexivity]. intros _ i j _ _ L. cbn in L. lia.
  - destruct (b =? 0) eqn:E.
    + apply Z.eqb_eq in E. subst b. cbn [app length Nat.sub]. split.
      * intros H i j _ _ L. rewrite <- H. clear - L. cbn [length] in L. apply nth_error_repeat. exact L.
      * intro H. symmetry. change (0 :: f = repeat 0 (S (length f))). cbn [repeat]. f_equal.
        assert (G : forall j, (j < length f)%nat -> nth_error f j = Some 0) by (intros j L; apply (H 0%nat (S j)); [lia|reflexivity|cbn [length]; lia]).
        clear - G. induction f as [|c f IH]; [reflexivity|]. cbn [length repeat]. f_equal; [|apply IH; intros j L; apply (G (S j)); cbn [length]; lia].
        specialize (G 0%nat ltac:(cbn [length]; lia)). cbn in G. congruence.
    + cbn [app length Nat.sub]. split.
      * intros H i j L N K. injection H as H. destruct i as [|i]; [cbn in N; injection N as ->; discriminate E|].
        destruct j as [|j]; [lia|]. cbn [nth_error length] in *. apply (proj1 IH H i j); (assumption || lia).
      * intro H. f_equal. apply IH. intros i j L N K. apply (H (S i) (S j)); cbn [length nth_error]; (assumption || lia).
Qed.
Lemma pieces_same c l : (forall o, In o (name_fields c) -> tidy (slice o 16 l) = slice o 16 l) -> lc_again c l = firstn (lc_len c) l.
Proof.
  intro H. destruct c as [s ss|s|s|b ts]; cbn [lc_again name_fields lc_len] in *; try reflexivity.
  rewrite (H 8%nat) by now left. 
  assert (P : forall t : list Z, slice 0 8 l ++ slice 8 16 l ++ slice 24 48 l ++ t = slice 0 72 l ++ t).
  { intro t. rewrite !app_assoc. f_equal. change (slice 8 16 l) with (slice (0 + 8) 16 l). rewrite (slice_join 0 8 16 l). exact (slice_join 0 24 48 l). }
  rewrite P.
  assert (G : forall n a, (forall o, In o (flat_map (fun k => [72 + 80 * k; 88 + 80 * k]%nat) (seq a n)) -> tidy (slice o 16 l) = slice o 16 l) ->
    flat_map (fun k => tidy (slice (72 + 80 * k) 16 l) ++ tidy (slice (88 + 80 * k) 16 l) ++ slice (104 + 80 * k) 48 l) (seq a n) = slice (72 + 80 * a) (80 * n) l).
  { induction n as [|n IH]; intros a F; [unfold slice; now replace (80 * 0)%nat with 0%nat by lia|]. cbn [seq flat_map] in *.
    rewrite IH by (intros o I; apply F; apply in_or_app; now right). rewrite !F by (apply in_or_app; left; cbn; tauto).
    replace (104 + 80 * a)%nat with (88 + 80 * a + 16)%nat by lia. rewrite (slice_join (88 + 80 * a)).
    replace (88 + 80 * a)%nat with (72 + 80 * a + 16)%nat by lia. rewrite (slice_join (72 + 80 * a)).
    replace (72 + 80 * S a)%nat with (72 + 80 * a + (16 + (16 + 48)))%nat by lia. rewrite (slice_join (72 + 80 * a)).
    f_equal. lia. }
  rewrite (G (length ss) 0%nat) by (intros o I; apply H; now right). replace (72 + 80 * 0)%nat with (0 + 72)%nat by lia. rewrite (slice_join 0 72).
  reflexivity.
Qed.
Lemma slice_of_firstn {A} o n m (l : list A) : (o + n <= m)%nat -> slice o n (firstn m l) = slice o n l.
Proof. intro L. unfold slice. rewrite skipn_firstn_comm, firstn_firstn. f_equal. lia. Qed.

Lemma nth_firstn_lt {A} i n (l : list A) : (i < n)%nat -> nth_error (firstn n l) i = nth_error l i.
Proof. revert n l. induction i as [|i IH]; intros [|n] [|x l] L; try lia; try reflexivity. cbn. apply IH. lia. Qed.
Lemma nth_skipn {A} o i (l : list A) : nth_error (skipn o l) i = nth_error l (o + i).
Proof. revert l. induction o as [|o IH]; intros [|x l]; try reflexivity; [now destruct i|]. cbn. apply IH. Qed.
Lemma nam_slice ps : forall o k f, In (k, f) (nam o ps) -> slice (k - o) (length f) (concat (map piece_bytes ps)) = tidy f.
Proof.
  induction ps as [|x ps IH]; intros o k f I; [destruct I|]. cbn [map concat].
  assert (C : In (k, f) (nam (o + piece_len x) ps) \/ (x = Nam f /\ k = o)).
  { destruct x as [b|g]; cbn [nam piece_len] in *; [now left|]. destruct I as [E|I]; [right; injection E as -> ->; now split|now left]. }
  destruct C as [C|[-> ->]].
  - pose proof (nam_ge _ _ _ _ C) as L. specialize (IH _ _ _ C). rewrite <- IH.
    unfold slice. f_equal. rewrite skipn_app, piece_bytes_len. rewrite skipn_all2 by (rewrite piece_bytes_len; lia). cbn [app]. f_equal. lia.
  - rewrite Nat.sub_diag. cbn [piece_bytes]. rewrite <- (tidy_length f) at 1. unfold slice. cbn [skipn]. rewrite firstn_app, Nat.sub_diag, firstn_all. cbn [firstn]. apply app_nil_r.
Qed.
Lemma name_fields_in c o : In o (name_fields c) -> (o + 16 <= lc_len c)%nat.
Proof.
  destruct c as [s ss|s|s|b ts]; cbn [name_fields lc_len]; [|intros []..]. intros [<-|I]; [lia|]. apply in_flat_map in I. destruct I as (k & K & I).
  apply in_seq in K. cbn [In] in I. lia.
Qed.
Lemma top_C86_same p e l c r : bytes_ok l -> read_load_command p e l = Ok (c, r) ->
  (write_load_command e c = (firstn (lc_len c) l, true) <->
   (forall o, In o (name_fields c) -> ascii_field (slice o 16 l) /\
      forall i j, (i < j < 16)%nat -> nth_error l (o + i) = Some 0 -> nth_error l (o + j) = Some 0)).
Proof.
  intros Hb H. destruct (top_C86_exact p e l c r Hb H) as (X1 & X2 & _). apply top_C85_read in H; [|exact Hb]. destruct H as (A & V & _).
  assert (Len : (lc_len c <= length l)%nat).
  { destruct c as [s ss|s|s|b ts]; cbn [lc_at lc_len] in *; unfold segment_at, symtab_at, dysymtab_at, build_version_at in A; try (destruct A as [L _]; lia).
    - destruct A as [[L _] A2]. destruct (sections_room e l ss _ A2) as [->|R]; cbn [length]; lia.
    - destruct A as [[L _] A2]. clear - L A2. assert (ts = [] \/ (24 + 8 * length ts <= length l)%nat) as [->|R]; [|cbn [length]; lia|lia].
      revert A2. change (0 + 24)%nat with 24%nat. generalize 24%nat. clear L. induction ts as [|t ts IH]; intros n A; [now left|]. right. cbn [list_at] in A. destruct A as [A1 A2].
      unfold build_tool_at in A1. destruct A1 as [L _]. destruct (IH _ A2) as [->|R]; cbn [length]; lia. }
  assert (T : forall o, In o (name_fields c) -> (tidy (slice o 16 l) = slice o 16 l <->
     forall i j, (i < j < 16)%nat -> nth_error l (o + i) = Some 0 -> nth_error l (o + j) = Some 0)).
  { intros o I. pose proof (name_fields_in c o I) as L. rewrite tidy_same. rewrite slice_length by lia.
    assert (N : forall i, (i < 16)%nat -> nth_error (slice o 16 l) i = nth_error l (o + i)).
    { intros i Li. unfold slice. rewrite nth_firstn_lt by exact Li. now rewrite nth_skipn. }
    split.
    - intros G i j Lij. rewrite <- !N by lia. intro E. apply (G i j); (assumption || lia).
    - intros G i j Lij E Lj. rewrite N in * by lia. apply (G i j); (assumption || lia). }
  assert (S1 : forall o, In o (name_fields c) -> slice o 16 (lc_again c l) = tidy (slice o 16 l)).
  { intros o I. pose proof (name_fields_in c o I) as L. rewrite <- again_pieces. rewrite <- (nam_slice (lc_pieces c l) 0 o (slice o 16 l)).
    - rewrite Nat.sub_0_r, slice_length by lia. reflexivity.
    - rewrite (nam_pieces e l c A). apply in_map_iff. now exists o. }
  split.
  - intros E o I. rewrite E in X1, X2. cbn [fst snd] in X1, X2. split; [now apply X1|]. apply T; [exact I|]. rewrite <- S1 by exact I. rewrite <- X2 by reflexivity.
    apply slice_of_firstn. now apply name_fields_in.
  - intro F. assert (O : snd (write_load_command e c) = true) by (apply X1; intros o I; now apply F).
    rewrite (surjective_pairing (write_load_command e c)), O, (X2 O). f_equal. apply pieces_same. intros o I. apply T; [exact I|]. now apply F.
Qed.
