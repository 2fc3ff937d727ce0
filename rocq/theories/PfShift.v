(** Proofs about inserted lines. *)
From Coq Require Import ZifyBool ZifyNat.
From Verif Require Import Base Str X64 SpecX86 Obj SpecObj Asm SpecAsm Assembler SpecRun SpecShift.
From Verif Require Import PfRun PfRun3 PfRun5 PfTop2 PfEnd PfLocal2.

Lemma relocs_app a b : forall off, out_relocs off (a ++ b) = out_relocs off a ++ out_relocs (off + zlen (out_bytes a)) b.
Proof.
  induction a as [|[st bs] a IH]; intro off; cbn [app out_relocs].
  - f_equal. unfold zlen. cbn. lia.
  - rewrite IH, <- app_assoc. do 3 f_equal. unfold out_bytes, zlen. cbn [flat_map snd]. rewrite app_length. lia.
Qed.
Lemma labels_off l : forall off k, out_labels (off + k) l = map (fun x => (fst x, snd x + k)) (out_labels off l).
Proof.
  induction l as [|[st bs] l IH]; intros off k; [reflexivity|]. cbn [out_labels]. rewrite map_app.
  replace (off + k + zlen bs) with (off + zlen bs + k) by lia. rewrite IH. f_equal. destruct (stmt_label st); reflexivity.
Qed.
Lemma relocs_off l : forall off k, out_relocs (off + k) l = map (fun x => (fst x, snd x + k)) (out_relocs off l).
Proof.
  induction l as [|[st bs] l IH]; intros off k; [reflexivity|]. cbn [out_relocs]. rewrite map_app.
  replace (off + k + zlen bs) with (off + zlen bs + k) by lia. rewrite IH. f_equal. destruct (stmt_reloc st) as [[s n]|]; [|reflexivity].
  cbn. do 2 f_equal. lia.
Qed.
Lemma bytes_app a b : out_bytes (a ++ b) = out_bytes a ++ out_bytes b.
Proof. apply flat_map_app. Qed.

Lemma global_insert pre x post n : nameless x -> is_global (pre ++ x :: post) n = is_global (pre ++ post) n.
Proof.
  intros (_ & _ & _ & G). unfold is_global, globals. rewrite !flat_map_app. cbn [flat_map].
  destruct x as [[] ?]; cbn [fst] in *; try reflexivity. exfalso. eapply G. reflexivity.
Qed.
Lemma during_insert s pre x post : nameless x ->
  during s SText (pre ++ x :: post) = during s SText pre ++ (if sect_eqb s (last_sect SText pre) then [x] else []) ++ during s (last_sect SText pre) post.
Proof. intros (_ & _ & N & _). rewrite during_app, during_cons by exact N. reflexivity. Qed.

Lemma sec_other s pre x post : nameless x -> s <> last_sect SText pre -> sec_of (pre ++ x :: post) s = sec_of (pre ++ post) s.
Proof.
  intros N D. unfold sec_of. rewrite during_insert by exact N. destruct (sect_eqb s (last_sect SText pre)) eqn:E.
  { apply sect_eqb_eq in E. contradiction. }
  cbn [app]. rewrite <- during_app. f_equal. apply map_ext. intro y. now rewrite global_insert.
Qed.
Lemma bss_other pre x post : nameless x -> last_sect SText pre <> SBss -> o_bss (object_of (pre ++ x :: post)) = o_bss (object_of (pre ++ post)).
Proof.
  intros N D. cbn [object_of o_bss]. f_equal. rewrite during_insert by exact N.
  destruct (sect_eqb SBss (last_sect SText pre)) eqn:E; [apply sect_eqb_eq in E; congruence|].
  cbn [app]. rewrite <- during_app. apply map_ext. intro y. now rewrite global_insert.
Qed.
Lemma low_reloc l : wf l -> forall off r, In r (out_relocs off l) -> off <= snd r /\ snd r + 2 ^ snd (fst r) <= off + zlen (out_bytes l).
Proof.
  intros W off [[n k] o] I. destruct (out_relocs_in l W off n k o I) as (u & v & E & ->). cbn [fst snd].
  destruct (out_relocs_stmt l off n k _ I) as (x & _ & R). destruct (reloc_k _ _ _ R) as [K|K]; subst k;
    rewrite E; unfold zlen; rewrite !app_length, repeat_length; lia.
Qed.

Lemma sec_here pre x post : nameless x -> wf (pre ++ post) -> let s := last_sect SText pre in
  zlen (out_bytes (during s SText (pre ++ x :: post))) < 2 ^ 31 ->
  inserted (zlen (out_bytes (during s SText pre))) (snd x) (sec_of (pre ++ post) s) (sec_of (pre ++ x :: post) s).
Proof.
  intros N W s L. set (U := during s SText pre). set (V := during s s post).
  assert (D1 : during s SText (pre ++ post) = U ++ V) by apply during_app.
  assert (D2 : during s SText (pre ++ x :: post) = U ++ x :: V).
  { rewrite during_insert by exact N. fold s. replace (sect_eqb s s) with true by (symmetry; now apply sect_eqb_eq). reflexivity. }
  pose proof (wf_during s SText _ W) as W1. rewrite D1 in W1. apply Forall_app in W1. destruct W1 as [WU WV].
  rewrite D2 in L. destruct N as (Nl & Nr & N). pose (N0 := conj Nl (conj Nr N) : nameless x).
  unfold sec_of. rewrite D1, D2. set (i := zlen (out_bytes U)).
  assert (Bx : out_bytes (x :: V) = snd x ++ out_bytes V) by reflexivity.
  assert (Lx : out_labels (0 + i) (x :: V) = map (fun y => (fst y, snd y + zlen (snd x))) (out_labels (0 + i) V)).
  { destruct x as [st bs]. cbn [out_labels fst snd] in *. rewrite Nl. cbn [app]. apply labels_off. }
  assert (Rx : out_relocs (0 + i) (x :: V) = map (fun y => (fst y, snd y + zlen (snd x))) (out_relocs (0 + i) V)).
  { destruct x as [st bs]. cbn [out_relocs fst snd] in *. rewrite Nr. cbn [app]. apply relocs_off. }
  rewrite !bytes_app, Bx in *. unfold zlen in L. rewrite !app_length in L.
  unfold inserted. cbn [bs_bytes bs_symbols bs_relocs]. rewrite !out_labels_app, !relocs_app. fold i. rewrite Lx, Rx, !map_app, !map_map.
  assert (Gl : forall (l : list (str * Z)), map (fun z => SyRef (fst z) (snd z) (is_global (pre ++ x :: post) (fst z))) l =
    map (fun z => SyRef (fst z) (snd z) (is_global (pre ++ post) (fst z))) l).
  { intro l. apply map_ext. intro z. now rewrite (global_insert pre x post _ N0). }
  exists (out_bytes U), (out_bytes V). do 4 eexists. split; [reflexivity|]. split; [reflexivity|]. split; [reflexivity|].
  split; [reflexivity|]. split.
  { rewrite Gl. f_equal. rewrite map_map. apply map_ext. intro z. cbn [fst snd move_symbol]. now rewrite (global_insert pre x post _ N0). }
  split.
  { apply Forall_map, Forall_forall. intros [n a] I. cbn. apply out_labels_in in I. destruct I as (_ & _ & _ & I). lia. }
  split.
  { apply Forall_map, Forall_forall. intros [n a] I. cbn. apply out_labels_in in I. destruct I as (_ & _ & _ & I). lia. }
  split; [reflexivity|]. split.
  { f_equal. rewrite map_map. apply map_ext_in. intros z I. cbn [fst snd]. unfold move_reloc. cbn [rl_addr rl_symbol rl_pcrel rl_len].
    pose proof (low_reloc V WV _ _ I) as [K1 K2]. assert (0 < 2 ^ snd (fst z)).
    { destruct z as [[n k] o]. destruct (out_relocs_stmt _ _ _ _ _ I) as (y & _ & R). destruct (reloc_k _ _ _ R) as [K|K]; subst k; reflexivity. }
    unfold i, zlen in *. rewrite !as_i32_small by lia. reflexivity. }
  split.
  { apply Forall_map, Forall_forall. intros z I. cbn [rl_addr rl_len]. pose proof (low_reloc U WU _ _ I) as [K1 K2]. assert (0 < 2 ^ snd (fst z)).
    { destruct z as [[n k] o]. destruct (out_relocs_stmt _ _ _ _ _ I) as (y & _ & R). destruct (reloc_k _ _ _ R) as [K|K]; subst k; reflexivity. }
    unfold i, zlen in *. rewrite as_i32_small by lia. lia. }
  apply Forall_map, Forall_forall. intros z I. cbn [rl_addr]. pose proof (low_reloc V WV _ _ I) as [K1 K2]. assert (0 < 2 ^ snd (fst z)).
  { destruct z as [[n k] o]. destruct (out_relocs_stmt _ _ _ _ _ I) as (y & _ & R). destruct (reloc_k _ _ _ R) as [K|K]; subst k; reflexivity. }
  unfold i, zlen in *. rewrite as_i32_small by lia. lia.
Qed.

Lemma top_C102 : forall p ins ins' a a' pre x post, Forall bytes_ok ins -> Forall bytes_ok ins' ->
  session p ins a -> sources_are p ins (pre ++ post) -> session p ins' a' -> sources_are p ins' (pre ++ x :: post) ->
  nameless x -> small (pre ++ x :: post) -> last_sect SText pre <> SBss ->
  let s := last_sect SText pre in
  inserted (zlen (out_bytes (during s SText pre))) (snd x) (sect_part s (as_obj a)) (sect_part s (as_obj a')) /\
  (forall s', s' <> s -> sect_part s' (as_obj a') = sect_part s' (as_obj a)) /\ o_bss (as_obj a') = o_bss (as_obj a).
Proof.
  intros p ins ins' a a' pre x post B B' S R S' R' N Sm Nb s.
  destruct (top_session p ins a B S) as (q & Rq & C & As). assert (q = pre ++ post) by (eapply sources_are_fun; eassumption). subst q.
  destruct (top_session p ins' a' B' S') as (q & Rq' & C' & As'). assert (q = pre ++ x :: post) by (eapply sources_are_fun; eassumption). subst q.
  rewrite (proj1 As), (proj1 As'). pose proof (sources_are_wf _ _ _ R) as W.
  assert (P : forall s o q, s <> SBss -> o = object_of q -> sect_part s o = sec_of q s) by (intros [] o q X ->; [reflexivity|reflexivity|congruence]).
  split; [|split].
  - rewrite (P _ _ _ Nb eq_refl), (P _ _ _ Nb eq_refl). apply sec_here; [exact N|exact W|].
    destruct Sm as [S1 S2]. destruct (last_sect SText pre); [exact S1|exact S2|congruence].
  - intros s' D. destruct s'; try reflexivity; cbn [sect_part object_of o_text o_data]; now apply sec_other.
  - now apply bss_other.
Qed.
