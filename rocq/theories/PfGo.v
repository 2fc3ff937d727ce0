(** Proofs: running code with pushes and system calls, and running a linked file. *)
From Coq Require String.
Import String.StringSyntax.
From Verif Require Import Base Str X64 SpecX86 Mac SpecMacho Obj Asm SpecAsm SpecRun SpecLink PfX64 PfX86 PfX64Top.
From Verif Require Import PfStr PfObj PfRun PfRun3 PfRun5 PfEnd Assembler Cli SpecObj PfLink.

Lemma W64_pos : 0 < W64. Proof. reflexivity. Qed.
Lemma set_reg_range w f d v : (forall r, 0 <= f r < W64) -> w = 16 \/ w = 32 \/ w = 64 ->
  forall r, 0 <= set_reg w f d v r < W64.
Proof.
  intros Hf Hw r. unfold set_reg, upd. destruct (r =? d); [|apply Hf].
  destruct Hw as [->|[->| ->]]; cbn [Z.eqb Pos.eqb].
  - specialize (Hf d). change W64 with (2 ^ 16 * 2 ^ 48) in *. pose proof (Z.mod_pos_bound v (2 ^ 16) ltac:(lia)). lia.
  - pose proof (Z.mod_pos_bound v (2 ^ 32) ltac:(lia)). unfold W64 in *. lia.
  - apply Z.mod_pos_bound. unfold W64; lia.
Qed.
Lemma set_reg_other w f d v r : r <> d -> set_reg w f d v r = f r.
Proof. intro H. unfold set_reg. now apply upd_other. Qed.
Lemma store_range n f a v : (forall x, 0 <= f x < 256) -> forall x, 0 <= store n f a v x < 256.
Proof. intros H x. unfold store, byte_of. destruct (_ <? _); [apply Z.mod_pos_bound; lia|apply H]. Qed.

Lemma exec_plain s i next : instr_ok i -> plain i -> mach_ok s -> 0 <= next < W64 ->
  exists s', (i <> Syscall /\ exec (cpu_op i) next s = Next s' \/ i = Syscall /\ exec (cpu_op i) next s = SysCall s') /\
    mach_ok s' /\ rip s' = next /\ regs s' rsp = (regs s rsp - push_size i) mod W64 /\
    (forall x, push_size i <= (x - regs s' rsp) mod W64 -> mem s' x = mem s x).
Proof.
  intros Hok Hp (Hr & Hm & Hi) Hn.
  assert (R0 : regs s rsp = (regs s rsp - 0) mod W64) by (rewrite Z.sub_0_r, Z.mod_small; [reflexivity|apply Hr]).
  assert (Mv : forall w d v, w = 16 \/ w = 32 \/ w = 64 -> d <> rsp ->
     let s' := {| regs := set_reg w (regs s) d v; mem := mem s; rip := next |} in
     mach_ok s' /\ rip s' = next /\ regs s' rsp = (regs s rsp - 0) mod W64 /\
     (forall x, 0 <= (x - regs s' rsp) mod W64 -> mem s' x = mem s x)).
  { intros w d v Hw Hd s'. unfold s', mach_ok. cbn [regs mem rip]. split; [split; [now apply set_reg_range|split; assumption]|].
    split; [reflexivity|]. split; [rewrite set_reg_other by congruence; exact R0|reflexivity]. }
  assert (Pu : forall w v, w = 16 \/ w = 64 -> let s' := push s next w v in
     mach_ok s' /\ rip s' = next /\ regs s' rsp = (regs s rsp - w / 8) mod W64 /\
     (forall x, w / 8 <= (x - regs s' rsp) mod W64 -> mem s' x = mem s x)).
  { intros w v Hw s'. unfold s', push, mach_ok. cbn [regs mem rip]. split; [split; [|split; [now apply store_range|assumption]]|].
    - intro r. unfold upd. destruct (r =? rsp); [apply Z.mod_pos_bound, W64_pos|apply Hr].
    - split; [reflexivity|]. rewrite upd_same. split; [reflexivity|]. intros x Hx. apply store_other.
      destruct Hw as [->| ->]; exact Hx. }
  destruct i; cbn [plain] in Hp; try tauto; unfold cpu_op; cbn [instr_mem doc_op_with exec push_size];
    (eexists; split; [first [left; split; [discriminate|reflexivity]|right; split; reflexivity]|]);
    try (apply Mv; [tauto|]; unfold rsp; intro X; apply Hp;
         match goal with |- ?r = _ => destruct r; cbn in X; congruence end);
    try (apply (Pu 64); tauto); try (apply (Pu 16); tauto).
  unfold mach_ok. cbn [regs mem rip]. split; [split; [exact Hr|split; assumption]|]. split; [reflexivity|]. split; [exact R0|reflexivity].
Qed.

Lemma fetch_code_apart N lo s s' b m : apart lo (Z.of_nat N) b m -> 0 <= m <= W64 ->
  (forall x, m <= (x - b) mod W64 -> mem s' x = mem s x) -> fetch N (mem s') lo = fetch N (mem s) lo.
Proof.
  intros A M H. apply fetch_ext. intros k Hk. apply H.
  destruct (Z_lt_le_dec (((lo + k) mod W64 - b) mod W64) m) as [L|L]; [|exact L]. exfalso.
  pose proof (Z.mod_pos_bound ((lo + k) mod W64 - b) W64 W64_pos) as B.
  apply (A k (((lo + k) mod W64 - b) mod W64)); [lia|lia|].
  rewrite Zplus_mod_idemp_r. replace (b + ((lo + k) mod W64 - b)) with ((lo + k) mod W64) by lia. symmetry. apply Z.mod_mod. unfold W64. lia.
Qed.
Lemma stack_use_pos is : 0 <= stack_use is.
Proof. induction is as [|i is IH]; cbn [stack_use fold_right]; [lia|]. fold (stack_use is). destruct i; cbn [push_size]; lia. Qed.
Lemma apart_mod a n b m : apart a n (b mod W64) m <-> apart a n b m.
Proof. unfold apart. split; intros H i j Hi Hj E; apply (H i j Hi Hj); rewrite ?Zplus_mod_idemp_l in *; exact E. Qed.

Lemma go_plain os lo code is : forall off rest s,
  Forall (fun i => instr_ok i /\ instr_scale_ok i /\ plain i) is ->
  serves os lo (zlen code) -> mach_ok s -> fetch (length code) (mem s) lo = code ->
  rip s = (lo + Z.of_nat off) mod W64 -> skipn off code = seq_bytes is ++ rest ->
  apart lo (zlen code) (regs s rsp - stack_use is) (stack_use is) -> stack_use is <= W64 ->
  exists s', go os (length is) s = Some s' /\ traced os is s s' /\ mach_ok s' /\ fetch (length code) (mem s') lo = code /\
    rip s' = (lo + Z.of_nat (off + length (seq_bytes is))) mod W64 /\ regs s' rsp = (regs s rsp - stack_use is) mod W64.
Proof.
  induction is as [|i is IH]; intros off rest s HF Sv Hm Hf Hr Hc Ha Hs.
  - exists s. cbn [go length]. split; [reflexivity|]. split; [constructor|]. split; [exact Hm|]. split; [exact Hf|].
    unfold seq_bytes. cbn [map concat length]. rewrite Nat.add_0_r. split; [exact Hr|]. cbn [stack_use fold_right].
    rewrite Z.sub_0_r, Z.mod_small; [reflexivity|apply Hm].
  - inversion_clear HF as [|? ? (Hok & Hsc & Hpl) HF']. unfold seq_bytes in Hc |- *. cbn [map concat] in Hc |- *. fold (seq_bytes is) in Hc |- *.
    cbn [stack_use fold_right] in Ha, Hs. fold (stack_use is) in Ha, Hs. pose proof (stack_use_pos is) as Up.
    assert (P0 : 0 <= push_size i) by (destruct i; cbn [push_size]; lia).
    assert (P1 : 0 <= push_size i <= W64) by (clear -P0 Up Hs; lia).
    assert (P2 : stack_use is <= W64) by (clear -P0 Hs; lia).
    assert (Hfi : fetch (length (instr_bytes i)) (mem s) (rip s) = instr_bytes i).
    { rewrite Hr, fetch_mod. assert (Lc : (off + length (instr_bytes i) <= length code)%nat).
      { assert (L := f_equal (@length Z) Hc). rewrite skipn_length, !app_length in L.
        pose proof (instr_bytes_length i Hok) as Q. lia. }
      replace (length code) with (off + (length (instr_bytes i) + (length code - off - length (instr_bytes i))))%nat in Hf by lia.
      rewrite !fetch_app in Hf. assert (Hf' := f_equal (skipn off) Hf).
      rewrite skipn_app, skipn_all2 in Hf' by (rewrite fetch_length; lia). rewrite fetch_length, Nat.sub_diag in Hf'. cbn [skipn app] in Hf'.
      rewrite Hc, <- app_assoc in Hf'. apply app_inv_length in Hf'; [apply Hf'|apply fetch_length]. }
    set (next := (rip s + Z.of_nat (length (instr_bytes i))) mod W64).
    destruct (exec_plain s i next Hok Hpl Hm) as (s1 & Ex & Hm1 & Er & Es & Em); [apply Z.mod_pos_bound, W64_pos|].
    pose proof (exec_effect s i next (Z.of_nat (length (instr_bytes i))) Hok Hm eq_refl) as X.
    assert (Nx : next = (lo + Z.of_nat (off + length (instr_bytes i))) mod W64).
    { unfold next. rewrite Hr, Zplus_mod_idemp_l. f_equal. lia. }
    assert (Hf1 : fetch (length code) (mem s1) lo = code).
    { transitivity (fetch (length code) (mem s) lo); [|exact Hf]. apply (fetch_code_apart _ _ _ _ (regs s1 rsp) (push_size i)); [|exact P1|exact Em].
      rewrite Es. apply apart_mod. clear -Ha Up P0. intros x y Hx Hy.
      replace (regs s rsp - push_size i + y) with (regs s rsp - (push_size i + stack_use is) + (stack_use is + y)) by lia.
      apply Ha; unfold zlen; lia. }
    assert (Sk : skipn (off + length (instr_bytes i)) code = seq_bytes is ++ rest).
    { rewrite Nat.add_comm, <- skipn_skipn, Hc, <- app_assoc, skipn_app, skipn_all, Nat.sub_diag. reflexivity. }
    assert (Ap : forall t, regs t rsp = (regs s rsp - push_size i) mod W64 -> apart lo (zlen code) (regs t rsp - stack_use is) (stack_use is)).
    { clear -Ha Up P0. intros t Et. rewrite Et. apply apart_mod. rewrite Zminus_mod_idemp_l. apply apart_mod. intros x y Hx Hy.
      replace (regs s rsp - push_size i - stack_use is) with (regs s rsp - (push_size i + stack_use is)) by lia. apply Ha; lia. }
    assert (St : step s = exec (cpu_op i) next s) by (apply step_decoded; assumption).
    assert (Fin : forall t, regs t rsp = (regs s rsp - push_size i) mod W64 -> (regs t rsp - stack_use is) mod W64 = (regs s rsp - stack_use (i :: is)) mod W64).
    { intros t ->. rewrite Zminus_mod_idemp_l. f_equal. cbn [stack_use fold_right]. fold (stack_use is). lia. }
    rewrite app_length.
    destruct Ex as [[Ni Ex]|[Ei Ex]].
    + rewrite Ex in X. destruct X as [_ X].
      destruct (IH (off + length (instr_bytes i))%nat rest s1 HF' Sv Hm1 Hf1) as (s2 & G & T & M2 & F2 & R2 & Z2);
        [now rewrite Er|exact Sk|now apply Ap|exact P2|].
      exists s2. cbn [go length]. rewrite St, Ex. split; [exact G|]. split; [econstructor; [exact Ni|now apply emits_bytes|exact X|exact T]|].
      split; [exact M2|]. split; [exact F2|]. split; [rewrite R2, Nat.add_assoc; reflexivity|]. rewrite Z2. now apply Fin.
    + subst i. rewrite Ex in X. destruct X as [_ X]. destruct (Sv s1 Hm1) as (Hmo & Ro & So & Mo).
      destruct (IH (off + length (instr_bytes Syscall))%nat rest (os s1) HF' Sv Hmo) as (s2 & G & T & M2 & F2 & R2 & Z2);
        [|now rewrite Ro, Er|exact Sk|apply Ap; now rewrite So|exact P2|].
      { transitivity (fetch (length code) (mem s1) lo); [|exact Hf1]. apply fetch_ext. intros k Hk. apply Mo. exact Hk. }
      exists s2. cbn [go length]. rewrite St, Ex. split; [exact G|]. split; [eapply tr_sys; [now apply emits_bytes|exact X|exact T]|].
      split; [exact M2|]. split; [exact F2|]. split; [rewrite R2, Nat.add_assoc; reflexivity|]. rewrite Z2. apply Fin. now rewrite So.
Qed.

Lemma top_go os is bss s : Forall instr_ok is -> Forall plain is -> Forall2 emits is bss -> mach_ok s -> code_at s (concat bss) ->
  serves os (rip s) (zlen (concat bss)) -> apart (rip s) (zlen (concat bss)) (regs s rsp - stack_use is) (stack_use is) -> stack_use is <= W64 ->
  exists s', go os (length is) s = Some s' /\ traced os is s s' /\ rip s' = (rip s + zlen (concat bss)) mod W64 /\
    regs s' rsp = (regs s rsp - stack_use is) mod W64.
Proof.
  intros HF HP H2 Hm Hc Sv Ap Us. destruct (map_emits is bss HF H2) as [E F]. unfold code_at in Hc. rewrite E in *.
  destruct (go_plain os (rip s) (seq_bytes is) is 0 [] s) as (s' & G & T & _ & _ & R & Z0).
  - rewrite Forall_forall in *. intros i Hi. destruct (F i Hi). split; [assumption|]. split; [assumption|]. now apply HP.
  - exact Sv.
  - exact Hm.
  - exact Hc.
  - rewrite Z.add_0_r, Z.mod_small; [reflexivity|apply Hm].
  - cbn [skipn]. now rewrite app_nil_r.
  - exact Ap.
  - exact Us.
  - exists s'. split; [exact G|]. split; [exact T|]. split; [exact R|exact Z0].
Qed.

(** ** Linked statements *)
Lemma linked_len addr x bs : stmt_bytes (fst x) (snd x) -> linked_stmt addr x bs -> length bs = length (snd x).
Proof.
  destruct x as [st b]. unfold linked_stmt. cbn [fst snd]. intros B L. destruct st; try (now rewrite L); cbn [stmt_bytes] in B.
  - destruct L as (v & _ & E). apply emits_inv in B; [|cbn; unfold inu; lia]. apply emits_inv in E; [|cbn; unfold inu; lia].
    destruct B as [-> _]. destruct E as [-> _]. destruct dst; reflexivity.
  - destruct L as (v & _ & E). apply emits_inv in B; [|cbn; unfold inu; lia]. apply emits_inv in E; [|cbn; unfold inu; lia].
    destruct B as [-> _]. destruct E as [-> _]. destruct dst; reflexivity.
Qed.
Lemma linked_lens addr l bss : Forall (fun x => stmt_bytes (fst x) (snd x)) l -> Forall2 (linked_stmt addr) l bss ->
  length (concat bss) = length (out_bytes l).
Proof.
  intros F H. induction H as [|x bs l bss Hx H IH]; [reflexivity|]. inversion_clear F as [|? ? Fx F']. unfold out_bytes in *. cbn [concat flat_map].
  rewrite !app_length, IH by exact F'. f_equal. eapply linked_len; eassumption.
Qed.
Lemma linked_code addr l bss : Forall (fun x => stmt_bytes (fst x) (snd x)) l ->
  Forall (fun x => is_data (fst x) = false /\ (forall i, fst x = StInstr i -> instr_ok i)) l ->
  Forall2 (linked_stmt addr) l bss ->
  let is := flat_map (fun x => linked_instr addr (fst x)) l in
  concat bss = seq_bytes is /\ Forall (fun i => instr_ok i /\ instr_scale_ok i) is.
Proof.
  intros F D H is. unfold is. clear is. induction H as [|x bs l bss Hx H IH]; [split; [reflexivity|constructor]|].
  inversion_clear F as [|? ? Fx F']. inversion_clear D as [|? ? [Dx Dy] D']. destruct (IH F' D') as [E1 E2]. destruct x as [st b].
  unfold seq_bytes in *. cbn [concat flat_map fst] in *. rewrite map_app, concat_app, <- E1.
  assert (One : forall i, instr_ok i -> emits i bs -> bs ++ concat bss = concat (map instr_bytes [i]) ++ concat bss /\
     Forall (fun i => instr_ok i /\ instr_scale_ok i) ([i] ++ flat_map (fun x => linked_instr addr (fst x)) l)).
  { intros i Ok Em. destruct (emits_inv i bs Ok Em) as [-> Sc]. cbn [map concat app]. rewrite app_nil_r. split; [reflexivity|].
    constructor; [now split|exact E2]. }
  unfold linked_stmt in Hx. cbn [fst snd] in *. destruct st; cbn [linked_instr stmt_bytes is_data map concat app] in *; try discriminate;
    try (subst; split; [reflexivity|exact E2]).
  - subst bs. apply One; [now apply Dy|exact Fx].
  - destruct Hx as (v & -> & Em). apply One; [cbn; unfold inu; lia|exact Em].
  - destruct Hx as (v & -> & Em). apply One; [cbn; unfold inu; lia|exact Em].
Qed.

(** ** From a global label *)
Lemma out_labels_app l1 l2 : forall off, out_labels off (l1 ++ l2) = out_labels off l1 ++ out_labels (off + zlen (out_bytes l1)) l2.
Proof.
  induction l1 as [|[st bs] l1 IH]; intro off; cbn [out_labels app].
  - change (zlen (out_bytes [])) with 0. now rewrite Z.add_0_r.
  - rewrite IH, <- app_assoc. f_equal. f_equal. f_equal. unfold out_bytes, zlen. cbn [flat_map snd]. rewrite app_length. lia.
Qed.
Lemma find_app_none {A} (g : A -> bool) l1 l2 : (forall x, In x l1 -> g x = false) -> find g (l1 ++ l2) = find g l2.
Proof. induction l1 as [|x l1 IH]; intro H; [reflexivity|]. cbn [app find]. rewrite (H x (or_introl eq_refl)). apply IH. intros y Iy. apply H. now right. Qed.
Lemma text_label_addr loc pr n l1 x l2 : during SText SText pr = l1 ++ x :: l2 -> out_bytes (during SText SText pr) <> [] ->
  stmt_label (fst x) = Some n -> (forall y, In y l1 -> stmt_label (fst y) <> Some n) ->
  label_addr loc pr n = Some (loc 1 + zlen (out_bytes l1)).
Proof.
  intros E B L N. unfold label_addr, labels_at, sect_labels. change (ordinal pr SText) with 1.
  destruct (out_bytes (during SText SText pr)) as [|b0 bs0] eqn:Eb; [congruence|]. rewrite E, out_labels_app, map_app, <- app_assoc.
  rewrite find_app_none.
  - destruct x as [st bs]. cbn [out_labels fst] in *. rewrite L. cbn [app map find fst snd]. rewrite str_eqb_refl. reflexivity.
  - intros [m v] I. apply in_map_iff in I. destruct I as ([m' off] & Em & I). cbn [fst snd] in Em. injection Em as <- <-.
    destruct (out_labels_in _ _ _ _ I) as (y & Iy & Ly & _). cbn [fst]. destruct (str_eqb m' n) eqn:Es; [|reflexivity].
    apply str_eqb_eq in Es. subst m'. exfalso. exact (N y Iy Ly).
Qed.
Lemma Forall2_app_split {A B} (P : A -> B -> Prop) l1 l2 bs : Forall2 P (l1 ++ l2) bs ->
  exists b1 b2, bs = b1 ++ b2 /\ Forall2 P l1 b1 /\ Forall2 P l2 b2.
Proof. intro H. apply Forall2_app_inv_l in H. destruct H as (b1 & b2 & H1 & H2 & E). exists b1, b2. auto. Qed.

Lemma top_C63 p h ins a pr f loc : Forall bytes_ok ins -> Forall (fun i => ~ In 0 i) ins -> session p ins a -> sources_are p ins pr ->
  fits (object_of pr) -> small pr -> zlen (syms (object_of pr)) <= 2 ^ 24 -> asm_write_into p h a = (f, true) ->
  forall n l1 lab l2 l3, let text := during SText SText pr in
  text = l1 ++ (StLabel n, lab) :: l2 ++ l3 -> (forall y, In y l1 -> stmt_label (fst y) <> Some n) -> is_global pr n = true ->
  out_bytes text <> [] -> Forall (fun x => is_data (fst x) = false) l2 ->
  let is := flat_map (fun x => linked_instr (label_addr loc pr) (fst x)) l2 in Forall plain is ->
  exists v, lookup h f loc n = Some v /\
  forall os s, mach_ok s -> loaded h f loc s -> rip s = v mod W64 -> serves os (loc 1) (zlen (out_bytes text)) ->
    stack_use is <= W64 -> apart (loc 1) (zlen (out_bytes text)) (regs s rsp - stack_use is) (stack_use is) ->
  exists s', go os (length is) s = Some s' /\ traced os is s s' /\ rip s' = (v + zlen (out_bytes l2)) mod W64 /\
    regs s' rsp = (regs s rsp - stack_use is) mod W64 /\
    (forall r l3', l3 = (StInstr Ret, r) :: l3' -> exists s'', step s' = Next s'' /\ effect Ret 0 0 1 s' s'').
Proof.
  intros B N S0 Sr F Sm Ls Wr n l1 lab l2 l3 text Et Nf Gl Eb Dt is Pl.
  pose proof (sources_are_wf _ _ _ Sr) as W. pose proof (wf_during SText SText pr W) as Wd.
  pose proof (during_forall _ SText SText pr (sources_instr_ok _ _ _ Sr)) as Io.
  exists (loc 1 + zlen (out_bytes l1)). split.
  { rewrite (top_C62 p h ins a pr f loc n B N S0 Sr F Wr), Gl. eapply text_label_addr; [exact Et|exact Eb|reflexivity|exact Nf]. }
  intros os s Hm Ld Hr Sv Us Ap.
  destruct (top_C61 p h ins a pr f loc B N S0 Sr F Sm Ls Wr SText ltac:(discriminate) Eb) as (bss & H2 & Lk).
  change (ordinal pr SText) with 1 in Lk. specialize (Ld 1 _ Lk).
  pose proof (linked_lens _ _ _ Wd H2) as Len. fold text in H2, Len, Wd, Io.
  rewrite Et in H2, Wd, Io. apply Forall2_app_split in H2. destruct H2 as (b1 & b2 & -> & H1 & H2).
  inversion H2 as [|? bl ? b2' Hl H2' E1 E2]; subst b2. clear H2. apply Forall2_app_split in H2'. destruct H2' as (b3 & b4 & -> & H3 & H4).
  apply Forall_app in Wd. destruct Wd as [W1 W2]. inversion_clear W2 as [|? ? Wl W3]. apply Forall_app in W3. destruct W3 as [W3 W4].
  apply Forall_app in Io. destruct Io as [_ I2]. inversion_clear I2 as [|? ? _ I3]. apply Forall_app in I3. destruct I3 as [I3 I4].
  pose proof (linked_lens _ _ _ W1 H1) as Len1. pose proof (linked_lens _ _ _ W3 H3) as Len3.
  cbn [fst snd stmt_bytes] in Wl. unfold linked_stmt in Hl. cbn [fst snd] in Hl. subst bl lab.
  assert (D3 : Forall (fun x => is_data (fst x) = false /\ (forall i, fst x = StInstr i -> instr_ok i)) l2).
  { apply Forall_forall. intros xx Ix. split; [exact (proj1 (Forall_forall _ _) Dt xx Ix)|exact (proj1 (Forall_forall _ _) I3 xx Ix)]. }
  destruct (linked_code _ _ _ W3 D3 H3) as [Code Ok]. fold is in Code, Ok.
  rewrite !concat_app in Ld, Len. cbn [concat app] in Ld, Len. rewrite concat_app in Ld, Len.
  set (code := concat b1 ++ concat b3 ++ concat b4) in *.
  assert (Zc : zlen code = zlen (out_bytes text)) by (unfold zlen; now rewrite Len).
  destruct (go_plain os (loc 1) code is (length (concat b1)) (concat b4) s) as (s' & G & T & M & Fe & R & Z0).
  - apply Forall_forall. intros i Hi. destruct (proj1 (Forall_forall _ _) Ok i Hi). split; [assumption|]. split; [assumption|].
    exact (proj1 (Forall_forall _ _) Pl i Hi).
  - now rewrite Zc.
  - exact Hm.
  - exact Ld.
  - rewrite Hr, Len1. reflexivity.
  - unfold code. rewrite skipn_app, skipn_all, Nat.sub_diag, Code. reflexivity.
  - now rewrite Zc.
  - exact Us.
  - rewrite <- Code, Len3, Len1 in R.
    exists s'. split; [exact G|]. split; [exact T|]. split; [rewrite R; f_equal; unfold zlen; lia|]. split; [exact Z0|].
    intros r l3' El. subst l3. inversion H4 as [|? br ? b4' Hb4 H4' E7 E8]. subst. unfold linked_stmt in Hb4. cbn [fst snd] in Hb4. subst br.
    inversion_clear W4 as [|? ? Wr4 _]. cbn [fst snd stmt_bytes] in Wr4. destruct (emits_inv Ret r I Wr4) as [-> _].
    assert (St : fetch 1 (mem s') (rip s') = instr_bytes Ret).
    { rewrite R, fetch_mod. unfold code in Fe. rewrite !app_length in Fe. rewrite !fetch_app in Fe.
      apply app_inv_length in Fe; [|apply fetch_length]. destruct Fe as [_ Fe]. apply app_inv_length in Fe; [|apply fetch_length]. destruct Fe as [_ Fe].
      cbn [concat] in Fe. rewrite app_length, fetch_app in Fe. apply app_inv_length in Fe; [|apply fetch_length]. destruct Fe as [Fe _].
      etransitivity; [|exact Fe]. f_equal. rewrite Len1, Len3. lia. }
    pose proof (step_effect s' Ret I I M St) as X. cbn [instr_mem push_value] in X. change (Z.of_nat (length (instr_bytes Ret))) with 1 in X.
    destruct (step s') as [s''|s''|]; [exists s''; split; [reflexivity|exact (proj2 X)]|destruct X; discriminate|contradiction].
Qed.
