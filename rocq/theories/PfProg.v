(** Proofs: programs with stores and jumps. *)
From Coq Require String.
Import String.StringSyntax.
From Verif Require Import Base Str X64 SpecX86 Mac SpecMacho Obj Asm SpecAsm SpecRun SpecLink SpecProg PfX64 PfX86 PfX64Top.
From Verif Require Import PfStr PfObj PfRun PfRun3 PfRun5 PfEnd Assembler Cli SpecObj PfLink PfGo.

Lemma exec_mach_ok s i next : instr_ok i -> mach_ok s -> 0 <= next < W64 ->
  match exec (cpu_op i) next s with Next s' => mach_ok s' | SysCall s' => mach_ok s' | Fault => False end.
Proof.
  intros Hok (Hr & Hm & Hp) Hn.
  assert (SU : forall d v r, 0 <= upd (regs s) d (v mod W64) r < W64).
  { intros d v r. unfold upd. destruct (r =? d); [apply Z.mod_pos_bound, W64_pos|apply Hr]. }
  destruct i; unfold cpu_op; cbn [instr_mem doc_op_with exec push]; unfold mach_ok, push; cbn [regs mem rip];
    (split; [|split]); try assumption; try (apply store_range; assumption); try apply SU;
    try (apply set_reg_range; [first [exact Hr|apply SU]|tauto]).
  exact (load_range 8 (mem s) (regs s rsp) Hm).
Qed.

Lemma effect_mem i len n s s' :
  effect i (match instr_mem i with Some m => cpu_disp m | None => 0 end) n len s s' ->
  forall x, snd (written i len s) <= (x - fst (written i len s)) mod W64 -> mem s' x = mem s x.
Proof.
  intros E x Hx.
  assert (Q : forall k, (x - (regs s rsp - k) mod W64) mod W64 = (x - (regs s rsp - k)) mod W64) by (intro k; apply Zminus_mod_idemp_r).
  destruct i; cbn [effect written instr_mem fst snd] in *; unfold mem_same, mem_but in E; try (now apply E);
    try (destruct E as (R & _ & M & _); apply M; rewrite R, Q; exact Hx).
Qed.
Lemma written_size i len s : 0 <= snd (written i len s) <= W64.
Proof. destruct i; cbn [written snd]; unfold W64; lia. Qed.

Lemma go_snoc os n : forall s, go os (S n) s =
  match go os n s with Some s1 => match step s1 with Next s' => Some s' | SysCall s' => Some (os s') | Fault => None end | None => None end.
Proof.
  induction n as [|n IH]; intro s; [cbn [go]; destruct (step s); reflexivity|].
  change (go os (S (S n)) s) with (match step s with Next s' => go os (S n) s' | SysCall s' => go os (S n) (os s') | Fault => None end).
  cbn [go]. destruct (step s); [apply IH|apply IH|reflexivity].
Qed.
Lemma follows_snoc os at_ n i len s1 s2 : forall s, follows os at_ n s s1 -> i <> Syscall -> at_ (rip s1) i len ->
  effect i (match instr_mem i with Some m => cpu_disp m | None => 0 end) (push_value i) len s1 s2 -> follows os at_ (S n) s s2.
Proof.
  intros s F. induction F as [s|n j l s t s1 Nj A E F IH|n l s t s1 A E F IH]; intros Ni A2 E2.
  - econstructor; [exact Ni|exact A2|exact E2|constructor].
  - eapply fo_step; [exact Nj|exact A|exact E|]. now apply IH.
  - eapply fo_sys; [exact A|exact E|]. now apply IH.
Qed.
Lemma follows_snoc_sys os at_ n len s1 s2 : forall s, follows os at_ n s s1 -> at_ (rip s1) Syscall len ->
  effect Syscall 0 0 len s1 s2 -> follows os at_ (S n) s (os s2).
Proof.
  intros s F. induction F as [s|n j l s t s1 Nj A E F IH|n l s t s1 A E F IH]; intros A2 E2.
  - eapply fo_sys; [exact A2|exact E2|constructor].
  - eapply fo_step; [exact Nj|exact A|exact E|]. now apply IH.
  - eapply fo_sys; [exact A|exact E|]. now apply IH.
Qed.

Lemma fetch_inside code lo off i rest s : fetch (length code) (mem s) lo = code -> skipn off code = instr_bytes i ++ rest ->
  (off <= length code)%nat -> rip s = (lo + Z.of_nat off) mod W64 -> fetch (length (instr_bytes i)) (mem s) (rip s) = instr_bytes i.
Proof.
  intros Hf Hc Lo Hr. rewrite Hr, fetch_mod.
  assert (Lc : (off + length (instr_bytes i) <= length code)%nat).
  { assert (L := f_equal (@length Z) Hc). rewrite skipn_length, !app_length in L. lia. }
  replace (length code) with (off + (length (instr_bytes i) + (length code - off - length (instr_bytes i))))%nat in Hf by lia.
  rewrite !fetch_app in Hf. assert (Hf' := f_equal (skipn off) Hf).
  rewrite skipn_app, skipn_all2 in Hf' by (rewrite fetch_length; lia). rewrite fetch_length, Nat.sub_diag in Hf'. cbn [skipn app] in Hf'.
  rewrite Hc in Hf'. apply app_inv_length in Hf'; [apply Hf'|apply fetch_length].
Qed.

Definition listed (lo : Z) (code : list Z) (at_ : listing) : Prop := forall a i len, at_ a i len ->
  instr_ok i /\ instr_scale_ok i /\ len = zlen (instr_bytes i) /\
  exists off rest, (off <= length code)%nat /\ a = (lo + Z.of_nat off) mod W64 /\ skipn off code = instr_bytes i ++ rest.

Lemma listed_step os lo code at_ s : listed lo code at_ -> leaves os lo (zlen code) -> mach_ok s -> fetch (length code) (mem s) lo = code ->
  may_go at_ lo (zlen code) s ->
  exists i len, at_ (rip s) i len /\ exists s1,
   (i <> Syscall /\ step s = Next s1 /\ effect i (match instr_mem i with Some m => cpu_disp m | None => 0 end) (push_value i) len s s1 /\
      mach_ok s1 /\ fetch (length code) (mem s1) lo = code \/
    i = Syscall /\ step s = SysCall s1 /\ effect Syscall 0 0 len s s1 /\ mach_ok (os s1) /\ fetch (length code) (mem (os s1)) lo = code).
Proof.
  intros HL Sv Hm Hf (i & len & A & Ap). destruct (HL _ _ _ A) as (Ok & Sc & El & off & rest & Lo & Hr & Hc).
  exists i, len. split; [exact A|]. pose proof (fetch_inside _ _ _ _ _ _ Hf Hc Lo Hr) as Fi.
  pose proof (step_decoded s i Ok Sc Fi) as St. pose proof (step_effect s i Ok Sc Hm Fi) as X.
  pose proof (exec_mach_ok s i ((rip s + Z.of_nat (length (instr_bytes i))) mod W64) Ok Hm (Z.mod_pos_bound _ _ W64_pos)) as M.
  rewrite <- St in M. cbv zeta in X. fold (zlen (instr_bytes i)) in X. rewrite <- El in X.
  destruct (step s) as [s1|s1|]; [| |contradiction]; exists s1; [left|right].
  - destruct X as [Ni X]. split; [exact Ni|]. split; [reflexivity|]. split; [exact X|]. split; [exact M|].
    etransitivity; [|exact Hf]. eapply fetch_code_apart; [exact Ap|apply written_size|]. eapply effect_mem. exact X.
  - destruct X as [-> X]. split; [reflexivity|]. split; [reflexivity|]. split; [exact X|].
    destruct (Sv s1 M) as [Mo Me]. split; [exact Mo|]. destruct X as (_ & Ms & _).
    etransitivity; [|exact Hf]. apply fetch_ext. intros k Hk. rewrite (Me k Hk). apply Ms.
Qed.

Lemma listed_go os lo code at_ s N : listed lo code at_ -> leaves os lo (zlen code) -> mach_ok s -> fetch (length code) (mem s) lo = code ->
  (forall n s1, (n < N)%nat -> go os n s = Some s1 -> follows os at_ n s s1 -> may_go at_ lo (zlen code) s1) ->
  exists s', go os N s = Some s' /\ follows os at_ N s s' /\ mach_ok s' /\ fetch (length code) (mem s') lo = code.
Proof.
  intros HL Sv Hm Hf. induction N as [|N IH]; intro H.
  - exists s. split; [reflexivity|]. split; [constructor|]. now split.
  - destruct IH as (s1 & G & F & M1 & F1); [intros n t Hn; apply H; lia|].
    destruct (listed_step os lo code at_ s1 HL Sv M1 F1 (H N s1 ltac:(lia) G F)) as (i & len & A & s2 & [(Ni & St & E & M2 & F2)|(-> & St & E & M2 & F2)]);
      rewrite go_snoc, G, St.
    + exists s2. split; [reflexivity|]. split; [eapply follows_snoc; eassumption|]. now split.
    + exists (os s2). split; [reflexivity|]. split; [eapply follows_snoc_sys; eassumption|]. now split.
Qed.

(** ** Lists of instructions *)
Lemma code_listed lo l : Forall (fun x => instr_ok (fst x) /\ emits (fst x) (snd x)) l -> listed lo (flat_map snd l) (code_listing lo l).
Proof.
  intros F a i len (l1 & bs & l2 & -> & -> & ->). apply Forall_app in F. destruct F as [_ F]. inversion_clear F as [|? ? [Ok Em] _].
  cbn [fst snd] in *. destruct (emits_inv i bs Ok Em) as [-> Sc]. split; [exact Ok|]. split; [exact Sc|]. split; [reflexivity|].
  rewrite flat_map_app. cbn [flat_map snd]. exists (length (flat_map snd l1)), (flat_map snd l2).
  split; [rewrite app_length; lia|]. split; [reflexivity|]. rewrite skipn_app, skipn_all, Nat.sub_diag. reflexivity.
Qed.

Lemma top_C79 os l lo s N : Forall (fun x => instr_ok (fst x) /\ emits (fst x) (snd x)) l ->
  let code := flat_map snd l in let at_ := code_listing lo l in
  leaves os lo (zlen code) -> mach_ok s -> fetch (length code) (mem s) lo = code ->
  (forall n s1, (n < N)%nat -> go os n s = Some s1 -> follows os at_ n s s1 -> may_go at_ lo (zlen code) s1) ->
  exists s', go os N s = Some s' /\ follows os at_ N s s' /\ mach_ok s' /\ fetch (length code) (mem s') lo = code.
Proof. intros F code at_. apply listed_go. now apply code_listed. Qed.

(** ** Straight lines *)
Lemma effect_rip i d n len s s' : i <> Ret -> effect i d n len s s' -> rip s' = (rip s + len) mod W64.
Proof. intros N E. destruct i; cbn [effect] in E; try congruence; apply E. Qed.
Lemma traced_snoc os i bs is s s1 s2 : traced os is s s1 -> i <> Syscall -> emits i bs ->
  effect i (match instr_mem i with Some m => cpu_disp m | None => 0 end) (push_value i) (zlen bs) s1 s2 -> traced os (is ++ [i]) s s2.
Proof.
  intro T. induction T as [s|j is bj s t s1 Nj Ej Efj T IH|is bj s t s1 Ej Efj T IH]; intros Ni E X; cbn [app].
  - econstructor; [exact Ni|exact E|exact X|constructor].
  - econstructor; [exact Nj|exact Ej|exact Efj|]. now apply IH.
  - eapply tr_sys; [exact Ej|exact Efj|]. now apply IH.
Qed.
Lemma traced_snoc_sys os bs is s s1 s2 : traced os is s s1 -> emits Syscall bs ->
  effect Syscall 0 0 (zlen bs) s1 s2 -> traced os (is ++ [Syscall]) s (os s2).
Proof.
  intro T. induction T as [s|j is bj s t s1 Nj Ej Efj T IH|is bj s t s1 Ej Efj T IH]; intros E X; cbn [app].
  - eapply tr_sys; [exact E|exact X|constructor].
  - econstructor; [exact Nj|exact Ej|exact Efj|]. now apply IH.
  - eapply tr_sys; [exact Ej|exact Efj|]. now apply IH.
Qed.

Lemma line_go os is s : Forall (fun i => instr_ok i /\ instr_scale_ok i) is -> ~ In Ret is ->
  forall lo code off rest, leaves os lo (zlen code) -> resumes os -> mach_ok s -> fetch (length code) (mem s) lo = code ->
  (off <= length code)%nat -> rip s = (lo + Z.of_nat off) mod W64 -> skipn off code = seq_bytes is ++ rest ->
  (forall is1 i is2 bs s1, is = is1 ++ i :: is2 -> emits i bs -> go os (length is1) s = Some s1 -> traced os is1 s s1 ->
     apart lo (zlen code) (fst (written i (zlen bs) s1)) (snd (written i (zlen bs) s1))) ->
  exists s', go os (length is) s = Some s' /\ traced os is s s' /\ mach_ok s' /\ fetch (length code) (mem s') lo = code /\
    rip s' = (lo + Z.of_nat (off + length (seq_bytes is))) mod W64.
Proof.
  intros F NR lo code off rest Sv Re Hm Hf Lo Hr Hc H.
  assert (P : forall is1 is2, is = is1 ++ is2 ->
     exists s', go os (length is1) s = Some s' /\ traced os is1 s s' /\ mach_ok s' /\ fetch (length code) (mem s') lo = code /\
       rip s' = (lo + Z.of_nat (off + length (seq_bytes is1))) mod W64).
  { intros is1. induction is1 as [|i is1 IH] using rev_ind; intros is2 E.
    - exists s. split; [reflexivity|]. split; [constructor|]. split; [exact Hm|]. split; [exact Hf|]. cbn. now rewrite Nat.add_0_r.
    - rewrite <- app_assoc in E. cbn [app] in E. destruct (IH (i :: is2) E) as (s1 & G & T & M1 & F1 & R1).
      assert (Ii : In i is) by (rewrite E; apply in_elt). destruct (proj1 (Forall_forall _ _) F i Ii) as [Ok Sc].
      pose proof (emits_bytes i Ok Sc) as Em.
      set (at_ := fun a j len => j = i /\ len = zlen (instr_bytes i) /\ a = rip s1).
      assert (Sk : skipn (off + length (seq_bytes is1)) code = instr_bytes i ++ seq_bytes is2 ++ rest).
      { rewrite Nat.add_comm, <- skipn_skipn, Hc, E. unfold seq_bytes. rewrite map_app, concat_app. cbn [map concat].
        rewrite <- !app_assoc, skipn_app, skipn_all, Nat.sub_diag. reflexivity. }
      assert (Lb : (off + length (seq_bytes is1) <= length code)%nat).
      { assert (L := f_equal (@length Z) Hc). rewrite E in L. unfold seq_bytes in L. rewrite map_app, concat_app, skipn_length, !app_length in L.
        fold (seq_bytes is1) in L. lia. }
      assert (HL : listed lo code at_).
      { intros a j len (-> & -> & ->). split; [exact Ok|]. split; [exact Sc|]. split; [reflexivity|].
        exists (off + length (seq_bytes is1))%nat, (seq_bytes is2 ++ rest). split; [exact Lb|]. split; [exact R1|exact Sk]. }
      assert (Mg : may_go at_ lo (zlen code) s1).
      { exists i, (zlen (instr_bytes i)). split; [repeat split|]. eapply H; eassumption. }
      rewrite app_length, Nat.add_1_r, go_snoc, G.
      assert (Rn : forall t, rip t = (rip s1 + zlen (instr_bytes i)) mod W64 ->
         rip t = (lo + Z.of_nat (off + length (seq_bytes (is1 ++ [i])))) mod W64).
      { intros t ->. rewrite R1, Zplus_mod_idemp_l. f_equal. unfold seq_bytes. rewrite map_app, concat_app, app_length. cbn [map concat].
        rewrite app_nil_r. unfold zlen. lia. }
      assert (NRi : i <> Ret) by (intros ->; now apply NR).
      destruct (listed_step os lo code at_ s1 HL Sv M1 F1 Mg) as (j & len & (Ej & -> & _) & s2 & [(Ni & St & X & M2 & F2)|(Es & St & X & M2 & F2)]);
        subst j; rewrite St.
      + exists s2. split; [reflexivity|]. split; [eapply traced_snoc; eassumption|]. split; [exact M2|]. split; [exact F2|].
        apply Rn. exact (effect_rip _ _ _ _ _ _ NRi X).
      + subst i. exists (os s2). split; [reflexivity|]. split; [eapply traced_snoc_sys; eassumption|]. split; [exact M2|]. split; [exact F2|].
        apply Rn. rewrite Re. apply (effect_rip _ _ _ _ _ _ NRi X). }
  apply (P is []). now rewrite app_nil_r.
Qed.

Lemma top_C79_line os is bss s : Forall instr_ok is -> ~ In Ret is -> Forall2 emits is bss -> mach_ok s -> code_at s (concat bss) ->
  leaves os (rip s) (zlen (concat bss)) -> resumes os ->
  (forall is1 i is2 bs s1, is = is1 ++ i :: is2 -> emits i bs -> go os (length is1) s = Some s1 -> traced os is1 s s1 ->
     apart (rip s) (zlen (concat bss)) (fst (written i (zlen bs) s1)) (snd (written i (zlen bs) s1))) ->
  exists s', go os (length is) s = Some s' /\ traced os is s s' /\ mach_ok s' /\ rip s' = (rip s + zlen (concat bss)) mod W64.
Proof.
  intros F NR H2 Hm Hc Sv Re H. destruct (map_emits is bss F H2) as [E F']. unfold code_at in Hc. rewrite E in *.
  destruct (line_go os is s F' NR (rip s) (seq_bytes is) 0 [] Sv Re Hm Hc ltac:(lia)) as (s' & G & T & M & _ & R).
  - rewrite Z.add_0_r, Z.mod_small; [reflexivity|apply Hm].
  - cbn [skipn]. now rewrite app_nil_r.
  - exact H.
  - exists s'. split; [exact G|]. split; [exact T|]. split; [exact M|exact R].
Qed.

(** ** Linked files *)
Lemma linked_one addr x bs i : stmt_bytes (fst x) (snd x) -> (forall j, fst x = StInstr j -> instr_ok j) -> linked_stmt addr x bs ->
  linked_instr addr (fst x) = [i] -> instr_ok i /\ instr_scale_ok i /\ bs = instr_bytes i.
Proof.
  destruct x as [st b]. unfold linked_stmt. cbn [fst snd]. intros B Io L E.
  destruct st; cbn [linked_instr stmt_bytes] in *; try discriminate.
  - injection E as ->. subst bs. destruct (emits_inv i b (Io i eq_refl) B) as [-> Sc]. split; [now apply Io|]. now split.
  - destruct L as (v & Ev & Em). rewrite Ev in E. injection E as <-. assert (Ok : instr_ok (MovRI64 dst (v mod 2 ^ 64))) by (cbn; unfold inu; lia).
    destruct (emits_inv _ _ Ok Em) as [-> Sc]. now split.
  - destruct L as (v & Ev & Em). rewrite Ev in E. injection E as <-. assert (Ok : instr_ok (MovRI32 dst (v mod 2 ^ 32))) by (cbn; unfold inu; lia).
    destruct (emits_inv _ _ Ok Em) as [-> Sc]. now split.
Qed.

Lemma text_listed lo addr text bss : Forall (fun x => stmt_bytes (fst x) (snd x)) text ->
  Forall (fun x => forall i, fst x = StInstr i -> instr_ok i) text -> Forall2 (linked_stmt addr) text bss ->
  listed lo (concat bss) (text_listing lo addr text).
Proof.
  intros W Io H2 a i len (l1 & st & bs & l2 & -> & El & -> & ->).
  apply Forall2_app_split in H2. destruct H2 as (b1 & b2 & -> & H1 & H2). inversion H2 as [|? b ? b2' Hb H2' E1 E2]. subst. clear H2.
  apply Forall_app in W. destruct W as [W1 W2]. inversion_clear W2 as [|? ? Wx W3].
  apply Forall_app in Io. destruct Io as [_ Io]. inversion_clear Io as [|? ? Ix _].
  destruct (linked_one addr (st, bs) b i Wx Ix Hb El) as (Ok & Sc & ->). split; [exact Ok|]. split; [exact Sc|].
  pose proof (linked_len _ _ _ Wx Hb) as L. cbn [snd] in L. split; [unfold zlen; now rewrite L|].
  rewrite concat_app. cbn [concat]. exists (length (concat b1)), (concat b2').
  split; [rewrite app_length; lia|]. split; [unfold zlen; now rewrite (linked_lens _ _ _ W1 H1)|].
  rewrite skipn_app, skipn_all, Nat.sub_diag. reflexivity.
Qed.

Lemma top_C79_file p h ins a pr f loc : Forall bytes_ok ins -> Forall (fun i => ~ In 0 i) ins -> session p ins a -> sources_are p ins pr ->
  fits (object_of pr) -> small pr -> zlen (syms (object_of pr)) <= 2 ^ 24 -> asm_write_into p h a = (f, true) ->
  let text := during SText SText pr in let n := zlen (out_bytes text) in
  let at_ := text_listing (loc 1) (label_addr loc pr) text in
  out_bytes text <> [] ->
  forall os s N, leaves os (loc 1) n -> mach_ok s -> loaded h f loc s ->
  (forall k s1, (k < N)%nat -> go os k s = Some s1 -> follows os at_ k s s1 -> may_go at_ (loc 1) n s1) ->
  exists s', go os N s = Some s' /\ follows os at_ N s s' /\ mach_ok s' /\
    exists bs, link h f loc 1 = Some bs /\ zlen bs = n /\ fetch (length bs) (mem s') (loc 1) = bs.
Proof.
  intros B N0 S0 Sr F Sm Ls Wr text n at_ Eb os s N Sv Hm Ld H.
  pose proof (sources_are_wf _ _ _ Sr) as W. pose proof (wf_during SText SText pr W) as Wd.
  pose proof (during_forall _ SText SText pr (sources_instr_ok _ _ _ Sr)) as Io.
  destruct (top_C61 p h ins a pr f loc B N0 S0 Sr F Sm Ls Wr SText ltac:(discriminate) Eb) as (bss & H2 & Lk).
  change (ordinal pr SText) with 1 in Lk. pose proof (Ld 1 _ Lk) as Hf.
  pose proof (linked_lens _ _ _ Wd H2) as Len. fold text in H2, Len, Wd, Io.
  assert (Zc : zlen (concat bss) = n) by (unfold n, zlen; now rewrite Len). rewrite <- Zc in *.
  destruct (listed_go os (loc 1) (concat bss) at_ s N (text_listed _ _ _ _ Wd Io H2) Sv Hm Hf H) as (s' & G & T & M & Fe).
  exists s'. split; [exact G|]. split; [exact T|]. split; [exact M|]. exists (concat bss). now split.
Qed.
