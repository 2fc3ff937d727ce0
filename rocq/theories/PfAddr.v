(** Proofs for C91. *)
From Coq Require String.
Import String.StringSyntax.
From Verif Require Import Base Str X64 SpecX86 Asm SpecAsm PfX64 PfX86 PfX64Top PfTok PfDiag PfLine PfTop PfTop2 SpecDiag SpecForm PfForm PfLine2 PfRun3 SpecAddr.

(** a state with given code, registers and filling of memory *)
Definition st (bs : list Z) (f : Z -> Z) (v : Z) : mach :=
  {| regs := f; mem := fun a => nth (Z.to_nat a) bs v; rip := 0 |}.
Lemma fetch_nth bs v k n : (k + n = length bs)%nat -> (length bs <= 15)%nat ->
  fetch n (fun a => nth (Z.to_nat a) bs v) (Z.of_nat k) = skipn k bs.
Proof.
  revert k. induction n as [|n IH]; intros k E L.
  - replace k with (length bs) by lia. now rewrite skipn_all.
  - cbn [fetch]. rewrite Z.mod_small by (unfold W64; lia). rewrite Nat2Z.id.
    replace (Z.of_nat k + 1) with (Z.of_nat (S k)) by lia. rewrite IH by lia.
    assert (K : (k < length bs)%nat) by lia. clear -K. revert k K. induction bs as [|b bs IH]; intros k K; [cbn in K; lia|].
    destruct k as [|k]; [reflexivity|]. cbn in K. cbn [nth skipn]. rewrite IH by lia. reflexivity.
Qed.
Lemma st_code bs f v : (length bs <= 15)%nat -> code_at (st bs f v) bs.
Proof. intros L. unfold code_at. cbn [mem rip st]. now apply (fetch_nth bs v 0 (length bs)). Qed.
Lemma st_ok bs f v : bytes_ok bs -> (forall r, 0 <= f r < W64) -> 0 <= v < 256 -> mach_ok (st bs f v).
Proof.
  intros B F V. repeat split; cbn [regs mem rip st]; try apply F; try (unfold W64; lia).
  - destruct (nth_in_or_default (Z.to_nat a) bs v) as [I| ->]; [|lia].
    destruct (proj1 (Forall_forall _ _) B _ I). assumption.
  - destruct (nth_in_or_default (Z.to_nat a) bs v) as [I| ->]; [|lia].
    destruct (proj1 (Forall_forall _ _) B _ I). assumption.
Qed.

Lemma emits_total i : instr_ok i -> (forall m, instr_mem i = Some m -> mem_scale_ok m) ->
  exists bs, emits i bs.
Proof.
  intros O S. pose proof (top_C04 i O) as T. destruct (bytecode_of i) as [b|] eqn:E.
  - exists (bam_ref b), b. now split.
  - destruct T as (b & d & ix & s & M & L). specialize (S _ M). cbn in S. lia.
Qed.
Lemma emits_bytes i bs : instr_ok i -> emits i bs -> (length bs <= 15)%nat /\ bytes_ok bs.
Proof.
  intros O (b & E & <-). pose proof (top_C04 i O) as T. rewrite E in T. destruct T as (L & B & _).
  split; [lia|exact B].
Qed.

(** ** operands *)
Lemma sext32_u32 d : - 2 ^ 31 <= d < 2 ^ 31 -> sext 32 (u32_of d) = d.
Proof.
  intros R. unfold sext, u32_of. change (2 ^ (32 - 1)) with (2 ^ 31).
  destruct (Z.lt_ge_cases d 0) as [N|N].
  - rewrite <- (Z.mod_add d 1 (2 ^ 32)) by lia. rewrite Z.mod_small by lia.
    destruct (_ <? _) eqn:E; lia.
  - rewrite Z.mod_small by lia. destruct (_ <? _) eqn:E; lia.
Qed.
Lemma u32_range d : 0 <= u32_of d < 2 ^ 32.
Proof. apply Z.mod_pos_bound. lia. Qed.

(** the operand denotes the address *)
Definition denotes (m : mem64) (w : want) : Prop :=
  mem_ok m /\ mem_scale_ok m /\
  forall s next, doc_ea s next m (cpu_disp m) = want_ea (regs s) next w.

Lemma based_disp d : - 2 ^ 31 <= d < 2 ^ 31 -> ~ (128 <= d <= 256) ->
  (if u32_of d <=? 256 then sext 8 (u32_of d mod 256) else sext 32 (u32_of d)) = d.
Proof.
  intros R N. destruct (u32_of d <=? 256) eqn:L; [|now apply sext32_u32].
  apply Z.leb_le in L. assert (D : u32_of d = d).
  { unfold u32_of in *. destruct (Z.lt_ge_cases d 0) as [M|M].
    - rewrite <- (Z.mod_add d 1 (2 ^ 32)) in L by lia. rewrite Z.mod_small in L by lia. lia.
    - apply Z.mod_small. lia. }
  rewrite D in *. pose proof (u32_range d). rewrite D in *. rewrite Z.mod_small by lia.
  unfold sext. change (2 ^ (8 - 1)) with 128. destruct (_ <? _) eqn:E; lia.
Qed.

Lemma operand_denotes w : want_ok w -> expressible w -> denotes (operand_for w) w.
Proof.
  intros O X. destruct w as [b ix d|d].
  - cbn [want_ok] in O. destruct O as [R O]. cbn [expressible] in X. pose proof (u32_range d) as U.
    destruct b as [b|], ix as [[i sc]|].
    + destruct O as [NI SC]. cbn [operand_for]. destruct ((128 <=? d) && (d <=? 256)) eqn:B.
      * apply andb_prop in B. destruct B as [B1 B2]. apply Z.leb_le in B1, B2.
        destruct X as [X|[X|[[X _]|(r & E1 & E2)]]]; try (exfalso; apply X; lia); try discriminate.
        injection E1 as <-. injection E2 as -> ->.
        split; [|split].
        -- cbn. unfold inu. lia.
        -- cbn. lia.
        -- intros s next. cbn [doc_ea cpu_disp want_ea].
           unfold sext. change (2 ^ (32 - 1)) with (2 ^ 31). destruct (d <? 2 ^ 31) eqn:E; [|lia].
           unfold W64. destruct b; try contradiction; f_equal; change (2 ^ 1) with 2; change (2 ^ 0) with 1; lia.
      * assert (N : ~ (128 <= d <= 256)).
        { intros [A1 A2]. apply Z.leb_le in A1, A2. rewrite A1, A2 in B. discriminate. }
        split; [|split].
        -- cbn. unfold inu. lia.
        -- cbn. lia.
        -- intros s next. cbn [doc_ea cpu_disp want_ea]. rewrite based_disp by assumption.
           unfold W64. destruct i; try contradiction; reflexivity.
    + cbn [operand_for]. destruct ((128 <=? d) && (d <=? 256)) eqn:B.
      * apply andb_prop in B. destruct B as [B1 B2]. apply Z.leb_le in B1, B2.
        destruct X as [X|[X|[[_ X]|(r & _ & E2)]]]; try (exfalso; apply X; lia); try discriminate.
        split; [|split].
        -- cbn. unfold inu. lia.
        -- cbn. lia.
        -- intros s next. cbn [doc_ea cpu_disp want_ea].
           unfold sext. change (2 ^ (32 - 1)) with (2 ^ 31). destruct (d <? 2 ^ 31) eqn:E; [|lia].
           unfold W64. destruct b; try congruence; f_equal; change (2 ^ 0) with 1; lia.
      * assert (N : ~ (128 <= d <= 256)).
        { intros [A1 A2]. apply Z.leb_le in A1, A2. rewrite A1, A2 in B. discriminate. }
        split; [|split].
        -- cbn. unfold inu. lia.
        -- exact I.
        -- intros s next. cbn [doc_ea cpu_disp want_ea]. rewrite based_disp by assumption.
           unfold W64. f_equal. lia.
    + destruct O as [NI SC]. cbn [operand_for]. split; [|split].
      * cbn. unfold inu. lia.
      * cbn. lia.
      * intros s next. cbn [doc_ea cpu_disp want_ea]. rewrite sext32_u32 by assumption.
        unfold W64. destruct i; try contradiction; reflexivity.
    + cbn [operand_for]. split; [|split].
      * cbn. unfold inu. lia.
      * cbn. lia.
      * intros s next. cbn [doc_ea cpu_disp want_ea]. rewrite sext32_u32 by assumption. reflexivity.
  - cbn [want_ok] in O. pose proof (u32_range d) as U. split; [|split].
    + cbn. exact U.
    + exact I.
    + intros s next. cbn [operand_for doc_ea cpu_disp want_ea]. rewrite sext32_u32 by assumption. reflexivity.
Qed.

Lemma want_next f n w : want_ea f (n mod W64) w = want_ea f n w.
Proof. destruct w; cbn [want_ea]; [reflexivity|]. unfold W64. now rewrite Z.add_mod_idemp_l by lia. Qed.

Lemma denotes_lea m w : denotes m w -> lea_gives m w.
Proof.
  intros (O & S & E) dst.
  assert (IO : instr_ok (Lea64 dst m)) by exact O.
  destruct (emits_total (Lea64 dst m) IO) as [bs Em]; [intros m' H; injection H as <-; exact S|].
  exists bs. split; [exact Em|]. intros s Hm Hc. pose proof (top_C08 _ _ s IO Em Hm Hc) as T.
  destruct (step s) as [s'|s'|]; [| |contradiction].
  - destruct T as [_ (T1 & T2 & T3 & _)]. cbn [instr_mem] in T1. exists s'. repeat split; try assumption.
    rewrite T1, E. apply want_next.
  - destruct T as [T _]. discriminate.
Qed.
Lemma denotes_store m w : denotes m w -> store_goes m w.
Proof.
  intros (O & S & E) src.
  assert (IO : instr_ok (MovMR64 m src)) by exact O.
  destruct (emits_total (MovMR64 m src) IO) as [bs Em]; [intros m' H; injection H as <-; exact S|].
  exists bs. split; [exact Em|]. intros s Hm Hc. pose proof (top_C08 _ _ s IO Em Hm Hc) as T.
  destruct (step s) as [s'|s'|]; [| |contradiction].
  - destruct T as [_ T]. cbn [effect instr_mem] in T. rewrite E, want_next in T.
    destruct T as (T1 & T2 & T3 & _). exists s'. cbv zeta. repeat split; assumption.
  - destruct T as [T _]. discriminate.
Qed.

Lemma top_C91_operand w : want_ok w -> expressible w ->
  mem_ok (operand_for w) /\ mem_scale_ok (operand_for w) /\
  lea_gives (operand_for w) w /\ store_goes (operand_for w) w.
Proof.
  intros O X. pose proof (operand_denotes w O X) as D. pose proof (denotes_lea _ _ D).
  pose proof (denotes_store _ _ D). destruct D as (D1 & D2 & _). repeat split; assumption.
Qed.

(** ** addresses without an operand *)
(** all registers zero but [r] *)
Definition one (r : Z) : Z -> Z := fun x => if x =? r then 1 else 0.
Lemma one_range r x : 0 <= one r x < W64.
Proof. unfold one, W64. destruct (_ =? _); lia. Qed.
Lemma one_same r : one r r = 1.
Proof. unfold one. now rewrite Z.eqb_refl. Qed.
Lemma one_other r x : x <> r -> one r x = 0.
Proof. intros N. unfold one. now rewrite (proj2 (Z.eqb_neq _ _) N). Qed.
Lemma reg64_dec (a b : reg64) : a = b \/ a <> b.
Proof. destruct a, b; (left; reflexivity) || (right; discriminate). Qed.

Lemma mod_eq a b : a mod W64 = b mod W64 -> - 2 ^ 62 <= a - b <= 2 ^ 62 -> a = b.
Proof.
  intros E R. assert (D : (a - b) mod W64 = 0) by (rewrite Zminus_mod, E, Z.sub_diag; reflexivity).
  apply Z.mod_divide in D; [|unfold W64; lia]. destruct D as [k D]. unfold W64 in D. lia.
Qed.
Lemma cpu_disp_range m : mem_ok m -> - 2 ^ 31 <= cpu_disp m < 2 ^ 31.
Proof.
  assert (S : forall d, 0 <= d < 2 ^ 32 -> - 2 ^ 31 <= sext 32 d < 2 ^ 31).
  { intros d R. unfold sext. change (2 ^ (32 - 1)) with (2 ^ 31). destruct (_ <? _) eqn:E; lia. }
  assert (S8 : forall d, - 2 ^ 31 <= sext 8 (d mod 256) < 2 ^ 31).
  { intros d. pose proof (Z.mod_pos_bound d 256). unfold sext. change (2 ^ (8 - 1)) with 128. change (2 ^ 8) with 256. destruct (_ <? _) eqn:E; lia. }
  destruct m as [r d|d|[b|] d i sc]; cbn [mem_ok cpu_disp]; unfold inu; intros O.
  - destruct (_ <=? _); [apply S8|apply S; lia].
  - apply S; lia.
  - destruct (_ <=? _); [apply S8|apply S; lia].
  - apply S; lia.
Qed.
Lemma based_never d : 0 <= d < 2 ^ 32 ->
  ~ (128 <= (if d <=? 256 then sext 8 (d mod 256) else sext 32 d) <= 256).
Proof.
  intros R. destruct (d <=? 256) eqn:L.
  - pose proof (Z.mod_pos_bound d 256). unfold sext. change (2 ^ (8 - 1)) with 128. change (2 ^ 8) with 256. destruct (_ <? _) eqn:E; lia.
  - unfold sext. change (2 ^ (32 - 1)) with (2 ^ 31). destruct (_ <? _) eqn:E; lia.
Qed.

Lemma lea_values m w : mem_ok m -> lea_gives m w -> exists n, 0 <= n <= 15 /\
  forall f, (forall r, 0 <= f r < W64) -> doc_ea (st [] f 0) n m (cpu_disp m) = want_ea f n w.
Proof.
  intros O L. destruct (L RAX) as (bs & Em & H). destruct (emits_bytes (Lea64 RAX m) bs O Em) as [Len B].
  exists (Z.of_nat (length bs)). split; [lia|]. intros f F.
  pose proof (st_ok bs f 0 B F ltac:(lia)) as Ok. pose proof (st_code bs f 0 Len) as Co.
  destruct (H _ Ok Co) as (s' & S & E & _). pose proof (top_C08 (Lea64 RAX m) bs _ O Em Ok Co) as T. rewrite S in T.
  destruct T as [_ (T & _)]. rewrite E in T. cbn [rip st instr_mem regs] in T.
  rewrite !Z.add_0_l in T. rewrite Z.mod_small in T by (unfold W64; lia). rewrite T. reflexivity.
Qed.

Lemma pow_le a : 0 <= a <= 3 -> 2 ^ a = 1 /\ a = 0 \/ 2 ^ a = 2 /\ a = 1 \/ 2 ^ a = 4 /\ a = 2 \/ 2 ^ a = 8 /\ a = 3.
Proof. intros R. assert (a = 0 \/ a = 1 \/ a = 2 \/ a = 3) as [->|[->|[->| ->]]] by lia; cbn; tauto. Qed.

Lemma only_expressible m w : want_ok w -> mem_ok m -> mem_scale_ok m -> lea_gives m w -> expressible w.
Proof.
  intros O Mo Ms L. destruct (lea_values m w Mo L) as (n & N & V). clear L. pose proof (cpu_disp_range m Mo) as C.
  destruct w as [b ix d|d]; [|exact I]. cbn [want_ok] in O. destruct O as [R O]. cbn [expressible].
  assert (D : 128 <= d <= 256 \/ ~ (128 <= d <= 256)) by lia. destruct D as [D|D]; [|now left].
  destruct b as [b|]; [|right; now left]. right; right.
  pose proof (V (fun _ => 0) ltac:(intro; unfold W64; lia)) as V0.
  pose proof (V (one (hw64 b)) (one_range _)) as Vb.
  assert (Pix : match ix with Some (_, sc) => 1 <= 2 ^ sc <= 8 | None => True end).
  { destruct ix as [[j sc]|]; [|exact I]. destruct O as [_ S]. pose proof (pow_le sc S). lia. }
  assert (V0' : want_ea (fun _ => 0) n (WReg (Some b) ix d) = d mod W64).
  { cbn [want_ea]. destruct ix as [[j sc]|]; f_equal; lia. }
  rewrite V0' in V0. clear V0'.
  assert (Vb' : exists k, want_ea (one (hw64 b)) n (WReg (Some b) ix d) = (1 + k + d) mod W64 /\ 0 <= k <= 8 /\
            k = match ix with Some (j, sc) => if hw64 j =? hw64 b then 2 ^ sc else 0 | None => 0 end).
  { eexists. split; [|split; [|reflexivity]].
    - cbn [want_ea]. rewrite one_same. f_equal. destruct ix as [[j sc]|]; [|lia].
      unfold one. destruct (_ =? _); lia.
    - destruct ix as [[j sc]|]; [|lia]. destruct (_ =? _); lia. }
  destruct Vb' as (k & Ek & Rk & Dk). rewrite Ek in Vb. clear Ek.
  destruct m as [r dd|dd|[mb|] dd i ms].
  - cbn [doc_ea regs st] in V0. apply mod_eq in V0; [|lia]. cbn [cpu_disp mem_ok] in *.
    exfalso. apply (based_never dd Mo). lia.
  - cbn [doc_ea] in *. rewrite V0 in Vb. apply mod_eq in Vb; lia.
  - cbn [doc_ea regs st] in V0.
    assert (Z0 : match i with RSP => 0 | _ => 0 * 2 ^ ms end = 0) by (destruct i; reflexivity).
    rewrite Z0 in V0. apply mod_eq in V0; [|lia]. cbn [cpu_disp mem_ok] in *.
    exfalso. apply (based_never dd (proj1 Mo)). lia.
  - cbn [mem_scale_ok mem_ok] in Ms, Mo. destruct Mo as [_ Mo]. unfold inu in Mo.
    pose proof (pow_le ms ltac:(lia)) as P.
    set (c := match i with RSP => 0 | _ => 2 ^ ms end).
    assert (Q : forall f, doc_ea (st [] f 0) n (MSib None dd i ms) (cpu_disp (MSib None dd i ms)) =
              (f (hw64 i) * c + cpu_disp (MSib None dd i ms)) mod W64).
    { intros f. cbn [doc_ea regs st]. f_equal. subst c. destruct i; lia. }
    rewrite Q in V0, Vb. apply mod_eq in V0; [|lia].
    assert (Rc : 0 <= c <= 8) by (subst c; destruct i; lia).
    destruct (reg64_dec i b) as [->|Ne].
    + rewrite one_same in Vb. apply mod_eq in Vb; [|lia].
      assert (Cb : c = 1 + k) by lia.
      assert (Nb : b <> RSP) by (intros ->; subst c; cbn in Cb; lia).
      assert (Cp : c = 2 ^ ms) by (subst c; destruct b; congruence).
      destruct ix as [[j sc]|].
      * right. exists b. split; [reflexivity|]. destruct O as [Nj Sc]. pose proof (pow_le sc Sc) as Ps.
        destruct (Z.eqb_spec (hw64 j) (hw64 b)) as [E|E].
        -- apply hw64_inj in E. subst j. do 2 f_equal. lia.
        -- exfalso. pose proof (V (one (hw64 j)) (one_range _)) as Vj. rewrite Q in Vj. cbn [want_ea] in Vj.
           change (2 ^ 64) with W64 in Vj. rewrite one_same, one_other in Vj by congruence.
           apply mod_eq in Vj; lia.
      * left. split; [reflexivity|congruence].
    + exfalso. rewrite one_other in Vb by (intros E; apply Ne, hw64_inj, E). apply mod_eq in Vb; lia.
Qed.

Lemma top_C91_addresses w : want_ok w ->
  (exists m, mem_ok m /\ mem_scale_ok m /\ lea_gives m w) <-> expressible w.
Proof.
  intros O. split.
  - intros (m & A & B & C). now apply (only_expressible m).
  - intros X. destruct (top_C91_operand w O X) as (A & B & C & _). now exists (operand_for w).
Qed.

(** ** pushes *)
Lemma load_same s s' a : mem_same s s' -> load 8 (mem s') a = load 8 (mem s) a.
Proof. intros M. unfold load. cbn [fetch]. now rewrite !M. Qed.
Lemma load_fill bs f v a : 100 <= a < 2 ^ 32 -> (length bs <= 15)%nat ->
  load 8 (mem (st bs f v)) a = lev [v; v; v; v; v; v; v; v].
Proof.
  intros R L. unfold load. cbn [fetch mem st].
  rewrite !Z.mod_small by (unfold W64; lia). now rewrite !nth_overflow by lia.
Qed.
Lemma not_16 (x : Z) : (x - 2) mod W64 = (x - 8) mod W64 -> False.
Proof. intros E. apply mod_eq in E; lia. Qed.

Lemma pushes_only i bs v : instr_ok i -> emits i bs -> pushes bs v ->
  (exists n, i = PushI8 n \/ i = PushI32 n) /\ push_value i mod W64 = v mod W64.
Proof.
  intros O Em P. destruct (emits_bytes i bs O Em) as [Len B].
  assert (G : forall c x, 200 <= c < 2 ^ 32 -> 0 <= x < 256 ->
     exists s', effect i (match instr_mem i with Some m => cpu_disp m | None => 0 end) (push_value i)
             (Z.of_nat (length bs)) (st bs (fun _ => c) x) s' /\ i <> Syscall /\
       regs s' rsp = (c - 8) mod W64 /\ load 8 (mem s') (regs s' rsp) = v mod W64).
  { intros c x Rc Rx. pose proof (st_ok bs (fun _ => c) x B ltac:(intro; unfold W64; lia) Rx) as Ok.
    pose proof (st_code bs (fun _ => c) x Len) as Co. destruct (P _ Ok Co) as (s' & S & E1 & E2).
    pose proof (top_C08 i bs _ O Em Ok Co) as T. rewrite S in T. destruct T as [T1 T2]. exists s'. repeat split; assumption. }
  assert (Same : (forall s s', effect i (match instr_mem i with Some m => cpu_disp m | None => 0 end) (push_value i)
             (Z.of_nat (length bs)) s s' -> mem_same s s') -> False).
  { intros M. assert (H : forall x, 0 <= x < 256 -> v mod W64 = lev [x; x; x; x; x; x; x; x]).
    { intros x Rx. destruct (G 200 x ltac:(lia) Rx) as (s' & E & _ & Er & El). apply M in E.
      rewrite Er, (load_same _ _ _ E), load_fill in El; [congruence| |exact Len].
      rewrite Z.mod_small by (unfold W64; lia). lia. }
    pose proof (H 0 ltac:(lia)) as H0. rewrite (H 1 ltac:(lia)) in H0. vm_compute in H0. discriminate. }
  destruct (G 200 0 ltac:(lia) ltac:(lia)) as (s' & E & Ns & Er & El).
  destruct i; try (exfalso; apply Same; intros s0 s1 X; cbn [effect] in X; tauto); cbn [effect] in E.
  all: try (exfalso; destruct E as [E _]; rewrite Er in E; cbn [regs st] in E; symmetry in E; now apply not_16 in E).
  all: try (split; [eexists; (now left) || (now right)|]; destruct E as (_ & E & _); congruence).
  - exfalso. destruct E as (_ & _ & E & _). rewrite (E rsp) in Er by (cbn; tauto). cbn [regs st] in Er. vm_compute in Er. discriminate.
  - exfalso. destruct (G 300 0 ltac:(lia) ltac:(lia)) as (s1 & E1 & _ & Er1 & El1). cbn [effect] in E1.
    destruct E as (_ & E & _), E1 as (_ & E1 & _). cbn [regs st] in E, E1. rewrite E in El. rewrite E1 in El1. lia.
Qed.
Lemma push_pushes i bs : instr_ok i -> emits i bs -> (exists n, i = PushI8 n \/ i = PushI32 n) -> pushes bs (push_value i).
Proof.
  intros O Em H s Ok Co. pose proof (top_C08 i bs s O Em Ok Co) as T.
  destruct (step s) as [s'|s'|]; [| |contradiction].
  - exists s'. split; [reflexivity|]. destruct T as [_ T]. destruct H as [n [->| ->]]; cbn [effect] in T; tauto.
  - destruct T as [T _]. destruct H as [n [->| ->]]; discriminate.
Qed.

Lemma i64_mod a b : - 2 ^ 31 <= a < 2 ^ 31 -> in_i64 b -> a mod W64 = b mod W64 -> a = b.
Proof.
  unfold in_i64. intros A B E. assert (D : (a - b) mod W64 = 0) by (rewrite Zminus_mod, E, Z.sub_diag; reflexivity).
  apply Z.mod_divide in D; [|unfold W64; lia]. destruct D as [k D]. unfold W64 in D. lia.
Qed.
Lemma push_instr_range i : instr_ok i -> (exists n, i = PushI8 n \/ i = PushI32 n) -> - 2 ^ 31 <= push_value i < 2 ^ 31.
Proof.
  intros O [n [->| ->]]; cbn [instr_ok push_value] in *; unfold inu in O; unfold sext.
  - change (2 ^ (8 - 1)) with 128. destruct (_ <? _) eqn:E; lia.
  - change (2 ^ (32 - 1)) with (2 ^ 31). destruct (_ <? _) eqn:E; lia.
Qed.

(** any instruction of the library *)
Lemma top_C91_push_instr v : in_i64 v ->
  (exists i bs, instr_ok i /\ emits i bs /\ pushes bs v) <-> - 2 ^ 31 <= v < 2 ^ 31.
Proof.
  intros R. split.
  - intros (i & bs & O & Em & P). destruct (pushes_only i bs v O Em P) as [K E].
    pose proof (push_instr_range i O K) as Q. apply i64_mod in E; [lia|exact Q|exact R].
  - intros V. assert (O : instr_ok (PushI32 (v mod 2 ^ 32))) by (apply Z.mod_pos_bound; lia).
    destruct (emits_total _ O) as [bs Em]; [discriminate|]. exists (PushI32 (v mod 2 ^ 32)), bs.
    split; [exact O|]. split; [exact Em|].
    pose proof (push_pushes _ _ O Em ltac:(eexists; now right)) as P. cbn [push_value] in P.
    change (v mod 2 ^ 32) with (u32_of v) in P at 1. rewrite sext32_u32 in P by exact V. exact P.
Qed.

Lemma accepts_push p body i : accepts p body (StInstr i) -> (exists n, i = PushI8 n \/ i = PushI32 n) ->
  - 2 ^ 31 <= push_value i < 2 ^ 31 /\ ~ (128 <= push_value i <= 255).
Proof.
  intros A [n H]. split; [apply push_instr_range; [apply (accepts_ok p body), A|eauto]|].
  inversion A; subst.
  - match goal with M : mov_operands _ _ _ _ |- _ => inversion M; subst; destruct H; discriminate end.
  - destruct H; discriminate.
  - destruct H as [H|H]; [|discriminate]. injection H as ->.
    match goal with N : number 8 _ _ |- _ => apply number_rng in N; cbn [push_value]; unfold sext; change (2 ^ (8 - 1)) with 128 end.
    change (2 ^ 8) with 256 in *. destruct (_ <? _) eqn:E; lia.
  - destruct H as [H|H]; [discriminate|]. injection H as ->.
    match goal with N : number 32 _ _ |- _ => apply number_rng in N; cbn [push_value]; unfold sext; change (2 ^ (32 - 1)) with (2 ^ 31) end.
    destruct (_ <? _) eqn:E; lia.
  - destruct H; discriminate.
  - destruct H; discriminate.
Qed.

(** one source line *)
Lemma top_C91_push p v : in_i64 v ->
  (exists s i, line_parse p s = POk (LInst i) /\ pushes (bam_ref (in_bytes i)) v) <->
  - 2 ^ 31 <= v < 2 ^ 31 /\ ~ (128 <= v <= 255).
Proof.
  intros R. split.
  - intros (s & i & E & P). apply line_sound in E. destruct E as (body & t & _ & A & M).
    cbn [means] in M. destruct t as [| | | | |k|r y|r y]; try contradiction.
    + destruct M as [Em _]. destruct (accepts_ok _ _ _ A) as [O _].
      destruct (pushes_only k _ v O Em P) as [K E]. pose proof (accepts_push _ _ _ A K) as Q.
      apply i64_mod in E; [rewrite <- E; exact Q|apply Q|exact R].
    + destruct M as [Em _]. destruct (pushes_only (MovRI64 r 0) _ v ltac:(cbn; unfold inu; lia) Em P) as [[n [K|K]] _]; discriminate.
    + destruct M as [Em _]. destruct (pushes_only (MovRI32 r 0) _ v ltac:(cbn; unfold inu; lia) Em P) as [[n [K|K]] _]; discriminate.
  - intros [V N]. set (n := v mod 2 ^ 32).
    assert (Rn : 0 <= n < 2 ^ 32) by (apply Z.mod_pos_bound; lia).
    pose proof (sext32_u32 v V) as Sx. change (u32_of v) with n in Sx.
    pose proof (show_decimal n ltac:(lia)) as D. set (ds := show_u64 n) in *.
    pose proof (decimal_word _ _ D) as Wd. pose proof (decimal_number 32 _ _ D ltac:(lia)) as Nu.
    assert (Ws : words (lit "push " ++ ds) [lit "push"; ds]) by (apply (words_two (lit "push")); [apply word_dec; reflexivity|exact Wd]).
    assert (Lt : line_text (lit "push " ++ ds) (lit "push " ++ ds)).
    { split; [|now left]. intros I. apply in_app_or in I. destruct I as [I|I]; [vm_compute in I; intuition discriminate|].
      apply (line_chars_one _ (decimal_line _ _ D)), I. }
    assert (U : forall u t l, [ds] <> unit_name u :: t :: l) by (intros; discriminate).
    destruct (proj1 (proj2 (top_C43_push p _ _ ds [] Lt Ws U)) n Nu) as (i & E & Em & _).
    exists (lit "push " ++ ds), i. split; [exact E|].
    assert (O : instr_ok (if n <? 256 then PushI8 n else PushI32 n)) by (destruct (n <? 256) eqn:Q; cbn; unfold inu; lia).
    pose proof (push_pushes _ _ O Em) as P.
    replace v with (push_value (if n <? 256 then PushI8 n else PushI32 n)).
    + apply P. exists n. destruct (_ <? _); [now left|now right].
    + clear -Sx N Rn. unfold sext in Sx. change (2 ^ (32 - 1)) with (2 ^ 31) in Sx. destruct (n <? 256) eqn:Q.
      * destruct (n <? 2 ^ 31) eqn:Q2; [|lia]. cbn [push_value]. unfold sext. change (2 ^ (8 - 1)) with 128.
        destruct (n <? 128) eqn:Q3; lia.
      * cbn [push_value]. unfold sext. change (2 ^ (32 - 1)) with (2 ^ 31). exact Sx.
Qed.

Lemma top_C91_constructors r d : - 2 ^ 31 <= d < 2 ^ 31 ->
  (~ (128 <= d <= 256) ->
   lea_gives (mem_reg_offset r (d mod 2 ^ 32)) (WReg (Some r) None d) /\ store_goes (mem_reg_offset r (d mod 2 ^ 32)) (WReg (Some r) None d)) /\
  lea_gives (mem_rip_offset (d mod 2 ^ 32)) (WRip d) /\ store_goes (mem_rip_offset (d mod 2 ^ 32)) (WRip d) /\
  lea_gives (mem_reg r) (WReg (Some r) None 0) /\ store_goes (mem_reg r) (WReg (Some r) None 0).
Proof.
  intros D. split; [|split; [|split]].
  - intros N. destruct (top_C91_operand (WReg (Some r) None d) (conj D I) (or_introl N)) as (_ & _ & A & B). cbn [operand_for] in A, B.
    replace ((128 <=? d) && (d <=? 256)) with false in A, B by lia. now split.
  - exact (proj1 (proj2 (proj2 (top_C91_operand (WRip d) D I)))).
  - exact (proj2 (proj2 (proj2 (top_C91_operand (WRip d) D I)))).
  - assert (Z : - 2 ^ 31 <= 0 < 2 ^ 31) by lia. assert (N : ~ (128 <= 0 <= 256)) by lia.
    destruct (top_C91_operand (WReg (Some r) None 0) (conj Z I) (or_introl N)) as (_ & _ & A & B). now split.
Qed.
