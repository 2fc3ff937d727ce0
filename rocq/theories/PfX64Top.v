(** Statements about the encoder in the form used by PropsX64.v. *)
From Coq Require Import ZifyBool ZifyNat.
From Verif Require Import Base X64 SpecX86 PfX64 PfX86.

Lemma emits_fun i a b : emits i a -> emits i b -> a = b.
Proof. intros (x & E & <-) (y & E' & <-). rewrite E in E'. now injection E' as ->. Qed.

Lemma emits_scale i bs : instr_ok i -> emits i bs -> instr_scale_ok i.
Proof.
  intros H (b & E & _). unfold instr_scale_ok. destruct (instr_mem i) as [m|] eqn:Em; [|exact I].
  destruct m as [r d|d|b' d ix s]; cbn; try exact I.
  destruct (Z_le_gt_dec s 3) as [|G]; [assumption|exfalso].
  rewrite bytecode_scale_panic in E; [discriminate|assumption|].
  unfold instr_scale_ok. rewrite Em. cbn. lia.
Qed.

Lemma emits_inv i bs : instr_ok i -> emits i bs -> bs = instr_bytes i /\ instr_scale_ok i.
Proof.
  intros H E. pose proof (emits_scale i bs H E) as S. split; [|assumption].
  apply (emits_fun i); [assumption|]. now apply emits_bytes.
Qed.

Lemma nomem_scale i : instr_mem i = None -> instr_scale_ok i.
Proof. unfold instr_scale_ok. now intros ->. Qed.

Lemma nomem_op i : instr_mem i = None -> cpu_op i = doc_op i.
Proof. unfold cpu_op, doc_op. now intros ->. Qed.

Lemma top_C01 i rest : instr_ok i -> instr_mem i = None ->
  exists bs, emits i bs /\ decode (bs ++ rest) = Some (doc_op i, rest).
Proof.
  intros H Hn. exists (instr_bytes i). pose proof (nomem_scale i Hn) as Hs. split; [now apply emits_bytes|].
  rewrite decode_bytes by assumption. now rewrite nomem_op.
Qed.

Lemma top_C02 i m rest : instr_ok i -> instr_mem i = Some m -> mem_scale_ok m ->
  exists bs, emits i bs /\ decode (bs ++ rest) = Some (doc_op_with i (cpu_disp m) 0, rest).
Proof.
  intros H Hm Hs0. assert (instr_scale_ok i) as Hs by (unfold instr_scale_ok; now rewrite Hm).
  exists (instr_bytes i). split; [now apply emits_bytes|].
  rewrite decode_bytes by assumption. unfold cpu_op. rewrite Hm.
  destruct i; try discriminate; reflexivity.
Qed.

Lemma doc_addr_inj m d d' : doc_addr m d = doc_addr m d' -> d = d'.
Proof. destruct m as [r x|x|[b|] x i s]; cbn [doc_addr]; congruence. Qed.

Lemma top_C02_iff i m rest : instr_ok i -> instr_mem i = Some m -> mem_scale_ok m ->
  exists bs, emits i bs /\
    (decode (bs ++ rest) = Some (doc_op i, rest) <-> disp_exact m).
Proof.
  intros H Hm Hs0. destruct (top_C02 i m rest H Hm Hs0) as (bs & E & D). exists bs. split; [assumption|].
  rewrite D. assert (mem_ok m) as Hok by (destruct i; try discriminate; cbn in *; injection Hm as <-; assumption).
  rewrite <- (cpu_disp_exact m Hok).
  unfold doc_op. rewrite Hm. split.
  - intros X. destruct i; try discriminate; cbn [doc_op_with instr_mem] in *; injection Hm as ->;
    assert (doc_addr m (cpu_disp m) = doc_addr m (mem_disp m)) as Y by congruence;
    now apply doc_addr_inj in Y.
  - intros ->. destruct i; try discriminate; reflexivity.
Qed.

Lemma top_C02_refuted :
  exists i m bs, instr_ok i /\ instr_mem i = Some m /\ emits i bs /\
    decode bs <> Some (doc_op i, []) /\
    decode bs = Some (OLea 64 0 {| a_base := BReg 3; a_index := None; a_disp := -128 |}, []).
Proof.
  exists (Lea64 RAX (RegOffset RBX 128)), (RegOffset RBX 128), [0x48; 0x8D; 0x43; 0x80].
  split; [unfold instr_ok, mem_ok, inu; lia|]. split; [reflexivity|].
  split; [eexists; split; vm_compute; reflexivity|]. split; [discriminate|reflexivity].
Qed.

Lemma map_emits is bss :
  Forall instr_ok is -> Forall2 emits is bss ->
  concat bss = seq_bytes is /\ Forall (fun i => instr_ok i /\ instr_scale_ok i) is.
Proof.
  intros HF H2. unfold seq_bytes. induction H2 as [|i bs is bss E _ IH].
  - split; [reflexivity|constructor].
  - inversion_clear HF as [|? ? Hi HF']. destruct (IH HF') as [E1 E2].
    destruct (emits_inv i bs Hi E) as [-> Hs]. split.
    + cbn [map concat]. now rewrite E1.
    + constructor; [now split|assumption].
Qed.

Lemma top_C03 is bss fuel :
  Forall instr_ok is -> Forall2 emits is bss -> (length (concat bss) <= fuel)%nat ->
  decode_all fuel (concat bss) = Some (map cpu_op is).
Proof.
  intros HF H2 Hf. destruct (map_emits is bss HF H2) as [E F]. rewrite E in *. now apply decode_all_seq.
Qed.

Lemma top_C03_prefix i j a b l :
  instr_ok i -> instr_ok j -> emits i a -> emits j b -> b = a ++ l -> l = [] /\ cpu_op i = cpu_op j.
Proof.
  intros Hi Hj Ea Eb E. destruct (emits_inv i a Hi Ea) as [-> Hsi]. destruct (emits_inv j b Hj Eb) as [-> Hsj].
  now apply (prefix_free i j l).
Qed.

Lemma top_C04 i : instr_ok i ->
  match bytecode_of i with
  | Ok b => (1 <= length (bam_ref b) <= 15)%nat /\ bytes_ok (bam_ref b) /\ bam_len b = length (bam_ref b)
  | Panic => exists b d ix s, instr_mem i = Some (MSib b d ix s) /\ 3 < s
  end.
Proof.
  intros H.
  assert (instr_scale_ok i \/ exists b d ix s, instr_mem i = Some (MSib b d ix s) /\ 3 < s) as [Hs|Hs].
  { unfold instr_scale_ok. destruct (instr_mem i) as [m|]; [|now left].
    destruct m as [r d|d|b d ix s]; try (now left). destruct (Z_le_gt_dec s 3); [now left|right].
    exists b, d, ix, s. split; [reflexivity|lia]. }
  - destruct (bytecode_bytes i H Hs) as (b & -> & Hw & R). rewrite R. split; [now apply instr_bytes_length|].
    split; [now apply instr_bytes_ok|]. rewrite <- R. symmetry. now apply bam_ref_length.
  - assert (~ instr_scale_ok i) as Hn.
    { destruct Hs as (b & d & ix & s & E & G). unfold instr_scale_ok. rewrite E. cbn. lia. }
    now rewrite (bytecode_scale_panic i H Hn).
Qed.

Lemma top_C04_panic i b d ix s : instr_ok i -> instr_mem i = Some (MSib b d ix s) -> 3 < s ->
  bytecode_of i = Panic.
Proof.
  intros H E G. apply bytecode_scale_panic; [assumption|]. unfold instr_scale_ok. rewrite E. cbn. lia.
Qed.

Lemma top_C04_ctor b d ix s :
  mem_sib b d ix s = if s <=? 3 then Ok (MSib b d ix s) else Panic.
Proof. unfold mem_sib, rassert, bind. destruct (s <=? 3); reflexivity. Qed.

Lemma top_C05_32 r n bs : emits (MovRI32 r n) bs -> inu 32 n ->
  skipn (Z.to_nat (offset_to_imm32 r)) bs = le_bytes 4 n /\
  (forall n' bs', inu 32 n' -> emits (MovRI32 r n') bs' ->
     firstn (Z.to_nat (offset_to_imm32 r)) bs' = firstn (Z.to_nat (offset_to_imm32 r)) bs).
Proof.
  intros E H. destruct (emits_inv (MovRI32 r n) bs H E) as [-> _].
  split.
  - destruct r; reflexivity.
  - intros n' bs' H' E'. destruct (emits_inv (MovRI32 r n') bs' H' E') as [-> _]. destruct r; reflexivity.
Qed.

Lemma top_C05_64 r n bs : emits (MovRI64 r n) bs -> inu 64 n ->
  skipn (Z.to_nat (offset_to_imm64 r)) bs = le_bytes 8 n /\
  (forall n' bs', inu 64 n' -> emits (MovRI64 r n') bs' ->
     firstn (Z.to_nat (offset_to_imm64 r)) bs' = firstn (Z.to_nat (offset_to_imm64 r)) bs).
Proof.
  intros E H. destruct (emits_inv (MovRI64 r n) bs H E) as [-> _].
  split.
  - destruct r; reflexivity.
  - intros n' bs' H' E'. destruct (emits_inv (MovRI64 r n') bs' H' E') as [-> _]. destruct r; reflexivity.
Qed.

(** what "little-endian immediate" means, without le_bytes *)
Lemma le_bytes_lev n l : bytes_ok l -> length l = n -> le_bytes n (lev l) = l.
Proof.
  intros H <-. induction l as [|b l IH]; [reflexivity|]. inversion_clear H as [|? ? Hb Hl].
  cbn [length le_bytes lev]. unfold isbyte in Hb. f_equal.
  - rewrite Z.mul_comm, Z.mod_add by lia. apply Z.mod_small. lia.
  - rewrite Z.mul_comm, Z.div_add by lia. rewrite Z.div_small by lia. cbn [Z.add]. now apply IH.
Qed.

Lemma top_C06_array max a :
  (exists b, bam_from_array max a = Ok b /\ bam_ref b = a /\ bam_len b = length a) <-> (length a <= max)%nat.
Proof.
  split.
  - intros (b & E & _). apply bam_from_array_iff. eauto.
  - intros H. apply is_bam_len. now apply bam_from_array_ok.
Qed.

Lemma top_C06_int max n :
  ((exists b, bam_from_u8 max n = Ok b /\ bam_ref b = [n] /\ bam_len b = 1%nat) <-> (1 <= max)%nat) /\
  ((exists b, bam_from_u16 max n = Ok b /\ bam_ref b = le_bytes 2 n /\ bam_len b = 2%nat) <-> (2 <= max)%nat) /\
  ((exists b, bam_from_u32 max n = Ok b /\ bam_ref b = le_bytes 4 n /\ bam_len b = 4%nat) <-> (4 <= max)%nat) /\
  ((exists b, bam_from_u64 max n = Ok b /\ bam_ref b = le_bytes 8 n /\ bam_len b = 8%nat) <-> (8 <= max)%nat).
Proof.
  split; [|split; [|split]]; split.
  - intros (b & E & _). eapply bam_from_u8_iff. eauto.
  - intros H. pose proof (is_bam_len _ _ (bam_from_u8_ok max n H)) as P. exact P.
  - intros (b & E & _). eapply bam_from_u16_iff. eauto.
  - intros H. pose proof (is_bam_len _ _ (bam_from_u16_ok max n H)) as P. exact P.
  - intros (b & E & _). eapply bam_from_u32_iff. eauto.
  - intros H. pose proof (is_bam_len _ _ (bam_from_u32_ok max n H)) as P. exact P.
  - intros (b & E & _). eapply bam_from_u64_iff. eauto.
  - intros H. pose proof (is_bam_len _ _ (bam_from_u64_ok max n H)) as P. exact P.
Qed.

Lemma top_C06_set max b k v :
  bam_built max b ->
  ((k < bam_len b)%nat ->
     exists b', bam_set b k v = Ok b' /\ bam_len b' = bam_len b /\
       bam_ref b' = firstn k (bam_ref b) ++ v :: skipn (S k) (bam_ref b)) /\
  ((bam_len b <= k)%nat -> bam_set b k v = Panic).
Proof.
  intros H. apply bam_built_inv in H. destruct H as (L & Hl & _).
  assert (bam_wf b) as W by (unfold bam_wf; lia). split.
  - intros Hk. destruct (bam_set b k v) as [b'|] eqn:E.
    + exists b'. split; [reflexivity|]. destruct (bam_set_ref b k v b' W E) as (_ & E1 & E2). now split.
    + unfold bam_set in E. destruct (Nat.ltb_spec k (bam_len b)); [discriminate|lia].
  - intros Hk. unfold bam_set. destruct (Nat.ltb_spec k (bam_len b)); [lia|reflexivity].
Qed.

Lemma top_C08 i bs s : instr_ok i -> emits i bs -> mach_ok s -> code_at s bs ->
  match step s with
  | Next s' =>
      i <> Syscall /\
      effect i (match instr_mem i with Some m => cpu_disp m | None => 0 end) (push_value i)
             (Z.of_nat (length bs)) s s'
  | SysCall s' => i = Syscall /\ effect i 0 0 (Z.of_nat (length bs)) s s'
  | Fault => False
  end.
Proof.
  intros H E Hm Hc. destruct (emits_inv i bs H E) as [-> Hs]. now apply step_effect.
Qed.

Lemma top_C08_exact i m bs s : instr_ok i -> emits i bs -> mach_ok s -> code_at s bs ->
  instr_mem i = Some m -> disp_exact m ->
  exists s', step s = Next s' /\ effect i (mem_disp m) 0 (Z.of_nat (length bs)) s s'.
Proof.
  intros H E Hm Hc Em Hd. pose proof (top_C08 i bs s H E Hm Hc) as X. rewrite Em in X.
  assert (mem_ok m) as Hok by (destruct i; try discriminate; cbn in *; injection Em as <-; assumption).
  apply (cpu_disp_exact m Hok) in Hd. rewrite Hd in X.
  assert (push_value i = 0) as Hp by (destruct i; try discriminate; reflexivity). rewrite Hp in X.
  destruct (step s) as [s'|s'|]; [|destruct X as [-> _]; discriminate|contradiction].
  exists s'. now split.
Qed.

Lemma top_straight is bss s :
  Forall instr_ok is -> Forall straight is -> Forall2 emits is bss ->
  mach_ok s -> code_at s (concat bss) ->
  exists s', steps (length is) s = Next s' /\ runs is s s' /\ mem_same s s' /\
             rip s' = (rip s + Z.of_nat (length (concat bss))) mod W64.
Proof.
  intros HF HS H2 Hm Hc. destruct (map_emits is bss HF H2) as [E F]. unfold code_at in Hc. rewrite E in *.
  destruct (steps_straight is s) as (s' & E1 & R & M & P); try assumption.
  - rewrite Forall_forall in *. intros i Hi. destruct (F i Hi). split; [assumption|]. split; [assumption|]. now apply HS.
  - exists s'. split; [assumption|]. split; [assumption|]. split; [intros a; now rewrite M|assumption].
Qed.
