(** What the readers return is plain: lemmas for C98. *)
From Coq Require Import Bool Sorting.Sorted.
From Verif Require Import Base Str X64 Mac SpecMacho Obj SpecObj Asm Derive SpecDerive PfBytes PfStr PfMac PfMacRec PfMacRead PfMacTop PfMacTop2 Equal SpecEqual PfEqual PfEqual2.

Lemma utf8_plain s l : utf8 s = until_nul l -> plain_name s.
Proof.
  intros E t ->. pose proof (until_nul_clean l) as C. rewrite <- E, utf8_app in C. apply Forall_app in C. destruct C as (_ & C).
  change (utf8 [0]) with [0] in C. inversion C. congruence.
Qed.
Lemma list_at_all {A} (P : nat -> A -> Prop) k o l : list_at P k o l -> Forall (fun x => exists i, P i x) l.
Proof.
  revert o. induction l as [|a l IH]; intros o H; [constructor|]. destruct H as (H & H'). constructor; [eauto|eapply IH; eauto].
Qed.
(** ranges *)
Lemma f32 e o l : bytes_ok l -> (o + 4 <= length l)%nat -> inu 32 (fld e o 4 l).
Proof. intros B L. exact (fld_range e o 4 l B L). Qed.
Lemma f64 e o l : bytes_ok l -> (o + 8 <= length l)%nat -> inu 64 (fld e o 8 l).
Proof. intros B L. exact (fld_range e o 8 l B L). Qed.
Lemma fi32 e o l : bytes_ok l -> (o + 4 <= length l)%nat -> ini 32 (fld_i32 e o l).
Proof.
  intros B L. pose proof (f32 e o l B L) as R. unfold fld_i32, signed, ini, inu in *. destruct (_ <? _) eqn:E; lia.
Qed.
Ltac rng := repeat match goal with |- _ /\ _ => split end; first [assumption |
  match goal with H : fld _ _ _ _ = ?t |- inu _ ?t => rewrite <- H | H : fld_i32 _ _ _ = ?t |- ini _ ?t => rewrite <- H end;
  first [apply f32 | apply f64 | apply fi32 | (apply (fld_range _ _ 1)) | (apply (fld_range _ _ 2))]; first [assumption | lia]].
Lemma segment_at_rng e o l x : bytes_ok l -> segment_at e o l x -> str_ok (sg_segname x) -> segment_rng x.
Proof. intros B A S. unfold segment_at in A. decompose [and] A. clear A. unfold segment_rng. rng. Qed.
Lemma section_at_rng e o l x : bytes_ok l -> section_at e o l x -> str_ok (sc_sectname x) -> str_ok (sc_segname x) -> section_rng x.
Proof. intros B A S T. unfold section_at in A. decompose [and] A. clear A. unfold section_rng. rng. Qed.
Lemma symtab_at_rng e o l x : bytes_ok l -> symtab_at e o l x -> symtab_rng x.
Proof. intros B A. unfold symtab_at in A. decompose [and] A. clear A. unfold symtab_rng. rng. Qed.
Lemma dysymtab_at_rng e o l x : bytes_ok l -> dysymtab_at e o l x -> dysymtab_rng x.
Proof. intros B A. unfold dysymtab_at in A. decompose [and] A. clear A. unfold dysymtab_rng. rng. Qed.
Lemma build_version_at_rng e o l x : bytes_ok l -> build_version_at e o l x -> version_rng (bv_minos x) -> version_rng (bv_sdk x) -> build_version_rng x.
Proof. intros B A V W. unfold build_version_at in A. decompose [and] A. clear A. unfold build_version_rng. rng. Qed.
Lemma build_tool_at_rng e o l x : bytes_ok l -> build_tool_at e o l x -> build_tool_rng x.
Proof. intros B A. unfold build_tool_at in A. decompose [and] A. clear A. unfold build_tool_rng. rng. Qed.
Lemma nlist_at_rng e o l x : bytes_ok l -> nlist_at e o l x -> nlist_rng x.
Proof. intros B A. unfold nlist_at in A. decompose [and] A. clear A. unfold nlist_rng. rng. Qed.
Lemma reloc_at_rng e o l x : bytes_ok l -> reloc_at e o l x -> reloc_fits x -> reloc_rng x.
Proof.
  intros B (L & A & _) (F & G). unfold reloc_rng. split; [rewrite <- A; apply fi32; [exact B|lia]|]. unfold inu in *. lia.
Qed.
Lemma top_C98_read p h v bs rest : bytes_ok bs -> read_value p h v bs rest -> value_ok v /\ plain v /\ fits_fields v.
Proof.
  intros B. destruct v; cbn [read_value plain fits_fields value_ok]; try contradiction.
  - intros (e & H). apply (header_read h 0) in H; [|exact B]. destruct H as (_ & _ & A & S & _). split; [|tauto].
    unfold header_at in A. decompose [and] A. clear A. unfold header_rng. rng.
  - intros H. apply (segment_read p h 0) in H; [|exact B]. destruct H as (A & S & _). split; [now apply (segment_at_rng h 0 bs)|].
    destruct A as (_ & _ & _ & N & _). split; [|trivial]. symmetry in N. eapply utf8_plain. exact N.
  - intros H. apply (section_read h 0) in H; [|exact B]. destruct H as (A & S & T & C & _). split; [now apply (section_at_rng h 0 bs)|].
    destruct A as (_ & N & N' & _). split; [|trivial]. symmetry in N, N'.
    split; [eapply utf8_plain; exact N|]. split; [eapply utf8_plain; exact N'|exact C].
  - intros H. apply (symtab_read h 0) in H; [|exact B]. split; [|tauto]. now apply (symtab_at_rng h 0 bs).
  - intros H. apply (dysymtab_read h 0) in H; [|exact B]. split; [|tauto]. now apply (dysymtab_at_rng h 0 bs).
  - intros H. apply (build_version_read p h 0) in H; [|exact B]. split; [|tauto]. now apply (build_version_at_rng h 0 bs).
  - intros H. apply (build_tool_read h 0) in H; [|exact B]. split; [|tauto]. now apply (build_tool_at_rng h 0 bs).
  - intros H. apply (lc_read p h 0) in H; [|exact B]. destruct H as (A & V & _). destruct x as [c l|c|c|c l]; cbn [lc_at lc_valid] in *.
    + destruct A as (A0 & A). destruct V as (S & V & _ & _ & F). apply list_at_all in A. rewrite Forall_forall in A, F. split; [split|].
      * now apply (segment_at_rng h 0 bs).
      * apply Forall_forall. intros x X. destruct (A x X) as (i & Ai). destruct (F x X) as (S1 & S2 & _). now apply (section_at_rng h i bs).
      * split; [|exact V]. destruct A0 as (_ & _ & _ & N & _). symmetry in N. split; [eapply utf8_plain; exact N|].
        apply Forall_forall. intros x X. destruct (A x X) as (i & (_ & N1 & N2 & _)). symmetry in N1, N2.
        split; [eapply utf8_plain; exact N1|]. split; [eapply utf8_plain; exact N2|]. now apply F.
    + split; [|tauto]. now apply (symtab_at_rng h 0 bs).
    + split; [|tauto]. now apply (dysymtab_at_rng h 0 bs).
    + destruct A as (A0 & A). destruct V as (V1 & V2 & V3 & _). split; [split|tauto].
      * now apply (build_version_at_rng h 0 bs).
      * apply list_at_all in A. eapply Forall_impl; [|exact A]. cbn. intros x (i & Ai). now apply (build_tool_at_rng h i bs).
  - intros H. apply (nlist_read h 0) in H; [|exact B]. split; [|tauto]. now apply (nlist_at_rng h 0 bs).
  - intros H. apply (reloc_read h 0) in H; [|exact B]. split; [|tauto]. destruct H as (A & F & _). now apply (reloc_at_rng h 0 bs).
Qed.
Lemma top_C98_reread p q h h' a b bs cs r r' k f g : bytes_ok bs -> bytes_ok cs -> type_of a = type_of b -> read_value p h a bs r -> read_value q h' b cs r' ->
  write_value k a = Some (f, true) -> write_value k b = Some (g, true) -> (f = g <-> eq_value a b = true).
Proof.
  intros B C T Ra Rb Wa Wb. destruct (top_C98_read p h a bs r B Ra) as (A1 & A2 & A3), (top_C98_read q h' b cs r' C Rb) as (B1 & B2 & B3).
  now apply (top_C98_plain k).
Qed.
