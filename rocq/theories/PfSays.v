(** Proofs about panic messages. *)
From Coq Require String.
Import String.StringSyntax.
From Coq Require Import ZifyBool ZifyNat Sorting.Sorted.
From Verif Require Import Base Str SpecAsm SpecDiag Mac SpecMacho SpecMore Cli SpecCli SpecOs X64 Obj Asm Assembler SpecRun Says SpecSays
  PfStr PfTok PfBytes PfMac PfMacRead PfMacTop PfMore PfDiag PfOs.
Ltac Zify.zify_post_hook ::= Z.div_mod_to_equations.

(** ** Forgetting the messages *)

Definition agrees {A} (s : sreader A) (m : reader A) : Prop := forall l, forget (s l) = m l.
Lemma ag_quiet {A} (m : reader A) : agrees (sr_quiet m) m.
Proof. intros l. unfold sr_quiet, quiet_res. now destruct (m l). Qed.
Lemma ag_ret {A} (a : A) : agrees (sr_ret a) (rret a).
Proof. intros l. reflexivity. Qed.
Lemma ag_bind {A B} (s : sreader A) m (k : A -> sreader B) k' : agrees s m -> (forall a, agrees (k a) (k' a)) -> agrees (sr_bind s k) (rbind m k').
Proof. intros H K l. unfold sr_bind, rbind. rewrite <- H. destruct (s l) as [[a l']|w]; cbn [forget]; [apply K|reflexivity]. Qed.
Lemma ag_lift {A} (s : say A) m : forget s = m -> agrees (sr_lift s) (rlift m).
Proof. intros <- l. now destruct s. Qed.
Lemma ag_many {A} n (s : sreader A) m : agrees s m -> agrees (sr_many n s) (read_many n m).
Proof. intros H. induction n as [|n IH]; cbn [sr_many read_many]; [apply ag_ret|]. apply ag_bind; [exact H|]. intros a. apply ag_bind; [exact IH|]. intros x. apply ag_ret. Qed.
Lemma forget_quiet {A} (m : res A) : forget (quiet_res m) = m.
Proof. now destruct m. Qed.
Lemma forget_or {A} (o : option A) m : forget (or_panic o m) = unwrap o.
Proof. now destruct o. Qed.
Lemma forget_bits n is : forget (s_bits s_section_attr n is) = bits_from section_attr_from_u32 n is.
Proof.
  induction is as [|i is IH]; [reflexivity|]. cbn [s_bits bits_from]. destruct (negb _); [|exact IH].
  unfold section_attr_from_u32 at 1. rewrite <- (forget_or _ (lit "Unsupported section attribute 0x" ++ show_upper (Z.land n (Z.shiftl 1 i)))).
  fold (s_section_attr (Z.land n (Z.shiftl 1 i))). destruct (s_section_attr _); cbn [sbind forget bind]; [|reflexivity].
  rewrite <- IH. now destruct (s_bits _ _ _).
Qed.
Lemma forget_cpu t s : forget (s_cpu t s) = cpu_from t s.
Proof. unfold s_cpu, cpu_from. destruct (t =? CPU_TYPE_X86) eqn:E; cbn [orb]; [apply forget_quiet|]. destruct (t =? CPU_TYPE_X86_64); [apply forget_quiet|reflexivity]. Qed.
Lemma forget_field n : forget (s_n_type_field n) = n_type_field_from_u8 n.
Proof.
  unfold s_n_type_field, n_type_field_from_u8. destruct (_ =? 0).
  - unfold n_type_from_u8. rewrite <- (forget_or _ (lit "Invalid n_type number " ++ show_u64 (Z.land n N_TYPE_MASK))). fold (s_n_type (Z.land n N_TYPE_MASK)).
    now destruct (s_n_type _).
  - unfold debug_symbol_from_u8. rewrite <- (forget_or _ (lit "Unsupported debug symbol " ++ show_u64 (Z.land n N_STAB_MASK))). fold (s_debug_symbol (Z.land n N_STAB_MASK)).
    now destruct (s_debug_symbol _).
Qed.
Ltac ags := repeat first [ apply ag_ret | apply ag_quiet
  | apply ag_lift; first [apply forget_quiet|apply forget_or|apply forget_bits|apply forget_cpu|apply forget_field|reflexivity]
  | apply ag_bind; [|intros ?] ].
Lemma ag_section e : agrees (s_section64 e) (read_section64 e).
Proof. unfold s_section64, read_section64. ags. Qed.
Lemma ag_bv p e : agrees (s_build_version p e) (read_build_version p e).
Proof. unfold s_build_version, read_build_version. ags. Qed.
Lemma ag_tool e : agrees (s_build_tool e) (read_build_tool e).
Proof. unfold s_build_tool, read_build_tool. ags. Qed.
Lemma ag_nlist e : agrees (s_nlist64 e) (read_nlist64 e).
Proof. unfold s_nlist64, read_nlist64. ags. Qed.
Lemma ag_lc p e : agrees (s_load_command p e) (read_load_command p e).
Proof.
  intros l. unfold s_load_command, read_load_command. destruct (read_u32 e l) as [[cmd l']|]; [|reflexivity].
  repeat match goal with |- context [if ?b then _ else _] => destruct b end; cbn zeta.
  - apply ag_bind; [apply ag_quiet|]. intros c. apply ag_bind; [apply ag_many, ag_section|]. intros x. apply ag_ret.
  - apply ag_bind; [apply ag_quiet|]. intros c. apply ag_ret.
  - apply ag_bind; [apply ag_quiet|]. intros c. apply ag_ret.
  - apply ag_bind; [apply ag_bv|]. intros c. apply ag_bind; [apply ag_many, ag_tool|]. intros x. apply ag_ret.
  - reflexivity.
Qed.
Lemma ag_header h : agrees (s_header64 h) (read_header64 h).
Proof.
  intros l. unfold s_header64, read_header64.
  apply ag_bind; [apply ag_quiet|]. intros n. apply ag_bind; [apply ag_lift, forget_quiet|]. intros m.
  apply ag_bind; [apply ag_lift; now destruct m|]. intros e. apply ag_bind; [apply ag_quiet|]. intros t.
  apply ag_bind; [apply ag_quiet|]. intros s. apply ag_bind; [apply ag_lift, forget_cpu|]. intros c.
  clear l. intros l. unfold sr_bind, sr_quiet, sr_ret, rbind, rlift, rret, quiet_res.
  destruct (read_u32 e l) as [[? ?]|]; [|reflexivity]. destruct (file_type_from_u32 _); cbn [bind]; [|reflexivity].
  destruct (read_u32 e _) as [[? ?]|]; [|reflexivity]. destruct (read_u32 e _) as [[? ?]|]; [|reflexivity].
  destruct (read_u32 e _) as [[? ?]|]; [|reflexivity]. destruct (flags_from_u32 _); cbn [bind]; [|reflexivity].
  destruct (read_u32 e _) as [[? ?]|]; reflexivity.
Qed.
Lemma sf_quiet {A} (m : outcome A) : sforget (so_quiet m) = m.
Proof. now destruct m. Qed.
Lemma sf_bind {A B} (m : soutcome A) (k : A -> soutcome B) k' : (forall a, sforget (k a) = k' a) -> sforget (sobind m k) = obind (sforget m) k'.
Proof. intros K. destruct m; cbn [sobind obind sforget]; [apply K|reflexivity..]. Qed.
Lemma sf_push a r : sforget (s_push_reloc a r) = push_reloc a r.
Proof. unfold s_push_reloc. now destruct (push_reloc a r). Qed.
Lemma sf_line p a l : sforget (s_exec_line p a l) = exec_line p a l.
Proof.
  destruct l; cbn [s_exec_line]; try apply sf_quiet. cbn [exec_line].
  rewrite (sf_bind _ _ (fun a => write_bytes a (bam_ref (in_bytes i)))) by (intros; apply sf_quiet). f_equal.
  destruct (in_reloc i) as [lr|]; [|reflexivity].
  rewrite (sf_bind _ _ (fun addr => push_reloc a {| rl_addr := addr; rl_symbol := lr_symbol lr; rl_pcrel := lr_pcrel lr; rl_len := lr_len lr |})) by (intros; apply sf_push).
  now rewrite sf_quiet.
Qed.
Lemma sf_raw p a raw : sforget (s_exec_raw p a raw) = exec_raw p a raw.
Proof.
  unfold s_exec_raw, exec_raw. destruct (from_utf8 raw) as [s|]; [|reflexivity].
  destruct (olift (chku p 32 (as_line a + 1))); cbn [so_quiet sobind obind sforget]; try reflexivity.
  destruct (line_parse p s); [apply sf_line|reflexivity..].
Qed.
Lemma sf_all p raws : forall a, sforget (s_exec_all p a raws) = exec_all p a raws.
Proof.
  induction raws as [|r rs IH]; intros a; cbn [s_exec_all exec_all]; [reflexivity|].
  rewrite (sf_bind _ _ (fun a => exec_all p a rs)) by exact IH. now rewrite sf_raw.
Qed.
Lemma top_C99_agree p e l : forget (s_header64 e l) = read_header64 e l /\ forget (s_load_command p e l) = read_load_command p e l /\
  forget (s_section64 e l) = read_section64 e l /\ forget (s_build_version p e l) = read_build_version p e l /\
  forget (s_build_tool e l) = read_build_tool e l /\ forget (s_nlist64 e l) = read_nlist64 e l /\
  (forall n, forget (s_x86_reloc n) = x86_reloc_from_u8 n /\ forget (s_x86_64_reloc n) = x86_64_reloc_from_u8 n) /\
  (forall t s, forget (s_stab_push t s) = stab_push t s) /\
  (forall a, sforget (s_read_from p a l) = read_from p a l).
Proof.
  split; [apply ag_header|]. split; [apply ag_lc|]. split; [apply ag_section|]. split; [apply ag_bv|]. split; [apply ag_tool|]. split; [apply ag_nlist|].
  split; [|split].
  - intros n. unfold s_x86_reloc, s_x86_64_reloc. split; [now destruct (x86_reloc_from_u8 n)|now destruct (x86_64_reloc_from_u8 n)].
  - intros t s. unfold s_stab_push. now destruct (stab_push t s).
  - intros a. unfold s_read_from, read_from. rewrite (sf_bind _ _ (fun a => Done (mark_ext a))) by reflexivity. now rewrite sf_all.
Qed.

(** ** Hexadecimal *)

Lemma upper_digit_spec n : 0 <= n < 16 -> digit 16 (upper_digit n) n /\ ~ 97 <= upper_digit n <= 102 /\ (upper_digit n = 48 <-> n = 0).
Proof.
  intros H. unfold upper_digit. destruct (n <? 10) eqn:E.
  - split; [constructor; lia|lia].
  - split; [|lia]. replace (55 + n) with (65 + (n - 10)) by lia. apply dig_AF; lia.
Qed.
Lemma upper_digits_spec fuel : forall n acc, 0 <= n < 16 ^ Z.of_nat fuel -> (0 < fuel)%nat ->
  exists ds, upper_digits fuel n acc = ds ++ acc /\ upper_hex n ds /\ (0 < n -> hd 0 ds <> 48).
Proof.
  induction fuel as [|fuel IH]; intros n acc H F; [lia|]. cbn [upper_digits].
  destruct (n <? 16) eqn:E.
  - destruct (upper_digit_spec n) as (D & L & Z0); [lia|]. exists [upper_digit n]. split; [reflexivity|]. split; [|cbn [hd]; lia].
    split; [now apply num_one|]. split; [exact I|]. now constructor.
  - rewrite Nat2Z.inj_succ, Z.pow_succ_r in H by lia.
    assert (H1 : 0 <= n / 16 < 16 ^ Z.of_nat fuel) by (split; [apply Z.div_pos; lia|apply Z.div_lt_upper_bound; lia]).
    destruct fuel as [|fuel]; [change (16 ^ Z.of_nat 0) with 1 in H1; lia|].
    destruct (IH (n / 16) (upper_digit (n mod 16) :: acc) H1 ltac:(lia)) as (ds & Eq & (Nu & _ & Fl) & Z0).
    destruct (upper_digit_spec (n mod 16)) as (D & L & _); [apply Z.mod_pos_bound; lia|].
    assert (Hd : hd 0 ds <> 48) by (apply Z0; lia).
    assert (Ne : ds <> []) by (apply numeral_chars in Nu; tauto).
    exists (ds ++ [upper_digit (n mod 16)]). split; [rewrite Eq, <- app_assoc; reflexivity|].
    destruct ds as [|c ds]; [congruence|]. cbn [hd app] in *. split; [|intros _; exact Hd]. split; [|split].
    + replace n with (n / 16 * 16 + n mod 16) at 2 by (pose proof (Z.div_mod n 16); lia). now apply (num_snoc 16 (c :: ds)).
    + destruct ds as [|c1 ds]; exact Hd.
    + change (c :: ds ++ [upper_digit (n mod 16)]) with ((c :: ds) ++ [upper_digit (n mod 16)]). apply Forall_app. split; [exact Fl|]. now constructor.
Qed.
Lemma show_upper_spec n : inu 32 n -> upper_hex n (show_upper n).
Proof.
  intros H. unfold show_upper. destruct (upper_digits_spec 8 n []) as (ds & E & D & _); [exact H|lia|]. now rewrite E, app_nil_r.
Qed.
Lemma digit16_inv c d : digit 16 c d -> ~ 97 <= c <= 102 -> 0 <= d < 16 /\ c = upper_digit d.
Proof. unfold upper_digit. destruct 1; intros; destruct (d <? 10) eqn:E; lia. Qed.
Lemma numeral16_pos ds n : numeral 16 ds n -> match ds with c :: _ => c <> 48 | [] => True end -> 0 < n.
Proof.
  induction 1 as [c d D|s v c d N IH D]; intro H.
  - destruct D; lia.
  - destruct s as [|c0 s]; [apply numeral_chars in N; exfalso; now apply N|]. cbn [app] in H. specialize (IH H). destruct D; lia.
Qed.
Lemma upper_hex_fun n a b : upper_hex n a -> upper_hex n b -> a = b.
Proof.
  intros (Na & Za & Fa). revert b. induction Na as [c d D|s v c d N IH D]; intros b (Nb & Zb & Fb).
  - inversion Fa as [|? ? Lc _]; subst. destruct (digit16_inv _ _ D Lc) as [R ->]. destruct Nb as [c' d' D'|s' v' c' d' N' D'].
    + inversion Fb as [|? ? Lc' _]; subst. destruct (digit16_inv _ _ D' Lc') as [_ ->]. reflexivity.
    + exfalso. destruct s' as [|c0 s']; [apply numeral_chars in N'; now apply N'|].
      assert (0 < v') by (apply (numeral16_pos (c0 :: s')); [exact N'|destruct s'; exact Zb]). destruct D'; lia.
  - apply Forall_app in Fa. destruct Fa as [Fs Fc]. inversion Fc as [|? ? Lc _]; subst. destruct (digit16_inv _ _ D Lc) as [R ->].
    assert (Ne : s <> []) by (apply numeral_chars in N; tauto).
    assert (0 < v). { destruct s as [|c0 s]; [congruence|]. apply (numeral16_pos (c0 :: s)); [exact N|]. destruct s; exact Za. }
    remember (v * 16 + d) as w eqn:Ew. destruct Nb as [c' d' D'|s' v' c' d' N' D'].
    + exfalso. inversion Fb as [|? ? Lc' _]; subst. destruct (digit16_inv _ _ D' Lc') as [? _]. lia.
    + apply Forall_app in Fb. destruct Fb as [Fs' Fc']. inversion Fc' as [|? ? Lc' _]; subst. destruct (digit16_inv _ _ D' Lc') as [R' ->].
      assert (v' = v /\ d' = d) as [-> ->] by lia. f_equal. apply IH; [|exact Fs|].
      * destruct s as [|c0 [|c1 s]]; [exact I|exact I|exact Za].
      * split; [exact N'|]. split; [|exact Fs']. destruct s' as [|c0 [|c1 s']]; [exact I|exact I|exact Zb].
Qed.
Lemma show_upper_iff n ds : inu 32 n -> (upper_hex n ds <-> ds = show_upper n).
Proof. intros R. split; [intros H; eapply upper_hex_fun; [exact H|]|intros ->]; now apply show_upper_spec. Qed.
Lemma show_dec_iff n ds : inu 64 n -> (decimal n ds <-> ds = show_u64 n).
Proof. intros R. split; [intros H; eapply decimal_fun; [exact H|]|intros ->]; now apply show_decimal. Qed.
