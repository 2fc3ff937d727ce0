(** Property theorems for `==`: C97, C98. *)
From Coq Require String.
Import String.StringSyntax.
From Verif Require Import Base Str X64 Mac SpecMacho Obj SpecObj Asm Derive SpecDerive Equal SpecEqual PfEqual PfEqual2 PfEqual3 PfEqual4.

(** ** C97: `==` compares the content, as Debug shows it *)

Theorem C97_content : forall a b, value_ok a -> value_ok b -> (eq_value a b = true <-> a = b).
Proof. exact top_C97_content. Qed.
Print Assumptions C97_content.

(** a failed `assert_eq!` always prints two different texts, a passing one would print the same twice *)
Theorem C97_shown : forall esc alt a b, type_of a = type_of b -> value_ok a -> value_ok b ->
  (eq_value a b = true <-> format esc alt a = format esc alt b).
Proof. exact top_C97_shown. Qed.
Print Assumptions C97_shown.

(** `Eq`: an equivalence relation *)
Theorem C97_equivalence : forall a b c, value_ok a -> value_ok b -> value_ok c ->
  eq_value a a = true /\ eq_value a b = eq_value b a /\ (eq_value a b = true -> eq_value b c = true -> eq_value a c = true).
Proof. exact top_C97_equivalence. Qed.
Print Assumptions C97_equivalence.

(** `BytesAtMost` compares its whole array; the room past the end is always zero, so the bytes decide *)
Theorem C97_room : forall max b, made max b -> rest_zero max b.
Proof. exact top_C97_clean. Qed.
Print Assumptions C97_room.
Theorem C97_encoded : forall e i b, encode e = Ok b \/ bytecode_of i = Ok b -> made 15 b.
Proof. exact top_C97_encoded. Qed.
Print Assumptions C97_encoded.
Theorem C97_bytes : forall max b c, made max b -> made max c ->
  (eq_value (VBytes b) (VBytes c) = true <-> bam_ref b = bam_ref c).
Proof. exact top_C97_bytes. Qed.
Print Assumptions C97_bytes.

Example C97_symbols : eq_value (VSymbol (SyRef (lit "a") 4 true)) (VSymbol (SyRef (lit "a") 4 true)) = true /\
  eq_value (VSymbol (SyRef (lit "a") 4 true)) (VSymbol (SyRef (lit "a") 4 false)) = false /\
  eq_value (VSymbol (SyRef (lit "a") 4 true)) (VSymbol (SyAbs (lit "a") 4 true)) = false.
Proof. repeat split. Qed.
Example C97_ret : exists b c, bytecode_of Ret = Ok b /\ bytecode_of Syscall = Ok c /\
  eq_value (VBytes b) (VBytes b) = true /\ eq_value (VBytes b) (VBytes c) = false /\ bam_ref b = [0xC3] /\ length (bam_bytes b) = 15%nat.
Proof. eexists. eexists. repeat split. Qed.
(** the premise counts: with rubbish past the end equal bytes would not compare equal *)
Example C97_rubbish : let b := {| bam_bytes := [0xC3; 0; 0]; bam_len := 1 |} in let c := {| bam_bytes := [0xC3; 7; 0]; bam_len := 1 |} in
  bam_ref b = bam_ref c /\ eq_value (VBytes b) (VBytes c) = false.
Proof. split; reflexivity. Qed.

(** ** C98: equal records are written as the same bytes, and the other way round *)

Theorem C98_equal : forall h a b, value_ok a -> value_ok b -> eq_value a b = true -> write_value h a = write_value h b.
Proof. exact top_C98_equal. Qed.
Print Assumptions C98_equal.

(** the same bytes come from the same fields, but for the zeros after a name and for the order and
    repetition of flags and attributes.  Full statement: [f = g <-> eq_value a b = true]; false, see below *)
Theorem C98_bytes_partial : forall h a b f g, type_of a = type_of b -> value_ok a -> value_ok b -> fits_fields a -> fits_fields b ->
  write_value h a = Some (f, true) -> write_value h b = Some (g, true) -> (f = g <-> alike a b).
Proof. exact top_C98_bytes. Qed.
Print Assumptions C98_bytes_partial.
(** without such names, flags and attributes: the full statement *)
Theorem C98_plain_partial : forall h a b f g, type_of a = type_of b -> value_ok a -> value_ok b -> fits_fields a -> fits_fields b -> plain a -> plain b ->
  write_value h a = Some (f, true) -> write_value h b = Some (g, true) -> (f = g <-> eq_value a b = true).
Proof. exact top_C98_plain. Qed.
Print Assumptions C98_plain_partial.
(** ... and what the readers return has none *)
Theorem C98_read : forall p h v bs rest, bytes_ok bs -> read_value p h v bs rest -> value_ok v /\ plain v /\ fits_fields v.
Proof. exact top_C98_read. Qed.
Print Assumptions C98_read.
(** so for records that were read, on whatever hosts, the full statement holds *)
Theorem C98_reread_partial : forall p q h h' a b bs cs r r' k f g, bytes_ok bs -> bytes_ok cs -> type_of a = type_of b ->
  read_value p h a bs r -> read_value q h' b cs r' ->
  write_value k a = Some (f, true) -> write_value k b = Some (g, true) -> (f = g <-> eq_value a b = true).
Proof. exact top_C98_reread. Qed.
Print Assumptions C98_reread_partial.

Definition hdr98 (fs : list flag) : value :=
  VHeader64 {| h_magic := Magic64; h_cpu := CpuX86_64 X86_64All; h_file_type := FtObject; h_ncmds := 4; h_size_of_cmds := 520;
               h_flags := fs; h_reserved := 0 |}.
Theorem C98_refuted : exists h a b f, type_of a = type_of b /\ value_ok a /\ value_ok b /\ fits_fields a /\ fits_fields b /\
  write_value h a = Some (f, true) /\ write_value h b = Some (f, true) /\ eq_value a b = false.
Proof.
  exists Little, (hdr98 [NoUndefs; Pie]), (hdr98 [Pie; NoUndefs]).
  eexists. split; [reflexivity|]. split; [cbn; unfold header_rng, inu; cbn; lia|]. split; [cbn; unfold header_rng, inu; cbn; lia|].
  split; [constructor|]. split; [constructor|]. split; [reflexivity|]. split; reflexivity.
Qed.
Print Assumptions C98_refuted.

(** a header that differs in a count is written differently; one that repeats a flag is not *)
Example C98_headers : eq_value (hdr98 [Pie]) (hdr98 [NoUndefs]) = false /\ write_value Little (hdr98 [Pie]) <> write_value Little (hdr98 [NoUndefs]) /\
  write_value Little (hdr98 [Pie; Pie]) = write_value Little (hdr98 [Pie]).
Proof. repeat split. vm_compute. discriminate. Qed.
Definition seg98 (n : str) : value :=
  VSegment64 {| sg_cmd := 25; sg_cmdsize := 72; sg_segname := n; sg_vmaddr := 0; sg_vmsize := 0; sg_fileoff := 0; sg_filesize := 0;
                sg_maxprot := 7; sg_initprot := 7; sg_nsects := 0; sg_flags := 0 |}.
(** zeros after a name vanish in the padding *)
Example C98_name : eq_value (seg98 (lit "__TEXT")) (seg98 (lit "__TEXT" ++ [0])) = false /\
  write_value Big (seg98 (lit "__TEXT")) = write_value Big (seg98 (lit "__TEXT" ++ [0])) /\
  alike (seg98 (lit "__TEXT")) (seg98 (lit "__TEXT" ++ [0])) /\ ~ plain (seg98 (lit "__TEXT" ++ [0])).
Proof.
  split; [reflexivity|]. split; [reflexivity|]. split.
  - cbn. repeat split. exists 1%nat, 0%nat. reflexivity.
  - intros P. exact (P (lit "__TEXT") eq_refl).
Qed.
(** the premise [fits_fields]: a symbol number of 2^24 spills into the flags next to it *)
Example C98_spill : let r n ex := {| r_address := 0; r_symbolnum := n; r_pcrel := false; r_length := LenByte; r_extern := ex; r_type := 0 |} in
  eq_value (VRelocInfo (r 0x8000000 true)) (VRelocInfo (r 0 true)) = false /\
  write_value Little (VRelocInfo (r 0x8000000 true)) = write_value Little (VRelocInfo (r 0 true)) /\ ~ fits_fields (VRelocInfo (r 0x8000000 true)).
Proof. split; [reflexivity|]. split; [reflexivity|]. cbn. unfold reloc_fits, inu. cbn. lia. Qed.
