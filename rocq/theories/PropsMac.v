(** Property theorems for the Mach-O codecs (at-mac): C10-C22, C57, C58. *)
From Coq Require Import Sorting.Sorted.
From Coq Require String.
Import String.StringSyntax.
From Verif Require Import Base Str Mac SpecMacho PfMacTop2.

(** ** C10 *)
Theorem C10_header_any_hosts : forall w r x rest,
  header_rng x -> (h_magic x = Magic64 \/ h_magic x = Magic32) -> bytes_ok rest ->
  exists bs x', write_header64 w x = (bs, true) /\ length bs = 32%nat /\
    read_header64 r (bs ++ rest) = Ok ((x', w), rest) /\
    h_magic x' = (if endian_eqb w r then h_magic x else magic_swap (h_magic x)) /\
    h_cpu x' = h_cpu x /\ h_file_type x' = h_file_type x /\ h_ncmds x' = h_ncmds x /\
    h_size_of_cmds x' = h_size_of_cmds x /\ h_reserved x' = h_reserved x /\
    h_flags x' = sort_flags (h_flags x).
Proof. exact top_C10. Qed.
Print Assumptions C10_header_any_hosts.
Definition ex_header : header64 :=
  {| h_magic := Magic64; h_cpu := CpuX86_64 X86_64All; h_file_type := FtObject; h_ncmds := 2;
     h_size_of_cmds := 176; h_flags := [SubsectionsViaSymbols; NoUndefs]; h_reserved := 0 |}.
Example C10_case : header_rng ex_header /\ h_magic ex_header = Magic64 /\
  read_header64 Big (fst (write_header64 Little ex_header)) =
    Ok (({| h_magic := Cigam64; h_cpu := CpuX86_64 X86_64All; h_file_type := FtObject; h_ncmds := 2;
            h_size_of_cmds := 176; h_flags := [NoUndefs; SubsectionsViaSymbols]; h_reserved := 0 |},
         Little), []).
Proof. repeat split; vm_compute; congruence. Qed.

(** ** C11 *)
Theorem C11_header_fields : forall h l x e r, bytes_ok l ->
  (read_header64 h l = Ok ((x, e), r) <->
   magic_endian h (h_magic x) e /\ fld h 0 4 l = magic_num (h_magic x) /\
   header_at e 0 l (fld e 0 4 l) x /\ StronglySorted Z.lt (map flag_bit (h_flags x)) /\
   r = skipn 32 l).
Proof. exact top_C11. Qed.
Print Assumptions C11_header_fields.
Theorem C11_header_accepts : forall h l, bytes_ok l ->
  ((exists x e r, read_header64 h l = Ok ((x, e), r)) <->
   (32 <= length l)%nat /\
   exists e, ((fld h 0 4 l = 0xFEEDFACF \/ fld h 0 4 l = 0xFEEDFACE) /\ e = h \/
              (fld h 0 4 l = 0xCFFAEDFE \/ fld h 0 4 l = 0xCEFAEDFE) /\ e = swap h) /\
     (fld e 4 4 l = 7 \/ fld e 4 4 l = 0x01000007) /\ fld e 8 4 l = 3 /\
     (1 <= fld e 12 4 l <= 8 \/ fld e 12 4 l = 10) /\
     (forall i, 0 <= i -> Z.testbit (fld e 24 4 l) i = true -> exists f, flag_bit f = i)).
Proof. exact top_C11_accept. Qed.
Print Assumptions C11_header_accepts.
Example C11_case : bytes_ok swapped_header /\
  exists x, read_header64 Little swapped_header = Ok ((x, Big), []) /\ h_ncmds x = 2.
Proof.
  split; [repeat constructor; unfold inu; lia|]. eexists. split; vm_compute; reflexivity.
Qed.

(** ** C12 *)
Theorem C12_flags_to_u32 : forall fs,
  is_bitset flag_bit fs (flags_to_u32 fs) /\ inu 32 (flags_to_u32 fs).
Proof. exact top_C12_to. Qed.
Print Assumptions C12_flags_to_u32.
Theorem C12_attrs_to_u32 : forall fs,
  is_bitset attr_bit fs (section_attrs_to_u32 fs) /\ inu 32 (section_attrs_to_u32 fs).
Proof. exact top_C12_to_attrs. Qed.
Print Assumptions C12_attrs_to_u32.
Theorem C12_flags_from_u32 : forall w fs, inu 32 w ->
  (flags_from_u32 w = Ok fs <-> map flag_bit fs = bits_in w (count_from 0 32)).
Proof. exact top_C12_from. Qed.
Print Assumptions C12_flags_from_u32.
Theorem C12_attrs_from_u32 : forall w fs, inu 32 w ->
  (section_attrs_from_u32 w = Ok fs <-> map attr_bit fs = bits_in w (count_from 8 24)).
Proof. exact top_C12_from_attrs. Qed.
Print Assumptions C12_attrs_from_u32.
Theorem C12_flags_reject : forall w, inu 32 w ->
  (flags_from_u32 w = Panic <-> exists i, 0 <= i /\ Z.testbit w i = true /\ forall f, flag_bit f <> i).
Proof. exact top_C12_panic. Qed.
Print Assumptions C12_flags_reject.
Theorem C12_flags_round_trip : forall fs,
  flags_from_u32 (flags_to_u32 fs) = Ok (sort_flags fs).
Proof. exact top_C12_round. Qed.
Print Assumptions C12_flags_round_trip.
Theorem C12_attrs_round_trip : forall fs,
  section_attrs_from_u32 (section_attrs_to_u32 fs) = Ok (sort_attrs fs).
Proof. exact top_C12_round_attrs. Qed.
Print Assumptions C12_attrs_round_trip.
Theorem C12_sort_is_set : (forall a l, In a (sort_flags l) <-> In a l) /\ (forall a l, In a (sort_attrs l) <-> In a l)
  /\ (forall l, StronglySorted Z.lt (map flag_bit (sort_flags l)))
  /\ (forall l, StronglySorted Z.lt (map attr_bit (sort_attrs l))).
Proof. exact (conj sort_flags_in (conj sort_attrs_in (conj sort_flags_sorted sort_attrs_sorted))). Qed.
Print Assumptions C12_sort_is_set.
Theorem C12_equality_refuted : exists fs, section_attrs_from_u32 (section_attrs_to_u32 fs) <> Ok fs.
Proof. exact top_C12_refuted. Qed.
Print Assumptions C12_equality_refuted.
Example C12_case : flags_to_u32 [Pie; NoUndefs; Pie] = 0x200001 /\
  flags_from_u32 0x200001 = Ok [NoUndefs; Pie] /\ flags_from_u32 0x40000000 = Panic.
Proof. repeat split; vm_compute; reflexivity. Qed.

(** ** C13 *)
Theorem C13_segment : forall p h x rest,
  segment_rng x -> name16 (sg_segname x) -> sg_cmd x = 0x19 ->
  sg_cmdsize x = 72 + 80 * sg_nsects x -> bytes_ok rest ->
  exists bs, write_segment64 h x = (bs, true) /\ length bs = 72%nat /\
             read_segment64 p h (bs ++ rest) = Ok (x, rest).
Proof. exact top_C13_segment. Qed.
Print Assumptions C13_segment.
Theorem C13_section : forall h x rest,
  section_rng x -> name16 (sc_sectname x) -> name16 (sc_segname x) -> bytes_ok rest ->
  exists bs, write_section64 h x = (bs, true) /\ length bs = 80%nat /\
             read_section64 h (bs ++ rest) = Ok (section_canon x, rest).
Proof. exact top_C13_section. Qed.
Print Assumptions C13_section.
Theorem C13_section_equal : forall x,
  section_canon x = x <-> StronglySorted Z.lt (map attr_bit (sc_attrs x)).
Proof. exact top_C13_canon. Qed.
Print Assumptions C13_section_equal.
Definition ex_segment : segment64 :=
  {| sg_cmd := 0x19; sg_cmdsize := 152; sg_segname := lit "__TEXT"; sg_vmaddr := 0; sg_vmsize := 13;
     sg_fileoff := 208; sg_filesize := 16; sg_maxprot := 7; sg_initprot := -1; sg_nsects := 1;
     sg_flags := 0 |}.
Definition ex_section : section64 :=
  {| sc_sectname := lit "__text"; sc_segname := lit "__TEXT"; sc_addr := 0; sc_size := 13;
     sc_offset := 208; sc_align := 0; sc_reloff := 224; sc_nreloc := 1;
     sc_attrs := [SomeInstructions; PureInstructions; LocReloc; ExtReloc]; sc_type := StRegular;
     sc_reserved1 := 0; sc_reserved2 := 0; sc_reserved3 := 0 |}.
Ltac rng_case := unfold segment_rng, section_rng, inu, ini, name16, str_ok; cbn;
  repeat match goal with |- _ /\ _ => split end; try lia; try (repeat constructor; unfold ischar; lia).
Example C13_case : segment_rng ex_segment /\ name16 (sg_segname ex_segment) /\
  sg_cmdsize ex_segment = 72 + 80 * sg_nsects ex_segment /\ section_rng ex_section /\
  name16 (sc_sectname ex_section) /\ sc_attrs (section_canon ex_section) = [LocReloc; ExtReloc; SomeInstructions; PureInstructions].
Proof. rng_case; reflexivity. Qed.

(** ** C14 *)
Theorem C14_symtab : forall h x rest, symtab_rng x -> st_cmd x = 2 -> st_cmdsize x = 24 -> bytes_ok rest ->
  exists bs, write_symtab h x = (bs, true) /\ length bs = 24%nat /\ read_symtab h (bs ++ rest) = Ok (x, rest).
Proof. exact top_C14_symtab. Qed.
Print Assumptions C14_symtab.
Theorem C14_symtab_rewrite : forall e l x r, bytes_ok l -> read_symtab e l = Ok (x, r) ->
  write_symtab e x = (firstn 24 l, true) /\ l = firstn 24 l ++ r.
Proof. exact top_C14_symtab_back. Qed.
Print Assumptions C14_symtab_rewrite.
Theorem C14_symtab_accepts : forall e l, bytes_ok l ->
  ((exists x r, read_symtab e l = Ok (x, r)) <-> (24 <= length l)%nat /\ fld e 0 4 l = 2 /\ fld e 4 4 l = 24).
Proof. exact top_C14_symtab_accept. Qed.
Print Assumptions C14_symtab_accepts.
Theorem C14_dysymtab : forall h x rest, dysymtab_rng x -> dy_cmd x = 11 -> dy_cmdsize x = 80 -> bytes_ok rest ->
  exists bs, write_dysymtab h x = (bs, true) /\ length bs = 80%nat /\ read_dysymtab h (bs ++ rest) = Ok (x, rest).
Proof. exact top_C14_dysymtab. Qed.
Print Assumptions C14_dysymtab.
Theorem C14_dysymtab_rewrite : forall e l x r, bytes_ok l -> read_dysymtab e l = Ok (x, r) ->
  write_dysymtab e x = (firstn 80 l, true) /\ l = firstn 80 l ++ r.
Proof. exact top_C14_dysymtab_back. Qed.
Print Assumptions C14_dysymtab_rewrite.
Theorem C14_dysymtab_accepts : forall e l, bytes_ok l ->
  ((exists x r, read_dysymtab e l = Ok (x, r)) <-> (80 <= length l)%nat /\ fld e 0 4 l = 11 /\ fld e 4 4 l = 80).
Proof. exact top_C14_dysymtab_accept. Qed.
Print Assumptions C14_dysymtab_accepts.
Definition ex_symtab_bytes : list Z :=
  [2; 0; 0; 0; 24; 0; 0; 0; 0xe8; 0; 0; 0; 3; 0; 0; 0; 0x18; 1; 0; 0; 9; 0; 0; 0].
Example C14_case : bytes_ok ex_symtab_bytes /\
  read_symtab Little (ex_symtab_bytes ++ [7]) =
    Ok ({| st_cmd := 2; st_cmdsize := 24; st_symoff := 0xe8; st_nsyms := 3; st_stroff := 0x118; st_strsize := 9 |}, [7])
  /\ read_symtab Big ex_symtab_bytes = Panic.
Proof. split; [repeat constructor; unfold inu; lia|split; vm_compute; reflexivity]. Qed.

(** ** C15 *)
Theorem C15_version :
  (forall v, version_rng v -> version_from_u32 (version_to_u32 v) = v /\ version_to_u32 v = version_num v)
  /\ (forall n, inu 32 n -> version_to_u32 (version_from_u32 n) = n).
Proof. exact top_C15_version. Qed.
Print Assumptions C15_version.
Theorem C15_build_version : forall p h x rest, build_version_rng x -> bv_cmd x = 0x32 ->
  bv_cmdsize x = 24 + 8 * bv_ntools x -> bytes_ok rest ->
  exists bs, write_build_version h x = (bs, true) /\ length bs = 24%nat /\
             read_build_version p h (bs ++ rest) = Ok (x, rest).
Proof. exact top_C15_build. Qed.
Print Assumptions C15_build_version.
Theorem C15_build_version_rejects : forall p e l x r, bytes_ok l -> read_build_version p e l = Ok (x, r) ->
  cmdsize_ok p 24 8 (fld e 20 4 l) (fld e 4 4 l) /\ fld e 0 4 l = 0x32.
Proof. exact top_C15_build_reject. Qed.
Print Assumptions C15_build_version_rejects.
Theorem C15_build_tool : forall h x rest, build_tool_rng x -> bytes_ok rest ->
  exists bs, write_build_tool h x = (bs, true) /\ length bs = 8%nat /\
             read_build_tool h (bs ++ rest) = Ok (x, rest).
Proof. exact top_C15_tool. Qed.
Print Assumptions C15_build_tool.
Definition ex_build : build_version :=
  {| bv_cmd := 0x32; bv_cmdsize := 32; bv_platform := MacOS;
     bv_minos := {| v_major := 10; v_minor := 15; v_release := 6 |};
     bv_sdk := {| v_major := 11; v_minor := 0; v_release := 255 |}; bv_ntools := 1 |}.
Example C15_case : build_version_rng ex_build /\ bv_cmdsize ex_build = 24 + 8 * bv_ntools ex_build /\
  version_num (bv_minos ex_build) = 0x0a0f06.
Proof. unfold build_version_rng, version_rng, inu; cbn; lia. Qed.

(** ** C16 *)
Theorem C16_load_command : forall p h c rest, lc_wf c -> bytes_ok rest ->
  exists bs, write_load_command h c = (bs, true) /\ Z.of_nat (length bs) = lc_cmd_size c /\
    fld h 0 4 bs = lc_cmd c /\ fld h 4 4 bs = lc_cmd_size c /\
    read_load_command p h (bs ++ rest) = Ok (lc_canon c, rest).
Proof. exact top_C16. Qed.
Print Assumptions C16_load_command.
Theorem C16_load_commands : forall p h cs rest, Forall lc_wf cs -> bytes_ok rest ->
  exists bs, wlist (map (write_load_command h) cs) = (bs, true) /\
    Z.of_nat (length bs) = fold_right Z.add 0 (map lc_cmd_size cs) /\
    read_many (length cs) (read_load_command p h) (bs ++ rest) = Ok (map lc_canon cs, rest).
Proof. exact top_C16_seq. Qed.
Print Assumptions C16_load_commands.
Theorem C16_equal : forall c, lc_canon c = c <->
  match c with LcSegment64 _ ss => Forall (fun x => StronglySorted Z.lt (map attr_bit (sc_attrs x))) ss | _ => True end.
Proof. exact top_C16_canon. Qed.
Print Assumptions C16_equal.
Example C16_case : Forall lc_wf
  [LcSegment64 ex_segment [ex_section];
   LcSymtab {| st_cmd := 2; st_cmdsize := 24; st_symoff := 0xe8; st_nsyms := 3; st_stroff := 0x118; st_strsize := 9 |};
   LcBuildVersion ex_build [{| bt_tool := LD; bt_version := 7 |}]].
Proof.
  constructor; [|constructor; [|constructor; [|constructor]]]; cbn [lc_wf].
  - split; [apply C13_case|]. split; [apply C13_case|]. repeat (split; [reflexivity|]).
    constructor; [|constructor]. split; [apply C13_case|]. split; [apply C13_case|]. apply C13_case.
  - unfold symtab_rng, inu. cbn. lia.
  - split; [apply C15_case|]. repeat (split; [reflexivity|]). constructor; [|constructor].
    unfold build_tool_rng, inu. cbn. lia.
Qed.

(** ** C17 *)
Theorem C17_nlist : forall h x rest, nlist_rng x -> bytes_ok rest ->
  exists bs, write_nlist64 h x = (bs, true) /\ length bs = 16%nat /\ read_nlist64 h (bs ++ rest) = Ok (x, rest).
Proof. exact top_C17. Qed.
Print Assumptions C17_nlist.
Example C17_case : nlist_rng
  {| nl_strx := 1; nl_type := Norm true Sect true; nl_sect := 2; nl_desc := 0xffff; nl_value := 2 ^ 63 |}.
Proof. unfold nlist_rng, inu. cbn. repeat match goal with |- _ /\ _ => split end; lia. Qed.

(** ** C18: the entry's type byte [b] is written back as [min b 32] *)
Theorem C18_exact : forall e l x r, bytes_ok l -> read_nlist64 e l = Ok (x, r) ->
  exists b, slice 4 1 l = [b] /\
    write_nlist64 e x = (slice 0 4 l ++ [if b <? 32 then b else 32] ++ slice 5 11 l, true) /\
    l = firstn 16 l ++ r.
Proof. exact top_C18_exact. Qed.
Print Assumptions C18_exact.
(** full statement: [write_nlist64 e x = (firstn 16 l, true)] for every accepted input; missing:
    stab entries whose type byte is not 0x20, where it is false *)
Theorem C18_rewrite_partial : forall e l x r, bytes_ok l -> read_nlist64 e l = Ok (x, r) ->
  (write_nlist64 e x = (firstn 16 l, true) <-> fld e 4 1 l <= 32).
Proof. exact top_C18_partial. Qed.
Print Assumptions C18_rewrite_partial.
Theorem C18_refuted : exists e l x r, bytes_ok l /\ read_nlist64 e l = Ok (x, r) /\
  write_nlist64 e x <> (firstn 16 l, true).
Proof. exact top_C18_refuted. Qed.
Print Assumptions C18_refuted.
Example C18_case : read_nlist64 Little [1; 0; 0; 0; 0x0f; 1; 0; 0; 9; 0; 0; 0; 0; 0; 0; 0] =
  Ok ({| nl_strx := 1; nl_type := Norm false Sect true; nl_sect := 1; nl_desc := 0; nl_value := 9 |}, []).
Proof. vm_compute. reflexivity. Qed.

(** ** C19 *)
Theorem C19_read_write : forall e l, bytes_ok l ->
  ((exists x r, read_reloc_info e l = Ok (x, r)) <-> (8 <= length l)%nat) /\
  (forall x r, read_reloc_info e l = Ok (x, r) -> write_reloc_info e x = (firstn 8 l, true) /\ r = skipn 8 l).
Proof. exact top_C19_read. Qed.
Print Assumptions C19_read_write.
Theorem C19_write_read : forall h x rest, reloc_rng x -> bytes_ok rest ->
  exists bs, write_reloc_info h x = (bs, true) /\ length bs = 8%nat /\
    (read_reloc_info h (bs ++ rest) = Ok (x, rest) <-> r_symbolnum x < 2 ^ 24 /\ r_type x < 16).
Proof. exact top_C19_write. Qed.
Print Assumptions C19_write_read.
Definition ex_reloc : reloc_info :=
  {| r_address := -4; r_symbolnum := 0x123456; r_pcrel := true; r_length := LenQuad;
     r_extern := true; r_type := 9 |}.
Example C19_case : reloc_rng ex_reloc /\ reloc_fits ex_reloc /\
  fst (write_reloc_info Little ex_reloc) = [0xfc; 0xff; 0xff; 0xff; 0x56; 0x34; 0x12; 0x9f] /\
  fst (write_reloc_info Big ex_reloc) = [0xff; 0xff; 0xff; 0xfc; 0x12; 0x34; 0x56; 0xf9].
Proof.
  unfold reloc_rng, reloc_fits, inu, ini. cbn. repeat match goal with |- _ /\ _ => split end; try lia; reflexivity.
Qed.

(** ** C20: [strs_size a] is the number of bytes pushed for the strings [a] *)
Theorem C20_lookup : forall ss, Forall clean ss -> exists t, push_all stab_with_null ss = Ok t /\
  (forall a s b, ss = a ++ s :: b -> stab_get t (1 + strs_size a) = Ok s) /\
  stab_get t 0 = Ok [] /\ stab_iter t = Ok (ss ++ [[]]) /\ stab_len t = (1 + strs_size ss)%nat /\
  stab_from_vec t = Ok t.
Proof. exact top_C20. Qed.
Print Assumptions C20_lookup.
Theorem C20_non_ascii : forall t s, str_ok s -> (stab_push t s = Panic <-> exists c, In c s /\ 128 <= c).
Proof. exact top_C20_panic. Qed.
Print Assumptions C20_non_ascii.
Theorem C20_stable : forall d t s t' i, str_ok s -> stab_from_vec d = Ok t -> stab_push t s = Ok t' ->
  (i < stab_len t)%nat -> stab_get t' i = stab_get t i /\ stab_from_vec t' = Ok t'.
Proof. exact top_C20_stable. Qed.
Print Assumptions C20_stable.
Example C20_case : Forall clean [lit "_main"; []; lit "hoge"] /\
  (t <- push_all stab_with_null [lit "_main"; []; lit "hoge"] ;; stab_get t 8) = Ok (lit "hoge").
Proof. split; [repeat constructor; cbn; lia|vm_compute; reflexivity]. Qed.

(** ** C21 *)
Theorem C21_write : forall s n, str_ok s ->
  (snd (write_fixed_size_string s n) = true <-> ascii_str s /\ (length s <= n)%nat) /\
  (ascii_str s -> (length s <= n)%nat -> write_fixed_size_string s n = (s ++ repeat 0 (n - length s), true)) /\
  (snd (write_fixed_size_string s n) = false -> fst (write_fixed_size_string s n) = []).
Proof. exact top_C21_write. Qed.
Print Assumptions C21_write.
Theorem C21_read : forall n l s r, bytes_ok l ->
  (read_fixed_size_string n l = Ok (s, r) <->
   (n <= length l)%nat /\ str_ok s /\ utf8 s = until_nul (firstn n l) /\ r = skipn n l).
Proof. exact top_C21_read. Qed.
Print Assumptions C21_read.
Theorem C21_inverse : forall s n rest, str_ok s -> bytes_ok rest ->
  ((exists bs, write_fixed_size_string s n = (bs, true) /\ read_fixed_size_string n (bs ++ rest) = Ok (s, rest)) <->
   clean s /\ (length s <= n)%nat).
Proof. exact top_C21_inverse. Qed.
Print Assumptions C21_inverse.
Example C21_case : clean (lit "__text") /\ (length (lit "__text") <= 16)%nat /\ clean (lit "sixteen_bytes_ok") /\
  (length (lit "sixteen_bytes_ok") <= 16)%nat.
Proof. repeat match goal with |- _ /\ _ => split end; try (repeat constructor; cbn; lia); cbn; lia. Qed.

(** ** C22 *)
Theorem C22_records : forall p e l, bytes_ok l ->
  ((length l < 32)%nat -> read_header64 e l = Panic) /\
  ((length l < 72)%nat -> read_segment64 p e l = Panic) /\
  ((length l < 80)%nat -> read_section64 e l = Panic) /\
  ((length l < 24)%nat -> read_symtab e l = Panic) /\
  ((length l < 80)%nat -> read_dysymtab e l = Panic) /\
  ((length l < 24)%nat -> read_build_version p e l = Panic) /\
  ((length l < 8)%nat -> read_build_tool e l = Panic) /\
  ((length l < 16)%nat -> read_nlist64 e l = Panic) /\
  ((length l < 8)%nat -> read_reloc_info e l = Panic).
Proof. exact top_C22_fixed. Qed.
Print Assumptions C22_records.
Theorem C22_load_command : forall p e l x r, bytes_ok l -> read_load_command p e l = Ok (x, r) ->
  l = firstn (lc_len x) l ++ r /\ (lc_len x <= length l)%nat /\
  forall k, (k < lc_len x)%nat -> read_load_command p e (firstn k l) = Panic.
Proof. exact top_C22_lc. Qed.
Print Assumptions C22_load_command.
Example C22_case : exists x, read_load_command Debug Little (ex_symtab_bytes ++ [7]) = Ok (x, [7]) /\ lc_len x = 24%nat.
Proof. eexists. split; [vm_compute; reflexivity|reflexivity]. Qed.

(** ** C57 *)
Theorem C57_written_layout : forall h,
  (forall x, header_rng x -> exists bs, write_header64 h x = (bs, true) /\ length bs = 32%nat /\ header_at h 0 bs (magic_num (h_magic x)) x) /\
  (forall x, segment_rng x -> name16 (sg_segname x) -> exists bs, write_segment64 h x = (bs, true) /\ length bs = 72%nat /\ segment_at h 0 bs x) /\
  (forall x, section_rng x -> name16 (sc_sectname x) -> name16 (sc_segname x) ->
     exists bs, write_section64 h x = (bs, true) /\ length bs = 80%nat /\ section_at h 0 bs x) /\
  (forall x, symtab_rng x -> exists bs, write_symtab h x = (bs, true) /\ length bs = 24%nat /\ symtab_at h 0 bs x) /\
  (forall x, dysymtab_rng x -> exists bs, write_dysymtab h x = (bs, true) /\ length bs = 80%nat /\ dysymtab_at h 0 bs x) /\
  (forall x, build_version_rng x -> exists bs, write_build_version h x = (bs, true) /\ length bs = 24%nat /\ build_version_at h 0 bs x) /\
  (forall x, build_tool_rng x -> exists bs, write_build_tool h x = (bs, true) /\ length bs = 8%nat /\ build_tool_at h 0 bs x) /\
  (forall x, nlist_rng x -> exists bs, write_nlist64 h x = (bs, true) /\ length bs = 16%nat /\ nlist_at h 0 bs x) /\
  (forall x, reloc_rng x -> reloc_fits x -> exists bs, write_reloc_info h x = (bs, true) /\ length bs = 8%nat /\ reloc_at h 0 bs x).
Proof. exact top_C57_write. Qed.
Print Assumptions C57_written_layout.
Theorem C57_read_layout : forall p e l, bytes_ok l ->
  (forall x r, read_segment64 p e l = Ok (x, r) <->
     segment_at e 0 l x /\ str_ok (sg_segname x) /\ sg_cmd x = 0x19 /\ cmdsize_ok p 72 80 (sg_nsects x) (sg_cmdsize x) /\ r = skipn 72 l) /\
  (forall x r, read_section64 e l = Ok (x, r) <->
     section_at e 0 l x /\ str_ok (sc_sectname x) /\ str_ok (sc_segname x) /\ StronglySorted Z.lt (map attr_bit (sc_attrs x)) /\ r = skipn 80 l) /\
  (forall x r, read_symtab e l = Ok (x, r) <-> symtab_at e 0 l x /\ st_cmd x = 2 /\ st_cmdsize x = 24 /\ r = skipn 24 l) /\
  (forall x r, read_dysymtab e l = Ok (x, r) <-> dysymtab_at e 0 l x /\ dy_cmd x = 0xB /\ dy_cmdsize x = 80 /\ r = skipn 80 l) /\
  (forall x r, read_build_version p e l = Ok (x, r) <->
     build_version_at e 0 l x /\ version_rng (bv_minos x) /\ version_rng (bv_sdk x) /\ bv_cmd x = 0x32 /\
     cmdsize_ok p 24 8 (bv_ntools x) (bv_cmdsize x) /\ r = skipn 24 l) /\
  (forall x r, read_build_tool e l = Ok (x, r) <-> build_tool_at e 0 l x /\ r = skipn 8 l) /\
  (forall x r, read_nlist64 e l = Ok (x, r) <-> nlist_at e 0 l x /\ r = skipn 16 l) /\
  (forall x r, read_reloc_info e l = Ok (x, r) <-> reloc_at e 0 l x /\ reloc_fits x /\ r = skipn 8 l).
Proof. exact top_C57_read. Qed.
Print Assumptions C57_read_layout.
Example C57_case : exists bs, write_section64 Little ex_section = (bs, true) /\
  fld Little 40 8 bs = 13 /\ fld Little 64 4 bs = 0x80000700.
Proof. eexists. split; [vm_compute; reflexivity|split; reflexivity]. Qed.

(** ** C58 *)
(** full statement: for every accepted header, of either byte order, writing it again gives the
    same 32 bytes; missing: headers of the other byte order, where it is false *)
Theorem C58_rewrite_header_partial : forall h l x r, bytes_ok l -> read_header64 h l = Ok ((x, h), r) ->
  write_header64 h x = (firstn 32 l, true).
Proof. exact top_C58_native. Qed.
Print Assumptions C58_rewrite_header_partial.
Theorem C58_swapped_exact : forall h l x r, bytes_ok l -> read_header64 h l = Ok ((x, swap h), r) ->
  write_header64 h x =
    (slice 0 4 l ++ rev (slice 4 4 l) ++ rev (slice 8 4 l) ++ rev (slice 12 4 l) ++ rev (slice 16 4 l) ++
     rev (slice 20 4 l) ++ rev (slice 24 4 l) ++ rev (slice 28 4 l), true).
Proof. exact top_C58_swapped. Qed.
Print Assumptions C58_swapped_exact.
Theorem C58_refuted : exists h l x e r, bytes_ok l /\ read_header64 h l = Ok ((x, e), r) /\
  write_header64 h x <> (firstn 32 l, true) /\
  fst (write_header64 h x) <> [] /\ read_header64 h (fst (write_header64 h x)) = Panic.
Proof. exact top_C58_refuted. Qed.
Print Assumptions C58_refuted.
Example C58_case : exists x, read_header64 Little (fst (write_header64 Little ex_header)) = Ok ((x, Little), []).
Proof. eexists. vm_compute. reflexivity. Qed.
