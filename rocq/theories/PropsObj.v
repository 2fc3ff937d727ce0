(** Property theorems for the object model and Mach-O writer (at-obj): C23-C34, C59. *)
From Coq Require String.
Import String.StringSyntax.
From Verif Require Import Base Str Mac Obj SpecMacho SpecObj PfObj4 PfBig.

(** decides the range conditions of a concrete object *)
Ltac concrete :=
  unfold object_rng, fits, clean_names, representable, symbol_rng, oreloc_rng, bytes_ok, str_ok;
  cbn [fst snd o_text o_data o_bss bs_bytes bs_symbols bs_relocs bss_size bss_symbols sym_name rl_addr rl_symbol rl_len];
  repeat match goal with
  | |- _ /\ _ => split
  | |- True => exact I
  | |- Forall _ _ => constructor
  | |- clean _ => unfold clean
  | |- In _ _ => vm_compute; intuition congruence
  | |- isbyte _ => vm_compute; intuition congruence
  | |- ischar _ => vm_compute; intuition congruence
  | |- inu _ _ => vm_compute; intuition congruence
  | |- ini _ _ => vm_compute; intuition congruence
  | |- _ < _ => vm_compute; congruence
  | |- _ <= _ => vm_compute; congruence
  | |- @eq Z _ _ => vm_compute; congruence
  | |- context [match ?y with SyUndef _ => _ | SyAbs _ _ _ => _ | SyRef _ _ _ => _ end] => progress cbv beta iota
  end.
(** ** C23 *)
Theorem C23_aligned : forall p n x a,
  0 <= n -> inu n x -> inu n a -> 0 < a ->
  exists m, (a | m) /\ x <= m /\ (forall m', (a | m') -> x <= m' -> m <= m') /\
    aligned p n x a = (if m <? 2 ^ n then Ok m
                       else match p with Debug => Panic | Release => Ok (m mod 2 ^ n) end).
Proof. exact top_C23_aligned. Qed.
Print Assumptions C23_aligned.
Theorem C23_padding : forall p n x a,
  0 <= n -> inu n x -> inu n a -> 0 < a ->
  exists d, 0 <= d < a /\ (a | x + d) /\ (forall d', 0 <= d' < a -> (a | x + d') -> d' = d) /\
    padding p n x a = (if (x + d <? 2 ^ n) then Ok d else match p with Debug => Panic | Release => Ok d end).
Proof. exact top_C23_padding. Qed.
Print Assumptions C23_padding.
Theorem C23_zero_panics : forall p n x,
  aligned p n x 0 = Panic /\ padding p n x 0 = Panic.
Proof. exact top_C23_zero. Qed.
Print Assumptions C23_zero_panics.
Example C23_case : inu 32 13 /\ inu 32 8 /\ aligned Debug 32 13 8 = Ok 16 /\ padding Release 64 16 8 = Ok 0 /\
  aligned Debug 32 (2 ^ 32 - 3) 8 = Panic /\ aligned Release 32 (2 ^ 32 - 3) 8 = Ok 0 /\
  padding Release 32 (2 ^ 32 - 3) 8 = Ok 3.
Proof. repeat split; vm_compute; congruence. Qed.

(** An object for the examples: text of 5 bytes with three symbols and two relocations, data of 3
    bytes with a symbol, bss of 16 bytes with a symbol. *)
Definition ex_object : object :=
  {| o_text := {| bs_bytes := [0xE8; 0; 0; 0; 0];
                  bs_symbols := [SyRef (lit "start") 0 true; SyUndef (lit "exit"); SyAbs (lit "K") 7 false];
                  bs_relocs := [{| rl_addr := 1; rl_symbol := lit "exit"; rl_pcrel := true; rl_len := 2 |};
                                {| rl_addr := 0; rl_symbol := lit "buf"; rl_pcrel := false; rl_len := 3 |}] |};
     o_data := {| bs_bytes := [104; 105; 0]; bs_symbols := [SyRef (lit "msg") 1 false]; bs_relocs := [] |};
     o_bss := {| bss_size := 16; bss_symbols := [SyRef (lit "buf") 8 false] |} |}.
Example ex_object_ok : object_rng ex_object /\ fits ex_object /\ clean_names ex_object /\ representable ex_object /\
  zlen (syms ex_object) = 5.
Proof. concrete. Qed.
Definition ex_file (p : profile) (h : endian) : list Z := fst (macho_write_into p h ex_object).

(** ** C24 *)
Theorem C24_header_and_commands : forall p h o f,
  object_rng o -> fits o -> macho_write_into p h o = (f, true) ->
  header_at h 0 f 0xFEEDFACF
    {| h_magic := Magic64; h_cpu := CpuX86_64 X86_64All; h_file_type := FtObject; h_ncmds := 2;
       h_size_of_cmds := Z.of_nat (pos_data o) - 32; h_flags := []; h_reserved := 0 |} /\
  segment_at h 32 f
    {| sg_cmd := 0x19; sg_cmdsize := Z.of_nat (pos_symtab o) - 32; sg_segname := []; sg_vmaddr := 0;
       sg_vmsize := vm_total o; sg_fileoff := Z.of_nat (pos_data o);
       sg_filesize := Z.of_nat (pos_rels o) - Z.of_nat (pos_data o); sg_maxprot := 7; sg_initprot := 7;
       sg_nsects := zlen (secs o); sg_flags := 0 |} /\
  symtab_at h (pos_symtab o) f
    {| st_cmd := 2; st_cmdsize := Z.of_nat (pos_data o) - Z.of_nat (pos_symtab o);
       st_symoff := Z.of_nat (pos_syms o); st_nsyms := zlen (syms o);
       st_stroff := Z.of_nat (pos_strs o); st_strsize := zlen f - Z.of_nat (pos_strs o) |}.
Proof. exact top_C24. Qed.
Print Assumptions C24_header_and_commands.
Example C24_case : forall p h, snd (macho_write_into p h ex_object) = true /\
  fld h 16 4 (ex_file p h) = 2 /\ fld h 20 4 (ex_file p h) = 72 + 3 * 80 + 24 /\
  fld h 72 8 (ex_file p h) = 368 /\ fld h (344 + 8) 4 (ex_file p h) = 368 + 8 + 2 * 8 /\
  fld h (344 + 12) 4 (ex_file p h) = 5 /\ fld h (344 + 20) 4 (ex_file p h) = 1 + 6 + 5 + 2 + 4 + 4.
Proof. intros [] []; vm_compute; repeat split; reflexivity. Qed.

(** ** C25 *)
Theorem C25_sections : forall p h o f,
  object_rng o -> fits o -> macho_write_into p h o = (f, true) ->
  forall i k a s, nth_error (placed o) i = Some (k, a, s) ->
  exists x, section_at h (pos_sections + 80 * i) f x /\
    sc_sectname x = os_name s /\ sc_segname x = os_seg s /\ sc_addr x = a /\ sc_size x = os_size s /\
    sc_align x = 0 /\ sc_type x = (if os_zerofill s then StZerofill else StRegular) /\
    sc_attrs x = (if os_code s then [SomeInstructions; PureInstructions] else []) ++
                 (if nonempty (os_rels s) then [LocReloc; ExtReloc] else []) /\
    (if os_zerofill s then sc_offset x = 0
     else slice (Z.to_nat (sc_offset x)) (Z.to_nat (sc_size x)) f = os_bytes s).
Proof. exact top_C25. Qed.
Print Assumptions C25_sections.
Example C25_case : forall p h, map (fun '(k, a, s) => (k, a, os_size s)) (placed ex_object) = [(1%nat, 0, 5); (2%nat, 5, 3); (3%nat, 8, 16)] /\
  slice 368 5 (ex_file p h) = [0xE8; 0; 0; 0; 0] /\ slice 373 3 (ex_file p h) = [104; 105; 0] /\
  fld h (104 + 80 + 48) 4 (ex_file p h) = 373 /\ fld h (104 + 160 + 64) 4 (ex_file p h) = 1.
Proof. intros [] []; vm_compute; repeat split; reflexivity. Qed.

(** ** C26 *)
Theorem C26_symbols : forall p h o f,
  object_rng o -> fits o -> clean_names o -> macho_write_into p h o = (f, true) ->
  forall j k a y, nth_error (syms o) j = Some (k, a, y) ->
  exists e, nlist_at h (pos_syms o + 16 * j) f e /\
    until_nul (skipn (pos_strs o + Z.to_nat (nl_strx e)) f) = sym_name y /\
    nl_type e = n_type_of y /\ nl_sect e = n_sect_of k y /\ nl_desc e = 0 /\ nl_value e = n_value_of a y.
Proof. exact top_C26_clean. Qed.
Print Assumptions C26_symbols.
(** Without the assumption on names. *)
Theorem C26_symbols_any_names : forall p h o f,
  object_rng o -> fits o -> macho_write_into p h o = (f, true) ->
  forall j k a y, nth_error (syms o) j = Some (k, a, y) ->
  exists e, nlist_at h (pos_syms o + 16 * j) f e /\
    until_nul (skipn (pos_strs o + Z.to_nat (nl_strx e)) f) = resolved (sym_name y) /\
    nl_type e = n_type_of y /\ nl_sect e = n_sect_of k y /\ nl_desc e = 0 /\ nl_value e = n_value_of a y.
Proof. exact top_C26. Qed.
Print Assumptions C26_symbols_any_names.
Example C26_case : forall p h, nth_error (syms ex_object) 3 = Some (2%nat, 5, SyRef (lit "msg") 1 false) /\
  pos_syms ex_object = 392%nat /\ pos_strs ex_object = 472%nat /\
  until_nul (skipn (472 + Z.to_nat (fld h (392 + 48) 4 (ex_file p h))) (ex_file p h)) = lit "msg" /\
  fld h (392 + 48 + 4) 1 (ex_file p h) = 0xE /\ fld h (392 + 48 + 5) 1 (ex_file p h) = 2 /\
  fld h (392 + 48 + 8) 8 (ex_file p h) = 6.
Proof. intros [] []; vm_compute; repeat split; reflexivity. Qed.
(** duplicate names share the first string *)
Definition ex_dup : object :=
  {| o_text := {| bs_bytes := [0xC3]; bs_symbols := [SyRef (lit "ab") 0 true; SyRef (lit "b") 0 false; SyRef (lit "ab") 1 false];
                  bs_relocs := [] |};
     o_data := bsection_new; o_bss := bss_new |}.
Example C26_dup : forall p h, let f := fst (macho_write_into p h ex_dup) in
  map (fun j => fld h (pos_syms ex_dup + 16 * j) 4 f) [0; 1; 2]%nat = [1; 4; 1].
Proof. intros [] []; vm_compute; reflexivity. Qed.

(** ** C27 *)
Theorem C27_relocations : forall p h o f,
  object_rng o -> fits o -> clean_names o -> zlen (syms o) <= 2 ^ 24 ->
  macho_write_into p h o = (f, true) ->
  forall i k a s, nth_error (placed o) i = Some (k, a, s) ->
  exists x, section_at h (pos_sections + 80 * i) f x /\ sc_nreloc x = zlen (os_rels s) /\
    forall m r, nth_error (os_rels s) m = Some r ->
    exists j, reloc_at h (Z.to_nat (sc_reloff x) + 8 * m) f
        {| r_address := rl_addr r; r_symbolnum := Z.of_nat j; r_pcrel := rl_pcrel r;
           r_length := reloc_len_of (rl_len r); r_extern := true; r_type := 0 |} /\
      reloc_length_num (reloc_len_of (rl_len r)) = rl_len r /\
      nth_error (names o) j = Some (rl_symbol r) /\
      (forall j', (j' < j)%nat -> nth_error (names o) j' <> Some (rl_symbol r)).
Proof. exact top_C27. Qed.
Print Assumptions C27_relocations.
Example C27_case : forall p h, fld h (104 + 56) 4 (ex_file p h) = 376 /\ fld h (104 + 60) 4 (ex_file p h) = 2 /\
  reloc_at h 376 (ex_file p h) {| r_address := 1; r_symbolnum := 1; r_pcrel := true; r_length := LenLong;
    r_extern := true; r_type := 0 |} /\
  reloc_at h 384 (ex_file p h) {| r_address := 0; r_symbolnum := 4; r_pcrel := false; r_length := LenQuad;
    r_extern := true; r_type := 0 |}.
Proof. unfold reloc_at. intros [] []; repeat split; try (apply Nat.leb_le); vm_compute; reflexivity. Qed.

(** ** C28 *)
Theorem C28_regions : forall p h o f,
  object_rng o -> fits o -> macho_write_into p h o = (f, true) ->
  length f = file_len o /\
  exists hdr cmds dat pad rel sym str,
    f = hdr ++ cmds ++ dat ++ pad ++ rel ++ sym ++ str /\
    length hdr = 32%nat /\
    zlen cmds = fld h 20 4 f /\
    zlen hdr + zlen cmds = fld h 72 8 f /\
    dat = flat_map os_bytes (secs o) /\ zlen dat + zlen pad = fld h 80 8 f /\
    (exists n, pad = repeat 0 n /\ (n < 8)%nat) /\ fld h 80 8 f mod 8 = 0 /\
    zlen (hdr ++ cmds ++ dat ++ pad ++ rel) = fld h (pos_symtab o + 8) 4 f /\
    zlen rel = 8 * zlen (rels o) /\
    zlen sym = 16 * fld h (pos_symtab o + 12) 4 f /\
    zlen (hdr ++ cmds ++ dat ++ pad ++ rel ++ sym) = fld h (pos_symtab o + 16) 4 f /\
    zlen str = fld h (pos_symtab o + 20) 4 f /\
    hd 1 str = 0.
Proof. exact top_C28. Qed.
Print Assumptions C28_regions.
Example C28_case : forall p h, length (ex_file p h) = 494%nat /\ file_len ex_object = 494%nat /\
  fld h 72 8 (ex_file p h) + fld h 80 8 (ex_file p h) = 376.
Proof. intros [] []; vm_compute; repeat split; reflexivity. Qed.

(** ** C29 *)
Theorem C29_read_back : forall p q w r o f,
  object_rng o -> fits o -> zlen (syms o) <= 2 ^ 24 ->
  macho_write_into p w o = (f, true) ->
  exists hd sg scs sy t ns rs l1 l2 l3 l4 l5 l6,
    gen_header64 p o = Ok hd /\ gen_segment_command64 p o = Ok sg /\ gen_section64s p o = Ok scs /\
    gen_symtab_command p o = Ok sy /\ gen_string_table o = Ok t /\
    gen_nlist64s p o scs t = Ok ns /\ gen_relocation_infos o ns t = Ok rs /\
    read_header64 r f =
      Ok ({| h_magic := if endian_eqb r w then Magic64 else Cigam64; h_cpu := h_cpu hd;
             h_file_type := h_file_type hd; h_ncmds := h_ncmds hd; h_size_of_cmds := h_size_of_cmds hd;
             h_flags := h_flags hd; h_reserved := h_reserved hd |}, w, l1) /\
    read_load_command q w l1 = Ok (LcSegment64 sg (map section_canon scs), l2) /\
    read_load_command q w l2 = Ok (LcSymtab sy, l3) /\
    (exists dat, l3 = dat ++ l4 /\ zlen dat = sg_filesize sg) /\
    read_many (length (rels o)) (read_reloc_info w) l4 = Ok (rs, l5) /\
    read_many (Z.to_nat (st_nsyms sy)) (read_nlist64 w) l5 = Ok (ns, l6) /\
    stab_from_vec l6 = Ok t /\ zlen l6 = st_strsize sy.
Proof. exact top_C29. Qed.
Print Assumptions C29_read_back.
Example C29_case : forall p w r,
  match read_header64 r (ex_file p w) with
  | Ok (x, e, rest) => e = w /\ h_ncmds x = 2 /\
      match read_load_command Debug w rest with
      | Ok (LcSegment64 sg scs, rest') => sg_vmsize sg = 24 /\ length scs = 3%nat
      | _ => False
      end
  | Panic => False
  end.
Proof. intros [] [] []; vm_compute; repeat split; reflexivity. Qed.

(** ** C30 *)
Theorem C30_iff_representable : forall p h o,
  object_rng o -> fits o -> (snd (macho_write_into p h o) = true <-> representable o).
Proof. exact top_C30. Qed.
Print Assumptions C30_iff_representable.
(** For names without NUL, in words. *)
Theorem C30_fails_iff : forall p h o,
  object_rng o -> fits o ->
  Forall (Forall (fun c => c <> 0)) (names o) ->
  (snd (macho_write_into p h o) = false <->
   (exists s c, In s (names o) /\ In c s /\ 128 <= c) \/
   (exists r, In r (rels o) /\ (3 < rl_len r \/ ~ In (rl_symbol r) (names o)))).
Proof. exact top_C30_nulfree. Qed.
Print Assumptions C30_fails_iff.
Theorem C30_partial_output : forall p h o f,
  object_rng o -> fits o -> macho_write_into p h o = (f, false) ->
  length f = pos_rels o /\
  header_at h 0 f 0xFEEDFACF
    {| h_magic := Magic64; h_cpu := CpuX86_64 X86_64All; h_file_type := FtObject; h_ncmds := 2;
       h_size_of_cmds := 72 + 80 * zlen (secs o) + 24; h_flags := []; h_reserved := 0 |}.
Proof. exact top_C30_partial_file. Qed.
Print Assumptions C30_partial_output.
Definition ex_unresolved : object :=
  {| o_text := {| bs_bytes := [0xE8; 0; 0; 0; 0]; bs_symbols := [];
                  bs_relocs := [{| rl_addr := 1; rl_symbol := lit "exit"; rl_pcrel := true; rl_len := 2 |}] |};
     o_data := bsection_new; o_bss := bss_new |}.
Example C30_case : forall p h, snd (macho_write_into p h ex_object) = true /\
  snd (macho_write_into p h ex_unresolved) = false /\ length (fst (macho_write_into p h ex_unresolved)) = 216%nat.
Proof. intros [] []; vm_compute; repeat split; reflexivity. Qed.

(** ** C31: false of the code; full statement: [In y (obj_symbols o)] suffices in
    [C31_present_partial]. *)
Theorem C31_present_partial : forall p h o f y,
  object_rng o -> fits o -> clean_names o -> macho_write_into p h o = (f, true) ->
  (bs_symbols (o_text o) = [] \/ bs_bytes (o_text o) <> []) ->
  (bs_symbols (o_data o) = [] \/ bs_bytes (o_data o) <> []) ->
  (bss_symbols (o_bss o) = [] \/ 0 < bss_size (o_bss o)) ->
  In y (obj_symbols o) ->
  exists j e, (j < length (obj_symbols o))%nat /\ fld h (pos_symtab o + 12) 4 f = zlen (obj_symbols o) /\
    nlist_at h (pos_syms o + 16 * j) f e /\
    until_nul (skipn (pos_strs o + Z.to_nat (nl_strx e)) f) = sym_name y /\ nl_type e = n_type_of y.
Proof. exact top_C31_present. Qed.
Print Assumptions C31_present_partial.
Theorem C31_exact : forall o,
  object_rng o ->
  (map (fun x => snd x) (syms o) = obj_symbols o <->
   (bs_symbols (o_text o) = [] \/ bs_bytes (o_text o) <> []) /\
   (bs_symbols (o_data o) = [] \/ bs_bytes (o_data o) <> []) /\
   (bss_symbols (o_bss o) = [] \/ 0 < bss_size (o_bss o))).
Proof. exact top_C31_exact. Qed.
Print Assumptions C31_exact.
Definition ex_empty_label : object :=
  {| o_text := {| bs_bytes := []; bs_symbols := [SyRef (lit "end") 0 true]; bs_relocs := [] |};
     o_data := {| bs_bytes := [1]; bs_symbols := []; bs_relocs := [] |}; o_bss := bss_new |}.
Theorem C31_refuted : forall p h, exists o f y, object_rng o /\ fits o /\ clean_names o /\
  In y (obj_symbols o) /\ macho_write_into p h o = (f, true) /\ fld h (pos_symtab o + 12) 4 f = 0.
Proof.
  intros p h. exists ex_empty_label, (fst (macho_write_into p h ex_empty_label)), (SyRef (lit "end") 0 true).
  split; [concrete|].
  split; [concrete|].
  split; [constructor|]. split; [now left|]. destruct p, h; split; vm_compute; reflexivity.
Qed.
Print Assumptions C31_refuted.
Example C31_case : map snd (syms ex_object) = obj_symbols ex_object /\ length (obj_symbols ex_object) = 5%nat /\
  syms ex_empty_label = [].
Proof. repeat split; reflexivity. Qed.

(** ** C32: false of the code for every Abs symbol written. *)
Theorem C32_never_no_sect : forall p h o f,
  object_rng o -> fits o -> macho_write_into p h o = (f, true) ->
  forall j k a nm v ext, nth_error (syms o) j = Some (k, a, SyAbs nm v ext) ->
  fld h (pos_syms o + 16 * j + 5) 1 f = Z.of_nat k /\ 1 <= Z.of_nat k.
Proof. exact top_C32_always. Qed.
Print Assumptions C32_never_no_sect.
(** undefined symbols have it *)
Theorem C32_undefined : forall p h o f,
  object_rng o -> fits o -> macho_write_into p h o = (f, true) ->
  forall j k a nm, nth_error (syms o) j = Some (k, a, SyUndef nm) ->
  fld h (pos_syms o + 16 * j + 5) 1 f = NO_SECT.
Proof. exact top_C32_undefined. Qed.
Print Assumptions C32_undefined.
Theorem C32_refuted : forall p h, exists o f j k a nm v ext, object_rng o /\ fits o /\
  macho_write_into p h o = (f, true) /\ nth_error (syms o) j = Some (k, a, SyAbs nm v ext) /\
  fld h (pos_syms o + 16 * j + 5) 1 f <> 0.
Proof.
  intros p h. exists ex_object, (ex_file p h), 2%nat, 1%nat, 0, (lit "K"), 7, false.
  split; [apply ex_object_ok|]. split; [apply ex_object_ok|].
  destruct p, h; vm_compute; repeat split; congruence.
Qed.
Print Assumptions C32_refuted.
Example C32_case : forall p h, fld h (392 + 32 + 5) 1 (ex_file p h) = 1 /\ fld h (392 + 32 + 4) 1 (ex_file p h) = 2.
Proof. intros [] []; vm_compute; repeat split; reflexivity. Qed.

(** ** C33 *)
Theorem C33_address_ranges : forall p h o f,
  object_rng o -> fits o -> macho_write_into p h o = (f, true) ->
  let addr i := fld h (pos_sections + 80 * i + 32) 8 f in
  let size i := fld h (pos_sections + 80 * i + 40) 8 f in
  let n := length (secs o) in
  (forall i, (i < n)%nat -> 0 < size i) /\
  ((0 < n)%nat -> addr 0%nat = 0) /\
  (forall i, (S i < n)%nat -> addr (S i) = addr i + size i) /\
  (forall i, S i = n -> addr i + size i = fld h 64 8 f) /\
  (n = 0%nat -> fld h 64 8 f = 0).
Proof. exact top_C33. Qed.
Print Assumptions C33_address_ranges.
Theorem C33_symbol_values : forall p h o f,
  object_rng o -> fits o -> macho_write_into p h o = (f, true) ->
  forall j k a nm off ext, nth_error (syms o) j = Some (k, a, SyRef nm off ext) ->
  let i := (Z.to_nat (fld h (pos_syms o + 16 * j + 5) 1 f) - 1)%nat in
  let value := fld h (pos_syms o + 16 * j + 8) 8 f in
  let addr := fld h (pos_sections + 80 * i + 32) 8 f in
  let size := fld h (pos_sections + 80 * i + 40) 8 f in
  value = addr + off /\ (off < size -> addr <= value < addr + size).
Proof. exact top_C33_symbols. Qed.
Print Assumptions C33_symbol_values.
Example C33_case : forall p h, map (fun i => (fld h (104 + 80 * i + 32) 8 (ex_file p h), fld h (104 + 80 * i + 40) 8 (ex_file p h)))
    [0; 1; 2]%nat = [(0, 5); (5, 3); (8, 16)] /\ fld h 64 8 (ex_file p h) = 24 /\
  fld h (392 + 64 + 8) 8 (ex_file p h) = 16.
Proof. intros [] []; vm_compute; repeat split; reflexivity. Qed.

(** ** C34: false of the code; full statement: [fld h 80 8 f <= fld h 64 8 f]. *)
Theorem C34_exact : forall p h o f,
  object_rng o -> fits o -> macho_write_into p h o = (f, true) ->
  (fld h 80 8 f <= fld h 64 8 f <-> Z.of_nat (round8 (data_len o) - data_len o) <= bss_size (o_bss o)).
Proof. exact top_C34_exact. Qed.
Print Assumptions C34_exact.
Theorem C34_refuted : forall p h, exists o f, object_rng o /\ fits o /\ macho_write_into p h o = (f, true) /\
  fld h 64 8 f < fld h 80 8 f.
Proof.
  intros p h. exists ex_dup, (fst (macho_write_into p h ex_dup)).
  split; [concrete|].
  split; [concrete|].
  destruct p, h; split; vm_compute; reflexivity.
Qed.
Print Assumptions C34_refuted.
Example C34_case : forall p h, let f := fst (macho_write_into p h ex_dup) in fld h 80 8 f = 8 /\ fld h 64 8 f = 1.
Proof. intros [] []; vm_compute; split; reflexivity. Qed.

(** ** C59: objects beyond 4 GiB are written with wrong offsets instead of being rejected. *)
Theorem C59_text_of_4GiB : forall p h bs, bytes_ok bs -> zlen bs = 2 ^ 32 ->
  exists f, macho_write_into p h (big_object bs) = (f, true) /\ zlen f = 2 ^ 32 + 209 /\
    slice 208 (length bs) f = bs /\
    fld h 144 8 f = 2 ^ 32 /\ fld h 80 8 f = 0 /\ fld h 192 4 f = 208 /\ fld h 200 4 f = 208 /\ fld h 204 4 f = 1.
Proof. exact top_C59. Qed.
Print Assumptions C59_text_of_4GiB.
Theorem C59_refuted : forall p h, exists o f, object_rng o /\ macho_write_into p h o = (f, true) /\
  fld h (pos_symtab o + 16) 4 f + fld h (pos_symtab o + 20) 4 f < zlen f /\
  fld h 80 8 f = 0 /\ fld h 144 8 f = 2 ^ 32.
Proof. exact top_C59_refuted. Qed.
Print Assumptions C59_refuted.
Example C59_case : exists bs, bytes_ok bs /\ zlen bs = 2 ^ 32.
Proof.
  exists (repeat 0 (Z.to_nat (2 ^ 32))). split.
  - apply Forall_forall. intros x H. apply repeat_spec in H. subst x. unfold isbyte. lia.
  - unfold zlen. rewrite repeat_length. apply Z2Nat.id. lia.
Qed.
(** the file describes the object exactly when the object fits, in every build *)
Theorem C59_exact : forall p h o f, object_rng o -> macho_write_into p h o = (f, true) ->
  ((fld h 64 8 f = vm_total o /\
    fld h (pos_symtab o + 8) 4 f = Z.of_nat (pos_syms o) /\
    fld h (pos_symtab o + 16) 4 f = Z.of_nat (pos_strs o) /\
    fld h (pos_symtab o + 20) 4 f = 1 + Z.of_nat (names_len o) /\
    forall j k a nm off ext, nth_error (syms o) j = Some (k, a, SyRef nm off ext) ->
      fld h (pos_syms o + 16 * j + 8) 8 f = a + off)
   <-> fits o).
Proof. exact top_C59_exact. Qed.
Print Assumptions C59_exact.
(** debug builds reject objects that do not fit, as long as each part is itself below 4 GiB
    (missing for the full statement: parts of 4 GiB or more, whose sizes are truncated before any check:
    [C59_text_of_4GiB]) *)
Theorem C59_debug_partial : forall h o f,
  object_rng o -> parts_small o -> macho_write_into Debug h o = (f, true) -> fits o.
Proof. exact top_C59_debug. Qed.
Print Assumptions C59_debug_partial.
(** for such objects a debug build succeeds exactly on those that fit and can be represented *)
Theorem C59_debug_exact : forall h o, object_rng o -> parts_small o ->
  (snd (macho_write_into Debug h o) = true <-> fits o /\ representable o).
Proof.
  intros h o R P. split.
  - intros W. assert (F : fits o).
    { apply (top_C59_debug h o (fst (macho_write_into Debug h o)) R P). rewrite <- W. apply surjective_pairing. }
    split; [exact F|]. now apply (top_C30 Debug h o R F).
  - intros [F Rp]. now apply (top_C30 Debug h o R F).
Qed.
Print Assumptions C59_debug_exact.
(** release builds write objects that do not fit even when every part is small *)
Definition ex_wide : object :=
  {| o_text := {| bs_bytes := [0xC3]; bs_symbols := [SyRef (lit "f") 0 true]; bs_relocs := [] |};
     o_data := bsection_new;
     o_bss := {| bss_size := 2 ^ 64 - 1; bss_symbols := [SyRef (lit "e") 0xFFFFFFFFFFFFFFFF false] |} |}.
Theorem C59_release_refuted : forall h, exists o f, object_rng o /\ parts_small o /\ ~ fits o /\
  macho_write_into Release h o = (f, true) /\ fld h 64 8 f = 0 /\ vm_total o = 2 ^ 64 /\
  fld h (pos_syms o + 16 + 8) 8 f = 0 /\ snd (macho_write_into Debug h o) = false.
Proof.
  intros h. exists ex_wide, (fst (macho_write_into Release h ex_wide)).
  split; [concrete|]. split; [apply parts_smallb_ok; vm_compute; reflexivity|].
  split. { intros (_ & V & _). vm_compute in V. discriminate. }
  destruct h; vm_compute; repeat split; reflexivity.
Qed.
Print Assumptions C59_release_refuted.
Example C59_exact_case : forall p h, macho_write_into p h ex_object = (ex_file p h, true) /\ fits ex_object /\ parts_small ex_object /\
  fld h 64 8 (ex_file p h) = 24 /\ vm_total ex_object = 24.
Proof.
  intros p h. split; [destruct p, h; vm_compute; reflexivity|]. split; [apply ex_object_ok|].
  split; [apply parts_smallb_ok; vm_compute; reflexivity|]. destruct p, h; vm_compute; split; reflexivity.
Qed.
