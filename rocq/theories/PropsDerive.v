(** Property theorems for the derived `Debug` output of all crates: C92. *)
From Coq Require Import String.
From Verif Require Import Base Str X64 Mac SpecMacho Obj SpecObj Asm SpecAsm Dbg SpecDbg SpecDiag PfTok PfDbg Derive SpecDerive PfDerive PfDerive2 PfDerive3 PfDerive4.

(** ** C92: the derived `Debug` output determines the value and shows it in one line *)

(** two values of a type print alike only if they are equal, on one line or on several *)
Theorem C92_injective : forall esc alt a b, type_of a = type_of b -> value_ok a -> value_ok b ->
  format esc alt a = format esc alt b -> a = b.
Proof. exact top_C92_injective. Qed.
Print Assumptions C92_injective.

(** `{:?}` stays on one line whatever the strings hold *)
Theorem C92_oneline : forall esc v, value_ok v -> ~ In 10 (format esc false v).
Proof. exact top_C92_oneline. Qed.
Print Assumptions C92_oneline.
(** no control character gets out, `{:#?}`'s line breaks excepted *)
Theorem C92_control : forall esc alt v, escapes_control esc -> value_ok v ->
  Forall (fun c => ~ control c \/ (alt = true /\ c = 10)) (format esc alt v).
Proof. exact top_C92_control. Qed.
Print Assumptions C92_control.
(** the two layouts differ in white space and commas only *)
Theorem C92_layouts : forall esc v, value_ok v ->
  filter solid (format esc true v) = filter solid (format esc false v).
Proof. exact top_C92_layouts. Qed.
Print Assumptions C92_layouts.

(** structs: each field by its name, the strings as Rust literals, with `{:#?}` on lines four spaces further in *)
Theorem C92_records : forall esc alt v name fields vals, value_ok v -> record_of esc alt v = Some (name, fields, vals) ->
  exists ts, Forall2 (shown alt) vals ts /\ record_text alt name fields ts (format esc alt v).
Proof. exact top_C92_records. Qed.
Print Assumptions C92_records.
Theorem C92_tuples : forall esc alt v name vals, value_ok v -> tuple_of esc alt v = Some (name, vals) ->
  exists ts, Forall2 (shown alt) vals ts /\ block alt (lit name ++ lit "(") (lit ")") ts (format esc alt v).
Proof. exact top_C92_tuples. Qed.
Print Assumptions C92_tuples.
(** what [shown] asks of a field: a number has one text, and the text of a number, a truth value or a string stands for it alone *)
Theorem C92_texts : forall alt,
  (forall n t t', shown alt (FNum n) t -> shown alt (FNum n) t' -> t = t') /\
  (forall n m t, shown alt (FNum n) t -> shown alt (FNum m) t -> n = m) /\
  (forall b c t, shown alt (FBool b) t -> shown alt (FBool c) t -> b = c) /\
  (forall s r t, shown alt (FStr s) t -> shown alt (FStr r) t -> s = r).
Proof. exact top_C92_texts. Qed.
Print Assumptions C92_texts.
Example C92_texts_case : forall alt, ~ shown alt (FNum 0) (lit "-0") /\ shown alt (FStr [10]) (lit """\n""") /\
  shown alt (FStr [10]) (lit """\u{a}""").
Proof.
  intro alt. split; [|split].
  - intro H. inversion H as [? ? _ [N _]|? ? L _| | | | | | | |]; subst; [|lia]. apply numeral_chars in N. destruct N as [_ F]. inversion F; subst. lia.
  - apply sh_str. exists (lit "\n"). split; [|reflexivity]. apply (scs_cons (lit "\n") 10 [] []); constructor.
  - apply sh_str. exists (lit "\u{a}"). split; [|reflexivity]. apply (scs_cons (lit "\u{" ++ [97] ++ lit "}") 10 [] []); constructor; [|discriminate].
    apply (hex_af [] 0 10); [constructor|lia].
Qed.

(** enumerations: the name in Apple's headers of the number read *)
Theorem C92_names : forall esc alt,
  (forall n x, magic_from_u32 n = Ok x -> camel_of (magic_name n) (format esc alt (VMagic x))) /\
  (forall n x, file_type_from_u32 n = Ok x -> camel_of (mh_filetype n) (format esc alt (VFileType x))) /\
  (forall n x, section_type_from_u32 n = Ok x -> camel_of (s_type_name n) (format esc alt (VSectionType x))) /\
  (forall n x, platform_from_u32 n = Ok x -> camel_of (platform_name n) (format esc alt (VPlatform x))) /\
  (forall n x, tool_from_u32 n = Ok x -> camel_of (tool_name n) (format esc alt (VTool x))) /\
  (forall n x, n_type_from_u8 n = Ok x -> camel_of (n_type_name n) (format esc alt (VNType x))) /\
  (forall n x, debug_symbol_from_u8 n = Ok x -> camel_of (n_type_name n) (format esc alt (VDebugSymbol x))).
Proof. exact top_C92_names. Qed.
Print Assumptions C92_names.
Theorem C92_reloc_names : forall esc alt,
  (forall n x, reloc_length_from_u32 n = Ok x -> camel_of (r_length_name n) (format esc alt (VRelocLength x))) /\
  (forall n x, x86_reloc_from_u8 n = Ok x -> camel_of (generic_reloc_name n) (format esc alt (VX86Reloc x))) /\
  (forall n x, x86_64_reloc_from_u8 n = Ok x -> camel_of (x86_64_reloc_name n) (format esc alt (VX86_64Reloc x))).
Proof. exact top_C92_reloc_names. Qed.
Print Assumptions C92_reloc_names.
Theorem C92_other_names : forall esc alt,
  (forall x, camel_of (cpu_subtype_name (cpu_sub_x86_n x)) (format esc alt (VCpuSubX86 x))) /\
  (forall x, camel_of (cpu_subtype_name (cpu_sub_x86_64_n x)) (format esc alt (VCpuSubX86_64 x))) /\
  (forall s, map upper (lit "." ++ format esc alt (VSect s)) = map upper (sect_name s)) /\
  (forall f, camel_of (mh_name (flag_bit f)) (format esc alt (VFlag f))) /\
  (forall f, camel_of (s_attr_name (attr_bit f)) (format esc alt (VAttr f))).
Proof. exact top_C92_plain. Qed.
Print Assumptions C92_other_names.
Theorem C92_byte_orders : forall esc alt e,
  (format esc alt (VEndian e) = lit "Little" <-> bytes_of e 2 1 = [1; 0]) /\ (format esc alt (VEndian e) = lit "Big" <-> bytes_of e 2 1 = [0; 1]).
Proof. exact top_C92_byte_orders. Qed.
Print Assumptions C92_byte_orders.
(** registers: the name `Display` writes, in capitals *)
Theorem C92_registers : forall esc alt,
  (forall r, format esc alt (VReg64 r) = map upper (name_of (Reg64 r))) /\
  (forall r, format esc alt (VReg32 r) = map upper (name_of (Reg32 r))) /\
  (forall r, format esc alt (VReg16 r) = map upper (name_of (Reg16 r))) /\
  (forall r, format esc alt (VReg8 r) = map upper (name_of (Reg8 r))).
Proof. exact top_C92_registers. Qed.
Print Assumptions C92_registers.
(** sets, by the formatters of C82 *)
Theorem C92_sets : forall esc alt,
  (forall l, format esc alt (VFlags l) = dbg_flags alt l) /\ (forall l, format esc alt (VAttrs l) = dbg_attrs alt l).
Proof. exact top_C92_sets. Qed.
Print Assumptions C92_sets.

Definition std_policy : policy := fun _ c => (c <? 32) && negb (c =? 0) || (c =? 127).
Example C92_policy : escapes_control std_policy.
Proof. intros i c H. unfold std_policy. lia. Qed.
Example C92_mem : format std_policy false (VMem64 (MSib (Some RBX) 8 R9 4)) =
  lit "Sib { base: Some(RBX), disp: 8, index: R9, scale: 4 }".
Proof. reflexivity. Qed.
(** a name with a line break and a quote *)
Example C92_symbol : format std_policy false (VSymbol (SyRef [97; 10; 34; 27; 0; 233] 16 true)) =
  lit "Ref { name: ""a\n\""\u{1b}\0" ++ [233] ++ lit """, addr: 16, ext: true }".
Proof. reflexivity. Qed.
Example C92_nlist : format std_policy true (VNList64 {| nl_strx := 1; nl_type := Norm false Sect true; nl_sect := 1; nl_desc := 0; nl_value := 16 |}) =
  lit "NList64 {
    n_strx: 1,
    n_type: Norm {
        n_pext: false,
        n_type: Sect,
        n_ext: true,
    },
    n_sect: 1,
    n_desc: 0,
    n_value: 16,
}".
Proof. reflexivity. Qed.
Example C92_section : format std_policy false (VData {| da_label := None; da_bytes := [] |}) = lit "Data { label: None, bytes: [] }" /\
  format std_policy true (VExpr 5) = lit "Expr(
    5,
)" /\
  format std_policy false (VRelocInfo {| r_address := -2; r_symbolnum := 1; r_pcrel := false; r_length := LenLong; r_extern := true; r_type := 2 |}) =
  lit "RelocationInfo { r_address: -2, r_symbolnum: 1, r_pcrel: false, r_length: Long, r_extern: true, r_type: 2 }".
Proof. now repeat split. Qed.
(** values of different types may print alike *)
Example C92_types : format std_policy false (VNType Abs) <> format std_policy false (VCpuSubX86 X86All) /\
  format std_policy false (VCpuSubX86 X86All) = format std_policy false (VCpuSubX86_64 X86_64All).
Proof. split; [discriminate|reflexivity]. Qed.
