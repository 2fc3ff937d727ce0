(** Property theorems for the `Debug` output of at-mac: C82. *)
From Coq Require String.
Import String.StringSyntax.
From Verif Require Import Base Str Mac SpecMacho Dbg SpecDbg PfDbg.

(** ** C82: the `Debug` output shows exactly what the value holds *)

(** every string table holds ASCII *)
Theorem C82_ascii : (forall d t, bytes_ok d -> stab_from_vec d = Ok t -> t = d /\ ascii_str t) /\
  ascii_str stab_with_null /\
  forall t s t', ascii_str t -> str_ok s -> stab_push t s = Ok t' -> ascii_str t'.
Proof.
  split; [exact top_C82_table_ascii|]. split; [|exact top_C82_push_ascii]. repeat constructor; discriminate.
Qed.
Print Assumptions C82_ascii.

(** one literal per byte, in order *)
Theorem C82_table : forall alt t, ascii_str t ->
  exists es, Forall2 byte_entry t es /\ listed alt (lit "[") (lit "]") es (dbg_stab alt t).
Proof. exact top_C82_table. Qed.
Print Assumptions C82_table.
Theorem C82_table_injective : forall alt alt' t t', ascii_str t -> ascii_str t' ->
  dbg_stab alt t = dbg_stab alt' t' -> t = t'.
Proof. exact top_C82_table_inj. Qed.
Print Assumptions C82_table_injective.

(** one name per set bit, in the order of the bits *)
Theorem C82_flags : forall alt w fs, inu 32 w -> flags_from_u32 w = Ok fs ->
  exists names, Forall2 (fun i n => camel_of (mh_name i) n) (bits_in w (count_from 0 32)) names /\
    listed alt (lit "{") (lit "}") names (dbg_flags alt fs).
Proof. exact top_C82_flags. Qed.
Print Assumptions C82_flags.
Theorem C82_flags_injective : forall alt alt' l l', dbg_flags alt l = dbg_flags alt' l' -> l = l'.
Proof. exact top_C82_flags_inj. Qed.
Print Assumptions C82_flags_injective.
Theorem C82_attrs : forall alt w fs, inu 32 w -> section_attrs_from_u32 w = Ok fs ->
  exists names, Forall2 (fun i n => camel_of (s_attr_name i) n) (bits_in w (count_from 8 24)) names /\
    listed alt (lit "{") (lit "}") names (dbg_attrs alt fs).
Proof. exact top_C82_attrs. Qed.
Print Assumptions C82_attrs.
Theorem C82_attrs_injective : forall alt alt' l l', dbg_attrs alt l = dbg_attrs alt' l' -> l = l'.
Proof. exact top_C82_attrs_inj. Qed.
Print Assumptions C82_attrs_injective.

Example C82_case :
  dbg_stab false [0; 95; 109; 39; 7; 0] = lit "["""", '_', 'm', '\'', '\u{7}', """"]" /\
  dbg_stab true [0; 127] = lit "[" ++ [10] ++ lit "    """"," ++ [10] ++ lit "    '\u{7f}'," ++ [10] ++ lit "]" /\
  (fs <- flags_from_u32 0x202001 ;; Ok (dbg_flags false fs)) = Ok (lit "{NoUndefs, SubsectionsViaSymbols, Pie}") /\
  (fs <- section_attrs_from_u32 0x80000400 ;; Ok (dbg_attrs false fs)) = Ok (lit "{SomeInstructions, PureInstructions}") /\
  dbg_flags true [] = lit "{}".
Proof. vm_compute. repeat split; reflexivity. Qed.
