(** Model of the hand-written `Debug` formatters of at-mac: `StringTable`, `Flags` and
    `SectionAttrs`.  Paths are relative to /repo/at-mac/src.  [alt] tells `{:#?}` from `{:?}`. *)
From Coq Require Import String.
From Verif Require Import Base Str Mac.

(** std `DebugList`/`DebugSet`: the entries between two brackets, separated by a comma and a
    space, or each on its own line after four spaces, followed by a comma.  No entry that occurs
    contains a line break. *)
Fixpoint join_comma (es : list str) : str :=
  match es with
  | [] => []
  | [e] => e
  | e :: es' => e ++ lit ", " ++ join_comma es'
  end.
Definition dbg_entries (alt : bool) (opening closing : str) (es : list str) : str :=
  opening ++
  (if alt then
     match es with
     | [] => []
     | _ => 10 :: flat_map (fun e => lit "    " ++ e ++ lit "," ++ [10]) es
     end
   else join_comma es) ++ closing.

(** std `u32` in lower-case hexadecimal, one or two digits *)
Definition hex_digit (n : Z) : Z := if n <? 10 then 48 + n else 87 + n.
Definition show_hex2 (n : Z) : str :=
  if n <? 16 then [hex_digit n] else [hex_digit (n / 16); hex_digit (n mod 16)].

(** std `Debug for char` on an ASCII character other than NUL (`StringTable` only holds ASCII
    bytes; NUL is formatted separately) *)
Definition dbg_char (c : Z) : str :=
  lit "'" ++
  (if c =? 9 then lit "\t"
   else if c =? 13 then lit "\r"
   else if c =? 10 then lit "\n"
   else if (c =? 39) || (c =? 92) then 92 :: [c]
   else if (32 <=? c) && (c <? 127) then [c]
   else lit "\u{" ++ show_hex2 c ++ lit "}") ++
  lit "'".

(** string_table.rs:55-72 `Debug for StringTable`; the empty string is formatted as two quotes *)
Definition dbg_stab (alt : bool) (t : stab) : str :=
  dbg_entries alt (lit "[") (lit "]") (map (fun n => if n =? 0 then [34; 34] else dbg_char n) t).

(** header.rs:179-198 the derived `Debug for Flag` *)
Definition dbg_flag (f : flag) : str :=
  lit match f with
  | NoUndefs => "NoUndefs" | IncrLink => "IncrLink" | DyldLink => "DyldLink"
  | BindAtLoad => "BindAtLoad" | PreBound => "PreBound" | SplitSegs => "SplitSegs"
  | TwoLevel => "TwoLevel" | ForceFlat => "ForceFlat" | NoMultiDefs => "NoMultiDefs"
  | NoFixPreBinding => "NoFixPreBinding" | PreBindable => "PreBindable"
  | AllModsBound => "AllModsBound" | SubsectionsViaSymbols => "SubsectionsViaSymbols"
  | Canonical => "Canonical" | Pie => "Pie" | HasTlvDescriptors => "HasTlvDescriptors"
  end.
(** header.rs:248-252 `Debug for Flags` *)
Definition dbg_flags (alt : bool) (fs : list flag) : str :=
  dbg_entries alt (lit "{") (lit "}") (map dbg_flag fs).

(** load_command/segment64.rs:197-222 the derived `Debug for SectionAttr` *)
Definition dbg_attr (a : section_attr) : str :=
  lit match a with
  | PureInstructions => "PureInstructions" | NoToc => "NoToc"
  | StripStaticSyms => "StripStaticSyms" | LiveSupport => "LiveSupport" | AttrDebug => "Debug"
  | SomeInstructions => "SomeInstructions" | ExtReloc => "ExtReloc" | LocReloc => "LocReloc"
  end.
(** load_command/segment64.rs:271-275 `Debug for SectionAttrs` *)
Definition dbg_attrs (alt : bool) (l : list section_attr) : str :=
  dbg_entries alt (lit "{") (lit "}") (map dbg_attr l).
