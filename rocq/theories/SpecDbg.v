(** What the `Debug` output of at-mac must be: Rust's literals, Rust's two layouts of a list,
    and the names of Apple's <mach-o/loader.h>. *)
From Coq Require Import String.
From Verif Require Import Base Str Mac SpecMacho.

(** ** Rust character literals (The Rust Reference, tokens) *)
Inductive hex_val : str -> Z -> Prop :=
| hex_none : hex_val [] 0
| hex_09 ds n d : hex_val ds n -> 0 <= d <= 9 -> hex_val (ds ++ [48 + d]) (16 * n + d)
| hex_af ds n d : hex_val ds n -> 10 <= d <= 15 -> hex_val (ds ++ [97 + (d - 10)]) (16 * n + d).
Inductive char_literal : str -> Z -> Prop :=
| cl_plain c : 32 <= c < 127 -> c <> 39 -> c <> 92 -> char_literal (lit "'" ++ [c] ++ lit "'") c
| cl_quote : char_literal (lit "'\''") 39
| cl_backslash : char_literal (lit "'\\'") 92
| cl_tab : char_literal (lit "'\t'") 9
| cl_lf : char_literal (lit "'\n'") 10
| cl_cr : char_literal (lit "'\r'") 13
| cl_unicode ds n : hex_val ds n -> ds <> [] -> char_literal (lit "'\u{" ++ ds ++ lit "}'") n.
(** a byte of a string table: a character, or the empty string for a terminator *)
Inductive byte_entry : Z -> str -> Prop :=
| be_nul : byte_entry 0 (lit """""")
| be_char c s : 1 <= c < 128 -> char_literal s c -> byte_entry c s.

(** ** `{:?}` on one line, `{:#?}` one entry per line *)
Definition listed (alt : bool) (opening closing : str) (es : list str) (text : str) : Prop :=
  match es, alt with
  | [], _ => text = opening ++ closing
  | e :: es', false => text = opening ++ e ++ concat (map (app (lit ", ")) es') ++ closing
  | _, true =>
      split (Z.eqb 10) text = [opening] ++ map (fun e => lit "    " ++ e ++ lit ",") es ++ [closing]
  end.

(** ** names *)

(** <mach-o/loader.h>, MH_* by bit number *)
Definition mh_name (i : Z) : option str :=
  option_map lit match i with
  | 0 => Some "NOUNDEFS" | 1 => Some "INCRLINK" | 2 => Some "DYLDLINK" | 3 => Some "BINDATLOAD"
  | 4 => Some "PREBOUND" | 5 => Some "SPLIT_SEGS" | 7 => Some "TWOLEVEL" | 8 => Some "FORCE_FLAT"
  | 9 => Some "NOMULTIDEFS" | 10 => Some "NOFIXPREBINDING" | 11 => Some "PREBINDABLE"
  | 12 => Some "ALLMODSBOUND" | 13 => Some "SUBSECTIONS_VIA_SYMBOLS" | 14 => Some "CANONICAL"
  | 21 => Some "PIE" | 23 => Some "HAS_TLV_DESCRIPTORS" | _ => None
  end%string.
(** S_ATTR_* by bit number *)
Definition s_attr_name (i : Z) : option str :=
  option_map lit match i with
  | 8 => Some "LOC_RELOC" | 9 => Some "EXT_RELOC" | 10 => Some "SOME_INSTRUCTIONS" | 25 => Some "DEBUG"
  | 27 => Some "LIVE_SUPPORT" | 29 => Some "STRIP_STATIC_SYMS" | 30 => Some "NO_TOC"
  | 31 => Some "PURE_INSTRUCTIONS" | _ => None
  end%string.
(** the same name in camel case: upper case letters, no underscores *)
Definition upper (c : Z) : Z := if (97 <=? c) && (c <=? 122) then c - 32 else c.
Definition camel_of (c_name : option str) (s : str) : Prop :=
  exists n, c_name = Some n /\ map upper s = filter (fun c => negb (c =? 95)) n.
