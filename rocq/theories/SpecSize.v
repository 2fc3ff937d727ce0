(** Sources of ordinary size. *)
From Coq Require String.
Import String.StringSyntax.
From Verif Require Import Base Str X64 SpecX86 Obj Asm SpecAsm Assembler SpecDiag SpecRun.

(** the length of the inputs together; up to 16 MiB *)
Definition total (ins : list (list Z)) : Z := zlen (concat ins).
Definition ordinary (ins : list (list Z)) : Prop := total ins <= 2 ^ 24.

(** why a line after [pr] makes the process panic when sizes do not matter: it is not UTF-8,
    an expression overflows in a debug build, or it is a symbolic mov in .bss *)
Inductive line_crashes (p : profile) (pr : prog) (raw : list Z) : Prop :=
| lc_utf8 : (forall s, str_ok s -> raw <> utf8 s) -> line_crashes p pr raw
| lc_expr : forall s body d o ts, p = Debug -> raw = utf8 s -> str_ok s -> line_text s body -> mov_body body d o ->
    is_reg_name d -> words o ts -> expr_overflow ts -> line_crashes p pr raw
| lc_bss : forall x, line_is p raw x -> last_sect SText pr = SBss -> stmt_reloc (fst x) <> None -> line_crashes p pr raw.

(** the line [bad] after [pr] ends the process with status 1, printing [err] *)
Definition line_errors (p : profile) (pr : prog) (bad : list Z) (err : str) : Prop :=
  ~ line_crashes p pr bad /\
  ((exists x, line_is p bad x /\ last_sect SText pr = SBss /\ stmt_writes (fst x) = true /\ err = bss_msg) \/
   ((forall x, ~ line_is p bad x) /\
    exists s msg, bad = utf8 s /\ str_ok s /\ line_reports p s msg /\ bad_line_report (zlen pr + 1) msg err)).

(** the lines [raws] are the statements [pr], none of which writes to .bss *)
Definition runs (p : profile) (raws : list (list Z)) (pr : prog) : Prop := Forall2 (line_is p) raws pr /\ bss_clean pr.

(** a mov of a constant expression one of whose sums leaves the signed 64-bit range *)
Definition overflowing (raw : list Z) : Prop :=
  exists s body d o ts, raw = utf8 s /\ str_ok s /\ line_text s body /\ mov_body body d o /\
    is_reg_name d /\ words o ts /\ expr_overflow ts.
