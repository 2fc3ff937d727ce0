(** Runs of the assembler, for stating properties of all of them. *)
From Coq Require String.
Import String.StringSyntax.
From Verif Require Import Base Str X64 SpecX86 Obj Asm SpecAsm Assembler.
From Verif Require Export SpecDiag.

(** [a] is the state after the program [pr] *)
Definition assembled (pr : prog) (a : asm) : Prop :=
  as_obj a = object_of pr /\ as_sect a = last_sect SText pr /\ as_ext a = globals pr /\
  as_line a = zlen pr mod 2 ^ 32.

(** [read_from] called on these inputs in turn, each returning *)
Inductive session (p : profile) : list (list Z) -> asm -> Prop :=
| ses_new : session p [] asm_new
| ses_read : forall ins a input a',
    session p ins a -> read_from p a input = Done a' -> session p (ins ++ [input]) a'.
(** the program of a sequence of inputs: lines do not extend across inputs *)
Definition sources_are (p : profile) (ins : list (list Z)) (pr : prog) : Prop :=
  exists prs, Forall2 (source_is p) ins prs /\ pr = concat prs.

(** what a build profile demands of a program's size: a debug build panics on overflow *)
Definition size_ok (p : profile) (pr : prog) : Prop := p = Debug -> small pr /\ zlen pr < 2 ^ 32.

(** how the process ends *)
Definition bss_msg : str := lit "error: can't write data to .bss section" ++ [10].
Definition bad_line_report (n : Z) (msg err : str) : Prop :=
  exists ds, decimal n ds /\ err = lit "error at line " ++ ds ++ lit ": " ++ msg ++ [10].

(** why the line [raw] after the program [pr] can make the process panic: it is not UTF-8,
    the u32 line count overflows, an expression overflows, a symbolic mov in .bss, or a
    symbolic mov beyond 2^31 bytes *)
Inductive crashes (p : profile) (pr : prog) (raw : list Z) : Prop :=
| cr_utf8 : (forall s, str_ok s -> raw <> utf8 s) -> crashes p pr raw
| cr_count : p = Debug -> (zlen pr + 1) mod 2 ^ 32 = 0 -> crashes p pr raw
| cr_expr : forall s body d o ts, p = Debug -> raw = utf8 s -> str_ok s -> line_text s body -> mov_body body d o ->
    is_reg_name d -> words o ts -> expr_overflow ts -> crashes p pr raw
| cr_bss : forall x, line_is p raw x -> last_sect SText pr = SBss -> stmt_reloc (fst x) <> None -> crashes p pr raw
| cr_huge : forall x sym k, line_is p raw x -> p = Debug -> last_sect SText pr <> SBss ->
    stmt_reloc (fst x) = Some (sym, k) ->
    2 ^ 31 <= as_i32 (zlen (out_bytes (during (last_sect SText pr) SText pr))) + (zlen (snd x) - 2 ^ k) ->
    crashes p pr raw.

(** The lines [raws], read after the program [pr], are all executed and give the program
    [pr']: each is a statement, does not panic, and does not write to .bss. *)
Inductive passes (p : profile) : prog -> list (list Z) -> prog -> Prop :=
| pa_nil : forall pr, passes p pr [] pr
| pa_cons : forall pr raw x raws pr',
    line_is p raw x -> ~ crashes p pr raw -> (last_sect SText pr = SBss -> stmt_writes (fst x) = false) ->
    passes p (pr ++ [x]) raws pr' -> passes p pr (raw :: raws) pr'.
(** the line [bad] after the program [pr] ends the process with status 1, printing [err] *)
Definition ends_with_error (p : profile) (pr : prog) (bad : list Z) (err : str) : Prop :=
  ~ crashes p pr bad /\
  ((exists x, line_is p bad x /\ last_sect SText pr = SBss /\ stmt_writes (fst x) = true /\ err = bss_msg) \/
   ((forall x, ~ line_is p bad x) /\
    exists s msg, bad = utf8 s /\ str_ok s /\ line_reports p s msg /\
      bad_line_report ((zlen pr + 1) mod 2 ^ 32) msg err)).

(** the symbols and bytes of an object's sections *)
Definition sec_symbols (o : object) (s : sect) : list symbol :=
  match s with SText => bs_symbols (o_text o) | SData => bs_symbols (o_data o) | SBss => bss_symbols (o_bss o) end.
Definition sec_bytes (o : object) (s : sect) : list Z :=
  match s with SText => bs_bytes (o_text o) | SData => bs_bytes (o_data o) | SBss => [] end.
Definition sec_relocs_of (o : object) (s : sect) : list reloc :=
  match s with SText => bs_relocs (o_text o) | SData => bs_relocs (o_data o) | SBss => [] end.
(** the field of [r1] ends before that of [r2] *)
Definition rbefore (r1 r2 : reloc) : Prop := rl_addr r1 + 2 ^ rl_len r1 <= rl_addr r2.
(** how many labels the statements of a section define *)
Definition label_count (l : prog) : nat :=
  length (filter (fun x => match stmt_label (fst x) with Some _ => true | None => false end) l).

(** the label [n] has an entry in the file: it is defined in a byte section with contents *)
Definition written_label (pr : prog) (n : str) : Prop :=
  exists s off, s <> SBss /\ out_bytes (during s SText pr) <> [] /\ In (n, off) (out_labels 0 (during s SText pr)).
(** the program has a symbolic operand [n] *)
Definition refers (pr : prog) (n : str) : Prop :=
  exists s k off, s <> SBss /\ In (n, k, off) (out_relocs 0 (during s SText pr)).
(** the program can be written as an object file: its written labels are ASCII and its
    symbolic operands are among them *)
Definition linkable (pr : prog) : Prop :=
  (forall n, written_label pr n -> Forall (fun c => c < 128) n) /\ (forall n, refers pr n -> written_label pr n).

(** the Mach-O names of the sections *)
Definition seg_name (s : sect) : str := match s with SText => lit "__TEXT" | _ => lit "__DATA" end.
Definition sec_name (s : sect) : str :=
  match s with SText => lit "__text" | SData => lit "__data" | SBss => lit "__bss" end.

(** the operations a statement's bytes are for a CPU: symbolic operands are still zero *)
Definition stmt_ops (st : stmt) : list op :=
  match st with
  | StInstr i => [cpu_op i]
  | StMovSym64 r _ => [OMovImm 64 (hw64 r) 0]
  | StMovSym32 r _ => [OMovImm 32 (hw32 r) 0]
  | _ => []
  end.
Definition is_data (st : stmt) : bool := match st with StData _ _ => true | _ => false end.
