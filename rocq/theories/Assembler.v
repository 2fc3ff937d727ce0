(** Model of the assembler state machine of at-asm (assembler.rs, reader.rs).  Paths are
    relative to /repo/at-asm/src. *)
From Coq Require String.
Import String.StringSyntax.
From Verif Require Import Base Str X64 Obj Asm.

(** How a call ends: it returns, it ends the process with `exit(code)` (assembler.rs:48,160) after printing
    [err] to standard error, or it panics. *)
Inductive outcome (A : Type) :=
| Done (a : A)
| Exit (code : Z) (err : str)
| Crash.
Arguments Done {A} a.
Arguments Exit {A} code err.
Arguments Crash {A}.
Definition obind {A B} (m : outcome A) (k : A -> outcome B) : outcome B :=
  match m with Done a => k a | Exit c e => Exit c e | Crash => Crash end.
Definition olift {A} (m : res A) : outcome A := match m with Ok a => Done a | Panic => Crash end.

(** ** reader.rs *)

(** reader.rs:16-24 `next_line`, repeated until it returns None: the bytes up to and
    including each newline.  Whether a line is UTF-8 is checked when it is read. *)
Fixpoint raw_lines (l : list Z) : list (list Z) :=
  match l with
  | [] => []
  | b :: l' =>
      if b =? 10 then [b] :: raw_lines l'
      else match raw_lines l' with
           | [] => [[b]]
           | w :: ws => (b :: w) :: ws
           end
  end.

(** ** assembler.rs *)

(** assembler.rs:9-14 `Assembler` *)
Record asm := {
  as_sect : sect;
  as_line : Z;        (* u32 *)
  as_obj : object;
  as_ext : list str
}.
(** assembler.rs:17-24 `new` *)
Definition asm_new : asm :=
  {| as_sect := SText; as_line := 0; as_obj := object_new; as_ext := [] |}.

(** assembler.rs:34-36 `set_cur_sect` *)
Definition set_cur_sect (a : asm) (s : sect) : asm :=
  {| as_sect := s; as_line := as_line a; as_obj := as_obj a; as_ext := as_ext a |}.
Definition set_line (a : asm) (n : Z) : asm :=
  {| as_sect := as_sect a; as_line := n; as_obj := as_obj a; as_ext := as_ext a |}.
Definition push_ext (a : asm) (s : str) : asm :=
  {| as_sect := as_sect a; as_line := as_line a; as_obj := as_obj a; as_ext := as_ext a ++ [s] |}.
Definition set_obj (a : asm) (o : object) : asm :=
  {| as_sect := as_sect a; as_line := as_line a; as_obj := o; as_ext := as_ext a |}.

(** assembler.rs:26-32, 115-119 `cur_sect_mut`: an operation on the current section *)
Definition upd_text (o : object) (f : bsection -> bsection) : object :=
  {| o_text := f (o_text o); o_data := o_data o; o_bss := o_bss o |}.
Definition upd_data (o : object) (f : bsection -> bsection) : object :=
  {| o_text := o_text o; o_data := f (o_data o); o_bss := o_bss o |}.
Definition upd_bss (o : object) (f : bss_section -> bss_section) : object :=
  {| o_text := o_text o; o_data := o_data o; o_bss := f (o_bss o) |}.

(** assembler.rs:122-130 `size` *)
Definition cur_size (a : asm) : Z :=
  match as_sect a with
  | SText => zlen (bs_bytes (o_text (as_obj a)))
  | SData => zlen (bs_bytes (o_data (as_obj a)))
  | SBss => bss_size (o_bss (as_obj a))
  end.
(** assembler.rs:132-140 `push_symbol` *)
Definition sec_push_symbol (y : symbol) (s : bsection) : bsection :=
  {| bs_bytes := bs_bytes s; bs_symbols := bs_symbols s ++ [y]; bs_relocs := bs_relocs s |}.
Definition push_symbol (a : asm) (y : symbol) : asm :=
  set_obj a
    match as_sect a with
    | SText => upd_text (as_obj a) (sec_push_symbol y)
    | SData => upd_data (as_obj a) (sec_push_symbol y)
    | SBss => upd_bss (as_obj a)
                (fun b => {| bss_size := bss_size b; bss_symbols := bss_symbols b ++ [y] |})
    end.
(** assembler.rs:142-150 `push_reloc` *)
Definition sec_push_reloc (r : reloc) (s : bsection) : bsection :=
  {| bs_bytes := bs_bytes s; bs_symbols := bs_symbols s; bs_relocs := bs_relocs s ++ [r] |}.
Definition push_reloc (a : asm) (r : reloc) : outcome asm :=
  match as_sect a with
  | SText => Done (set_obj a (upd_text (as_obj a) (sec_push_reloc r)))
  | SData => Done (set_obj a (upd_data (as_obj a) (sec_push_reloc r)))
  | SBss => Crash
  end.
(** assembler.rs:152-163 `write_bytes` *)
Definition sec_write (bs : list Z) (s : bsection) : bsection :=
  {| bs_bytes := bs_bytes s ++ bs; bs_symbols := bs_symbols s; bs_relocs := bs_relocs s |}.
Definition write_bytes (a : asm) (bs : list Z) : outcome asm :=
  match as_sect a with
  | SText => Done (set_obj a (upd_text (as_obj a) (sec_write bs)))
  | SData => Done (set_obj a (upd_data (as_obj a) (sec_write bs)))
  | SBss => Exit 1 (lit "error: can't write data to .bss section" ++ [10])
  end.

(** assembler.rs:60-68, 72-77: a label at the current position *)
Definition push_label (a : asm) (name : str) : asm :=
  push_symbol a (SyRef name (cur_size a) false).

(** assembler.rs:52-93: the effect of a parsed line *)
Definition exec_line (p : profile) (a : asm) (l : line) : outcome asm :=
  match l with
  | LEmpty => Done a
  | LSection s => Done (set_cur_sect a s)
  | LGlobal name => Done (push_ext a name)
  | LSymbol name => Done (push_label a name)
  | LData d =>
      let a := match da_label d with Some label => push_label a label | None => a end in
      write_bytes a (da_bytes d)
  | LInst i =>
      obind
        match in_reloc i with
        | Some lr =>
            obind (olift (chki p 32 (wrapi 32 (cur_size a) + lr_offset lr)))
              (fun addr => push_reloc a {| rl_addr := addr; rl_symbol := lr_symbol lr;
                                           rl_pcrel := lr_pcrel lr; rl_len := lr_len lr |})
        | None => Done a
        end
        (fun a => write_bytes a (bam_ref (in_bytes i)))
  end.

(** assembler.rs:41-94: one iteration of the loop, on the raw bytes of a line.
    reader.rs:19 panics if the bytes are not UTF-8; assembler.rs:42 counts lines at u32. *)
Definition exec_raw (p : profile) (a : asm) (raw : list Z) : outcome asm :=
  match from_utf8 raw with
  | None => Crash
  | Some s =>
      obind (olift (chku p 32 (as_line a + 1))) (fun n =>
      let a := set_line a n in
      match line_parse p s with
      | POk l => exec_line p a l
      | PErr msg =>
          Exit 1 (lit "error at line " ++ show_u64 (as_line a) ++ lit ": " ++ msg ++ [10])
      | PPanic => Crash
      end)
  end.
Fixpoint exec_all (p : profile) (a : asm) (raws : list (list Z)) : outcome asm :=
  match raws with
  | [] => Done a
  | r :: rs => obind (exec_raw p a r) (fun a => exec_all p a rs)
  end.

(** assembler.rs:101-105 *)
Definition set_ext (y : symbol) : symbol :=
  match y with
  | SyUndef n => SyUndef n
  | SyAbs n v _ => SyAbs n v true
  | SyRef n a _ => SyRef n a true
  end.
(** assembler.rs:96-105 *)
Definition mark_ext (a : asm) : asm :=
  set_obj a (obj_symbols_update
    (fun y => if existsb (fun s => str_eqb s (sym_name y)) (as_ext a) then set_ext y else y)
    (as_obj a)).

(** assembler.rs:38-108 `read_from` on a source delivering the bytes [input] *)
Definition read_from (p : profile) (a : asm) (input : list Z) : outcome asm :=
  obind (exec_all p a (raw_lines input)) (fun a => Done (mark_ext a)).

(** assembler.rs:110-112 `write_into` *)
Definition asm_write_into (p : profile) (h : endian) (a : asm) : wr :=
  macho_write_into p h (as_obj a).
