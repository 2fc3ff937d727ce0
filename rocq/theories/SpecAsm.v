(** The source language of the assembler, independently of the parsers: words, numbers,
    expressions, data items, statements, and the object a source denotes.  Only data types
    of the model (and the encoding relation [emits] of SpecX86) are used. *)
From Coq Require String.
Import String.StringSyntax.
From Verif Require Import Base Str X64 SpecX86 Obj Asm.

(** ** Characters and words *)

(** Unicode White_Space *)
Definition space (c : Z) : Prop :=
  In c [9; 10; 11; 12; 13; 32; 0x85; 0xA0; 0x1680;
        0x2000; 0x2001; 0x2002; 0x2003; 0x2004; 0x2005; 0x2006; 0x2007; 0x2008; 0x2009; 0x200A;
        0x2028; 0x2029; 0x202F; 0x205F; 0x3000].
Definition blank (w : str) : Prop := Forall space w.
(** non-empty and without white space *)
Definition word (t : str) : Prop := t <> [] /\ Forall (fun c => ~ space c) t.
Definition starts_solid (s : str) : Prop := match s with [] => True | c :: _ => ~ space c end.
Definition starts_blank (s : str) : Prop := match s with [] => True | c :: _ => space c end.
(** no white space at either end *)
Definition tight (s : str) : Prop := starts_solid s /\ starts_solid (rev s).

(** the words of a text, separated by white space *)
Inductive words : str -> list str -> Prop :=
| words_nil : forall w, blank w -> words w []
| words_cons : forall w t rest ts,
    blank w -> word t -> starts_blank rest -> words rest ts -> words (w ++ t ++ rest) (t :: ts).

(** ** Numbers *)

Inductive digit (radix : Z) : Z -> Z -> Prop :=
| dig_09 : forall d, 0 <= d < 10 -> d < radix -> digit radix (48 + d) d
| dig_af : forall d, 10 <= d < 16 -> d < radix -> digit radix (97 + (d - 10)) d
| dig_AF : forall d, 10 <= d < 16 -> d < radix -> digit radix (65 + (d - 10)) d.
(** positional value *)
Inductive numeral (radix : Z) : str -> Z -> Prop :=
| num_one : forall c d, digit radix c d -> numeral radix [c] d
| num_snoc : forall s v c d, numeral radix s v -> digit radix c d ->
    numeral radix (s ++ [c]) (v * radix + d).
(** what the user writes: decimal, or hexadecimal after 0x *)
Definition literal (s : str) (v : Z) : Prop :=
  numeral 10 s v \/ exists ds, s = lit "0x" ++ ds /\ numeral 16 ds v.
(** what is accepted: also one `+`, and repeated `0x` *)
Fixpoint prefix_0x (k : nat) : str :=
  match k with O => [] | S k' => lit "0x" ++ prefix_0x k' end.
Definition number (bits : Z) (s : str) (v : Z) : Prop :=
  v < 2 ^ bits /\
  exists k sg ds, s = prefix_0x k ++ sg ++ ds /\ (sg = [] \/ sg = lit "+") /\
    numeral (match k with O => 10 | S _ => 16 end) ds v.

(** ** Immediate expressions *)

(** two's complement *)
Definition signed64 (n : Z) : Z := if n <? 2 ^ 63 then n else n - 2 ^ 64.
Definition in_i64 (x : Z) : Prop := - 2 ^ 63 <= x < 2 ^ 63.
(** the value of the words of an expression; in a debug build an intermediate result outside
    i64 makes it undefined.  Words after the third do not matter. *)
Inductive expr_value (p : profile) : list str -> Z -> Prop :=
| ev_num : forall t n, number 64 t n -> expr_value p [t] n
| ev_add : forall t1 t2 a b more, number 64 t1 a -> number 64 t2 b ->
    (p = Debug -> in_i64 (signed64 a + signed64 b)) ->
    expr_value p (t1 :: lit "+" :: t2 :: more) ((a + b) mod 2 ^ 64)
| ev_sub : forall t1 t2 a b more, number 64 t1 a -> number 64 t2 b ->
    (p = Debug -> in_i64 (- signed64 b) /\ in_i64 (signed64 a - signed64 b)) ->
    expr_value p (t1 :: lit "-" :: t2 :: more) ((a - b) mod 2 ^ 64).
(** the text is not an expression at all, so it may be something else *)
Definition not_expr (s : str) : Prop :=
  words s [] \/
  exists t ts, words s (t :: ts) /\ t <> lit "+" /\ t <> lit "-" /\ forall n, ~ number 64 t n.

(** ** Registers: Intel's names by hardware number *)

Definition names64 : list str :=
  [ lit "rax"; lit "rcx"; lit "rdx"; lit "rbx"; lit "rsp"; lit "rbp"; lit "rsi"; lit "rdi";
    lit "r8"; lit "r9"; lit "r10"; lit "r11"; lit "r12"; lit "r13"; lit "r14"; lit "r15" ].
Definition names32 : list str :=
  [ lit "eax"; lit "ecx"; lit "edx"; lit "ebx"; lit "esp"; lit "ebp"; lit "esi"; lit "edi";
    lit "r8d"; lit "r9d"; lit "r10d"; lit "r11d"; lit "r12d"; lit "r13d"; lit "r14d"; lit "r15d" ].
Definition names16 : list str :=
  [ lit "ax"; lit "cx"; lit "dx"; lit "bx"; lit "sp"; lit "bp"; lit "si"; lit "di";
    lit "r8w"; lit "r9w"; lit "r10w"; lit "r11w"; lit "r12w"; lit "r13w"; lit "r14w"; lit "r15w" ].
Definition name64 (r : reg64) : str := nth (Z.to_nat (hw64 r)) names64 [].
Definition name32 (r : reg32) : str := nth (Z.to_nat (hw32 r)) names32 [].
Definition name16 (r : reg16) : str := nth (Z.to_nat (hw16 r)) names16 [].

(** ** Data items *)

Inductive item := INum (n : Z) | IStr (s : str).
Definition delim (c : Z) : Prop := space c \/ c = 44.
(** the text of a list of items: after a number one blank or comma and then blanks, after a
    string any blanks and commas *)
Inductive items_text : str -> list item -> Prop :=
| it_nil : items_text [] []
| it_last : forall t n, number 64 t n -> items_text t [INum n]
| it_num : forall t n c w rest its, number 64 t n -> delim c -> blank w -> starts_solid rest ->
    items_text rest its -> items_text (t ++ c :: w ++ rest) (INum n :: its)
| it_str : forall s sep rest its, ~ In 34 s -> Forall delim sep ->
    match rest with [] => True | c :: _ => ~ delim c end ->
    items_text rest its -> items_text (34 :: s ++ 34 :: sep ++ rest) (IStr s :: its).

Definition unit_name (u : align) : str :=
  match u with DB => lit "db" | DW => lit "dw" | DD => lit "dd" | DQ => lit "dq" end.
Definition unit_size (u : align) : nat := match u with DB => 1 | DW => 2 | DD => 4 | DQ => 8 end.
(** least number of zeros making a multiple of the unit *)
Definition padded (u : nat) (bs out : list Z) : Prop :=
  exists n, out = bs ++ repeat 0 n /\ (n < u)%nat /\ Nat.modulo (length out) u = 0%nat.
(** [bs] is the item's representation *)
Definition item_bytes (u : align) (it : item) (bs : list Z) : Prop :=
  match it with
  | INum n => n < 256 ^ Z.of_nat (unit_size u) /\ length bs = unit_size u /\ bytes_ok bs /\ lev bs = n
  | IStr s => padded (unit_size u) (utf8 s) bs
  end.
Definition items_bytes (u : align) (its : list item) (bs : list Z) : Prop :=
  exists bss, Forall2 (item_bytes u) its bss /\ bs = concat bss.

(** the layout of a data line without a label, and with the label [n]: the unit, then the
    text of the items, blanks in between *)
Definition data_layout (s : str) (u : align) (text : str) : Prop :=
  exists w0 c w1 w2, s = w0 ++ unit_name u ++ c :: w1 ++ text ++ w2 /\
    blank w0 /\ space c /\ blank w1 /\ blank w2 /\ text <> [] /\ tight text.
Definition label_layout (s n : str) (u : align) (text : str) : Prop :=
  exists w0 c1 w1 c2 w2 w3, s = w0 ++ n ++ c1 :: w1 ++ unit_name u ++ c2 :: w2 ++ text ++ w3 /\
    word n /\ (forall u', n <> unit_name u') /\
    blank w0 /\ space c1 /\ blank w1 /\ space c2 /\ blank w2 /\ blank w3 /\ text <> [] /\ tight text.

(** a data line: label, unit, text of the items *)
Definition data_line (body : str) (lbl : option str) (u : align) (text : str) : Prop :=
  match lbl with
  | None => data_layout body u text
  | Some n => label_layout body n u text /\ n <> lit "section" /\ n <> lit "global" /\ (forall n', n <> n' ++ [58])
  end.
(** a number that fits the unit *)
Definition fits_unit (u : align) (it : item) : Prop := match it with INum n => n < 256 ^ Z.of_nat (unit_size u) | IStr _ => True end.
(** a list of numbers: each of [l] is its text, its value, the blank or comma after it, and
    further blanks; [t] is the text of the last *)
Fixpoint numbers_text (l : list (str * Z * Z * str)) (t : str) : str :=
  match l with
  | [] => t
  | (t0, n0, c, w) :: l' => t0 ++ c :: w ++ numbers_text l' t
  end.

(** ** Statements *)

Inductive stmt :=
| StEmpty
| StSection (s : sect)
| StGlobal (name : str)
| StLabel (name : str)
| StData (label : option str) (bs : list Z)
| StInstr (i : instr)
| StMovSym64 (dst : reg64) (sym : str)
| StMovSym32 (dst : reg32) (sym : str).

Definition sect_name (s : sect) : str :=
  match s with SText => lit ".text" | SData => lit ".data" | SBss => lit ".bss" end.

(** the body of a line (what precedes a comment) is accepted as a statement *)
Inductive accepts (p : profile) : str -> stmt -> Prop :=
| ac_empty : forall s, words s [] -> accepts p s StEmpty
| ac_section : forall s x, words s [lit "section"; sect_name x] -> accepts p s (StSection x)
| ac_global : forall s n, words s [lit "global"; n] -> accepts p s (StGlobal n)
| ac_label : forall s n k, words s [n ++ repeat 58 (S k)] -> (forall n', n <> n' ++ [58]) ->
    accepts p s (StLabel n)
| ac_data : forall w0 u c w1 text w2 its bs,
    blank w0 -> space c -> blank w1 -> text <> [] -> tight text -> blank w2 ->
    items_text text its -> items_bytes u its bs ->
    accepts p (w0 ++ unit_name u ++ c :: w1 ++ text ++ w2) (StData None bs)
| ac_data_label : forall w0 n c1 w1 u c2 w2 text w3 its bs,
    blank w0 -> word n -> n <> lit "section" -> n <> lit "global" -> (forall n', n <> n' ++ [58]) ->
    (forall u', n <> unit_name u') ->
    space c1 -> blank w1 -> space c2 -> blank w2 -> text <> [] -> tight text -> blank w3 ->
    items_text text its -> items_bytes u its bs ->
    accepts p (w0 ++ n ++ c1 :: w1 ++ unit_name u ++ c2 :: w2 ++ text ++ w3) (StData (Some n) bs)
| ac_mov : forall w0 w1 d w2 w3 o w4 st,
    blank w0 -> blank w1 -> blank w2 -> blank w3 -> tight o -> blank w4 ->
    mov_operands p d o st ->
    accepts p (w0 ++ lit "mov " ++ w1 ++ d ++ w2 ++ 44 :: w3 ++ o ++ w4) st
| ac_push_reg : forall s r more, words s (lit "push" :: name64 r :: more) ->
    accepts p s (StInstr (PushR64 r))
| ac_push8 : forall s t n more, words s (lit "push" :: t :: more) -> number 8 t n ->
    accepts p s (StInstr (PushI8 n))
| ac_push32 : forall s t n more, words s (lit "push" :: t :: more) -> number 32 t n -> 256 <= n ->
    accepts p s (StInstr (PushI32 n))
| ac_ret : forall s more, words s (lit "ret" :: more) -> (forall u t l, more <> unit_name u :: t :: l) ->
    accepts p s (StInstr Ret)
| ac_syscall : forall s more, words s (lit "syscall" :: more) -> (forall u t l, more <> unit_name u :: t :: l) ->
    accepts p s (StInstr Syscall)
(** destination [d] and source [o] of a mov *)
with mov_operands (p : profile) : str -> str -> stmt -> Prop :=
| mo_imm64 : forall r o ts n, words o ts -> expr_value p ts n -> mov_operands p (name64 r) o (StInstr (MovRI64 r n))
| mo_imm32 : forall r o ts n, words o ts -> expr_value p ts n -> n < 2 ^ 32 ->
    mov_operands p (name32 r) o (StInstr (MovRI32 r n))
| mo_imm16 : forall r o ts n, words o ts -> expr_value p ts n -> n < 2 ^ 16 ->
    mov_operands p (name16 r) o (StInstr (MovRI16 r n))
| mo_reg64 : forall r r', mov_operands p (name64 r) (name64 r') (StInstr (MovRR64 r r'))
| mo_reg32 : forall r r', mov_operands p (name32 r) (name32 r') (StInstr (MovRR32 r r'))
| mo_reg16 : forall r r', mov_operands p (name16 r) (name16 r') (StInstr (MovRR16 r r'))
| mo_sym64 : forall r o, not_expr o -> (forall r', o <> name64 r') -> mov_operands p (name64 r) o (StMovSym64 r o)
| mo_sym32 : forall r o, not_expr o -> (forall r', o <> name32 r') -> mov_operands p (name32 r) o (StMovSym32 r o).

(** a line: a body without `;`, then possibly a comment *)
Definition line_text (s body : str) : Prop :=
  ~ In 59 body /\ (s = body \/ exists c, s = body ++ 59 :: c).

(** ** Meaning of statements *)

(** the bytes a statement contributes to the current section *)
Definition stmt_bytes (st : stmt) (bs : list Z) : Prop :=
  match st with
  | StData _ b => bs = b
  | StInstr i => emits i bs
  | StMovSym64 r _ => emits (MovRI64 r 0) bs
  | StMovSym32 r _ => emits (MovRI32 r 0) bs
  | _ => bs = []
  end.
Definition stmt_label (st : stmt) : option str :=
  match st with StLabel n => Some n | StData l _ => l | _ => None end.
(** symbol, log2 of the field's size; the field is at the end of the instruction *)
Definition stmt_reloc (st : stmt) : option (str * Z) :=
  match st with StMovSym64 _ s => Some (s, 3) | StMovSym32 _ s => Some (s, 2) | _ => None end.
(** writes to the current section *)
Definition stmt_writes (st : stmt) : bool :=
  match st with StData _ _ | StInstr _ | StMovSym64 _ _ | StMovSym32 _ _ => true | _ => false end.

(** ** The object of a program: statements with their bytes *)

Definition prog := list (stmt * list Z).
Definition sect_eqb (a b : sect) : bool :=
  match a, b with SText, SText | SData, SData | SBss, SBss => true | _, _ => false end.
(** the statements assembled while section [s] is current; [cur] is current at the start *)
Fixpoint during (s cur : sect) (pr : prog) : prog :=
  match pr with
  | [] => []
  | (StSection s', _) :: pr' => during s s' pr'
  | x :: pr' => (if sect_eqb s cur then [x] else []) ++ during s cur pr'
  end.
Fixpoint last_sect (cur : sect) (pr : prog) : sect :=
  match pr with
  | [] => cur
  | (StSection s', _) :: pr' => last_sect s' pr'
  | _ :: pr' => last_sect cur pr'
  end.
Definition out_bytes (l : prog) : list Z := flat_map snd l.
(** labels of a section's statements with their offsets *)
Fixpoint out_labels (off : Z) (l : prog) : list (str * Z) :=
  match l with
  | [] => []
  | (st, bs) :: l' =>
      match stmt_label st with Some n => [(n, off)] | None => [] end ++ out_labels (off + zlen bs) l'
  end.
(** relocations: symbol, log2 of size, offset of the field *)
Fixpoint out_relocs (off : Z) (l : prog) : list (str * Z * Z) :=
  match l with
  | [] => []
  | (st, bs) :: l' =>
      match stmt_reloc st with Some (s, k) => [(s, k, off + zlen bs - 2 ^ k)] | None => [] end
      ++ out_relocs (off + zlen bs) l'
  end.
Definition globals (pr : prog) : list str :=
  flat_map (fun x => match fst x with StGlobal n => [n] | _ => [] end) pr.
Definition is_global (pr : prog) (n : str) : bool := existsb (fun g => str_eqb g n) (globals pr).

(** an offset as the i32 of a relocation *)
Definition as_i32 (x : Z) : Z := (x + 2 ^ 31) mod 2 ^ 32 - 2 ^ 31.

Definition sec_of (pr : prog) (s : sect) : bsection :=
  let l := during s SText pr in
  {| bs_bytes := out_bytes l;
     bs_symbols := map (fun x => SyRef (fst x) (snd x) (is_global pr (fst x))) (out_labels 0 l);
     bs_relocs := map (fun x => {| rl_addr := as_i32 (snd x); rl_symbol := fst (fst x); rl_pcrel := false;
                                   rl_len := snd (fst x) |}) (out_relocs 0 l) |}.
Definition object_of (pr : prog) : object :=
  {| o_text := sec_of pr SText; o_data := sec_of pr SData;
     o_bss := {| bss_size := 0;
                 bss_symbols := map (fun x => SyRef (fst x) (snd x) (is_global pr (fst x)))
                                    (out_labels 0 (during SBss SText pr)) |} |}.

(** no statement writes while .bss is current *)
Definition bss_clean (pr : prog) : Prop :=
  Forall (fun x => stmt_writes (fst x) = false) (during SBss SText pr).

(** both byte sections are addressable with an i32 *)
Definition small (pr : prog) : Prop :=
  zlen (out_bytes (during SText SText pr)) < 2 ^ 31 /\ zlen (out_bytes (during SData SText pr)) < 2 ^ 31.

(** ** Sources *)

(** lines of a byte sequence: each ends after its newline, the last may have none *)
Inductive source_lines : list Z -> list (list Z) -> Prop :=
| sl_nil : source_lines [] []
| sl_last : forall l, l <> [] -> ~ In 10 l -> source_lines l [l]
| sl_cons : forall l rest ls, ~ In 10 l -> source_lines rest ls ->
    source_lines (l ++ 10 :: rest) ((l ++ [10]) :: ls).
(** one line of UTF-8 text is the statement with these bytes *)
Definition line_is (p : profile) (raw : list Z) (x : stmt * list Z) : Prop :=
  exists s body, raw = utf8 s /\ str_ok s /\ line_text s body /\ accepts p body (fst x) /\
    stmt_bytes (fst x) (snd x).
Definition source_is (p : profile) (input : list Z) (pr : prog) : Prop :=
  exists ls, source_lines input ls /\ Forall2 (line_is p) ls pr.

(** ** What a parsed line stands for *)
Definition means (st : stmt) (l : line) : Prop :=
  match l with
  | LEmpty => st = StEmpty
  | LSection s => st = StSection s
  | LSymbol n => st = StLabel n
  | LGlobal n => st = StGlobal n
  | LData d => st = StData (da_label d) (da_bytes d)
  | LInst i =>
      let bs := bam_ref (in_bytes i) in
      match st with
      | StInstr k => emits k bs /\ in_reloc i = None
      | StMovSym64 r s => emits (MovRI64 r 0) bs /\
          in_reloc i = Some {| lr_offset := zlen bs - 8; lr_symbol := s; lr_pcrel := false; lr_len := 3 |}
      | StMovSym32 r s => emits (MovRI32 r 0) bs /\
          in_reloc i = Some {| lr_offset := zlen bs - 4; lr_symbol := s; lr_pcrel := false; lr_len := 2 |}
      | _ => False
      end
  end.

(** the i64 arithmetic of an expression overflows *)
Definition expr_overflow (ts : list str) : Prop :=
  exists t1 op t2 more a b, ts = t1 :: op :: t2 :: more /\ number 64 t1 a /\ number 64 t2 b /\
    (op = lit "+" /\ ~ in_i64 (signed64 a + signed64 b) \/
     op = lit "-" /\ ~ (in_i64 (- signed64 b) /\ in_i64 (signed64 a - signed64 b))).
(** a mov line with these operands *)
Definition mov_body (s d o : str) : Prop :=
  exists w0 w1 w2 w3 w4, s = w0 ++ lit "mov " ++ w1 ++ d ++ w2 ++ 44 :: w3 ++ o ++ w4 /\
    blank w0 /\ blank w1 /\ blank w2 /\ blank w3 /\ blank w4 /\ tight d /\ ~ In 44 d /\ tight o.
Definition is_reg_name (d : str) : Prop :=
  (exists r, d = name64 r) \/ (exists r, d = name32 r) \/ (exists r, d = name16 r).

(** the signed value the CPU pushes for the instruction of `push n` *)
Definition pushed (n : Z) : Z := if n <? 256 then sext 8 n else sext 32 n.
