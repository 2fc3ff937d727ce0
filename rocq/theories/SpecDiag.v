(** The diagnostics of the assembler: which message is printed for which bad line.  Only the
    language of SpecAsm.v and decimal notation are used, not the parsers. *)
From Coq Require String.
Import String.StringSyntax.
From Verif Require Import Base Str X64 SpecX86 Obj Asm SpecAsm.

(** the decimal notation of [n], without leading zeros *)
Definition decimal (n : Z) (ds : str) : Prop :=
  numeral 10 ds n /\ match ds with c :: _ :: _ => c <> 48 | _ => True end.
Definition not_number (bits : Z) (t : str) : Prop := forall n, ~ number bits t n.

(** an immediate expression of these words is malformed *)
Inductive expr_error : list str -> str -> Prop :=
| ee_unary : forall t ts, t = lit "+" \/ t = lit "-" -> expr_error (t :: ts) (lit "unary op is not supported")
| ee_op : forall t n op ts, number 64 t n -> op <> lit "+" -> op <> lit "-" ->
    expr_error (t :: op :: ts) (lit "expected + or -")
| ee_end : forall t n op, number 64 t n -> op = lit "+" \/ op = lit "-" ->
    expr_error [t; op] (lit "rhs not found")
| ee_rhs : forall t n op t' ts, number 64 t n -> op = lit "+" \/ op = lit "-" -> not_number 64 t' ->
    expr_error (t :: op :: t' :: ts) (lit "invalid rhs").

Definition unit_bits (u : align) : str :=
  match u with DB => lit "8" | DW => lit "16" | DD => lit "32" | DQ => lit "64" end.
(** the text of a list of items is wrong for the unit [u]: its first bad item is an unclosed
    string, not a number, or a number that is too big *)
Inductive items_error (u : align) : str -> str -> Prop :=
| ie_quote : forall s, ~ In 34 s -> items_error u (34 :: s) (lit "unclosed " ++ [34] ++ lit " found")
| ie_number : forall t rest, ~ (exists c, In c t /\ delim c) -> (forall t', t <> 34 :: t') ->
    t ++ rest <> [] -> match rest with [] => True | c :: _ => delim c end -> not_number 64 t ->
    items_error u (t ++ rest) (t ++ lit " is invalid u64")
| ie_big : forall t n rest ds, number 64 t n -> match rest with [] => True | c :: _ => delim c end ->
    256 ^ Z.of_nat (unit_size u) <= n -> decimal n ds ->
    items_error u (t ++ rest) (ds ++ lit " is not a " ++ unit_bits u ++ lit " bit number")
| ie_num : forall t n c w rest e, number 64 t n -> n < 256 ^ Z.of_nat (unit_size u) -> delim c -> blank w ->
    starts_solid rest -> items_error u rest e -> items_error u (t ++ c :: w ++ rest) e
| ie_str : forall s sep rest e, ~ In 34 s -> Forall delim sep ->
    match rest with [] => True | c :: _ => ~ delim c end ->
    items_error u rest e -> items_error u (34 :: s ++ 34 :: sep ++ rest) e.

(** the operands of a mov are wrong *)
Inductive mov_error (p : profile) : str -> str -> str -> Prop :=
| me_first : forall d o, ~ is_reg_name d -> mov_error p d o (lit "invalid first operand")
| me_expr : forall d o ts e, is_reg_name d -> words o ts -> expr_error ts e -> mov_error p d o e
| me_big32 : forall r o ts n ds, words o ts -> expr_value p ts n -> 2 ^ 32 <= n -> decimal n ds ->
    mov_error p (name32 r) o (ds ++ lit " is not 32bit")
| me_big16 : forall r o ts n ds, words o ts -> expr_value p ts n -> 2 ^ 16 <= n -> decimal n ds ->
    mov_error p (name16 r) o (ds ++ lit " is not 16bit")
| me_second : forall r o, not_expr o -> (forall r', o <> name16 r') ->
    mov_error p (name16 r) o (lit "invalid second operand").

(** these words are not those of a data line *)
Definition no_data (t : str) (ts : list str) : Prop :=
  (forall u, t = unit_name u -> ts = []) /\ (forall u t' l, ts <> unit_name u :: t' :: l).
(** a mov line without the shape `mov d, o`: the text [b] between the outer blanks *)
Inductive mov_shape_error : str -> str -> Prop :=
| ms_blank : forall b, ~ In 32 b -> mov_shape_error b (lit "invalid mov instruction format")
| ms_comma : forall x, ~ In 44 x -> mov_shape_error (lit "mov " ++ x) (lit "invalid mov instruction format")
| ms_opcode : forall a x, ~ In 32 a -> a <> lit "mov" -> mov_shape_error (a ++ 32 :: x) (lit "not mov opcode").

(** the message for the body of a line *)
Inductive reports (p : profile) : str -> str -> Prop :=
| re_section : forall s, words s [lit "section"] -> reports p s (lit "section name is expected")
| re_section_name : forall s n ts, words s (lit "section" :: n :: ts) -> (forall x, n <> sect_name x) ->
    reports p s (lit "unrecognized section " ++ n)
| re_section_end : forall s x t ts, words s (lit "section" :: sect_name x :: t :: ts) ->
    reports p s (lit "expected end of line after section declaration")
| re_global : forall s, words s [lit "global"] -> reports p s (lit "symbol name is expected")
| re_global_end : forall s n t ts, words s (lit "global" :: n :: t :: ts) ->
    reports p s (lit "expected end of line after global symbol definition")
| re_label : forall s n t ts, words s ((n ++ [58]) :: t :: ts) -> reports p s (lit "error: expected end of line.")
| re_data : forall s l u text e, data_line s l u text -> items_error u text e -> reports p s e
| re_mov : forall s d o e ts, mov_body s d o -> words s (lit "mov" :: ts) -> no_data (lit "mov") ts ->
    mov_error p d o e -> reports p s e
| re_mov_shape : forall s w0 b w1 e ts, s = w0 ++ b ++ w1 -> blank w0 -> tight b -> blank w1 ->
    words s (lit "mov" :: ts) -> no_data (lit "mov") ts -> mov_shape_error b e -> reports p s e
| re_push : forall s, words s [lit "push"] -> reports p s (lit "error: operand is expected after push opcode")
| re_push_operand : forall s t ts, words s (lit "push" :: t :: ts) -> no_data (lit "push") (t :: ts) ->
    (forall r, t <> name64 r) -> not_number 32 t -> reports p s (lit "error: invalid push operand : " ++ t)
| re_other : forall s t ts, words s (t :: ts) -> no_data t ts -> (forall n, t <> n ++ [58]) ->
    ~ In t [lit "section"; lit "global"; lit "mov"; lit "push"; lit "ret"; lit "syscall"] ->
    reports p s (lit "unrecognized line").
(** the message for a line of text *)
Definition line_reports (p : profile) (s msg : str) : Prop :=
  exists body, line_text s body /\ reports p body msg.

(** ** The parsers called on their own *)

(** the text of an instruction, whatever else the line could be *)
Inductive inst_text (p : profile) : str -> stmt -> Prop :=
| in_mov : forall s d o st, mov_body s d o -> mov_operands p d o st -> inst_text p s st
| in_push_reg : forall s r more, words s (lit "push" :: name64 r :: more) -> inst_text p s (StInstr (PushR64 r))
| in_push8 : forall s t n more, words s (lit "push" :: t :: more) -> number 8 t n -> inst_text p s (StInstr (PushI8 n))
| in_push32 : forall s t n more, words s (lit "push" :: t :: more) -> number 32 t n -> 256 <= n ->
    inst_text p s (StInstr (PushI32 n))
| in_ret : forall s more, words s (lit "ret" :: more) -> inst_text p s (StInstr Ret)
| in_syscall : forall s more, words s (lit "syscall" :: more) -> inst_text p s (StInstr Syscall).
(** the message for a text that is not an instruction *)
Inductive inst_error (p : profile) : str -> str -> Prop :=
| ix_mov : forall s d o e ts, mov_body s d o -> words s (lit "mov" :: ts) -> mov_error p d o e -> inst_error p s e
| ix_mov_shape : forall s w0 b w1 e ts, s = w0 ++ b ++ w1 -> blank w0 -> tight b -> blank w1 ->
    words s (lit "mov" :: ts) -> mov_shape_error b e -> inst_error p s e
| ix_push : forall s, words s [lit "push"] -> inst_error p s (lit "error: operand is expected after push opcode")
| ix_push_operand : forall s t ts, words s (lit "push" :: t :: ts) -> (forall r, t <> name64 r) -> not_number 32 t ->
    inst_error p s (lit "error: invalid push operand : " ++ t)
| ix_empty : forall s, words s [] -> inst_error p s (lit "unrecognized opcode")
| ix_other : forall s t ts, words s (t :: ts) -> ~ In t [lit "mov"; lit "push"; lit "ret"; lit "syscall"] ->
    inst_error p s (lit "unrecognized opcode").
Inductive section_error : str -> str -> Prop :=
| se_none : forall s, words s [lit "section"] -> section_error s (lit "section name is expected")
| se_name : forall s n ts, words s (lit "section" :: n :: ts) -> (forall x, n <> sect_name x) ->
    section_error s (lit "unrecognized section " ++ n)
| se_end : forall s x t ts, words s (lit "section" :: sect_name x :: t :: ts) ->
    section_error s (lit "expected end of line after section declaration")
| se_other : forall s ts, words s ts -> (forall l, ts <> lit "section" :: l) ->
    section_error s (lit "invalid section declaration").
Inductive global_error : str -> str -> Prop :=
| ge_none : forall s, words s [lit "global"] -> global_error s (lit "symbol name is expected")
| ge_end : forall s n t ts, words s (lit "global" :: n :: t :: ts) ->
    global_error s (lit "expected end of line after global symbol definition")
| ge_other : forall s ts, words s ts -> (forall l, ts <> lit "global" :: l) ->
    global_error s (lit "invalid global symbol definition").
(** data: without or with a label (of any text) *)
Definition data_text (s : str) (l : option str) (u : align) (text : str) : Prop :=
  match l with None => data_layout s u text | Some n => label_layout s n u text end.
Inductive data_error : str -> str -> Prop :=
| de_items : forall s l u text e, data_text s l u text -> items_error u text e -> data_error s e
| de_other : forall s, (forall l u text, ~ data_text s l u text) -> data_error s (lit "invalid data format").
(** Intel's names of the low bytes, by hardware number *)
Definition names8 : list str :=
  [ lit "al"; lit "cl"; lit "dl"; lit "bl"; lit "spl"; lit "bpl"; lit "sil"; lit "dil";
    lit "r8b"; lit "r9b"; lit "r10b"; lit "r11b"; lit "r12b"; lit "r13b"; lit "r14b"; lit "r15b" ].
Definition hw8 (r : reg8) : Z :=
  match r with
  | AL => 0 | CL => 1 | DL => 2 | BL => 3 | SPL => 4 | BPL => 5 | SIL => 6 | DIL => 7
  | R8B => 8 | R9B => 9 | R10B => 10 | R11B => 11 | R12B => 12 | R13B => 13 | R14B => 14 | R15B => 15
  end.
Definition name_of (r : reg) : str :=
  match r with
  | Reg64 r => name64 r | Reg32 r => name32 r | Reg16 r => name16 r
  | Reg8 r => nth (Z.to_nat (hw8 r)) names8 []
  end.
