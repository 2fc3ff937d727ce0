(** A standard way of writing every statement, and which statements and objects sources can give. *)
From Coq Require String.
Import String.StringSyntax.
From Coq Require Import Sorted.
From Verif Require Import Base Str X64 SpecX86 Obj Asm SpecAsm SpecDiag Assembler.

(** ** Statements *)

(** a text of one line before its comment and newline *)
Definition line_chars (s : str) : Prop := Forall (fun c => ischar c /\ c <> 10 /\ c <> 59) s.
(** one line, with or without its newline *)
Definition one_line (s : str) : Prop := exists b, ~ In 10 b /\ (s = b \/ s = b ++ [10]).

Definition label_name (n : str) : Prop :=
  line_chars n /\ Forall (fun c => ~ space c) n /\ forall n', n <> n' ++ [58].
Definition global_name (n : str) : Prop := line_chars n /\ word n.
Definition data_label (n : str) : Prop :=
  label_name n /\ n <> [] /\ n <> lit "section" /\ n <> lit "global" /\ forall u, n <> unit_name u.
(** a symbolic operand: neither an expression nor one of the registers [regs] *)
Definition operand_name {R} (regs : R -> str) (o : str) : Prop :=
  line_chars o /\ tight o /\ not_expr o /\ forall r, o <> regs r.

(** the statements that can be written *)
Definition sayable (st : stmt) : Prop :=
  match st with
  | StEmpty | StSection _ => True
  | StGlobal n => global_name n
  | StLabel n => label_name n
  | StData l bs => bytes_ok bs /\ match l with None => True | Some n => data_label n end
  | StInstr i =>
      match i with
      | MovRI64 _ n => 0 <= n < 2 ^ 64
      | MovRI32 _ n => 0 <= n < 2 ^ 32
      | MovRI16 _ n => 0 <= n < 2 ^ 16
      | PushI8 n => 0 <= n < 256
      | PushI32 n => 256 <= n < 2 ^ 32
      | MovRR64 _ _ | MovRR32 _ _ | MovRR16 _ _ | PushR64 _ | Ret | Syscall => True
      | _ => False
      end
  | StMovSym64 _ o => operand_name name64 o
  | StMovSym32 _ o => operand_name name32 o
  end.

(** bytes as decimal numbers *)
Inductive bytes_text : list Z -> str -> Prop :=
| bt_none : bytes_text [] [34; 34]
| bt_one : forall b ds, decimal b ds -> bytes_text [b] ds
| bt_more : forall b b' bs ds s, decimal b ds -> bytes_text (b' :: bs) s ->
    bytes_text (b :: b' :: bs) (ds ++ lit ", " ++ s).
(** the standard text of a statement *)
Inductive spells : stmt -> str -> Prop :=
| sp_empty : spells StEmpty []
| sp_section : forall x, spells (StSection x) (lit "section " ++ sect_name x)
| sp_global : forall n, spells (StGlobal n) (lit "global " ++ n)
| sp_label : forall n, spells (StLabel n) (n ++ lit ":")
| sp_data : forall bs t, bytes_text bs t -> spells (StData None bs) (lit "db " ++ t)
| sp_data_label : forall n bs t, bytes_text bs t -> spells (StData (Some n) bs) (n ++ lit " db " ++ t)
| sp_imm64 : forall r n ds, decimal n ds -> spells (StInstr (MovRI64 r n)) (lit "mov " ++ name64 r ++ lit ", " ++ ds)
| sp_imm32 : forall r n ds, decimal n ds -> spells (StInstr (MovRI32 r n)) (lit "mov " ++ name32 r ++ lit ", " ++ ds)
| sp_imm16 : forall r n ds, decimal n ds -> spells (StInstr (MovRI16 r n)) (lit "mov " ++ name16 r ++ lit ", " ++ ds)
| sp_reg64 : forall r r', spells (StInstr (MovRR64 r r')) (lit "mov " ++ name64 r ++ lit ", " ++ name64 r')
| sp_reg32 : forall r r', spells (StInstr (MovRR32 r r')) (lit "mov " ++ name32 r ++ lit ", " ++ name32 r')
| sp_reg16 : forall r r', spells (StInstr (MovRR16 r r')) (lit "mov " ++ name16 r ++ lit ", " ++ name16 r')
| sp_sym64 : forall r o, spells (StMovSym64 r o) (lit "mov " ++ name64 r ++ lit ", " ++ o)
| sp_sym32 : forall r o, spells (StMovSym32 r o) (lit "mov " ++ name32 r ++ lit ", " ++ o)
| sp_push_reg : forall r, spells (StInstr (PushR64 r)) (lit "push " ++ name64 r)
| sp_push8 : forall n ds, decimal n ds -> spells (StInstr (PushI8 n)) (lit "push " ++ ds)
| sp_push32 : forall n ds, decimal n ds -> spells (StInstr (PushI32 n)) (lit "push " ++ ds)
| sp_ret : spells (StInstr Ret) (lit "ret")
| sp_syscall : spells (StInstr Syscall) (lit "syscall").
(** a program in standard form: one statement per line *)
Definition standard (pr : prog) (src : list Z) : Prop :=
  exists ls, Forall2 (fun x s => spells (fst x) s) pr ls /\ src = flat_map (fun s => utf8 s ++ [10]) ls.

(** ** Objects *)

(** beginning and end of the mov instruction with the field of [r] *)
Definition mov_start (r : reloc) : Z := rl_addr r - (if rl_len r =? 3 then 2 else 1).
Definition mov_end (r : reloc) : Z := rl_addr r + 2 ^ rl_len r.
(** in [bs] there is `mov r64, 0` or `mov r32, 0` where [r] says, with its eight or four zeros *)
Definition mov_at (bs : list Z) (r : reloc) : Prop :=
  rl_pcrel r = false /\
  exists pre op post, bs = pre ++ op ++ repeat 0 (Z.to_nat (2 ^ rl_len r)) ++ post /\ rl_addr r = zlen (pre ++ op) /\
    (rl_len r = 3 /\ operand_name name64 (rl_symbol r) /\
       (exists rex c, op = [rex; c] /\ (rex = 0x48 \/ rex = 0x49) /\ 0xB8 <= c <= 0xBF) \/
     rl_len r = 2 /\ operand_name name32 (rl_symbol r) /\ (exists c, op = [c] /\ 0xB8 <= c <= 0xBF)).
(** a label of a section with [n] bytes, between the instructions with references *)
Definition label_at (n : Z) (rs : list reloc) (y : symbol) : Prop :=
  match y with
  | SyRef name a _ => label_name name /\ 0 <= a <= n /\ Forall (fun r => a <= mov_start r \/ mov_end r <= a) rs
  | _ => False
  end.
Definition addr_of (y : symbol) : Z := match y with SyRef _ a _ => a | _ => 0 end.
Definition section_shape (s : bsection) : Prop :=
  bytes_ok (bs_bytes s) /\
  Forall (mov_at (bs_bytes s)) (bs_relocs s) /\
  StronglySorted (fun r r' => mov_end r <= mov_start r') (bs_relocs s) /\
  Forall (label_at (zlen (bs_bytes s)) (bs_relocs s)) (bs_symbols s) /\
  StronglySorted (fun y y' => addr_of y <= addr_of y') (bs_symbols s).
Definition every_symbol (o : object) : list symbol :=
  bs_symbols (o_text o) ++ bs_symbols (o_data o) ++ bss_symbols (o_bss o).
(** a name is external everywhere or nowhere; the empty name never is *)
Definition visibility (ys : list symbol) : Prop :=
  exists ext : str -> bool, ext [] = false /\
    Forall (fun y => match y with SyRef n _ e => e = ext n | _ => False end) ys.
(** the objects that can be assembled *)
Definition producible (o : object) : Prop :=
  section_shape (o_text o) /\ section_shape (o_data o) /\
  bss_size (o_bss o) = 0 /\ Forall (label_at 0 []) (bss_symbols (o_bss o)) /\
  visibility (every_symbol o).
(** small enough for the counters of a debug build *)
Definition countable (o : object) : Prop :=
  zlen (bs_bytes (o_text o)) < 2 ^ 31 /\ zlen (bs_bytes (o_data o)) < 2 ^ 31 /\ zlen (every_symbol o) < 2 ^ 29.
(** some source gives the object *)
Definition assembles (p : profile) (o : object) : Prop :=
  exists input a, bytes_ok input /\ read_from p asm_new input = Done a /\ as_obj a = o.
