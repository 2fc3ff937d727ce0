(** What a linker makes of an object file, from the file format alone (<mach-o/loader.h>,
    <mach-o/nlist.h>, <mach-o/reloc.h>, <mach-o/x86_64/reloc.h>), and what linking should make of
    a source program. *)
From Coq Require String.
Import String.StringSyntax.
From Verif Require Import Base Str X64 SpecX86 Mac SpecMacho Obj Asm SpecAsm.

(** ** A linker.  [loc k] is the address at which it puts the section with ordinal [k]. *)

(** offset of the first of [n] load commands, from offset [o], with this command number *)
Fixpoint find_cmd (e : endian) (f : list Z) (n o : nat) (kind : Z) : option nat :=
  match n with
  | O => None
  | S n' => if fld e o 4 f =? kind then Some o
            else find_cmd e f n' (o + Z.to_nat (fld e (o + 4) 4 f)) kind
  end.
(** offset of the segment command, of the section with ordinal [k], of symbol entry [j] *)
Definition seg_pos (e : endian) (f : list Z) : option nat := find_cmd e f (Z.to_nat (fld e 16 4 f)) 32 0x19.
Definition symtab_pos (e : endian) (f : list Z) : option nat := find_cmd e f (Z.to_nat (fld e 16 4 f)) 32 2.
Definition sect_pos (seg : nat) (k : Z) : nat := seg + 72 + 80 * (Z.to_nat k - 1).
(** the address of symbol [j] after linking; only symbols defined in a section have one *)
Definition sym_place (e : endian) (f : list Z) (loc : Z -> Z) (j : Z) : option Z :=
  match seg_pos e f, symtab_pos e f with
  | Some seg, Some st =>
      let s := (Z.to_nat (fld e (st + 8) 4 f) + 16 * Z.to_nat j)%nat in
      let k := fld e (s + 5) 1 f in
      if (j <? fld e (st + 12) 4 f) && (fld e (s + 4) 1 f / 2 mod 8 =? 7) && (1 <=? k)
      then Some (loc k + (fld e (s + 8) 8 f - fld e (sect_pos seg k + 32) 8 f)) else None
  | _, _ => None
  end.
(** one relocation, of type X86_64_RELOC_UNSIGNED: the symbol's address is added to the field *)
Definition apply_reloc (e : endian) (f : list Z) (loc : Z -> Z) (o : nat) (bs : list Z) : option (list Z) :=
  let a := fld_i32 e o f in
  let w := fld e (o + 4) 4 f in
  let '(sym, pcrel, len, ext, ty) :=
    match e with
    | Little => (w mod 2 ^ 24, w / 2 ^ 24 mod 2, w / 2 ^ 25 mod 4, w / 2 ^ 27 mod 2, w / 2 ^ 28)
    | Big => (w / 2 ^ 8, w / 2 ^ 7 mod 2, w / 2 ^ 5 mod 4, w / 2 ^ 4 mod 2, w mod 2 ^ 4)
    end in
  let n := Z.to_nat (2 ^ len) in
  match sym_place e f loc sym with
  | Some v =>
      if (pcrel =? 0) && (ext =? 1) && (ty =? 0) && (0 <=? a) && (a + 2 ^ len <=? zlen bs)
      then let i := Z.to_nat a in
           Some (firstn i bs ++ le_bytes n ((lev (slice i n bs) + v) mod 2 ^ (8 * 2 ^ len)) ++ skipn (i + n) bs)
      else None
  | None => None
  end.
Fixpoint apply_relocs (e : endian) (f : list Z) (loc : Z -> Z) (n o : nat) (bs : list Z) : option (list Z) :=
  match n with
  | O => Some bs
  | S n' => match apply_reloc e f loc o bs with
            | Some bs' => apply_relocs e f loc n' (o + 8) bs'
            | None => None
            end
  end.
(** the linked contents of the section with ordinal [k] *)
Definition link (e : endian) (f : list Z) (loc : Z -> Z) (k : Z) : option (list Z) :=
  match seg_pos e f with
  | None => None
  | Some seg =>
      let o := sect_pos seg k in
      if (1 <=? k) && (k <=? fld e (seg + 64) 4 f)
      then apply_relocs e f loc (Z.to_nat (fld e (o + 60) 4 f)) (Z.to_nat (fld e (o + 56) 4 f))
             (slice (Z.to_nat (fld e (o + 48) 4 f)) (Z.to_nat (fld e (o + 40) 8 f)) f)
      else None
  end.
(** the address of the first external symbol with this name, among the [n] from entry [j] *)
Fixpoint find_sym (e : endian) (f : list Z) (loc : Z -> Z) (name : list Z) (n : nat) (j : Z) : option Z :=
  match n, symtab_pos e f with
  | S n', Some st =>
      let s := (Z.to_nat (fld e (st + 8) 4 f) + 16 * Z.to_nat j)%nat in
      let str := until_nul (skipn (Z.to_nat (fld e (st + 16) 4 f) + Z.to_nat (fld e s 4 f)) f) in
      if str_eqb str name && (fld e (s + 4) 1 f mod 2 =? 1) then sym_place e f loc j
      else find_sym e f loc name n' (j + 1)
  | _, _ => None
  end.
Definition lookup (e : endian) (f : list Z) (loc : Z -> Z) (name : list Z) : option Z :=
  match symtab_pos e f with
  | Some st => find_sym e f loc name (Z.to_nat (fld e (st + 12) 4 f)) 0
  | None => None
  end.

(** ** What the source means *)

(** a section's ordinal: empty sections are not written *)
Definition ordinal (pr : prog) (s : sect) : Z :=
  match s with
  | SText => 1
  | _ => match out_bytes (during SText SText pr) with [] => 1 | _ => 2 end
  end.
(** the labels of non-empty sections with their final addresses, in order *)
Definition sect_labels (loc : Z -> Z) (pr : prog) (s : sect) : list (str * Z) :=
  match out_bytes (during s SText pr) with
  | [] => []
  | _ => map (fun x => (fst x, loc (ordinal pr s) + snd x)) (out_labels 0 (during s SText pr))
  end.
Definition labels_at (loc : Z -> Z) (pr : prog) : list (str * Z) :=
  sect_labels loc pr SText ++ sect_labels loc pr SData.
(** the address a name stands for: the first label of that name *)
Definition label_addr (loc : Z -> Z) (pr : prog) (n : str) : option Z :=
  option_map snd (find (fun x => str_eqb (fst x) n) (labels_at loc pr)).
(** the final bytes of a statement *)
Definition linked_stmt (addr : str -> option Z) (x : stmt * list Z) (bs : list Z) : Prop :=
  match fst x with
  | StMovSym64 r n => exists v, addr n = Some v /\ emits (MovRI64 r (v mod 2 ^ 64)) bs
  | StMovSym32 r n => exists v, addr n = Some v /\ emits (MovRI32 r (v mod 2 ^ 32)) bs
  | _ => bs = snd x
  end.
(** the instruction of a statement *)
Definition linked_instr (addr : str -> option Z) (st : stmt) : list instr :=
  match st with
  | StInstr i => [i]
  | StMovSym64 r n => match addr n with Some v => [MovRI64 r (v mod 2 ^ 64)] | None => [] end
  | StMovSym32 r n => match addr n with Some v => [MovRI32 r (v mod 2 ^ 32)] | None => [] end
  | _ => []
  end.

(** ** Running linked code *)

(** [n] instructions, each system call being served by the kernel [os] *)
Fixpoint go (os : mach -> mach) (n : nat) (s : mach) : option mach :=
  match n with
  | O => Some s
  | S n' => match step s with
            | Next s' => go os n' s'
            | SysCall s' => go os n' (os s')
            | Fault => None
            end
  end.
(** each instruction in turn has its documented effect *)
Inductive traced (os : mach -> mach) : list instr -> mach -> mach -> Prop :=
| tr_nil s : traced os [] s s
| tr_cons i is bs s s1 s2 : i <> Syscall -> emits i bs ->
    effect i (match instr_mem i with Some m => cpu_disp m | None => 0 end) (push_value i) (zlen bs) s s1 ->
    traced os is s1 s2 -> traced os (i :: is) s s2
| tr_sys is bs s s1 s2 : emits Syscall bs -> effect Syscall 0 0 (zlen bs) s s1 ->
    traced os is (os s1) s2 -> traced os (Syscall :: is) s s2.
(** moves to other registers than the stack pointer, pushes and system calls *)
Definition plain (i : instr) : Prop :=
  match i with
  | MovRR64 d _ | MovRI64 d _ | Lea64 d _ => d <> RSP
  | MovRR32 d _ | MovRI32 d _ => d <> ESP
  | MovRR16 d _ | MovRI16 d _ => d <> SP
  | PushI8 _ | PushI16 _ | PushI32 _ | PushR16 _ | PushR64 _ | Syscall => True
  | _ => False
  end.
Definition push_size (i : instr) : Z :=
  match i with
  | PushI8 _ | PushI32 _ | PushR64 _ => 8
  | PushI16 _ | PushR16 _ => 2
  | _ => 0
  end.
Definition stack_use (is : list instr) : Z := fold_right (fun i n => push_size i + n) 0 is.
(** the [n] bytes from [a] and the [m] bytes from [b] do not overlap *)
Definition apart (a n b m : Z) : Prop :=
  forall i j, 0 <= i < n -> 0 <= j < m -> (a + i) mod W64 <> (b + j) mod W64.
(** the kernel comes back to the next instruction with the stack pointer and the [n] bytes
    from [a] unchanged *)
Definition serves (os : mach -> mach) (a n : Z) : Prop := forall s, mach_ok s ->
  mach_ok (os s) /\ rip (os s) = rip s /\ regs (os s) rsp = regs s rsp /\
  forall i, 0 <= i < n -> mem (os s) ((a + i) mod W64) = mem s ((a + i) mod W64).
(** the linked sections are in memory at their addresses *)
Definition loaded (e : endian) (f : list Z) (loc : Z -> Z) (s : mach) : Prop :=
  forall k bs, link e f loc k = Some bs -> fetch (length bs) (mem s) (loc k) = bs.
