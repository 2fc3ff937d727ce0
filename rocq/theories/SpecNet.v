(** Linking several object files with each other: what a linker makes of the files, from the
    file format alone (as in SpecLink.v), and what it should make of the objects. *)
From Verif Require Import Base Str X64 SpecX86 Mac SpecMacho Obj SpecObj SpecLink.

(** ** The linker.  Each file comes with the addresses at which its sections are put. *)

(** the value of symbol [j]: N_SECT, N_ABS, or N_UNDF (which [other] looks up by name) *)
Definition sym_value (e : endian) (f : list Z) (loc : Z -> Z) (other : list Z -> option Z) (j : Z) : option Z :=
  match seg_pos e f, symtab_pos e f with
  | Some seg, Some st =>
      let s := (Z.to_nat (fld e (st + 8) 4 f) + 16 * Z.to_nat j)%nat in
      let k := fld e (s + 5) 1 f in
      let v := fld e (s + 8) 8 f in
      if j <? fld e (st + 12) 4 f then
        match fld e (s + 4) 1 f / 2 mod 8 with
        | 7 => if (1 <=? k) && (k <=? fld e (seg + 64) 4 f)
               then Some (loc k + (v - fld e (sect_pos seg k + 32) 8 f)) else None
        | 1 => Some v
        | 0 => if v =? 0 then other (until_nul (skipn (Z.to_nat (fld e (st + 16) 4 f) + Z.to_nat (fld e s 4 f)) f))
               else None
        | _ => None
        end
      else None
  | _, _ => None
  end.
(** the value of the first external symbol that defines [name], among the [n] from entry [j] *)
Fixpoint find_def (e : endian) (f : list Z) (loc : Z -> Z) (name : list Z) (n : nat) (j : Z) : option Z :=
  match n, symtab_pos e f with
  | S n', Some st =>
      let s := (Z.to_nat (fld e (st + 8) 4 f) + 16 * Z.to_nat j)%nat in
      let str := until_nul (skipn (Z.to_nat (fld e (st + 16) 4 f) + Z.to_nat (fld e s 4 f)) f) in
      let t := fld e (s + 4) 1 f in
      if str_eqb str name && (t mod 2 =? 1) && negb (t / 2 mod 8 =? 0)
      then sym_value e f loc (fun _ => None) j
      else find_def e f loc name n' (j + 1)
  | _, _ => None
  end.
Definition definition (e : endian) (f : list Z) (loc : Z -> Z) (name : list Z) : option Z :=
  match symtab_pos e f with
  | Some st => find_def e f loc name (Z.to_nat (fld e (st + 12) 4 f)) 0
  | None => None
  end.
(** the first file that defines [name] *)
Fixpoint global_def (e : endian) (fs : list (list Z * (Z -> Z))) (name : list Z) : option Z :=
  match fs with
  | [] => None
  | (f, loc) :: fs' =>
      match definition e f loc name with
      | Some v => Some v
      | None => global_def e fs' name
      end
  end.
(** one relocation, X86_64_RELOC_UNSIGNED and not PC-relative: the value is added to the field *)
Definition one_reloc (e : endian) (f : list Z) (val : Z -> option Z) (o : nat) (bs : list Z) : option (list Z) :=
  let a := fld_i32 e o f in
  let w := fld e (o + 4) 4 f in
  let '(sym, pcrel, len, ext, ty) :=
    match e with
    | Little => (w mod 2 ^ 24, w / 2 ^ 24 mod 2, w / 2 ^ 25 mod 4, w / 2 ^ 27 mod 2, w / 2 ^ 28)
    | Big => (w / 2 ^ 8, w / 2 ^ 7 mod 2, w / 2 ^ 5 mod 4, w / 2 ^ 4 mod 2, w mod 2 ^ 4)
    end in
  let n := Z.to_nat (2 ^ len) in
  match val sym with
  | Some v =>
      if (pcrel =? 0) && (ext =? 1) && (ty =? 0) && (0 <=? a) && (a + 2 ^ len <=? zlen bs)
      then let i := Z.to_nat a in
           Some (firstn i bs ++ le_bytes n ((lev (slice i n bs) + v) mod 2 ^ (8 * 2 ^ len)) ++ skipn (i + n) bs)
      else None
  | None => None
  end.
Fixpoint all_relocs (e : endian) (f : list Z) (val : Z -> option Z) (n o : nat) (bs : list Z) : option (list Z) :=
  match n with
  | O => Some bs
  | S n' => match one_reloc e f val o bs with
            | Some bs' => all_relocs e f val n' (o + 8) bs'
            | None => None
            end
  end.
(** the section with ordinal [k] of file [i], after linking all of [fs]; S_ZEROFILL is zeros *)
Definition link_in (e : endian) (fs : list (list Z * (Z -> Z))) (i : nat) (k : Z) : option (list Z) :=
  match nth_error fs i with
  | None => None
  | Some (f, loc) =>
      match seg_pos e f with
      | None => None
      | Some seg =>
          let o := sect_pos seg k in
          let size := Z.to_nat (fld e (o + 40) 8 f) in
          if (1 <=? k) && (k <=? fld e (seg + 64) 4 f)
          then all_relocs e f (sym_value e f loc (global_def e fs)) (Z.to_nat (fld e (o + 60) 4 f)) (Z.to_nat (fld e (o + 56) 4 f))
                 (if fld e (o + 64) 4 f mod 256 =? 1 then repeat 0 size
                  else slice (Z.to_nat (fld e (o + 48) 4 f)) size f)
          else None
      end
  end.

(** ** What linking should make of objects *)

(** the value of a symbol of the section with ordinal [k] *)
Definition value_of (loc : Z -> Z) (other : str -> option Z) (k : nat) (y : symbol) : option Z :=
  match y with
  | SyUndef n => other n
  | SyAbs _ v _ => Some v
  | SyRef _ off _ => Some (loc (Z.of_nat k) + off)
  end.
(** what a name means inside an object: its first symbol of that name *)
Definition meaning (o : object) (loc : Z -> Z) (other : str -> option Z) (n : str) : option Z :=
  match find (fun '(_, _, y) => str_eqb (sym_name y) n) (syms o) with
  | Some (k, _, y) => value_of loc other k y
  | None => None
  end.
(** what a name means for other objects: its first external definition *)
Definition exports (n : str) (y : symbol) : bool :=
  match y with
  | SyUndef _ => false
  | SyAbs m _ ext | SyRef m _ ext => str_eqb m n && ext
  end.
Definition exported (o : object) (loc : Z -> Z) (n : str) : option Z :=
  match find (fun '(_, _, y) => exports n y) (syms o) with
  | Some (k, _, y) => value_of loc (fun _ => None) k y
  | None => None
  end.
Fixpoint exported_by (os : list (object * (Z -> Z))) (n : str) : option Z :=
  match os with
  | [] => None
  | (o, loc) :: os' =>
      match exported o loc n with
      | Some v => Some v
      | None => exported_by os' n
      end
  end.
(** [bs'] is [bs] with [v] added to the little-endian number in the [n] bytes from [a] *)
Definition added (a : Z) (n : nat) (v : Z) (bs bs' : list Z) : Prop :=
  exists pre field field' post, bs = pre ++ field ++ post /\ bs' = pre ++ field' ++ post /\ zlen pre = a /\
    length field = n /\ length field' = n /\ bytes_ok field' /\ lev field' = (lev field + v) mod 2 ^ (8 * Z.of_nat n).
(** the references of a section are filled in, one after the other *)
Inductive filled (m : str -> option Z) : list reloc -> list Z -> list Z -> Prop :=
| fi_none bs : filled m [] bs bs
| fi_one r rs v bs bs1 bs2 : m (rl_symbol r) = Some v -> rl_pcrel r = false ->
    added (rl_addr r) (Z.to_nat (2 ^ rl_len r)) v bs bs1 -> filled m rs bs1 bs2 -> filled m (r :: rs) bs bs2.
Definition contents (s : osec) : list Z := if os_zerofill s then repeat 0 (Z.to_nat (os_size s)) else os_bytes s.

(** objects that can be written, with their files, at the same addresses *)
Definition written_as (h : endian) (x : object * (Z -> Z)) (y : list Z * (Z -> Z)) : Prop :=
  object_rng (fst x) /\ fits (fst x) /\ clean_names (fst x) /\ zlen (syms (fst x)) <= 2 ^ 24 /\ snd x = snd y /\
  exists p, macho_write_into p h (fst x) = (fst y, true).
