(** Model of the crate `at-x64`: registers, memory operands, the byte buffer, the
    instruction encoder and the instructions.  Paths are relative to
    /repo/at-x64/src. *)
From Coq Require Import String.
From Verif Require Import Base Str.

(** ** reg.rs *)

(** reg.rs:22-56 `enum Reg64` *)
Inductive reg64 :=
| RAX | RDI | RSI | RDX | RCX | RBP | RSP | RBX
| R8 | R9 | R10 | R11 | R12 | R13 | R14 | R15.

(** reg.rs:130-164 `enum Reg32` *)
Inductive reg32 :=
| EAX | EDI | ESI | EDX | ECX | EBP | ESP | EBX
| R8D | R9D | R10D | R11D | R12D | R13D | R14D | R15D.

(** reg.rs:221-255 `enum Reg16` *)
Inductive reg16 :=
| AX | DI | SI | DX | CX | BP | SP | BX
| R8W | R9W | R10W | R11W | R12W | R13W | R14W | R15W.

(** reg.rs:312-346 `enum Reg8` *)
Inductive reg8 :=
| AL | DIL | SIL | DL | CL | BPL | SPL | BL
| R8B | R9B | R10B | R11B | R12B | R13B | R14B | R15B.

(** reg.rs:3-9 `enum Reg` *)
Inductive reg :=
| Reg64 (r : reg64) | Reg32 (r : reg32) | Reg16 (r : reg16) | Reg8 (r : reg8).

(** reg.rs:59-72 `Reg64::register_code` *)
Definition code64 (r : reg64) : Z :=
  match r with
  | RAX | R8 => 0
  | RCX | R9 => 1
  | RDX | R10 => 2
  | RBX | R11 => 3
  | RSP | R12 => 4
  | RBP | R13 => 5
  | RSI | R14 => 6
  | RDI | R15 => 7
  end.

(** reg.rs:74-81 `Reg64::is_extended` *)
Definition ext64 (r : reg64) : bool :=
  match r with
  | RAX | RCX | RDX | RBX | RSP | RBP | RSI | RDI => false
  | R8 | R9 | R10 | R11 | R12 | R13 | R14 | R15 => true
  end.

(** reg.rs:83-104 the public accessors of `Reg64` for REX and ModRM *)
Definition rex_r_bit (r : reg64) : bool := ext64 r.
Definition rex_b_bit (r : reg64) : bool := ext64 r.
Definition mode_bits (r : reg64) : Z := 3.
Definition reg_bits (r : reg64) : Z := code64 r.
Definition rm_bits (r : reg64) : Z := code64 r.

(** reg.rs:167-186 `Reg32::to_reg64` *)
Definition to_reg64 (r : reg32) : reg64 :=
  match r with
  | EAX => RAX | EDI => RDI | ESI => RSI | EDX => RDX
  | ECX => RCX | EBP => RBP | ESP => RSP | EBX => RBX
  | R8D => R8 | R9D => R9 | R10D => R10 | R11D => R11
  | R12D => R12 | R13D => R13 | R14D => R14 | R15D => R15
  end.

(** reg.rs:188-195 `Reg32::register_code`, `Reg32::is_extended` *)
Definition code32 (r : reg32) : Z := code64 (to_reg64 r).
Definition ext32 (r : reg32) : bool := ext64 (to_reg64 r).

(** reg.rs:258-277 `Reg16::to_reg32` *)
Definition to_reg32 (r : reg16) : reg32 :=
  match r with
  | AX => EAX | DI => EDI | SI => ESI | DX => EDX
  | CX => ECX | BP => EBP | SP => ESP | BX => EBX
  | R8W => R8D | R9W => R9D | R10W => R10D | R11W => R11D
  | R12W => R12D | R13W => R13D | R14W => R14D | R15W => R15D
  end.

(** reg.rs:279-286 `Reg16::register_code`, `Reg16::is_extended` *)
Definition code16 (r : reg16) : Z := code32 (to_reg32 r).
Definition ext16 (r : reg16) : bool := ext32 (to_reg32 r).

(** reg.rs:107-128 `Display for Reg64` *)
Definition show_reg64 (r : reg64) : str :=
  lit match r with
  | RAX => "rax" | RDI => "rdi" | RSI => "rsi" | RDX => "rdx"
  | RCX => "rcx" | RBP => "rbp" | RSP => "rsp" | RBX => "rbx"
  | R8 => "r8" | R9 => "r9" | R10 => "r10" | R11 => "r11"
  | R12 => "r12" | R13 => "r13" | R14 => "r14" | R15 => "r15"
  end.

(** reg.rs:198-219 `Display for Reg32` *)
Definition show_reg32 (r : reg32) : str :=
  lit match r with
  | EAX => "eax" | EDI => "edi" | ESI => "esi" | EDX => "edx"
  | ECX => "ecx" | EBP => "ebp" | ESP => "esp" | EBX => "ebx"
  | R8D => "r8d" | R9D => "r9d" | R10D => "r10d" | R11D => "r11d"
  | R12D => "r12d" | R13D => "r13d" | R14D => "r14d" | R15D => "r15d"
  end.

(** reg.rs:289-310 `Display for Reg16` *)
Definition show_reg16 (r : reg16) : str :=
  lit match r with
  | AX => "ax" | DI => "di" | SI => "si" | DX => "dx"
  | CX => "cx" | BP => "bp" | SP => "sp" | BX => "bx"
  | R8W => "r8w" | R9W => "r9w" | R10W => "r10w" | R11W => "r11w"
  | R12W => "r12w" | R13W => "r13w" | R14W => "r14w" | R15W => "r15w"
  end.

(** reg.rs:348-369 `Display for Reg8` *)
Definition show_reg8 (r : reg8) : str :=
  lit match r with
  | AL => "al" | DIL => "dil" | SIL => "sil" | DL => "dl"
  | CL => "cl" | BPL => "bpl" | SPL => "spl" | BL => "bl"
  | R8B => "r8b" | R9B => "r9b" | R10B => "r10b" | R11B => "r11b"
  | R12B => "r12b" | R13B => "r13b" | R14B => "r14b" | R15B => "r15b"
  end.

(** reg.rs:11-20 `Display for Reg` *)
Definition show_reg (r : reg) : str :=
  match r with
  | Reg64 r => show_reg64 r
  | Reg32 r => show_reg32 r
  | Reg16 r => show_reg16 r
  | Reg8 r => show_reg8 r
  end.

(** ** mem.rs *)

(** mem.rs:4-26 `enum Mem64`; displacements are u32, scale is u8 *)
Inductive mem64 :=
| RegOffset (r : reg64) (disp : Z)
| RipOffset (disp : Z)
| MSib (base : option reg64) (disp : Z) (index : reg64) (scale : Z).

(** mem.rs:29-39 `Mem64::reg`, `reg_offset`, `rip_offset` *)
Definition mem_reg (r : reg64) : mem64 := RegOffset r 0.
Definition mem_reg_offset (r : reg64) (d : Z) : mem64 := RegOffset r d.
Definition mem_rip_offset (d : Z) : mem64 := RipOffset d.

(** mem.rs:41-49 `Mem64::sib` *)
Definition mem_sib (base : option reg64) (disp : Z) (index : reg64) (scale : Z) : res mem64 :=
  _ <- rassert (scale <=? 3) ;;
  Ok (MSib base disp index scale).

(** ** bytes.rs *)

(** bytes.rs:4-7 `BytesAtMost<MAX>`: an array of MAX bytes and a length *)
Record bam := { bam_bytes : list Z; bam_len : nat }.

(** bytes.rs:10-17 `with_len` *)
Definition bam_with_len (max len : nat) : res bam :=
  _ <- rassert (Nat.leb len max) ;;
  Ok {| bam_bytes := repeat 0 max; bam_len := len |}.

(** bytes.rs:23-25 `is_empty` *)
Definition bam_is_empty (b : bam) : bool := Nat.eqb (bam_len b) 0.

(** bytes.rs:28-32 `as_ref` *)
Definition bam_ref (b : bam) : list Z := firstn (bam_len b) (bam_bytes b).

(** bytes.rs:34-38 `as_mut`, then overwriting the slice from its start with [bs]
    ([length bs <= len]) *)
Definition bam_put (b : bam) (bs : list Z) : bam :=
  {| bam_bytes := bs ++ skipn (length bs) (bam_bytes b); bam_len := bam_len b |}.

(** bytes.rs:34-38 `as_mut()[k] = v`; an index outside the slice panics *)
Definition bam_set (b : bam) (k : nat) (v : Z) : res bam :=
  if Nat.ltb k (bam_len b)
  then Ok {| bam_bytes := firstn k (bam_bytes b) ++ v :: skipn (S k) (bam_bytes b);
             bam_len := bam_len b |}
  else Panic.

(** bytes.rs:40-48 `From<[u8; N]>` *)
Definition bam_from_array (max : nat) (a : list Z) : res bam :=
  _ <- rassert (Nat.leb (length a) max) ;;
  b <- bam_with_len max (length a) ;;
  Ok (bam_put b a).

(** bytes.rs:50-56 `From<u8>` *)
Definition bam_from_u8 (max : nat) (n : Z) : res bam :=
  _ <- rassert (Nat.leb 1 max) ;;
  bam_from_array max [n].

(** bytes.rs:58-66 `From<u16>` (the assertion is `MAX >= 1`; `with_len(2)` asserts again) *)
Definition bam_from_u16 (max : nat) (n : Z) : res bam :=
  _ <- rassert (Nat.leb 1 max) ;;
  b <- bam_with_len max 2 ;;
  Ok (bam_put b (le_bytes 2 n)).

(** bytes.rs:68-76 `From<u32>` *)
Definition bam_from_u32 (max : nat) (n : Z) : res bam :=
  _ <- rassert (Nat.leb 4 max) ;;
  b <- bam_with_len max 4 ;;
  Ok (bam_put b (le_bytes 4 n)).

(** bytes.rs:78-86 `From<u64>` *)
Definition bam_from_u64 (max : nat) (n : Z) : res bam :=
  _ <- rassert (Nat.leb 8 max) ;;
  b <- bam_with_len max 8 ;;
  Ok (bam_put b (le_bytes 8 n)).

(** ** encoder/bytecode.rs *)

(** encoder/bytecode.rs:74-116 `Rex` *)
Definition rex_new : Z := 0x40.
Definition rex_set_w (x : Z) (flag : bool) : Z :=
  if flag then Z.lor x 0x08 else Z.land x 0xF7.
Definition rex_set_r (x : Z) (flag : bool) : Z :=
  if flag then Z.lor x 0x04 else Z.land x 0xFB.
Definition rex_set_x (x : Z) (flag : bool) : Z :=
  if flag then Z.lor x 0x02 else Z.land x 0xFD.
Definition rex_set_b (x : Z) (flag : bool) : Z :=
  if flag then Z.lor x 0x01 else Z.land x 0xFE.

(** encoder/bytecode.rs:118-146 `ModRM`.  The u8 additions cannot overflow: the two
    summands have disjoint bits. *)
Definition modrm_new : Z := 0.
Definition modrm_set_mode (x mode : Z) : res Z :=
  _ <- rassert (mode <=? 3) ;;
  Ok (Z.land x 0x3F + wrapu 8 (Z.shiftl mode 6)).
Definition modrm_set_reg (x r : Z) : res Z :=
  _ <- rassert (r <=? 7) ;;
  Ok (Z.land x 0xC7 + wrapu 8 (Z.shiftl r 3)).
Definition modrm_set_rm (x rm : Z) : res Z :=
  _ <- rassert (rm <=? 7) ;;
  Ok (Z.land x 0xF8 + rm).

(** encoder/bytecode.rs:148-162 `Sib` *)
Definition sib_new (scale index base : Z) : res Z :=
  _ <- rassert (scale <=? 3) ;;
  _ <- rassert (index <=? 7) ;;
  _ <- rassert (base <=? 7) ;;
  Ok (Z.lor (Z.lor (wrapu 8 (Z.shiftl scale 6)) (wrapu 8 (Z.shiftl index 3))) base).

(** encoder/bytecode.rs:5-14 `ByteCode` *)
Record bytecode := {
  bc_prefix : option Z;
  bc_rex : option Z;
  bc_opcode : bam;
  bc_modrm : option Z;
  bc_sib : option Z;
  bc_disp : bam;
  bc_imm : bam
}.

Definition olen {A} (o : option A) : nat := match o with Some _ => 1 | None => 0 end.
Definition olist {A} (o : option A) : list A := match o with Some a => [a] | None => [] end.

(** encoder/bytecode.rs:40-62 `Cursor<&mut [u8]>`: bytes written so far, capacity.  `write_all` that does not
    fit is an error, which the code unwraps. *)
Definition cursor := (list Z * nat)%type.
Definition cur_write (c : cursor) (bs : list Z) : res cursor :=
  let '(w, cap) := c in
  if Nat.leb (length w + length bs) cap then Ok (w ++ bs, cap) else Panic.

(** encoder/bytecode.rs:29-65 `ByteCode::to_bytes` *)
Definition to_bytes (bc : bytecode) : res bam :=
  let len := (olen (bc_prefix bc) + olen (bc_rex bc) + bam_len (bc_opcode bc)
              + olen (bc_modrm bc) + olen (bc_sib bc) + bam_len (bc_disp bc)
              + bam_len (bc_imm bc))%nat in
  bytes <- bam_with_len 15 len ;;
  c <- cur_write ([], len) (olist (bc_prefix bc)) ;;
  c <- cur_write c (olist (bc_rex bc)) ;;
  c <- cur_write c (bam_ref (bc_opcode bc)) ;;
  c <- cur_write c (olist (bc_modrm bc)) ;;
  c <- cur_write c (olist (bc_sib bc)) ;;
  c <- cur_write c (bam_ref (bc_disp bc)) ;;
  c <- cur_write c (bam_ref (bc_imm bc)) ;;
  Ok (bam_put bytes (fst c)).

(** ** encoder/mod.rs *)

(** encoder/mod.rs:140-146 `trait RegLike`, as the values of its two methods *)
Record reglike := { rl_rex_r : bool; rl_reg : Z }.

(** encoder/mod.rs:148-166 `trait RegMemLike`, as the values of its methods *)
Record regmemlike := {
  rm_rex_b : bool;
  rm_rex_x : bool;
  rm_mode : Z;
  rm_rm : Z;
  rm_sib : res (option Z);
  rm_disp : res bam
}.

(** encoder/mod.rs:168-196 *)
Definition rl64 (r : reg64) : reglike := {| rl_rex_r := ext64 r; rl_reg := code64 r |}.
Definition rl32 (r : reg32) : reglike := {| rl_rex_r := ext32 r; rl_reg := code32 r |}.
Definition rl16 (r : reg16) : reglike := {| rl_rex_r := ext16 r; rl_reg := code16 r |}.
(** encoder/mod.rs:198-207 `RegLike for u8`, an opcode extension *)
Definition rl_u8 (n : Z) : reglike := {| rl_rex_r := false; rl_reg := n |}.

(** encoder/mod.rs:209-285 `RegMemLike for Reg64 / Reg32 / Reg16` *)
Definition rm_reg (ext : bool) (code : Z) : regmemlike :=
  {| rm_rex_b := ext; rm_rex_x := false; rm_mode := 3; rm_rm := code;
     rm_sib := Ok None; rm_disp := bam_with_len 4 0 |}.
Definition rm64 (r : reg64) : regmemlike := rm_reg (ext64 r) (code64 r).
Definition rm32 (r : reg32) : regmemlike := rm_reg (ext32 r) (code32 r).
Definition rm16 (r : reg16) : regmemlike := rm_reg (ext16 r) (code16 r).

(** encoder/mod.rs:311,318,323,371,380, the pattern `RBP | R13` *)
Definition is_rbp_r13 (r : reg64) : bool :=
  match r with RBP | R13 => true | _ => false end.
(** encoder/mod.rs:349, the pattern `RSP | R12` *)
Definition is_rsp_r12 (r : reg64) : bool :=
  match r with RSP | R12 => true | _ => false end.

(** encoder/mod.rs:288-297 *)
Definition mem_rex_b (m : mem64) : bool :=
  match m with
  | RegOffset r _ => ext64 r
  | RipOffset _ => false
  | MSib (Some b) _ _ _ => ext64 b
  | MSib None _ _ _ => false
  end.

(** encoder/mod.rs:299-304 *)
Definition mem_rex_x (m : mem64) : bool :=
  match m with
  | MSib _ _ i _ => ext64 i
  | _ => false
  end.

(** encoder/mod.rs:306-330; patterns tried in order *)
Definition mem_mode (m : mem64) : Z :=
  match m with
  | RegOffset r d =>
      if is_rbp_r13 r && (d =? 0) then 1
      else if d =? 0 then 0
      else if (1 <=? d) && (d <=? 256) then 1
      else 2
  | RipOffset _ => 0
  | MSib None _ _ _ => 0
  | MSib (Some b) d _ _ =>
      if is_rbp_r13 b && ((0 <=? d) && (d <=? 256)) then 1
      else if is_rbp_r13 b then 2
      else if d =? 0 then 0
      else if (1 <=? d) && (d <=? 256) then 1
      else 2
  end.

(** encoder/mod.rs:332-338 *)
Definition mem_rm (m : mem64) : Z :=
  match m with
  | RegOffset r _ => code64 r
  | RipOffset _ => 5
  | MSib _ _ _ _ => 4
  end.

Definition rmap {A B} (f : A -> B) (m : res A) : res B := a <- m ;; Ok (f a).

(** encoder/mod.rs:340-365 *)
Definition mem_sib_byte (m : mem64) : res (option Z) :=
  match m with
  | RegOffset r _ => if is_rsp_r12 r then rmap Some (sib_new 0 4 4) else Ok None
  | RipOffset _ => Ok None
  | MSib None _ i s => rmap Some (sib_new s (code64 i) 5)
  | MSib (Some b) _ i s => rmap Some (sib_new s (code64 i) (code64 b))
  end.

(** encoder/mod.rs:367-391; patterns tried in order *)
Definition mem_disp_bytes (m : mem64) : res bam :=
  match m with
  | RegOffset r d =>
      if is_rbp_r13 r && (d =? 0) then bam_from_u8 4 0
      else if d =? 0 then bam_with_len 4 0
      else if (1 <=? d) && (d <=? 256) then bam_from_u8 4 (wrapu 8 d)
      else bam_from_u32 4 d
  | RipOffset d => bam_from_u32 4 d
  | MSib None d _ _ => bam_from_u32 4 d
  | MSib (Some b) d _ _ =>
      if is_rbp_r13 b && (d =? 0) then bam_from_u8 4 0
      else if d =? 0 then bam_with_len 4 0
      else if (1 <=? d) && (d <=? 256) then bam_from_u8 4 (wrapu 8 d)
      else bam_from_u32 4 d
  end.

(** encoder/mod.rs:287-392 `RegMemLike for Mem64` *)
Definition rm_mem (m : mem64) : regmemlike :=
  {| rm_rex_b := mem_rex_b m; rm_rex_x := mem_rex_x m; rm_mode := mem_mode m;
     rm_rm := mem_rm m; rm_sib := mem_sib_byte m; rm_disp := mem_disp_bytes m |}.

(** encoder/mod.rs:10-17 `Encoder` *)
Record encoder := {
  en_prefix : option Z;
  en_rex_w : bool;
  en_rex_b : bool;
  en_opcode : res bam;
  en_modrm : option (reglike * regmemlike);
  en_imm : res bam
}.

(** encoder/mod.rs:19-30 `Encoder::new` *)
Definition enc_new : encoder :=
  {| en_prefix := None; en_rex_w := false; en_rex_b := false;
     en_opcode := bam_with_len 3 0; en_modrm := None; en_imm := bam_with_len 8 0 |}.

(** encoder/mod.rs:33-83, the builder methods *)
Definition enc_prefix (p : Z) (e : encoder) : encoder :=
  {| en_prefix := Some p; en_rex_w := en_rex_w e; en_rex_b := en_rex_b e;
     en_opcode := en_opcode e; en_modrm := en_modrm e; en_imm := en_imm e |}.
Definition enc_rex_w (w : bool) (e : encoder) : encoder :=
  {| en_prefix := en_prefix e; en_rex_w := w; en_rex_b := en_rex_b e;
     en_opcode := en_opcode e; en_modrm := en_modrm e; en_imm := en_imm e |}.
Definition enc_rex_b (b : bool) (e : encoder) : encoder :=
  {| en_prefix := en_prefix e; en_rex_w := en_rex_w e; en_rex_b := b;
     en_opcode := en_opcode e; en_modrm := en_modrm e; en_imm := en_imm e |}.
Definition enc_opcode_from (o : res bam) (e : encoder) : encoder :=
  {| en_prefix := en_prefix e; en_rex_w := en_rex_w e; en_rex_b := en_rex_b e;
     en_opcode := o; en_modrm := en_modrm e; en_imm := en_imm e |}.
(** encoder/mod.rs:58-83 `opcode` on an array, as every instruction calls it, `mod_rm` and `imm` *)
Definition enc_opcode (a : list Z) (e : encoder) : encoder := enc_opcode_from (bam_from_array 3 a) e.
Definition enc_modrm (r : reglike) (rm : regmemlike) (e : encoder) : encoder :=
  {| en_prefix := en_prefix e; en_rex_w := en_rex_w e; en_rex_b := en_rex_b e;
     en_opcode := en_opcode e; en_modrm := Some (r, rm); en_imm := en_imm e |}.
Definition enc_imm (i : res bam) (e : encoder) : encoder :=
  {| en_prefix := en_prefix e; en_rex_w := en_rex_w e; en_rex_b := en_rex_b e;
     en_opcode := en_opcode e; en_modrm := en_modrm e; en_imm := i |}.

(** encoder/mod.rs:101,113,117,123 `bytecode.rex.get_or_insert(Rex::new())` *)
Definition rex_or_new (o : option Z) : Z := match o with Some r => r | None => rex_new end.

(** encoder/mod.rs:85-137 `Encoder::encode`.  The builder calls and the trait methods
    are evaluated here; all panics are equal so their order does not matter. *)
Definition encode (e : encoder) : res bam :=
  opcode <- en_opcode e ;;
  imm <- en_imm e ;;
  nodisp <- bam_with_len 4 0 ;;
  let rex := if en_rex_w e then Some (rex_set_w rex_new true) else None in
  let rex := if en_rex_b e then Some (rex_set_b (rex_or_new rex) true) else rex in
  bc <- match en_modrm e with
        | Some (r, rm) =>
            m <- modrm_set_reg modrm_new (rl_reg r) ;;
            m <- modrm_set_mode m (rm_mode rm) ;;
            m <- modrm_set_rm m (rm_rm rm) ;;
            let rex := if rl_rex_r r then Some (rex_set_r (rex_or_new rex) true) else rex in
            let rex := if rm_rex_b rm then Some (rex_set_b (rex_or_new rex) true) else rex in
            sib <- rm_sib rm ;;
            let rex := if rm_rex_x rm then Some (rex_set_x (rex_or_new rex) true) else rex in
            disp <- rm_disp rm ;;
            Ok {| bc_prefix := en_prefix e; bc_rex := rex; bc_opcode := opcode;
                  bc_modrm := Some m; bc_sib := sib; bc_disp := disp; bc_imm := nodisp |}
        | None =>
            Ok {| bc_prefix := en_prefix e; bc_rex := rex; bc_opcode := opcode;
                  bc_modrm := None; bc_sib := None; bc_disp := nodisp; bc_imm := nodisp |}
        end ;;
  _ <- rassert (negb (Nat.eqb (bam_len imm) 8 && negb (en_rex_w e))) ;;
  to_bytes {| bc_prefix := bc_prefix bc; bc_rex := bc_rex bc; bc_opcode := bc_opcode bc;
              bc_modrm := bc_modrm bc; bc_sib := bc_sib bc; bc_disp := bc_disp bc;
              bc_imm := imm |}.

(** ** instruction/ *)

(** One constructor per `impl Instruction` of instruction/mov.rs:16-108, push.rs:14-61, pop.rs:14-35,
    lea.rs:11-21, ret.rs:11-15 and syscall.rs:11-15; immediates are u8/u16/u32/u64. *)
Inductive instr :=
| MovMR64 (dst : mem64) (src : reg64)
| MovRR16 (dst src : reg16)
| MovRR32 (dst src : reg32)
| MovRR64 (dst src : reg64)
| MovRI16 (dst : reg16) (imm : Z)
| MovRI32 (dst : reg32) (imm : Z)
| MovRI64 (dst : reg64) (imm : Z)
| PushI8 (imm : Z)
| PushI16 (imm : Z)
| PushI32 (imm : Z)
| PushR16 (r : reg16)
| PushR64 (r : reg64)
| PopR16 (r : reg16)
| PopR64 (r : reg64)
| Lea64 (dst : reg64) (src : mem64)
| Ret
| Syscall.

(** `Instruction::bytecode` of each implementation: mov.rs:16-26, 28-38, 40-49, 51-61,
    63-74, 76-86, 97-108; push.rs:14-20, 22-28, 30-36, 40-50, 52-61; pop.rs:14-24, 26-35;
    lea.rs:11-21; ret.rs:11-15; syscall.rs:11-15.  The u8 additions `0xB8 + code` cannot
    overflow since codes are at most 7. *)
Definition bytecode_of (i : instr) : res bam :=
  match i with
  | MovMR64 dst src =>
      encode (enc_modrm (rl64 src) (rm_mem dst) (enc_opcode [0x89] (enc_rex_w true enc_new)))
  | MovRR16 dst src =>
      encode (enc_modrm (rl16 src) (rm16 dst) (enc_opcode [0x89] (enc_prefix 0x66 enc_new)))
  | MovRR32 dst src =>
      encode (enc_modrm (rl32 src) (rm32 dst) (enc_opcode [0x89] enc_new))
  | MovRR64 dst src =>
      encode (enc_modrm (rl64 src) (rm64 dst) (enc_opcode [0x89] (enc_rex_w true enc_new)))
  | MovRI16 dst imm =>
      encode (enc_imm (bam_from_u16 8 imm)
        (enc_opcode [0xB8 + code16 dst] (enc_rex_b (ext16 dst) (enc_prefix 0x66 enc_new))))
  | MovRI32 dst imm =>
      encode (enc_imm (bam_from_u32 8 imm)
        (enc_opcode [0xB8 + code32 dst] (enc_rex_b (ext32 dst) enc_new)))
  | MovRI64 dst imm =>
      encode (enc_imm (bam_from_u64 8 imm)
        (enc_opcode [0xB8 + code64 dst] (enc_rex_b (ext64 dst) (enc_rex_w true enc_new))))
  | PushI8 imm => encode (enc_imm (bam_from_u8 8 imm) (enc_opcode [0x6A] enc_new))
  | PushI16 imm =>
      encode (enc_imm (bam_from_u16 8 imm) (enc_opcode [0x68] (enc_prefix 0x66 enc_new)))
  | PushI32 imm => encode (enc_imm (bam_from_u32 8 imm) (enc_opcode [0x68] enc_new))
  | PushR16 r =>
      encode (enc_opcode [0x50 + code16 r] (enc_rex_b (ext16 r) (enc_prefix 0x66 enc_new)))
  | PushR64 r => encode (enc_opcode [0x50 + code64 r] (enc_rex_b (ext64 r) enc_new))
  | PopR16 r =>
      encode (enc_opcode [0x58 + code16 r] (enc_rex_b (ext16 r) (enc_prefix 0x66 enc_new)))
  | PopR64 r => encode (enc_opcode [0x58 + code64 r] (enc_rex_b (ext64 r) enc_new))
  | Lea64 dst src =>
      encode (enc_modrm (rl64 dst) (rm_mem src) (enc_opcode [0x8D] (enc_rex_w true enc_new)))
  | Ret => encode (enc_opcode [0xC3] enc_new)
  | Syscall => encode (enc_opcode [0x0F; 0x05] enc_new)
  end.

(** instruction/mov.rs:88-95 `Mov<Reg32, u32>::offset_to_imm_bytes` *)
Definition offset_to_imm32 (dst : reg32) : Z := b2z (ext32 dst) + 1.
(** instruction/mov.rs:110-115 `Mov<Reg64, u64>::offset_to_imm_bytes` *)
Definition offset_to_imm64 (dst : reg64) : Z := 1 + 1.

(** integer ranges guaranteed by the Rust types (mem.rs:3-26, the immediates of instruction/*.rs) *)
Definition mem_ok (m : mem64) : Prop :=
  match m with
  | RegOffset _ d => inu 32 d
  | RipOffset d => inu 32 d
  | MSib _ d _ s => inu 32 d /\ inu 8 s
  end.
Definition instr_ok (i : instr) : Prop :=
  match i with
  | MovMR64 m _ => mem_ok m
  | MovRI16 _ n => inu 16 n
  | MovRI32 _ n => inu 32 n
  | MovRI64 _ n => inu 64 n
  | PushI8 n => inu 8 n
  | PushI16 n => inu 16 n
  | PushI32 n => inu 32 n
  | Lea64 _ m => mem_ok m
  | _ => True
  end.

(** the bytes of an instruction that encodes, for examples *)
Definition asm_bytes (i : instr) : option (list Z) :=
  match bytecode_of i with Ok b => Some (bam_ref b) | Panic => None end.

(** The crate's own unit tests (instruction/mov.rs:121-252, lea.rs:27-56,
    push.rs:67-120, pop.rs:41-67), run on the model. *)
Example x64_unit_tests :
  map asm_bytes
    [ MovMR64 (mem_reg RDI) RAX; MovMR64 (mem_reg_offset RDI 42) RAX;
      MovMR64 (mem_rip_offset 42) RAX; MovMR64 (MSib (Some RBP) 42 RAX 3) R13;
      MovRR16 AX DI; MovRR16 R9W SP; MovRR16 R15W R10W;
      MovRR32 EAX ESP; MovRR32 R15D ESP; MovRR32 R15D R8D;
      MovRR64 RDI RAX; MovRR64 R8 RAX; MovRR64 R8 R9;
      MovRI16 AX 42; MovRI16 R9W 11; MovRI32 EDI 420; MovRI32 R15D 109;
      MovRI64 RSP 42; MovRI64 R14 42;
      PushI8 42; PushI16 420; PushI32 420; PushR16 AX; PushR16 R10W; PushR64 RAX; PushR64 R10;
      PopR16 DI; PopR16 R15W; PopR64 RDI; PopR64 R15;
      Lea64 RAX (mem_reg RDI); Lea64 RAX (mem_reg_offset RDI 42); Lea64 RSP (mem_reg RSP);
      Lea64 RAX (mem_reg RSP); Lea64 RDI (mem_rip_offset 42);
      Lea64 RDI (MSib (Some RAX) 0 RDI 1); Lea64 RDI (MSib None 0 RDI 1) ]
  = map Some
    [ [0x48; 0x89; 0x07]; [0x48; 0x89; 0x47; 0x2A];
      [0x48; 0x89; 0x05; 0x2A; 0x00; 0x00; 0x00]; [0x4C; 0x89; 0x6C; 0xC5; 0x2A];
      [0x66; 0x89; 0xF8]; [0x66; 0x41; 0x89; 0xE1]; [0x66; 0x45; 0x89; 0xD7];
      [0x89; 0xe0]; [0x41; 0x89; 0xE7]; [0x45; 0x89; 0xC7];
      [0x48; 0x89; 0xc7]; [0x49; 0x89; 0xc0]; [0x4d; 0x89; 0xc8];
      [0x66; 0xB8; 0x2A; 0x00]; [0x66; 0x41; 0xB9; 0x0B; 0x00];
      [0xBF; 0xA4; 0x01; 0x00; 0x00]; [0x41; 0xBF; 0x6D; 0x00; 0x00; 0x00];
      [0x48; 0xBC; 0x2A; 0; 0; 0; 0; 0; 0; 0]; [0x49; 0xBE; 0x2A; 0; 0; 0; 0; 0; 0; 0];
      [0x6A; 0x2A]; [0x66; 0x68; 0xA4; 0x01]; [0x68; 0xA4; 0x01; 0x00; 0x00];
      [0x66; 0x50]; [0x66; 0x41; 0x52]; [0x50]; [0x41; 0x52];
      [0x66; 0x5f]; [0x66; 0x41; 0x5f]; [0x5f]; [0x41; 0x5f];
      [0x48; 0x8D; 0x07]; [0x48; 0x8D; 0x47; 0x2A]; [0x48; 0x8D; 0x24; 0x24];
      [0x48; 0x8D; 0x04; 0x24]; [0x48; 0x8D; 0x3D; 0x2A; 0x00; 0x00; 0x00];
      [0x48; 0x8D; 0x3c; 0x78]; [0x48; 0x8D; 0x3c; 0x7d; 0x00; 0x00; 0x00; 0x00] ].
Proof. vm_compute. reflexivity. Qed.
