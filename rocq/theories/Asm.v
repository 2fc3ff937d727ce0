(** Model of the parsers of at-asm.  Paths are relative to /repo/at-asm/src/parsers.
    [p] is the build profile (overflow checks). *)
From Coq Require String.
Import String.StringSyntax.
From Verif Require Import Base Str X64.

(** ** mod.rs *)

(** mod.rs:13-44 `Result<T, ParseError>` with the error's message, or a panic *)
Inductive presult (A : Type) :=
| POk (a : A)
| PErr (msg : str)
| PPanic.
Arguments POk {A} a.
Arguments PErr {A} msg.
Arguments PPanic {A}.

(** the `?` operator *)
Definition pbind {A B} (m : presult A) (k : A -> presult B) : presult B :=
  match m with POk a => k a | PErr e => PErr e | PPanic => PPanic end.
Notation "x <-- m ;; k" := (pbind m (fun x => k))
  (at level 61, m at next level, right associativity).
Definition plift {A} (m : res A) : presult A :=
  match m with Ok a => POk a | Panic => PPanic end.

(** ** num.rs, at the type u[bits] *)

(** num.rs:11 `trim_start_matches("0x")`: removes the prefix as often as it occurs *)
Fixpoint trim_0x (s : str) : str :=
  match s with
  | a :: s1 =>
      match s1 with
      | b :: s2 => if (a =? 48) && (b =? 120) then trim_0x s2 else s
      | [] => s
      end
  | [] => s
  end.
(** num.rs:9-16 `try_parse_str` (never an error) *)
Definition num_try (bits : Z) (s : str) : option Z :=
  if starts_with (lit "0x") s then from_str_radix bits 16 (trim_0x s)
  else from_str_radix bits 10 s.
(** num.rs:21 `std::any::type_name` of the four types *)
Definition uint_name (bits : Z) : str :=
  if bits =? 64 then lit "u64" else if bits =? 32 then lit "u32"
  else if bits =? 16 then lit "u16" else lit "u8".
(** num.rs:18-23 `parse_str` *)
Definition num_parse (bits : Z) (s : str) : presult Z :=
  match num_try bits s with
  | Some n => POk n
  | None => PErr (s ++ lit " is invalid " ++ uint_name bits)
  end.

(** ** expr.rs *)

(** expr.rs:74-78 `enum Token` *)
Inductive token := TNum (n : Z) | TPlus | TMinus.
(** expr.rs:81-90 *)
Definition token_try (s : str) : option token :=
  if str_eqb s (lit "+") then Some TPlus
  else if str_eqb s (lit "-") then Some TMinus
  else match num_try 64 s with Some n => Some (TNum n) | None => None end.
(** expr.rs:70-72; the i64 arithmetic cannot overflow *)
Definition sign_to_u64 (sign : bool) : Z := b2z sign * 2 - 1.
(** expr.rs:22-60; `as i64` casts, then `*` and `+` at i64 with overflow checks.  The
    struct `Expr(u64)` is its number. *)
Definition expr_try (p : profile) (s : str) : presult (option Z) :=
  match split_whitespace s with
  | [] => POk None
  | token1 :: ts =>
      match token_try token1 with
      | None => POk None
      | Some TPlus | Some TMinus => PErr (lit "unary op is not supported")
      | Some (TNum lhs) =>
          match ts with
          | [] => POk (Some lhs)
          | token2 :: ts =>
              match token_try token2 with
              | None | Some (TNum _) => PErr (lit "expected + or -")
              | Some op =>
                  let sign := match op with TPlus => true | _ => false end in
                  match ts with
                  | [] => PErr (lit "rhs not found")
                  | token3 :: _ =>
                      match token_try token3 with
                      | Some (TNum rhs) =>
                          m <-- plift (chki p 64 (sign_to_u64 sign * wrapi 64 rhs)) ;;
                          r <-- plift (chki p 64 (wrapi 64 lhs + m)) ;;
                          POk (Some (wrapu 64 r))
                      | _ => PErr (lit "invalid rhs")
                      end
                  end
              end
          end
      end
  end.
(** expr.rs:62-67 *)
Definition expr_parse (p : profile) (s : str) : presult Z :=
  o <-- expr_try p s ;;
  match o with Some n => POk n | None => PErr (lit "invalid expr format") end.
(** expr.rs:12-18 `as_u32`, `as_u16` *)
Definition as_uint (bits n : Z) : option Z := if n <? 2 ^ bits then Some n else None.

(** ** reg.rs *)

(** a `match` of a string against literals, tried in order (reg.rs) *)
Fixpoint str_match {A} (s : str) (arms : list (str * A)) : option A :=
  match arms with
  | [] => None
  | (k, a) :: arms' => if str_eqb s k then Some a else str_match s arms'
  end.
(** reg.rs:5-29 *)
Definition reg64_try (s : str) : option reg64 :=
  str_match s
    [ (lit "rax", RAX); (lit "rdi", RDI); (lit "rsi", RSI); (lit "rdx", RDX); (lit "rcx", RCX);
      (lit "rbp", RBP); (lit "rsp", RSP); (lit "rbx", RBX); (lit "r8", R8); (lit "r9", R9);
      (lit "r10", R10); (lit "r11", R11); (lit "r12", R12); (lit "r13", R13); (lit "r14", R14);
      (lit "r15", R15) ].
(** reg.rs:43-67 *)
Definition reg32_try (s : str) : option reg32 :=
  str_match s
    [ (lit "eax", EAX); (lit "edi", EDI); (lit "esi", ESI); (lit "edx", EDX); (lit "ecx", ECX);
      (lit "ebp", EBP); (lit "esp", ESP); (lit "ebx", EBX); (lit "r8d", R8D); (lit "r9d", R9D);
      (lit "r10d", R10D); (lit "r11d", R11D); (lit "r12d", R12D); (lit "r13d", R13D);
      (lit "r14d", R14D); (lit "r15d", R15D) ].
(** reg.rs:81-105 *)
Definition reg16_try (s : str) : option reg16 :=
  str_match s
    [ (lit "ax", AX); (lit "di", DI); (lit "si", SI); (lit "dx", DX); (lit "cx", CX);
      (lit "bp", BP); (lit "sp", SP); (lit "bx", BX); (lit "r8w", R8W); (lit "r9w", R9W);
      (lit "r10w", R10W); (lit "r11w", R11W); (lit "r12w", R12W); (lit "r13w", R13W);
      (lit "r14w", R14W); (lit "r15w", R15W) ].
(** reg.rs:31-39, 69-77, 107-115 `parse_str` *)
Definition reg_parse {A} (bits : str) (o : option A) (s : str) : presult A :=
  match o with
  | Some r => POk r
  | None => PErr (lit "error: invalid " ++ bits ++ lit "bit register : " ++ s)
  end.
Definition reg64_parse (s : str) : presult reg64 := reg_parse (lit "64") (reg64_try s) s.
Definition reg32_parse (s : str) : presult reg32 := reg_parse (lit "32") (reg32_try s) s.
Definition reg16_parse (s : str) : presult reg16 := reg_parse (lit "16") (reg16_try s) s.

(** ** section.rs *)

(** section.rs:4-8 `enum Section` *)
Inductive sect := SText | SData | SBss.
(** section.rs:11-37 *)
Definition section_try (s : str) : presult (option sect) :=
  match split_whitespace s with
  | t0 :: ts =>
      if str_eqb t0 (lit "section") then
        match ts with
        | [] => PErr (lit "section name is expected")
        | name :: ts =>
            match str_match name [(lit ".text", SText); (lit ".data", SData); (lit ".bss", SBss)] with
            | None => PErr (lit "unrecognized section " ++ name)
            | Some sec =>
                match ts with
                | _ :: _ => PErr (lit "expected end of line after section declaration")
                | [] => POk (Some sec)
                end
            end
        end
      else POk None
  | [] => POk None
  end.
(** section.rs:39-45 *)
Definition section_parse (s : str) : presult sect :=
  o <-- section_try s ;;
  match o with Some x => POk x | None => PErr (lit "invalid section declaration") end.

(** ** global_symbol.rs *)

(** global_symbol.rs:7-28 *)
Definition global_try (s : str) : presult (option str) :=
  match split_whitespace s with
  | t0 :: ts =>
      if str_eqb t0 (lit "global") then
        match ts with
        | [] => PErr (lit "symbol name is expected")
        | label :: [] => POk (Some label)
        | _ :: _ :: _ => PErr (lit "expected end of line after global symbol definition")
        end
      else POk None
  | [] => POk None
  end.
(** global_symbol.rs:30-35 *)
Definition global_parse (s : str) : presult str :=
  o <-- global_try s ;;
  match o with Some x => POk x | None => PErr (lit "invalid global symbol definition") end.

(** ** data.rs *)

(** data.rs:6-9 `struct Data` *)
Record data := { da_label : option str; da_bytes : list Z }.
(** data.rs:39-44 `enum Align` *)
Inductive align := DB | DW | DD | DQ.
(** data.rs:73-78 *)
Definition split_whitespace_once (s : str) : option (str * str) :=
  match split_once is_ws s with
  | Some (s1, s2) => Some (trim s1, trim s2)
  | None => None
  end.
(** the match arms of data.rs:55-58 and 63-66 *)
Definition align_try (s : str) : option align :=
  str_match s [(lit "db", DB); (lit "dw", DW); (lit "dd", DD); (lit "dq", DQ)].
(** data.rs:47-71 *)
Definition split_parts (s : str) : option (option str * align * str) :=
  let s := trim s in
  match split_whitespace_once (trim s) with
  | None => None
  | Some (t1, rmn) =>
      match align_try t1 with
      | Some a => Some (None, a, rmn)
      | None =>
          match split_whitespace_once rmn with
          | None => None
          | Some (t2, rmn) =>
              match align_try t2 with
              | Some a => Some (Some t1, a, rmn)
              | None => None
              end
          end
      end
  end.
(** data.rs:80-83 `enum DataDef` *)
Inductive data_def := DNum (n : Z) | DStr (s : str).
(** data.rs:95-128; the result is the bytes appended to the buffer *)
Definition write_num (n : Z) (a : align) : presult (list Z) :=
  match a with
  | DB => match as_uint 8 n with
          | Some n => POk (le_bytes 1 n)
          | None => PErr (show_u64 n ++ lit " is not a 8 bit number")
          end
  | DW => match as_uint 16 n with
          | Some n => POk (le_bytes 2 n)
          | None => PErr (show_u64 n ++ lit " is not a 16 bit number")
          end
  | DD => match as_uint 32 n with
          | Some n => POk (le_bytes 4 n)
          | None => PErr (show_u64 n ++ lit " is not a 32 bit number")
          end
  | DQ => POk (le_bytes 8 n)
  end.
(** data.rs:130-147 *)
Definition write_str (s : str) (a : align) : presult (list Z) :=
  let pad := match a with
             | DB => 0
             | DW => str_len s mod 2
             | DD => (4 - str_len s mod 4) mod 4
             | DQ => (8 - str_len s mod 8) mod 8
             end in
  POk (utf8 s ++ repeat 0 (Z.to_nat pad)).
(** data.rs:87-92 *)
Definition write_to (d : data_def) (a : align) : presult (list Z) :=
  match d with DNum n => write_num n a | DStr s => write_str s a end.
(** the closure of data.rs:164 and 179 *)
Definition is_delim (c : Z) : bool := is_ws c || (c =? 44).
(** data.rs:163-168 *)
Definition split_delim_once (s : str) : str * str :=
  match split_once is_delim s with
  | Some (s1, s2) => (s1, trim_start s2)
  | None => (s, [])
  end.
(** data.rs:162-193 `DataDefIter::next` on the remaining string; a non-error item comes
    with the new remaining string (after an error the caller stops) *)
Definition data_next (s : str) : option (presult (data_def * str)) :=
  match s with
  | [] => None
  | c :: s' =>
      if c =? 34 then
        match split_once (fun c => c =? 34) s' with
        | None => Some (PErr (lit "unclosed " ++ [34] ++ lit " found"))
        | Some (str_data, rmn) => Some (POk (DStr str_data, trim_start_by is_delim rmn))
        end
      else
        let (s1, s2) := split_delim_once s in
        Some (n <-- num_parse 64 s1 ;; POk (DNum n, s2))
  end.
(** data.rs:19-23: the `for` loop, appending to the buffer [acc].  Every step shortens the
    string, so [length s] steps are enough (PfAsm: [data_loop_fuel]). *)
Fixpoint data_loop (fuel : nat) (s : str) (a : align) (acc : list Z) : presult (list Z) :=
  match data_next s with
  | None => POk acc
  | Some item =>
      match fuel with
      | O => PPanic
      | S fuel' =>
          ds <-- item ;;
          bs <-- write_to (fst ds) a ;;
          data_loop fuel' (snd ds) a (acc ++ bs)
      end
  end.
(** data.rs:12-28 *)
Definition data_try (s : str) : presult (option data) :=
  match split_parts s with
  | None => POk None
  | Some (label, a, data_str) =>
      bytes <-- data_loop (length data_str) data_str a [] ;;
      POk (Some {| da_label := label; da_bytes := bytes |})
  end.
(** data.rs:30-35 *)
Definition data_parse (s : str) : presult data :=
  o <-- data_try s ;;
  match o with Some x => POk x | None => PErr (lit "invalid data format") end.

(** ** instruction/ *)

(** instruction/mod.rs:15-22 `LocalReloc` *)
Record local_reloc := { lr_offset : Z; lr_symbol : str; lr_pcrel : bool; lr_len : Z }.
(** instruction/mod.rs:10-13 `Instruction` *)
Record inst := { in_bytes : bam; in_reloc : option local_reloc }.
(** instruction/mod.rs:25-33 `new` *)
Definition inst_new (i : instr) : presult inst :=
  b <-- plift (bytecode_of i) ;; POk {| in_bytes := b; in_reloc := None |}.
(** instruction/mod.rs:35-38 `with_reloc` *)
Definition with_reloc (i : inst) (r : local_reloc) : inst :=
  {| in_bytes := in_bytes i; in_reloc := Some r |}.

(** instruction/mov.rs:10-105 *)
Definition mov_parse (p : profile) (s : str) : presult inst :=
  match split_once (fun c => c =? 32) (trim s) with
  | None => PErr (lit "invalid mov instruction format")
  | Some (opcode, remain) =>
      if negb (str_eqb opcode (lit "mov")) then PErr (lit "not mov opcode") else
      match split_once (fun c => c =? 44) remain with
      | None => PErr (lit "invalid mov instruction format")
      | Some (s1, s2) =>
          let operand1_str := trim s1 in
          let operand2_str := trim s2 in
          match reg64_try operand1_str with
          | Some dst =>
              o <-- expr_try p operand2_str ;;
              match o with
              | Some n => inst_new (MovRI64 dst n)
              | None =>
                  match reg64_try operand2_str with
                  | Some src => inst_new (MovRR64 dst src)
                  | None =>
                      i <-- inst_new (MovRI64 dst 0) ;;
                      POk (with_reloc i {| lr_offset := offset_to_imm64 dst; lr_symbol := operand2_str;
                                           lr_pcrel := false; lr_len := 3 |})
                  end
              end
          | None =>
          match reg32_try operand1_str with
          | Some dst =>
              o <-- expr_try p operand2_str ;;
              match o with
              | Some n =>
                  match as_uint 32 n with
                  | Some imm => inst_new (MovRI32 dst imm)
                  | None => PErr (show_u64 n ++ lit " is not 32bit")
                  end
              | None =>
                  match reg32_try operand2_str with
                  | Some src => inst_new (MovRR32 dst src)
                  | None =>
                      i <-- inst_new (MovRI32 dst 0) ;;
                      POk (with_reloc i {| lr_offset := offset_to_imm32 dst; lr_symbol := operand2_str;
                                           lr_pcrel := false; lr_len := 2 |})
                  end
              end
          | None =>
          match reg16_try operand1_str with
          | Some dst =>
              o <-- expr_try p operand2_str ;;
              match o with
              | Some n =>
                  match as_uint 16 n with
                  | Some imm => inst_new (MovRI16 dst imm)
                  | None => PErr (show_u64 n ++ lit " is not 16bit")
                  end
              | None =>
                  match reg16_try operand2_str with
                  | Some src => inst_new (MovRR16 dst src)
                  | None => PErr (lit "invalid second operand")
                  end
              end
          | None => PErr (lit "invalid first operand")
          end
          end
          end
      end
  end.

(** instruction/push.rs:7-46 *)
Definition push_parse (s : str) : presult inst :=
  match split_whitespace s with
  | t0 :: ts =>
      if str_eqb t0 (lit "push") then
        match ts with
        | [] => PErr (lit "error: operand is expected after push opcode")
        | operand :: _ =>
            match reg64_try operand with
            | Some r => inst_new (PushR64 r)
            | None =>
                match num_try 8 operand with
                | Some imm => inst_new (PushI8 imm)
                | None =>
                    match num_try 32 operand with
                    | Some imm => inst_new (PushI32 imm)
                    | None => PErr (lit "error: invalid push operand : " ++ operand)
                    end
                end
            end
        end
      else PErr (lit "error: invalid push instruction format")
  | [] => PErr (lit "error: invalid push instruction format")
  end.

(** instruction/mod.rs:42-50 *)
Definition inst_try (p : profile) (s : str) : presult (option inst) :=
  match split_whitespace s with
  | t0 :: _ =>
      if str_eqb t0 (lit "mov") then i <-- mov_parse p s ;; POk (Some i)
      else if str_eqb t0 (lit "push") then i <-- push_parse s ;; POk (Some i)
      else if str_eqb t0 (lit "ret") then i <-- inst_new Ret ;; POk (Some i)
      else if str_eqb t0 (lit "syscall") then i <-- inst_new Syscall ;; POk (Some i)
      else POk None
  | [] => POk None
  end.
(** instruction/mod.rs:52-57 *)
Definition inst_parse (p : profile) (s : str) : presult inst :=
  o <-- inst_try p s ;;
  match o with Some x => POk x | None => PErr (lit "unrecognized opcode") end.

(** ** line.rs *)

(** line.rs:6-13 `enum Line` *)
Inductive line :=
| LEmpty
| LSection (s : sect)
| LSymbol (name : str)
| LGlobal (name : str)
| LData (d : data)
| LInst (i : inst).

(** line.rs:18-21: the text before the first `;` *)
Definition strip_comment (s : str) : str :=
  match split_once (fun c => c =? 59) s with Some (s, _) => s | None => s end.

(** line.rs:16-63 *)
Definition line_parse (p : profile) (s : str) : presult line :=
  let s := strip_comment s in
  match split_whitespace s with
  | [] => POk LEmpty
  | token :: tokens =>
      os <-- section_try s ;;
      match os with
      | Some sec => POk (LSection sec)
      | None =>
      og <-- global_try s ;;
      match og with
      | Some name => POk (LGlobal name)
      | None =>
      if ends_with_char 58 token then
        match tokens with
        | _ :: _ => PErr (lit "error: expected end of line.")
        | [] => POk (LSymbol (trim_end_by (fun c => c =? 58) token))
        end
      else
      od <-- data_try s ;;
      match od with
      | Some d => POk (LData d)
      | None =>
      oi <-- inst_try p s ;;
      match oi with
      | Some i => POk (LInst i)
      | None => PErr (lit "unrecognized line")
      end
      end
      end
      end
  end.
(** line.rs:65-67 *)
Definition line_try (p : profile) (s : str) : presult (option line) :=
  l <-- line_parse p s ;; POk (Some l).

(** The crate's own unit tests (section.rs:52-69, expr.rs:101-106, data.rs:221-249,
    instruction/mov.rs:119-127), run on the model. *)
Definition quoted (s : str) : str := [34] ++ s ++ [34].
Definition inst_bytes (r : presult inst) : option (list Z) :=
  match r with POk i => Some (bam_ref (in_bytes i)) | _ => None end.
Definition data_bytes (r : presult (option data)) : option (list Z) :=
  match r with POk (Some d) => Some (da_bytes d) | _ => None end.
Example asm_unit_tests :
  section_parse (lit "section .text") = POk SText /\
  section_parse (lit "section .data") = POk SData /\
  section_parse (lit "section .bss") = POk SBss /\
  section_try (lit "mov rax, 42") = POk None /\ section_try (lit "hoge") = POk None /\
  (exists e, section_try (lit "section .hoge") = PErr e) /\
  (exists e, section_try (lit "section .text .data") = PErr e) /\
  expr_parse Debug (lit "0x200000 + 4") = POk (0x200000 + 4) /\
  expr_parse Debug (lit "200000 - 4") = POk (200000 - 4) /\
  expr_parse Debug (lit "0x200 + 0x15") = POk (0x200 + 0x15) /\
  data_try (lit "db 0x42") = POk (Some {| da_label := None; da_bytes := [0x42] |}) /\
  data_bytes (data_try (lit "db 0x42,42,0x11")) = Some [0x42; 42; 0x11] /\
  data_try (lit "hoge db 0x42") = POk (Some {| da_label := Some (lit "hoge"); da_bytes := [0x42] |}) /\
  data_bytes (data_try (lit "dw 0x12, 0x34")) = Some [0x12; 0; 0x34; 0] /\
  data_bytes (data_try (lit "dd 0x12, 0x34")) = Some [0x12; 0; 0; 0; 0x34; 0; 0; 0] /\
  data_bytes (data_try (lit "db " ++ quoted (lit "Hello, World"))) = Some (lit "Hello, World") /\
  data_try (lit "mdb db 0x42") = POk (Some {| da_label := Some (lit "mdb"); da_bytes := [0x42] |}) /\
  data_bytes (data_try (lit "db " ++ quoted (lit "Hello") ++ lit ", 0x42")) = Some (lit "Hello" ++ [0x42]) /\
  data_bytes (data_try (lit "dd " ++ quoted (lit "Hello") ++ lit ", 0x42"))
    = Some (lit "Hello" ++ [0; 0; 0; 0x42; 0; 0; 0]) /\
  inst_bytes (mov_parse Debug (lit "mov eax, 42")) = asm_bytes (MovRI32 EAX 42) /\
  inst_bytes (mov_parse Debug (lit "mov eax, esp")) = asm_bytes (MovRR32 EAX ESP) /\
  inst_bytes (mov_parse Debug (lit "mov cx, r8w")) = asm_bytes (MovRR16 CX R8W) /\
  inst_bytes (mov_parse Debug (lit "mov rax, rcx")) = asm_bytes (MovRR64 RAX RCX) /\
  inst_bytes (mov_parse Debug (lit "mov rax, 0x200004")) = asm_bytes (MovRI64 RAX 0x200004) /\
  inst_bytes (mov_parse Debug (lit "mov rax, 0x200000 + 4")) = asm_bytes (MovRI64 RAX 0x200004).
Proof. repeat match goal with |- _ /\ _ => split end; try (vm_compute; reflexivity); eexists; vm_compute; reflexivity. Qed.
