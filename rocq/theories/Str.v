(** The parts of Rust's `char`, `str` and `String` that the code uses.
    A string is the list of its Unicode scalar values. *)
From Coq Require Import String Ascii.
From Verif Require Import Base.

Definition str := list Z.

(** ASCII string literals *)
Definition lit (s : string) : str :=
  map (fun a => Z.of_N (N_of_ascii a)) (list_ascii_of_string s).
Arguments lit s%string.

Fixpoint str_eqb (a b : str) : bool :=
  match a, b with
  | [], [] => true
  | x :: a', y :: b' => (x =? y) && str_eqb a' b'
  | _, _ => false
  end.

(** a Unicode scalar value (Rust `char`) *)
Definition ischar (c : Z) : Prop := 0 <= c < 0xD800 \/ 0xE000 <= c < 0x110000.
Definition str_ok (s : str) : Prop := Forall ischar s.

(** `char::is_ascii` (string_table.rs:19), `str::is_ascii` (io.rs:86), `u8::is_ascii` (string_table.rs:49) *)
Definition is_ascii (c : Z) : bool := c <? 128.
Definition str_is_ascii (s : str) : bool := forallb is_ascii s.

(** `char::is_whitespace` (Unicode White_Space; parsers/data.rs:74,164,179 and in trim, split_whitespace) *)
Definition is_ws (c : Z) : bool :=
  ((9 <=? c) && (c <=? 13)) || (c =? 32) || (c =? 0x85) || (c =? 0xA0)
  || (c =? 0x1680) || ((0x2000 <=? c) && (c <=? 0x200A)) || (c =? 0x2028)
  || (c =? 0x2029) || (c =? 0x202F) || (c =? 0x205F) || (c =? 0x3000).

Fixpoint drop_while (p : Z -> bool) (s : str) : str :=
  match s with
  | [] => []
  | c :: s' => if p c then drop_while p s' else s
  end.

(** `trim_start_matches(p)` / `trim_end_matches(p)` for a char predicate (parsers/data.rs:179, parsers/line.rs:48) *)
Definition trim_start_by (p : Z -> bool) (s : str) : str := drop_while p s.
Definition trim_end_by (p : Z -> bool) (s : str) : str := rev (drop_while p (rev s)).

(** `trim_start`, `trim_end`, `trim` (parsers/data.rs:50,52,75,165, parsers/instruction/mov.rs:12,20) *)
Definition trim_start (s : str) : str := trim_start_by is_ws s.
Definition trim_end (s : str) : str := trim_end_by is_ws s.
Definition trim (s : str) : str := trim_end (trim_start s).

(** `split_once(p)` for a char predicate or one-character pattern (parsers/data.rs:74,164,176,
    parsers/line.rs:18, parsers/instruction/mov.rs:13,19) *)
Fixpoint split_once (p : Z -> bool) (s : str) : option (str * str) :=
  match s with
  | [] => None
  | c :: s' =>
      if p c then Some ([], s')
      else match split_once p s' with
           | Some (a, b) => Some (c :: a, b)
           | None => None
           end
  end.

(** `split(p)`: always at least one piece; also `[T]::split` on bytes (io.rs:56, string_table.rs:13,33) *)
Fixpoint split (p : Z -> bool) (s : str) : list str :=
  match s with
  | [] => [[]]
  | c :: s' =>
      if p c then [] :: split p s'
      else match split p s' with
           | [] => [[c]]
           | w :: ws => (c :: w) :: ws
           end
  end.

Definition nonempty {A} (l : list A) : bool := match l with [] => false | _ => true end.

(** `split_whitespace`, all remaining tokens (parsers/{section.rs:12, global_symbol.rs:8, expr.rs:23, line.rs:23,
    instruction/mod.rs:43, instruction/push.rs:8}) *)
Definition split_whitespace (s : str) : list str := filter nonempty (split is_ws s).

(** `starts_with(str)` (parsers/num.rs:10, parsers/data.rs:174) *)
Fixpoint starts_with (p s : str) : bool :=
  match p, s with
  | [], _ => true
  | x :: p', y :: s' => (x =? y) && starts_with p' s'
  | _ :: _, [] => false
  end.

(** `ends_with(char)` (parsers/line.rs:44) *)
Definition ends_with_char (c : Z) (s : str) : bool :=
  match rev s with
  | [] => false
  | d :: _ => d =? c
  end.

(** ** UTF-8 *)

Definition utf8_char (c : Z) : list Z :=
  if c <? 0x80 then [c]
  else if c <? 0x800 then [0xC0 + c / 64; 0x80 + c mod 64]
  else if c <? 0x10000 then
    [0xE0 + c / 4096; 0x80 + (c / 64) mod 64; 0x80 + c mod 64]
  else
    [0xF0 + c / 262144; 0x80 + (c / 4096) mod 64; 0x80 + (c / 64) mod 64; 0x80 + c mod 64].

(** `str::as_bytes` (parsers/data.rs:133) *)
Definition utf8 (s : str) : list Z := flat_map utf8_char s.
(** `str::len` *)
Definition str_len (s : str) : Z := zlen (utf8 s).

Definition rng (lo hi b : Z) : bool := (lo <=? b) && (b <=? hi).
Definition cont (b : Z) : bool := rng 0x80 0xBF b.

Definition ocons {A} (a : A) (o : option (list A)) : option (list A) :=
  match o with Some l => Some (a :: l) | None => None end.

(** `str::from_utf8` / `String::from_utf8` (string_table.rs:14,35, io.rs:58, and in `read_line` at
    reader.rs:19; Unicode table 3-7) *)
Fixpoint from_utf8 (l : list Z) : option str :=
  match l with
  | [] => Some []
  | b0 :: l1 =>
    if rng 0 0x7F b0 then ocons b0 (from_utf8 l1) else
    match l1 with
    | [] => None
    | b1 :: l2 =>
      if rng 0xC2 0xDF b0 && cont b1
      then ocons ((b0 - 0xC0) * 64 + (b1 - 0x80)) (from_utf8 l2) else
      match l2 with
      | [] => None
      | b2 :: l3 =>
        if (((b0 =? 0xE0) && rng 0xA0 0xBF b1)
            || (rng 0xE1 0xEC b0 && cont b1)
            || ((b0 =? 0xED) && rng 0x80 0x9F b1)
            || (rng 0xEE 0xEF b0 && cont b1)) && cont b2
        then ocons ((b0 - 0xE0) * 4096 + (b1 - 0x80) * 64 + (b2 - 0x80)) (from_utf8 l3) else
        match l3 with
        | [] => None
        | b3 :: l4 =>
          if (((b0 =? 0xF0) && rng 0x90 0xBF b1)
              || (rng 0xF1 0xF3 b0 && cont b1)
              || ((b0 =? 0xF4) && rng 0x80 0x8F b1)) && cont b2 && cont b3
          then ocons ((b0 - 0xF0) * 262144 + (b1 - 0x80) * 4096
                      + (b2 - 0x80) * 64 + (b3 - 0x80)) (from_utf8 l4)
          else None
        end
      end
    end
  end.

(** ** Numbers *)

(** `char::to_digit(radix)` for radix 10 and 16 *)
Definition to_digit (radix c : Z) : option Z :=
  let d := if rng 48 57 c then Some (c - 48)
           else if rng 97 122 c then Some (c - 97 + 10)
           else if rng 65 90 c then Some (c - 65 + 10)
           else None in
  match d with
  | Some v => if v <? radix then Some v else None
  | None => None
  end.

(** the digit loop of `uN::from_str_radix`: checked multiply, checked add *)
Fixpoint digits_loop (bits radix acc : Z) (s : str) : option Z :=
  match s with
  | [] => Some acc
  | c :: s' =>
      match to_digit radix c with
      | None => None
      | Some d =>
          if acc * radix <? 2 ^ bits then
            if acc * radix + d <? 2 ^ bits
            then digits_loop bits radix (acc * radix + d) s'
            else None
          else None
      end
  end.

(** `uN::from_str_radix(s, radix).ok()` (parsers/num.rs:12,14); an optional leading `+` is accepted, `+` or
    `-` alone is not, nor is the empty string. *)
Definition from_str_radix (bits radix : Z) (s : str) : option Z :=
  match s with
  | [] => None
  | c :: s' =>
      if ((c =? 43) || (c =? 45)) && negb (nonempty s') then None
      else if c =? 43 then digits_loop bits radix 0 s'
      else digits_loop bits radix 0 s
  end.

(** decimal `Display` of an unsigned integer: [n] as decimal digits, at most [fuel] of
    them (20 suffice for u64) *)
Fixpoint dec_digits (fuel : nat) (n : Z) (acc : str) : str :=
  match fuel with
  | O => acc
  | S f => if n <? 10 then (48 + n) :: acc
           else dec_digits f (n / 10) ((48 + n mod 10) :: acc)
  end.
Definition show_u64 (n : Z) : str := dec_digits 20 n [].
