(** Common vocabulary of the model: results and panics, build profiles, machine
    integers, byte order, byte sources and sinks.

    Nothing here models a function of the repository except where a comment
    cites one; the definitions model the parts of Rust (and of the crate
    `byteorder`) that the code uses. *)
From Coq Require Export ZArith List Lia Bool.
From Coq Require Import ZifyBool.
Export ListNotations.
Global Open Scope Z_scope.

(** ** Results *)

(** Outcome of a Rust function that may panic. *)
Inductive res (A : Type) : Type :=
| Ok (a : A)
| Panic.
Arguments Ok {A} a.
Arguments Panic {A}.

Definition bind {A B} (m : res A) (k : A -> res B) : res B :=
  match m with Ok a => k a | Panic => Panic end.

Notation "x <- m ;; k" := (bind m (fun x => k))
  (at level 61, m at next level, right associativity).
Notation "' p <- m ;; k" := (bind m (fun x => match x with p => k end))
  (at level 61, p pattern, m at next level, right associativity).

(** `Option::unwrap` *)
Definition unwrap {A} (o : option A) : res A :=
  match o with Some a => Ok a | None => Panic end.

(** `assert!` *)
Definition rassert (b : bool) : res unit := if b then Ok tt else Panic.

Fixpoint mapM {A B} (f : A -> res B) (l : list A) : res (list B) :=
  match l with
  | [] => Ok []
  | a :: l' => b <- f a ;; bs <- mapM f l' ;; Ok (b :: bs)
  end.

(** ** Machine integers *)

(** Cargo profiles: in [Debug] integer overflow of [+ - *] panics, in
    [Release] it wraps. *)
Inductive profile := Debug | Release.

(** [x] is a value of the unsigned type with [n] bits / signed type with [n] bits. *)
Definition inu (n x : Z) : Prop := 0 <= x < 2 ^ n.
Definition ini (n x : Z) : Prop := - 2 ^ (n - 1) <= x < 2 ^ (n - 1).

(** `as uN` / `as iN` *)
Definition wrapu (n x : Z) : Z := x mod 2 ^ n.
Definition wrapi (n x : Z) : Z := (x + 2 ^ (n - 1)) mod 2 ^ n - 2 ^ (n - 1).

Definition inub (n x : Z) : bool := (0 <=? x) && (x <? 2 ^ n).
Definition inib (n x : Z) : bool := (- 2 ^ (n - 1) <=? x) && (x <? 2 ^ (n - 1)).

(** the exact result [x] of an arithmetic operation at type uN / iN *)
Definition chku (p : profile) (n x : Z) : res Z :=
  if inub n x then Ok x
  else match p with Debug => Panic | Release => Ok (wrapu n x) end.
Definition chki (p : profile) (n x : Z) : res Z :=
  if inib n x then Ok x
  else match p with Debug => Panic | Release => Ok (wrapi n x) end.

(** `iter.sum::<uN>()`: left fold of `+` from 0 *)
Fixpoint sumu_from (p : profile) (n acc : Z) (l : list Z) : res Z :=
  match l with
  | [] => Ok acc
  | x :: l' => acc' <- chku p n (acc + x) ;; sumu_from p n acc' l'
  end.
Definition sumu (p : profile) (n : Z) (l : list Z) : res Z := sumu_from p n 0 l.

(** `bool as uN` *)
Definition b2z (b : bool) : Z := if b then 1 else 0.

(** ** Bytes *)

Definition isbyte (b : Z) : Prop := 0 <= b < 256.
Definition bytes_ok (l : list Z) : Prop := Forall isbyte l.

Definition zlen {A} (l : list A) : Z := Z.of_nat (length l).

Inductive endian := Little | Big.
Definition endian_eqb (a b : endian) : bool :=
  match a, b with Little, Little => true | Big, Big => true | _, _ => false end.
Definition swap (e : endian) : endian :=
  match e with Little => Big | Big => Little end.

Fixpoint le_bytes (n : nat) (x : Z) : list Z :=
  match n with
  | O => []
  | S n' => x mod 256 :: le_bytes n' (x / 256)
  end.
Fixpoint le_val (l : list Z) : Z :=
  match l with
  | [] => 0
  | b :: l' => b + 256 * le_val l'
  end.

(** byteorder's `write_uN::<E>` / `read_uN::<E>` with N = 8*n *)
Definition bytes_of (e : endian) (n : nat) (x : Z) : list Z :=
  match e with Little => le_bytes n x | Big => rev (le_bytes n x) end.
Definition val_of (e : endian) (l : list Z) : Z :=
  match e with Little => le_val l | Big => le_val (rev l) end.

(** ** Byte sinks

    The effect of a function writing to `W: Write`: the bytes it wrote, and
    whether it returned ([true]) or panicked ([false]).  The sink itself is
    assumed not to fail. *)
Definition wr := (list Z * bool)%type.
Definition wemit (bs : list Z) : wr := (bs, true).
Definition wpanic : wr := ([], false).
Definition wseq (a b : wr) : wr :=
  if snd a then (fst a ++ fst b, snd b) else a.
Notation "a >>> b" := (wseq a b) (at level 62, right associativity).
Definition wlist (l : list wr) : wr := fold_right wseq (wemit []) l.
(** run a computation that may panic, then write *)
Definition wbind {A} (m : res A) (k : A -> wr) : wr :=
  match m with Ok a => k a | Panic => wpanic end.

(** ** Byte sources

    A function reading from `R: Read` (assumed to deliver the bytes of the list
    without I/O errors) returns its value and the unread rest, or panics. *)
Definition reader (A : Type) := list Z -> res (A * list Z).
Definition rret {A} (a : A) : reader A := fun l => Ok (a, l).
Definition rbind {A B} (m : reader A) (k : A -> reader B) : reader B :=
  fun l => match m l with Ok (a, l') => k a l' | Panic => Panic end.
Definition rlift {A} (m : res A) : reader A :=
  fun l => match m with Ok a => Ok (a, l) | Panic => Panic end.
Notation "x <~ m ; k" := (rbind m (fun x => k))
  (at level 61, m at next level, right associativity).

(** `read_exact` of [n] bytes, then `unwrap` *)
Definition read_exact (n : nat) : reader (list Z) :=
  fun l => if Nat.leb n (length l) then Ok (firstn n l, skipn n l) else Panic.

Fixpoint read_many {A} (n : nat) (m : reader A) : reader (list A) :=
  match n with
  | O => rret []
  | S n' => a <~ m ; l <~ read_many n' m ; rret (a :: l)
  end.
