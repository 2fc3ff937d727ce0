(** Model of the command-line program of at-asm (main.rs).  Paths are relative to
    /repo/at-asm/src. *)
From Coq Require String.
Import String.StringSyntax.
From Verif Require Import Base Str X64 Obj Asm Assembler.

(** ** `std::path` on Unix, for `with_extension` at main.rs:66 *)

(** pieces joined by `/` *)
Fixpoint join (ws : list str) : str :=
  match ws with
  | [] => []
  | [w] => w
  | w :: ws' => w ++ 47 :: join ws'
  end.
(** pieces (in reverse order) without the trailing ones that are no component: empty
    (repeated or trailing `/`) or `.` *)
Fixpoint strip_tail (rws : list str) : list str :=
  match rws with
  | [] => []
  | w :: rws' =>
      if str_eqb w [] || str_eqb w (lit ".") then strip_tail rws' else rws
  end.
(** `Path::file_stem` of a file name: the part before the last `.`, or the whole name if
    it has no `.` or only a leading one *)
Definition stem (name : str) : str :=
  match split_once (fun c => c =? 46) (rev name) with
  | Some (_, rb) => match rb with [] => name | _ => rev rb end
  | None => name
  end.
(** main.rs:66 `Path::with_extension("o")`: unchanged if the path has no file name (it is empty, or a
    root, or ends in `..`); otherwise what follows the stem is replaced *)
Definition with_extension_o (path : str) : str :=
  match strip_tail (rev (split (fun c => c =? 47) path)) with
  | [] => path
  | name :: before =>
      if str_eqb name (lit "..") then path
      else join (rev before ++ [stem name]) ++ lit ".o"
  end.

(** ** main.rs *)

(** main.rs:35 `iter().position(|arg| arg == "-o")` *)
Fixpoint position_o (args : list str) : option nat :=
  match args with
  | [] => None
  | a :: args' =>
      if str_eqb a (lit "-o") then Some O
      else match position_o args' with Some i => Some (S i) | None => None end
  end.
(** main.rs:37,39,56 `Vec::remove`: panics if out of range *)
Fixpoint vec_remove {A} (i : nat) (l : list A) : outcome (A * list A) :=
  match i, l with
  | _, [] => Crash
  | O, a :: l' => Done (a, l')
  | S i', a :: l' => obind (vec_remove i' l') (fun x => Done (fst x, a :: snd x))
  end.

(** main.rs:24-27 *)
Record config := { cf_output : str; cf_input : str }.
(** main.rs:30-74 `Config::init`; [args] is `std::env::args()` *)
Definition config_init (args : list str) : outcome config :=
  obind
    match position_o args with
    | Some i =>
        obind (vec_remove i args) (fun x =>
        obind (vec_remove i (snd x)) (fun y => Done (Some (fst y), snd y)))
    | None => Done (None, args)
    end
    (fun oa =>
      let (out, args) := (oa : option str * list str) in
      if Nat.ltb (length args) 2
      then Exit 1 (lit "error: input file is not specified" ++ [10])
      else if Nat.ltb 2 (length args)
      then Exit 1 (lit "error: invalid command format" ++ [10])
      else
        obind (vec_remove 1 args) (fun x =>
        let input := fst x in
        Done {| cf_output := match out with Some f => f | None => with_extension_o input end;
                cf_input := input |})).

(** The file system: a path names at most one file slot (None: cannot be opened, even for
    creating), distinct paths may name the same slot (`a` and `./a`, links); a slot holds a
    file's contents or nothing yet. *)
Record world := { w_slot : str -> option Z; w_data : Z -> option (list Z) }.
Definition put (w : world) (slot : Z) (bs : list Z) : world :=
  {| w_slot := w_slot w; w_data := fun s => if s =? slot then Some bs else w_data w s |}.

(** How the process ends; a panic has exit status 101. *)
Definition status {A} (m : outcome A) : Z := match m with Done _ => 0 | Exit c _ => c | Crash => 101 end.

(** main.rs:4-22 `main`: the final file system and how the process ended.  The output file
    is truncated when it is opened (main.rs:12-17), before the input is read. *)
Definition main (p : profile) (h : endian) (args : list str) (w : world) : world * outcome unit :=
  match config_init args with
  | Exit c e => (w, Exit c e)
  | Crash => (w, Crash)
  | Done cf =>
      match w_slot w (cf_input cf) with
      | None => (w, Crash)
      | Some i =>
          match w_data w i with
          | None => (w, Crash)
          | Some _ =>
              match w_slot w (cf_output cf) with
              | None => (w, Crash)
              | Some o =>
                  let w := put w o [] in
                  let input := match w_data w i with Some bs => bs | None => [] end in
                  match read_from p asm_new input with
                  | Exit c e => (w, Exit c e)
                  | Crash => (w, Crash)
                  | Done a =>
                      let (bs, ok) := asm_write_into p h a in
                      (put w o bs, if ok then Done tt else Crash)
                  end
              end
          end
      end
  end.
