(** What the command line is meant to do, independently of main.rs. *)
From Coq Require String.
Import String.StringSyntax.
From Verif Require Import Base Str X64 Obj Asm Assembler Cli.

(** what may follow the file name of a path without changing it: `/` and `/.` *)
Inductive trailing : str -> Prop :=
| tr_nil : trailing []
| tr_slash : forall t, trailing t -> trailing (47 :: t)
| tr_dot : forall t, trailing t -> trailing (47 :: 46 :: t).
(** a directory prefix: empty or ending with `/` *)
Definition prefix_dir (d : str) : Prop := d = [] \/ exists d', d = d' ++ [47].
(** a file name and its stem: the extension is what follows the last `.`, unless that `.` is
    the first character *)
Inductive name_stem : str -> str -> Prop :=
| ns_ext : forall st ext, st <> [] -> ~ In 46 ext -> name_stem (st ++ 46 :: ext) st
| ns_hidden : forall ext, ~ In 46 ext -> name_stem (46 :: ext) (46 :: ext)
| ns_plain : forall n, ~ In 46 n -> name_stem n n.
Definition file_name (n : str) : Prop := ~ In 47 n /\ n <> [] /\ n <> lit "." /\ n <> lit "..".
(** a path with its extension replaced by `o` *)
Inductive object_path : str -> str -> Prop :=
| op_name : forall d n st t, prefix_dir d -> file_name n -> name_stem n st -> trailing t ->
    object_path (d ++ n ++ t) (d ++ st ++ lit ".o")
| op_none : forall path, (forall d n t, prefix_dir d -> file_name n -> trailing t -> path <> d ++ n ++ t) ->
    object_path path path.

(** the meaning of a command line: the program's name is the first argument *)
Inductive command : list str -> outcome config -> Prop :=
| co_default : forall prog i out, ~ In (lit "-o") [prog; i] -> object_path i out ->
    command [prog; i] (Done {| cf_output := out; cf_input := i |})
| co_out : forall pre out post prog i, ~ In (lit "-o") pre -> pre ++ post = [prog; i] ->
    command (pre ++ lit "-o" :: out :: post) (Done {| cf_output := out; cf_input := i |})
| co_no_out : forall pre, ~ In (lit "-o") pre -> command (pre ++ [lit "-o"]) Crash
| co_few : forall args rest, strip_o args rest -> (length rest < 2)%nat ->
    command args (Exit 1 (lit "error: input file is not specified" ++ [10]))
| co_many : forall args rest, strip_o args rest -> (2 < length rest)%nat ->
    command args (Exit 1 (lit "error: invalid command format" ++ [10]))
(** the arguments without the first -o and its value *)
with strip_o : list str -> list str -> Prop :=
| so_none : forall args, ~ In (lit "-o") args -> strip_o args args
| so_one : forall pre out post, ~ In (lit "-o") pre -> strip_o (pre ++ lit "-o" :: out :: post) (pre ++ post).
