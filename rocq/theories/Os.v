(** Model of what the operating system hands over: arguments as bytes, and memory asked for by a
    size.  Paths are relative to /repo. *)
From Verif Require Import Base Str X64 Mac Obj Asm Assembler Cli.

(** ** at-asm/src/main.rs on arguments that need not be text *)

(** main.rs:31 `std::env::args().collect()`: panics at an argument that is not UTF-8 *)
Fixpoint env_args (argv : list (list Z)) : outcome (list str) :=
  match argv with
  | [] => Done []
  | a :: argv' =>
      match from_utf8 a with
      | None => Crash
      | Some s => obind (env_args argv') (fun l => Done (s :: l))
      end
  end.
(** main.rs:30-74 `Config::init`, with the bytes of the paths *)
Definition config_os (argv : list (list Z)) : outcome config :=
  obind (env_args argv) (fun args =>
  obind (config_init args) (fun c =>
  Done {| cf_output := utf8 (cf_output c); cf_input := utf8 (cf_input c) |})).
(** main.rs:4-22 `main`: a file is opened by the bytes of its path *)
Definition main_os (p : profile) (h : endian) (argv : list (list Z)) (w : world) : world * outcome unit :=
  match env_args argv with
  | Done args =>
      let (w', r) := main p h args {| w_slot := fun path => w_slot w (utf8 path); w_data := w_data w |} in
      ({| w_slot := w_slot w; w_data := w_data w' |}, r)
  | Exit c e => (w, Exit c e)
  | Crash => (w, Crash)
  end.

(** ** at-mac: `Vec::with_capacity` *)

(** at-mac/src/load_command/mod.rs:48-91: the numbers of records room is asked for while a load
    command is read (lines 65 and 83), whether or not the reading then succeeds *)
Definition reserves (p : profile) (e : endian) (l : list Z) : list Z :=
  match read_u32 e l with
  | Panic => []
  | Ok (cmd, l') =>
      let l'' := bytes_of e 4 cmd ++ l' in
      if cmd =? SEGMENT_TYPE then
        match read_segment64 p e l'' with Ok (c, _) => [sg_nsects c] | Panic => [] end
      else if cmd =? BUILD_VERSION_TYPE then
        match read_build_version p e l'' with Ok (c, _) => [bv_ntools c] | Panic => [] end
      else []
  end.
