(** The program as a conversation with the operating system: which calls at-asm makes, in which
    order, whatever the answers are.  Paths are relative to /repo. *)
From Verif Require Import Base Str X64 Mac Obj Asm Assembler Cli Os Chunk.

(** An answer to `write`: how many bytes were taken, `ErrorKind::Interrupted`, another error *)
Inductive wanswer := Took (n : nat) | WInterrupted | WFailed.
(** A call and its answer.  The input is opened for reading; the output for writing, truncated, and
    created if it is not there (main.rs:7-17).  A message on stderr is one event, be it written in
    one call or in several; without success its beginning may have been written. *)
Inductive event :=
| OpenIn (path : list Z) (ok : bool)
| OpenOut (path : list Z) (ok : bool)
| Read (x : answer)
| Write (bs : list Z) (x : wanswer)
| Stderr (msg : str) (ok : bool).

(** std::io::BufRead::read_until (at-asm/src/reader.rs:19) as in Chunk.v, with exactly the answers it takes:
    [until acc buf src r rest] - result (None: error) and what stays in the buffer *)
Inductive until : list Z -> list Z -> list answer -> option (list Z) -> list Z -> Prop :=
| un_line acc buf x rest : cut buf = Some (x, rest) -> until acc buf [] (Some (acc ++ x)) rest
| un_eof acc buf : cut buf = None -> until acc buf [Got []] (Some (acc ++ buf)) []
| un_failed acc buf : cut buf = None -> until acc buf [Failed] None []
| un_again acc buf src r rest : cut buf = None -> until (acc ++ buf) [] src r rest -> until acc buf (Interrupted :: src) r rest
| un_more acc buf b bs src r rest : cut buf = None -> until (acc ++ buf) (b :: bs) src r rest ->
    until acc buf (Got (b :: bs) :: src) r rest.

(** at-asm/src/assembler.rs:41-94, the loop, and reader.rs:16-24, from a state and a buffer *)
Inductive lines (p : profile) : asm -> list Z -> list answer -> outcome asm -> Prop :=
| li_end a buf src rest : until [] buf src (Some []) rest -> lines p a buf src (Done a)
| li_failed a buf src rest : until [] buf src None rest -> lines p a buf src Crash
| li_line a buf src raw rest a' src' r : until [] buf src (Some raw) rest -> raw <> [] -> exec_raw p a raw = Done a' ->
    lines p a' rest src' r -> lines p a buf (src ++ src') r
| li_exit a buf src raw rest c e : until [] buf src (Some raw) rest -> raw <> [] -> exec_raw p a raw = Exit c e ->
    lines p a buf src (Exit c e)
| li_crash a buf src raw rest : until [] buf src (Some raw) rest -> raw <> [] -> exec_raw p a raw = Crash ->
    lines p a buf src Crash.

(** at-obj and at-mac write with `write_all` and `unwrap` (at-mac/src/io.rs:64-96,
    at-obj/src/macho.rs:74,275,280): each call of `write` offers some of the bytes that are still to
    be written, and at least one.  How many is left open. *)
Inductive writes : list Z -> list event -> bool -> Prop :=
| wr_done : writes [] [] true
| wr_took x y n t ok : (0 < n <= length x)%nat -> writes (skipn n x ++ y) t ok -> writes (x ++ y) (Write x (Took n) :: t) ok
| wr_again x y t ok : x <> [] -> writes (x ++ y) t ok -> writes (x ++ y) (Write x WInterrupted :: t) ok
| wr_none x y : x <> [] -> writes (x ++ y) [Write x (Took 0)] false
| wr_failed x y : x <> [] -> writes (x ++ y) [Write x WFailed] false.

(** `eprintln!` and `exit`: a message that cannot be written is a panic (main.rs:49-54,
    assembler.rs:47-48,159-160) *)
Inductive leaves (c : Z) (msg : str) : list event -> outcome unit -> Prop :=
| le_exit : leaves c msg [Stderr msg true] (Exit c msg)
| le_panic : leaves c msg [Stderr msg false] Crash.

(** at-asm/src/main.rs:4-22 `main` *)
Inductive run (p : profile) (h : endian) (argv : list (list Z)) : list event -> outcome unit -> Prop :=
| ru_args_panic : config_os argv = Crash -> run p h argv [] Crash
| ru_args_exit c msg t r : config_os argv = Exit c msg -> leaves c msg t r -> run p h argv t r
| ru_in cf : config_os argv = Done cf -> run p h argv [OpenIn (cf_input cf) false] Crash
| ru_out cf : config_os argv = Done cf -> run p h argv [OpenIn (cf_input cf) true; OpenOut (cf_output cf) false] Crash
| ru_panic cf src : config_os argv = Done cf -> lines p asm_new [] src Crash ->
    run p h argv (OpenIn (cf_input cf) true :: OpenOut (cf_output cf) true :: map Read src) Crash
| ru_exit cf src c msg t r : config_os argv = Done cf -> lines p asm_new [] src (Exit c msg) -> leaves c msg t r ->
    run p h argv (OpenIn (cf_input cf) true :: OpenOut (cf_output cf) true :: map Read src ++ t) r
| ru_write cf src a t ok : config_os argv = Done cf -> lines p asm_new [] src (Done a) ->
    writes (fst (asm_write_into p h (mark_ext a))) t ok ->
    run p h argv (OpenIn (cf_input cf) true :: OpenOut (cf_output cf) true :: map Read src ++ t)
      (if ok && snd (asm_write_into p h (mark_ext a)) then Done tt else Crash).
