(** Reading and writing when the operating system fails: std's `write_all` on an arbitrary sink,
    a source that stops with an error, and the command on such files. *)
From Coq Require String.
Import String.StringSyntax.
From Verif Require Import Base Str X64 Mac Obj Asm Assembler Cli.

(** std::io::Write::write_all, as used by at-mac/src/io.rs:64-96 and at-obj/src/macho.rs:74,275,280:
    [write_all st buf st' ok] - from stored bytes [st] the call may end with [st'] stored, [ok]
    telling `Ok` from `Err`.  Each `write` takes some of the bytes, or fails or takes none;
    interrupted calls are repeated and change nothing. *)
Inductive write_all : list Z -> list Z -> list Z -> bool -> Prop :=
| wa_done st : write_all st [] st true
| wa_some st buf n st' ok : (0 < n <= length buf)%nat ->
    write_all (st ++ firstn n buf) (skipn n buf) st' ok -> write_all st buf st' ok
| wa_fail st buf : buf <> [] -> write_all st buf st false.

(** A writer on such a sink.  Every `write_all` is followed by `unwrap`, so an `Err` is a panic
    (io.rs:66-95, macho.rs:74,275,280).  C80_pieces shows that this is the sequence of the
    writer's own calls. *)
Definition on_sink (w : wr) (st st' : list Z) (ok : bool) : Prop :=
  exists ok', write_all st (fst w) st' ok' /\ ok = ok' && snd w.
(** the sink that takes [k] bytes and then fails; None: it never does *)
Definition write_io (limit : option nat) (w : wr) : wr :=
  match limit with
  | None => w
  | Some k => if Nat.leb (length (fst w)) k then w else (firstn k (fst w), false)
  end.

(** assembler.rs:38-108 `read_from` on a source that delivers [input] and then fails, instead of
    ending: reader.rs:19 panics on the error, after the lines that were complete (BufReader hands
    out what it has before it reads again; what it has of an incomplete line is lost). *)
Definition complete_lines (input : list Z) : list (list Z) :=
  filter (fun l => last l 0 =? 10) (raw_lines input).
Definition read_from_failing (p : profile) (a : asm) (input : list Z) : outcome asm :=
  obind (exec_all p a (complete_lines input)) (fun _ => Crash).
(** [limit]: the number of bytes delivered before the failure; None: none fails *)
Definition read_io (p : profile) (a : asm) (limit : option nat) (input : list Z) : outcome asm :=
  match limit with
  | None => read_from p a input
  | Some k => read_from_failing p a (firstn k input)
  end.

(** main.rs:4-22 `main`, as in Cli.v, on files that may fail *)
Definition main_io (p : profile) (h : endian) (args : list str) (w : world) (inl outl : option nat) : world * outcome unit :=
  match config_init args with
  | Exit c e => (w, Exit c e)
  | Crash => (w, Crash)
  | Done cf =>
      match w_slot w (cf_input cf) with
      | None => (w, Crash)
      | Some i =>
          match w_data w i with
          | None => (w, Crash)
          | Some _ =>
              match w_slot w (cf_output cf) with
              | None => (w, Crash)
              | Some o =>
                  let w := put w o [] in
                  let input := match w_data w i with Some bs => bs | None => [] end in
                  match read_io p asm_new inl input with
                  | Exit c e => (w, Exit c e)
                  | Crash => (w, Crash)
                  | Done a =>
                      let (bs, ok) := write_io outl (asm_write_into p h a) in
                      (put w o bs, if ok then Done tt else Crash)
                  end
              end
          end
      end
  end.
