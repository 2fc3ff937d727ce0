(** Property theorems for sources that deliver their bytes in pieces: C95. *)
From Coq Require String.
Import String.StringSyntax.
From Verif Require Import Base Str X64 Mac Obj Asm Assembler Cli Sink Chunk SpecChunk PfChunk.

(** ** C95: how the input is cut into reads does not matter *)

(** every source is pieces, then nothing more, an end of file or an error *)
Theorem C95_all : forall src, exists s bs, pieces s bs /\ (src = s \/ exists m, src = s ++ Got [] :: m \/ src = s ++ Failed :: m).
Proof. exact top_C95_all. Qed.
Print Assumptions C95_all.
(** the assembler on pieces: as on the bytes at once *)
Theorem C95_pieces : forall p a s bs, pieces s bs -> read_chunks p a s = read_from p a bs.
Proof. exact top_C95_pieces. Qed.
Print Assumptions C95_pieces.
(** an end of file between two lines ends the program, whatever the source would deliver later *)
Theorem C95_eof : forall p a s bs m, pieces s bs -> bs = [] \/ last bs 0 = 10 ->
  read_chunks p a (s ++ Got [] :: m) = read_from p a bs.
Proof. exact top_C95_eof. Qed.
Print Assumptions C95_eof.
(** an end of file within a line is a line feed: reading goes on after it *)
Theorem C95_feed : forall p a s bs m, pieces s bs -> bytes_ok bs -> bs <> [] -> last bs 0 <> 10 ->
  read_chunks p a (s ++ Got [] :: m) = read_chunks p a (s ++ Got [10] :: m).
Proof. exact top_C95_feed. Qed.
Print Assumptions C95_feed.
(** the same for all bytes, in terms of the lines *)
Theorem C95_pause : forall p a s bs m, pieces s bs -> bs <> [] -> last bs 0 <> 10 ->
  read_chunks p a (s ++ Got [] :: m) = obind (exec_all p a (raw_lines bs)) (fun a => read_chunks p a m).
Proof. exact top_C95_pause. Qed.
Print Assumptions C95_pause.
(** an error: the lines before it count (C80) *)
Theorem C95_failed : forall p a s bs m, pieces s bs -> read_chunks p a (s ++ Failed :: m) = read_from_failing p a bs.
Proof. exact top_C95_failed. Qed.
Print Assumptions C95_failed.
(** the bound on the number of lines in [read_chunks] is no restriction *)
Theorem C95_fuel : forall p a src k, (weight src <= k)%nat ->
  read_chunks p a src = obind (read_loop k p a ([], src)) (fun a => Done (mark_ext a)).
Proof. exact top_C95_fuel. Qed.
Print Assumptions C95_fuel.
(** the readers of at-mac give the same value, stop at the same byte and panic on the same inputs *)
Theorem C95_readers : forall p e,
  same (read_header64 e) (c_header64 e) /\ same (read_load_command p e) (c_load_command p e) /\ same (read_segment64 p e) (c_segment64 p e) /\
  same (read_section64 e) (c_section64 e) /\ same (read_symtab e) (c_symtab e) /\ same (read_dysymtab e) (c_dysymtab e) /\
  same (read_build_version p e) (c_build_version p e) /\ same (read_build_tool e) (c_build_tool e) /\
  same (read_nlist64 e) (c_nlist64 e) /\ same (read_reloc_info e) (c_reloc_info e).
Proof. exact top_C95_readers. Qed.
Print Assumptions C95_readers.
(** every source delivers something in this sense *)
Theorem C95_delivers : forall src, exists l, delivers src l.
Proof. exact top_C95_delivers. Qed.
Print Assumptions C95_delivers.

(** "ret", a line feed and "push 1", cut within a word and interrupted *)
Example C95_case : forall p,
  let ok src := match read_chunks p asm_new src with Done a => Some (bs_bytes (o_text (as_obj a))) | _ => None end in
  let whole := lit "ret" ++ [10] ++ lit "push 1" in
  ok [Got whole] = ok [Got (lit "re"); Interrupted; Got (lit "t" ++ [10] ++ lit "pus"); Got (lit "h 1")] /\
  ok [Got whole] = Some [0xC3; 0x6A; 1] /\
  (* the end of file after a line feed: the rest is not read *)
  ok [Got (lit "ret" ++ [10]); Got []; Got (lit "push 1")] = Some [0xC3] /\
  (* within a line: it is *)
  ok [Got (lit "ret"); Got []; Got (lit "push 1")] = Some [0xC3; 0x6A; 1] /\
  (* without that end of file this is one line, "retpush 1" *)
  ok [Got (lit "ret"); Got (lit "push 1")] = None /\
  ok [Got (lit "ret" ++ [10]); Failed; Got (lit "push 1")] = None.
Proof. intros []; vm_compute; repeat split; reflexivity. Qed.
Example C95_case_readers :
  c_build_tool Little [Got [3]; Interrupted; Got [0; 0]; Got [0; 7; 0]; Got [0; 0; 9; 9]; Got [5]] =
    match read_build_tool Little [3; 0; 0; 0; 7; 0; 0; 0; 9; 9; 5] with Ok (t, r) => Ok (t, [Got (firstn 2 r); Got [5]]) | Panic => Panic end /\
  c_build_tool Little [Got [3; 0; 0; 0; 7; 0]; Got []; Got [0; 0]] = Panic /\
  (exists t, read_build_tool Little [3; 0; 0; 0; 7; 0; 0; 0] = Ok (t, [])).
Proof. repeat split; try (vm_compute; reflexivity). eexists. vm_compute. reflexivity. Qed.
