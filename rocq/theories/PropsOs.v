(** Property theorems for arguments as bytes and for memory asked for by a size: C93, C94. *)
From Coq Require String.
Import String.StringSyntax.
From Verif Require Import Base Str X64 Mac SpecMacho Obj Asm SpecMore Assembler Cli SpecCli SpecRead Os SpecOs PfOs.

(** ** C93: room for records.  The full statement
    [forall p e l n, bytes_ok l -> In n (reserves p e l) -> n <= zlen l]
    (no more records are made room for than the input has bytes) is false. *)
Theorem C93_refuted : forall e,
  (exists l, bytes_ok l /\ zlen l = 72 /\ In 53687090 (reserves Debug e l)) /\
  (exists l, bytes_ok l /\ zlen l = 72 /\ In (2 ^ 32 - 1) (reserves Release e l)).
Proof. exact top_C93_refuted. Qed.
Print Assumptions C93_refuted.
(** when room is made, and for how many *)
Theorem C93_exact : forall p e l n, bytes_ok l ->
  (In n (reserves p e l) <-> counts_sections p e l n \/ counts_tools p e l n).
Proof. exact top_C93_exact. Qed.
Print Assumptions C93_exact.
Theorem C93_once : forall p e l, (length (reserves p e l) <= 1)%nat.
Proof. exact top_C93_once. Qed.
Print Assumptions C93_once.
(** debug builds stop at the largest size of a command *)
Theorem C93_bound : forall p e l n, bytes_ok l ->
  (counts_sections p e l n -> 0 <= n < 2 ^ 32 /\ (p = Debug -> n <= 53687090)) /\
  (counts_tools p e l n -> 0 <= n < 2 ^ 32 /\ (p = Debug -> n <= 536870908)).
Proof. exact top_C93_bound. Qed.
Print Assumptions C93_bound.
(** the full statement for inputs that are read; missing: inputs whose reading fails *)
Theorem C93_read_partial : forall p e l c r n, bytes_ok l -> read_load_command p e l = Ok (c, r) -> In n (reserves p e l) ->
  match c with
  | LcSegment64 _ ss => n = zlen ss /\ 72 + 80 * n <= zlen l
  | LcBuildVersion _ ts => n = zlen ts /\ 24 + 8 * n <= zlen l
  | _ => False
  end.
Proof. exact top_C93_read. Qed.
Print Assumptions C93_read_partial.
Example C93_case : let l := bytes_of Little 4 0x32 ++ bytes_of Little 4 32 ++ bytes_of Little 4 1 ++ repeat 0 8 ++ bytes_of Little 4 1 in
  zlen l = 24 /\ reserves Debug Little l = [1] /\ read_load_command Debug Little l = Panic /\
  (exists c, read_load_command Debug Little (l ++ [3; 0; 0; 0; 0; 0; 0; 0]) = Ok (c, [])) /\ reserves Debug Little (l ++ [3; 0; 0; 0; 0; 0; 0; 0]) = [1] /\
  reserves Debug Little (bytes_of Little 4 2 ++ repeat 0 20) = [] /\
  (* a symbol table counts its symbols, but no room is made for them *)
  reserves Release Big (bytes_of Big 4 2 ++ bytes_of Big 4 24 ++ repeat 255 16) = [].
Proof. repeat split; try (vm_compute; reflexivity). eexists. vm_compute. reflexivity. Qed.

(** ** C94: arguments are bytes *)

(** the command line says the same byte for byte, if every argument is UTF-8: paths are passed on
    unchanged, and the default output differs from the input in its extension only *)
Theorem C94_command : forall argv o, Forall bytes_ok argv -> Forall unicode argv ->
  (config_os argv = o <-> command argv o).
Proof. exact top_C94_command. Qed.
Print Assumptions C94_command.
(** the run is that of [main] (C53, C54) on the bytes *)
Theorem C94_run : forall p h argv w, Forall bytes_ok argv -> Forall unicode argv ->
  main_os p h argv w = main p h argv w.
Proof. exact top_C94_bytes. Qed.
Print Assumptions C94_run.
(** any other argument, wherever it stands, ends the program before a file is touched *)
Theorem C94_not_text : forall p h argv w a, Forall bytes_ok argv -> In a argv -> ~ unicode a ->
  main_os p h argv w = (w, Crash).
Proof. exact top_C94_not_text. Qed.
Print Assumptions C94_not_text.
Example C94_case :
  (* at-asm é.s *)
  config_os [lit "at-asm"; [0xC3; 0xA9; 46; 115]] = Done {| cf_output := [0xC3; 0xA9; 46; 111]; cf_input := [0xC3; 0xA9; 46; 115] |} /\
  (* the same name in Latin-1 *)
  config_os [lit "at-asm"; [0xE9; 46; 115]] = Crash /\
  config_os [[0xFF]; lit "a.s"] = Crash /\
  (forall p h w, main_os p h [lit "at-asm"; lit "a.s"; lit "-o"; [0x80]] w = (w, Crash)).
Proof. repeat split. Qed.
Example C94_unicode : unicode [0xC3; 0xA9; 46; 115] /\ ~ unicode [0xE9; 46; 115].
Proof.
  split.
  - exists [0xE9; 46; 115]. apply PfMore.utf8_text_iff. split; [|reflexivity]. repeat (constructor; [unfold ischar; lia|]). constructor.
  - intros (s & H). apply PfMore.top_C70_decode in H; [discriminate H|]. repeat (constructor; [unfold isbyte; lia|]). constructor.
Qed.
