(** Property theorems for the conversation with the operating system: C96. *)
From Coq Require String.
Import String.StringSyntax.
From Verif Require Import Base Str X64 Mac Obj Asm Assembler Cli SpecCli Os SpecOs Chunk Talk SpecTalk PfTalk PfTalk2 PfTalk3.

(** ** C96: which calls the program makes, whatever the operating system answers *)

(** the order: the input is opened, then the output, then everything is read, then everything is
    written; a message comes last and instead of writing *)
Theorem C96_order : forall p h argv t r, run p h argv t r -> exists opens reads wr msgs,
  t = opens ++ map Read reads ++ wr ++ msgs /\ Forall is_write wr /\ (msgs = [] \/ exists m ok, msgs = [Stderr m ok]) /\ (wr = [] \/ msgs = []) /\
  ((exists i o, opens = [OpenIn i true; OpenOut o true]) \/
   reads = [] /\ wr = [] /\ (opens = [] \/ (exists i, opens = [OpenIn i false] /\ msgs = []) \/ (exists i o, opens = [OpenIn i true; OpenOut o false] /\ msgs = []))).
Proof. exact top_C96_order. Qed.
Print Assumptions C96_order.
(** no other file is opened than the two the command line names *)
Theorem C96_paths : forall p h argv t r, Forall bytes_ok argv -> Forall unicode argv -> run p h argv t r ->
  (forall path ok, In (OpenIn path ok) t -> exists cf, command argv (Done cf) /\ path = cf_input cf) /\
  (forall path ok, In (OpenOut path ok) t -> exists cf, command argv (Done cf) /\ path = cf_output cf).
Proof. exact top_C96_paths. Qed.
Print Assumptions C96_paths.
Theorem C96_not_text : forall p h argv t r a, Forall bytes_ok argv -> In a argv -> ~ unicode a -> (run p h argv t r <-> t = [] /\ r = Crash).
Proof. exact top_C96_not_text. Qed.
Print Assumptions C96_not_text.
Theorem C96_usage : forall p h argv t r m c, Forall bytes_ok argv -> Forall unicode argv -> command argv (Exit c m) ->
  (run p h argv t r <-> t = [Stderr m true] /\ r = Exit c m \/ t = [Stderr m false] /\ r = Crash).
Proof. exact top_C96_usage. Qed.
Print Assumptions C96_usage.
(** what was read decides (C95 says how); what is written is the beginning of the object file, and
    status 0 means that all of it was *)
Theorem C96_result : forall p h argv t r o, run p h argv t r -> In (OpenOut o true) t ->
  match read_chunks p asm_new (answers t) with
  | Exit c e => taken t = [] /\ (said t = [(e, true)] /\ r = Exit c e \/ said t = [(e, false)] /\ r = Crash)
  | Crash => taken t = [] /\ said t = [] /\ r = Crash
  | Done a => said t = [] /\ (exists z, fst (asm_write_into p h a) = taken t ++ z) /\
      (r = Done tt <-> taken t = fst (asm_write_into p h a) /\ snd (asm_write_into p h a) = true) /\ (r = Done tt \/ r = Crash)
  end.
Proof. exact top_C96_result. Qed.
Print Assumptions C96_result.
(** what was not read would have changed nothing, and how much is read depends on what is read only *)
Theorem C96_enough : forall p h argv t r o m, run p h argv t r -> In (OpenOut o true) t ->
  read_chunks p asm_new (answers t ++ m) = read_chunks p asm_new (answers t).
Proof. exact top_C96_enough. Qed.
Print Assumptions C96_enough.
Theorem C96_same : forall p h argv t1 r1 t2 r2 o1 o2 m1 m2, run p h argv t1 r1 -> run p h argv t2 r2 -> In (OpenOut o1 true) t1 -> In (OpenOut o2 true) t2 ->
  answers t1 ++ m1 = answers t2 ++ m2 -> answers t1 = answers t2.
Proof. exact top_C96_same. Qed.
Print Assumptions C96_same.
(** whatever the answers are, the program comes to an end *)
Theorem C96_total : forall p h argv src l i o e, exists t r, run p h argv t r /\ source_says src t /\ sink_says l t /\ others_say i o e t.
Proof. exact top_C96_total. Qed.
Print Assumptions C96_total.
(** after a failure - a file that cannot be opened, an error of `read` or `write` other than an
    interruption, a `write` that takes nothing - no further call is made *)
Theorem C96_fatal : forall p h argv t1 e t2 r, run p h argv (t1 ++ e :: t2) r -> fatal e -> t2 = [] /\ r = Crash.
Proof. exact top_C96_fatal. Qed.
Print Assumptions C96_fatal.
(** and without one the result depends only on the command line and on what was read *)
Theorem C96_calm : forall p h argv t r, Forall bytes_ok argv -> Forall unicode argv -> run p h argv t r -> (forall e, In e t -> ~ fatal e) ->
  (exists c m, command argv (Exit c m) /\ r = Exit c m) \/ (command argv Crash /\ r = Crash) \/
  (exists cf, command argv (Done cf)) /\ r = obind (read_chunks p asm_new (answers t)) (fun a => if snd (asm_write_into p h a) then Done tt else Crash).
Proof. exact top_C96_calm. Qed.
Print Assumptions C96_calm.
(** what is offered to `write` is never empty and is what comes next in the object file; the object
    file is settled before the first byte of it is offered *)
Theorem C96_offers : forall p h argv t1 x w t2 r, run p h argv (t1 ++ Write x w :: t2) r ->
  x <> [] /\ (forall n, w = Took n -> (n <= length x)%nat) /\
  exists a z, read_chunks p asm_new (answers t1) = Done a /\ fst (asm_write_into p h a) = taken t1 ++ x ++ z.
Proof. exact top_C96_offers. Qed.
Print Assumptions C96_offers.
(** on a file system that works, however it cuts reads and writes, the result is that of C53, C54
    and C94; and there it can always be run *)
Theorem C96_world : forall p h argv t r w f, run p h argv t r -> steps {| f_world := w; f_in := None; f_out := None |} t f ->
  r = snd (main_os p h argv w) /\ forall s, w_data (f_world f) s = w_data (fst (main_os p h argv w)) s.
Proof. exact top_C96_world. Qed.
Print Assumptions C96_world.
Theorem C96_possible : forall p h argv w, exists t r f, run p h argv t r /\ steps {| f_world := w; f_in := None; f_out := None |} t f.
Proof. exact top_C96_possible. Qed.
Print Assumptions C96_possible.

Definition ex_argv : list (list Z) := [lit "at-asm"; lit "a.s"].
Definition ex_ret (p : profile) : asm := match exec_raw p asm_new (lit "ret" ++ [10]) with Done a => a | _ => asm_new end.
Definition ex_out (p : profile) (h : endian) : list Z := fst (asm_write_into p h (mark_ext (ex_ret p))).
Definition ex_reads : list answer := [Got (lit "re"); Interrupted; Got (lit "t" ++ [10]); Got []].
Lemma ex_lines p : lines p asm_new [] ex_reads (Done (ex_ret p)).
Proof.
  change ex_reads with ([Got (lit "re"); Interrupted; Got (lit "t" ++ [10])] ++ [Got []]).
  apply li_line with (raw := lit "ret" ++ [10]) (rest := []) (a' := ex_ret p); [|discriminate|destruct p; vm_compute; reflexivity|].
  - apply un_more; [reflexivity|]. apply un_again; [reflexivity|]. apply un_more; [reflexivity|].
    exact (un_line (lit "re") (lit "t" ++ [10]) (lit "t" ++ [10]) [] eq_refl).
  - apply li_end with (rest := []). exact (un_eof [] [] eq_refl).
Qed.
(** a run that writes all in two calls, and one that is stopped *)
Example C96_case : forall p h,
  let opens := [OpenIn (lit "a.s") true; OpenOut (lit "a.o") true] in let x := firstn 100 (ex_out p h) in let y := skipn 100 (ex_out p h) in
  run p h ex_argv (opens ++ map Read ex_reads ++ [Write x (Took 100); Write y (Took (length y))]) (Done tt) /\
  run p h ex_argv (opens ++ map Read ex_reads ++ [Write x (Took 60); Write (skipn 60 x) WFailed]) Crash /\
  zlen (ex_out p h) = 217 /\ snd (asm_write_into p h (mark_ext (ex_ret p))) = true.
Proof.
  intros p h. cbv zeta. assert (C : config_os ex_argv = Done {| cf_output := lit "a.o"; cf_input := lit "a.s" |}) by reflexivity.
  assert (N : zlen (ex_out p h) = 217) by (destruct p, h; vm_compute; reflexivity).
  assert (K : snd (asm_write_into p h (mark_ext (ex_ret p))) = true) by (destruct p, h; vm_compute; reflexivity).
  assert (E : fst (asm_write_into p h (mark_ext (ex_ret p))) = firstn 100 (ex_out p h) ++ skipn 100 (ex_out p h)) by (symmetry; apply firstn_skipn).
  assert (L : length (firstn 100 (ex_out p h)) = 100%nat) by (rewrite firstn_length_le; [reflexivity|unfold zlen in N; lia]).
  repeat split; try assumption.
  - replace (Done tt) with (if true && snd (asm_write_into p h (mark_ext (ex_ret p))) then Done tt else Crash) by (now rewrite K).
    apply (ru_write p h ex_argv _ _ _ _ _ C (ex_lines p)). rewrite E. apply wr_took; [lia|]. rewrite <- L at 1. rewrite skipn_all. cbn [app].
    rewrite <- (app_nil_r (skipn 100 (ex_out p h))) at 1. apply wr_took; [|rewrite skipn_all; constructor].
    rewrite skipn_length. unfold zlen in N. lia.
  - replace (@Crash unit) with (if false && snd (asm_write_into p h (mark_ext (ex_ret p))) then Done tt else Crash) by reflexivity.
    apply (ru_write p h ex_argv _ _ _ _ _ C (ex_lines p)). rewrite E. apply wr_took; [lia|]. apply wr_failed. intros Q. apply (f_equal (@length Z)) in Q.
    rewrite skipn_length, L in Q. discriminate.
Qed.
(** "bogus": the rest of the file is not read, nothing is written *)
Example C96_case_exit : forall p h, run p h ex_argv
  [OpenIn (lit "a.s") true; OpenOut (lit "a.o") true; Read (Got (lit "bogus" ++ [10] ++ lit "ret")); Stderr (lit "error at line 1: unrecognized line" ++ [10]) true]
  (Exit 1 (lit "error at line 1: unrecognized line" ++ [10])).
Proof.
  intros p h. assert (C : config_os ex_argv = Done {| cf_output := lit "a.o"; cf_input := lit "a.s" |}) by reflexivity.
  eapply (ru_exit p h ex_argv _ [Got (lit "bogus" ++ [10] ++ lit "ret")] _ _ _ _ C); [|apply le_exit].
  apply li_exit with (raw := lit "bogus" ++ [10]) (rest := lit "ret"); [|discriminate|destruct p; vm_compute; reflexivity].
  apply un_more; [reflexivity|]. exact (un_line [] (lit "bogus" ++ [10] ++ lit "ret") (lit "bogus" ++ [10]) (lit "ret") eq_refl).
Qed.
