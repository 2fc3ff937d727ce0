(** Property theorems for whole runs: exit status (C71) and build profiles (C72). *)
From Coq Require String.
Import String.StringSyntax.
From Verif Require Import Base Str X64 Mac Obj SpecObj Asm SpecAsm Assembler SpecRun Cli SpecCli PfTok PfLine2 PropsAsm PropsLink PfBoth.

(** ** C71: what the exit status says.  [passes], [crashes] and [ends_with_error] are in SpecRun.v *)
Theorem C71_status : forall p h args w cf i o src ls,
  config_init args = Done cf -> w_slot w (cf_input cf) = Some i ->
  w_data w i = Some src -> w_slot w (cf_output cf) = Some o -> i <> o -> bytes_ok src -> ~ In 0 src ->
  source_lines src ls -> (forall pr, passes p [] ls pr -> fits (object_of pr)) ->
  (status (snd (main p h args w)) = 0 <-> exists pr, passes p [] ls pr /\ linkable pr) /\
  (status (snd (main p h args w)) = 1 <->
    exists e good bad rest pr, ls = good ++ bad :: rest /\ passes p [] good pr /\ ends_with_error p pr bad e) /\
  (status (snd (main p h args w)) = 101 <->
    (exists good bad rest pr, ls = good ++ bad :: rest /\ passes p [] good pr /\ crashes p pr bad) \/
    (exists pr, passes p [] ls pr /\ ~ linkable pr)).
Proof. exact top_C71_status. Qed.
Print Assumptions C71_status.
Theorem C71_message : forall p h args w cf i o src ls,
  config_init args = Done cf -> w_slot w (cf_input cf) = Some i ->
  w_data w i = Some src -> w_slot w (cf_output cf) = Some o -> i <> o -> bytes_ok src -> source_lines src ls ->
  forall e, snd (main p h args w) = Exit 1 e <->
    exists good bad rest pr, ls = good ++ bad :: rest /\ passes p [] good pr /\ ends_with_error p pr bad e.
Proof. exact top_C71_message. Qed.
Print Assumptions C71_message.
Theorem C71_always : forall p h args w, (forall k bs, w_data w k = Some bs -> bytes_ok bs) ->
  status (snd (main p h args w)) = 0 \/ status (snd (main p h args w)) = 1 \/ status (snd (main p h args w)) = 101.
Proof. exact top_C71_always. Qed.
Print Assumptions C71_always.
Example C71_case : forall p h, let run src := snd (main p h [lit "at-asm"; lit "a.s"] (ex_world src [])) in
  status (run ex_source) = 0 /\
  run (utf8 (lit "ret" ++ [10] ++ lit "bogus")) = Exit 1 (lit "error at line 2: unrecognized line" ++ [10]) /\
  run (utf8 (lit "section .bss" ++ [10] ++ lit "x: db 1" ++ [10] ++ lit "ret")) = Exit 1 (lit "error at line 2: error: expected end of line." ++ [10]) /\
  run (utf8 (lit "section .bss" ++ [10] ++ lit "ret")) = Exit 1 bss_msg /\
  status (run [0xFF]) = 101 /\ status (run (utf8 (lit "mov rax, exit"))) = 101 /\
  status (snd (main p h [lit "at-asm"] (ex_world [] []))) = 1 /\ status (snd (main p h [lit "at-asm"; lit "b.s"] (ex_world [] []))) = 101.
Proof. intros [] []; vm_compute; repeat split; reflexivity. Qed.
Example C71_case_lines : forall p, exists good bad rest, source_lines (utf8 (lit "ret" ++ [10] ++ lit "bogus" ++ [10] ++ lit "ret")) (good ++ bad :: rest) /\
  bad = utf8 (lit "bogus" ++ [10]) /\ line_reports p (lit "bogus" ++ [10]) (lit "unrecognized line").
Proof.
  intro p. exists [utf8 (lit "ret" ++ [10])], (utf8 (lit "bogus" ++ [10])), [utf8 (lit "ret")].
  split; [|split; [reflexivity|apply PfDiag.top_C67; destruct p; vm_compute; reflexivity]].
  apply (sl_cons (lit "ret") (lit "bogus" ++ 10 :: lit "ret")); [vm_compute; intuition discriminate|].
  apply (sl_cons (lit "bogus") (lit "ret")); [vm_compute; intuition discriminate|].
  apply sl_last; [discriminate|vm_compute; intuition discriminate].
Qed.

(** ** C72: a debug build that does not panic does what a release build does *)
Theorem C72_line : forall s, line_parse Debug s <> PPanic -> line_parse Release s = line_parse Debug s.
Proof. exact top_C72_line. Qed.
Print Assumptions C72_line.
Theorem C72_read : forall a input, read_from Debug a input <> Crash -> read_from Release a input = read_from Debug a input.
Proof. exact top_C72_read. Qed.
Print Assumptions C72_read.
Theorem C72_write : forall h o, snd (macho_write_into Debug h o) = true -> macho_write_into Release h o = macho_write_into Debug h o.
Proof. exact top_C72_write. Qed.
Print Assumptions C72_write.
Theorem C72_load_command : forall e l x, read_load_command Debug e l = Ok x -> read_load_command Release e l = Ok x.
Proof. exact top_C72_load. Qed.
Print Assumptions C72_load_command.
Theorem C72_main : forall h args w, snd (main Debug h args w) <> Crash -> main Release h args w = main Debug h args w.
Proof. exact top_C72_main. Qed.
Print Assumptions C72_main.
Example C72_case : forall h,
  snd (main Debug h [lit "at-asm"; lit "a.s"] (ex_world ex_source [])) = Done tt /\
  line_parse Debug (lit "mov rax, 0x7FFFFFFFFFFFFFFF + 1") = PPanic /\
  (exists i, line_parse Release (lit "mov rax, 0x7FFFFFFFFFFFFFFF + 1") = POk (LInst i)) /\
  snd (main Debug h [lit "at-asm"; lit "a.s"] (ex_world (utf8 (lit "mov rax, 0x7FFFFFFFFFFFFFFF + 1")) [])) = Crash /\
  snd (main Release h [lit "at-asm"; lit "a.s"] (ex_world (utf8 (lit "mov rax, 0x7FFFFFFFFFFFFFFF + 1")) [])) = Done tt.
Proof. intros []; vm_compute; repeat split; try reflexivity; eexists; reflexivity. Qed.
