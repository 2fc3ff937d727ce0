(** Property theorems for linking several files: C83, C84. *)
From Coq Require String.
Import String.StringSyntax.
From Verif Require Import Base Str X64 SpecX86 Mac SpecMacho Obj SpecObj Asm SpecAsm Assembler SpecRun SpecLink SpecNet
  PropsObj PropsAsm PropsLink PfNet.

(** ** C83: written objects link with each other *)

(** every reference gets the value of what it names, in its own object or in the others *)
Theorem C83_linked : forall h os fs, Forall2 (written_as h) os fs ->
  forall i o loc m k a s, nth_error os i = Some (o, loc) -> nth_error (placed o) m = Some (k, a, s) ->
  forall bs, link_in h fs i (Z.of_nat k) = Some bs <->
    filled (meaning o loc (exported_by os)) (os_rels s) (contents s) bs.
Proof. exact top_C83. Qed.
Print Assumptions C83_linked.

(** exactly the external definitions are seen from outside *)
Theorem C83_names : forall h os fs n, Forall2 (written_as h) os fs -> global_def h fs n = exported_by os n.
Proof. exact top_C83_names. Qed.
Print Assumptions C83_names.

(** a section links iff its references name something, are absolute and lie inside it *)
Theorem C83_linkable : forall h os fs, Forall2 (written_as h) os fs ->
  forall i o loc m k a s, nth_error os i = Some (o, loc) -> nth_error (placed o) m = Some (k, a, s) ->
  (link_in h fs i (Z.of_nat k) <> None <->
   Forall (fun r => meaning o loc (exported_by os) (rl_symbol r) <> None /\ rl_pcrel r = false /\
                    0 <= rl_addr r /\ rl_addr r + 2 ^ rl_len r <= os_size s) (os_rels s)).
Proof. exact top_C83_linkable. Qed.
Print Assumptions C83_linkable.

(** the order of the files does not matter, unless they define a name differently *)
Theorem C83_order : forall h os fs os' fs', Forall2 (written_as h) os fs -> Forall2 (written_as h) os' fs' ->
  (forall x, In x os <-> In x os') ->
  (forall n x y v w, In x os -> In y os -> exported (fst x) (snd x) n = Some v -> exported (fst y) (snd y) n = Some w -> v = w) ->
  forall i i' o loc m k a s, nth_error os i = Some (o, loc) -> nth_error os' i' = Some (o, loc) -> nth_error (placed o) m = Some (k, a, s) ->
  link_in h fs i (Z.of_nat k) = link_in h fs' i' (Z.of_nat k).
Proof. exact top_C83_order. Qed.
Print Assumptions C83_order.

(** an assembled file among others: its global labels are seen, and it links as it does alone *)
Theorem C83_assembled : forall p h ins a pr f loc,
  Forall bytes_ok ins -> Forall (fun i => ~ In 0 i) ins -> session p ins a -> sources_are p ins pr ->
  fits (object_of pr) -> zlen (syms (object_of pr)) <= 2 ^ 24 -> asm_write_into p h a = (f, true) ->
  written_as h (object_of pr, loc) (f, loc) /\
  (forall n, exported (object_of pr) loc n = if is_global pr n then label_addr loc pr n else None) /\
  forall fs i k, nth_error fs i = Some (f, loc) -> link_in h fs i k = link h f loc k.
Proof. exact top_C83_assembled. Qed.
Print Assumptions C83_assembled.

(** `mov rax, f` and `mov ecx, size`, with `f` defined elsewhere and `size` an absolute number;
    a pointer to `_main` in the data *)
Definition net_a : object :=
  {| o_text := {| bs_bytes := [0x48; 0xB8; 2; 0; 0; 0; 0; 0; 0; 0; 0xB9; 0; 0; 0; 0];
                  bs_symbols := [SyRef (lit "_main") 0 true; SyUndef (lit "f"); SyUndef (lit "size")];
                  bs_relocs := [ {| rl_addr := 2; rl_symbol := lit "f"; rl_pcrel := false; rl_len := 3 |};
                                 {| rl_addr := 11; rl_symbol := lit "size"; rl_pcrel := false; rl_len := 2 |} ] |};
     o_data := {| bs_bytes := [0; 0; 0; 0; 0; 0; 0; 0]; bs_symbols := [];
                  bs_relocs := [ {| rl_addr := 0; rl_symbol := lit "_main"; rl_pcrel := false; rl_len := 3 |} ] |};
     o_bss := bss_new |}.
(** `f` one byte into the text, a private `_main`, `size`, and two bytes of zeros *)
Definition net_b : object :=
  {| o_text := {| bs_bytes := [0x90; 0xC3];
                  bs_symbols := [SyRef (lit "_main") 0 false; SyRef (lit "f") 1 true; SyAbs (lit "size") 0x1234 true];
                  bs_relocs := [] |};
     o_data := bsection_new;
     o_bss := {| bss_size := 2; bss_symbols := [SyRef (lit "buf") 0 true] |} |}.
Definition net_loc_a (k : Z) : Z := if k =? 1 then 0x1000 else 0x2000.
Definition net_loc_b (k : Z) : Z := if k =? 1 then 0x1010 else 0x3000.
Definition net_objs : list (object * (Z -> Z)) := [(net_a, net_loc_a); (net_b, net_loc_b)].
Definition net_files (p : profile) (h : endian) : list (list Z * (Z -> Z)) :=
  map (fun x => (fst (macho_write_into p h (fst x)), snd x)) net_objs.
Lemma written_true (x : wr) : snd x = true -> x = (fst x, true).
Proof. destruct x as [f b]. cbn [fst snd]. now intros ->. Qed.
Lemma net_a_ok : object_rng net_a /\ fits net_a /\ clean_names net_a /\ zlen (syms net_a) <= 2 ^ 24.
Proof. concrete. Qed.
Lemma net_b_ok : object_rng net_b /\ fits net_b /\ clean_names net_b /\ zlen (syms net_b) <= 2 ^ 24.
Proof. concrete. Qed.
Lemma as_written p h o loc : object_rng o /\ fits o /\ clean_names o /\ zlen (syms o) <= 2 ^ 24 ->
  snd (macho_write_into p h o) = true -> written_as h (o, loc) (fst (macho_write_into p h o), loc).
Proof.
  intros (R & F & C & L) W. unfold written_as. cbn [fst snd]. repeat (split; [assumption|]). split; [reflexivity|].
  exists p. now apply written_true.
Qed.
Lemma net_written p h : Forall2 (written_as h) net_objs (net_files p h).
Proof.
  constructor; [|constructor; [|constructor]]; apply as_written.
  - exact net_a_ok.
  - destruct p, h; vm_compute; reflexivity.
  - exact net_b_ok.
  - destruct p, h; vm_compute; reflexivity.
Qed.
Example C83_case : forall p h, Forall2 (written_as h) net_objs (net_files p h) /\
  link_in h (net_files p h) 0 1 = Some [0x48; 0xB8; 0x13; 0x10; 0; 0; 0; 0; 0; 0; 0xB9; 0x34; 0x12; 0; 0] /\
  link_in h (net_files p h) 0 2 = Some [0; 0x10; 0; 0; 0; 0; 0; 0] /\
  link_in h (net_files p h) 1 1 = Some [0x90; 0xC3] /\ link_in h (net_files p h) 1 2 = Some [0; 0] /\
  link_in h [nth 0 (net_files p h) ([], net_loc_a)] 0 1 = None /\
  global_def h (net_files p h) (lit "_main") = Some 0x1000 /\ global_def h (rev (net_files p h)) (lit "_main") = Some 0x1000 /\
  global_def h (net_files p h) (lit "buf") = Some 0x3000.
Proof. intros p h. split; [apply net_written|]. destruct p, h; vm_compute; repeat split; reflexivity. Qed.
(** the object refers to `start` of the assembled [ex_source] *)
Definition net_c : object :=
  {| o_text := {| bs_bytes := [0x48; 0xB8; 0; 0; 0; 0; 0; 0; 0; 0];
                  bs_symbols := [SyUndef (lit "start")];
                  bs_relocs := [ {| rl_addr := 2; rl_symbol := lit "start"; rl_pcrel := false; rl_len := 3 |} ] |};
     o_data := bsection_new; o_bss := bss_new |}.
Example C83_case_assembled : forall p h, let fs := [(fst (macho_write_into p h net_c), net_loc_b); (PropsLink.ex_file p h, ex_loc)] in
  link_in h fs 0 1 = Some [0x48; 0xB8; 0; 0x10; 0; 0; 0; 0; 0; 0] /\
  link_in h fs 1 1 = Some [0x48; 0xBE; 0x04; 0x20; 0; 0; 0; 0; 0; 0; 0x6A; 5; 0xC3].
Proof. intros p h. destruct p, h; vm_compute; repeat split; reflexivity. Qed.

(** ** C84: PC-relative references link - refuted: they are written with the type for absolute ones *)

(** `call f`; the reference is resolved and inside the section, and the file is written *)
Definition net_call : object :=
  {| o_text := {| bs_bytes := [0xE8; 0; 0; 0; 0; 0xC3]; bs_symbols := [SyRef (lit "f") 5 true];
                  bs_relocs := [ {| rl_addr := 1; rl_symbol := lit "f"; rl_pcrel := true; rl_len := 2 |} ] |};
     o_data := bsection_new; o_bss := bss_new |}.
Lemma net_call_ok : object_rng net_call /\ fits net_call /\ clean_names net_call /\ zlen (syms net_call) <= 2 ^ 24.
Proof. concrete. Qed.
Theorem C84_refuted : forall p h, exists o f loc r,
  written_as h (o, loc) (f, loc) /\ macho_write_into p h o = (f, true) /\
  os_rels (text_sec o) = [r] /\ rl_pcrel r = true /\ rl_len r = 2 /\ 0 <= rl_addr r /\ rl_addr r + 4 <= os_size (text_sec o) /\
  meaning o loc (exported_by [(o, loc)]) (rl_symbol r) <> None /\
  link_in h [(f, loc)] 0 1 = None /\
  exists a j, reloc_at h a f {| r_address := rl_addr r; r_symbolnum := j; r_pcrel := true; r_length := LenLong; r_extern := true;
                                r_type := x86_64_reloc_to_u8 RtUnsigned |}.
Proof.
  intros p h. exists net_call, (fst (macho_write_into p h net_call)), net_loc_a,
    {| rl_addr := 1; rl_symbol := lit "f"; rl_pcrel := true; rl_len := 2 |}.
  assert (W : macho_write_into p h net_call = (fst (macho_write_into p h net_call), true)).
  { apply written_true. destruct p, h; vm_compute; reflexivity. }
  split; [|split; [exact W|]].
  { apply as_written; [exact net_call_ok|now rewrite W]. }
  split; [reflexivity|]. split; [reflexivity|]. split; [reflexivity|]. split; [vm_compute; discriminate|]. split; [vm_compute; discriminate|].
  split; [vm_compute; discriminate|]. split; [destruct p, h; vm_compute; reflexivity|].
  exists (pos_rels net_call), 0. unfold reloc_at. destruct p, h; (split; [apply Nat.leb_le; vm_compute; reflexivity|]); split; vm_compute; reflexivity.
Qed.
Print Assumptions C84_refuted.

(** none does, whatever it refers to *)
Theorem C84_never : forall h os fs, Forall2 (written_as h) os fs ->
  forall i o loc m k a s r, nth_error os i = Some (o, loc) -> nth_error (placed o) m = Some (k, a, s) ->
  In r (os_rels s) -> rl_pcrel r = true -> link_in h fs i (Z.of_nat k) = None.
Proof. exact top_C84_never. Qed.
Print Assumptions C84_never.

(** what is missing is only the type: without PC-relative references the section links *)
Theorem C84_link_partial : forall h os fs, Forall2 (written_as h) os fs ->
  forall i o loc m k a s, nth_error os i = Some (o, loc) -> nth_error (placed o) m = Some (k, a, s) ->
  Forall (fun r => meaning o loc (exported_by os) (rl_symbol r) <> None /\ 0 <= rl_addr r /\ rl_addr r + 2 ^ rl_len r <= os_size s) (os_rels s) ->
  (link_in h fs i (Z.of_nat k) <> None <-> Forall (fun r => rl_pcrel r = false) (os_rels s)).
Proof. exact top_C84_partial. Qed.
Print Assumptions C84_link_partial.
Example C84_case : forall p h, let f := fst (macho_write_into p h net_call) in
  let o' := {| o_text := {| bs_bytes := bs_bytes (o_text net_call); bs_symbols := bs_symbols (o_text net_call);
                            bs_relocs := [ {| rl_addr := 1; rl_symbol := lit "f"; rl_pcrel := false; rl_len := 2 |} ] |};
               o_data := bsection_new; o_bss := bss_new |} in
  link_in h [(f, net_loc_a)] 0 1 = None /\
  link_in h [(fst (macho_write_into p h o'), net_loc_a)] 0 1 = Some [0xE8; 5; 0x10; 0; 0; 0xC3].
Proof. intros p h. destruct p, h; vm_compute; repeat split; reflexivity. Qed.
