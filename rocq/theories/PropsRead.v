(** Property theorems for reading load commands and writing them again: C85, C86. *)
From Coq Require Import Sorting.Sorted.
From Coq Require String.
Import String.StringSyntax.
From Verif Require Import Base Str Mac SpecMacho SpecRead PfRead.

(** ** C85: load commands are read exactly as laid out *)

(** a command is returned iff it stands at the front in the documented layout, with one of the four
    command numbers and the size and counts that belong together; the rest of the input is left *)
Theorem C85_read : forall p e l c r, bytes_ok l ->
  (read_load_command p e l = Ok (c, r) <-> lc_at e 0 l c /\ lc_accepted p c /\ r = skipn (lc_len c) l).
Proof. exact top_C85_read. Qed.
Print Assumptions C85_read.

(** every other command number is refused, whatever follows *)
Theorem C85_unknown : forall p e l, bytes_ok l -> ~ In (fld e 0 4 l) [0x19; 2; 0xB; 0x32] -> read_load_command p e l = Panic.
Proof. exact top_C85_unknown. Qed.
Print Assumptions C85_unknown.

(** and so for any number of commands one after the other *)
Theorem C85_commands : forall p e l cs r, bytes_ok l ->
  (read_many (length cs) (read_load_command p e) l = Ok (cs, r) <-> exists o, lcs_at p e l 0 cs o /\ r = skipn o l).
Proof. exact top_C85_many. Qed.
Print Assumptions C85_commands.

(** ** C86: a command that was read is written back as it was *)

(** writing succeeds iff the names are ASCII, and then gives the bytes with everything after the
    first NUL of a name zeroed; otherwise it stops in front of the first name that is not ASCII *)
Theorem C86_exact : forall p e l c r, bytes_ok l -> read_load_command p e l = Ok (c, r) ->
  (snd (write_load_command e c) = true <-> (forall o, In o (name_fields c) -> ascii_field (slice o 16 l))) /\
  (snd (write_load_command e c) = true -> fst (write_load_command e c) = lc_again c l) /\
  (snd (write_load_command e c) = false ->
   exists o, In o (name_fields c) /\ ~ ascii_field (slice o 16 l) /\
     (forall o', In o' (name_fields c) -> (o' < o)%nat -> ascii_field (slice o' 16 l)) /\
     fst (write_load_command e c) = firstn o (lc_again c l)).
Proof. exact top_C86_exact. Qed.
Print Assumptions C86_exact.

(** full statement: [write_load_command e c = (firstn (lc_len c) l, true)] whenever [c] was read
    from [l]. Missing: names that are not ASCII or not padded with zeros; for those it is false *)
Theorem C86_rewrite_partial : forall p e l c r, bytes_ok l -> read_load_command p e l = Ok (c, r) ->
  (write_load_command e c = (firstn (lc_len c) l, true) <->
   (forall o, In o (name_fields c) -> ascii_field (slice o 16 l) /\
      forall i j, (i < j < 16)%nat -> nth_error l (o + i) = Some 0 -> nth_error l (o + j) = Some 0)).
Proof. exact top_C86_same. Qed.
Print Assumptions C86_rewrite_partial.

(** ** Examples *)
Lemma bytes_dec l : forallb (fun b => (0 <=? b) && (b <? 256)) l = true -> bytes_ok l.
Proof. intro H. apply Forall_forall. intros b I. rewrite forallb_forall in H. specialize (H b I). unfold isbyte. lia. Qed.
Ltac bytes_tac := apply bytes_dec; vm_compute; reflexivity.
Definition pad16 (n : list Z) : list Z := n ++ repeat 0 (16 - length n).
(** a segment with one section, names as given *)
Definition seg1 (n1 n2 n3 : list Z) : list Z :=
  [0x19; 0; 0; 0; 152; 0; 0; 0] ++ pad16 n1 ++ repeat 1 32 ++ [7; 0; 0; 0; 3; 0; 0; 0; 1; 0; 0; 0; 0; 0; 0; 0] ++
  pad16 n2 ++ pad16 n3 ++ repeat 2 32 ++ [0; 4; 0; 0x80] ++ repeat 0 12.
(** [abc]; [a], NUL, [b]; and e acute (two bytes of UTF-8) *)
Definition abc : list Z := [97; 98; 99].
Definition a_b : list Z := [97; 0; 98].
Definition e_acute : list Z := [0xC3; 0xA9].
Definition again (l : list Z) : res wr :=
  match read_load_command Debug Little l with Ok (c, _) => Ok (write_load_command Little c) | Panic => Panic end.
Example C86_ex_same : again (seg1 abc abc abc ++ [5]) = Ok (seg1 abc abc abc, true).
Proof. vm_compute. reflexivity. Qed.
Example C86_ex_tail : again (seg1 a_b abc a_b) = Ok (seg1 [97] abc [97], true).
Proof. vm_compute. reflexivity. Qed.
Example C86_ex_stop : again (seg1 abc a_b e_acute) = Ok (firstn 88 (seg1 abc [97] []), false).
Proof. vm_compute. reflexivity. Qed.
(** the next command of the input is not touched, and a size that does not fit the counts is refused *)
Definition tab_bytes : list Z := [2; 0; 0; 0; 24; 0; 0; 0; 1; 0; 0; 0; 2; 0; 0; 0; 3; 0; 0; 0; 4; 0; 0; 0].
Definition tab : symtab := Build_symtab 2 24 1 2 3 4.
Example C85_ex_read : read_load_command Debug Little (tab_bytes ++ [9]) = Ok (LcSymtab tab, [9]).
Proof. vm_compute. reflexivity. Qed.
Example C85_ex_size : read_load_command Debug Little ([2; 0; 0; 0; 25] ++ skipn 5 tab_bytes) = Panic.
Proof. vm_compute. reflexivity. Qed.
Example C85_ex_many : exists c, read_many 3 (read_load_command Release Little) (tab_bytes ++ seg1 abc a_b abc ++ tab_bytes ++ [9]) =
  Ok ([LcSymtab tab; c; LcSymtab tab], [9]) /\ lc_len c = 152%nat.
Proof. eexists. split; [vm_compute; reflexivity|reflexivity]. Qed.
(** 0x1B is LC_UUID *)
Example C85_ex_unknown : read_load_command Release Little ([0x1B; 0; 0; 0; 24] ++ skipn 5 tab_bytes) = Panic.
Proof. apply C85_unknown; [bytes_tac|vm_compute; intuition discriminate]. Qed.

Theorem C86_refuted : exists l c r, bytes_ok l /\ read_load_command Debug Little l = Ok (c, r) /\
  write_load_command Little c <> (firstn (lc_len c) l, true).
Proof.
  exists (seg1 a_b abc abc). eexists. eexists. split; [bytes_tac|]. split; [vm_compute; reflexivity|]. vm_compute. discriminate.
Qed.
Print Assumptions C86_refuted.
Theorem C86_refuted_panic : exists l c r, bytes_ok l /\ read_load_command Debug Little l = Ok (c, r) /\ snd (write_load_command Little c) = false.
Proof.
  exists (seg1 abc abc e_acute). eexists. eexists. split; [bytes_tac|]. split; [vm_compute; reflexivity|]. vm_compute. reflexivity.
Qed.
Print Assumptions C86_refuted_panic.
