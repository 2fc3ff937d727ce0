(** What a panic message must say: which number of the input is named, and how. *)
From Coq Require String.
Import String.StringSyntax.
From Coq Require Import Sorting.Sorted.
From Verif Require Import Base Str SpecAsm SpecDiag Mac SpecMacho SpecMore Cli SpecCli SpecOs X64 SpecX86 SpecEnc Obj Asm Assembler SpecRun Says.

(** what is left without the messages *)
Definition forget {A} (m : say A) : res A := match m with Val a => Ok a | Dies _ => Panic end.
Definition sforget {A} (m : soutcome A) : outcome A := match m with SDone a => Done a | SExit c e => Exit c e | SCrash _ => Crash end.

(** hexadecimal without lower-case letters or superfluous zeros *)
Definition upper_hex (n : Z) (ds : str) : Prop :=
  numeral 16 ds n /\ match ds with c :: _ :: _ => c <> 48 | _ => True end /\ Forall (fun c => ~ 97 <= c <= 102) ds.

(** the numbers that no variant of an enumeration has *)
Definition unnumbered {A} (num : A -> Z) (n : Z) : Prop := forall a, num a <> n.

(** struct section_64 at [o]: the names are text, and the flags word has an unknown type or an
    unknown attribute; of several attributes the lowest is reported *)
Definition section_says (e : endian) (o : nat) (l : list Z) (m : str) : Prop :=
  (o + 68 <= length l)%nat /\ unicode (fld_name o 16 l) /\ unicode (fld_name (o + 16) 16 l) /\
  let f := fld e (o + 64) 4 l in
  (unnumbered section_type_num (f mod 256) /\ exists ds, upper_hex (f mod 256) ds /\ m = lit "Unsupported section type 0x" ++ ds) \/
  ((exists t, section_type_num t = f mod 256) /\
   exists i ds, 8 <= i < 32 /\ Z.testbit f i = true /\ unnumbered attr_bit i /\
     (forall j, 8 <= j < i -> Z.testbit f j = true -> exists a, attr_bit a = j) /\
     upper_hex (2 ^ i) ds /\ m = lit "Unsupported section attribute 0x" ++ ds).

(** LC_BUILD_VERSION and its tools *)
Definition build_version_says (e : endian) (o : nat) (l : list Z) (m : str) : Prop :=
  (o + 12 <= length l)%nat /\ fld e o 4 l = 0x32 /\ unnumbered platform_num (fld e (o + 8) 4 l) /\
  exists ds, decimal (fld e (o + 8) 4 l) ds /\ m = lit "Invalid platform number " ++ ds.
Definition build_tool_says (e : endian) (o : nat) (l : list Z) (m : str) : Prop :=
  (o + 4 <= length l)%nat /\ unnumbered tool_num (fld e o 4 l) /\
  exists ds, decimal (fld e o 4 l) ds /\ m = lit "Unsupported tool number " ++ ds.

(** a load command: of several records the first bad one is reported *)
Definition load_command_says (p : profile) (e : endian) (l : list Z) (m : str) : Prop :=
  (4 <= length l)%nat /\
  ((~ In (fld e 0 4 l) [0x19; 2; 0xb; 0x32] /\ m = lit "not implemented") \/
   (exists n xs, counts_sections p e l n /\ zlen xs < n /\
      list_at (fun o x => section_at e o l x /\ str_ok (sc_sectname x) /\ str_ok (sc_segname x) /\
         StronglySorted Z.lt (map attr_bit (sc_attrs x))) 80 72 xs /\
      section_says e (72 + 80 * length xs) l m) \/
   build_version_says e 0 l m \/
   (exists n xs, counts_tools p e l n /\ zlen xs < n /\ list_at (fun o x => build_tool_at e o l x) 8 24 xs /\
      build_tool_says e (24 + 8 * length xs) l m)).

(** struct nlist_64: the type without the external bits, the stab without its low bits *)
Definition nlist_says (e : endian) (o : nat) (l : list Z) (m : str) : Prop :=
  (o + 5 <= length l)%nat /\
  let b := fld e (o + 4) 1 l in
  (b < 32 /\ unnumbered n_type_num (2 * (b mod 16 / 2)) /\
   exists ds, decimal (2 * (b mod 16 / 2)) ds /\ m = lit "Invalid n_type number " ++ ds) \/
  (64 <= b /\ exists ds, decimal (32 * (b / 32)) ds /\ m = lit "Unsupported debug symbol " ++ ds).

(** the header, on a host of order [h]: fat files, and processors other than the x86 family *)
Definition header_says (h : endian) (l : list Z) (m : str) : Prop :=
  ((4 <= length l)%nat /\ In (fld h 0 4 l) [0xcafebabe; 0xbebafeca] /\ m = lit "not implemented") \/
  ((12 <= length l)%nat /\
   (exists e, In (fld e 0 4 l) [0xfeedfacf; 0xfeedface] /\ ~ In (fld e 4 4 l) [7; 0x01000007]) /\
   m = lit "Unsupported cpu type").

(** a source whose symbolic mov in .bss ends the process *)
Definition bss_reference (p : profile) (ls : list (list Z)) : Prop :=
  exists good bad rest pr x, ls = good ++ bad :: rest /\ passes p [] good pr /\ line_is p bad x /\
    last_sect SText pr = SBss /\ stmt_reloc (fst x) <> None /\ (p = Debug -> (zlen pr + 1) mod 2 ^ 32 <> 0).

(** a chain of builder calls, then `encode()` *)
Definition s_built (cs : list call) : say bam := sbind (quiet_res (calls_on enc_new cs)) s_encode.
(** a 64-bit immediate without REX.W, where the opcode, the immediates and the ModRM byte are fine;
    the length of the instruction does not matter *)
Definition encoder_says (cs : list call) (m : str) : Prop :=
  (forall i, In (SetOpcode i) cs -> (imm_len i <= 3)%nat) /\
  (forall i, In (SetImm i) cs -> (imm_len i <= 8)%nat) /\
  (forall r rm, the_modrm cs = Some (r, rm) ->
     match r with OpExt n => n <= 7 | _ => True end /\ match rm with ArgMem m => mem_scale_ok m | _ => True end) /\
  imm_len (the_imm cs) = 8%nat /\ w_flag cs = false /\
  m = lit "64bit immediate value is only valid on 64bit operand mode".

Example upper_hex_ex : upper_hex 0x1B (lit "1B") /\ ~ upper_hex 0x1B (lit "1b") /\ ~ upper_hex 0x1B (lit "01B").
Proof.
  split; [|split].
  - split; [|split; [discriminate|repeat constructor; intros [A B]; revert A B; cbn; lia]].
    apply (num_snoc 16 [49] 1 66 11); [apply num_one, (dig_09 16 1); lia|apply (dig_AF 16 11); lia].
  - intros (_ & _ & F). inversion F as [|? ? _ F']. inversion F' as [|? ? N _]. apply N. cbn. lia.
  - intros (_ & N & _). now apply N.
Qed.
