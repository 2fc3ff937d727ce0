(** The relocation types of Apple's mach-o/x86_64/reloc.h and mach-o/reloc.h, and the UTF-8 encoding form of
    the Unicode standard (D92, tables 3-6 and 3-7), independently of the codecs. *)
From Verif Require Import Base Str Mac.

(** X86_64_RELOC_* *)
Definition x86_64_codes : list (Z * x86_64_reloc) :=
  [ (0, RtUnsigned); (1, RtSigned); (2, RtBranch); (3, RtGotLoad); (4, RtGot); (5, RtSubtractor);
    (6, RtSigned1); (7, RtSigned2); (8, RtSigned4); (9, RtTlv) ].
(** GENERIC_RELOC_* *)
Definition x86_codes : list (Z * x86_reloc) :=
  [ (0, RtVanilla); (1, RtPair); (2, RtSectdiff); (3, RtPbLaPtr); (4, RtLocalSectdiff); (5, RtTlv32) ].

(** one scalar value and its bytes: the shortest form, no surrogates, at most 0x10FFFF *)
Inductive encodes : Z -> list Z -> Prop :=
| enc1 : forall c, 0 <= c < 0x80 -> encodes c [c]
| enc2 : forall c y x, 0 <= x < 64 -> c = 64 * y + x -> 0x80 <= c < 0x800 -> encodes c [192 + y; 128 + x]
| enc3 : forall c z y x, 0 <= x < 64 -> 0 <= y < 64 -> c = 4096 * z + 64 * y + x ->
    0x800 <= c < 0x10000 -> ~ 0xD800 <= c < 0xE000 -> encodes c [224 + z; 128 + y; 128 + x]
| enc4 : forall c u z y x, 0 <= x < 64 -> 0 <= y < 64 -> 0 <= z < 64 -> c = 262144 * u + 4096 * z + 64 * y + x ->
    0x10000 <= c < 0x110000 -> encodes c [240 + u; 128 + z; 128 + y; 128 + x].
(** [bs] is the UTF-8 text of the scalar values [s] *)
Definition utf8_text (s : str) (bs : list Z) : Prop :=
  exists bss, Forall2 encodes s bss /\ bs = concat bss.
