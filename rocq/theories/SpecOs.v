(** Arguments as bytes, and the room a reader may ask for. *)
From Verif Require Import Base Str Mac SpecMacho SpecMore Cli SpecCli.

(** an argument that is text *)
Definition unicode (a : list Z) : Prop := exists s, utf8_text s a.

(** the input starts with a whole LC_SEGMENT_64 or LC_BUILD_VERSION, records not included, that
    counts [n] records *)
Definition counts_sections (p : profile) (e : endian) (l : list Z) (n : Z) : Prop :=
  exists x, segment_at e 0 l x /\ str_ok (sg_segname x) /\ sg_cmd x = 0x19 /\ sg_nsects x = n /\
    cmdsize_ok p 72 80 n (sg_cmdsize x).
Definition counts_tools (p : profile) (e : endian) (l : list Z) (n : Z) : Prop :=
  exists x, build_version_at e 0 l x /\ version_rng (bv_minos x) /\ version_rng (bv_sdk x) /\ bv_cmd x = 0x32 /\
    bv_ntools x = n /\ cmdsize_ok p 24 8 n (bv_cmdsize x).
