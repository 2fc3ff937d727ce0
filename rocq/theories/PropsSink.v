(** Property theorems for files that fail while they are read or written: C80. *)
From Coq Require String.
Import String.StringSyntax.
From Verif Require Import Base Str X64 Mac Obj Asm SpecAsm Assembler Cli Sink PropsAsm PfSink.

(** ** C80: when a file fails, the command fails, and it never leaves anything but the beginning of the right file *)

(** a writer on any sink: the calls of its parts, one after the other, up to the first that fails *)
Theorem C80_pieces : forall a b bs st st' ok,
  (on_sink (wemit bs) st st' ok <-> write_all st bs st' ok) /\
  (on_sink wpanic st st' ok <-> st' = st /\ ok = false) /\
  (on_sink (a >>> b) st st' ok <->
    on_sink a st st' false /\ ok = false \/ exists st1, on_sink a st st1 true /\ on_sink b st1 st' ok).
Proof. intros. exact (conj (top_C80_emit _ _ _ _) (conj (top_C80_panic _ _ _) (top_C80_seq _ _ _ _ _))). Qed.
Print Assumptions C80_pieces.

Theorem C80_sink : forall w st' ok, on_sink w [] st' ok <-> exists limit, write_io limit w = (st', ok).
Proof. exact top_C80_limit. Qed.
Print Assumptions C80_sink.

Theorem C80_success : forall p h args w inl outl, snd (main_io p h args w inl outl) = Done tt <->
  snd (main p h args w) = Done tt /\ inl = None /\
  forall k cf o bs, outl = Some k -> config_init args = Done cf -> w_slot w (cf_output cf) = Some o ->
    w_data (fst (main p h args w)) o = Some bs -> (length bs <= k)%nat.
Proof. exact top_C80_success. Qed.
Print Assumptions C80_success.

Theorem C80_same : forall p h args w inl outl,
  snd (main_io p h args w inl outl) <> Crash -> main_io p h args w inl outl = main p h args w.
Proof. exact top_C80_same. Qed.
Print Assumptions C80_same.

Theorem C80_prefix : forall p h args w inl outl s, match w_data (fst (main_io p h args w inl outl)) s with
  | None => w_data (fst (main p h args w)) s = None
  | Some bs' => exists z, w_data (fst (main p h args w)) s = Some (bs' ++ z)
  end.
Proof. exact top_C80_prefix. Qed.
Print Assumptions C80_prefix.

Example C80_case_sink : let w := wemit [1; 2] >>> wemit [3; 4; 5] in
  on_sink w [] [1; 2; 3] false /\ on_sink w [] [1; 2; 3; 4; 5] true /\ ~ on_sink w [] [1; 2; 3] true /\ ~ on_sink w [] [1; 3] false.
Proof.
  cbv zeta. rewrite !top_C80_limit. split; [exists (Some 3%nat); reflexivity|]. split; [exists None; reflexivity|].
  split; intros ([[|[|[|[|[|k]]]]]|] & E); cbn in E; discriminate E.
Qed.
Example C80_case : forall p h, let args := [lit "at-asm"; lit "a.s"] in let w := ex_world ex_source [] in
  let full := match w_data (fst (main p h args w)) 2 with Some bs => bs | None => [] end in
  length full = 401%nat /\ snd (main_io p h args w None (Some 401%nat)) = Done tt /\
  (let r := main_io p h args w None (Some 400%nat) in snd r = Crash /\ w_data (fst r) 2 = Some (firstn 400 full)) /\
  (let r := main_io p h args w (Some 20%nat) None in snd r = Crash /\ w_data (fst r) 2 = Some []) /\
  (let w' := ex_world (lit "bogus" ++ [10] ++ lit "ret") [] in main_io p h args w' (Some 7%nat) None = main p h args w' /\
     status (snd (main p h args w')) = 1 /\ snd (main_io p h args w' (Some 5%nat) None) = Crash).
Proof. intros p h. cbv zeta. destruct p, h; vm_compute; repeat split; reflexivity. Qed.
