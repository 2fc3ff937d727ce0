(** Proofs for C95. *)
From Coq Require Import ZifyBool ZifyNat.
From Verif Require Import Base Str X64 Mac Obj Asm SpecAsm Assembler Cli Sink Chunk SpecChunk PfStr PfTok PfAsm PfTop PfOs.

(** ** at-mac *)
Definition fin (more : list answer) : Prop := more = [] \/ exists m, more = Got [] :: m \/ more = Failed :: m.
Lemma exact_same_aux s l more : pieces s l -> fin more -> forall n,
  match read_exact n l with
  | Ok (a, l') => exists src', c_exact n (s ++ more) = Ok (a, src') /\ delivers src' l'
  | Panic => c_exact n (s ++ more) = Panic
  end.
Proof.
  intros P F. unfold c_exact, read_exact. induction P as [|b bs src l P IH|src l P IH]; intros n.
  - destruct n as [|n]; cbn [length Nat.leb firstn skipn app].
    + exists more. split; [destruct more; reflexivity|]. exists [], more. repeat split; [constructor|exact F].
    + destruct F as [->|(m & [->| ->])]; reflexivity.
  - destruct n as [|n].
    { exists (Got (b :: bs) :: src ++ more). split; [reflexivity|]. exists (Got (b :: bs) :: src), more. repeat split; [now constructor|exact F]. }
    change ((Got (b :: bs) :: src) ++ more) with (Got (b :: bs) :: src ++ more). cbn [c_exact_from].
    change (b :: bs ++ l) with ((b :: bs) ++ l). set (x := b :: bs) in *. assert (L : (0 < length x)%nat) by (cbn; lia).
    rewrite app_length. destruct (Nat.ltb_spec (S n) (length x)) as [G|G].
    + destruct (Nat.leb_spec (S n) (length x + length l)); [|lia]. rewrite firstn_app, skipn_app.
      replace (S n - length x)%nat with O by lia. cbn [firstn]. change (skipn 0 l) with l. rewrite app_nil_r.
      exists (Got (skipn (S n) x) :: src ++ more). split; [reflexivity|].
      assert (K : (0 < length (skipn (S n) x))%nat) by (rewrite skipn_length; lia). destruct (skipn (S n) x) as [|b' bs'] eqn:Y; [cbn in K; lia|].
      exists (Got (b' :: bs') :: src), more. repeat split; [constructor; exact P|exact F].
    + specialize (IH (S n - length x)%nat). destruct (Nat.leb_spec (S n - length x) (length l)) as [H|H].
      * destruct (Nat.leb_spec (S n) (length x + length l)); [|lia]. destruct IH as (src' & -> & D). exists src'.
        rewrite firstn_app, skipn_app, (firstn_all2 (n := S n) x), (skipn_all2 (n := S n) x) by lia. now split.
      * destruct (Nat.leb_spec (S n) (length x + length l)); [lia|]. now rewrite IH.
  - specialize (IH n). destruct n as [|n].
    + exists (Interrupted :: src ++ more). split; [reflexivity|]. cbn [Nat.leb firstn skipn] in *. exists (Interrupted :: src), more. repeat split; [now constructor|exact F].
    + exact IH.
Qed.
Lemma exact_same n : same (read_exact n) (c_exact n).
Proof. intros src l (s & more & P & -> & F). now apply exact_same_aux. Qed.
Lemma ret_same {A} (a : A) : same (rret a) (cret a).
Proof. intros src l D. exists src. now split. Qed.
Lemma lift_same {A} (m : res A) : same (rlift m) (clift m).
Proof. intros src l D. unfold rlift, clift. destruct m; [|reflexivity]. exists src. now split. Qed.
Lemma bind_same {A B} (m : reader A) c (k : A -> reader B) d : same m c -> (forall a, same (k a) (d a)) -> same (rbind m k) (cbind c d).
Proof.
  intros M K src l D. specialize (M src l D). unfold rbind, cbind. destruct (m l) as [[a l']|]; [|now rewrite M].
  destruct M as (src' & -> & D'). now apply K.
Qed.
Lemma many_same {A} n (m : reader A) c : same m c -> same (read_many n m) (c_many n c).
Proof.
  intros M. induction n as [|n IH]; cbn [read_many c_many]; [apply ret_same|]. apply bind_same; [exact M|]. intros a. apply bind_same; [exact IH|]. intros l. apply ret_same.
Qed.
Lemma uint_same n e : same (read_uint n e) (c_uint n e).
Proof. apply bind_same; [apply exact_same|]. intros bs. apply ret_same. Qed.
Lemma i32_same e : same (read_i32 e) (c_i32 e).
Proof. apply bind_same; [apply uint_same|]. intros bs. apply ret_same. Qed.
Lemma name_same n : same (read_fixed_size_string n) (c_fixed_size_string n).
Proof. apply bind_same; [apply exact_same|]. intros bs. apply lift_same. Qed.
Ltac step := first [ apply ret_same | apply lift_same | apply i32_same | apply name_same | apply (uint_same 4) | apply (uint_same 8) | apply (uint_same 2) | apply (uint_same 1) ].
Ltac steps := repeat first [ step | apply bind_same; [step|intros ?] ].
Lemma header_same h : same (read_header64 h) (c_header64 h).
Proof. unfold read_header64, c_header64. steps. Qed.
Lemma segment_same p e : same (read_segment64 p e) (c_segment64 p e).
Proof. unfold read_segment64, c_segment64. steps. Qed.
Lemma section_same e : same (read_section64 e) (c_section64 e).
Proof. unfold read_section64, c_section64. steps. Qed.
Lemma symtab_same e : same (read_symtab e) (c_symtab e).
Proof. unfold read_symtab, c_symtab. steps. Qed.
Lemma dysymtab_same e : same (read_dysymtab e) (c_dysymtab e).
Proof. unfold read_dysymtab, c_dysymtab. steps. Qed.
Lemma build_version_same p e : same (read_build_version p e) (c_build_version p e).
Proof. unfold read_build_version, c_build_version. steps. Qed.
Lemma build_tool_same e : same (read_build_tool e) (c_build_tool e).
Proof. unfold read_build_tool, c_build_tool. steps. Qed.
Lemma nlist_same e : same (read_nlist64 e) (c_nlist64 e).
Proof. unfold read_nlist64, c_nlist64. steps. Qed.
Lemma reloc_same e : same (read_reloc_info e) (c_reloc_info e).
Proof. unfold read_reloc_info, c_reloc_info. apply bind_same; [step|intros ?]. apply bind_same; [step|intros ?]. destruct e; steps. Qed.
Lemma load_command_same p e : same (read_load_command p e) (c_load_command p e).
Proof.
  intros src l D. unfold read_load_command, c_load_command. pose proof (uint_same 4 e src l D) as U. unfold read_u32, c_u32.
  destruct (read_uint 4 e l) as [[cmd l']|]; [|now rewrite U]. destruct U as (src' & -> & D').
  assert (D2 : delivers (Got (bytes_of e 4 cmd) :: src') (bytes_of e 4 cmd ++ l')).
  { destruct D' as (s & more & P & -> & F). assert (L : length (bytes_of e 4 cmd) = 4%nat) by (destruct e; reflexivity).
    destruct (bytes_of e 4 cmd) as [|b bs]; [discriminate|]. exists (Got (b :: bs) :: s), more. repeat split; [now constructor|exact F]. }
  cbv zeta. destruct (cmd =? SEGMENT_TYPE).
  { refine (bind_same _ _ _ _ (segment_same p e) _ _ _ D2). intros c. apply bind_same; [apply many_same, section_same|]. intros ss. apply ret_same. }
  destruct (cmd =? SYMTAB_TYPE). { refine (bind_same _ _ _ _ (symtab_same e) _ _ _ D2). intros c. apply ret_same. }
  destruct (cmd =? DYSYMTAB_TYPE). { refine (bind_same _ _ _ _ (dysymtab_same e) _ _ _ D2). intros c. apply ret_same. }
  destruct (cmd =? BUILD_VERSION_TYPE).
  { refine (bind_same _ _ _ _ (build_version_same p e) _ _ _ D2). intros c. apply bind_same; [apply many_same, build_tool_same|]. intros ss. apply ret_same. }
  exact (lift_same Panic _ _ D2).
Qed.

(** ** at-asm *)
Lemma cut_app b : forall x y, cut b = Some (x, y) -> b = x ++ y /\ x <> [] /\ forall l, cut (b ++ l) = Some (x, y ++ l).
Proof.
  induction b as [|c b IH]; intros x y; cbn [cut]; [discriminate|]. destruct (c =? 10) eqn:E.
  - intros H. injection H as <- <-. repeat split; [discriminate|]. intros l. cbn [app cut]. now rewrite E.
  - destruct (cut b) as [[x' y']|]; [|discriminate]. intros H. injection H as <- <-. destruct (IH _ _ eq_refl) as (-> & _ & G).
    repeat split; [discriminate|]. intros l. cbn [app cut]. rewrite E. now rewrite G.
Qed.
Lemma cut_none b l : cut b = None -> cut (b ++ l) = match cut l with Some (x, y) => Some (b ++ x, y) | None => None end.
Proof.
  induction b as [|c b IH]; cbn [app cut]; [now destruct (cut l) as [[]|]|]. destruct (c =? 10); [discriminate|].
  destruct (cut b) as [[]|]; [discriminate|]. intros _. rewrite IH by reflexivity. now destruct (cut l) as [[]|].
Qed.
Lemma raw_cut l : raw_lines l = match cut l with Some (x, y) => x :: raw_lines y | None => match l with [] => [] | _ => [l] end end.
Proof.
  induction l as [|b l IH]; [reflexivity|]. cbn [raw_lines cut]. destruct (b =? 10); [reflexivity|]. rewrite IH.
  destruct (cut l) as [[x y]|]; [reflexivity|]. now destruct l.
Qed.
Lemma until_pieces s bs more : pieces s bs -> forall acc buf,
  match cut (buf ++ bs) with
  | Some (x, rest) => exists buf' s' bs', read_until acc buf (s ++ more) = (Some (acc ++ x), (buf', s' ++ more)) /\ pieces s' bs' /\ rest = buf' ++ bs'
  | None => read_until acc buf (s ++ more) = read_until (acc ++ buf ++ bs) [] more
  end.
Proof.
  induction 1 as [|b x src l P IH|src l P IH]; intros acc buf.
  - rewrite app_nil_r. cbn [app]. destruct (cut buf) as [[x rest]|] eqn:C.
    + exists rest, [], []. cbn [app]. split; [|split; [constructor|now rewrite app_nil_r]]. destruct more; cbn [read_until]; rewrite C; reflexivity.
    + destruct more as [|[[|b bs]| |] more]; cbn [read_until cut]; rewrite C, ?app_nil_r; reflexivity.
  - change (b :: x ++ l) with ((b :: x) ++ l). change ((Got (b :: x) :: src) ++ more) with (Got (b :: x) :: src ++ more).
    cbn [read_until]. destruct (cut buf) as [[y rest]|] eqn:C.
    + destruct (cut_app _ _ _ C) as (_ & _ & G). rewrite G. exists rest, (Got (b :: x) :: src), ((b :: x) ++ l). split; [reflexivity|]. split; [now constructor|reflexivity].
    + rewrite cut_none by exact C. specialize (IH (acc ++ buf) (b :: x)). destruct (cut ((b :: x) ++ l)) as [[y rest]|].
      * rewrite <- app_assoc in IH. exact IH.
      * rewrite <- app_assoc in IH. exact IH.
  - change ((Interrupted :: src) ++ more) with (Interrupted :: src ++ more). cbn [read_until]. destruct (cut buf) as [[y rest]|] eqn:C.
    + destruct (cut_app _ _ _ C) as (_ & _ & G). rewrite G. exists rest, (Interrupted :: src), l. split; [reflexivity|]. split; [now constructor|reflexivity].
    + rewrite cut_none by exact C. specialize (IH (acc ++ buf) []). cbn [app] in IH. destruct (cut l) as [[y rest]|].
      * rewrite <- app_assoc in IH. exact IH.
      * rewrite <- app_assoc in IH. exact IH.
Qed.
(** fuel *)
Definition wt (st : list Z * list answer) : nat := (length (fst st) + weight (snd st))%nat.
Lemma until_weight src : forall acc buf l st, read_until acc buf src = (Some l, st) -> (length l + wt st <= length acc + (length buf + weight src))%nat.
Proof.
  induction src as [|[bs| |] src IH]; intros acc buf l st; cbn [read_until]; destruct (cut buf) as [[x rest]|] eqn:C;
    try (intros E; injection E as <- <-; destruct (cut_app _ _ _ C) as (-> & _ & _); unfold wt; cbn [fst snd]; rewrite !app_length; lia).
  - intros E. injection E as <- <-. unfold wt. cbn [fst snd length weight fold_right]. rewrite app_length. lia.
  - change (weight (Got bs :: src)) with (S (length bs + weight src)). destruct bs as [|b bs].
    + intros E. injection E as <- <-. unfold wt. cbn [fst snd length]. rewrite app_length. lia.
    + intros E. apply IH in E. rewrite app_length in E. lia.
  - change (weight (Interrupted :: src)) with (S (weight src)). intros E. apply IH in E. rewrite app_length in E. cbn [length] in E. lia.
  - discriminate.
Qed.
Lemma weight_pos src : (0 < weight src)%nat.
Proof. destruct src; cbn [weight fold_right]; lia. Qed.
Lemma next_weight st raw st' : next_line st = (Done (Some raw), st') -> (wt st' < wt st)%nat.
Proof.
  unfold next_line. destruct (read_until [] (fst st) (snd st)) as [[[|b l]|] st1] eqn:U; try discriminate. intros E. injection E as <- <-.
  apply until_weight in U. cbn [length] in U. unfold wt in *. lia.
Qed.
Lemma fuel_any : forall k k' p a st, (wt st <= k)%nat -> (wt st <= k')%nat -> read_loop k p a st = read_loop k' p a st.
Proof.
  induction k as [|k IH]; intros k' p a st L L'; [unfold wt in L; pose proof (weight_pos (snd st)); lia|].
  destruct k' as [|k']; [unfold wt in L'; pose proof (weight_pos (snd st)); lia|]. cbn [read_loop].
  destruct (next_line st) as [[[raw|]| |] st'] eqn:N; try reflexivity. apply next_weight in N. destruct (exec_raw p a raw); cbn [obind]; try reflexivity.
  apply IH; lia.
Qed.
Definition read_all (p : profile) (a : asm) (st : list Z * list answer) : outcome asm := read_loop (wt st) p a st.
Lemma read_all_step p a st : read_all p a st =
  match next_line st with
  | (Done None, _) => Done a
  | (Done (Some raw), st') => obind (exec_raw p a raw) (fun a => read_all p a st')
  | (Exit c e, _) => Exit c e
  | (Crash, _) => Crash
  end.
Proof.
  unfold read_all at 1. pose proof (weight_pos (snd st)). destruct (wt st) as [|k] eqn:W; [unfold wt in W; lia|]. cbn [read_loop].
  destruct (next_line st) as [[[raw|]| |] st'] eqn:N; try reflexivity. apply next_weight in N. destruct (exec_raw p a raw); cbn [obind]; try reflexivity.
  unfold read_all. apply fuel_any; lia.
Qed.
Lemma cut_last b : forall x y, cut b = Some (x, y) -> last x 0 = 10.
Proof.
  induction b as [|c b IH]; intros x y; cbn [cut]; [discriminate|]. destruct (Z.eqb_spec c 10).
  - intros H. injection H as <- <-. assumption.
  - destruct (cut b) as [[x' y']|] eqn:C; [|discriminate]. intros H. injection H as <- <-. specialize (IH _ _ eq_refl).
    destruct (cut_app _ _ _ C) as (_ & N & _). destruct x' as [|b' x']; [congruence|]. exact IH.
Qed.
Lemma cut_none_last b : cut b = None -> last b 0 <> 10.
Proof.
  induction b as [|c b IH]; cbn [cut]; [discriminate|]. destruct (Z.eqb_spec c 10); [discriminate|]. destruct (cut b) as [[]|]; [discriminate|]. intros _.
  destruct b; [exact n|]. now apply IH.
Qed.

Lemma step_line p a s bs buf more x rest : pieces s bs -> cut (buf ++ bs) = Some (x, rest) ->
  exists buf' s' bs', pieces s' bs' /\ rest = buf' ++ bs' /\
    read_all p a (buf, s ++ more) = obind (exec_raw p a x) (fun a => read_all p a (buf', s' ++ more)).
Proof.
  intros P C. pose proof (until_pieces s bs more P [] buf) as U. rewrite C in U. destruct U as (buf' & s' & bs' & U & P' & R).
  exists buf', s', bs'. repeat split; [exact P'|exact R|]. rewrite read_all_step. unfold next_line. cbn [fst snd]. rewrite U. cbn [app].
  destruct (cut_app _ _ _ C) as (_ & N & _). now destruct x as [|b x].
Qed.
Lemma step_end p a s bs buf more : pieces s bs -> cut (buf ++ bs) = None -> read_all p a (buf, s ++ more) =
  match read_until (buf ++ bs) [] more with
  | (None, _) => Crash
  | (Some [], _) => Done a
  | (Some l, st') => obind (exec_raw p a l) (fun a => read_all p a st')
  end.
Proof.
  intros P C. pose proof (until_pieces s bs more P [] buf) as U. rewrite C in U. cbn [app] in U.
  rewrite read_all_step. unfold next_line. cbn [fst snd]. rewrite U. now destruct (read_until (buf ++ bs) [] more) as [[[|b l]|] st'].
Qed.
Lemma obind_assoc {A B C} (m : outcome A) (f : A -> outcome B) (g : B -> outcome C) : obind (obind m f) g = obind m (fun a => obind (f a) g).
Proof. now destruct m. Qed.
Lemma obind_ext {A B} (m : outcome A) (f g : A -> outcome B) : (forall a, f a = g a) -> obind m f = obind m g.
Proof. intros H. destruct m; cbn [obind]; [apply H|reflexivity|reflexivity]. Qed.
Lemma shorter b x y n : cut b = Some (x, y) -> (length b <= S n)%nat -> (length y <= n)%nat.
Proof. intros C L. destruct (cut_app _ _ _ C) as (-> & N & _). destruct x; [congruence|]. rewrite app_length in L. cbn [length] in L. lia. Qed.
Lemma loop_eof p : forall n a s bs buf, pieces s bs -> (length (buf ++ bs) <= n)%nat ->
  read_all p a (buf, s) = exec_all p a (raw_lines (buf ++ bs)).
Proof.
  induction n as [|n IH]; intros a s bs buf P L; rewrite raw_cut; destruct (cut (buf ++ bs)) as [[x rest]|] eqn:C.
  1: { destruct (buf ++ bs); [discriminate C|cbn in L; lia]. }
  2: { destruct (step_line p a s bs buf [] x rest P C) as (buf' & s' & bs' & P' & -> & E). rewrite !app_nil_r in E. rewrite E. cbn [exec_all].
    apply obind_ext. intros a'. apply IH; [exact P'|]. eapply shorter; eassumption. }
  all: pose proof (step_end p a s bs buf [] P C) as E; rewrite app_nil_r in E; rewrite E; cbn [read_until cut]; rewrite app_nil_r;
    destruct (buf ++ bs); [reflexivity|]; cbn [exec_all]; apply obind_ext; intros a'; rewrite read_all_step; reflexivity.
Qed.
Lemma loop_fail p m : forall n a s bs buf, pieces s bs -> (length (buf ++ bs) <= n)%nat ->
  read_all p a (buf, s ++ Failed :: m) = obind (exec_all p a (complete_lines (buf ++ bs))) (fun _ => Crash).
Proof.
  unfold complete_lines. induction n as [|n IH]; intros a s bs buf P L; rewrite raw_cut; destruct (cut (buf ++ bs)) as [[x rest]|] eqn:C.
  1: { destruct (buf ++ bs); [discriminate C|cbn in L; lia]. }
  2: { destruct (step_line p a s bs buf (Failed :: m) x rest P C) as (buf' & s' & bs' & P' & -> & E). rewrite E. cbn [filter].
    rewrite (cut_last _ _ _ C), Z.eqb_refl. cbn [exec_all]. rewrite obind_assoc. apply obind_ext. intros a'. apply IH; [exact P'|]. eapply shorter; eassumption. }
  all: rewrite (step_end p a s bs buf (Failed :: m) P C); cbn [read_until cut];
    destruct (buf ++ bs) eqn:Q; [reflexivity|]; rewrite <- Q in *; cbn [filter]; rewrite (proj2 (Z.eqb_neq _ _) (cut_none_last _ C)); reflexivity.
Qed.
Lemma loop_pause p m : forall n a s bs buf, pieces s bs -> (length (buf ++ bs) <= n)%nat ->
  (buf ++ bs = [] \/ last (buf ++ bs) 0 = 10 -> read_all p a (buf, s ++ Got [] :: m) = exec_all p a (raw_lines (buf ++ bs))) /\
  (buf ++ bs <> [] -> last (buf ++ bs) 0 <> 10 ->
   read_all p a (buf, s ++ Got [] :: m) = obind (exec_all p a (raw_lines (buf ++ bs))) (fun a => read_all p a ([], m))).
Proof.
  induction n as [|n IH]; intros a s bs buf P L; rewrite raw_cut; destruct (cut (buf ++ bs)) as [[x rest]|] eqn:C.
  1: { destruct (buf ++ bs); [discriminate C|cbn in L; lia]. }
  2: { destruct (step_line p a s bs buf (Got [] :: m) x rest P C) as (buf' & s' & bs' & P' & R & E). rewrite E. cbn [exec_all].
    destruct (cut_app _ _ _ C) as (B & N & _). pose proof (cut_last _ _ _ C) as T. rewrite B. rewrite R in *.
    assert (LL : buf' ++ bs' <> [] -> last (x ++ buf' ++ bs') 0 = last (buf' ++ bs') 0).
    { clear. generalize (buf' ++ bs') as y. intros y Y. induction x as [|b x IHx]; [reflexivity|]. cbn [app]. rewrite <- IHx.
      destruct (x ++ y) eqn:Q; [|reflexivity]. apply app_eq_nil in Q. tauto. }
    split.
    - intros G. apply obind_ext. intros a'. apply (IH a' s' bs' buf' P'); [rewrite B in L; destruct x; [congruence|rewrite app_length in L; cbn [length] in L; lia]|].
      destruct (buf' ++ bs') as [|c t] eqn:Q; [now left|right]. destruct G as [G|G]; [apply app_eq_nil in G; tauto|]. rewrite <- LL; [exact G|discriminate].
    - intros _ G. rewrite obind_assoc. apply obind_ext. intros a'. apply (IH a' s' bs' buf' P'); [rewrite B in L; destruct x; [congruence|rewrite app_length in L; cbn [length] in L; lia]| |].
      + intros Q. rewrite Q, app_nil_r in G. congruence.
      + intros Q. destruct (buf' ++ bs') as [|c t] eqn:W; [rewrite app_nil_r in G; congruence|]. rewrite LL in G by discriminate. congruence. }
  all: rewrite (step_end p a s bs buf (Got [] :: m) P C); cbn [read_until cut]; rewrite app_nil_r; pose proof (cut_none_last _ C) as T;
    destruct (buf ++ bs) as [|b l]; (split; [intros [G|G]|intros G1 G2]); try congruence; try reflexivity;
    cbn [exec_all obind]; rewrite ?obind_assoc; apply obind_ext; reflexivity.
Qed.
Lemma read_chunks_all p a src : read_chunks p a src = obind (read_all p a ([], src)) (fun a => Done (mark_ext a)).
Proof. reflexivity. Qed.
Lemma top_C95_pieces p a s bs : pieces s bs -> read_chunks p a s = read_from p a bs.
Proof. intros P. rewrite read_chunks_all, (loop_eof p _ a s bs [] P (le_n _)). reflexivity. Qed.
Lemma top_C95_eof p a s bs m : pieces s bs -> bs = [] \/ last bs 0 = 10 -> read_chunks p a (s ++ Got [] :: m) = read_from p a bs.
Proof. intros P H. rewrite read_chunks_all. rewrite (proj1 (loop_pause p m _ a s bs [] P (le_n _)) H). reflexivity. Qed.
Lemma top_C95_pause p a s bs m : pieces s bs -> bs <> [] -> last bs 0 <> 10 ->
  read_chunks p a (s ++ Got [] :: m) = obind (exec_all p a (raw_lines bs)) (fun a => read_chunks p a m).
Proof. intros P N H. rewrite read_chunks_all. rewrite (proj2 (loop_pause p m _ a s bs [] P (le_n _)) N H). rewrite obind_assoc. reflexivity. Qed.
Lemma top_C95_failed p a s bs m : pieces s bs -> read_chunks p a (s ++ Failed :: m) = read_from_failing p a bs.
Proof. intros P. rewrite read_chunks_all, (loop_fail p m _ a s bs [] P (le_n _)), obind_assoc. reflexivity. Qed.
Lemma top_C95_all src : exists s bs, pieces s bs /\ (src = s \/ exists m, src = s ++ Got [] :: m \/ src = s ++ Failed :: m).
Proof.
  induction src as [|[[|b bs]| |] src (s & l & P & H)].
  - exists [], []. split; [constructor|now left].
  - exists [], []. split; [constructor|]. right. exists src. now left.
  - exists (Got (b :: bs) :: s), (b :: bs ++ l). split; [now constructor|]. destruct H as [->|(m & [->| ->])]; [now left|right; exists m; now left|right; exists m; now right].
  - exists (Interrupted :: s), l. split; [now constructor|]. destruct H as [->|(m & [->| ->])]; [now left|right; exists m; now left|right; exists m; now right].
  - exists [], []. split; [constructor|]. right. exists src. now right.
Qed.
Lemma top_C95_fuel p a src k : (weight src <= k)%nat -> read_chunks p a src = obind (read_loop k p a ([], src)) (fun a => Done (mark_ext a)).
Proof. intros L. unfold read_chunks. now rewrite (fuel_any (weight src) k p a ([], src)). Qed.
Lemma top_C95_readers p e :
  same (read_header64 e) (c_header64 e) /\ same (read_load_command p e) (c_load_command p e) /\ same (read_segment64 p e) (c_segment64 p e) /\
  same (read_section64 e) (c_section64 e) /\ same (read_symtab e) (c_symtab e) /\ same (read_dysymtab e) (c_dysymtab e) /\
  same (read_build_version p e) (c_build_version p e) /\ same (read_build_tool e) (c_build_tool e) /\
  same (read_nlist64 e) (c_nlist64 e) /\ same (read_reloc_info e) (c_reloc_info e).
Proof.
  exact (conj (header_same e) (conj (load_command_same p e) (conj (segment_same p e) (conj (section_same e) (conj (symtab_same e) (conj (dysymtab_same e)
    (conj (build_version_same p e) (conj (build_tool_same e) (conj (nlist_same e) (reloc_same e)))))))))).
Qed.
Lemma top_C95_delivers src : exists l, delivers src l.
Proof.
  destruct (top_C95_all src) as (s & l & P & H). exists l, s. destruct H as [->|(m & [->| ->])].
  - exists []. rewrite app_nil_r. split; [exact P|]. split; [reflexivity|now left].
  - exists (Got [] :: m). split; [exact P|]. split; [reflexivity|]. right. exists m. now left.
  - exists (Failed :: m). split; [exact P|]. split; [reflexivity|]. right. exists m. now right.
Qed.

(** an end of file within a line is a line feed *)
Lemma utf8_snoc_nl t raw : str_ok t -> utf8 t = raw ++ [10] -> exists t', str_ok t' /\ utf8 t' = raw.
Proof.
  intros S E. destruct (exists_last (l := t)) as (t' & c & ->); [intros ->; now destruct raw|]. apply Forall_app in S. destruct S as [S C]. inversion C; subst.
  exists t'. split; [exact S|]. rewrite utf8_app in E. change (utf8 [c]) with (utf8_char c ++ []) in E. rewrite app_nil_r in E.
  destruct (Z.ltb_spec c 128) as [L|L].
  - rewrite char_ascii in E by assumption. now apply app_inj_tail in E.
  - destruct (char_high c ltac:(assumption) L) as [F N]. destruct (exists_last N) as (u & b & U). rewrite U in *. rewrite app_assoc in E. apply app_inj_tail in E. destruct E as [_ ->].
    apply Forall_app in F. destruct F as [_ F]. inversion F; subst. lia.
Qed.
Lemma utf8_nl raw : bytes_ok raw -> from_utf8 (raw ++ [10]) = match from_utf8 raw with Some s => Some (s ++ [10]) | None => None end.
Proof.
  intros B. destruct (from_utf8 raw) as [s|] eqn:E.
  - destruct (from_utf8_inv raw s B E) as [S <-]. change [10] with (utf8 [10]) at 1. rewrite <- utf8_app. apply from_utf8_utf8. apply Forall_app. split; [exact S|]. constructor; [unfold ischar; lia|constructor].
  - destruct (from_utf8 (raw ++ [10])) as [t|] eqn:F; [|reflexivity]. exfalso. apply from_utf8_inv in F.
    + destruct F as [S U]. destruct (utf8_snoc_nl t raw S U) as (t' & S' & U'). rewrite <- U', from_utf8_utf8 in E by exact S'. discriminate.
    + apply Forall_app. split; [exact B|]. constructor; [unfold isbyte; lia|constructor].
Qed.
Lemma exec_nl p a raw : bytes_ok raw -> exec_raw p a (raw ++ [10]) = exec_raw p a raw.
Proof.
  intros B. unfold exec_raw. rewrite utf8_nl by exact B. destruct (from_utf8 raw) as [s|]; [|reflexivity].
  apply obind_ext. intros n. pose proof (top_C40_blank p [] s [10]) as T. cbn [app] in T. rewrite T; [reflexivity|constructor|]. constructor; [red; cbn; tauto|constructor].
Qed.
Lemma all_nl p : forall n b a, (length b <= n)%nat -> bytes_ok b -> b <> [] -> last b 0 <> 10 -> exec_all p a (raw_lines (b ++ [10])) = exec_all p a (raw_lines b).
Proof.
  induction n as [|n IH]; intros b a L B N T; [destruct b; [congruence|cbn in L; lia]|]. rewrite (raw_cut b), (raw_cut (b ++ [10])).
  destruct (cut b) as [[x y]|] eqn:C.
  - destruct (cut_app _ _ _ C) as (E & X & G). rewrite G. cbn [exec_all]. apply obind_ext. intros a'. apply IH.
    + eapply shorter; eassumption.
    + rewrite E in B. apply Forall_app in B. tauto.
    + intros ->. rewrite app_nil_r in E. subst. pose proof (cut_last _ _ _ C). congruence.
    + intros Q. apply T. rewrite E. destruct y as [|c y]; [discriminate Q|]. rewrite <- Q. clear. induction x as [|b x IHx]; [reflexivity|]. cbn [app]. rewrite <- IHx. now destruct x.
  - rewrite cut_none by exact C. cbn [cut]. rewrite Z.eqb_refl. destruct b as [|b0 b]; [congruence|]. cbn [exec_all raw_lines]. now rewrite exec_nl.
Qed.
Lemma loop_nl p m : forall n a s bs buf, pieces s bs -> (length (buf ++ bs) <= n)%nat ->
  read_all p a (buf, s ++ Got [10] :: m) = obind (exec_all p a (raw_lines ((buf ++ bs) ++ [10]))) (fun a => read_all p a ([], m)).
Proof.
  induction n as [|n IH]; intros a s bs buf P L; rewrite raw_cut; destruct (cut (buf ++ bs)) as [[x rest]|] eqn:C.
  1: { destruct (buf ++ bs); [discriminate C|cbn in L; lia]. }
  2: { destruct (step_line p a s bs buf (Got [10] :: m) x rest P C) as (buf' & s' & bs' & P' & R & E). rewrite E.
    destruct (cut_app _ _ _ C) as (_ & _ & G). rewrite G. cbn [exec_all]. rewrite obind_assoc. apply obind_ext. intros a'. rewrite R. apply IH; [exact P'|].
    rewrite <- R. eapply shorter; eassumption. }
  all: rewrite (step_end p a s bs buf (Got [10] :: m) P C), cut_none by exact C; cbn [read_until cut raw_lines exec_all]; rewrite Z.eqb_refl, app_nil_r;
    assert (Q : forall m, read_until (buf ++ bs) [10] m = (Some ((buf ++ bs) ++ [10]), ([], m))) by (intros [|[[|]| |]]; reflexivity);
    rewrite Q; destruct ((buf ++ bs) ++ [10]) eqn:W; [now apply app_eq_nil in W|]; cbn [exec_all]; rewrite obind_assoc; apply obind_ext; reflexivity.
Qed.
Lemma top_C95_feed p a s bs m : pieces s bs -> bytes_ok bs -> bs <> [] -> last bs 0 <> 10 ->
  read_chunks p a (s ++ Got [] :: m) = read_chunks p a (s ++ Got [10] :: m).
Proof.
  intros P B N T. rewrite (top_C95_pause p a s bs m P N T). rewrite (read_chunks_all p a (s ++ _)), (loop_nl p m _ a s bs [] P (le_n _)), obind_assoc. cbn [app].
  rewrite (all_nl p _ bs a (le_n _) B N T). reflexivity.
Qed.
