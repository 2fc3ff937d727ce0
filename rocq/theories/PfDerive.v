(** Proofs for C92. *)
From Coq Require Import String.
From Verif Require Import Base Str X64 Mac SpecMacho Obj SpecObj Asm SpecAsm Dbg SpecDbg SpecDiag PfDiag Derive SpecDerive.

(** ** trees *)
Section dval_ind.
  Variable P : dval -> Prop.
  Hypothesis HA : forall t, P (DvAtom t).
  Hypothesis HS : forall s, P (DvStr s).
  Hypothesis HN : forall k n es, Forall (fun e => P (snd e)) es -> P (DvNode k n es).
  Fixpoint dval_rect' (v : dval) : P v :=
    match v with
    | DvAtom t => HA t
    | DvStr s => HS s
    | DvNode k n es => HN k n es
        ((fix go (l : list (str * dval)) : Forall (fun e => P (snd e)) l :=
            match l with [] => Forall_nil _ | e :: l' => Forall_cons e (dval_rect' (snd e)) (go l') end) es)
    end.
End dval_ind.

(** the characters of names and numbers *)
Definition idch (c : Z) : Prop := 48 <= c <= 57 \/ 65 <= c <= 90 \/ 97 <= c <= 122 \/ c = 95 \/ c = 45.
Definition nonid (x : str) : Prop := match x with [] => True | c :: _ => ~ idch c end.
Lemma span a b x y : Forall idch a -> Forall idch b -> nonid x -> nonid y -> a ++ x = b ++ y -> a = b /\ x = y.
Proof.
  revert b. induction a as [|c a IH]; intros b A B X Y E.
  - destruct b as [|d b]; [now split|]. cbn in E. subst x. inversion B; subst. cbn in X. contradiction.
  - destruct b as [|d b].
    + cbn in E. subst y. inversion A; subst. cbn in Y. contradiction.
    + cbn in E. injection E as -> E. inversion A; subst. inversion B; subst.
      destruct (IH b) as [-> ->]; try assumption. now split.
Qed.

Fixpoint wf (v : dval) : Prop :=
  match v with
  | DvAtom t => t <> [] /\ Forall idch t
  | DvStr s => str_ok s
  | DvNode k n es =>
      match k with
      | KTuple => Forall idch n /\ es <> [] | KStruct => n <> [] /\ Forall idch n /\ es <> []
      | KList | KSet => n = []
      end /\
      (fix go (l : list (str * dval)) : Prop :=
         match l with
         | [] => True
         | e :: l' => match k with KStruct => Forall idch (fst e) | _ => fst e = [] end /\ wf (snd e) /\ go l'
         end) es
  end.
Definition wf_entry (k : dkind) (e : str * dval) : Prop :=
  match k with KStruct => Forall idch (fst e) | _ => fst e = [] end /\ wf (snd e).
Lemma wf_node k n es : wf (DvNode k n es) <->
  match k with
  | KTuple => Forall idch n /\ es <> [] | KStruct => n <> [] /\ Forall idch n /\ es <> []
  | KList | KSet => n = []
  end /\ Forall (wf_entry k) es.
Proof.
  cbn [wf]. assert (G : forall l, (fix go (l : list (str * dval)) : Prop :=
         match l with
         | [] => True
         | e :: l' => match k with KStruct => Forall idch (fst e) | _ => fst e = [] end /\ wf (snd e) /\ go l'
         end) l <-> Forall (wf_entry k) l).
  { induction l as [|e l IH]; [split; constructor|]. rewrite Forall_cons_iff, <- IH. unfold wf_entry. tauto. }
  now rewrite G.
Qed.

(** ** strings *)
Definition hexch (c : Z) : Prop := 48 <= c <= 57 \/ 97 <= c <= 102.
Definition unhex (c : Z) : Z := if c <? 58 then c - 48 else c - 87.
Definition hexv (s : str) : Z := fold_left (fun a c => 16 * a + unhex c) s 0.
Lemma hexv_snoc s c : hexv (s ++ [c]) = 16 * hexv s + unhex c.
Proof. unfold hexv. now rewrite fold_left_app. Qed.
Lemma hex_digit_ok n : 0 <= n < 16 -> hexch (hex_digit n) /\ unhex (hex_digit n) = n.
Proof.
  intros R. unfold hexch, unhex, hex_digit. destruct (n <? 10) eqn:A.
  - destruct (48 + n <? 58) eqn:B; lia.
  - destruct (87 + n <? 58) eqn:B; lia.
Qed.
Lemma hex_digits_spec fuel : forall n acc, 0 <= n < 16 ^ Z.of_nat fuel -> (0 < fuel)%nat ->
  exists ds, hex_digits fuel n acc = ds ++ acc /\ Forall hexch ds /\ hexv ds = n.
Proof.
  induction fuel as [|f IH]; intros n acc R F; [lia|]. cbn [hex_digits]. destruct (n <? 16) eqn:L.
  - destruct (hex_digit_ok n ltac:(lia)) as [A B]. exists [hex_digit n]. split; [reflexivity|].
    split; [constructor; [exact A|constructor]|]. unfold hexv. cbn [fold_left]. lia.
  - assert (Rf : 0 <= n / 16 < 16 ^ Z.of_nat f).
    { rewrite Nat2Z.inj_succ, Z.pow_succ_r in R by lia. split; [apply Z.div_pos; lia|apply Z.div_lt_upper_bound; lia]. }
    destruct f as [|f']; [cbn [Z.of_nat] in Rf; rewrite Z.pow_0_r in Rf; assert (1 <= n / 16) by (apply Z.div_le_lower_bound; lia); lia|].
    destruct (IH (n / 16) (hex_digit (n mod 16) :: acc) Rf ltac:(lia)) as (ds & E & H & V).
    pose proof (Z.mod_pos_bound n 16 ltac:(lia)) as M. destruct (hex_digit_ok (n mod 16) M) as [A B].
    exists (ds ++ [hex_digit (n mod 16)]). rewrite E, <- app_assoc. split; [reflexivity|].
    split; [apply Forall_app; split; [exact H|constructor; [exact A|constructor]]|].
    rewrite hexv_snoc, V, B. pose proof (Z.div_mod n 16). lia.
Qed.
Lemma hexch_idch c : hexch c -> idch c.
Proof. unfold hexch, idch. lia. Qed.

Definition backslashed (c d : Z) : Prop :=
  c = 9 /\ d = 116 \/ c = 13 /\ d = 114 \/ c = 10 /\ d = 110 \/ c = 34 /\ d = 34 \/ c = 92 /\ d = 92 \/ c = 0 /\ d = 48.
Inductive escaped (c : Z) : str -> Prop :=
| es_plain : c <> 34 -> c <> 92 -> c <> 10 -> c <> 0 -> escaped c [c]
| es_back d : backslashed c d -> escaped c [92; d]
| es_hex ds : Forall hexch ds -> hexv ds = c -> escaped c (92 :: 117 :: 123 :: ds ++ [125]).
Lemma esc_char_spec e c : ischar c -> escaped c (esc_char e c).
Proof.
  intros C. unfold esc_char.
  destruct (Z.eqb_spec c 9) as [->|N9]; [apply (es_back _ 116); unfold backslashed; lia|].
  destruct (Z.eqb_spec c 13) as [->|N13]; [apply (es_back _ 114); unfold backslashed; lia|].
  destruct (Z.eqb_spec c 10) as [->|N10]; [apply (es_back _ 110); unfold backslashed; lia|].
  destruct (Z.eqb_spec c 34) as [->|N34]; [apply (es_back _ 34); unfold backslashed; lia|].
  destruct (Z.eqb_spec c 92) as [->|N92]; [apply (es_back _ 92); unfold backslashed; lia|].
  cbn [orb]. destruct e.
  - destruct (hex_digits_spec 6 c []) as (ds & E & H & V); [unfold ischar in C; change (16 ^ Z.of_nat 6) with 16777216; lia|lia|].
    rewrite E, app_nil_r. now apply es_hex.
  - destruct (Z.eqb_spec c 0) as [->|N0]; [apply (es_back _ 48); unfold backslashed; lia|]. now apply es_plain.
Qed.
Lemma escaped_uniq c c' a a' r r' : escaped c a -> escaped c' a' -> a ++ r = a' ++ r' -> c = c' /\ r = r'.
Proof.
  intros A A' E. destruct A as [N1 N2 _ _|d B|ds H V], A' as [N1' N2' _ _|d' B'|ds' H' V']; cbn [app] in E.
  - injection E as -> ->. now split.
  - injection E as E _. congruence.
  - injection E as E _. congruence.
  - injection E as E _. congruence.
  - injection E as -> ->. split; [|reflexivity]. unfold backslashed in *. lia.
  - injection E as -> _. unfold backslashed in B. lia.
  - injection E as E _. congruence.
  - injection E as <- _. unfold backslashed in B'. lia.
  - injection E as E. rewrite <- !app_assoc in E. cbn [app] in E.
    assert (X : forall r0, nonid (125 :: r0)) by (intro; cbn; unfold idch; lia).
    apply span in E; try apply X; try (eapply Forall_impl; [|eassumption]; apply hexch_idch).
    destruct E as [-> E]. injection E as ->. split; [congruence|reflexivity].
Qed.
Lemma escaped_first c a : escaped c a -> exists d t, a = d :: t /\ d <> 34.
Proof. intros [N1 _ _ _|d _|ds _ _]; eexists; eexists; (split; [reflexivity|]); congruence. Qed.
Lemma esc_str_uniq esc s : forall i s' r r', str_ok s -> str_ok s' ->
  esc_str esc i s ++ 34 :: r = esc_str esc i s' ++ 34 :: r' -> s = s' /\ r = r'.
Proof.
  induction s as [|c s IH]; intros i s' r r' S S' E.
  - destruct s' as [|c' s']; [cbn in E; injection E as ->; now split|].
    inversion S'; subst. destruct (escaped_first c' _ (esc_char_spec (esc i c') c' ltac:(assumption))) as (d & t & Ed & Nd).
    cbn [esc_str app] in E. rewrite Ed in E. cbn [app] in E. injection E as E _. congruence.
  - inversion S; subst. destruct s' as [|c' s'].
    + destruct (escaped_first c _ (esc_char_spec (esc i c) c ltac:(assumption))) as (d & t & Ed & Nd).
      cbn [esc_str app] in E. rewrite Ed in E. cbn [app] in E. injection E as E _. congruence.
    + inversion S'; subst. cbn [esc_str] in E. rewrite <- !app_assoc in E.
      apply (escaped_uniq c c') in E; try (apply esc_char_spec; assumption). destruct E as [-> E].
      apply IH in E; try assumption. destruct E as [-> ->]. now split.
Qed.

(** ** printing with the depth of the line *)
Definition ind (d : nat) : str := repeat 32 (4 * d).
Definition nl (d : nat) : str := 10 :: ind d.
Definition pre (alt : bool) (d : nat) (k : dkind) : str := if alt then nl (S d) else dbg_gap k.
Definition sep (alt : bool) (d : nat) : str := if alt then 44 :: nl (S d) else lit ", ".
Definition post (alt : bool) (d : nat) (k : dkind) : str := if alt then 44 :: nl d else dbg_gap k.
Fixpoint rest (alt : bool) (d : nat) (k : dkind) (es : list str) : str :=
  match es with [] => post alt d k ++ dbg_close k | e :: es' => sep alt d ++ e ++ rest alt d k es' end.
Definition body (alt : bool) (d : nat) (k : dkind) (es : list str) : str :=
  match es with [] => dbg_close k | e :: es' => pre alt d k ++ e ++ rest alt d k es' end.
Fixpoint showd (esc : policy) (alt : bool) (d : nat) (v : dval) : str :=
  match v with
  | DvAtom t => t
  | DvStr s => 34 :: esc_str esc 0 s ++ [34]
  | DvNode k n es =>
      dbg_open k n ++ body alt d k (map (fun e => dbg_label k (fst e) ++ showd esc alt (S d) (snd e)) es)
  end.

(** what may follow a value *)
Definition closes (c : Z) : Prop := c = 44 \/ c = 41 \/ c = 93 \/ c = 125 \/ c = 10.
Definition ends (r : str) : Prop :=
  r = [] \/ (exists r1, r = 32 :: 125 :: r1) \/ exists c r1, r = c :: r1 /\ closes c.
Lemma ends_rest alt d k es r : ends (rest alt d k es ++ r).
Proof.
  destruct es, alt, k; cbn; try (right; left; eexists; reflexivity);
  (right; right; eexists; eexists; split; [reflexivity|unfold closes; lia]).
Qed.
Lemma ends_nonid r : ends r -> nonid r.
Proof. intros [->|[(r1 & ->)|(c & r1 & -> & C)]]; cbn; unfold idch, closes in *; [trivial|lia|lia]. Qed.

(** a value is a name or number, then something else *)
Definition headv (v : dval) : str := match v with DvAtom t => t | DvStr _ => [] | DvNode _ n _ => n end.
Definition opener (k : dkind) : str :=
  match k with KTuple => [40] | KStruct => [32; 123] | KList => [91] | KSet => [123] end.
Definition texts (esc : policy) (alt : bool) (d : nat) (k : dkind) (es : list (str * dval)) : list str :=
  map (fun e => dbg_label k (fst e) ++ showd esc alt (S d) (snd e)) es.
Definition tailv (esc : policy) (alt : bool) (d : nat) (v : dval) (r : str) : str :=
  match v with
  | DvAtom _ => r
  | DvStr s => 34 :: esc_str esc 0 s ++ 34 :: r
  | DvNode k n es => opener k ++ body alt d k (texts esc alt d k es) ++ r
  end.
Lemma head_tail esc alt d v r : wf v -> ends r ->
  showd esc alt d v ++ r = headv v ++ tailv esc alt d v r /\ Forall idch (headv v) /\ nonid (tailv esc alt d v r).
Proof.
  intros W E. destruct v as [t|s|k n es].
  - cbn [showd headv tailv]. destruct W as [_ W]. split; [reflexivity|]. split; [exact W|now apply ends_nonid].
  - cbn [showd headv tailv]. split; [cbn [app]; now rewrite <- app_assoc|]. split; [constructor|cbn; unfold idch; lia].
  - apply wf_node in W. destruct W as [W _]. cbn [showd headv tailv]. fold (texts esc alt d k es). split; [|split].
    + destruct k; cbn [dbg_open opener]; try subst n; rewrite <- !app_assoc; reflexivity.
    + destruct k; try tauto; subst n; constructor.
    + destruct k; cbn; unfold idch; lia.
Qed.
(** its first character *)
Lemma first_char esc alt d v r : wf v -> exists c t, showd esc alt d v ++ r = c :: t /\ ~ closes c /\ c <> 32.
Proof.
  assert (I : forall c, idch c -> ~ closes c /\ c <> 32) by (intro c; unfold idch, closes; lia).
  intros W. destruct v as [t|s|k n es].
  - destruct W as [N W]. destruct t as [|c t]; [congruence|]. inversion W; subst. exists c, (t ++ r). split; [reflexivity|]. now apply I.
  - exists 34. eexists. split; [reflexivity|]. unfold closes. lia.
  - apply wf_node in W. destruct W as [W _]. destruct k.
    + destruct W as [W _]. destruct n as [|c n].
      * exists 40. eexists. split; [reflexivity|]. unfold closes. lia.
      * inversion W; subst. exists c. eexists. split; [reflexivity|]. now apply I.
    + destruct W as (N & W & _). destruct n as [|c n]; [congruence|]. inversion W; subst. exists c. eexists. split; [reflexivity|]. now apply I.
    + subst n. exists 91. eexists. split; [reflexivity|]. unfold closes. lia.
    + subst n. exists 123. eexists. split; [reflexivity|]. unfold closes. lia.
Qed.

Definition unique (esc : policy) (alt : bool) (v : dval) : Prop :=
  forall d v' r r', wf v -> wf v' -> ends r -> ends r' ->
    showd esc alt d v ++ r = showd esc alt d v' ++ r' -> v = v' /\ r = r'.

Lemma entry_uniq esc alt d k e e' r r' : unique esc alt (snd e) -> wf_entry k e -> wf_entry k e' -> ends r -> ends r' ->
  (dbg_label k (fst e) ++ showd esc alt (S d) (snd e)) ++ r = (dbg_label k (fst e') ++ showd esc alt (S d) (snd e')) ++ r' ->
  e = e' /\ r = r'.
Proof.
  destruct e as [a v], e' as [a' v']. cbn [fst snd]. intros U [L W] [L' W'] En En' E. cbn [fst snd] in *.
  assert (K : a = a' /\ showd esc alt (S d) v ++ r = showd esc alt (S d) v' ++ r').
  { rewrite <- !app_assoc in E. destruct k; cbn [dbg_label] in E; try (subst a a'; cbn [app] in E; now split).
    rewrite <- !app_assoc in E. apply span in E; try assumption; [|cbn; unfold idch; lia|cbn; unfold idch; lia].
    destruct E as [-> E]. injection E as E. now split. }
  destruct K as [-> K]. apply U in K; try assumption. destruct K as [-> ->]. now split.
Qed.

Lemma rest_uniq esc alt d k es : Forall (fun e => unique esc alt (snd e)) es -> forall es' r r',
  Forall (wf_entry k) es -> Forall (wf_entry k) es' ->
  rest alt d k (texts esc alt d k es) ++ r = rest alt d k (texts esc alt d k es') ++ r' -> es = es' /\ r = r'.
Proof.
  assert (Sp : forall n x y, ind n ++ x = ind n ++ y -> x = y) by (intros n x y; apply app_inv_head).
  assert (Rp : forall n x, ind (S n) ++ x = ind n ++ 32 :: 32 :: 32 :: 32 :: x).
  { intros n x. unfold ind. replace (4 * S n)%nat with (4 * n + 4)%nat by lia. rewrite repeat_app, <- app_assoc. reflexivity. }
  assert (Mix : forall e l x y, (post alt d k ++ dbg_close k) ++ x <> (sep alt d ++ e ++ rest alt d k l) ++ y).
  { intros e l x y E. destruct alt; cbn [post sep] in E.
    - rewrite <- !app_assoc in E. change ([44; 10] ++ ind d ++ dbg_close k ++ x = [44; 10] ++ ind (S d) ++ e ++ rest true d k l ++ y) in E.
      apply app_inv_head in E. rewrite Rp in E. apply Sp in E.
      destruct k; discriminate.
    - destruct k; discriminate. }
  induction 1 as [|e es U F IH]; intros es' r r' W W' E.
  - destruct es' as [|e' es']; [cbn [texts map rest] in E; apply app_inv_head in E; now split|].
    exfalso. cbn [texts map rest] in E. apply Mix in E. exact E.
  - destruct es' as [|e' es']; [exfalso; cbn [texts map rest] in E; symmetry in E; apply Mix in E; exact E|].
    inversion W; subst. inversion W'; subst. cbn [texts map rest] in E. fold (texts esc alt d k es) in E. fold (texts esc alt d k es') in E.
    rewrite <- !(app_assoc (sep alt d)) in E. apply app_inv_head in E. rewrite <- !(app_assoc _ (rest _ _ _ _)) in E.
    apply entry_uniq in E; try assumption; try apply ends_rest. destruct E as [-> E].
    apply IH in E; try assumption. destruct E as [-> ->]. now split.
Qed.

Lemma body_uniq esc alt d k es es' r r' : Forall (fun e => unique esc alt (snd e)) es ->
  Forall (wf_entry k) es -> Forall (wf_entry k) es' ->
  match k with KTuple | KStruct => es <> [] /\ es' <> [] | _ => True end ->
  body alt d k (texts esc alt d k es) ++ r = body alt d k (texts esc alt d k es') ++ r' -> es = es' /\ r = r'.
Proof.
  intros U W W' N E.
  assert (Mix : forall e l x y, wf_entry k e -> match k with KTuple | KStruct => False | _ => True end ->
     dbg_close k ++ x <> (pre alt d k ++ (dbg_label k (fst e) ++ showd esc alt (S d) (snd e)) ++ l) ++ y).
  { intros e l x y We K Q. destruct alt; cbn [pre] in Q; [destruct k; discriminate|].
    destruct k; try contradiction; cbn [dbg_gap dbg_label app] in Q; rewrite <- app_assoc in Q;
    destruct (first_char esc false (S d) (snd e) (l ++ y) (proj2 We)) as (c & t & Ec & Nc & _); rewrite Ec in Q;
    injection Q as Q _; apply Nc; unfold closes; rewrite <- Q; vm_compute; tauto. }
  destruct es as [|e es], es' as [|e' es'].
  - apply app_inv_head in E. now split.
  - exfalso. inversion W'; subst. cbn [texts map body] in E. apply Mix in E; [exact E|assumption|]. destruct k; tauto.
  - exfalso. inversion W; subst. cbn [texts map body] in E. symmetry in E. apply Mix in E; [exact E|assumption|]. destruct k; tauto.
  - inversion W; subst. inversion W'; subst. inversion U; subst. cbn [texts map body] in E. fold (texts esc alt d k es) in E. fold (texts esc alt d k es') in E.
    rewrite <- !(app_assoc (pre alt d k)) in E. apply app_inv_head in E. rewrite <- !(app_assoc _ (rest _ _ _ _)) in E.
    apply entry_uniq in E; try assumption; try apply ends_rest. destruct E as [-> E].
    apply rest_uniq in E; try assumption. destruct E as [-> ->]. now split.
Qed.

Lemma showd_unique esc alt v : unique esc alt v.
Proof.
  induction v as [t|s|k n es IH] using dval_rect'; intros d v' r r' W W' En En' E.
  all: match type of E with showd _ _ _ ?v ++ _ = _ =>
    destruct (head_tail esc alt d v r W En) as (E1 & H1 & T1); destruct (head_tail esc alt d v' r' W' En') as (E2 & H2 & T2) end;
    rewrite E1, E2 in E; apply span in E; try assumption; destruct E as [Hd Tl]; clear E1 E2 H1 H2 T1 T2;
    destruct v' as [t'|s'|k' n' es']; cbn [headv tailv] in Hd, Tl.
  - subst. now split.
  - exfalso. destruct W as [W _]. congruence.
  - exfalso. destruct En as [->|[(r1 & ->)|(c & r1 & -> & C)]]; unfold closes in *; destruct k'; cbn in Tl; try discriminate; injection Tl; intros; subst; lia.
  - exfalso. destruct W' as [W' _]. congruence.
  - injection Tl as Tl. apply esc_str_uniq in Tl; try assumption. destruct Tl as [-> ->]. now split.
  - exfalso. destruct k'; discriminate.
  - exfalso. destruct En' as [->|[(r1 & ->)|(c & r1 & -> & C)]]; unfold closes in *; destruct k; cbn in Tl; try discriminate; injection Tl; intros; subst; lia.
  - exfalso. destruct k; discriminate.
  - assert (k = k' /\ body alt d k (texts esc alt d k es) ++ r = body alt d k' (texts esc alt d k' es') ++ r') as [-> B].
    { destruct k, k'; try discriminate; (split; [reflexivity|]); apply app_inv_head in Tl; exact Tl. }
    apply wf_node in W, W'. destruct W as [Wn We], W' as [Wn' We'].
    apply body_uniq in B; try assumption; [|destruct k'; tauto]. destruct B as [-> ->]. subst n'. now split.
Qed.

(** ** PadAdapter *)
Lemma pad_on y : y <> [] -> pad true y = lit "    " ++ pad false y.
Proof. destruct y; [congruence|reflexivity]. Qed.
Lemma pad_through a y : ~ In 10 a -> pad false (a ++ y) = a ++ pad false y.
Proof.
  induction a as [|c a IH]; intros N; [reflexivity|]. cbn [app pad].
  assert (c <> 10) as C by (intros ->; apply N; now left). rewrite (proj2 (Z.eqb_neq _ _) C).
  rewrite IH by (intros I; apply N; now right). reflexivity.
Qed.
Lemma ind_no d : ~ In 10 (ind d).
Proof. intros I. apply repeat_spec in I. lia. Qed.
Lemma ind_S d y : lit "    " ++ ind d ++ y = ind (S d) ++ y.
Proof. rewrite app_assoc. f_equal. unfold ind. replace (4 * S d)%nat with (4 + 4 * d)%nat by lia. now rewrite repeat_app. Qed.
Lemma pad_nl d y : y <> [] -> pad false (nl d ++ y) = nl (S d) ++ pad false y.
Proof.
  intros N. unfold nl. change (pad false ((10 :: ind d) ++ y)) with (10 :: pad true (ind d ++ y)).
  rewrite pad_on by (intros E; apply app_eq_nil in E; tauto). rewrite pad_through by apply ind_no.
  rewrite ind_S. reflexivity.
Qed.
Lemma idch_no l : Forall idch l -> ~ In 10 l.
Proof. intros F I. rewrite Forall_forall in F. apply F in I. unfold idch in I. lia. Qed.
Lemma escaped_no c a : ischar c -> escaped c a -> ~ In 10 a.
Proof.
  intros C [N1 N2 N3 N4|d B|ds H V] I.
  - destruct I as [I|[]]. congruence.
  - destruct I as [I|[I|[]]]; [lia|]. unfold backslashed in B. lia.
  - destruct I as [I|[I|[I|I]]]; try lia. apply in_app_or in I. destruct I as [I|[I|[]]]; [|lia].
    rewrite Forall_forall in H. apply H in I. unfold hexch in I. lia.
Qed.
Lemma esc_str_no esc s : forall i, str_ok s -> ~ In 10 (esc_str esc i s).
Proof.
  induction s as [|c s IH]; intros i S; [intros []|]. inversion S; subst. cbn [esc_str]. intros I. apply in_app_or in I.
  destruct I as [I|I]; [|now apply (IH (Datatypes.S i))]. revert I. apply (escaped_no c); [assumption|now apply esc_char_spec].
Qed.
Lemma label_no k e : wf_entry k e -> ~ In 10 (dbg_label k (fst e)).
Proof.
  intros [W _]. destruct k; cbn [dbg_label]; try (intros []). intros I. apply in_app_or in I. destruct I as [I|I].
  - now apply idch_no in I.
  - vm_compute in I. intuition discriminate.
Qed.
Lemma open_no k n es : wf (DvNode k n es) -> ~ In 10 (dbg_open k n).
Proof.
  intros W. apply wf_node in W. destruct W as [W _].
  assert (G : forall t, Forall idch n -> ~ In 10 t -> ~ In 10 (n ++ t)).
  { intros t F N I. apply in_app_or in I. destruct I as [I|I]; [now apply idch_no in I|contradiction]. }
  destruct k; cbn [dbg_open]; try (apply G; [tauto|]); vm_compute; intuition discriminate.
Qed.
Lemma close_no k : ~ In 10 (dbg_close k) /\ dbg_close k <> [].
Proof. destruct k; (split; [vm_compute; intuition discriminate|discriminate]). Qed.
Lemma showd_ne esc alt d v x : wf v -> showd esc alt d v ++ x <> [].
Proof. intros W. destruct (first_char esc alt d v x W) as (c & t & -> & _). discriminate. Qed.

Lemma showd_pad esc v : wf v -> forall d y, pad false (showd esc true d v ++ y) = showd esc true (S d) v ++ pad false y.
Proof.
  induction v as [t|s|k n es IH] using dval_rect'; intros W d y.
  - cbn [showd]. destruct W as [_ W]. apply pad_through. now apply idch_no.
  - cbn [showd wf] in *. apply pad_through. intros [I|I]; [lia|]. apply in_app_or in I. destruct I as [I|[I|[]]]; [|lia].
    now apply esc_str_no in I.
  - cbn [showd]. fold (texts esc true d k es). fold (texts esc true (S d) k es).
    rewrite <- !app_assoc. rewrite pad_through by (now apply (open_no k n es)). f_equal.
    apply wf_node in W. destruct W as [_ W].
    destruct (close_no k) as [Cn Ce].
    assert (En : forall e x, wf_entry k e -> (dbg_label k (fst e) ++ showd esc true (S d) (snd e)) ++ x <> []).
    { intros e x We Q. rewrite <- app_assoc in Q. apply app_eq_nil in Q. destruct Q as [_ Q]. now apply showd_ne in Q; [|apply We]. }
    assert (Et : forall e x, (wf (snd e) -> forall d y, pad false (showd esc true d (snd e) ++ y) = showd esc true (S d) (snd e) ++ pad false y) ->
       wf_entry k e -> pad false ((dbg_label k (fst e) ++ showd esc true (S d) (snd e)) ++ x) =
       (dbg_label k (fst e) ++ showd esc true (S (S d)) (snd e)) ++ pad false x).
    { intros e x He We. rewrite <- !app_assoc. rewrite pad_through by now apply label_no. f_equal. apply He, We. }
    assert (R : forall l, Forall (fun e => wf (snd e) -> forall d y, pad false (showd esc true d (snd e) ++ y) = showd esc true (S d) (snd e) ++ pad false y) l ->
       Forall (wf_entry k) l -> pad false (rest true d k (texts esc true d k l) ++ y) = rest true (S d) k (texts esc true (S d) k l) ++ pad false y).
    { induction 1 as [|e l He Fl IHl]; intros Wl.
      - cbn [texts map rest]. unfold post. rewrite <- !app_assoc. change ((44 :: nl d) ++ dbg_close k ++ y) with ([44] ++ nl d ++ dbg_close k ++ y).
        rewrite pad_through by (cbn; lia). rewrite pad_nl by (intros Q; apply app_eq_nil in Q; tauto).
        rewrite pad_through by exact Cn. reflexivity.
      - inversion Wl; subst. cbn [texts map rest]. fold (texts esc true d k l). fold (texts esc true (S d) k l).
        unfold sep. rewrite <- !(app_assoc (44 :: nl _)). rewrite <- !(app_assoc _ (rest _ _ _ _)).
        match goal with |- pad false ((44 :: nl ?a) ++ ?z) = _ => change ((44 :: nl a) ++ z) with ([44] ++ nl a ++ z) end.
        rewrite pad_through by (cbn; lia). rewrite pad_nl by now apply En. rewrite Et by assumption. rewrite IHl by assumption. reflexivity. }
    destruct es as [|e es].
    + cbn [texts map body]. now apply pad_through.
    + inversion W; subst. inversion IH; subst. cbn [texts map body]. fold (texts esc true d k es). fold (texts esc true (S d) k es).
      unfold pre. rewrite <- !(app_assoc (nl _)). rewrite <- !(app_assoc _ (rest _ _ _ _)).
      rewrite pad_nl by now apply En. rewrite Et by assumption. rewrite R by assumption. reflexivity.
Qed.

Lemma debug_alt esc v : wf v -> debug esc true v = showd esc true 0 v.
Proof.
  induction v as [t|s|k n es IH] using dval_rect'; intros W; try reflexivity.
  cbn [debug showd]. unfold dbg_node. f_equal. apply wf_node in W. destruct W as [_ W].
  set (f := fun e : str * dval => pad true ((dbg_label k (fst e) ++ debug esc true (snd e)) ++ lit "," ++ [10])).
  assert (F : forall e, (wf (snd e) -> debug esc true (snd e) = showd esc true 0 (snd e)) -> wf_entry k e ->
     f e = lit "    " ++ (dbg_label k (fst e) ++ showd esc true 1 (snd e)) ++ [44; 10]).
  { intros e He We. unfold f. rewrite He by apply We. rewrite pad_on.
    - f_equal. rewrite <- !app_assoc. rewrite pad_through by now apply label_no. f_equal. rewrite showd_pad by apply We. reflexivity.
    - intros Q. rewrite <- app_assoc in Q. apply app_eq_nil in Q. destruct Q as [_ Q]. now apply showd_ne in Q; [|apply We]. }
  assert (R : forall l, Forall (fun e => wf (snd e) -> debug esc true (snd e) = showd esc true 0 (snd e)) l -> Forall (wf_entry k) l ->
     [44; 10] ++ flat_map f l ++ dbg_close k = rest true 0 k (texts esc true 0 k l)).
  { induction 1 as [|e l He Fl IHl]; intros Wl; [reflexivity|]. inversion Wl; subst. cbn [flat_map texts map rest].
    fold (texts esc true 0 k l). rewrite <- IHl by assumption. rewrite F by assumption. unfold sep, nl, ind.
    rewrite <- !app_assoc. reflexivity. }
  assert (Fm : forall l, flat_map (fun e => pad true (e ++ lit "," ++ [10])) (map (fun e => dbg_label k (fst e) ++ debug esc true (snd e)) l) = flat_map f l).
  { induction l as [|e l IHl]; [reflexivity|]. cbn [map flat_map]. now rewrite IHl. }
  destruct es as [|e es]; [reflexivity|]. inversion W; subst. inversion IH; subst.
  assert (G : (10 :: flat_map f (e :: es)) ++ dbg_close k = body true 0 k (texts esc true 0 k (e :: es))).
  { cbn [flat_map texts map body]. fold (texts esc true 0 k es). rewrite <- R by assumption. rewrite F by assumption. unfold pre, nl, ind.
    cbn [app]. rewrite <- !app_assoc. reflexivity. }
  unfold texts in G. rewrite <- G, <- Fm. reflexivity.
Qed.

Lemma debug_plain esc v : forall d, debug esc false v = showd esc false d v.
Proof.
  induction v as [t|s|k n es IH] using dval_rect'; intros d; try reflexivity.
  cbn [debug showd]. unfold dbg_node. f_equal.
  assert (M : map (fun e => dbg_label k (fst e) ++ debug esc false (snd e)) es = texts esc false d k es).
  { induction IH as [|e l He Fl IHl]; [reflexivity|]. cbn [texts map]. fold (texts esc false d k l). rewrite <- IHl. now rewrite (He (S d)). }
  rewrite M. fold (texts esc false d k es). destruct (texts esc false d k es) as [|e l]; [reflexivity|].
  cbn [body pre]. rewrite <- !app_assoc. f_equal. clear. revert e. induction l as [|e' l IH]; intros e; [reflexivity|].
  cbn [join_comma rest sep]. cbn [join_comma] in IH. rewrite <- IH. now rewrite <- !app_assoc.
Qed.
Lemma debug_showd esc alt v : wf v -> debug esc alt v = showd esc alt 0 v.
Proof. intros W. destruct alt; [now apply debug_alt|apply debug_plain]. Qed.
Lemma debug_inj esc alt v v' : wf v -> wf v' -> debug esc alt v = debug esc alt v' -> v = v'.
Proof.
  intros W W' E. rewrite !debug_showd in E by assumption. apply (f_equal (fun x => x ++ [])) in E.
  apply showd_unique in E; try assumption; try now left. tauto.
Qed.
