(** Conversations with the operating system: order, what was read and written, and a file system. *)
From Verif Require Import Base Str X64 Obj Asm Assembler Cli Chunk Talk.

Definition is_open (e : event) : Prop := match e with OpenIn _ _ | OpenOut _ _ => True | _ => False end.
Definition is_write (e : event) : Prop := match e with Write _ _ => True | _ => False end.
(** what `read` answered *)
Definition answers (t : list event) : list answer := flat_map (fun e => match e with Read x => [x] | _ => [] end) t.
(** the bytes that were taken *)
Definition taken (t : list event) : list Z := flat_map (fun e => match e with Write bs (Took n) => firstn n bs | _ => [] end) t.
(** the messages *)
Definition said (t : list event) : list (str * bool) := flat_map (fun e => match e with Stderr m ok => [(m, ok)] | _ => [] end) t.

(** an answer after which the program does not go on *)
Definition fatal (e : event) : Prop :=
  match e with
  | OpenIn _ ok | OpenOut _ ok | Stderr _ ok => ok = false
  | Read x => x = Failed
  | Write _ x => x = Took 0 \/ x = WFailed
  end.

(** ** a file system that works: files with a position *)
Record fs := { f_world : world; f_in : option (Z * nat); f_out : option (Z * nat) }.
(** a file's bytes with [x] at position [k] *)
Definition at_pos (bs : list Z) (k : nat) (x : list Z) : list Z := firstn k bs ++ x ++ skipn (k + length x) bs.
(** opening fails only when there is no such file; reads and writes take some, and interruptions are possible *)
Inductive step : fs -> event -> fs -> Prop :=
| st_in w i o path s d : w_slot w path = Some s -> w_data w s = Some d ->
    step {| f_world := w; f_in := i; f_out := o |} (OpenIn path true) {| f_world := w; f_in := Some (s, O); f_out := o |}
| st_no_in w i o path : w_slot w path = None \/ (exists s, w_slot w path = Some s /\ w_data w s = None) ->
    step {| f_world := w; f_in := i; f_out := o |} (OpenIn path false) {| f_world := w; f_in := i; f_out := o |}
| st_out w i o path s : w_slot w path = Some s ->
    step {| f_world := w; f_in := i; f_out := o |} (OpenOut path true) {| f_world := put w s []; f_in := i; f_out := Some (s, O) |}
| st_no_out w i o path : w_slot w path = None ->
    step {| f_world := w; f_in := i; f_out := o |} (OpenOut path false) {| f_world := w; f_in := i; f_out := o |}
| st_read w s k o bs x y : w_data w s = Some bs -> skipn k bs = x ++ y -> x <> [] \/ y = [] ->
    step {| f_world := w; f_in := Some (s, k); f_out := o |} (Read (Got x)) {| f_world := w; f_in := Some (s, (k + length x)%nat); f_out := o |}
| st_again f : step f (Read Interrupted) f
| st_write w i s k bs x n : w_data w s = Some bs -> (0 < n <= length x)%nat ->
    step {| f_world := w; f_in := i; f_out := Some (s, k) |} (Write x (Took n))
         {| f_world := put w s (at_pos bs k (firstn n x)); f_in := i; f_out := Some (s, (k + n)%nat) |}
| st_wagain f x : step f (Write x WInterrupted) f
| st_said f m : step f (Stderr m true) f.
Inductive steps : fs -> list event -> fs -> Prop :=
| ss_none f : steps f [] f
| ss_more f e f1 t f2 : step f e f1 -> steps f1 t f2 -> steps f (e :: t) f2.

(** ** an operating system given by its answers: after the lists, every read meets the end of the
    file and every write takes all *)
Definition reply (x : list Z) (a : wanswer) : wanswer := match a with Took n => Took (Nat.min n (length x)) | a => a end.
Fixpoint sink_says (l : list wanswer) (t : list event) : Prop :=
  match t with
  | [] => True
  | Write x a :: t' =>
      match l with
      | [] => a = Took (length x) /\ sink_says [] t'
      | s :: l' => a = reply x s /\ sink_says l' t'
      end
  | _ :: t' => sink_says l t'
  end.
Definition source_says (src : list answer) (t : list event) : Prop :=
  exists n more, src ++ repeat (Got []) n = answers t ++ more.
(** how the two files are opened and whether messages can be written *)
Definition others_say (i o e : bool) (t : list event) : Prop :=
  Forall (fun ev => match ev with OpenIn _ ok => ok = i | OpenOut _ ok => ok = o | Stderr _ ok => ok = e | _ => True end) t.
