(** Sources in pieces: what they deliver. *)
From Verif Require Import Base Chunk.

(** pieces that are not empty, and interruptions *)
Inductive pieces : list answer -> list Z -> Prop :=
| pi_none : pieces [] []
| pi_got b bs src l : pieces src l -> pieces (Got (b :: bs) :: src) (b :: bs ++ l)
| pi_again src l : pieces src l -> pieces (Interrupted :: src) l.
(** a source delivers these bytes before its end, or before an error *)
Definition delivers (src : list answer) (l : list Z) : Prop :=
  exists s more, pieces s l /\ src = s ++ more /\ (more = [] \/ exists m, more = Got [] :: m \/ more = Failed :: m).

(** reading in pieces does what reading the bytes does *)
Definition same {A} (r : reader A) (c : creader A) : Prop := forall src l, delivers src l ->
  match r l with
  | Ok (a, l') => exists src', c src = Ok (a, src') /\ delivers src' l'
  | Panic => c src = Panic
  end.
