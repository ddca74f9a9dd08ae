(** Moves of particles.  Nothing here refers to the model. *)
From Coq Require Import ZArith List Bool.
From Verif Require Import Spec.
Import ListNotations.
Open Scope Z_scope.

(** The contents of [x] and [y] are exchanged. *)
Definition swap_state (x y : Z) (s : occupation) : occupation :=
  fun z => if z =? x then s y else if z =? y then s x else s z.

(** The contents of [m] and [e] move one step towards [h]; the content of [h] goes to [e]. *)
Definition shift_state (h m e : Z) (s : occupation) : occupation :=
  fun z => if z =? h then s m else if z =? m then s e else if z =? e then s h else s z.

(** One site carries a spin up and the other a spin down. *)
Definition opposite (p q : particle) : Prop := (p = Up /\ q = Down) \/ (p = Down /\ q = Up).

(** Two points lie on one row or on one column. *)
Definition in_line (p q : Z * Z) : Prop := fst p = fst q \/ snd p = snd q.

(** Two points are the opposite corners of a unit square. *)
Definition diagonal (p q : Z * Z) : Prop :=
  Z.abs (fst p - fst q) = 1 /\ Z.abs (snd p - snd q) = 1.

(** [d] is the determinant of the state [s]: its three groups are listed in increasing order. *)
Definition determinant_of (n h b : Z) (d : list Z) (s : occupation) : Prop :=
  describes n h b d s /\ increasing_groups h b d.
