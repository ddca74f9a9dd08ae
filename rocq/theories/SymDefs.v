(** Vocabulary of the statements on symmetries of states with real amplitudes.  Used in statements only. *)
From Coq Require Import ZArith List Bool QArith Qcanon Reals.
From Verif Require Import PyBase Base Spec MotionDefs RealDefs.
Import ListNotations.
Open Scope R_scope.

(** [v'] is [v] after the motion [f] of the sites. *)
Definition moved_real (c : configuration) (l : list (list Z)) (f : Z -> Z) (v v' : nat -> R) : Prop :=
  forall i i' d d' s s', nth_error l i = Some d -> nth_error l i' = Some d' ->
    describes (nsites c) (nholes c) (nbeta c) d s -> describes (nsites c) (nholes c) (nbeta c) d' s' -> carried (nsites c) f s s' -> v' i' = v i.
(** [v'], in the basis [l'] of [c'], is [v] with all spins reversed. *)
Definition reversed_real (c c' : configuration) (l l' : list (list Z)) (v v' : nat -> R) : Prop :=
  forall i i' d d' s s', nth_error l i = Some d -> nth_error l' i' = Some d' ->
    describes (nsites c) (nholes c) (nbeta c) d s -> describes (nsites c') (nholes c') (nbeta c') d' s' ->
    (forall x, (0 <= x < nsites c)%Z -> s' x = match s x with Up => Down | Down => Up | Hole => Hole end) -> v' i' = v i.
(** [v'] has the amplitudes of [v], each with the sign [f] of the determinant. *)
Definition signed_real (c : configuration) (l : list (list Z)) (f : occupation -> Qc) (v v' : nat -> R) : Prop :=
  forall i d s, nth_error l i = Some d -> describes (nsites c) (nholes c) (nbeta c) d s -> v' i = real (f s) * v i.
