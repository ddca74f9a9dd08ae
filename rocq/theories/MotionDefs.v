(** Vocabulary of the statements on the motions of the lattice.  Used in statements only. *)
From Coq Require Import ZArith List Bool QArith Qcanon.
From Verif Require Import PyBase Lattice Base Spec SpecTJ SpinDefs.
Import ListNotations.
Open Scope Z_scope.

(** [f] moves the sites; it keeps the distances along both axes, or exchanges the axes. *)
Definition motion (n : Z) (p : Z -> Z * Z) (f : Z -> Z) : Prop :=
  let across x y := Z.abs (fst (p x) - fst (p y)) in
  let down x y := Z.abs (snd (p x) - snd (p y)) in
  (forall x, 0 <= x < n -> 0 <= f x < n) /\
  ((forall x y, 0 <= x < n -> 0 <= y < n -> across (f x) (f y) = across x y /\ down (f x) (f y) = down x y) \/
   (forall x y, 0 <= x < n -> 0 <= y < n -> across (f x) (f y) = down x y /\ down (f x) (f y) = across x y)).
(** [s'] is [s] after the motion. *)
Definition carried (n : Z) (f : Z -> Z) (s s' : occupation) : Prop := forall x, 0 <= x < n -> s' (f x) = s x.
(** [v'] is [v] after the motion. *)
Definition moved (c : configuration) (l : list (list Z)) (f : Z -> Z) (v v' : list Qc) : Prop :=
  length v = length l /\ length v' = length l /\
  forall i i' d d' s s', nth_error l i = Some d -> nth_error l i' = Some d' ->
    describes (nsites c) (nholes c) (nbeta c) d s -> describes (nsites c) (nholes c) (nbeta c) d' s' -> carried (nsites c) f s s' ->
    nth i' v' 0%Qc = nth i v 0%Qc.

(** Left and right exchanged, top and bottom exchanged, rows and columns exchanged. *)
Definition mirror_across (w x : Z) : Z := w * (x / w) + (w - 1 - x mod w).
Definition mirror_down (w h x : Z) : Z := w * (h - 1 - x / w) + x mod w.
Definition transpose_site (w x : Z) : Z := w * (x mod w) + x / w.
