(** Vocabulary of the statements on the Hamiltonian of any drawn lattice.  Used in statements only. *)
From Coq Require Import ZArith List Bool QArith Qcanon.
From Verif Require Import PyBase Lattice Base Interact Ham Spec SpecOps SpecTJ SpinDefs Geometry TraceDefs.
Import ListNotations.
Open Scope Z_scope.

(** A lattice drawn in the plane, whose angles the program recognises and whose diagonals are crossed in two bonds,
    with [r] as the sites taken into account. *)
Definition filled_drawn (E : runtime) (c : configuration) (pos : Z -> Z * Z) (r : list Z) : Prop :=
  drawn c pos /\ straightness_decided E c pos /\
  (forall x y, 0 <= x < nsites c -> 0 <= y < nsites c -> diagonal (pos x) (pos y) -> exists m, path (nsites c) pos x m y) /\
  sites_restriction c = RTuple r r /\ 0 <= nholes c /\ 0 <= nbeta c /\ nalpha c = nsites c - nholes c - nbeta c.
Definition filled_drawn_whole (E : runtime) (c : configuration) (pos : Z -> Z * Z) : Prop := filled_drawn E c pos (zrange 0 (nsites c)).

(** No spins are flipped, or the exchanges do not depend on the holes, or the sites are numbered row by row. *)
Definition flips_agree (c : configuration) (pos : Z -> Z * Z) (K : interactions) (S : switches) : Prop :=
  s_bij S = false \/ one_exchange c K \/ exists w, row_major c w /\ forall x, 0 <= x < nsites c -> pos x = point w x.

(** [f] lays the figure [p] on the figure [p']; it keeps the distances along both axes, or exchanges the axes. *)
Definition same_figure (n : Z) (p p' : Z -> Z * Z) (f : Z -> Z) : Prop :=
  let across q x y := Z.abs (fst (q x) - fst (q y)) in
  let down q x y := Z.abs (snd (q x) - snd (q y)) in
  (forall x, 0 <= x < n -> 0 <= f x < n) /\
  ((forall x y, 0 <= x < n -> 0 <= y < n -> across p' (f x) (f y) = across p x y /\ down p' (f x) (f y) = down p x y) \/
   (forall x y, 0 <= x < n -> 0 <= y < n -> across p' (f x) (f y) = down p x y /\ down p' (f x) (f y) = across p x y)).

(** The same numbers of sites, holes and downs. *)
Definition same_filling (c c' : configuration) : Prop := nsites c' = nsites c /\ nholes c' = nholes c /\ nbeta c' = nbeta c.
(** The energies of [m] are those of [m']. *)
Definition same_energies (m m' : csr) : Prop := forall e, (exists v, eigenvector m e v) <-> (exists v, eigenvector m' e v).
