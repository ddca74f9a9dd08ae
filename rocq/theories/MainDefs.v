(** Vocabulary of the statements on main.py.  Used in statements only. *)
From Coq Require Import ZArith List QArith Qcanon.
From Verif Require Import PyBase Lattice Base Spec.
Import ListNotations.
Open Scope Z_scope.

(** A determinant of the basis, its three groups in increasing order. *)
Definition fits (c : configuration) (d : list Z) : Prop :=
  increasing_groups (nholes c) (nbeta c) d /\ exists s, describes (nsites c) (nholes c) (nbeta c) d s.

(** No bond joins two equal spins. *)
Definition alternating (c : configuration) (s : occupation) : Prop :=
  forall x y, 0 <= x < nsites c -> 0 <= y < nsites c -> mat_at (bond_matrix c) x y <> 0 ->
  (s x = Up -> s y <> Up) /\ (s x = Down -> s y <> Down).

(** The rectangle of [h] by [v] blocks of side [k] with its particles. *)
Definition rectangle_of (h v k holes beta : Z) (c : configuration) : Prop :=
  build_rectangular_bond_matrix h v k = Ok (bond_matrix c) /\ nsites c = (k * h) * (k * v) /\ nholes c = holes /\ nbeta c = beta /\
  nalpha c = nsites c - holes - beta /\ nb_conf c = compute_dimension (nsites c) (nalpha c) (nbeta c) /\
  sites_restriction c = RTuple (zrange 0 (nsites c)) (zrange 0 (nsites c)) /\ lattice_type c = Periodic /\ nbh c = h /\ nbv c = v /\ nblocs_side c = k.
