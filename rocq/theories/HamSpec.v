(** Vocabulary of the statements on the Hamiltonian.  Used in statements only. *)
From Coq Require Import ZArith List Bool.
From Verif Require Import PyBase Lattice Base Interact Ham Spec Geometry.
Import ListNotations.
Open Scope Z_scope.

(** A row by row rectangle, [w] sites to a row, with [r] as the sites taken into account. *)
Definition filled (c : configuration) (w : Z) (r : list Z) : Prop :=
  row_major c w /\ sites_restriction c = RTuple r r /\
  0 <= nholes c /\ 0 <= nbeta c /\ nalpha c = nsites c - nholes c - nbeta c.

(** All the sites are taken into account. *)
Definition filled_whole (c : configuration) (w : Z) : Prop := filled c w (zrange 0 (nsites c)).

(** The sizes stored in the configuration are those of its lattice. *)
Definition sized (c : configuration) : Prop :=
  1 <= nbh c /\ 1 <= nbv c /\ 1 <= nblocs_side c /\
  build_rectangular_bond_matrix (nbh c) (nbv c) (nblocs_side c) = Ok (bond_matrix c) /\
  nsites c = mrows (bond_matrix c) /\ lattice_type c = Periodic.

(** [l] is the basis and [m] the Hamiltonian. *)
Definition assembled (E : runtime) (c : configuration) (K : interactions) (S : switches) (arg : restriction)
    (l : list (list Z)) (m : csr) : Prop :=
  construct_basis c = Ok (mkBasis c l) /\ build_hamiltonian E c K (mkBasis c l) S arg = Ok m.

(** One switch on. *)
Definition only_t : switches := mkSwitches true false false false false false.
Definition only_z : switches := mkSwitches false true false false false false.
Definition only_ij : switches := mkSwitches false false true false false false.
Definition only_SD : switches := mkSwitches false false false true false false.
Definition only_tN : switches := mkSwitches false false false false true false.
Definition only_V : switches := mkSwitches false false false false false true.
