(** What it means for a configuration to be drawn in the plane.  Used in statements only. *)
From Coq Require Import ZArith List Bool Permutation.
From Verif Require Import PyBase Lattice Base Spec.
Import ListNotations.
Open Scope Z_scope.

(** The bond matrix is adjacency of the points [pos 0 .. pos (nsites - 1)]. *)
Definition drawn (c : configuration) (pos : Z -> Z * Z) : Prop :=
  0 <= nsites c /\ mrows (bond_matrix c) = nsites c /\ mcols (bond_matrix c) = nsites c /\
  (forall i j, 0 <= i < nsites c -> 0 <= j < nsites c -> pos i = pos j -> i = j) /\
  (forall i j, 0 <= i < nsites c -> 0 <= j < nsites c -> bond_entry (mat_at (bond_matrix c) i j) (pos i) (pos j)).

(** [a - m - b] is a path of two bonds. *)
Definition path (n : Z) (pos : Z -> Z * Z) (a m b : Z) : Prop :=
  0 <= a < n /\ 0 <= m < n /\ 0 <= b < n /\ a <> b /\ adjacent (pos a) (pos m) /\ adjacent (pos m) (pos b).

(** The program decides whether a path is straight, whatever the order of the three sites. *)
Definition straightness_decided (E : runtime) (c : configuration) (pos : Z -> Z * Z) : Prop :=
  forall a m b x y z, path (nsites c) pos a m b -> Permutation [x; y; z] [a; m; b] ->
  exists r, is_bond_linear E c x y z = Ok r /\ (r = true <-> straight (pos a) (pos m) (pos b)).

(** Sites that a restriction lets through as second site of a bond. *)
Definition allowed (n : Z) (r : restriction) (y : Z) : Prop :=
  match r with
  | RList [] => 0 <= y < n
  | RList l => In y l
  | RTuple _ b => In y b
  | RNested [] => 0 <= y < n
  | RNested _ => False
  end.

(** The matrix of rounded entries sends site [s] to row [iso s]. *)
Definition relabelling (n : Z) (T : Z -> Z -> rentry) (iso : Z -> Z) : Prop :=
  forall s, 0 <= s < n -> 0 <= iso s < n /\ (forall r, 0 <= r < n -> (T r s = ROne <-> r = iso s)).

(** The acceptance test of the search for a relabelling: the first entry is 1, all are 0 or 1. *)
Definition acceptable (n : Z) (T : Z -> Z -> rentry) : Prop :=
  T 0 0 = ROne /\ forall r s, 0 <= r < n -> 0 <= s < n -> T r s = ROne \/ T r s = RZero.

(** The search among the [2 ^ n] candidates stops at one that is a relabelling by [iso]. *)
Definition search_finds (n : Z) (T : Z -> Z -> Z -> rentry) (iso : Z -> Z) : Prop :=
  exists k, 0 <= k < 2 ^ n /\ acceptable n (T k) /\ (forall j, 0 <= j < k -> ~ acceptable n (T j)) /\
    relabelling n (T k) iso.

(** Row by row numbering of a rectangle of sites, [w] to a row. *)
Definition row_major (c : configuration) (w : Z) : Prop :=
  exists h v s, 1 <= h /\ 1 <= v /\ 1 <= s /\ w = s * h /\
    build_rectangular_bond_matrix h v s = Ok (bond_matrix c) /\
    nsites c = mrows (bond_matrix c) /\ lattice_type c = Periodic.
