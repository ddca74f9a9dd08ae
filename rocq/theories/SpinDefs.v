(** Vocabulary of the statements on vectors and spins.  Used in statements only. *)
From Coq Require Import String ZArith List Bool Sorted QArith Qcanon.
From Verif Require Import PyBase Lattice Base Spec SpecTJ SpecSpin Ham.
Import ListNotations.
Open Scope Z_scope.

(** A configuration without restriction, whose numbers fit together. *)
Definition proper (c : configuration) : Prop :=
  0 <= nholes c /\ 0 <= nbeta c /\ 0 <= nalpha c /\ nalpha c = nsites c - nholes c - nbeta c /\
  nb_conf c = compute_dimension (nsites c) (nalpha c) (nbeta c) /\
  sites_restriction c = RTuple (zrange 0 (nsites c)) (zrange 0 (nsites c)).

(** At most one hole, or sets of sites list their elements in increasing order. *)
Definition holes_in_order (E : runtime) (c : configuration) : Prop :=
  nholes c <= 1 \/ forall l, (forall x, In x l -> 0 <= x < nsites c) -> Sorted Z.lt (set_iter E l).

(** [v] lists the amplitudes of [psi] on the determinants [l]. *)
Definition amplitudes (c : configuration) (l : list (list Z)) (v : list Qc) (psi : wave) : Prop :=
  length v = length l /\
  forall k d s, nth_error l k = Some d -> describes (nsites c) (nholes c) (nbeta c) d s -> nth_error v k = Some (psi s).

(** product of the matrix and the vector *)
Definition times (m : csr) (v : list Qc) : list Qc :=
  map (fun i => qsum (fun j => (csr_at m (Z.of_nat i) (Z.of_nat j) * nth j v 0)%Qc) (seq 0 (length v))) (seq 0 (length v)).

(** scalar product *)
Definition inner (u v : list Qc) : Qc := qsum (fun k => (nth k u 0 * nth k v 0)%Qc) (seq 0 (length u)).

(** usual name of the multiplicity [k + 1] *)
Definition multiplicity_name (k : Z) : string :=
  nth (Z.to_nat k) ["singlet"; "doublet"; "triplet"; "quartet"; "quintet"]%string "multiplet"%string.

(** [v] is a state of energy [e]. *)
Definition eigenvector (m : csr) (e : Qc) (v : list Qc) : Prop :=
  zlen v = csr_dim m /\ times m v = map (fun x => (e * x)%Qc) v /\ exists x, In x v /\ x <> 0%Qc.
