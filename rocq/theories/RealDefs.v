(** Vocabulary of the statements on states with real amplitudes.  Used in statements only. *)
From Coq Require Import ZArith List QArith Qcanon Reals Qreals.
From Verif Require Import PyBase Lattice Base Interact Ham Spin Spec SpecTJ SpinDefs RealSum.
Import ListNotations.
Open Scope R_scope.

Definition real (x : Qc) : R := Q2R (this x).
(** a column of the program as a vector *)
Definition reals (l : list Qc) (i : nat) : R := real (nth i l 0%Qc).
Definition dimension (m : csr) : nat := Z.to_nat (csr_dim m).
Definition element (m : csr) (i j : nat) : R := real (csr_at m (Z.of_nat i) (Z.of_nat j)).
(** [v] is an eigenvector of [m], [e] its energy; both are real. *)
Definition energy_state (m : csr) (e : R) (v : nat -> R) : Prop :=
  (exists i, (i < dimension m)%nat /\ v i <> 0) /\
  forall i, (i < dimension m)%nat -> rsum (dimension m) (fun j => element m i j * v j) = e * v i.
(** The smallest energy. *)
Definition ground_energy (m : csr) (e : R) : Prop := (exists v, energy_state m e v) /\ forall x u, energy_state m x u -> e <= x.
(** As many orthonormal eigenvectors as determinants, by increasing energies. *)
Definition all_states (m : csr) (e : nat -> R) (v : nat -> nat -> R) : Prop :=
  let n := dimension m in
  (forall k, (k < n)%nat -> energy_state m (e k) (v k)) /\
  (forall k k', (k < n)%nat -> (k' < n)%nat -> rsum n (fun i => v k i * v k' i) = if Nat.eqb k k' then 1 else 0) /\
  forall k k', (k <= k')%nat -> (k' < n)%nat -> e k <= e k'.
(** [v] has everywhere the sign [f] of the determinant. *)
Definition follows_real (c : configuration) (l : list (list Z)) (f : occupation -> Qc) (v : nat -> R) : Prop :=
  forall k d s, nth_error l k = Some d -> describes (nsites c) (nholes c) (nbeta c) d s -> 0 < real (f s) * v k.
(** There is one ground state up to a factor, with everywhere the sign [f] of the determinant; no other energy has a state with these signs. *)
Definition one_ground_state (c : configuration) (l : list (list Z)) (m : csr) (f : occupation -> Qc) : Prop :=
  exists e v, ground_energy m e /\ energy_state m e v /\ follows_real c l f v /\
    (forall v', energy_state m e v' -> exists x, forall i, (i < dimension m)%nat -> v' i = x * v i) /\
    (forall e' v', energy_state m e' v' -> follows_real c l f v' -> e' = e).
(** The matrix of compute_S2: its columns are what the function gives for the vectors with a single 1. *)
Definition unit_column (n k : nat) : list Qc := map (fun i => if Nat.eqb i k then 1%Qc else 0%Qc) (seq 0 n).
Definition spin_element (E : runtime) (c : configuration) (n i j : nat) : R :=
  match compute_S2 E c (unit_column n j) with Ok u => reals u i | Err _ => 0 end.
