(** Vocabulary of the statements on the sum of the energies.  Used in statements only. *)
From Coq Require Import ZArith List Bool QArith Qcanon.
From Verif Require Import PyBase Interact Lattice Base Spec SpecTJ Ham SpinDefs EnergyDefs.
Import ListNotations.
Open Scope Z_scope.

(** pairs of sites across the squares of [h] rows of [w] sites *)
Definition grid_diagonals (w h : Z) : Z := 2 * ((w - 1) * (h - 1)).
(** sum of the diagonal elements *)
Definition csr_trace (m : csr) : Qc := sum_sites (csr_dim m) (fun i => csr_at m i i).
(** The exchange does not depend on the holes, or there are none. *)
Definition one_exchange (c : configuration) (K : interactions) : Prop := nholes c = 0 \/ (i_Jhpar K = i_J K /\ i_Jhper K = i_J K).
(** As many states, orthogonal to each other, as the dimension. *)
Definition all_levels (m : csr) (es : list (Qc * list Qc)) : Prop :=
  zlen es = csr_dim m /\ (forall e v, In (e, v) es -> eigenvector m e v) /\
  forall i j x y, i <> j -> nth_error es i = Some x -> nth_error es j = Some y -> inner (snd x) (snd y) = 0%Qc.
(** [n (n - 1)] times the mean energy of all the states of [h] holes, [a] and [b] spins on a lattice of the given bonds and diagonals *)
Definition mean_energy (K : interactions) (S : switches) (h a b bonds diags : Z) : Qc :=
  (only (s_bz S) (- (i_J K) * qz (bonds * (a * b))) + only (s_bV S) ((i_VNN K * qz bonds + i_VNNNper K * qz diags) * qz (h * (h - 1))))%Qc.
