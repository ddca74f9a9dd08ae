(** Theorems on the motions of the lattice and the spin reversal of the Hamiltonian built with rounded operations (C115). *)
From Coq Require Import ZArith List Bool QArith Qcanon Lia Permutation.
From Verif Require Import PyBase PyFacts Runtimes Lattice Base Interact Ham Round Spec SpecOps SpecTJ SpinDefs Geometry HamSpec SignDefs EnergyDefs RangeDefs RoundDefs MotionDefs FMotion FRoundMove Thm_RoundSym Examples.
Import ListNotations.
Open Scope Z_scope.

(** C115: the rounding may be any function.  Elements off the diagonal are kept exactly by the motions of the lattice; those on the diagonal
    are not (C114_half_turn_refuted). *)
Theorem C115_motions :
  forall F E c w K S arg l m f i j i' j' d e d' e' s t s' t', (forall q, Permutation q (add_order F q)) -> set_iter_ok E -> filled_whole c w -> assembled_fl F E c K S arg l m ->
  motion (nsites c) (point w) f -> i <> j ->
  nth_error l i = Some d -> nth_error l j = Some e -> nth_error l i' = Some d' -> nth_error l j' = Some e' ->
  describes (nsites c) (nholes c) (nbeta c) d s -> describes (nsites c) (nholes c) (nbeta c) e t ->
  describes (nsites c) (nholes c) (nbeta c) d' s' -> describes (nsites c) (nholes c) (nbeta c) e' t' ->
  carried (nsites c) f s s' -> carried (nsites c) f t t' ->
  csr_at m (Z.of_nat i') (Z.of_nat j') = csr_at m (Z.of_nat i) (Z.of_nat j).
Proof. exact C115_motions_pf. Qed.
Print Assumptions C115_motions.

Theorem C115_rotations :
  forall F E c K S arg l m k i j d e, (forall q, Permutation q (add_order F q)) -> set_iter_ok E ->
  sized c -> nbh c = nbv c -> filled_whole c (nbh c * nblocs_side c) -> assembled_fl F E c K S arg l m ->
  nth_error l i = Some d -> nth_error l j = Some e -> i <> j ->
  exists i' j', get_index_in_basis c (rotate_determinant k c d) = Ok i' /\ get_index_in_basis c (rotate_determinant k c e) = Ok j' /\
    csr_at m i' j' = csr_at m (Z.of_nat i) (Z.of_nat j).
Proof. exact C115_rotations_pf. Qed.
Print Assumptions C115_rotations.

Theorem C115_half_turn :
  forall F E c K S arg l m k i j d e, (forall q, Permutation q (add_order F q)) -> set_iter_ok E ->
  sized c -> k mod 4 = 2 -> filled_whole c (nbh c * nblocs_side c) -> assembled_fl F E c K S arg l m ->
  nth_error l i = Some d -> nth_error l j = Some e -> i <> j ->
  exists i' j', get_index_in_basis c (rotate_determinant k c d) = Ok i' /\ get_index_in_basis c (rotate_determinant k c e) = Ok j' /\
    csr_at m i' j' = csr_at m (Z.of_nat i) (Z.of_nat j).
Proof. exact C115_half_turn_pf. Qed.
Print Assumptions C115_half_turn.

(** Reversing all spins keeps all elements, those of the diagonal included. *)
Theorem C115_spin_reversal :
  forall F E c c' w K S arg arg' l l' m m' rev i j d e, (forall q, Permutation q (add_order F q)) -> set_iter_ok E -> filled_whole c w -> 0 <= nalpha c ->
  assembled_fl F E c K S arg l m -> reverse_spins_basis E (mkBasis c l) = Ok (mkBasis c' rev) -> assembled_fl F E c' K S arg' l' m' ->
  nth_error rev i = Some d -> nth_error rev j = Some e ->
  exists i' j', get_index_in_basis c' d = Ok i' /\ get_index_in_basis c' e = Ok j' /\ csr_at m' i' j' = csr_at m (Z.of_nat i) (Z.of_nat j).
Proof. exact C115_spin_reversal_pf. Qed.
Print Assumptions C115_spin_reversal.

(** The two ways to the energy of a determinant give the same float. *)
Theorem C115_energy :
  forall F E c w r K S arg l m i d, (forall q, Permutation q (add_order F q)) -> set_iter_ok E -> filled c w r -> assembled_fl F E c K S arg l m ->
  nth_error l i = Some d -> s_bz S = true -> s_bV S = true -> compute_energy_fl F E c K d = Ok (csr_at m (Z.of_nat i) (Z.of_nat i)).
Proof. exact C115_energy_pf. Qed.
Print Assumptions C115_energy.

(** The square of C114 with one hole and one down; the element of three terms turned by a quarter, and the basis with reversed spins. *)
Definition turned_conf : configuration := match reverse_spins_basis cpython (mkBasis ex22 square_basis) with Ok b => b_conf b | Err _ => ex22 end.
Definition turned_basis : list (list Z) := match construct_basis turned_conf with Ok b => determinants b | Err _ => [] end.
Definition turned_ham : csr := match build_hamiltonian_fl binary64 cpython turned_conf square_couplings (mkBasis turned_conf turned_basis) square_switches (RList []) with Ok m => m | Err _ => mkCsr 0 [] end.
Example C115_example : (forall q, Permutation q (add_order binary64 q)) /\ set_iter_ok cpython /\ sized ex22 /\ nbh ex22 = nbv ex22 /\ filled_whole ex22 (nbh ex22 * nblocs_side ex22) /\ 0 <= nalpha ex22 /\
  assembled_fl binary64 cpython ex22 square_couplings square_switches (RList []) square_basis square_ham /\
  motion (2 * 2) (point 2) (mirror_across 2) /\
  nth_error square_basis 2 = Some [0; 3; 1; 2] /\ nth_error square_basis 9 = Some [3; 0; 1; 2] /\
  rotate_determinant 1 ex22 [0; 3; 1; 2] = [2; 1; 0; 3] /\ get_index_in_basis ex22 [2; 1; 0; 3] = Ok 7 /\ get_index_in_basis ex22 (rotate_determinant 1 ex22 [3; 0; 1; 2]) = Ok 4 /\
  csr_at square_ham 7 4 = csr_at square_ham 2 9 /\ csr_at square_ham 2 9 <> 0%Qc /\
  (exists rev, reverse_spins_basis cpython (mkBasis ex22 square_basis) = Ok (mkBasis turned_conf rev) /\ nth_error rev 2 = Some [0; 1; 2; 3]) /\
  assembled_fl binary64 cpython turned_conf square_couplings square_switches (RList []) turned_basis turned_ham /\
  get_index_in_basis turned_conf [0; 1; 2; 3] = Ok 0 /\ csr_at turned_ham 0 0 = csr_at square_ham 2 2 /\ csr_at square_ham 2 2 <> 0%Qc /\
  s_bz square_switches = true /\ s_bV square_switches = true.
Proof.
  destruct C114_example as (HO & HE & HF & HA & _). split; [exact HO|]. split; [exact HE|]. split; [unfold sized; vm_compute; intuition congruence|]. split; [reflexivity|]. split; [exact HF|]. split; [vm_compute; discriminate|].
  split; [exact HA|]. split; [apply (C97_mirrors_pf 2 2); reflexivity|]. do 5 (split; [vm_compute; reflexivity|]).
  split; [apply Qc_is_canon; vm_compute; reflexivity|]. split; [intros H; apply (f_equal this) in H; vm_compute in H; discriminate|].
  split; [eexists; split; vm_compute; reflexivity|].
  split; [split; [vm_compute; reflexivity|]; unfold turned_ham; destruct (build_hamiltonian_fl _ _ _ _ _ _ _) eqn:Q; [reflexivity | vm_compute in Q; discriminate]|].
  split; [vm_compute; reflexivity|]. split; [apply Qc_is_canon; vm_compute; reflexivity|]. split; [intros H; apply (f_equal this) in H; vm_compute in H; discriminate|]. split; reflexivity.
Qed.
