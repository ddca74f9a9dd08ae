(** Theorems on the rounded Hamiltonian in other units of energy (C119). *)
From Coq Require Import ZArith List Bool QArith Qcanon Lia Permutation.
From Verif Require Import PyBase PyFacts Runtimes Lattice Base Interact Ham Round Spec SpecOps SpecTJ SpinDefs Geometry HamSpec SignDefs EnergyDefs RangeDefs RoundDefs GridDefs OneDefs ScaleDefs FScale Thm_RoundSym Examples.
Import ListNotations.
Open Scope Z_scope.

(** C119 *)
Theorem C119_nearest :
  forall p x y y', 2 <= p -> nearest_to p x y -> nearest_to p x y' -> y = y'.
Proof. exact C119_nearest_pf. Qed.
Print Assumptions C119_nearest.

Theorem C119_binary :
  forall p o e, 2 <= p -> rescales (power2 e) (mkFloats (binary p) o) /\ rescales (- power2 e)%Qc (mkFloats (binary p) o).
Proof. exact C119_binary_pf. Qed.
Print Assumptions C119_binary.

Theorem C119_scaled :
  forall F s E c w r K S arg arg' l l' m m' i j, (forall q, Permutation q (add_order F q)) -> by_place F -> rescales s F -> set_iter_ok E -> filled c w r ->
  assembled_fl F E c K S arg l m -> assembled_fl F E c (scaled s K) S arg' l' m' -> csr_at m' i j = (s * csr_at m i j)%Qc.
Proof. exact C119_scaled_pf. Qed.
Print Assumptions C119_scaled.

Theorem C119_units :
  forall p e o E c w r K S arg arg' l l' m m' i j, 2 <= p -> (forall q, Permutation q (o q)) -> (forall (f : Qc -> Qc) q, o (map f q) = map f (o q)) -> set_iter_ok E -> filled c w r ->
  assembled_fl (mkFloats (binary p) o) E c K S arg l m -> assembled_fl (mkFloats (binary p) o) E c (scaled (power2 e) K) S arg' l' m' -> csr_at m' i j = (power2 e * csr_at m i j)%Qc.
Proof. exact C119_units_pf. Qed.
Print Assumptions C119_units.

Theorem C119_signs :
  forall p o E c w r K S arg arg' l l' m m' i j, 2 <= p -> (forall q, Permutation q (o q)) -> (forall (f : Qc -> Qc) q, o (map f q) = map f (o q)) -> set_iter_ok E -> filled c w r ->
  assembled_fl (mkFloats (binary p) o) E c K S arg l m -> assembled_fl (mkFloats (binary p) o) E c (scaled (- (1)) K) S arg' l' m' -> csr_at m' i j = (- csr_at m i j)%Qc.
Proof. exact C119_signs_pf. Qed.
Print Assumptions C119_signs.

(** A factor that is not a power of two: the sum of three terms is rounded with the larger couplings only. *)
Theorem C119_triple_refuted :
  exists E c w K S l m m' i, set_iter_ok E /\ filled_whole c w /\ single_exchange K /\ has_bits 53 (i_J K) /\ has_bits 53 (qz 3 * i_J K)%Qc /\
  assembled_fl binary64 E c K S (RList []) l m /\ assembled_fl binary64 E c (scaled (qz 3) K) S (RList []) l m' /\ csr_at m' i i <> (qz 3 * csr_at m i i)%Qc.
Proof. exact C119_triple_refuted_pf. Qed.
Print Assumptions C119_triple_refuted.

(** The square of C114 with couplings four times as large and with the opposite signs. *)
Definition square_ham_at (s : Qc) : csr := match build_hamiltonian_fl binary64 cpython ex22 (scaled s square_couplings) (mkBasis ex22 square_basis) square_switches (RList []) with Ok m => m | Err _ => mkCsr 0 [] end.
Example C119_example : (forall q, Permutation q (add_order binary64 q)) /\ by_place binary64 /\ rescales (power2 2) binary64 /\ set_iter_ok cpython /\ filled_whole ex22 2 /\
  assembled_fl binary64 cpython ex22 square_couplings square_switches (RList []) square_basis square_ham /\
  assembled_fl binary64 cpython ex22 (scaled (power2 2) square_couplings) square_switches (RList []) square_basis (square_ham_at (power2 2)) /\
  assembled_fl binary64 cpython ex22 (scaled (- (1)) square_couplings) square_switches (RList []) square_basis (square_ham_at (- (1))) /\
  csr_at (square_ham_at (power2 2)) 2 9 = (power2 2 * csr_at square_ham 2 9)%Qc /\ csr_at (square_ham_at (- (1))) 2 2 = (- csr_at square_ham 2 2)%Qc /\ csr_at square_ham 2 9 <> 0%Qc /\ csr_at square_ham 2 2 <> 0%Qc /\
  csr_at square_ham 2 9 <> Qcopp (binary 53 (qfrac 3 10)).
Proof.
  destruct C114_example as (HO & HE & HF & HA & _ & H0 & H1). split; [exact HO|]. split; [intros f l; reflexivity|]. split; [apply C119_binary; lia|]. split; [exact HE|]. split; [exact HF|]. split; [exact HA|].
  split; [split; [vm_compute; reflexivity|]; unfold square_ham_at; destruct (build_hamiltonian_fl _ _ _ _ _ _ _) eqn:Q; [reflexivity | vm_compute in Q; discriminate]|].
  split; [split; [vm_compute; reflexivity|]; unfold square_ham_at; destruct (build_hamiltonian_fl _ _ _ _ _ _ _) eqn:Q; [reflexivity | vm_compute in Q; discriminate]|].
  do 2 (split; [apply Qc_is_canon; vm_compute; reflexivity|]). split; [exact H0|]. split; [intros H; apply (f_equal this) in H; vm_compute in H; discriminate | exact H1].
Qed.
