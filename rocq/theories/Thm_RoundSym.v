(** Theorems on the symmetry of the Hamiltonian built with rounded operations (C114). *)
From Coq Require Import ZArith List Bool QArith Qcanon Lia Permutation.
From Verif Require Import PyBase PyFacts Runtimes Lattice Base Interact Ham Round Spec SpecOps SpecTJ SpinDefs Geometry HamSpec SignDefs EnergyDefs RangeDefs RoundDefs FRound FRound2 FRoundSym Examples.
Import ListNotations.
Open Scope Z_scope.

(** C114: no hypothesis on the rounding, which may be any function. *)
Theorem C114_symmetric :
  forall F E c w r K S arg l m i j, (forall q, Permutation q (add_order F q)) -> set_iter_ok E -> filled c w r -> assembled_fl F E c K S arg l m ->
  csr_at m i j = csr_at m j i.
Proof. exact C114_symmetric_pf. Qed.
Print Assumptions C114_symmetric.

Theorem C114_lower :
  forall F E c w r K S arg l m m1 i j, (forall q, Permutation q (add_order F q)) -> set_iter_ok E -> filled c w r -> assembled_fl F E c K S arg l m ->
  lower_triangle m m1 -> csr_at m1 i j = csr_at m i j.
Proof. exact C114_lower_pf. Qed.
Print Assumptions C114_lower.

Theorem C114_order :
  forall F E E' c w r K S arg arg' l l' m m' i j, (forall q, Permutation q (add_order F q)) -> set_iter_ok E -> set_iter_ok E' -> filled c w r ->
  assembled_fl F E c K S arg l m -> assembled_fl F E' c K S arg' l' m' -> i <> j -> csr_at m i j = csr_at m' i j.
Proof. exact C114_order_pf. Qed.
Print Assumptions C114_order.

(** A chain of five sites with one hole, repulsion 0.6 and attraction 0.1: the diagonal depends on the order of the sum. *)
Theorem C114_half_turn_refuted :
  exists E c K S l m i d i', set_iter_ok E /\ sized c /\ filled_whole c (nbh c * nblocs_side c) /\ assembled_fl binary64 E c K S (RList []) l m /\
  nth_error l i = Some d /\ get_index_in_basis c (rotate_determinant 2 c d) = Ok i' /\ csr_at m i' i' <> csr_at m (Z.of_nat i) (Z.of_nat i).
Proof. exact C114_half_turn_refuted_pf. Qed.
Print Assumptions C114_half_turn_refuted.

Theorem C114_set_order_refuted :
  exists E E' c w K S l m m' i, set_iter_ok E /\ set_iter_ok E' /\ filled_whole c w /\ assembled_fl binary64 E c K S (RList []) l m /\ assembled_fl binary64 E' c K S (RList []) l m' /\
  csr_at m i i <> csr_at m' i i.
Proof. exact C114_set_order_refuted_pf. Qed.
Print Assumptions C114_set_order_refuted.

(** Four sites with one hole and one down, all couplings tenths: an element off the diagonal to which three terms contribute, -0.2, -0.2 and
    0.1; it is not the float -0.3, and it equals its mirror image. *)
Definition square_couplings : interactions := let t k := binary 53 (qfrac k 10) in mkInter (t 3) (t 1) (t 2) (t 1) (t 1) (t 2) (t 1) (t 2) (t 1) (t 3).
Definition square_switches : switches := mkSwitches true true true true true true.
Definition square_basis : list (list Z) := match construct_basis ex22 with Ok b => determinants b | Err _ => [] end.
Definition square_ham : csr := match build_hamiltonian_fl binary64 cpython ex22 square_couplings (mkBasis ex22 square_basis) square_switches (RList []) with Ok m => m | Err _ => mkCsr 0 [] end.
Example C114_example : (forall q, Permutation q (add_order binary64 q)) /\ set_iter_ok cpython /\ filled_whole ex22 2 /\
  assembled_fl binary64 cpython ex22 square_couplings square_switches (RList []) square_basis square_ham /\
  csr_at square_ham 2 9 = csr_at square_ham 9 2 /\ csr_at square_ham 2 9 <> 0%Qc /\ csr_at square_ham 2 9 <> Qcopp (binary 53 (qfrac 3 10)).
Proof.
  split; [intros; apply Permutation_refl|]. split; [exact cpython_ok|].
  split; [split; [exists 2, 2, 1; vm_compute; repeat (split; [congruence|]); reflexivity|]; split; [reflexivity|]; vm_compute; intuition congruence|].
  split; [split; [vm_compute; reflexivity|]; unfold square_ham; destruct (build_hamiltonian_fl _ _ _ _ _ _ _) eqn:Q; [reflexivity | vm_compute in Q; discriminate]|].
  split; [apply Qc_is_canon; vm_compute; reflexivity|]. split; intros H; apply (f_equal this) in H; vm_compute in H; discriminate.
Qed.
