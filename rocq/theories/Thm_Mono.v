(** Theorems on the order of the rounded diagonals (C120). *)
From Coq Require Import ZArith List Bool QArith Qcanon Lia Permutation.
From Verif Require Import PyBase PyFacts Runtimes Lattice Base Interact Ham Round Spec SpecOps SpecTJ SpinDefs Geometry HamSpec SignDefs EnergyDefs RangeDefs RoundDefs MonoDefs FMono Examples.
Import ListNotations.
Open Scope Z_scope.

(** C120 *)
Theorem C120_binary :
  forall p o, 2 <= p -> monotone (mkFloats (binary p) o).
Proof. exact C120_binary_pf. Qed.
Print Assumptions C120_binary.

Theorem C120_static :
  forall F E c K K' d x x', monotone F -> raises K K' -> compute_static_spin_interaction_fl F E c K d = Ok x -> compute_static_spin_interaction_fl F E c K' d = Ok x' -> (x <= x')%Qc.
Proof. exact C120_static_pf. Qed.
Print Assumptions C120_static.

Theorem C120_repulsion :
  forall F E c K K' d x x', monotone F -> raises K K' -> compute_hole_repulsion_fl F E c K d = Ok x -> compute_hole_repulsion_fl F E c K' d = Ok x' -> (x <= x')%Qc.
Proof. exact C120_repulsion_pf. Qed.
Print Assumptions C120_repulsion.

Theorem C120_diagonal :
  forall F E c w r K K' S arg arg' l l' m m' i, (forall q, Permutation q (add_order F q)) -> monotone F -> raises K K' -> set_iter_ok E -> filled c w r ->
  assembled_fl F E c K S arg l m -> assembled_fl F E c K' S arg' l' m' -> (csr_at m i i <= csr_at m' i i)%Qc.
Proof. exact C120_diagonal_pf. Qed.
Print Assumptions C120_diagonal.

Theorem C120_attractive :
  forall F E c K d x, monotone F -> fl F 0%Qc = 0%Qc -> (0 <= i_J K)%Qc -> (0 <= i_Jhpar K)%Qc -> (0 <= i_Jhper K)%Qc -> compute_static_spin_interaction_fl F E c K d = Ok x -> (x <= 0)%Qc.
Proof. exact C120_attractive_pf. Qed.
Print Assumptions C120_attractive.

Theorem C120_repulsive :
  forall F E c K d x, monotone F -> fl F 0%Qc = 0%Qc -> (0 <= i_VNN K)%Qc -> (0 <= i_VNNNper K)%Qc -> compute_hole_repulsion_fl F E c K d = Ok x -> (0 <= x)%Qc.
Proof. exact C120_repulsive_pf. Qed.
Print Assumptions C120_repulsive.

(** Four sites with two holes and one down.  The exchanges are lowered, the repulsion on a bond is raised; the element of one determinant is raised, with both values on the diagonal. *)
Definition pair_square : configuration := ex_rect 2 2 1 2 1.
Definition low_couplings : interactions := let t k := binary 53 (qfrac k 10) in mkInter 0 (t 4) (t 3) (t 2) 0 0 0 0 (t 1) (t 2).
Definition high_couplings : interactions := let t k := binary 53 (qfrac k 10) in mkInter 0 (t 3) (t 1) (t 1) (t 7) 0 0 0 (t 2) (t 2).
Definition pair_square_switches : switches := mkSwitches false true false false false true.
Definition pair_square_basis : list (list Z) := match construct_basis pair_square with Ok b => determinants b | Err _ => [] end.
Definition pair_square_ham (K : interactions) : csr := match build_hamiltonian_fl binary64 cpython pair_square K (mkBasis pair_square pair_square_basis) pair_square_switches (RList []) with Ok m => m | Err _ => mkCsr 0 [] end.
Example C120_example : (forall q, Permutation q (add_order binary64 q)) /\ monotone binary64 /\ fl binary64 0%Qc = 0%Qc /\ raises low_couplings high_couplings /\ set_iter_ok cpython /\ filled_whole pair_square 2 /\
  assembled_fl binary64 cpython pair_square low_couplings pair_square_switches (RList []) pair_square_basis (pair_square_ham low_couplings) /\
  assembled_fl binary64 cpython pair_square high_couplings pair_square_switches (RList []) pair_square_basis (pair_square_ham high_couplings) /\
  (csr_at (pair_square_ham low_couplings) 0 0 < csr_at (pair_square_ham high_couplings) 0 0)%Qc /\
  (exists x y, compute_static_spin_interaction_fl binary64 cpython pair_square low_couplings [0; 1; 2; 3] = Ok x /\ (x < 0)%Qc /\
               compute_hole_repulsion_fl binary64 cpython pair_square low_couplings [0; 1; 2; 3] = Ok y /\ (0 < y)%Qc).
Proof.
  split; [intros; apply Permutation_refl|]. split; [apply C120_binary; lia|]. split; [reflexivity|]. split; [repeat split; vm_compute; discriminate|]. split; [exact cpython_ok|].
  split; [split; [exists 2, 2, 1; vm_compute; repeat (split; [congruence|]); reflexivity|]; split; [reflexivity|]; vm_compute; intuition congruence|].
  split; [split; [vm_compute; reflexivity|]; unfold pair_square_ham; destruct (build_hamiltonian_fl _ _ _ _ _ _ _) eqn:Q; [reflexivity | vm_compute in Q; discriminate]|].
  split; [split; [vm_compute; reflexivity|]; unfold pair_square_ham; destruct (build_hamiltonian_fl _ _ _ _ _ _ _) eqn:Q; [reflexivity | vm_compute in Q; discriminate]|].
  split; [vm_compute; reflexivity|].
  destruct (compute_static_spin_interaction_fl binary64 cpython pair_square low_couplings [0; 1; 2; 3]) as [x|] eqn:Qx; [|vm_compute in Qx; discriminate].
  destruct (compute_hole_repulsion_fl binary64 cpython pair_square low_couplings [0; 1; 2; 3]) as [y|] eqn:Qy; [|vm_compute in Qy; discriminate].
  exists x, y. split; [reflexivity|]. split; [|split; [reflexivity|]].
  - assert (X : match compute_static_spin_interaction_fl binary64 cpython pair_square low_couplings [0; 1; 2; 3] with Ok x => negb (Qle_bool 0 (this x)) | Err _ => false end = true) by (vm_compute; reflexivity).
    rewrite Qx in X. apply negb_true_iff in X. apply Qnot_le_lt. intros L. apply Qle_bool_iff in L. change (this 0%Qc) with 0%Q in L. congruence.
  - assert (X : match compute_hole_repulsion_fl binary64 cpython pair_square low_couplings [0; 1; 2; 3] with Ok x => negb (Qle_bool (this x) 0) | Err _ => false end = true) by (vm_compute; reflexivity).
    rewrite Qy in X. apply negb_true_iff in X. apply Qnot_le_lt. intros L. apply Qle_bool_iff in L. change (this 0%Qc) with 0%Q in L. congruence.
Qed.
