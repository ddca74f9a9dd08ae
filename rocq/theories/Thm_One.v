(** Theorems on the rounded Hamiltonian of models with a single exchange coupling (C118). *)
From Coq Require Import ZArith List Bool QArith Qcanon Lia Permutation.
From Verif Require Import PyBase PyFacts Runtimes Lattice Base Interact Ham Round Spec SpecOps SpecTJ SpinDefs Geometry HamSpec SignDefs EnergyDefs RangeDefs RoundDefs MotionDefs OneDefs FRoundSym FOne Thm_RoundSym Examples.
Import ListNotations.
Open Scope Z_scope.

(** C118: the diagonal included, which is false with couplings that depend on the holes (C114_half_turn_refuted, C114_set_order_refuted). *)
Theorem C118_binary :
  forall p o, 2 <= p -> settles (mkFloats (binary p) o).
Proof. exact C118_binary_pf. Qed.
Print Assumptions C118_binary.

Theorem C118_orders :
  forall F E E' c w r K S arg arg' l l' m m' i j, (forall q, Permutation q (add_order F q)) -> settles F -> single_exchange K -> set_iter_ok E -> set_iter_ok E' -> filled c w r ->
  assembled_fl F E c K S arg l m -> assembled_fl F E' c K S arg' l' m' -> csr_at m i j = csr_at m' i j.
Proof. exact C118_orders_pf. Qed.
Print Assumptions C118_orders.

Theorem C118_motions :
  forall F E c w K S arg l m f i j i' j' d e d' e' s t s' t', (forall q, Permutation q (add_order F q)) -> settles F -> single_exchange K -> set_iter_ok E -> filled_whole c w -> assembled_fl F E c K S arg l m ->
  motion (nsites c) (point w) f ->
  nth_error l i = Some d -> nth_error l j = Some e -> nth_error l i' = Some d' -> nth_error l j' = Some e' ->
  describes (nsites c) (nholes c) (nbeta c) d s -> describes (nsites c) (nholes c) (nbeta c) e t ->
  describes (nsites c) (nholes c) (nbeta c) d' s' -> describes (nsites c) (nholes c) (nbeta c) e' t' ->
  carried (nsites c) f s s' -> carried (nsites c) f t t' ->
  csr_at m (Z.of_nat i') (Z.of_nat j') = csr_at m (Z.of_nat i) (Z.of_nat j).
Proof. exact C118_motions_pf. Qed.
Print Assumptions C118_motions.

Theorem C118_rotations :
  forall F E c K S arg l m k i j d e, (forall q, Permutation q (add_order F q)) -> settles F -> single_exchange K -> set_iter_ok E ->
  sized c -> nbh c = nbv c -> filled_whole c (nbh c * nblocs_side c) -> assembled_fl F E c K S arg l m ->
  nth_error l i = Some d -> nth_error l j = Some e ->
  exists i' j', get_index_in_basis c (rotate_determinant k c d) = Ok i' /\ get_index_in_basis c (rotate_determinant k c e) = Ok j' /\
    csr_at m i' j' = csr_at m (Z.of_nat i) (Z.of_nat j).
Proof. exact C118_rotations_pf. Qed.
Print Assumptions C118_rotations.

Theorem C118_half_turn :
  forall F E c K S arg l m k i j d e, (forall q, Permutation q (add_order F q)) -> settles F -> single_exchange K -> set_iter_ok E ->
  sized c -> k mod 4 = 2 -> filled_whole c (nbh c * nblocs_side c) -> assembled_fl F E c K S arg l m ->
  nth_error l i = Some d -> nth_error l j = Some e ->
  exists i' j', get_index_in_basis c (rotate_determinant k c d) = Ok i' /\ get_index_in_basis c (rotate_determinant k c e) = Ok j' /\
    csr_at m i' j' = csr_at m (Z.of_nat i) (Z.of_nat j).
Proof. exact C118_half_turn_pf. Qed.
Print Assumptions C118_half_turn.

(** The chain of C114_half_turn_refuted with the exchange 0.1 on all bonds: three times -0.05, which is rounded, and the same at both ends. *)
Definition tenth : Qc := binary 53 (qfrac 1 10).
Definition even_couplings : interactions := mkInter 0 tenth tenth tenth 0 0 0 0 0 0.
Definition even_ham : csr := match build_hamiltonian_fl binary64 cpython chain even_couplings (mkBasis chain chain_basis) chain_switches (RList []) with Ok m => m | Err _ => mkCsr 0 [] end.
Definition even_square_ham : csr := match build_hamiltonian_fl binary64 cpython ex22 even_couplings (mkBasis ex22 square_basis) square_switches (RList []) with Ok m => m | Err _ => mkCsr 0 [] end.
Example C118_example : (forall q, Permutation q (add_order binary64 q)) /\ settles binary64 /\ single_exchange even_couplings /\ set_iter_ok cpython /\
  (sized chain /\ 2 mod 4 = 2 /\ filled_whole chain (nbh chain * nblocs_side chain) /\ assembled_fl binary64 cpython chain even_couplings chain_switches (RList []) chain_basis even_ham /\
   nth_error chain_basis 4 = Some [0; 2; 4; 1; 3] /\ get_index_in_basis chain (rotate_determinant 2 chain [0; 2; 4; 1; 3]) = Ok 25 /\
   csr_at even_ham 25 25 = csr_at even_ham 4 4 /\ csr_at even_ham 4 4 <> (qz 3 * - (tenth / qz 2))%Qc /\ csr_at even_ham 4 4 <> 0%Qc) /\
  (sized ex22 /\ nbh ex22 = nbv ex22 /\ filled_whole ex22 (nbh ex22 * nblocs_side ex22) /\ assembled_fl binary64 cpython ex22 even_couplings square_switches (RList []) square_basis even_square_ham).
Proof.
  split; [intros; apply Permutation_refl|]. split; [apply C118_binary; lia|]. split; [split; reflexivity|]. split; [exact cpython_ok|]. split.
  - split; [unfold sized; vm_compute; intuition congruence|]. split; [reflexivity|]. split; [exact chain_filled|].
    split; [split; [vm_compute; reflexivity|]; unfold even_ham; destruct (build_hamiltonian_fl _ _ _ _ _ _ _) eqn:Q; [reflexivity | vm_compute in Q; discriminate]|].
    do 2 (split; [vm_compute; reflexivity|]). split; [apply Qc_is_canon; vm_compute; reflexivity|]. split; intros H; apply (f_equal this) in H; vm_compute in H; discriminate.
  - split; [unfold sized; vm_compute; intuition congruence|]. split; [reflexivity|]. split; [apply C114_example|].
    split; [vm_compute; reflexivity|]. unfold even_square_ham. destruct (build_hamiltonian_fl _ _ _ _ _ _ _) eqn:Q; [reflexivity | vm_compute in Q; discriminate].
Qed.
