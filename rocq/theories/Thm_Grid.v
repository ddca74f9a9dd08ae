(** Theorems on couplings that are never rounded (C117). *)
From Coq Require Import ZArith List Bool QArith Qcanon Lia Permutation.
From Verif Require Import PyBase PyFacts Runtimes Lattice Base Interact Ham Round Spec SpecOps SpecTJ SpinDefs Geometry HamSpec SignDefs EnergyDefs RangeDefs RoundDefs GridDefs FInter FRound2 FGrid Thm_RoundSym Examples.
Import ListNotations.
Open Scope Z_scope.

(** C117 *)
Theorem C117_representable :
  forall p e x, 2 <= p -> multiple (power2 e) x -> (SignDefs.magnitude x < power2 (p + e))%Qc -> binary p x = x.
Proof. exact C117_representable_pf. Qed.
Print Assumptions C117_representable.

Theorem C117_exact :
  forall F E c w r K S arg arg0 l l0 m m0 z g, (forall q, Permutation q (add_order F q)) -> set_iter_ok E -> filled c w r -> couplings_within z K -> on_grid g K ->
  (forall x, multiple g x -> (SignDefs.magnitude x <= largest_number z (nholes c) (grid_bonds w (nsites c / w)))%Qc -> fl F x = x) ->
  assembled_fl F E c K S arg l m -> assembled E c K S arg0 l0 m0 -> forall i j, csr_at m i j = csr_at m0 i j.
Proof. exact C117_exact_pf. Qed.
Print Assumptions C117_exact.

Theorem C117_binary :
  forall p e o E c w r K S arg arg0 l l0 m m0 z, 2 <= p -> (forall q, Permutation q (o q)) -> set_iter_ok E -> filled c w r -> couplings_within z K -> on_grid (power2 e) K ->
  (largest_number z (nholes c) (grid_bonds w (nsites c / w)) < power2 (p + e))%Qc ->
  assembled_fl (mkFloats (binary p) o) E c K S arg l m -> assembled E c K S arg0 l0 m0 -> forall i j, csr_at m i j = csr_at m0 i j.
Proof. exact C117_binary_pf. Qed.
Print Assumptions C117_binary.

Theorem C117_orders :
  forall p e o1 o2 E1 E2 c w r K S arg1 arg2 l1 l2 m1 m2 z, 2 <= p -> (forall q, Permutation q (o1 q)) -> (forall q, Permutation q (o2 q)) -> set_iter_ok E1 -> set_iter_ok E2 -> filled c w r ->
  couplings_within z K -> on_grid (power2 e) K -> (largest_number z (nholes c) (grid_bonds w (nsites c / w)) < power2 (p + e))%Qc ->
  assembled_fl (mkFloats (binary p) o1) E1 c K S arg1 l1 m1 -> assembled_fl (mkFloats (binary p) o2) E2 c K S arg2 l2 m2 ->
  forall i j, (i < length l1)%nat -> (j < length l1)%nat -> csr_at m1 (Z.of_nat i) (Z.of_nat j) = csr_at m2 (Z.of_nat i) (Z.of_nat j).
Proof. exact C117_orders_pf. Qed.
Print Assumptions C117_orders.

Theorem C117_rotations :
  forall p e o E c K S arg l m z k i j d d', 2 <= p -> (forall q, Permutation q (o q)) -> set_iter_ok E ->
  sized c -> nbh c = nbv c -> filled_whole c (nbh c * nblocs_side c) -> couplings_within z K -> on_grid (power2 e) K ->
  (largest_number z (nholes c) (grid_bonds (nbh c * nblocs_side c) (nsites c / (nbh c * nblocs_side c))) < power2 (p + e))%Qc ->
  assembled_fl (mkFloats (binary p) o) E c K S arg l m -> nth_error l i = Some d -> nth_error l j = Some d' ->
  exists i' j', get_index_in_basis c (rotate_determinant k c d) = Ok i' /\ get_index_in_basis c (rotate_determinant k c d') = Ok j' /\
    csr_at m i' j' = csr_at m (Z.of_nat i) (Z.of_nat j).
Proof. exact C117_rotations_pf. Qed.
Print Assumptions C117_rotations.

(** The square of four sites with one hole and one down, eighths and quarters as couplings; floats of ten bits are enough. *)
Definition eighth (k : Z) : Qc := qfrac k 8.
Definition grid_couplings : interactions := mkInter (eighth (-3)) (eighth 2) (eighth 6) (eighth (-2)) (eighth 1) (eighth 5) (eighth 7) (eighth (-1)) (eighth 8) (eighth 3).
Definition grid_sizes : sizes := mkSizes (qz 1) (qz 1) (qz 1) (qz 1) (qz 1).
Example C117_example : forall E o, set_iter_ok E -> (forall q, Permutation q (o q)) ->
  sized ex22 /\ nbh ex22 = nbv ex22 /\ filled_whole ex22 2 /\ 2 = nbh ex22 * nblocs_side ex22 /\ couplings_within grid_sizes grid_couplings /\ on_grid (power2 (-3)) grid_couplings /\
  (largest_number grid_sizes (nholes ex22) (grid_bonds 2 (nsites ex22 / 2)) < power2 (10 + -3))%Qc /\
  (exists m, assembled_fl (mkFloats (binary 10) o) E ex22 grid_couplings square_switches (RList []) square_basis m /\ csr_at m 2 2 = eighth 2 /\ csr_at m 2 9 = eighth (-3)) /\
  binary 10 (qfrac 1 10) <> qfrac 1 10.
Proof.
  intros E o HE HO. assert (HF : filled_whole ex22 2) by apply C114_example.
  assert (K : couplings_within grid_sizes grid_couplings) by (repeat split; vm_compute; discriminate).
  assert (G : on_grid (power2 (-3)) grid_couplings).
  { repeat split; [exists 1 | exists 3 | exists (-1) | exists (-3) | exists 1 | exists 5 | exists 7 | exists (-1) | exists 8 | exists 3]; apply Qc_is_canon; vm_compute; reflexivity. }
  assert (T : (largest_number grid_sizes (nholes ex22) (grid_bonds 2 (nsites ex22 / 2)) < power2 (10 + -3))%Qc) by (vm_compute; reflexivity).
  split; [unfold sized; vm_compute; intuition congruence|]. split; [reflexivity|]. split; [exact HF|]. split; [reflexivity|]. split; [exact K|]. split; [exact G|]. split; [exact T|]. split.
  - assert (R : rounds (1 / qz (2 ^ 10))%Qc (mkFloats (binary 10) o)) by (apply PBinary.C111_binary_pf; [lia | exact HO]).
    assert (R' : rounds (1 / qz (2 ^ 10))%Qc (mkFloats (binary 10) (fun l => l))) by (apply PBinary.C111_binary_pf; [lia | reflexivity]).
    destruct (C111_works_pf _ _ E ex22 2 _ grid_couplings square_switches (RList []) R HE HF) as (l & m & _ & A & _).
    assert (Q : l = square_basis) by (destruct A as [B _]; unfold square_basis; now rewrite B). rewrite Q in *. exists m. split; [exact A|].
    destruct (C111_works_pf _ _ cpython ex22 2 _ grid_couplings square_switches (RList []) R' cpython_ok HF) as (l' & m' & _ & A' & _).
    assert (Q' : l' = square_basis) by (destruct A' as [B' _]; unfold square_basis; now rewrite B'). rewrite Q' in *.
    pose proof (C117_orders 10 (-3) o (fun l => l) E cpython ex22 2 _ grid_couplings square_switches (RList []) (RList []) _ _ m m' grid_sizes ltac:(lia) HO (fun _ => Permutation_refl _) HE cpython_ok HF K G T A A') as V.
    assert (X : match build_hamiltonian_fl (mkFloats (binary 10) (fun l => l)) cpython ex22 grid_couplings (mkBasis ex22 square_basis) square_switches (RList []) with
      Ok x => (this (csr_at x 2 2), this (csr_at x 2 9)) | Err _ => (0%Q, 0%Q) end = (1 # 4, -3 # 8)%Q) by (vm_compute; reflexivity).
    rewrite (proj2 A') in X. injection X as X1 X2.
    pose proof (V 2%nat 2%nat ltac:(vm_compute; lia) ltac:(vm_compute; lia)) as V1. pose proof (V 2%nat 9%nat ltac:(vm_compute; lia) ltac:(vm_compute; lia)) as V2.
    change (Z.of_nat 2) with 2 in V1, V2. change (Z.of_nat 9) with 9 in V2. rewrite V1, V2. split; apply Qc_is_canon; [rewrite X1 | rewrite X2]; vm_compute; reflexivity.
  - intros H. apply (f_equal this) in H. vm_compute in H. discriminate.
Qed.
