(** Theorems on how far motions and the order of the sets change the diagonal of the rounded Hamiltonian (C116). *)
From Coq Require Import ZArith List Bool QArith Qcanon Lia Permutation.
From Verif Require Import PyBase PyFacts Runtimes Lattice Base Interact Ham Round Spec SpecOps SpecTJ SpinDefs Geometry HamSpec SignDefs EnergyDefs RangeDefs RoundDefs MotionDefs TestDefs FInter FRound2 PBinary FRoundTest Thm_RoundSym Examples.
Import ListNotations.
Open Scope Z_scope.

(** C116 *)
Theorem C116_motions :
  forall u F E c w K S arg l m z f i i' d d' s s', rounds u F -> set_iter_ok E -> filled_whole c w -> assembled_fl F E c K S arg l m -> couplings_within z K ->
  motion (nsites c) (point w) f -> nth_error l i = Some d -> nth_error l i' = Some d' ->
  describes (nsites c) (nholes c) (nbeta c) d s -> describes (nsites c) (nholes c) (nbeta c) d' s' -> carried (nsites c) f s s' ->
  (SignDefs.magnitude (csr_at m (Z.of_nat i') (Z.of_nat i') - csr_at m (Z.of_nat i) (Z.of_nat i))
   <= qz 2 * (growth u (roundings (nholes c) (grid_bonds w (nsites c / w))) * energy_bound z S (nholes c) (grid_bonds w (nsites c / w))))%Qc.
Proof. exact C116_motions_pf. Qed.
Print Assumptions C116_motions.

Theorem C116_rotations :
  forall u F E c K S arg l m z k i d, rounds u F -> set_iter_ok E ->
  sized c -> nbh c = nbv c -> filled_whole c (nbh c * nblocs_side c) -> assembled_fl F E c K S arg l m -> couplings_within z K -> nth_error l i = Some d ->
  let w := nbh c * nblocs_side c in
  exists i', get_index_in_basis c (rotate_determinant k c d) = Ok i' /\
    (SignDefs.magnitude (csr_at m i' i' - csr_at m (Z.of_nat i) (Z.of_nat i))
     <= qz 2 * (growth u (roundings (nholes c) (grid_bonds w (nsites c / w))) * energy_bound z S (nholes c) (grid_bonds w (nsites c / w))))%Qc.
Proof. exact C116_rotations_pf. Qed.
Print Assumptions C116_rotations.

Theorem C116_half_turn :
  forall u F E c K S arg l m z k i d, rounds u F -> set_iter_ok E ->
  sized c -> k mod 4 = 2 -> filled_whole c (nbh c * nblocs_side c) -> assembled_fl F E c K S arg l m -> couplings_within z K -> nth_error l i = Some d ->
  let w := nbh c * nblocs_side c in
  exists i', get_index_in_basis c (rotate_determinant k c d) = Ok i' /\
    (SignDefs.magnitude (csr_at m i' i' - csr_at m (Z.of_nat i) (Z.of_nat i))
     <= qz 2 * (growth u (roundings (nholes c) (grid_bonds w (nsites c / w))) * energy_bound z S (nholes c) (grid_bonds w (nsites c / w))))%Qc.
Proof. exact C116_half_turn_pf. Qed.
Print Assumptions C116_half_turn.

Theorem C116_orders :
  forall u F E1 E2 c w r K S arg1 arg2 l1 l2 m1 m2 z i j, rounds u F -> set_iter_ok E1 -> set_iter_ok E2 -> filled c w r ->
  assembled_fl F E1 c K S arg1 l1 m1 -> assembled_fl F E2 c K S arg2 l2 m2 -> couplings_within z K -> (i < length l1)%nat -> (j < length l1)%nat ->
  (SignDefs.magnitude (csr_at m1 (Z.of_nat i) (Z.of_nat j) - csr_at m2 (Z.of_nat i) (Z.of_nat j))
   <= qz 2 * (growth u (roundings (nholes c) (grid_bonds w (nsites c / w))) * energy_bound z S (nholes c) (grid_bonds w (nsites c / w))))%Qc.
Proof. exact C116_orders_pf. Qed.
Print Assumptions C116_orders.

(** The assertion of test_assert_rotation_invariant. *)
Theorem C116_test :
  forall u F E c K S arg l m z rot i d, rounds u F -> (u <= 1)%Qc -> set_iter_ok E ->
  sized c -> nbh c = nbv c -> filled_whole c (nbh c * nblocs_side c) -> assembled_fl F E c K S arg l m -> couplings_within z K ->
  let w := nbh c * nblocs_side c in
  (qz 8 * (growth u (roundings (nholes c) (grid_bonds w (nsites c / w))) * energy_bound z S (nholes c) (grid_bonds w (nsites c / w))) * qz (10 ^ 5) < 1)%Qc ->
  nth_error l i = Some d -> rotation_asserted F c m (Z.of_nat i) d rot.
Proof. exact C116_test_pf. Qed.
Print Assumptions C116_test.

(** The lattice, the couplings and the switches of the test, whatever the order of the sets and of the additions
    (tests/test_hamiltonian_construction.py:60-66). *)
Definition test_conf : configuration := ex_rect 1 1 3 1 4.
Definition literal (a : Z) : Qc := binary 53 (qfrac a 1000).
Definition test_couplings : interactions := mkInter (literal (-550)) (literal 123) (literal 156) (literal 104) (literal (-80)) (literal (-41)) (literal 112) (literal (-47)) (literal 1770) (literal 790).
Definition test_sizes : sizes := mkSizes (qz 1) (qz 1) (qz 1) (qz 1) (qz 2).
Definition test_switches : switches := mkSwitches true true true true true true.
Example C116_example : forall E o, set_iter_ok E -> (forall q, Permutation q (o q)) -> let F := mkFloats (binary 53) o in let u := (1 / qz (2 ^ 53))%Qc in
  rounds u F /\ (u <= 1)%Qc /\ sized test_conf /\ nbh test_conf = nbv test_conf /\ filled_whole test_conf 3 /\ 3 = nbh test_conf * nblocs_side test_conf /\ couplings_within test_sizes test_couplings /\
  (qz 8 * (growth u (roundings 1 (grid_bonds 3 3)) * energy_bound test_sizes test_switches 1 (grid_bonds 3 3)) * qz (10 ^ 5) < 1)%Qc /\
  (exists l m, assembled_fl F E test_conf test_couplings test_switches (RList []) l m /\ (forall i d rot, nth_error l i = Some d -> rotation_asserted F test_conf m (Z.of_nat i) d rot) /\ 600 < zlen l).
Proof.
  intros E o HE HO F u. assert (R : rounds u F) by (apply C111_binary_pf; [lia | exact HO]). assert (U : (u <= 1)%Qc) by (vm_compute; discriminate).
  assert (Z0 : sized test_conf) by (unfold sized; vm_compute; intuition congruence).
  assert (HF : filled_whole test_conf 3) by (split; [exists 1, 1, 3; vm_compute; repeat (split; [congruence|]); reflexivity|]; split; [reflexivity|]; vm_compute; intuition congruence).
  assert (K : couplings_within test_sizes test_couplings) by (repeat split; vm_compute; discriminate).
  assert (G : (qz 8 * (growth u (roundings 1 (grid_bonds 3 3)) * energy_bound test_sizes test_switches 1 (grid_bonds 3 3)) * qz (10 ^ 5) < 1)%Qc) by (vm_compute; reflexivity).
  split; [exact R|]. split; [exact U|]. split; [exact Z0|]. split; [reflexivity|]. split; [exact HF|]. split; [reflexivity|]. split; [exact K|]. split; [exact G|].
  destruct (C111_works_pf u F E test_conf 3 _ test_couplings test_switches (RList []) R HE HF) as (l & m & m0 & A & _ & D & _). exists l, m. split; [exact A|]. split.
  - intros i d rot Hi. exact (C116_test u F E test_conf test_couplings test_switches (RList []) l m test_sizes rot i d R U HE Z0 eq_refl HF A K G Hi).
  - destruct A as [A _]. assert (L : match construct_basis test_conf with Ok b => 600 <? zlen (determinants b) | Err _ => false end = true) by (vm_compute; reflexivity). rewrite A in L. cbn [determinants] in L. now apply Z.ltb_lt.
Qed.
