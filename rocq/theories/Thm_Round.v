(** Theorems on the Hamiltonian built with rounded operations (C111). *)
From Coq Require Import ZArith List Bool QArith Qcanon Permutation Lia.
From Verif Require Import PyBase PyFacts Runtimes Lattice Base Interact Ham Spin Round Spec SpecOps SpecTJ SpinDefs Geometry HamSpec SignDefs EnergyDefs RangeDefs RoundDefs FInter PQc FSign FTop PBinary FRound FRound2 Examples.
Import ListNotations.
Open Scope Z_scope.

(** C111 *)
Theorem C111_nearest :
  forall p x, 2 <= p -> nearest_to p x (binary p x).
Proof. exact C111_nearest_pf. Qed.
Print Assumptions C111_nearest.

Theorem C111_binary :
  forall p o, 1 <= p -> (forall l, Permutation l (o l)) -> rounds (1 / qz (2 ^ p))%Qc (mkFloats (binary p) o).
Proof. exact C111_binary_pf. Qed.
Print Assumptions C111_binary.

Theorem C111_works :
  forall u F E c w r K S arg, rounds u F -> set_iter_ok E -> filled c w r ->
  exists l m m0, assembled_fl F E c K S arg l m /\ assembled E c K S arg l m0 /\ csr_dim m = zlen l /\ csr_dim m0 = zlen l.
Proof. exact C111_works_pf. Qed.
Print Assumptions C111_works.

Theorem C111_elements :
  forall u F E c w r K S arg l m i j d e s t, rounds u F -> set_iter_ok E -> filled c w r -> assembled_fl F E c K S arg l m ->
  nth_error l i = Some d -> nth_error l j = Some e ->
  describes (nsites c) (nholes c) (nbeta c) d s -> describes (nsites c) (nholes c) (nbeta c) e t ->
  (magnitude (csr_at m (Z.of_nat i) (Z.of_nat j) - tj_element (between (nsites c) (point w) r r) K S s t)
   <= growth u (roundings (nholes c) (grid_bonds w (nsites c / w))) * tj_size (between (nsites c) (point w) r r) K S s t)%Qc.
Proof. exact C111_elements_pf. Qed.
Print Assumptions C111_elements.

Theorem C111_rows :
  forall u F E c w r K S arg arg0 l l0 m m0 z i, rounds u F -> set_iter_ok E -> filled c w r -> assembled_fl F E c K S arg l m -> assembled E c K S arg0 l0 m0 ->
  couplings_within z K -> 0 <= i < csr_dim m ->
  (sum_sites (csr_dim m) (fun j => magnitude (csr_at m i j - csr_at m0 i j))
   <= growth u (roundings (nholes c) (grid_bonds w (nsites c / w))) * energy_bound z S (nholes c) (grid_bonds w (nsites c / w)))%Qc.
Proof. exact C111_rows_pf. Qed.
Print Assumptions C111_rows.

Theorem C111_means :
  forall u F E c w r K S arg arg0 l l0 m m0 z v, rounds u F -> set_iter_ok E -> filled c w r -> assembled_fl F E c K S arg l m -> assembled E c K S arg0 l0 m0 ->
  couplings_within z K -> zlen v = csr_dim m ->
  within (growth u (roundings (nholes c) (grid_bonds w (nsites c / w))) * energy_bound z S (nholes c) (grid_bonds w (nsites c / w)) * inner v v) (csr_mean m v - csr_mean m0 v).
Proof. exact C111_means_pf. Qed.
Print Assumptions C111_means.

Theorem C111_symmetric :
  forall u F E c w r K S arg l m i j d e s t, rounds u F -> set_iter_ok E -> filled c w r -> assembled_fl F E c K S arg l m ->
  nth_error l i = Some d -> nth_error l j = Some e ->
  describes (nsites c) (nholes c) (nbeta c) d s -> describes (nsites c) (nholes c) (nbeta c) e t ->
  (magnitude (csr_at m (Z.of_nat i) (Z.of_nat j) - csr_at m (Z.of_nat j) (Z.of_nat i))
   <= qz 2 * growth u (roundings (nholes c) (grid_bonds w (nsites c / w))) * tj_size (between (nsites c) (point w) r r) K S s t)%Qc.
Proof. exact C111_symmetric_pf. Qed.
Print Assumptions C111_symmetric.

Theorem C111_energy :
  forall u F E c w r K d s, rounds u F -> set_iter_ok E -> filled c w r -> describes (nsites c) (nholes c) (nbeta c) d s ->
  let L := between (nsites c) (point w) r r in let P := positive_couplings K in
  exists x x', compute_energy E c K d = Ok x /\ compute_energy_fl F E c K d = Ok x' /\
    (magnitude (x' - x) <= growth u (grid_bonds w (nsites c / w) + 3) * (op_repulsion L P s - op_static L P s))%Qc.
Proof. exact C111_energy_pf. Qed.
Print Assumptions C111_energy.

Theorem C111_exact :
  forall F E c K l S arg m0, exact_floats F -> build_hamiltonian E c K (mkBasis c l) S arg = Ok m0 ->
  exists m, build_hamiltonian_fl F E c K (mkBasis c l) S arg = Ok m /\ csr_dim m = csr_dim m0 /\ forall i j, csr_at m i j = csr_at m0 i j.
Proof. exact C111_exact_pf. Qed.
Print Assumptions C111_exact.

(** Two ups and two downs in a row, with the floats of Python; the exchange is the float 0.1, the other couplings are floats nearest to
    tenths.  The Neel determinant adds -0.05 three times: the float -0.15000000000000002, which is not three times the float -0.05. *)
Definition tenth (k : positive) : Qc := binary 53 (qfrac (Zpos k) 10).
Definition rounded_couplings : interactions :=
  mkInter (tenth 3) (tenth 1) (tenth 2) (tenth 1) (tenth 1) (tenth 2) (tenth 1) (tenth 2) (tenth 1) (tenth 3).
Definition rounded_conf : configuration := ex_rect 4 1 1 0 2.
Definition rounded_switches : switches := mkSwitches true true true true true true.
Definition rounded_basis : list (list Z) := get [] (b <- construct_basis rounded_conf ;; Ok (determinants b)).
Definition exact_ham : csr := get (mkCsr 0 []) (build_hamiltonian cpython rounded_conf rounded_couplings (mkBasis rounded_conf rounded_basis) rounded_switches (RList [])).
Definition rounded_ham : csr := get (mkCsr 0 []) (build_hamiltonian_fl binary64 cpython rounded_conf rounded_couplings (mkBasis rounded_conf rounded_basis) rounded_switches (RList [])).
Lemma built_both : forall c w K S b l0 m0 m, filled_whole c w -> construct_basis c = Ok b -> l0 = determinants b ->
  m0 = get (mkCsr 0 []) (build_hamiltonian cpython c K (mkBasis c l0) S (RList [])) -> m = get (mkCsr 0 []) (build_hamiltonian_fl binary64 cpython c K (mkBasis c l0) S (RList [])) ->
  rounds (1 / qz (2 ^ 53)) binary64 /\ assembled_fl binary64 cpython c K S (RList []) l0 m /\ assembled cpython c K S (RList []) l0 m0.
Proof.
  intros c w K S b l0 m0 m HF B -> -> ->. assert (R : rounds (1 / qz (2 ^ 53)) binary64) by (apply C111_binary; [lia | reflexivity]).
  destruct (C111_works _ _ _ c w _ K S (RList []) R cpython_ok HF) as (l & m & m0 & (B1 & A) & (B2 & A0) & _). rewrite B in B1. injection B1 as ->. cbn [determinants] in *.
  split; [exact R|]. split; [split; [exact B | rewrite A; reflexivity] | split; [exact B | rewrite A0; reflexivity]].
Qed.
Lemma rounded_filled : filled_whole rounded_conf 4.
Proof. split; [exists 4, 1, 1; vm_compute; repeat (split; [congruence|]); reflexivity|]; split; [reflexivity|]; vm_compute; intuition congruence. Qed.
Example C111_example : set_iter_ok cpython /\ filled_whole rounded_conf 4 /\
  rounds (1 / qz (2 ^ 53)) binary64 /\
  assembled_fl binary64 cpython rounded_conf rounded_couplings rounded_switches (RList []) rounded_basis rounded_ham /\
  assembled cpython rounded_conf rounded_couplings rounded_switches (RList []) rounded_basis exact_ham /\
  couplings_within (mkSizes (qz 1) (qz 1) (qz 1) (qz 1) (qz 1)) rounded_couplings /\
  nth_error rounded_basis 1 = Some [0; 2; 1; 3] /\
  this (csr_at rounded_ham 1 1) = (-1351079888211149 # 9007199254740992)%Q /\
  this (csr_at exact_ham 1 1) = (-10808639105689191 # 72057594037927936)%Q.
Proof.
  split; [exact cpython_ok|]. split; [exact rounded_filled|].
  destruct (built_both rounded_conf 4 rounded_couplings rounded_switches (mkBasis rounded_conf rounded_basis) rounded_basis exact_ham rounded_ham rounded_filled) as (R & A & A0); try reflexivity.
  split; [exact R|]. split; [exact A|]. split; [exact A0|]. split; [repeat split; vm_compute; discriminate|]. repeat split; vm_compute; reflexivity.
Qed.
