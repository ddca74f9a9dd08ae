(** Theorems on the range of the energies of the whole Hamiltonian (C100). *)
From Coq Require Import ZArith List Bool QArith Qcanon.
From Verif Require Import PyBase PyFacts Runtimes Lattice Base Interact Ham Spin Spec SpecOps SpecTJ SpinDefs Geometry HamSpec SignDefs EnergyDefs RangeDefs FInter PQc FSign FTop FEnergy FRange Examples.
Import ListNotations.
Open Scope Z_scope.

(** C100 *)
Theorem C100_range :
  forall E c w r K S arg l m z, set_iter_ok E -> filled c w r -> assembled E c K S arg l m -> couplings_within z K ->
  let b := energy_bound z S (nholes c) (grid_bonds w (nsites c / w)) in
  (forall u, zlen u = csr_dim m -> within (b * inner u u) (csr_mean m u)) /\ (forall e v, eigenvector m e v -> within b e).
Proof. exact C100_range_pf. Qed.
Print Assumptions C100_range.

Theorem C100_tj :
  forall E c w r K S arg l m Jm tm, set_iter_ok E -> filled c w r -> assembled E c K S arg l m -> hops_and_exchanges K S Jm tm ->
  let bonds := grid_bonds w (nsites c / w) in
  forall e v, eigenvector m e v -> (- (Jm * qz bonds + qz (4 * nholes c) * tm) <= e)%Qc /\ (e <= qz (4 * nholes c) * tm)%Qc.
Proof. exact C100_tj_pf. Qed.
Print Assumptions C100_tj.

(** One hole and one spin on two sites, every part switched on: the energies are -1 and 1.  One hole and two opposite spins on a row of
    three: the hops and exchanges give the energy 0 to the triplet with the hole on the two ends, and the bounds are -12 and 4. *)
Definition pair_conf : configuration := ex_rect 2 1 1 1 0.
Definition pair_basis : list (list Z) := get [] (b <- construct_basis pair_conf ;; Ok (determinants b)).
Definition pair_switches : switches := mkSwitches true true true true true true.
Definition pair_ham : csr := get (mkCsr 0 []) (build_hamiltonian cpython pair_conf ex_couplings (mkBasis pair_conf pair_basis) pair_switches (RList [])).
Definition chain_conf : configuration := ex_rect 3 1 1 1 1.
Definition chain_basis : list (list Z) := get [] (b <- construct_basis chain_conf ;; Ok (determinants b)).
Definition chain_switches : switches := mkSwitches true true true false false false.
Definition chain_ham : csr := get (mkCsr 0 []) (build_hamiltonian cpython chain_conf ex_couplings (mkBasis chain_conf chain_basis) chain_switches (RList [])).
Example C100_example : set_iter_ok cpython /\ filled_whole pair_conf 2 /\ assembled cpython pair_conf ex_couplings pair_switches (RList []) pair_basis pair_ham /\
  couplings_within (mkSizes (qz 1) (qz 4) (qz 6) (qz 8) (qz 10)) ex_couplings /\
  this (energy_bound (mkSizes (qz 1) (qz 4) (qz 6) (qz 8) (qz 10)) pair_switches (nholes pair_conf) (grid_bonds 2 1)) = (256 # 1)%Q /\
  eigenvector pair_ham 1 [1%Qc; 1%Qc] /\
  filled_whole chain_conf 3 /\ assembled cpython chain_conf ex_couplings chain_switches (RList []) chain_basis chain_ham /\
  hops_and_exchanges ex_couplings chain_switches (qz 4) 1 /\ grid_bonds 3 (nsites chain_conf / 3) = 2 /\ nholes chain_conf = 1 /\
  eigenvector chain_ham 0 (map qz [1; 1; 0; 0; -1; -1]).
Proof.
  split; [exact cpython_ok|].
  split; [split; [exists 2, 1, 1; vm_compute; repeat (split; [congruence|]); reflexivity|]; split; [reflexivity|]; vm_compute; intuition congruence|].
  split; [split; vm_compute; reflexivity|]. split; [repeat split; vm_compute; discriminate|]. split; [vm_compute; reflexivity|].
  split; [split; [reflexivity|]; split; [apply this_list; vm_compute; reflexivity|]; exists 1%Qc; split; [now left | discriminate]|].
  split; [split; [exists 3, 1, 1; vm_compute; repeat (split; [congruence|]); reflexivity|]; split; [reflexivity|]; vm_compute; intuition congruence|].
  split; [split; vm_compute; reflexivity|]. split; [split; [reflexivity|]; repeat split; vm_compute; discriminate|]. do 2 (split; [reflexivity|]).
  split; [reflexivity|]. split; [apply this_list; vm_compute; reflexivity|]. exists (qz 1). split; [now left | discriminate].
Qed.
