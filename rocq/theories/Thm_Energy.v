(** Theorems on the range of the energies of the exchanges (C98). *)
From Coq Require Import ZArith List Bool QArith Qcanon.
From Verif Require Import PyBase PyFacts Runtimes Lattice Base Interact Ham Spin Spec SpecOps SpecTJ SpinDefs Geometry HamSpec SignDefs EnergyDefs FInter PQc FSign FTop FEnergy Examples.
Import ListNotations.
Open Scope Z_scope.

(** C98 *)
Theorem C98_range :
  forall E c w r K S arg l m Jm, set_iter_ok E -> filled c w r -> assembled E c K S arg l m -> exchanges_only c K S Jm ->
  (forall u, zlen u = csr_dim m -> (- (Jm * qz (grid_bonds w (nsites c / w))) * inner u u <= csr_mean m u)%Qc /\ (csr_mean m u <= 0)%Qc) /\
  (forall e v, eigenvector m e v -> (- (Jm * qz (grid_bonds w (nsites c / w))) <= e)%Qc /\ (e <= 0)%Qc).
Proof. exact C98_range_pf. Qed.
Print Assumptions C98_range.

Theorem C98_top :
  forall E c w r K S arg l m Jm, set_iter_ok E -> filled c w r -> assembled E c K S arg l m -> exchanges_only c K S Jm -> 0 < csr_dim m ->
  eigenvector m 0 (map (fun _ => 1%Qc) l).
Proof. exact C98_top_pf. Qed.
Print Assumptions C98_top.

Theorem C98_neel :
  forall E c w K S arg l m e, set_iter_ok E -> filled_whole c w -> assembled E c K S arg l m -> nholes c = 0 ->
  nbeta c = nsites c / 2 \/ nbeta c = nsites c - nsites c / 2 -> s_bz S = true -> lowest m e ->
  (e <= - (half * i_J K * qz (grid_bonds w (nsites c / w))))%Qc.
Proof. exact C98_neel_pf. Qed.
Print Assumptions C98_neel.

(** Four sites in a ring, J = 2: four bonds, so that the energies are between -8 and 0; the chess board has -4 and the lowest state -6.
    One hole and two opposite spins on a row of three: the bond next to the hole has the singlet at -J'. *)
Definition row_switches : switches := mkSwitches false true true false false false.
Definition row_conf : configuration := ex_rect 3 1 1 1 1.
Definition row_basis : list (list Z) := get [] (b <- construct_basis row_conf ;; Ok (determinants b)).
Definition row_ham : csr := get (mkCsr 0 []) (build_hamiltonian cpython row_conf ex_couplings (mkBasis row_conf row_basis) row_switches (RList [])).
Example C98_example : set_iter_ok cpython /\ filled_whole ring_conf 2 /\ assembled cpython ring_conf ex_couplings ring_switches (RList []) ring_basis ring_ham /\
  exchanges_only ring_conf ex_couplings ring_switches (qz 2) /\ grid_bonds 2 (nsites ring_conf / 2) = 4 /\ csr_dim ring_ham = 6 /\
  nholes ring_conf = 0 /\ nbeta ring_conf = nsites ring_conf / 2 /\ lowest ring_ham (- qz 6) /\ eigenvector ring_ham (- qz 6) ring_state /\
  filled_whole row_conf 3 /\ assembled cpython row_conf ex_couplings row_switches (RList []) row_basis row_ham /\
  exchanges_only row_conf ex_couplings row_switches (qz 5) /\ grid_bonds 3 (nsites row_conf / 3) = 2 /\ nholes row_conf = 1 /\
  eigenvector row_ham (- i_Jhpar ex_couplings) (map qz [1; -1; 0; 0; 0; 0]).
Proof.
  split; [exact cpython_ok|]. split; [exact (proj1 ring_ok)|]. split; [exact (proj2 ring_ok)|]. split; [unfold exchanges_only; repeat split; try discriminate; now left|].
  split; [reflexivity|]. split; [exact ring_dim|]. do 2 (split; [reflexivity|]). split; [exact ring_lowest|]. split; [exact ring_eigen|].
  split; [split; [exists 3, 1, 1; vm_compute; repeat (split; [congruence|]); reflexivity|]; split; [reflexivity|]; vm_compute; intuition congruence|].
  split; [split; vm_compute; reflexivity|]. split; [unfold exchanges_only; repeat split; try discriminate; right; repeat split; discriminate|]. do 2 (split; [reflexivity|]).
  split; [reflexivity|]. split; [apply this_list; vm_compute; reflexivity|]. exists (qz 1). split; [left; reflexivity | discriminate].
Qed.
