(** Theorems on the sum of the energies (C101). *)
From Coq Require Import ZArith List Bool QArith Qcanon.
From Verif Require Import PyBase PyFacts Runtimes Lattice Base Interact Ham Spin Spec SpecOps SpecTJ SpinDefs Geometry HamSpec SignDefs EnergyDefs TraceDefs FInter PQc FSign FTop FEnergy FTrace Examples.
Import ListNotations.
Open Scope Z_scope.

(** C101 *)
Theorem C101_trace :
  forall E c w K S arg l m, set_iter_ok E -> filled_whole c w -> assembled E c K S arg l m -> one_exchange c K \/ s_bz S = false ->
  let v := nsites c / w in
  (qz (nsites c * (nsites c - 1)) * csr_trace m = qz (csr_dim m) * mean_energy K S (nholes c) (nalpha c) (nbeta c) (grid_bonds w v) (grid_diagonals w v))%Qc.
Proof. exact C101_trace_pf. Qed.
Print Assumptions C101_trace.

Theorem C101_levels :
  forall m es, all_levels m es -> qsum fst es = csr_trace m.
Proof. exact C101_levels_pf. Qed.
Print Assumptions C101_levels.

Theorem C101_energies :
  forall E c w K S arg l m es, set_iter_ok E -> filled_whole c w -> assembled E c K S arg l m -> one_exchange c K \/ s_bz S = false -> all_levels m es ->
  let v := nsites c / w in
  (qz (nsites c * (nsites c - 1)) * qsum fst es = qz (csr_dim m) * mean_energy K S (nholes c) (nalpha c) (nbeta c) (grid_bonds w v) (grid_diagonals w v))%Qc.
Proof. exact C101_energies_pf. Qed.
Print Assumptions C101_energies.

(** The six levels of four spins on a square with an exchange of 2 add up to -16.  Two holes, an up and a down on a square, without the
    diagonal exchanges: the twelve diagonal elements add up to 112. *)
Definition ring_levels : list (Qc * list Qc) :=
  [(qz (-6), map qz [1; 1; -2; -2; 1; 1]); (qz (-4), map qz [0; 0; 1; -1; 0; 0]); (qz (-2), map qz [1; -1; 0; 0; 0; 0]);
   (qz (-2), map qz [0; 0; 0; 0; 1; -1]); (qz (-2), map qz [1; 1; 0; 0; -1; -1]); (qz 0, map qz [1; 1; 1; 1; 1; 1])].
Definition mixed_conf : configuration := ex_rect 1 1 2 2 1.
Definition mixed_basis : list (list Z) := get [] (b <- construct_basis mixed_conf ;; Ok (determinants b)).
Definition mixed_switches : switches := mkSwitches true false true true true true.
Definition mixed_ham : csr := get (mkCsr 0 []) (build_hamiltonian cpython mixed_conf ex_couplings (mkBasis mixed_conf mixed_basis) mixed_switches (RList [])).
Example C101_example : set_iter_ok cpython /\ filled_whole ring_conf 2 /\ assembled cpython ring_conf ex_couplings ring_switches (RList []) ring_basis ring_ham /\
  one_exchange ring_conf ex_couplings /\ all_levels ring_ham ring_levels /\ this (qsum fst ring_levels) = (-16 # 1)%Q /\
  this (mean_energy ex_couplings ring_switches (nholes ring_conf) (nalpha ring_conf) (nbeta ring_conf) (grid_bonds 2 2) (grid_diagonals 2 2)) = (-32 # 1)%Q /\
  filled_whole mixed_conf 2 /\ assembled cpython mixed_conf ex_couplings mixed_switches (RList []) mixed_basis mixed_ham /\ s_bz mixed_switches = false /\
  csr_dim mixed_ham = 12 /\ this (csr_trace mixed_ham) = (112 # 1)%Q.
Proof.
  split; [exact cpython_ok|]. split; [exact (proj1 ring_ok)|]. split; [exact (proj2 ring_ok)|]. split; [now left|]. split.
  { split; [rewrite ring_dim; reflexivity|]. split.
    - intros e v I. cbn [ring_levels In] in I.
      repeat (destruct I as [I|I]; [injection I as <- <-; split; [rewrite ring_dim; reflexivity|]; split; [apply this_list; vm_compute; reflexivity|]; eexists; split; [|apply (fun H : qz 1 <> 0%Qc => H); discriminate]; cbn [map In]; tauto|]).
      destruct I.
    - intros i j x y N Hi Hj.
      assert (G : forallb (fun i => forallb (fun j => Nat.eqb i j || (if Qc_eq_dec (inner (snd (nth i ring_levels (0%Qc, []))) (snd (nth j ring_levels (0%Qc, [])))) 0 then true else false)) (seq 0 6)) (seq 0 6) = true) by (vm_compute; reflexivity).
      rewrite forallb_forall in G. specialize (G i ltac:(apply in_seq; split; [apply Nat.le_0_l | apply (proj1 (nth_error_Some ring_levels i)); congruence])). rewrite forallb_forall in G.
      specialize (G j ltac:(apply in_seq; split; [apply Nat.le_0_l | apply (proj1 (nth_error_Some ring_levels j)); congruence])). cbv beta in G.
      apply (nth_error_nth _ _ (0%Qc, [])) in Hi, Hj. rewrite Hi, Hj in G. destruct (Nat.eqb_spec i j); [contradiction|]. destruct (Qc_eq_dec _ _); [assumption | discriminate G]. }
  split; [vm_compute; reflexivity|]. split; [vm_compute; reflexivity|].
  split; [split; [exists 1, 1, 2; vm_compute; repeat (split; [congruence|]); reflexivity|]; split; [reflexivity|]; vm_compute; intuition congruence|].
  split; [split; vm_compute; reflexivity|]. split; [reflexivity|]. split; vm_compute; reflexivity.
Qed.
