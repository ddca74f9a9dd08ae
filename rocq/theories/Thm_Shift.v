(** Theorems on the energies at two sets of couplings (C102). *)
From Coq Require Import ZArith List Bool QArith Qcanon.
From Verif Require Import PyBase PyFacts Runtimes Lattice Base Interact Ham Spin Spec SpecOps SpecTJ SpinDefs Geometry HamSpec SignDefs EnergyDefs RangeDefs LevelDefs TraceDefs ShiftDefs FInter PQc FSign FTop FEnergy FTrace FShift Examples Thm_Trace.
Import ListNotations.
Open Scope Z_scope.

(** C102 *)
Theorem C102_shift :
  forall m m' es es' delta, csr_dim m = csr_dim m' -> all_levels m es -> all_levels m' es' ->
  (forall u, zlen u = csr_dim m -> (csr_mean m' u <= csr_mean m u + delta * inner u u)%Qc) ->
  forall t, (levels_below es t <= levels_below es' (t + delta)%Qc)%nat.
Proof. exact C102_shift_pf. Qed.
Print Assumptions C102_shift.

Theorem C102_couplings :
  forall E c w r K K' S arg l m m' z, set_iter_ok E -> filled c w r -> assembled E c K S arg l m -> assembled E c K' S arg l m' ->
  couplings_within z (combine_couplings 1 (- (1))%Qc K' K) ->
  let delta := energy_bound z S (nholes c) (grid_bonds w (nsites c / w)) in
  (forall e, lowest m e -> lowest m' (e - delta)%Qc) /\
  (forall es es', all_levels m es -> all_levels m' es' -> forall t,
    (levels_below es t <= levels_below es' (t + delta)%Qc)%nat /\ (levels_below es' t <= levels_below es (t + delta)%Qc)%nat).
Proof. exact C102_couplings_pf. Qed.
Print Assumptions C102_couplings.

Theorem C102_concave :
  forall E c w r a b K K' S arg l m1 m2 m e1 e2, set_iter_ok E -> filled c w r ->
  assembled E c K S arg l m1 -> assembled E c K' S arg l m2 -> assembled E c (combine_couplings a b K K') S arg l m ->
  (0 <= a)%Qc -> (0 <= b)%Qc -> lowest m1 e1 -> lowest m2 e2 -> lowest m (a * e1 + b * e2)%Qc.
Proof. exact C102_concave_pf. Qed.
Print Assumptions C102_concave.

Theorem C102_repulsions :
  forall E c w r K K' S arg l m m', set_iter_ok E -> filled c w r -> assembled E c K S arg l m -> assembled E c K' S arg l m' -> stronger_repulsions K K' ->
  (forall u, zlen u = csr_dim m -> (csr_mean m u <= csr_mean m' u)%Qc) /\ (forall e, lowest m e -> lowest m' e) /\
  (forall es es', all_levels m es -> all_levels m' es' -> forall t, (levels_below es' t <= levels_below es t)%nat).
Proof. exact C102_repulsions_pf. Qed.
Print Assumptions C102_repulsions.

Theorem C102_exchanges :
  forall E c w r K K' S arg l m m', set_iter_ok E -> filled c w r -> assembled E c K S arg l m -> assembled E c K' S arg l m' -> stronger_exchanges K K' ->
  s_bz S = true -> s_bij S = true ->
  (forall u, zlen u = csr_dim m' -> (csr_mean m' u <= csr_mean m u)%Qc) /\ (forall e, lowest m' e -> lowest m e) /\
  (forall es es', all_levels m es -> all_levels m' es' -> forall t, (levels_below es t <= levels_below es' t)%nat).
Proof. exact C102_exchanges_pf. Qed.
Print Assumptions C102_exchanges.

Theorem C102_lowest :
  forall m es x, all_levels m es -> (lowest m x <-> forall e v, In (e, v) es -> (x <= e)%Qc).
Proof. exact C102_lowest_pf. Qed.
Print Assumptions C102_lowest.

(** Four spins on a square with exchanges of 2, of 3, and halfway; two holes, an up and a down on a square with repulsions of 9 and of 11. *)
Definition strong_couplings : interactions := mkInter 1%Qc (qz 3) (qz 3) (qz 4) (qz 5) (qz 6) (qz 7) (qz 8) (qz 9) (qz 10).
Definition strong_ham : csr := get (mkCsr 0 []) (build_hamiltonian cpython ring_conf strong_couplings (mkBasis ring_conf ring_basis) ring_switches (RList [])).
Definition half_couplings : interactions := combine_couplings half half ex_couplings strong_couplings.
Definition half_ham : csr := get (mkCsr 0 []) (build_hamiltonian cpython ring_conf half_couplings (mkBasis ring_conf ring_basis) ring_switches (RList [])).
Definition strong_levels : list (Qc * list Qc) :=
  [(qz (-9), map qz [1; 1; -2; -2; 1; 1]); (qz (-6), map qz [0; 0; 1; -1; 0; 0]); (qz (-3), map qz [1; -1; 0; 0; 0; 0]);
   (qz (-3), map qz [0; 0; 0; 0; 1; -1]); (qz (-3), map qz [1; 1; 0; 0; -1; -1]); (qz 0, map qz [1; 1; 1; 1; 1; 1])].
Definition strong_sizes : sizes := mkSizes 0 1 0 0 0.
Definition repelling : interactions := mkInter 1%Qc (qz 2) (qz 3) (qz 4) (qz 5) (qz 6) (qz 7) (qz 8) (qz 11) (qz 10).
Definition repelling_ham : csr := get (mkCsr 0 []) (build_hamiltonian cpython mixed_conf repelling (mkBasis mixed_conf mixed_basis) mixed_switches (RList [])).
Example C102_example : set_iter_ok cpython /\ filled ring_conf 2 (zrange 0 4) /\ assembled cpython ring_conf ex_couplings ring_switches (RList []) ring_basis ring_ham /\
  assembled cpython ring_conf strong_couplings ring_switches (RList []) ring_basis strong_ham /\
  assembled cpython ring_conf half_couplings ring_switches (RList []) ring_basis half_ham /\
  all_levels ring_ham ring_levels /\ all_levels strong_ham strong_levels /\ lowest ring_ham (qz (-6)) /\ lowest strong_ham (qz (-9)) /\
  stronger_exchanges ex_couplings strong_couplings /\ couplings_within strong_sizes (combine_couplings 1 (- (1))%Qc strong_couplings ex_couplings) /\
  this (energy_bound strong_sizes ring_switches (nholes ring_conf) (grid_bonds 2 2)) = (4 # 1)%Q /\
  levels_below ring_levels (qz (-3)) = 2%nat /\ levels_below strong_levels (qz (-3)) = 5%nat /\ this (half * qz (-6) + half * qz (-9))%Qc = (-15 # 2)%Q /\
  filled_whole mixed_conf 2 /\ assembled cpython mixed_conf ex_couplings mixed_switches (RList []) mixed_basis mixed_ham /\
  assembled cpython mixed_conf repelling mixed_switches (RList []) mixed_basis repelling_ham /\ stronger_repulsions ex_couplings repelling /\
  this (csr_trace mixed_ham) = (112 # 1)%Q /\ this (csr_trace repelling_ham) = (128 # 1)%Q.
Proof.
  assert (R := proj1 (proj2 (proj2 (proj2 (proj2 C101_example))))).
  assert (DS : csr_dim strong_ham = 6) by (vm_compute; reflexivity).
  assert (L : all_levels strong_ham strong_levels).
  { split; [rewrite DS; reflexivity|]. split.
    - intros e v I. cbn [strong_levels In] in I.
      repeat (destruct I as [I|I]; [injection I as <- <-; split; [rewrite DS; reflexivity|]; split; [apply this_list; vm_compute; reflexivity|]; eexists; split; [|apply (fun H : qz 1 <> 0%Qc => H); discriminate]; cbn [map In]; tauto|]).
      destruct I.
    - intros i j x y N Hi Hj.
      assert (G : forallb (fun i => forallb (fun j => Nat.eqb i j || (if Qc_eq_dec (inner (snd (nth i strong_levels (0%Qc, []))) (snd (nth j strong_levels (0%Qc, [])))) 0 then true else false)) (seq 0 6)) (seq 0 6) = true) by (vm_compute; reflexivity).
      rewrite forallb_forall in G. specialize (G i ltac:(apply in_seq; split; [apply Nat.le_0_l | apply (proj1 (nth_error_Some strong_levels i)); congruence])). rewrite forallb_forall in G.
      specialize (G j ltac:(apply in_seq; split; [apply Nat.le_0_l | apply (proj1 (nth_error_Some strong_levels j)); congruence])). cbv beta in G.
      apply (nth_error_nth _ _ (0%Qc, [])) in Hi, Hj. rewrite Hi, Hj in G. destruct (Nat.eqb_spec i j); [contradiction|]. destruct (Qc_eq_dec _ _); [assumption | discriminate G]. }
  split; [exact cpython_ok|]. split; [exact (proj1 ring_ok)|]. split; [exact (proj2 ring_ok)|]. split; [split; vm_compute; reflexivity|]. split; [split; vm_compute; reflexivity|].
  split; [exact R|]. split; [exact L|]. split; [|split].
  - apply (C102_lowest _ _ _ R). intros e v I. cbn [ring_levels In] in I. repeat (destruct I as [I|I]; [injection I as <- <-; vm_compute; congruence|]). destruct I.
  - apply (C102_lowest _ _ _ L). intros e v I. cbn [strong_levels In] in I. repeat (destruct I as [I|I]; [injection I as <- <-; vm_compute; congruence|]). destruct I.
  - split; [vm_compute; intuition congruence|]. split; [vm_compute; intuition congruence|]. split; [vm_compute; reflexivity|]. split; [vm_compute; reflexivity|]. split; [vm_compute; reflexivity|]. split; [vm_compute; reflexivity|].
    destruct C101_example as (_ & _ & _ & _ & _ & _ & _ & M1 & M2 & _ & _ & M3). split; [exact M1|]. split; [exact M2|]. split; [split; vm_compute; reflexivity|].
    split; [vm_compute; intuition congruence|]. split; [exact M3 | vm_compute; reflexivity].
Qed.
