(** Theorems on symmetries of the states with real amplitudes (C110).  They use the axioms of the real numbers of the standard library. *)
From Coq Require Import ZArith List Bool QArith Qcanon Reals Qreals Lra.
From Verif Require Import PyBase PyFacts Runtimes Lattice Base Interact Ham Spin Spec SpecOps SpecTJ SpecSpin SpinDefs Geometry HamSpec SignDefs EnergyDefs DrawnDefs MotionDefs RealSum RealDefs SymDefs
  PSpin FInter PQc PSign PSignOp FSign FTop FDrawn FEnergy FFerro FMotion PReal PRealQ FReal FReal3 FReal8 Examples Thm_Sign Thm_Motion Thm_Drawn Thm_Real.
Import ListNotations.
Open Scope R_scope.

(** C110 *)
Theorem C110_figures :
  forall E E' c c' pos pos' f K S arg arg' l l' m m' e v, set_iter_ok E -> set_iter_ok E' ->
  filled_drawn_whole E c pos -> filled_drawn_whole E' c' pos' -> same_filling c c' -> same_figure (nsites c) pos pos' f ->
  flips_agree c pos K S -> flips_agree c' pos' K S -> assembled E c K S arg l m -> assembled E' c' K S arg' l' m' -> all_states m e v ->
  exists v', all_states m' e v' /\ forall k, moved_real c l f (v k) (v' k).
Proof. exact C110_figures_pf. Qed.
Print Assumptions C110_figures.

Theorem C110_hops :
  forall E c w r K S arg arg' l l' m m' e v, set_iter_ok E -> filled c w r ->
  assembled E c K S arg l m -> assembled E c (opposite_t K) S arg' l' m' -> all_states m e v ->
  exists v', all_states m' e v' /\ forall k, signed_real c l (hole_sign (nsites c) (point w)) (v k) (v' k).
Proof. exact C110_hops_pf. Qed.
Print Assumptions C110_hops.

Theorem C110_reversal :
  forall E c c' w K S arg arg' l l' m m' e v, set_iter_ok E -> filled_whole c w -> filled_whole c' w -> proper c -> proper c' ->
  nsites c' = nsites c -> nholes c' = nholes c -> nbeta c' = nalpha c -> assembled E c K S arg l m -> assembled E c' K S arg' l' m' -> all_states m e v ->
  exists v', all_states m' e v' /\ forall k, reversed_real c c' l l' (v k) (v' k).
Proof. exact C110_reversal_pf. Qed.
Print Assumptions C110_reversal.

Theorem C110_parity :
  forall E c w K S arg l m f e v, set_iter_ok E -> filled_whole c w -> proper c -> assembled E c K S arg l m ->
  nholes c = 0%Z -> s_bij S = true -> (0 < i_J K)%Qc -> motion (nsites c) (point w) f -> ground_energy m e -> energy_state m e v ->
  moved_real c l f v (fun i => if Z.odd (nbeta c) && black (point w (f 0%Z)) then - v i else v i).
Proof. exact C110_parity_pf. Qed.
Print Assumptions C110_parity.

Theorem C110_parity_holes :
  forall E c w K S arg l m f e v, set_iter_ok E -> filled_whole c w -> proper c -> assembled E c K S arg l m ->
  ferromagnetic K S -> nholes c = 0%Z \/ (s_bt S = true /\ i_t K <> 0%Qc) -> motion (nsites c) (point w) f -> ground_energy m e -> energy_state m e v ->
  ((0 < i_t K)%Qc -> moved_real c l f v (fun i => if Z.odd (nholes c) && black (point w (f 0%Z)) then - v i else v i)) /\
  ((i_t K <= 0)%Qc -> moved_real c l f v v).
Proof. exact C110_parity_holes_pf. Qed.
Print Assumptions C110_parity_holes.

Theorem C110_reversed_parity :
  forall E c w K S arg l m e v, set_iter_ok E -> filled_whole c w -> proper c -> assembled E c K S arg l m ->
  nholes c = 0%Z -> nalpha c = nbeta c -> s_bij S = true -> (0 < i_J K)%Qc -> ground_energy m e -> energy_state m e v ->
  reversed_real c c l l v (fun i => if Z.odd (nbeta c) then - v i else v i).
Proof. exact C110_reversed_parity_pf. Qed.
Print Assumptions C110_reversed_parity.

Lemma ground_of_lowest : forall c w K S l m u v, filled_whole c w -> assembled cpython c K S (RList []) l m -> (0 < length l)%nat -> zlen v = csr_dim m -> lowest m u -> eigenvector m u v ->
  ground_energy m (real u) /\ energy_state m (real u) (reals v).
Proof.
  intros c w K S l m u v F A Hl Lv L V. pose proof (proj1 (C103_rectangle_pf cpython c w _ K S F)) as FD. destruct (C104_ground cpython c _ _ K S _ l m cpython_ok FD A Hl) as (e & G & _ & Lo & _).
  apply Lo in L. assert (N : (0 <= csr_dim m)%Z) by (rewrite <- Lv; apply Zle_0_nat). apply (C104_rational m u v N Lv) in V. destruct G as (G & H). pose proof (H _ _ V). replace (real u) with e by lra. split; [now split|]. replace e with (real u) by lra. exact V.
Qed.
Lemma states_exist : forall c w K S l m, filled_whole c w -> assembled cpython c K S (RList []) l m -> exists e v, all_states m e v.
Proof.
  intros c w K S l m F A. pose proof (proj1 (C103_rectangle_pf cpython c w _ K S F)) as FD. destruct (C104_states cpython c _ _ K S _ l m cpython_ok FD A) as (_ & H & _). exact H.
Qed.

(** An up and five holes on three columns of two sites and on two columns of three. *)
Example C110_figures_example : set_iter_ok cpython /\ filled_drawn_whole cpython wide (point 3) /\ filled_drawn_whole cpython tall (point 2) /\ same_filling wide tall /\
  same_figure (nsites wide) (point 3) (point 2) (fun x => 2 * (x mod 3) + x / 3)%Z /\ flips_agree wide (point 3) ex_couplings all_switches /\ flips_agree tall (point 2) ex_couplings all_switches /\
  assembled cpython wide ex_couplings all_switches (RList []) five_holes wide_ham /\ assembled cpython tall ex_couplings all_switches (RList []) five_holes tall_ham /\
  (exists e v, all_states wide_ham e v).
Proof.
  destruct C103_transposed_example as (F & F' & _ & SF & A & A' & _). destruct (C103_rectangle_pf cpython wide 3 _ ex_couplings all_switches F) as [F1 G1]. destruct (C103_rectangle_pf cpython tall 2 _ ex_couplings all_switches F') as [F2 G2].
  split; [exact cpython_ok|]. split; [exact F1|]. split; [exact F2|]. split; [exact SF|]. split.
  { assert (B : forallb (fun x => ((0 <=? 2 * (x mod 3) + x / 3) && (2 * (x mod 3) + x / 3 <? 6))%Z && forallb (fun y => let p := point 2 (2 * (x mod 3) + x / 3) in let q := point 2 (2 * (y mod 3) + y / 3) in
        ((Z.abs (fst p - fst q) =? Z.abs (snd (point 3 x) - snd (point 3 y))) && (Z.abs (snd p - snd q) =? Z.abs (fst (point 3 x) - fst (point 3 y))))%Z) (zrange 0 6)) (zrange 0 6) = true) by (vm_compute; reflexivity).
    rewrite forallb_forall in B. assert (N : nsites wide = 6%Z) by (vm_compute; reflexivity). split; [|right]; rewrite ?N.
    - intros x Hx. specialize (B x (proj2 (in_zrange x 0 6) Hx)). apply andb_true_iff in B. destruct B as [B _]. apply andb_true_iff in B. rewrite Z.leb_le, Z.ltb_lt in B. exact B.
    - intros x y Hx Hy. specialize (B x (proj2 (in_zrange x 0 6) Hx)). apply andb_true_iff in B. destruct B as [_ B]. rewrite forallb_forall in B. specialize (B y (proj2 (in_zrange y 0 6) Hy)). cbv zeta in B. apply andb_true_iff in B. rewrite !Z.eqb_eq in B. exact B. }
  split; [exact G1|]. split; [exact G2|]. split; [exact A|]. split; [exact A'|]. exact (states_exist wide 3 ex_couplings all_switches five_holes wide_ham F A).
Qed.

(** An up and two holes in a row, with hops only: the energies with the other sign of the hops are the same. *)
Definition back_ham : csr := get (mkCsr 0 []) (build_hamiltonian cpython hop_conf (opposite_t ex_couplings) (mkBasis hop_conf hop_basis) hop_switches (RList [])).
Example C110_hops_example : filled hop_conf 3 (zrange 0 3) /\ assembled cpython hop_conf ex_couplings hop_switches (RList []) hop_basis hop_ham /\
  assembled cpython hop_conf (opposite_t ex_couplings) hop_switches (RList []) hop_basis back_ham /\ all_states hop_ham hop_energy hop_vector /\ (csr_at hop_ham 0 1 = qz 1 /\ csr_at back_ham 0 1 = qz (-1)).
Proof. split; [exact hop_filled|]. split; [split; vm_compute; reflexivity|]. split; [split; vm_compute; reflexivity|]. split; [exact hop_states|]. split; apply Qc_is_canon; vm_compute; reflexivity. Qed.

(** Three ups and a down, one up and three downs on four sites. *)
Definition three_conf : configuration := ex_rect 1 1 2 0 3.
Definition three_basis : list (list Z) := get [] (b <- construct_basis three_conf ;; Ok (determinants b)).
Definition three_ham : csr := get (mkCsr 0 []) (build_hamiltonian cpython three_conf ex_couplings (mkBasis three_conf three_basis) ring_switches (RList [])).
Example C110_reversal_example : filled_whole lone_conf 2 /\ filled_whole three_conf 2 /\ proper lone_conf /\ proper three_conf /\ nsites three_conf = nsites lone_conf /\ nholes three_conf = nholes lone_conf /\
  nbeta three_conf = nalpha lone_conf /\ assembled cpython lone_conf ex_couplings ring_switches (RList []) lone_basis lone_ham /\ assembled cpython three_conf ex_couplings ring_switches (RList []) three_basis three_ham /\
  (exists e v, all_states lone_ham e v).
Proof.
  destruct lone_ok as [F A]. split; [exact F|]. split.
  { split; [exists 1%Z, 1%Z, 2%Z; vm_compute; repeat (split; [congruence|]); reflexivity|]. split; [reflexivity|]. vm_compute. intuition congruence. }
  split; [unfold proper; vm_compute; intuition congruence|]. split; [unfold proper; vm_compute; intuition congruence|]. do 3 (split; [reflexivity|]). split; [exact A|]. split; [split; vm_compute; reflexivity|]. exact (states_exist lone_conf 2 _ _ _ _ F A).
Qed.

(** The ground state of these three ups and a down changes its sign in a mirror. *)
Example C110_parity_example : set_iter_ok cpython /\ filled_whole lone_conf 2 /\ proper lone_conf /\ assembled cpython lone_conf ex_couplings ring_switches (RList []) lone_basis lone_ham /\
  nholes lone_conf = 0%Z /\ s_bij ring_switches = true /\ i_J ex_couplings = qz 2 /\ motion (nsites lone_conf) (point 2) (mirror_across 2) /\ ground_energy lone_ham (real (- qz 4)) /\
  energy_state lone_ham (real (- qz 4)) (reals lone_state) /\ Z.odd (nbeta lone_conf) && black (point 2 (mirror_across 2 0)) = true.
Proof.
  destruct lone_ok as [F A]. destruct C97_example as (_ & _ & _ & _ & _ & _ & _ & _ & M & _ & L & V & _).
  destruct (ground_of_lowest lone_conf 2 _ _ _ _ (- qz 4)%Qc lone_state F A ltac:(vm_compute; Lia.lia) ltac:(vm_compute; reflexivity) L V) as [G W].
  split; [exact cpython_ok|]. split; [exact F|]. split; [unfold proper; vm_compute; intuition congruence|]. split; [exact A|]. do 3 (split; [reflexivity|]). split; [exact M|]. split; [exact G|]. split; [exact W|]. reflexivity.
Qed.

(** One hole, two ups and a down, ferromagnetic exchanges and positive hops: the same with the sublattice of the hole. *)
Example C110_parity_holes_example : filled_whole (ferro_conf 1) 2 /\ proper (ferro_conf 1) /\ assembled cpython (ferro_conf 1) ferro_couplings ferro_switches (RList []) (ferro_basis 1) (ferro_ham 1) /\
  ferromagnetic ferro_couplings ferro_switches /\ (s_bt ferro_switches = true /\ i_t ferro_couplings = qz 1) /\ motion (nsites (ferro_conf 1)) (point 2) (mirror_across 2) /\
  ground_energy (ferro_ham 1) (real (- qz 3)) /\ energy_state (ferro_ham 1) (real (- qz 3)) (reals ferro_state1) /\ Z.odd (nholes (ferro_conf 1)) && black (point 2 (mirror_across 2 0)) = true.
Proof.
  destruct (ferro_ok 1) as (F & P & A); [split; discriminate|]. destruct C97_example as (_ & _ & _ & _ & _ & _ & _ & _ & M & _ & _ & _ & _ & _ & _ & _ & FE & L & V & _).
  destruct (ground_of_lowest (ferro_conf 1) 2 _ _ _ _ (- qz 3)%Qc ferro_state1 F A ltac:(vm_compute; Lia.lia) ltac:(vm_compute; reflexivity) L V) as [G W].
  split; [exact F|]. split; [exact P|]. split; [exact A|]. split; [exact FE|]. split; [split; reflexivity|]. split; [exact M|]. split; [exact G|]. split; [exact W|]. reflexivity.
Qed.

(** An up and a down side by side: the ground state changes its sign when both are reversed. *)
Definition pair_conf : configuration := ex_rect 2 1 1 0 1.
Definition pair_basis : list (list Z) := [[0; 1]; [1; 0]]%Z.
Definition pair_ham : csr := get (mkCsr 0 []) (build_hamiltonian cpython pair_conf ex_couplings (mkBasis pair_conf pair_basis) ring_switches (RList [])).
Definition pair_state : list Qc := map qz [1; -1]%Z.
Example C110_reversed_parity_example : filled_whole pair_conf 2 /\ proper pair_conf /\ assembled cpython pair_conf ex_couplings ring_switches (RList []) pair_basis pair_ham /\
  nholes pair_conf = 0%Z /\ nalpha pair_conf = nbeta pair_conf /\ s_bij ring_switches = true /\ i_J ex_couplings = qz 2 /\ Z.odd (nbeta pair_conf) = true /\
  ground_energy pair_ham (real (- qz 2)) /\ energy_state pair_ham (real (- qz 2)) (reals pair_state).
Proof.
  assert (F : filled_whole pair_conf 2) by (split; [exists 2%Z, 1%Z, 1%Z; vm_compute; repeat (split; [congruence|]); reflexivity|]; split; [reflexivity|]; vm_compute; intuition congruence).
  assert (A : assembled cpython pair_conf ex_couplings ring_switches (RList []) pair_basis pair_ham) by (split; vm_compute; reflexivity).
  assert (V : eigenvector pair_ham (- qz 2) pair_state) by (split; [reflexivity|]; split; [vm_compute; reflexivity|]; exists (qz 1); split; [left; reflexivity | discriminate]).
  assert (L : lowest pair_ham (- qz 2)).
  { apply (C94_certificate_pf cpython pair_conf 2 _ ex_couplings ring_switches (RList []) pair_basis pair_ham (- qz 2)%Qc pair_state cpython_ok F A); [left; reflexivity | discriminate | exact V|].
    apply follows_by; [vm_compute; discriminate | vm_compute; discriminate | intros s t; apply down_same | vm_compute; reflexivity]. }
  destruct (ground_of_lowest pair_conf 2 _ _ _ _ (- qz 2)%Qc pair_state F A ltac:(vm_compute; Lia.lia) ltac:(vm_compute; reflexivity) L V) as [G W].
  split; [exact F|]. split; [unfold proper; vm_compute; intuition congruence|]. split; [exact A|]. do 5 (split; [reflexivity|]). split; [exact G | exact W].
Qed.
