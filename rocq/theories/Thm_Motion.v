(** Theorems on the motions of the lattice (C97). *)
From Coq Require Import ZArith List Bool QArith Qcanon.
From Verif Require Import PyBase PyFacts Runtimes Lattice Base Interact Ham Spin Spec SpecOps SpecTJ SpinDefs Geometry HamSpec SignDefs MotionDefs FInter PQc FSign FFerro FTop FMotion Examples.
Import ListNotations.
Open Scope Z_scope.

(** C97 *)
Theorem C97_elements :
  forall E c w K S arg l m f i j i' j' d e d' e' s t s' t', set_iter_ok E -> filled_whole c w -> assembled E c K S arg l m ->
  motion (nsites c) (point w) f ->
  nth_error l i = Some d -> nth_error l j = Some e -> nth_error l i' = Some d' -> nth_error l j' = Some e' ->
  describes (nsites c) (nholes c) (nbeta c) d s -> describes (nsites c) (nholes c) (nbeta c) e t ->
  describes (nsites c) (nholes c) (nbeta c) d' s' -> describes (nsites c) (nholes c) (nbeta c) e' t' ->
  carried (nsites c) f s s' -> carried (nsites c) f t t' ->
  csr_at m (Z.of_nat i') (Z.of_nat j') = csr_at m (Z.of_nat i) (Z.of_nat j).
Proof. exact C97_elements_pf. Qed.
Print Assumptions C97_elements.

Theorem C97_states :
  forall E c w K S arg l m f e v, set_iter_ok E -> filled_whole c w -> assembled E c K S arg l m ->
  motion (nsites c) (point w) f -> eigenvector m e v ->
  exists v', moved c l f v v' /\ eigenvector m e v' /\ inner v' v' = inner v v.
Proof. exact C97_states_pf. Qed.
Print Assumptions C97_states.

Theorem C97_mirrors :
  forall w h, 0 < w -> 0 < h ->
  motion (w * h) (point w) (mirror_across w) /\ motion (w * h) (point w) (mirror_down w h) /\ motion (w * w) (point w) (transpose_site w) /\
  (forall x, 0 <= x < w * h -> point w (mirror_across w x) = (w - 1 - fst (point w x), snd (point w x)) /\
    point w (mirror_down w h x) = (fst (point w x), h - 1 - snd (point w x))) /\
  (forall x, 0 <= x < w * w -> point w (transpose_site w x) = (snd (point w x), fst (point w x))) /\
  black (point w (mirror_across w 0)) = Z.even w /\ black (point w (mirror_down w h 0)) = Z.even h /\ black (point w (transpose_site w 0)) = false.
Proof. exact C97_mirrors_pf. Qed.
Print Assumptions C97_mirrors.

Theorem C97_parity :
  forall E c w K S arg l m f e v, set_iter_ok E -> filled_whole c w -> assembled E c K S arg l m ->
  nholes c = 0 -> s_bij S = true -> (0 < i_J K)%Qc -> lowest m e -> motion (nsites c) (point w) f -> eigenvector m e v ->
  moved c l f v (map (fun x => if Z.odd (nbeta c) && black (point w (f 0)) then (- x)%Qc else x) v).
Proof. exact C97_parity_pf. Qed.
Print Assumptions C97_parity.

Theorem C97_parity_holes :
  forall E c w K S arg l m f e v, set_iter_ok E -> filled_whole c w -> assembled E c K S arg l m ->
  ferromagnetic K S -> nholes c = 0 \/ (s_bt S = true /\ i_t K <> 0%Qc) -> lowest m e -> motion (nsites c) (point w) f -> eigenvector m e v ->
  ((0 < i_t K)%Qc -> moved c l f v (map (fun x => if Z.odd (nholes c) && black (point w (f 0)) then (- x)%Qc else x) v)) /\
  ((i_t K <= 0)%Qc -> moved c l f v v).
Proof. exact C97_parity_holes_pf. Qed.
Print Assumptions C97_parity_holes.

(** one down on four sites in a ring: left and right exchanged change the sign of the lowest state, rows and columns exchanged do not *)
Example C97_example : set_iter_ok cpython /\ filled_whole lone_conf 2 /\ assembled cpython lone_conf ex_couplings ring_switches (RList []) lone_basis lone_ham /\
  nholes lone_conf = 0 /\ nbeta lone_conf = 1 /\ s_bij ring_switches = true /\ i_J ex_couplings = qz 2 /\ nsites lone_conf = 2 * 2 /\
  motion (2 * 2) (point 2) (mirror_across 2) /\ motion (2 * 2) (point 2) (transpose_site 2) /\ lowest lone_ham (- qz 4) /\ eigenvector lone_ham (- qz 4) lone_state /\
  lone_state = map qz [1; -1; -1; 1] /\ map (mirror_across 2) [0; 1; 2; 3] = [1; 0; 3; 2] /\ map (transpose_site 2) [0; 1; 2; 3] = [0; 2; 1; 3] /\
  lone_basis = [[0; 1; 2; 3]; [1; 0; 2; 3]; [2; 0; 1; 3]; [3; 0; 1; 2]] /\
  ferromagnetic ferro_couplings ferro_switches /\ lowest (ferro_ham 1) (- qz 3) /\ eigenvector (ferro_ham 1) (- qz 3) ferro_state1 /\ nsites (ferro_conf 1) = 2 * 2 /\ nholes (ferro_conf 1) = 1 /\
  i_t ferro_couplings = qz 1.
Proof.
  split; [exact cpython_ok|]. split; [exact (proj1 lone_ok)|]. split; [exact (proj2 lone_ok)|]. do 3 (split; [reflexivity|]). split; [reflexivity|]. split; [reflexivity|].
  split; [apply (C97_mirrors_pf 2 2); reflexivity|]. split; [apply (C97_mirrors_pf 2 2); reflexivity|]. split; [exact lone_lowest|]. split; [exact lone_eigen|].
  do 4 (split; [vm_compute; reflexivity|]). split; [exact ferro_magnetic|]. split; [exact ferro_lowest1|]. split; [exact ferro_eigen1|]. do 2 (split; [reflexivity|]). reflexivity.
Qed.
