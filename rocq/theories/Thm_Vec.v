(** Theorems on the sign and the length of the vector in the rounded spin and probabilities (C121). *)
From Coq Require Import ZArith List Bool QArith Qcanon Lia Permutation.
From Verif Require Import PyBase PyFacts Runtimes Lattice Base Interact Spin Prob Ham Round RoundSpin RoundProb Spec SpecTJ SpinDefs RoundDefs ScaleDefs FVec Examples.
Import ListNotations.
Open Scope Z_scope.

(** C121 *)
Theorem C121_spin_operator :
  forall F s E c v, rescales s F -> compute_S2_fl F E c (map (Qcmult s) v) = (w <- compute_S2_fl F E c v ;; Ok (map (Qcmult s) w)).
Proof. exact C121_spin_operator_pf. Qed.
Print Assumptions C121_spin_operator.

Theorem C121_spin :
  forall F s t norm E roots c v, rescales s F -> by_place F -> s <> 0%Qc -> (t * t = s * s)%Qc -> norm (map (Qcmult s) v) = (t * norm v)%Qc ->
  compute_S2_exp_val_fl F norm E c (map (Qcmult s) v) = compute_S2_exp_val_fl F norm E c v /\
  compute_spin_number_fl F norm E roots c (map (Qcmult s) v) = compute_spin_number_fl F norm E roots c v.
Proof. exact C121_spin_pf. Qed.
Print Assumptions C121_spin.

Theorem C121_probabilities :
  forall F s t norm b v rev, rescales s F -> s <> 0%Qc -> (t * t = s * s)%Qc -> norm (map (Qcmult s) v) = (t * norm v)%Qc ->
  get_spins_probabilitites_lattice_fl F norm b (map (Qcmult s) v) rev = get_spins_probabilitites_lattice_fl F norm b v rev.
Proof. exact C121_probabilities_pf. Qed.
Print Assumptions C121_probabilities.

Theorem C121_binary :
  forall p e o norm E roots c b v rev, 2 <= p -> (forall (f : Qc -> Qc) q, o (map f q) = map f (o q)) ->
  (norm (map (Qcmult (power2 e)) v) = power2 e * norm v)%Qc -> (norm (map (Qcmult (- power2 e)) v) = power2 e * norm v)%Qc -> forall s, s = power2 e \/ s = (- power2 e)%Qc ->
  let F := mkFloats (binary p) o in
  compute_spin_number_fl F norm E roots c (map (Qcmult s) v) = compute_spin_number_fl F norm E roots c v /\
  get_spins_probabilitites_lattice_fl F norm b (map (Qcmult s) v) rev = get_spins_probabilitites_lattice_fl F norm b v rev.
Proof. exact C121_binary_pf. Qed.
Print Assumptions C121_binary.

(** Four sites with one hole and one down.  The vector has the amplitudes 3/5 and 4/5 rounded; the norm is the one of vectors along it. *)
Definition two_amplitudes : list Qc := [binary 53 (qfrac 3 5); binary 53 (qfrac 4 5); 0; 0; 0; 0; 0; 0; 0; 0; 0; 0]%Qc.
Definition norm_along (w : list Qc) : Qc := (qabs (nth 0 w 0) / binary 53 (qfrac 3 5))%Qc.
Definition four_sites : basis := match construct_basis ex22 with Ok b => b | Err _ => mkBasis ex22 [] end.
Example C121_example : by_place binary64 /\ rescales (power2 1) binary64 /\ rescales (- power2 1)%Qc binary64 /\ power2 1 <> 0%Qc /\
  (norm_along (map (Qcmult (power2 1)) two_amplitudes) = power2 1 * norm_along two_amplitudes)%Qc /\ (norm_along (map (Qcmult (- power2 1)) two_amplitudes) = power2 1 * norm_along two_amplitudes)%Qc /\
  norm_along two_amplitudes = 1%Qc /\ construct_basis ex22 = Ok four_sites /\
  match compute_S2_exp_val_fl binary64 norm_along cpython ex22 two_amplitudes with Ok x => negb (Qle_bool (this x) 0) | Err _ => false end = true /\
  match get_spins_probabilitites_lattice_fl binary64 norm_along four_sites two_amplitudes false with Ok p => zlen p =? 3 | Err _ => false end = true.
Proof.
  split; [intros f l; reflexivity|]. split; [exact (proj1 (FScale.C119_binary_pf 53 _ 1 ltac:(lia)))|]. split; [exact (proj2 (FScale.C119_binary_pf 53 _ 1 ltac:(lia)))|]. split; [intros H; apply (f_equal this) in H; vm_compute in H; discriminate|].
  do 3 (split; [apply Qc_is_canon; vm_compute; reflexivity|]). split; [vm_compute; reflexivity|]. split; vm_compute; reflexivity.
Qed.
