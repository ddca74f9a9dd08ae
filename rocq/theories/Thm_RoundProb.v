(** Theorems on the probabilities computed with rounded operations (C113). *)
From Coq Require Import ZArith List Bool QArith Qcanon Lia.
From Verif Require Import PyBase PyFacts Runtimes Lattice Base Interact Ham Spin Prob Round RoundProb Spec SpecOps SpecTJ SpecSpin SpinDefs ProbDefs Geometry SignDefs RangeDefs RoundDefs PBinary FRound FRound2 FRoundProb Examples.
Import ListNotations.
Open Scope Z_scope.

(** C113 *)
Theorem C113_weights :
  forall u F d norm c l st v p, rounds u F -> norm_within d norm v -> (0 <= d)%Qc -> (u + d + u * d < 1)%Qc ->
  listed (nsites c) (nholes c) (nbeta c) l st -> length v = length l -> inner v v <> 0%Qc ->
  exists pr, get_probability_spin_lattice_fl F norm (mkBasis c l) v (spin_code p) false = Ok pr /\ length pr = Z.to_nat (nsites c) /\
    forall x, 0 <= x < nsites c -> let exact := (weight st v p x / inner v v)%Qc in
      (magnitude (nth (Z.to_nat x) pr 0 - exact) <= quotient_error u d (growth u (1 + zlen l)) * exact)%Qc.
Proof. exact C113_weights_pf. Qed.
Print Assumptions C113_weights.

Theorem C113_probabilities :
  forall u F d norm c l st v, rounds u F -> norm_within d norm v -> (0 <= d)%Qc -> (u + d + u * d < 1)%Qc ->
  listed (nsites c) (nholes c) (nbeta c) l st -> length v = length l -> inner v v <> 0%Qc ->
  exists down hole up, get_spins_probabilitites_lattice_fl F norm (mkBasis c l) v false = Ok [(-1, down); (0, hole); (1, up)] /\
    let e := quotient_error u d (growth u (1 + zlen l)) in
    forall x, 0 <= x < nsites c -> let at_site pr := nth (Z.to_nat x) pr 0%Qc in
      (magnitude (at_site down + at_site hole + at_site up - 1) <= e)%Qc /\
      (forall p pr, In (p, pr) [(Down, down); (Hole, hole); (Up, up)] -> (weight st v p x = 0%Qc -> at_site pr = 0%Qc) /\ ((e <= 1)%Qc -> (0 <= at_site pr)%Qc)).
Proof. exact C113_probabilities_pf. Qed.
Print Assumptions C113_probabilities.

Theorem C113_rectangle :
  forall u F d norm c l st v p, rounds u F -> norm_within d norm v -> (0 <= d)%Qc -> (u + d + u * d < 1)%Qc ->
  listed (nsites c) (nholes c) (nbeta c) l st -> length v = length l -> inner v v <> 0%Qc ->
  lattice_type c = Periodic -> 0 <= nbh c * nblocs_side c -> 0 <= nbv c * nblocs_side c -> nsites c = (nbh c * nblocs_side c) * (nbv c * nblocs_side c) ->
  exists rows, get_probability_spin_rectangular_lattice_fl F norm (mkBasis c l) v (spin_code p) = Ok rows /\ length rows = Z.to_nat (nbv c * nblocs_side c) /\
    (forall r, In r rows -> length r = Z.to_nat (nbh c * nblocs_side c)) /\
    forall x y, 0 <= x < nbh c * nblocs_side c -> 0 <= y < nbv c * nblocs_side c ->
      let exact := (weight st v p (site (nbh c * nblocs_side c) (x, y)) / inner v v / inner v v)%Qc in
      (magnitude (nth (Z.to_nat x) (nth (Z.to_nat (nbv c * nblocs_side c - 1 - y)) rows []) 0 - exact) <= quotient_error u d (quotient_error u d (growth u (1 + zlen l))) * exact)%Qc.
Proof. exact C113_rectangle_pf. Qed.
Print Assumptions C113_rectangle.

Theorem C113_exact :
  forall F norm c l st v p, exact_floats F -> (norm v * norm v = inner v v)%Qc -> listed (nsites c) (nholes c) (nbeta c) l st -> length v = length l -> inner v v <> 0%Qc ->
  get_probability_spin_lattice_fl F norm (mkBasis c l) v (spin_code p) false = get_probability_spin_lattice (mkBasis c l) v (spin_code p) false.
Proof. exact C113_exact_pf. Qed.
Print Assumptions C113_exact.

Theorem C113_failures :
  forall F norm b v spin r,
  (spin <> -1 -> spin <> 0 -> spin <> 1 -> get_probability_spin_lattice_fl F norm b v spin r = Err ValueError /\ get_probability_spin_rectangular_lattice_fl F norm b v spin = Err ValueError) /\
  (lattice_type (b_conf b) <> Periodic -> get_probability_spin_rectangular_lattice_fl F norm b v spin = Err ValueError) /\
  get_probability_spin_lattice_fl F norm b v spin true = get_probability_spin_lattice_fl F norm b v (- spin) false.
Proof. exact C113_failures_pf. Qed.
Print Assumptions C113_failures.

Theorem C113_zero_vector :
  forall u F norm c l st v p, rounds u F -> norm v = 0%Qc -> listed (nsites c) (nholes c) (nbeta c) l st -> length v = length l -> 0 < nsites c ->
  get_probability_spin_lattice_fl F norm (mkBasis c l) v (spin_code p) false = Err ZeroDivisionError.
Proof. exact C113_zero_vector_pf. Qed.
Print Assumptions C113_zero_vector.

(** Two determinants with the amplitude 0.9: the computed probabilities of a site add up to more than 1. *)
Theorem C113_total_refuted :
  exists c l v norm p, proper c /\ construct_basis c = Ok (mkBasis c l) /\ length v = length l /\
  (forall x, In x v -> has_bits 53 x) /\ norm_within (1 / qz (2 ^ 52)) norm v /\
  get_spins_probabilitites_lattice_fl binary64 norm (mkBasis c l) v false = Ok [(-1, [p; p]); (0, [0%Qc; 0%Qc]); (1, [p; p])] /\ (1 < p + 0 + p)%Qc.
Proof. exact C113_total_refuted_pf. Qed.
Print Assumptions C113_total_refuted.

(** The hypotheses of the bounds hold for these amplitudes; the computed probability is not one half, and within the bound. *)
Example C113_example : let u := (1 / qz (2 ^ 53))%Qc in let d := (1 / qz (2 ^ 52))%Qc in let e := quotient_error u d (growth u (1 + zlen pair_basis)) in
  rounds u binary64 /\ norm_within d pair_norm pair_vector /\ (u + d + u * d < 1)%Qc /\
  listed (nsites pair_conf) (nholes pair_conf) (nbeta pair_conf) pair_basis pair_states /\ length pair_vector = length pair_basis /\ inner pair_vector pair_vector <> 0%Qc /\ (e <= 1)%Qc /\
  lattice_type pair_conf = Periodic /\ nsites pair_conf = (nbh pair_conf * nblocs_side pair_conf) * (nbv pair_conf * nblocs_side pair_conf) /\
  get_probability_spin_lattice_fl binary64 pair_norm (mkBasis pair_conf pair_basis) pair_vector (spin_code Up) false = Ok [above_half; above_half] /\ above_half <> half /\ (magnitude (above_half - half) <= e * half)%Qc.
Proof.
  cbv zeta. split; [apply C111_binary_pf; [lia | reflexivity]|]. split; [vm_compute; discriminate|]. split; [vm_compute; reflexivity|].
  split; [exact pair_listed|]. split; [reflexivity|]. split; [vm_compute; discriminate|]. split; [vm_compute; discriminate|].
  split; [reflexivity|]. split; [reflexivity|]. split; [exact (proj2 (proj2 pair_values))|]. split; vm_compute; discriminate.
Qed.

(** The exact case: amplitudes 3 and 4 of norm 5, and no rounding. *)
Example C113_exact_example : exact_floats (mkFloats (fun x => x) (fun l => l)) /\ inner [qz 3; qz 4] [qz 3; qz 4] = (qz 5 * qz 5)%Qc /\
  get_probability_spin_lattice (mkBasis pair_conf pair_basis) [qz 3; qz 4] (spin_code Up) false = Ok [qfrac 16 25; qfrac 9 25].
Proof. split; [split; [reflexivity | intros; apply Permutation.Permutation_refl]|]. split; [apply Qc_is_canon; vm_compute; reflexivity|]. apply ok_list_q. vm_compute. reflexivity. Qed.
