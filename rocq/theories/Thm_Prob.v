(** Theorems on probabilities and dominant determinants (C42-C45). *)
From Coq Require Import ZArith List Bool Sorted QArith Qcanon Qcabs.
From Verif Require Import PyBase PyFacts Lattice Base Interact Spin Prob Spec SpecTJ SpinDefs ProbDefs PQc FProb Examples FTight5.
Import ListNotations.
Open Scope Z_scope.

(** 2x2 sites, one hole, one down, two ups; the hypotheses of the theorems hold on the whole basis *)
Example ex22_meets : construct_basis ex22 = Ok (mkBasis ex22 ex22_basis) /\
  listed (nsites ex22) (nholes ex22) (nbeta ex22) ex22_basis ex22_states /\ length ex22_vect = length ex22_basis /\
  inner ex22_vect ex22_vect <> 0%Qc /\ nalpha ex22 = nsites ex22 - nholes ex22 - nbeta ex22 /\ length ex22_basis = 12%nat.
Proof.
  split; [vm_compute; reflexivity|]. split; [exact ex22_listed|]. split; [reflexivity|]. split; [vm_compute; discriminate|]. split; reflexivity.
Qed.

(** C42 *)
Theorem C42_weights :
  forall c l st v p, listed (nsites c) (nholes c) (nbeta c) l st -> length v = length l -> inner v v <> 0%Qc ->
  exists pr, get_probability_spin_lattice (mkBasis c l) v (spin_code p) false = Ok pr /\
    length pr = Z.to_nat (nsites c) /\
    forall x, 0 <= x < nsites c -> nth_error pr (Z.to_nat x) = Some (weight st v p x / inner v v)%Qc.
Proof. exact C42_weights_pf. Qed.
Print Assumptions C42_weights.

Theorem C42_probabilities :
  forall c l st v, 0 <= nsites c -> nalpha c = nsites c - nholes c - nbeta c ->
  listed (nsites c) (nholes c) (nbeta c) l st -> length v = length l -> inner v v <> 0%Qc ->
  exists down hole up,
    get_spins_probabilitites_lattice (mkBasis c l) v false = Ok [(-1, down); (0, hole); (1, up)] /\
    (forall p x, In p [down; hole; up] -> In x p -> (0 <= x <= 1)%Qc) /\
    (forall k, (k < Z.to_nat (nsites c))%nat -> (nth k down 0 + nth k hole 0 + nth k up 0)%Qc = 1%Qc) /\
    total hole = qz (nholes c) /\ total down = qz (nbeta c) /\ total up = qz (nalpha c).
Proof. exact C42_probabilities_pf. Qed.
Print Assumptions C42_probabilities.

Theorem C42_reverse :
  forall b v p,
  get_probability_spin_lattice b v (spin_code p) true = get_probability_spin_lattice b v (spin_code (flip_particle p)) false.
Proof. exact C42_reverse_pf. Qed.
Print Assumptions C42_reverse.

Theorem C42_reverse_all :
  forall b v down hole up,
  get_spins_probabilitites_lattice b v false = Ok [(-1, down); (0, hole); (1, up)] ->
  get_spins_probabilitites_lattice b v true = Ok [(-1, up); (0, hole); (1, down)].
Proof. exact C42_reverse_all_pf. Qed.
Print Assumptions C42_reverse_all.

Theorem C42_other_spins :
  forall b v spin r, spin <> -1 -> spin <> 0 -> spin <> 1 ->
  get_probability_spin_lattice b v spin r = Err ValueError /\ get_probability_spin_rectangular_lattice b v spin = Err ValueError.
Proof. exact C42_other_spins_pf. Qed.
Print Assumptions C42_other_spins.

Theorem C42_zero_vector :
  forall c l st v p, listed (nsites c) (nholes c) (nbeta c) l st -> length v = length l -> inner v v = 0%Qc ->
  0 < nsites c -> get_probability_spin_lattice (mkBasis c l) v (spin_code p) false = Err ZeroDivisionError.
Proof. exact C42_zero_vector_pf. Qed.
Print Assumptions C42_zero_vector.

(** two sites, one up and one down: amplitudes 3 and 4 *)
Example C42_example : exists r,
  get_spins_probabilitites_lattice (mkBasis (ex_rect 2 1 1 0 1) [[0; 1]; [1; 0]]) [qz 3; qz 4] false = Ok r /\
  map (fun p => (fst p, map this (snd p))) r = [(-1, [9 # 25; 16 # 25]%Q); (0, [0; 0]%Q); (1, [16 # 25; 9 # 25]%Q)].
Proof. eexists. split; [vm_compute; reflexivity | vm_compute; reflexivity]. Qed.

(** C43 *)
Theorem C43_map :
  forall c l st v p, listed (nsites c) (nholes c) (nbeta c) l st -> length v = length l -> inner v v <> 0%Qc ->
  lattice_type c = Periodic -> 0 <= nbh c * nblocs_side c -> 0 <= nbv c * nblocs_side c ->
  nsites c = (nbh c * nblocs_side c) * (nbv c * nblocs_side c) ->
  exists rows pr,
    get_probability_spin_lattice (mkBasis c l) v (spin_code p) false = Ok pr /\
    get_probability_spin_rectangular_lattice (mkBasis c l) v (spin_code p) = Ok rows /\
    length rows = Z.to_nat (nbv c * nblocs_side c) /\
    (forall r, In r rows -> length r = Z.to_nat (nbh c * nblocs_side c)) /\
    forall x y, 0 <= x < nbh c * nblocs_side c -> 0 <= y < nbv c * nblocs_side c ->
      nth (Z.to_nat x) (nth (Z.to_nat (nbv c * nblocs_side c - 1 - y)) rows []) 0%Qc =
      (nth (Z.to_nat (site (nbh c * nblocs_side c) (x, y))) pr 0 / inner v v)%Qc.
Proof. exact C43_map_pf. Qed.
Print Assumptions C43_map.

Theorem C43_unit :
  forall c l st v p, listed (nsites c) (nholes c) (nbeta c) l st -> length v = length l -> inner v v = 1%Qc ->
  lattice_type c = Periodic -> 0 <= nbh c * nblocs_side c -> 0 <= nbv c * nblocs_side c ->
  nsites c = (nbh c * nblocs_side c) * (nbv c * nblocs_side c) ->
  exists rows,
    get_probability_spin_rectangular_lattice (mkBasis c l) v (spin_code p) = Ok rows /\
    forall x y, 0 <= x < nbh c * nblocs_side c -> 0 <= y < nbv c * nblocs_side c ->
      nth (Z.to_nat x) (nth (Z.to_nat (nbv c * nblocs_side c - 1 - y)) rows []) 0%Qc =
      weight st v p (site (nbh c * nblocs_side c) (x, y)).
Proof. exact C43_unit_pf. Qed.
Print Assumptions C43_unit.

Theorem C43_not_periodic :
  forall b v p, lattice_type (b_conf b) <> Periodic ->
  get_probability_spin_rectangular_lattice b v (spin_code p) = Err ValueError.
Proof. exact C43_not_periodic_pf. Qed.
Print Assumptions C43_not_periodic.

Example C43_example : exists r, lattice_type ex22 = Periodic /\ nsites ex22 = (nbh ex22 * nblocs_side ex22) * (nbv ex22 * nblocs_side ex22) /\
  inner (map (fun k => if k =? 3 then qfrac 3 5 else if k =? 7 then qfrac 4 5 else 0%Qc) (zrange 0 12))
        (map (fun k => if k =? 3 then qfrac 3 5 else if k =? 7 then qfrac 4 5 else 0%Qc) (zrange 0 12)) = 1%Qc /\
  get_probability_spin_rectangular_lattice (mkBasis ex22 ex22_basis)
    (map (fun k => if k =? 3 then qfrac 3 5 else if k =? 7 then qfrac 4 5 else 0%Qc) (zrange 0 12)) 0 = Ok r /\
  map (map this) r = [[16 # 25; 0]; [0; 9 # 25]]%Q.
Proof.
  eexists. split; [reflexivity|]. split; [reflexivity|]. split; [apply Qc_is_canon; vm_compute; reflexivity|].
  split; [vm_compute; reflexivity | vm_compute; reflexivity].
Qed.

Theorem C43_refuted :
  exists c l v rows pr,
  construct_basis c = Ok (mkBasis c l) /\ length v = length l /\ inner v v = qz 3 /\
  get_probability_spin_lattice (mkBasis c l) v 0 false = Ok pr /\
  get_probability_spin_rectangular_lattice (mkBasis c l) v 0 = Ok rows /\
  nsites c = 4 /\ nbh c * nblocs_side c = 2 /\
  nth 0 (nth 1 rows []) 0%Qc <> nth 0 pr 0%Qc /\ nth 0 pr 0%Qc = qfrac 1 4 /\ nth 0 (nth 1 rows []) 0%Qc = qfrac 1 12.
Proof. exact C43_refuted_pf. Qed.
Print Assumptions C43_refuted.

(** C44 *)
Theorem C44_distinct :
  forall c l v ndet, proper c -> construct_basis c = Ok (mkBasis c l) -> length v = length l ->
  NoDup (map Qcabs v) ->
  exists idx, largest v idx /\ length idx = kept (length v) ndet /\
    get_dominant_determinants (mkBasis c l) v ndet = Ok (map (fun i => (nth i v 0%Qc, nth i l [])) idx).
Proof. exact C44_distinct_pf. Qed.
Print Assumptions C44_distinct.

Example C44_example : exists r,
  get_dominant_determinants (mkBasis (ex_rect 2 1 1 1 1) [[0; 1]; [1; 0]]) [qz 1; qz (-4)] 5 = Ok r /\
  map (fun p => (this (fst p), snd p)) r = [((-4 # 1)%Q, [1; 0]); ((1 # 1)%Q, [0; 1])].
Proof. eexists. split; [vm_compute; reflexivity | vm_compute; reflexivity]. Qed.

Theorem C44_ties_refuted :
  exists c l v ndet x d,
  proper c /\ construct_basis c = Ok (mkBasis c l) /\ length v = length l /\ ndet = 2 /\
  get_dominant_determinants (mkBasis c l) v ndet = Ok [(x, d); (x, d)] /\
  ~ exists idx, NoDup idx /\ (forall i, In i idx -> (i < length v)%nat) /\ length idx = 2%nat /\
      get_dominant_determinants (mkBasis c l) v ndet = Ok (map (fun i => (nth i v 0%Qc, nth i l [])) idx).
Proof. exact C44_ties_refuted_pf. Qed.
Print Assumptions C44_ties_refuted.

(** What is returned with ties: places of the largest magnitudes, each replaced by the first place of the same magnitude. *)
Theorem C44_ties :
  forall c l v ndet, proper c -> construct_basis c = Ok (mkBasis c l) -> length v = length l ->
  exists idx first, largest v idx /\ length idx = kept (length v) ndet /\
    (forall i, In i idx -> (first i < length v)%nat /\ magnitude v (first i) = magnitude v i /\ forall j, (j < first i)%nat -> magnitude v j <> magnitude v i) /\
    get_dominant_determinants (mkBasis c l) v ndet = Ok (map (fun i => (nth (first i) v 0%Qc, nth (first i) l [])) idx).
Proof. exact C44_ties_pf. Qed.
Print Assumptions C44_ties.

Example C44_ties_example : let c := ex_rect 2 1 1 1 1 in proper c /\ construct_basis c = Ok (mkBasis c [[0; 1]; [1; 0]]) /\
  exists r, get_dominant_determinants (mkBasis c [[0; 1]; [1; 0]]) [qz 4; qz (-4)] 5 = Ok r /\ map (fun p => (this (fst p), snd p)) r = [((4 # 1)%Q, [0; 1]); ((4 # 1)%Q, [0; 1])].
Proof. cbv zeta. split; [unfold proper; vm_compute; intuition congruence|]. split; [vm_compute; reflexivity|]. eexists. split; vm_compute; reflexivity. Qed.

(** C45 *)
Theorem C45_most_dominant :
  forall v (l : list (list Z)) count, (length v <= length l)%nat ->
  exists idx, largest v idx /\ length idx = kept (length v) count /\
    get_most_dominant_determinants l v count = Ok (map (fun i => ((Z.of_nat i, nth i v 0%Qc), nth i l [])) idx).
Proof. exact C45_most_dominant_pf. Qed.
Print Assumptions C45_most_dominant.

Theorem C45_count :
  forall len count, 0 <= count -> kept len count = Z.to_nat (Z.min count (Z.of_nat len)).
Proof. exact C45_count_pf. Qed.
Print Assumptions C45_count.

Example C45_example : exists r,
  get_most_dominant_determinants [[0; 9]; [1; 9]; [2; 9]; [3; 9]] [qz 1; qz (-4); qz 4; qz 2] 3 = Ok r /\
  map (fun p => (fst (fst p), this (snd (fst p)), snd p)) r = [(1, (-4 # 1)%Q, [1; 9]); (2, (4 # 1)%Q, [2; 9]); (3, (2 # 1)%Q, [3; 9])].
Proof. eexists. split; [vm_compute; reflexivity | vm_compute; reflexivity]. Qed.
