(** Theorems on the basis and on the numbering of determinants (C01-C07). *)
From Coq Require Import ZArith List Bool Sorted Factorial.
From Verif Require Import PyBase Lattice Base Spec PHash PBasis PRank FBasis Examples.
Import ListNotations.
Open Scope Z_scope.

(** C01 *)
Theorem C01_basis_enumerates :
  forall c,
  0 <= nholes c -> 0 <= nbeta c -> nholes c + nbeta c <= nsites c ->
  exists l, construct_basis c = Ok (mkBasis c l) /\
    NoDup l /\
    (forall d, In d l <-> increasing_groups (nholes c) (nbeta c) d /\
                          exists s, describes (nsites c) (nholes c) (nbeta c) d s) /\
    (forall s, sector (nsites c) (nholes c) (nbeta c) s ->
       exists! i, exists d, nth_error l i = Some d /\ describes (nsites c) (nholes c) (nbeta c) d s) /\
    (forall d s, In d l -> describes (nsites c) (nholes c) (nbeta c) d s ->
       sector (nsites c) (nholes c) (nbeta c) s).
Proof. exact C01_basis_enumerates_pf. Qed.
Print Assumptions C01_basis_enumerates.

(** 2x2 lattice, one hole, one down: 12 determinants. *)
Example C01_example :
  0 <= nholes ex22 /\ 0 <= nbeta ex22 /\ nholes ex22 + nbeta ex22 <= nsites ex22 /\
  construct_basis ex22 = Ok (mkBasis ex22
    [[0; 1; 2; 3]; [0; 2; 1; 3]; [0; 3; 1; 2]; [1; 0; 2; 3]; [1; 2; 0; 3]; [1; 3; 0; 2];
     [2; 0; 1; 3]; [2; 1; 0; 3]; [2; 3; 0; 1]; [3; 0; 1; 2]; [3; 1; 0; 2]; [3; 2; 0; 1]]).
Proof. vm_compute; repeat split; congruence. Qed.

(** C02 *)
Theorem C02_comb_factorial :
  forall n k,
  (0 <= k <= n -> comb n k * Z.of_nat (fact (Z.to_nat k) * fact (Z.to_nat (n - k))) = Z.of_nat (fact (Z.to_nat n)))
  /\ (k < 0 \/ n < k -> comb n k = 0).
Proof. exact C02_comb_factorial_pf. Qed.
Print Assumptions C02_comb_factorial.

Example C02_example_comb : comb 9 4 = 126 /\ comb 9 10 = 0.
Proof. vm_compute; split; reflexivity. Qed.

Theorem C02_basis_size :
  forall bm h b r lt x y z c,
  0 <= mrows bm -> make_configuration bm h b r lt x y z = Ok c ->
  nsites c = mrows bm /\
  nb_conf c = comb (mrows bm) h * comb (mrows bm - h) (mrows bm - h - b) /\
  (h < 0 -> construct_basis c = Err ValueError) /\
  (0 <= h <= mrows bm -> b < 0 -> construct_basis c = Err ValueError) /\
  (0 <= h -> 0 <= b -> exists l, construct_basis c = Ok (mkBasis c l) /\ Z.of_nat (length l) = nb_conf c) /\
  (0 <= h -> 0 <= b -> mrows bm < h + b -> construct_basis c = Ok (mkBasis c []) /\ nb_conf c = 0).
Proof. exact C02_basis_size_pf. Qed.
Print Assumptions C02_basis_size.

Example C02_example :
  0 <= mrows (bond_matrix ex22) /\
  make_configuration (bond_matrix ex22) 1 1 (RList []) Periodic 1 1 2 = Ok ex22 /\ nb_conf ex22 = 12 /\
  exists c, make_configuration (bond_matrix ex22) 3 2 (RList []) Periodic 1 1 2 = Ok c /\ nb_conf c = 0.
Proof. vm_compute. repeat split; [congruence|]. eexists; split; reflexivity. Qed.

(** C03 *)
Theorem C03_index_inverts :
  forall c l i d s d',
  0 <= nsites c -> 0 <= nholes c -> 0 <= nbeta c ->
  construct_basis c = Ok (mkBasis c l) -> nth_error l i = Some d ->
  describes (nsites c) (nholes c) (nbeta c) d s ->
  describes (nsites c) (nholes c) (nbeta c) d' s ->
  get_index_in_basis c d' = Ok (Z.of_nat i).
Proof. exact C03_index_inverts_pf. Qed.
Print Assumptions C03_index_inverts.

(** the ups are listed backwards in the second determinant *)
Example C03_example :
  describes 4 1 1 [1; 2; 0; 3] ex22_state /\ describes 4 1 1 [1; 2; 3; 0] ex22_state /\
  get_index_in_basis ex22 [1; 2; 3; 0] = Ok 4.
Proof. repeat split; try (apply describesb_ok; vm_compute; reflexivity). Qed.

(** C04 *)
Theorem C04_hash_basis :
  forall c l i,
  0 <= nholes c -> 0 <= nbeta c -> 0 <= nalpha c -> nalpha c = nsites c - nholes c - nbeta c ->
  construct_basis c = Ok (mkBasis c l) -> (i < length l)%nat ->
  exists d, nth_error l i = Some d /\
    get_hash_basis (nholes c) (nalpha c) (nbeta c) (Z.of_nat i) = Ok d.
Proof. exact C04_hash_basis_pf. Qed.
Print Assumptions C04_hash_basis.

Theorem C04_hash_basis_past_end :
  forall c l i,
  1 <= nholes c -> 0 <= nbeta c -> 0 <= nalpha c -> nalpha c = nsites c - nholes c - nbeta c ->
  construct_basis c = Ok (mkBasis c l) -> Z.of_nat (length l) <= i ->
  get_hash_basis (nholes c) (nalpha c) (nbeta c) i = Err IndexError.
Proof. exact C04_hash_basis_past_end_pf. Qed.
Print Assumptions C04_hash_basis_past_end.

Example C04_example : get_hash_basis 1 2 1 4 = Ok [1; 2; 0; 3] /\ get_hash_basis 1 2 1 12 = Err IndexError.
Proof. vm_compute; split; reflexivity. Qed.

(** C05 *)
Theorem C05_target_hash :
  forall n k i,
  (1 <= k <= n -> comb n k <= i -> get_target_hash n k i = Err IndexError) /\
  (get_target_hash n 0 i = Ok []) /\
  (0 <= k <= n -> 0 <= i < comb n k ->
     exists s, get_target_hash n k i = Ok s /\ nth_error (combs (Z.to_nat k) (zrange 0 n)) (Z.to_nat i) = Some s).
Proof. exact C05_target_hash_pf. Qed.
Print Assumptions C05_target_hash.

Example C05_example :
  get_target_hash 5 3 7 = Ok [1; 2; 4] /\ comb 5 3 = 10 /\ get_target_hash 5 3 10 = Err IndexError.
Proof. vm_compute; repeat split; reflexivity. Qed.

(** C06 *)
Theorem C06_index_bijective_monotone :
  forall c d1 s1 d2 s2,
  0 <= nsites c -> nb_conf c = compute_dimension (nsites c) (nalpha c) (nbeta c) ->
  nalpha c = nsites c - nholes c - nbeta c ->
  describes (nsites c) (nholes c) (nbeta c) d1 s1 ->
  describes (nsites c) (nholes c) (nbeta c) d2 s2 ->
  exists i1 i2, get_index_in_basis c d1 = Ok i1 /\ get_index_in_basis c d2 = Ok i2 /\
    0 <= i1 < nb_conf c /\ 0 <= i2 < nb_conf c /\
    (i1 = i2 <-> same_state (nsites c) s1 s2) /\
    (increasing_groups (nholes c) (nbeta c) d1 -> increasing_groups (nholes c) (nbeta c) d2 ->
     (i1 < i2 <-> lex_lt d1 d2)).
Proof. exact C06_index_bijective_monotone_pf. Qed.
Print Assumptions C06_index_bijective_monotone.

Example C06_example :
  get_index_in_basis ex22 [1; 2; 3; 0] = Ok 4 /\ get_index_in_basis ex22 [2; 0; 1; 3] = Ok 6 /\
  lex_lt [1; 2; 0; 3] [2; 0; 1; 3] /\ nb_conf ex22 = 12.
Proof. vm_compute; repeat split; try reflexivity. constructor. reflexivity. Qed.

(** C07 *)
Theorem C07_reorder :
  forall c d s,
  describes (nsites c) (nholes c) (nbeta c) d s ->
  describes (nsites c) (nholes c) (nbeta c) (reorder_basis_element c d) s /\
  increasing_groups (nholes c) (nbeta c) (reorder_basis_element c d) /\
  reorder_basis_element c (reorder_basis_element c d) = reorder_basis_element c d /\
  (forall d', describes (nsites c) (nholes c) (nbeta c) d' s ->
     reorder_basis_element c d' = reorder_basis_element c d) /\
  (increasing_groups (nholes c) (nbeta c) d -> reorder_basis_element c d = d).
Proof. exact C07_reorder_pf. Qed.
Print Assumptions C07_reorder.

Example C07_example : reorder_basis_element ex22 [1; 2; 3; 0] = [1; 2; 0; 3].
Proof. vm_compute; reflexivity. Qed.
