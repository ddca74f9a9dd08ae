(** Theorems on lookups and on transformations of determinants (C08-C12). *)
From Coq Require Import ZArith List Bool Sorted Permutation QArith Qcanon.
From Verif Require Import PyBase Runtimes Lattice Base Spec SpecQ PBasis PSites PRot FSites Examples.
Import ListNotations.
Open Scope Z_scope.

(** C08 *)
Theorem C08_lookup :
  forall E c d s p x t r0 r1,
  set_iter_ok E -> describes (nsites c) (nholes c) (nbeta c) d s -> sites_restriction c = RTuple r0 r1 ->
  exists l, get_indexes_of E c d (spin_code p) t = Ok l /\ NoDup l /\
    (In x l <-> get_spin_site c d x = Ok (spin_code p) /\ In x (if t =? 0 then r0 else r1)) /\
    (0 <= x < nsites c -> get_spin_site c d x = Ok (spin_code (s x))) /\
    (~ 0 <= x < nsites c -> get_spin_site c d x = Err ValueError).
Proof. exact C08_lookup_pf. Qed.
Print Assumptions C08_lookup.

(** 2x2 lattice restricted to its first site, up there *)
Example C08_example :
  describes 4 1 1 [1; 2; 0; 3] ex22_state /\
  sites_restriction ex22_restricted = RTuple [0] [0] /\
  get_indexes_of cpython ex22_restricted [1; 2; 0; 3] 1 0 = Ok [0] /\
  get_indexes_of cpython ex22 [1; 2; 0; 3] 1 0 = Ok [0; 3] /\
  get_spin_site ex22 [1; 2; 0; 3] 2 = Ok (-1) /\ get_spin_site ex22 [1; 2; 0; 3] 7 = Err ValueError.
Proof. split; [apply describesb_ok; vm_compute; reflexivity|]. vm_compute. auto 10. Qed.

Theorem C08_groups_partition :
  forall E c d s t,
  set_iter_ok E -> describes (nsites c) (nholes c) (nbeta c) d s ->
  sites_restriction c = RTuple (zrange 0 (nsites c)) (zrange 0 (nsites c)) ->
  exists lh lb lu, get_indexes_of E c d 0 t = Ok lh /\ get_indexes_of E c d (-1) t = Ok lb /\
    get_indexes_of E c d 1 t = Ok lu /\ NoDup (lh ++ lb ++ lu) /\
    (forall x, In x (lh ++ lb ++ lu) <-> 0 <= x < nsites c) /\
    Z.of_nat (length lh) = nholes c /\ Z.of_nat (length lb) = nbeta c.
Proof. exact C08_groups_partition_pf. Qed.
Print Assumptions C08_groups_partition.

Example C08_example_groups :
  describes (nsites ex22) (nholes ex22) (nbeta ex22) [1; 2; 0; 3] ex22_state /\
  sites_restriction ex22 = RTuple (zrange 0 (nsites ex22)) (zrange 0 (nsites ex22)).
Proof. split; [apply describesb_ok; vm_compute; reflexivity | reflexivity]. Qed.

Theorem C08_bad_spin :
  forall E c d k t, k <> 0 -> k <> 1 -> k <> -1 ->
  get_indexes_of E c d k t = Err ValueError.
Proof. exact C08_bad_spin_pf. Qed.
Print Assumptions C08_bad_spin.

Example C08_example_bad : get_indexes_of cpython ex22 [1; 2; 0; 3] 2 0 = Err ValueError.
Proof. reflexivity. Qed.

(** C09 *)
Theorem C09_reverse_spins :
  forall E c d s,
  set_iter_ok E -> mrows (bond_matrix c) = nsites c -> 0 < nsites c ->
  nalpha c = nsites c - nholes c - nbeta c ->
  sites_restriction c = RTuple (zrange 0 (nsites c)) (zrange 0 (nsites c)) ->
  describes (nsites c) (nholes c) (nbeta c) d s ->
  exists c' d', reverse_spins E c d = Ok (c', d') /\
    nsites c' = nsites c /\ nholes c' = nholes c /\ nbeta c' = nalpha c /\ nalpha c' = nbeta c /\
    describes (nsites c') (nholes c') (nbeta c') d' (flip_state s) /\
    increasing_groups (nholes c') (nbeta c') d' /\
    exists c'' d'', reverse_spins E c' d' = Ok (c'', d'') /\
      nholes c'' = nholes c /\ nbeta c'' = nbeta c /\
      describes (nsites c) (nholes c) (nbeta c) d'' s /\
      (increasing_groups (nholes c) (nbeta c) d -> d'' = d).
Proof. exact C09_reverse_spins_pf. Qed.
Print Assumptions C09_reverse_spins.

Example C09_example :
  mrows (bond_matrix ex22) = nsites ex22 /\ 0 < nsites ex22 /\
  nalpha ex22 = nsites ex22 - nholes ex22 - nbeta ex22 /\
  sites_restriction ex22 = RTuple (zrange 0 (nsites ex22)) (zrange 0 (nsites ex22)) /\
  describes (nsites ex22) (nholes ex22) (nbeta ex22) [1; 2; 3; 0] ex22_state /\
  exists c', reverse_spins cpython ex22 [1; 2; 3; 0] = Ok (c', [1; 0; 3; 2]).
Proof.
  do 4 (split; [vm_compute; reflexivity|]). split; [apply describesb_ok; vm_compute; reflexivity|].
  eexists. vm_compute. reflexivity.
Qed.

Theorem C09_reverse_spins_basis :
  forall E c l,
  set_iter_ok E -> mrows (bond_matrix c) = nsites c -> 0 < nsites c ->
  nalpha c = nsites c - nholes c - nbeta c -> 0 <= nholes c -> 0 <= nbeta c -> 0 <= nalpha c ->
  sites_restriction c = RTuple (zrange 0 (nsites c)) (zrange 0 (nsites c)) ->
  construct_basis c = Ok (mkBasis c l) ->
  exists c' l', reverse_spins_basis E (mkBasis c l) = Ok (mkBasis c' l') /\
    nsites c' = nsites c /\ nholes c' = nholes c /\ nbeta c' = nalpha c /\ nalpha c' = nbeta c /\
    NoDup l' /\ length l' = length l /\
    (forall i d s, nth_error l i = Some d -> describes (nsites c) (nholes c) (nbeta c) d s ->
       exists d', nth_error l' i = Some d' /\ describes (nsites c) (nholes c) (nalpha c) d' (flip_state s)) /\
    (forall s, sector (nsites c) (nholes c) (nalpha c) s ->
       exists d', In d' l' /\ describes (nsites c) (nholes c) (nalpha c) d' s).
Proof. exact C09_reverse_spins_basis_pf. Qed.
Print Assumptions C09_reverse_spins_basis.

Example C09_example_basis :
  construct_basis ex22 = Ok (mkBasis ex22 (get [] (b <- construct_basis ex22 ;; Ok (determinants b)))) /\
  (b <- construct_basis ex22 ;; b' <- reverse_spins_basis cpython b ;; Ok (determinants b')) =
  Ok [[0; 2; 3; 1]; [0; 1; 3; 2]; [0; 1; 2; 3]; [1; 2; 3; 0]; [1; 0; 3; 2]; [1; 0; 2; 3];
      [2; 1; 3; 0]; [2; 0; 3; 1]; [2; 0; 1; 3]; [3; 1; 2; 0]; [3; 0; 2; 1]; [3; 0; 1; 2]].
Proof. vm_compute. split; reflexivity. Qed.

(** The unrestricted hypothesis is needed. *)
Theorem C09_restricted_refuted :
  exists c d s,
  make_configuration (bond_matrix ex22) 1 1 (RList [0]) Periodic 1 1 2 = Ok c /\
  describes (nsites c) (nholes c) (nbeta c) d s /\
  forall E, set_iter_ok E -> exists c' d', reverse_spins E c d = Ok (c', d') /\
    forall t, ~ describes (nsites c') (nholes c') (nbeta c') d' t.
Proof. exact C09_restricted_refuted_pf. Qed.
Print Assumptions C09_restricted_refuted.

(** C10 *)
Theorem C10_reverse_vect :
  forall (A : Type) (zero : A) E c l v,
  set_iter_ok E -> mrows (bond_matrix c) = nsites c -> 0 < nsites c ->
  nalpha c = nsites c - nholes c - nbeta c -> 0 <= nholes c -> 0 <= nbeta c -> 0 <= nalpha c ->
  sites_restriction c = RTuple (zrange 0 (nsites c)) (zrange 0 (nsites c)) ->
  construct_basis c = Ok (mkBasis c l) -> length v = length l ->
  exists w c' l',
    reverse_spins_vect zero E (mkBasis c l) v = Ok w /\ length w = length v /\ Permutation w v /\
    (forall d, In d l -> exists d', reverse_spins E c d = Ok (c', d')) /\
    construct_basis c' = Ok (mkBasis c' l') /\
    (forall i d s, nth_error l i = Some d -> describes (nsites c) (nholes c) (nbeta c) d s ->
       exists j d', nth_error l' j = Some d' /\
         describes (nsites c) (nholes c) (nalpha c) d' (flip_state s) /\ nth_error w j = nth_error v i) /\
    reverse_spins_vect zero E (mkBasis c' l') w = Ok v.
Proof. exact C10_reverse_vect_pf. Qed.
Print Assumptions C10_reverse_vect.

Example C10_example :
  (b <- construct_basis ex22 ;; reverse_spins_vect 0 cpython b [1; 2; 3; 4; 5; 6; 7; 8; 9; 10; 11; 12]) =
  Ok [3; 2; 1; 6; 5; 4; 9; 8; 7; 12; 11; 10].
Proof. vm_compute. reflexivity. Qed.

Theorem C10_norm :
  forall E c l (v : list Qc),
  set_iter_ok E -> mrows (bond_matrix c) = nsites c -> 0 < nsites c ->
  nalpha c = nsites c - nholes c - nbeta c -> 0 <= nholes c -> 0 <= nbeta c -> 0 <= nalpha c ->
  sites_restriction c = RTuple (zrange 0 (nsites c)) (zrange 0 (nsites c)) ->
  construct_basis c = Ok (mkBasis c l) -> length v = length l ->
  exists w, reverse_spins_vect 0%Qc E (mkBasis c l) v = Ok w /\ sum_squares w = sum_squares v.
Proof. exact C10_norm_pf. Qed.
Print Assumptions C10_norm.

(** C11 *)
Theorem C11_extend :
  forall E c1 c2 d1 d2 s1 s2,
  set_iter_ok E -> 0 <= nsites c1 -> 0 <= nsites c2 ->
  sites_restriction c1 = RTuple (zrange 0 (nsites c1)) (zrange 0 (nsites c1)) ->
  sites_restriction c2 = RTuple (zrange 0 (nsites c2)) (zrange 0 (nsites c2)) ->
  describes (nsites c1) (nholes c1) (nbeta c1) d1 s1 -> describes (nsites c2) (nholes c2) (nbeta c2) d2 s2 ->
  exists d, extend_determinant E c1 c2 d1 d2 = Ok d /\
    describes (nsites c1 + nsites c2) (nholes c1 + nholes c2) (nbeta c1 + nbeta c2) d (join_states (nsites c1) s1 s2) /\
    describes (nsites c1) (nholes c1) (nbeta c1) (filter (fun x => x <? nsites c1) d) s1 /\
    describes (nsites c2) (nholes c2) (nbeta c2)
      (map (fun x => x - nsites c1) (filter (fun x => nsites c1 <=? x) d)) s2.
Proof. exact C11_extend_pf. Qed.
Print Assumptions C11_extend.

Example C11_example :
  describes (nsites ex22) (nholes ex22) (nbeta ex22) [1; 2; 3; 0] ex22_state /\
  extend_determinant cpython ex22 ex22 [1; 2; 3; 0] [1; 2; 3; 0] = Ok [1; 5; 2; 6; 0; 3; 4; 7].
Proof. split; [apply describesb_ok; vm_compute; reflexivity | vm_compute; reflexivity]. Qed.

(** C12 *)
Theorem C12_rotation_square :
  forall k c d s,
  nbh c = nbv c -> 0 < nbh c -> 0 < nblocs_side c -> nsites c = nbh c * nbv c * nblocs_side c ^ 2 ->
  describes (nsites c) (nholes c) (nbeta c) d s ->
  exists t, describes (nsites c) (nholes c) (nbeta c) (rotate_determinant k c d) t /\
    turned (Z.to_nat (k mod 4)) (nbh c * nblocs_side c) s t.
Proof. exact C12_rotation_square_pf. Qed.
Print Assumptions C12_rotation_square.

(** a 2x2 square: down at the top left goes to the top right, hole bottom right to bottom left *)
Example C12_example :
  nbh ex22 = nbv ex22 /\ 0 < nbh ex22 /\ 0 < nblocs_side ex22 /\
  nsites ex22 = nbh ex22 * nbv ex22 * nblocs_side ex22 ^ 2 /\
  describes (nsites ex22) (nholes ex22) (nbeta ex22) [1; 2; 0; 3] ex22_state /\
  rotate_determinant 1 ex22 [1; 2; 0; 3] = [0; 3; 1; 2] /\ rotate_determinant (-1) ex22 [1; 2; 0; 3] = [3; 0; 1; 2].
Proof.
  do 4 (split; [vm_compute; reflexivity|]). split; [apply describesb_ok; vm_compute; reflexivity|].
  vm_compute. auto.
Qed.

Theorem C12_rotation_group :
  forall c l,
  nbh c = nbv c -> 0 < nbh c -> 0 < nblocs_side c -> nsites c = nbh c * nbv c * nblocs_side c ^ 2 ->
  0 <= nholes c -> 0 <= nbeta c -> construct_basis c = Ok (mkBasis c l) ->
  (forall d, In d l -> rotate_determinant 4 c d = d) /\
  (forall j k d, In d l -> rotate_determinant j c (rotate_determinant k c d) = rotate_determinant (j + k) c d) /\
  (forall k, Permutation (map (rotate_determinant k c) l) l).
Proof. exact C12_rotation_group_pf. Qed.
Print Assumptions C12_rotation_group.

Theorem C12_half_turn :
  forall k c d s,
  k mod 4 = 2 -> 0 < nbh c -> 0 < nbv c -> 0 < nblocs_side c -> nsites c = nbh c * nbv c * nblocs_side c ^ 2 ->
  describes (nsites c) (nholes c) (nbeta c) d s ->
  exists t, describes (nsites c) (nholes c) (nbeta c) (rotate_determinant k c d) t /\
    increasing_groups (nholes c) (nbeta c) (rotate_determinant k c d) /\
    let w := nbh c * nblocs_side c in let h := nbv c * nblocs_side c in
    forall x y, 0 <= x < w -> 0 <= y < h -> t (site w (w - 1 - x, h - 1 - y)) = s (site w (x, y)).
Proof. exact C12_half_turn_pf. Qed.
Print Assumptions C12_half_turn.

(** 3x1 sites *)
Example C12_example_half :
  describes 3 1 1 [0; 1; 2] (fun x => if x =? 0 then Hole else if x =? 1 then Down else Up) /\
  nsites (ex_rect 3 1 1 1 1) = 3 /\ rotate_determinant 2 (ex_rect 3 1 1 1 1) [0; 1; 2] = [2; 1; 0].
Proof. split; [apply describesb_ok; vm_compute; reflexivity | vm_compute; auto]. Qed.

(** Odd rotations need the lattice to be square. *)
Theorem C12_non_square_refuted :
  exists c d s,
  make_configuration (bond_matrix c) 1 1 (RList []) Periodic 2 1 1 = Ok c /\
  nsites c = nbh c * nbv c * nblocs_side c ^ 2 /\
  describes (nsites c) (nholes c) (nbeta c) d s /\
  forall k t, k mod 2 = 1 -> ~ describes (nsites c) (nholes c) (nbeta c) (rotate_determinant k c d) t.
Proof. exact C12_non_square_refuted_pf. Qed.
Print Assumptions C12_non_square_refuted.
