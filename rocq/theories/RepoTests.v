(** The tests of the repository (tests/*.py), evaluated on the model with the data of the tests.  They are tests of the model: the
    statements that hold for all inputs are in the files Thm_*.v.  Left out: the tests on random matrices (test_davidson.py:21-39,
    test_base_construction.py:29-36 is done at some of the indices), the loops over a whole basis of 630 determinants
    (test_base_construction.py:22-27 and 58-69, test_hamiltonian_construction.py:46-78: they are instances of C03, C09, C30 and C31) and the vectors whose
    entries are square roots (test_base_construction.py:165-206; test_interactions.py:261-313 is done where the entries are rational up to one factor). *)
From Coq Require Import String ZArith List Bool QArith Qcanon.
From Verif Require Import PyBase PyFacts Runtimes Lattice Base Interact Ham Spin Prob Dav Spec Examples.
Import ListNotations.
Open Scope Z_scope.

(** the lattices and couplings of the tests *)
Definition conf_on (bm : res mat) (holes beta : Z) (r : restriction) (lt : ltype) (h v s : Z) : configuration :=
  get empty_conf (b <- bm ;; make_configuration b holes beta r lt h v s).
Definition block_conf (holes beta : Z) (r : restriction) : configuration := conf_on (build_rectangular_bond_matrix 1 1 3) holes beta r Periodic 1 1 3.
Definition long_conf (holes beta : Z) : configuration := conf_on (build_rectangular_bond_matrix 2 1 3) holes beta (RList []) Periodic 2 1 3.
Definition ring_lattice (holes beta : Z) : configuration := conf_on (build_bond_matrix_neel_embedding 1 1 3) holes beta (RList []) Peripheral 1 1 3.
Definition two_blocks (holes beta h : Z) : configuration := conf_on (build_bond_matrix_block_embedding 1 1 3) holes beta (RList []) Clusters h 1 3.
Definition test_couplings : interactions :=
  mkInter (qfrac (-55) 100) (qfrac 123 1000) (qfrac 156 1000) (qfrac 104 1000) (qfrac (-80) 1000) (qfrac (-41) 1000) (qfrac 112 1000) (qfrac (-47) 1000) (qfrac 177 100) (qfrac 79 100).
(** the transfer matrix found for two blocks of 3 x 3 sites: each site at its place in the 3 x 6 rectangle *)
Definition place (x : Z) : Z := (x / 9) * 3 + (x mod 9) mod 3 + ((x mod 9) / 3) * 6.
Definition with_transfer : runtime := mkRuntime (set_iter cpython) (fun _ _ _ row col => if row =? place col then ROne else RZero).

(** the checks of the tests *)
Definition number (r : res Qc) : option Q := match r with Ok x => Some (this x) | Err _ => None end.
Definition numbers (r : res (list Qc)) : option (list Q) := match r with Ok l => Some (map this l) | Err _ => None end.
Definition dets_in (l l' : list det) : bool := forallb (fun x => existsb (zlist_eqb x) l') l.
Definition counted_in (l l' : list det) : bool := (zlen l =? zlen l') && dets_in l l'.
Definition sorted_as (f : Z -> res (list Z)) (p : Z * list Z) : bool := match f (fst p) with Ok l => zlist_eqb (zsort l) (zsort (snd p)) | Err _ => false end.
Definition straightness (E : runtime) (c : configuration) (p : Z * Z * Z) : res bool := let '(x, y, z) := p in is_bond_linear E c x y z.

(** test_base_construction.py:8-12 *)
Example test_reorder :
  reorder_basis_element (long_conf 2 8) [5; 1; 6; 0; 4; 12; 17; 9; 2; 8; 15; 14; 3; 16; 13; 7; 10; 11] = [1; 5; 0; 2; 4; 6; 8; 9; 12; 17; 3; 7; 10; 11; 13; 14; 15; 16].
Proof. vm_compute. reflexivity. Qed.

(** test_base_construction.py:14-20 *)
Example test_index_in_basis :
  (b <- construct_basis ex22 ;; mapM (get_index_in_basis ex22) (determinants b)) = Ok (zrange 0 12).
Proof. vm_compute. reflexivity. Qed.

(** test_base_construction.py:29-36, at some of the 1969110 indices *)
Example test_hash_basis :
  nb_conf (long_conf 2 8) = 1969110 /\
  forallb (fun i => match (d <- get_hash_basis 2 8 8 i ;; get_index_in_basis (long_conf 2 8) d) with Ok j => j =? i | Err _ => false end) [0; 1; 1234567; 1969109] = true.
Proof. split; vm_compute; reflexivity. Qed.

(** test_base_construction.py:38-47 *)
Example test_extend_determinant :
  extend_determinant cpython (block_conf 1 3 (RList [])) (block_conf 1 5 (RList [])) [4; 0; 2; 6; 1; 3; 5; 7; 8] [3; 1; 4; 5; 6; 8; 0; 2; 7] = Ok [4; 12; 0; 2; 6; 10; 13; 14; 15; 17; 1; 3; 5; 7; 8; 9; 11; 16].
Proof. vm_compute. reflexivity. Qed.

(** test_base_construction.py:50-56 *)
Example test_reverse_spins :
  (p <- reverse_spins cpython (block_conf 1 3 (RList [])) [4; 1; 3; 5; 0; 2; 6; 7; 8] ;; Ok (snd p)) = Ok [4; 0; 2; 6; 7; 8; 1; 3; 5].
Proof. vm_compute. reflexivity. Qed.

(** test_base_construction.py:71-79 *)
Example test_reverse_spins_vect :
  (b <- construct_basis ex22 ;; reverse_spins_vect 0 cpython b [1; 0; 0; 0; 1; 0; 1; 1; 0; 0; 0; 1]) = Ok [0; 0; 1; 0; 1; 0; 0; 1; 1; 1; 0; 0].
Proof. vm_compute. reflexivity. Qed.

(** test_base_construction.py:82-96; the spins are doubled in the model *)
Example test_spin_site :
  mapM (get_spin_site (block_conf 1 4 (RList [])) [4; 1; 3; 5; 8; 0; 2; 6; 7]) (zrange 0 9) = Ok [1; -1; 1; -1; 0; -1; 1; 1; -1].
Proof. vm_compute. reflexivity. Qed.

(** test_base_construction.py:98-117 *)
Example test_bond_linear_periodic :
  map (straightness cpython (long_conf 2 8)) [(0, 1, 2); (0, 2, 1); (0, 1, 6); (0, 1, 3); (0, 1, 7); (17, 11, 5); (8, 7, 6)] =
  [Ok true; Ok true; Ok false; Err ValueError; Ok false; Ok true; Ok true].
Proof. vm_compute. reflexivity. Qed.

(** test_base_construction.py:119-142 *)
Example test_bond_linear_peripheral :
  map (straightness cpython (ring_lattice 1 12)) [(0, 1, 2); (0, 2, 1); (1, 2, 12); (9, 0, 1); (9, 0, 3); (14, 8, 7); (19, 3, 6); (4, 7, 16); (12, 13, 14); (13, 14, 15); (11, 2, 12); (16, 7, 6)] =
  [Ok true; Ok true; Ok true; Ok false; Ok true; Ok true; Ok false; Ok true; Ok true; Err ValueError; Ok false; Ok false].
Proof. vm_compute. reflexivity. Qed.

(** test_base_construction.py:144-162, given the transfer matrix *)
Example test_bond_linear_clusters :
  map (straightness with_transfer (two_blocks 2 8 2)) [(0, 1, 2); (0, 2, 1); (4, 5, 12); (2, 9, 10); (2, 9, 12); (7, 8, 12); (1, 2, 10)] =
  [Ok true; Ok true; Ok true; Ok true; Ok false; Err ValueError; Err ValueError].
Proof. vm_compute. reflexivity. Qed.

(** test_base_construction.py:208-225, with 5, -4, -3, 2, -1 in place of the square roots *)
Example test_most_dominant :
  (let c := block_conf 1 4 (RList []) in let v := map (fun k => if k =? 32 then qz 5 else if k =? 456 then qz (-4) else if k =? 168 then qz (-3) else if k =? 75 then qz 2 else if k =? 518 then qz (-1) else 0%Qc) (zrange 0 630) in
   b <- construct_basis c ;; l <- get_dominant_determinants b v 5 ;; ds <- mapM (get_hash_basis 1 4 4) [32; 456; 168; 75; 518] ;;
   Ok (forallb (fun p => zlist_eqb (fst p) (snd p)) (combine (map snd l) ds), map fst l)) = Ok (true, map qz [5; -4; -3; 2; -1]).
Proof. vm_compute. reflexivity. Qed.

(** test_base_construction.py:227-238 *)
Example test_rotate_determinant :
  map (fun rot => rotate_determinant rot (block_conf 1 4 (RList [])) [0; 2; 4; 6; 7; 1; 3; 5; 8]) [0; 1; 2; 3] =
  [[0; 2; 4; 6; 7; 1; 3; 5; 8]; [6; 0; 4; 5; 8; 1; 2; 3; 7]; [8; 1; 2; 4; 6; 0; 3; 5; 7]; [2; 0; 3; 4; 8; 1; 5; 6; 7]].
Proof. vm_compute. reflexivity. Qed.

(** test_lattice_functions.py:7-21 *)
Example test_neighbors_block :
  forallb (sorted_as (fun x => get_neighbors cpython x (bond_matrix (block_conf 0 0 (RList []))) (RList []))) [(0, [1; 3]); (1, [0; 2; 4]); (2, [1; 5]); (3, [0; 4; 6]); (4, [1; 3; 5; 7]); (5, [2; 4; 8]); (6, [3; 7]); (7, [6; 4; 8]); (8, [5; 7])] = true.
Proof. vm_compute. reflexivity. Qed.

(** test_lattice_functions.py:23-38 *)
Example test_neighbors_restricted :
  forallb (sorted_as (fun x => get_neighbors cpython x (bond_matrix (block_conf 0 0 (RList []))) (RList [0; 1; 2; 3; 4]))) [(0, [1; 3]); (1, [0; 2; 4]); (2, [1]); (3, [0; 4]); (4, [1; 3]); (5, [2; 4]); (6, [3]); (7, [4]); (8, [])] = true.
Proof. vm_compute. reflexivity. Qed.

(** test_lattice_functions.py:41-51 *)
Example test_neighbors_ring :
  forallb (sorted_as (fun x => get_neighbors cpython x (bond_matrix (ring_lattice 0 0)) (RList []))) [(0, [1; 3; 9; 20]); (4, [1; 3; 5; 7]); (5, [2; 4; 8; 13]); (12, [2; 13]); (16, [7; 15; 17])] = true.
Proof. vm_compute. reflexivity. Qed.

(** test_lattice_functions.py:53-66 *)
Example test_neighbors_blocks :
  forallb (sorted_as (fun x => get_neighbors cpython x (bond_matrix (two_blocks 0 0 2)) (RList []))) [(0, [1; 3]); (2, [1; 5; 9]); (4, [1; 3; 5; 7]); (5, [2; 4; 8; 12]); (9, [2; 10; 12]); (13, [10; 12; 14; 16]); (15, [8; 12; 16]); (17, [14; 16])] = true.
Proof. vm_compute. reflexivity. Qed.

(** test_lattice_functions.py:68-82 *)
Example test_second_neighbors :
  forallb (sorted_as (fun x => get_second_neighbors cpython x (bond_matrix (block_conf 0 0 (RList []))) (RList []))) [(0, [2; 4; 6]); (1, [3; 5; 7]); (2, [0; 4; 8]); (3, [1; 5; 7]); (4, [0; 2; 6; 8]); (5, [1; 3; 7]); (6, [0; 4; 8]); (7, [1; 3; 5]); (8, [2; 4; 6])] = true.
Proof. vm_compute. reflexivity. Qed.

(** test_lattice_functions.py:85-100 *)
Example test_diagonal_periodic :
  forallb (sorted_as (get_diagonal_second_neighbors cpython (block_conf 0 0 (RList [])))) [(0, [4]); (1, [3; 5]); (2, [4]); (3, [1; 7]); (4, [0; 2; 6; 8]); (5, [1; 7]); (6, [4]); (7, [3; 5]); (8, [4])] = true.
Proof. vm_compute. reflexivity. Qed.

(** test_lattice_functions.py:102-112 *)
Example test_diagonal_ring :
  forallb (sorted_as (get_diagonal_second_neighbors cpython (ring_lattice 0 0))) [(0, [4; 10; 19]); (4, [0; 2; 6; 8]); (13, [2; 8]); (15, [7; 14])] = true.
Proof. vm_compute. reflexivity. Qed.

(** test_lattice_functions.py:114-125, given the transfer matrix *)
Example test_diagonal_blocks :
  forallb (sorted_as (get_diagonal_second_neighbors with_transfer (two_blocks 0 0 2))) [(4, [0; 2; 6; 8]); (2, [4; 12]); (12, [2; 8; 10; 16]); (15, [5; 13]); (17, [13])] = true.
Proof. vm_compute. reflexivity. Qed.

(** test_lattice_functions.py:127-142 *)
Example test_diagonal_restricted :
  forallb (sorted_as (get_diagonal_second_neighbors cpython (block_conf 0 0 (RList [1; 2; 3; 5; 6; 7; 8])))) [(0, []); (1, [3; 5]); (2, []); (3, [1; 7]); (4, [2; 6; 8]); (5, [1; 7]); (6, []); (7, [3; 5]); (8, [])] = true.
Proof. vm_compute. reflexivity. Qed.

(** test_interactions.py:13-27 *)
Example test_hopping_periodic :
  match compute_hopping_integral cpython (block_conf 1 4 (RList [])) [4; 1; 3; 6; 8; 0; 2; 5; 7] with Ok images => counted_in images [[1; 3; 4; 6; 8; 0; 2; 5; 7]; [3; 1; 4; 6; 8; 0; 2; 5; 7]; [5; 1; 3; 6; 8; 0; 2; 4; 7]; [7; 1; 3; 6; 8; 0; 2; 4; 5]] | Err _ => false end = true.
Proof. vm_compute. reflexivity. Qed.

(** test_interactions.py:29-41 *)
Example test_hopping_ring :
  match compute_hopping_integral cpython (ring_lattice 2 12) [6; 13; 1; 3; 5; 7; 9; 11; 12; 14; 15; 17; 18; 20; 0; 2; 4; 8; 10; 16; 19] with Ok images => counted_in images [[3; 13; 1; 5; 6; 7; 9; 11; 12; 14; 15; 17; 18; 20; 0; 2; 4; 8; 10; 16; 19]; [7; 13; 1; 3; 5; 6; 9; 11; 12; 14; 15; 17; 18; 20; 0; 2; 4; 8; 10; 16; 19]; [13; 17; 1; 3; 5; 6; 7; 9; 11; 12; 14; 15; 18; 20; 0; 2; 4; 8; 10; 16; 19]; [13; 18; 1; 3; 5; 6; 7; 9; 11; 12; 14; 15; 17; 20; 0; 2; 4; 8; 10; 16; 19]; [5; 6; 1; 3; 7; 9; 11; 12; 13; 14; 15; 17; 18; 20; 0; 2; 4; 8; 10; 16; 19]; [6; 12; 1; 3; 5; 7; 9; 11; 13; 14; 15; 17; 18; 20; 0; 2; 4; 8; 10; 16; 19]; [6; 14; 1; 3; 5; 7; 9; 11; 12; 13; 15; 17; 18; 20; 0; 2; 4; 8; 10; 16; 19]] | Err _ => false end = true.
Proof. vm_compute. reflexivity. Qed.

(** test_interactions.py:43-58 *)
Example test_hopping_blocks :
  match compute_hopping_integral cpython (two_blocks 4 6 1) [5; 8; 9; 15; 1; 3; 7; 11; 13; 17; 0; 2; 4; 6; 10; 12; 14; 16] with Ok images => counted_in images [[8; 9; 12; 15; 1; 3; 7; 11; 13; 17; 0; 2; 4; 5; 6; 10; 14; 16]; [2; 8; 9; 15; 1; 3; 7; 11; 13; 17; 0; 4; 5; 6; 10; 12; 14; 16]; [4; 8; 9; 15; 1; 3; 7; 11; 13; 17; 0; 2; 5; 6; 10; 12; 14; 16]; [5; 7; 9; 15; 1; 3; 8; 11; 13; 17; 0; 2; 4; 6; 10; 12; 14; 16]; [2; 5; 8; 15; 1; 3; 7; 11; 13; 17; 0; 4; 6; 9; 10; 12; 14; 16]; [5; 8; 10; 15; 1; 3; 7; 11; 13; 17; 0; 2; 4; 6; 9; 12; 14; 16]; [5; 8; 12; 15; 1; 3; 7; 11; 13; 17; 0; 2; 4; 6; 9; 10; 14; 16]; [5; 8; 9; 12; 1; 3; 7; 11; 13; 17; 0; 2; 4; 6; 10; 14; 15; 16]; [5; 8; 9; 16; 1; 3; 7; 11; 13; 17; 0; 2; 4; 6; 10; 12; 14; 15]] | Err _ => false end = true.
Proof. vm_compute. reflexivity. Qed.

(** test_interactions.py:60-79 *)
Example test_next_hopping_periodic :
  match compute_next_hopping_integral cpython (block_conf 1 4 (RList [])) [8; 1; 3; 4; 6; 0; 2; 5; 7] with Ok (col, ortho) => counted_in col [[2; 1; 3; 4; 6; 0; 5; 7; 8]; [6; 1; 3; 4; 8; 0; 2; 5; 7]] && counted_in ortho [[4; 1; 3; 6; 8; 0; 2; 5; 7]] | Err _ => false end = true.
Proof. vm_compute. reflexivity. Qed.

(** test_interactions.py:81-104 *)
Example test_next_hopping_ring :
  match compute_next_hopping_integral cpython (ring_lattice 1 9) [1; 0; 2; 4; 6; 8; 10; 13; 16; 19; 3; 5; 7; 9; 11; 12; 14; 15; 17; 18; 20] with Ok (col, ortho) => counted_in col [[7; 0; 2; 4; 6; 8; 10; 13; 16; 19; 1; 3; 5; 9; 11; 12; 14; 15; 17; 18; 20]; [12; 0; 2; 4; 6; 8; 10; 13; 16; 19; 1; 3; 5; 7; 9; 11; 14; 15; 17; 18; 20]; [20; 0; 2; 4; 6; 8; 10; 13; 16; 19; 1; 3; 5; 7; 9; 11; 12; 14; 15; 17; 18]] && counted_in ortho [[5; 0; 2; 4; 6; 8; 10; 13; 16; 19; 1; 3; 7; 9; 11; 12; 14; 15; 17; 18; 20]; [3; 0; 2; 4; 6; 8; 10; 13; 16; 19; 1; 5; 7; 9; 11; 12; 14; 15; 17; 18; 20]; [9; 0; 2; 4; 6; 8; 10; 13; 16; 19; 1; 3; 5; 7; 11; 12; 14; 15; 17; 18; 20]; [11; 0; 2; 4; 6; 8; 10; 13; 16; 19; 1; 3; 5; 7; 9; 12; 14; 15; 17; 18; 20]] | Err _ => false end = true.
Proof. vm_compute. reflexivity. Qed.

(** test_interactions.py:106-130, given the transfer matrix *)
Example test_next_hopping_blocks :
  match compute_next_hopping_integral with_transfer (two_blocks 2 8 2) [2; 10; 1; 3; 5; 7; 9; 11; 13; 17; 0; 4; 6; 8; 12; 14; 15; 16] with Ok (col, ortho) => counted_in col [[0; 10; 1; 3; 5; 7; 9; 11; 13; 17; 2; 4; 6; 8; 12; 14; 15; 16]; [8; 10; 1; 3; 5; 7; 9; 11; 13; 17; 0; 2; 4; 6; 12; 14; 15; 16]; [2; 16; 1; 3; 5; 7; 9; 11; 13; 17; 0; 4; 6; 8; 10; 12; 14; 15]] && counted_in ortho [[4; 10; 1; 3; 5; 7; 9; 11; 13; 17; 0; 2; 6; 8; 12; 14; 15; 16]; [10; 12; 1; 3; 5; 7; 9; 11; 13; 17; 0; 2; 4; 6; 8; 14; 15; 16]; [2; 12; 1; 3; 5; 7; 9; 11; 13; 17; 0; 4; 6; 8; 10; 14; 15; 16]; [2; 14; 1; 3; 5; 7; 9; 11; 13; 17; 0; 4; 6; 8; 10; 12; 15; 16]] | Err _ => false end = true.
Proof. vm_compute. reflexivity. Qed.

(** test_interactions.py:132-147 *)
Example test_static_spin :
  number (compute_static_spin_interaction cpython (long_conf 3 6) test_couplings [4; 7; 14; 2; 5; 6; 9; 12; 17; 0; 1; 3; 8; 10; 11; 13; 15; 16]) =
  Some (this (- i_J test_couplings - qz 2 * i_Jhpar test_couplings - qz 3 * i_Jhper test_couplings)%Qc).
Proof. vm_compute. reflexivity. Qed.

(** test_interactions.py:149-182 *)
Example test_spin_flip :
  match compute_spin_flip cpython (long_conf 2 8) [7; 10; 0; 3; 4; 9; 11; 15; 16; 17; 1; 2; 5; 6; 8; 12; 13; 14] with Ok (par, per, undoped) => counted_in par [[7; 10; 0; 3; 4; 8; 11; 15; 16; 17; 1; 2; 5; 6; 9; 12; 13; 14]] && counted_in per [[7; 10; 1; 3; 4; 9; 11; 15; 16; 17; 0; 2; 5; 6; 8; 12; 13; 14]; [7; 10; 3; 4; 6; 9; 11; 15; 16; 17; 0; 1; 2; 5; 8; 12; 13; 14]; [7; 10; 0; 3; 5; 9; 11; 15; 16; 17; 1; 2; 4; 6; 8; 12; 13; 14]; [7; 10; 0; 3; 4; 5; 9; 15; 16; 17; 1; 2; 6; 8; 11; 12; 13; 14]] && counted_in undoped [[7; 10; 0; 2; 4; 9; 11; 15; 16; 17; 1; 3; 5; 6; 8; 12; 13; 14]; [7; 10; 0; 3; 4; 9; 11; 14; 16; 17; 1; 2; 5; 6; 8; 12; 13; 15]] | Err _ => false end = true.
Proof. vm_compute. reflexivity. Qed.

(** test_interactions.py:184-213, given the transfer matrix *)
Example test_singlet_displacement :
  match compute_singlet_displacement with_transfer (two_blocks 2 8 2) [4; 15; 3; 6; 7; 8; 10; 11; 12; 14; 0; 1; 2; 5; 9; 13; 16; 17] with
  | Ok (par, per) => dets_in (flat_map (fun p => [fst p; snd p]) par) [[12; 15; 3; 4; 6; 7; 8; 10; 11; 14; 0; 1; 2; 5; 9; 13; 16; 17]; [12; 15; 3; 5; 6; 7; 8; 10; 11; 14; 0; 1; 2; 4; 9; 13; 16; 17]; [4; 9; 3; 6; 7; 8; 10; 11; 12; 14; 0; 1; 2; 5; 13; 15; 16; 17]; [4; 9; 3; 6; 7; 8; 10; 11; 14; 15; 0; 1; 2; 5; 12; 13; 16; 17]] && dets_in (flat_map (fun p => [fst p; snd p]) per) [[0; 15; 3; 6; 7; 8; 10; 11; 12; 14; 1; 2; 4; 5; 9; 13; 16; 17]; [0; 15; 4; 6; 7; 8; 10; 11; 12; 14; 1; 2; 3; 5; 9; 13; 16; 17]; [8; 15; 3; 4; 6; 7; 10; 11; 12; 14; 0; 1; 2; 5; 9; 13; 16; 17]; [8; 15; 3; 5; 6; 7; 10; 11; 12; 14; 0; 1; 2; 4; 9; 13; 16; 17]; [4; 5; 3; 6; 7; 8; 10; 11; 12; 14; 0; 1; 2; 9; 13; 15; 16; 17]; [4; 5; 3; 6; 7; 10; 11; 12; 14; 15; 0; 1; 2; 8; 9; 13; 16; 17]; [4; 5; 3; 6; 7; 8; 10; 11; 12; 14; 0; 1; 2; 9; 13; 15; 16; 17]; [4; 5; 3; 6; 7; 8; 10; 11; 14; 15; 0; 1; 2; 9; 12; 13; 16; 17]; [4; 13; 3; 6; 7; 8; 10; 11; 12; 14; 0; 1; 2; 5; 9; 15; 16; 17]; [4; 13; 3; 6; 7; 8; 10; 11; 14; 15; 0; 1; 2; 5; 9; 12; 16; 17]] | Err _ => false end = true.
Proof. vm_compute. reflexivity. Qed.

(** test_interactions.py:215-229, given the transfer matrix *)
Example test_hole_repulsion :
  number (compute_hole_repulsion with_transfer (two_blocks 6 6 2) test_couplings [1; 4; 8; 9; 14; 15; 3; 5; 7; 10; 11; 16; 0; 2; 6; 12; 13; 17]) = Some (this (qz 2 * i_VNN test_couplings + i_VNNNper test_couplings)%Qc).
Proof. vm_compute. reflexivity. Qed.

(** test_interactions.py:231-239 *)
Example test_spin_z_two_bodies :
  numbers (compute_spins_z_two_bodies ex22 (map qz [0; 0; 0; 1; 0; 1; 0; 0; 0; 0; 1; 0]) 2 3) = Some (map (fun k => this (qfrac k 4)) [0; 0; 0; 1; 0; -1; 0; 0; 0; 0; 0; 0]).
Proof. vm_compute. reflexivity. Qed.

(** test_interactions.py:241-249 *)
Example test_S_plus_S_minus :
  numbers (compute_S_plus_S_minus cpython ex22 (map qz [0; 0; 0; 1; 0; 1; 0; 0; 0; 0; 1; 0]) 3 2) = Some (map inject_Z [0; 0; 0; 0; 1; 0; 0; 0; 0; 0; 0; 0]).
Proof. vm_compute. reflexivity. Qed.

(** test_interactions.py:251-259 *)
Example test_S2 :
  numbers (compute_S2 cpython ex22 (map qz [0; 0; 0; 0; 0; 1; 0; 0; 0; 0; 0; 0])) = Some (map (fun k => this (qfrac k 4)) [0; 0; 0; 4; 4; 7; 0; 0; 0; 0; 0; 0]).
Proof. vm_compute. reflexivity. Qed.

(** test_interactions.py:275-313: the test asks compute_spin_number for 4 and 2, which are the multiplicities; the program returns the spins 3/2
    and 1/2.  The vectors are those of the test up to a factor, which does not count. *)
Definition test_vector (l : list (det * Z)) : list Qc := map (fun k => fold_right (fun p a => match get_index_in_basis ex22 (fst p) with Ok i => if i =? k then qz (snd p) else a | Err _ => a end) 0%Qc l) (zrange 0 12).
Definition test_roots (x : Qc) : Qc * Qc := if Qc_eq_dec x (qfrac 15 4) then (qfrac (-5) 2, qfrac 3 2) else (qfrac (-3) 2, qfrac 1 2).
Definition Q0 : list (det * Z) := [([0; 1; 2; 3], 1); ([0; 2; 1; 3], 1); ([0; 3; 1; 2], 1)].
Definition Q3 : list (det * Z) := [([3; 1; 0; 2], 1); ([3; 2; 0; 1], 1); ([3; 0; 1; 2], 1)].
Definition Ds0 : list (det * Z) := [([0; 1; 2; 3], 1); ([0; 2; 1; 3], -1)].
Definition Ds3 (x : Z) : list (det * Z) := [([3; 1; 0; 2], x); ([3; 2; 0; 1], - x)].
Definition Da0 : list (det * Z) := [([0; 1; 2; 3], 1); ([0; 2; 1; 3], 1); ([0; 3; 1; 2], -2)].
Definition Da3 (x : Z) : list (det * Z) := [([3; 1; 0; 2], x); ([3; 2; 0; 1], x); ([3; 0; 1; 2], - 2 * x)].
Example test_spin_number : (forall x, x = qfrac 15 4 \/ x = qfrac 3 4 -> let (s1, s2) := test_roots x in (s1 * s1 + s1 = x)%Qc /\ (s2 * s2 + s2 = x)%Qc) /\
  map (fun l => match compute_spin_number cpython test_roots ex22 (test_vector l) with Ok (Some x) => Some (this x) | _ => None end) [Q0; Q3; (Ds0 ++ Ds3 1)%list; (Ds0 ++ Ds3 (-1))%list; (Da0 ++ Da3 1)%list; (Da0 ++ Da3 (-1))%list] =
  map Some [3 # 2; 3 # 2; 1 # 2; 1 # 2; 1 # 2; 1 # 2]%Q.
Proof.
  split; [|vm_compute; reflexivity]. intros x [->| ->]; unfold test_roots.
  - destruct (Qc_eq_dec _ _) as [_|N]; [|now contradiction N]. split; apply Qc_is_canon; vm_compute; reflexivity.
  - destruct (Qc_eq_dec _ _) as [Q|_]; [discriminate Q|]. split; apply Qc_is_canon; vm_compute; reflexivity.
Qed.

(** test_hamiltonian_construction.py:13-44 *)
Example test_build_hamiltonian :
  let t := i_t test_couplings in let j := (i_Jhper test_couplings / qz 2)%Qc in let u := i_tNNN test_couplings in let h := i_hSDper test_couplings in
  (b <- construct_basis ex22 ;; m <- build_hamiltonian cpython ex22 test_couplings b (mkSwitches true true true true true true) (RList []) ;;
   Ok (map (fun r => map (fun k => this (csr_at m r k)) (zrange 0 12)) (zrange 0 12))) =
  Ok (map (map this) ([[- j; 0; j; t; 0; 0; 0; t; 0; h; u - h; 0];
     [0; - j; j; 0; t; 0; t; 0; 0; h; 0; u - h];
     [j; j; - j - j; 0; 0; t; 0; 0; t; u - h - h; h; h];
     [t; 0; 0; - j; j; 0; u - h; h; 0; t; 0; 0];
     [0; t; 0; j; - j - j; j; h; u - h - h; h; 0; 0; t];
     [0; 0; t; 0; j; - j; 0; h; u - h; 0; t; 0];
     [0; t; 0; u - h; h; 0; - j; j; 0; t; 0; 0];
     [t; 0; 0; h; u - h - h; h; j; - j - j; j; 0; t; 0];
     [0; 0; t; 0; h; u - h; 0; j; - j; 0; 0; t];
     [h; h; u - h - h; t; 0; 0; t; 0; 0; - j - j; j; j];
     [u - h; 0; h; 0; 0; t; 0; t; 0; j; - j; 0];
     [0; u - h; h; 0; t; 0; 0; 0; t; j; 0; - j]])%Qc).
Proof. vm_compute. reflexivity. Qed.

(** test_davidson.py:7-19; the columns of the model are the columns of the arrays of the test *)
Definition test_rows : list (list Z) :=
  [[0; 0; 0; 0; 0; 0; 0; 0; 0; 0; 0]; [0; 0; 0; 0; 0; 0; 1; 0; 0; 0; 0]; [0; 0; 1; 0; 0; 0; 0; 0; 0; 0; 0];
   [0; 0; 0; 1; 0; 0; 0; 0; 0; 0; 0]; [0; 0; 0; 0; 0; 0; 0; 1; 0; 0; 0]; [0; 0; 0; 0; 0; 0; 0; 0; 1; 0; 0];
   [0; 0; 0; 0; 0; 0; 0; 0; 0; 0; 1]; [0; 0; 0; 0; 1; 0; 0; 0; 0; 0; 0]; [0; 0; 0; 0; 0; 1; 0; 0; 0; 0; 0];
   [0; 0; 0; 0; 0; 0; 0; 0; 0; 1; 0]; [1; 0; 0; 0; 0; 0; 0; 0; 0; 0; 0]; [0; 1; 0; 0; 0; 0; 0; 0; 0; 0; 0]].
Example test_lowests_eigs : get_lowests_eig (map qz [10; 3; 0; 0; 5; 7; 9; 1; 2; 7; -5; -1]) (map (fun k => map (fun r => if r =? k then 1%Qc else 0%Qc) (zrange 0 12)) (zrange 0 12)) 11 =
  Ok (map qz [-5; -1; 0; 0; 1; 2; 3; 5; 7; 7; 9], map (fun k => map (fun row => qz (nth (Z.to_nat k) row 0)) test_rows) (zrange 0 11)).
Proof. vm_compute. reflexivity. Qed.
