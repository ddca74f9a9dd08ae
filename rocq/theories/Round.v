(** The arithmetic of /repo/interactions.py and /repo/hamiltonianConstruction.py with rounded operations.
    [Interact] and [Ham] compute with exact numbers; here every product, sum and quotient of floats is followed by a rounding.
    Overflow, underflow, infinities and NaN are left out: the exponents are not bounded. *)
From Coq Require Import ZArith List Bool QArith Qcanon.
From Verif Require Import PyBase Lattice Base Interact Ham.
Import ListNotations.
Open Scope Z_scope.

(** [fl x] is the float returned by an operation whose exact result is [x].  [add_order] is the order in which scipy adds the entries
    at one place of a matrix (the indices of a row are sorted by a sort that is not stable). *)
Record floats : Type := mkFloats { fl : Qc -> Qc; add_order : list Qc -> list Qc }.

(** Nearest integer to [a / b], the even one when there are two. *)
Definition nearest_even (a b : Z) : Z :=
  let q := a / b in
  let r := a mod b in
  if 2 * r <? b then q else if b <? 2 * r then q + 1 else if Z.even q then q else q + 1.
(** Rounding of IEEE 754 to [p] bits, to nearest, ties to even, with unbounded exponents. *)
Definition binary (p : Z) (x : Qc) : Qc :=
  let a := Qnum (this x) in
  let m := Z.abs a in
  let b := Zpos (Qden (this x)) in
  if m =? 0 then 0%Qc else
  let e0 := Z.log2 m - Z.log2 b in
  let e := if b * 2 ^ Z.log2 m <=? m * 2 ^ Z.log2 b then e0 else e0 - 1 in
  let k := p - 1 - e in
  let q := nearest_even (m * 2 ^ Z.max k 0) (b * 2 ^ Z.max (- k) 0) in
  (qz (Z.sgn a * q * 2 ^ Z.max (- k) 0) / qz (2 ^ Z.max k 0))%Qc.
(** the floats of Python and numpy, added in the order of the entries *)
Definition binary64 : floats := mkFloats (binary 53) (fun l => l).

(** interactions.py:179-225.  The products of two spins and the differences with 1/4 are 0, 1/4, -1/4 and -1/2: they are not rounded. *)
Definition compute_static_spin_interaction_fl (F : floats) (E : runtime) (c : configuration) (I : interactions) (d : det) : res Qc :=
  bond_list <- build_bond_list E (bond_matrix c) (sites_restriction c) ;;
  foldM (fun sz bond =>
    let '(b0, b1) := bond in
    spin_0 <- get_spin_site c d b0 ;;
    spin_1 <- get_spin_site c d b1 ;;
    if negb (spin_0 * spin_1 =? 0) then
      k <- static_class E c d (Z.min b0 b1) (Z.max b0 b1) ;;
      Ok (fl F (sz + fl F (class_coupling I k * (qfrac (spin_0 * spin_1) 4 - qfrac 1 4)))%Qc)
    else Ok sz)
    (qz 0) bond_list.

(** interactions.py:415-447; the last line rounds two products and a sum *)
Definition compute_hole_repulsion_fl (F : floats) (E : runtime) (c : configuration) (I : interactions) (d : det) : res Qc :=
  if 1 <? nholes c then
    sites_holes <- get_indexes_of E c d 0 0 ;;
    '(bonds, next_bonds) <-
      foldM (fun st p =>
        let '(bonds, next_bonds) := st in
        let '(ind_hole, site_hole) := p in
        neigh <- get_neighbors E site_hole (bond_matrix c) (sites_restriction c) ;;
        let neighboring := py_set_and E neigh (py_slice_from sites_holes ind_hole) in
        dg <- get_diagonal_second_neighbors E c site_hole ;;
        let diagonal := py_set_and E dg (py_slice_from sites_holes ind_hole) in
        Ok (bonds ++ map (fun x => (site_hole, x)) neighboring,
            next_bonds ++ map (fun x => (site_hole, x)) diagonal))
      ([], []) (enumerate (py_slice sites_holes 0 (-1))) ;;
    Ok (fl F (fl F (qz (zlen bonds) * i_VNN I) + fl F (qz (zlen next_bonds) * i_VNNNper I))%Qc)
  else Ok (qz 0).

(** interactions.py:468-481 *)
Definition compute_energy_fl (F : floats) (E : runtime) (c : configuration) (I : interactions) (d : det) : res Qc :=
  sz <- compute_static_spin_interaction_fl F E c I d ;;
  v <- compute_hole_repulsion_fl F E c I d ;;
  Ok (fl F (sz + v)%Qc).

(** interactions.py:227-242 *)
Definition add_static_spin_interaction_fl (F : floats) (E : runtime) (ham : coo) (b : basis) (I : interactions) : res coo :=
  let c := b_conf b in
  foldM (fun ham p =>
           let '(ind_vect, vect) := p in
           sz <- compute_static_spin_interaction_fl F E c I vect ;;
           Ok (add_ham_coo ham sz ind_vect ind_vect))
        ham (enumerate (determinants b)).

(** interactions.py:296-325; the divisions by 2 are rounded *)
Definition add_spin_flip_fl (F : floats) (E : runtime) (ham : coo) (b : basis) (I : interactions) : res coo :=
  let c := b_conf b in
  foldM (fun ham p =>
           let '(ind_vect, vect) := p in
           '(images_par, images_per, images_undoped) <- compute_spin_flip E c vect ;;
           ham <- add_images c (fl F (i_Jhpar I / qz 2)%Qc) ind_vect ham images_par ;;
           ham <- add_images c (fl F (i_Jhper I / qz 2)%Qc) ind_vect ham images_per ;;
           add_images c (fl F (i_J I / qz 2)%Qc) ind_vect ham images_undoped)
        ham (enumerate (determinants b)).

(** interactions.py:449-463 *)
Definition add_hole_repulsion_fl (F : floats) (E : runtime) (ham : coo) (b : basis) (I : interactions) : res coo :=
  let c := b_conf b in
  foldM (fun ham p =>
           let '(ind_vect, vect) := p in
           v <- compute_hole_repulsion_fl F E c I vect ;;
           Ok (add_ham_coo ham v ind_vect ind_vect))
        ham (enumerate (determinants b)).

(** the data of the entries at the place [i, j] *)
Definition at_place (ham : coo) (i j : Z) : list Qc :=
  map (fun p => fst (fst p)) (filter (fun p => let '(_, r, c) := p in (r =? i) && (c =? j)) ham).
(** [x = data[0]; for y in data[1:]: x += y] *)
Definition add_all (F : floats) (l : list Qc) : Qc :=
  match l with
  | [] => qz 0
  | x :: l' => fold_left (fun a y => fl F (a + y)%Qc) l' x
  end.
(** tocsr(): one entry remains at each place; it is the rounded sum of the entries found there (csr_sum_duplicates of scipy) *)
Definition sum_duplicates (F : floats) (dim : Z) (ham : coo) : coo :=
  flat_map (fun i => flat_map (fun j =>
    match at_place ham i j with
    | [] => []
    | l => [(add_all F (add_order F l), i, j)]
    end) (zrange 0 dim)) (zrange 0 dim).
Definition coo_to_csr_fl (F : floats) (dim : Z) (ham : coo) : res csr :=
  if forallb (fun p => let '(_, r, c) := p in (0 <=? r) && (r <? dim) && (0 <=? c) && (c <? dim)) ham
  then Ok (mkCsr dim (sum_duplicates F dim ham)) else Err ValueError.

(** hamiltonianConstruction.py:22-77.  Hops and crossings of singlets (interactions.py:77-98, 149-175 and 385-411) append the couplings
    and their opposites as they are: nothing is rounded there. *)
Definition build_hamiltonian_fl (F : floats) (E : runtime) (c : configuration) (I : interactions) (b : basis) (S : switches)
    (sites_restriction : restriction) : res csr :=
  let dim := compute_dimension (nsites c) (nalpha c) (nbeta c) in
  let ham := [] in
  ham <- (if s_bt S then add_hopping_integral E ham b I else Ok ham) ;;
  ham <- (if s_bz S then add_static_spin_interaction_fl F E ham b I else Ok ham) ;;
  ham <- (if s_bij S then add_spin_flip_fl F E ham b I else Ok ham) ;;
  ham <- (if s_bSD S then add_singlet_displacement E ham b I else Ok ham) ;;
  ham <- (if s_btN S then add_next_hopping_integral E ham b I else Ok ham) ;;
  ham <- (if s_bV S then add_hole_repulsion_fl F E ham b I else Ok ham) ;;
  coo_to_csr_fl F dim ham.
