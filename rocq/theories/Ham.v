(** Model of /repo/hamiltonianConstruction.py and of the add_* functions of /repo/interactions.py *)
From Coq Require Import ZArith List Bool QArith Qcanon.
From Verif Require Import PyBase Lattice Base Interact.
Import ListNotations.
Open Scope Z_scope.

(** hamiltonianConstruction.py:6-20: the three lists data, row, col kept as one list of
    (data, row, col) since they are always extended together *)
Definition coo : Type := list (Qc * Z * Z).

(** hamiltonianConstruction.py:81-104; both branches append one element *)
Definition add_ham_coo (ham : coo) (elt : Qc) (ind_row ind_col : Z) : coo :=
  ham ++ [(elt, ind_row, ind_col)].

(** [for temp in images: add_ham_coo(ham, x, ind_vect, get_index_in_basis(temp))] *)
Definition add_images (c : configuration) (x : Qc) (ind_vect : Z) (ham : coo) (images : list det) : res coo :=
  foldM (fun ham temp =>
           ind_temp <- get_index_in_basis c temp ;;
           Ok (add_ham_coo ham x ind_vect ind_temp)) ham images.

(** interactions.py:77-98 *)
Definition add_hopping_integral (E : runtime) (ham : coo) (b : basis) (I : interactions) : res coo :=
  let c := b_conf b in
  if 0 <? nholes c then
    foldM (fun ham p =>
             let '(ind_vect, vect) := p in
             images <- compute_hopping_integral E c vect ;;
             add_images c (i_t I) ind_vect ham images)
          ham (enumerate (determinants b))
  else Ok ham.

(** interactions.py:149-175 *)
Definition add_next_hopping_integral (E : runtime) (ham : coo) (b : basis) (I : interactions) : res coo :=
  let c := b_conf b in
  if 0 <? nholes c then
    foldM (fun ham p =>
             let '(ind_vect, vect) := p in
             '(images_col, images_ortho) <- compute_next_hopping_integral E c vect ;;
             ham <- add_images c (i_tnNNN I) ind_vect ham images_col ;;
             add_images c (i_tNNN I) ind_vect ham images_ortho)
          ham (enumerate (determinants b))
  else Ok ham.

(** interactions.py:227-242 *)
Definition add_static_spin_interaction (E : runtime) (ham : coo) (b : basis) (I : interactions) : res coo :=
  let c := b_conf b in
  foldM (fun ham p =>
           let '(ind_vect, vect) := p in
           sz <- compute_static_spin_interaction E c I vect ;;
           Ok (add_ham_coo ham sz ind_vect ind_vect))
        ham (enumerate (determinants b)).

(** interactions.py:296-325 *)
Definition add_spin_flip (E : runtime) (ham : coo) (b : basis) (I : interactions) : res coo :=
  let c := b_conf b in
  foldM (fun ham p =>
           let '(ind_vect, vect) := p in
           '(images_par, images_per, images_undoped) <- compute_spin_flip E c vect ;;
           ham <- add_images c (i_Jhpar I / qz 2)%Qc ind_vect ham images_par ;;
           ham <- add_images c (i_Jhper I / qz 2)%Qc ind_vect ham images_per ;;
           add_images c (i_J I / qz 2)%Qc ind_vect ham images_undoped)
        ham (enumerate (determinants b)).

(** interactions.py:404-407 and 408-411 *)
Definition add_singlet_images (c : configuration) (x : Qc) (ind_vect : Z) (ham : coo)
    (images : list (det * det)) : res coo :=
  foldM (fun ham im =>
           let '(temp_1, temp_2) := im in
           ind_temp_1 <- get_index_in_basis c temp_1 ;;
           ind_temp_2 <- get_index_in_basis c temp_2 ;;
           let ham := add_ham_coo ham x ind_vect ind_temp_1 in
           Ok (add_ham_coo ham (- x)%Qc ind_vect ind_temp_2)) ham images.

(** interactions.py:385-411 *)
Definition add_singlet_displacement (E : runtime) (ham : coo) (b : basis) (I : interactions) : res coo :=
  let c := b_conf b in
  foldM (fun ham p =>
           let '(ind_vect, vect) := p in
           '(images_par, images_per) <- compute_singlet_displacement E c vect ;;
           ham <- add_singlet_images c (i_hSDpar I) ind_vect ham images_par ;;
           add_singlet_images c (i_hSDper I) ind_vect ham images_per)
        ham (enumerate (determinants b)).

(** interactions.py:449-463 *)
Definition add_hole_repulsion (E : runtime) (ham : coo) (b : basis) (I : interactions) : res coo :=
  let c := b_conf b in
  foldM (fun ham p =>
           let '(ind_vect, vect) := p in
           v <- compute_hole_repulsion E c I vect ;;
           Ok (add_ham_coo ham v ind_vect ind_vect))
        ham (enumerate (determinants b)).

(** scipy.sparse.coo_matrix((data, (row, col)), shape=(dim, dim)).tocsr():
    rejects indices outside the shape; entries at the same place are summed. *)
Record csr : Type := mkCsr { csr_dim : Z; csr_entries : coo }.

Definition coo_to_csr (dim : Z) (ham : coo) : res csr :=
  if forallb (fun p => let '(_, r, c) := p in (0 <=? r) && (r <? dim) && (0 <=? c) && (c <? dim)) ham
  then Ok (mkCsr dim ham) else Err ValueError.

(** [ham[i, j]] *)
Definition csr_at (m : csr) (i j : Z) : Qc :=
  fold_right (fun p acc => let '(x, r, c) := p in
                           if (r =? i) && (c =? j) then (x + acc)%Qc else acc) (qz 0) (csr_entries m).

(** hamiltonianConstruction.py:22-77.  The argument [sites_restriction] is computed at lines 43-44
    and never used; it is kept as an argument. *)
Definition build_hamiltonian (E : runtime) (c : configuration) (I : interactions) (b : basis) (S : switches)
    (sites_restriction : restriction) : res csr :=
  let dim := compute_dimension (nsites c) (nalpha c) (nbeta c) in
  let ham := [] in
  ham <- (if s_bt S then add_hopping_integral E ham b I else Ok ham) ;;
  ham <- (if s_bz S then add_static_spin_interaction E ham b I else Ok ham) ;;
  ham <- (if s_bij S then add_spin_flip E ham b I else Ok ham) ;;
  ham <- (if s_bSD S then add_singlet_displacement E ham b I else Ok ham) ;;
  ham <- (if s_btN S then add_next_hopping_integral E ham b I else Ok ham) ;;
  ham <- (if s_bV S then add_hole_repulsion E ham b I else Ok ham) ;;
  coo_to_csr dim ham.
