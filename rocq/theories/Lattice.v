(** Model of /repo/latticeFunctions.py *)
From Coq Require Import ZArith List Bool.
From Verif Require Import PyBase.
Import ListNotations.
Open Scope Z_scope.

(** latticeFunctions.py:11-22 *)
Definition compute_dimension (nsites nalpha nbeta : Z) : Z :=
  let nholes := nsites - nalpha - nbeta in
  comb nsites nholes * comb (nsites - nholes) nalpha.

(** latticeFunctions.py:24-33; the value is doubled to stay an integer:
    [compute_ms2 a b] is [2 * compute_ms(a, b)] *)
Definition compute_ms2 (nalpha nbeta : Z) : Z := nalpha - nbeta.

(** latticeFunctions.py:38-46 *)
Definition build_J_matrix (dim : Z) : res mat :=
  let ones := map (fun _ => 1) (zrange 0 (dim - 1)) in
  madd (mdiag ones 1) (mdiag ones (-1)).

(** latticeFunctions.py:76-90 *)
Definition build_U_matrix (nbh nbv nblocs_side : Z) : res mat :=
  let dim := nbh * nbv * (nblocs_side ^ 2) in
  U <- mzeros dim dim ;;
  foldM (fun U ind_i =>
           mset U (ind_i * nbh * nblocs_side) ((ind_i + 1) * nbh * nblocs_side - 1) 1)
        U (zrange 0 (nbv * nblocs_side)).

(** latticeFunctions.py:91-113 *)
Definition build_T_matrix (nbh nbv nblocs_side : Z) : res mat :=
  (* block 1, line 96 *)
  z1 <- mzeros ((nbv * nblocs_side - 1) * nbh * nblocs_side) (nbh * nblocs_side) ;;
  T <- mconcat0 (meye (nbh * nblocs_side)) z1 ;;
  (* block 2, lines 98-101 *)
  c2 <- mzeros (nbh * nbv * (nblocs_side ^ 2)) (nbv * nblocs_side) ;;
  c2 <- foldM (fun col ind_col => mset col ((ind_col + 1) * nbh * nblocs_side - 1) ind_col 1)
              c2 (zrange 0 (nbv * nblocs_side)) ;;
  T <- mconcat1 T c2 ;;
  (* block 3, lines 103-107 *)
  inv_id <- mzeros (nbh * nblocs_side) (nbh * nblocs_side) ;;
  inv_id <- foldM (fun m ind_col => mset m (nbh * nblocs_side - 1 - ind_col) ind_col 1)
                  inv_id (zrange 0 (nbh * nblocs_side)) ;;
  z3 <- mzeros ((nbv * nblocs_side - 1) * nbh * nblocs_side) (nbh * nblocs_side) ;;
  c3 <- mconcat0 z3 inv_id ;;
  T <- mconcat1 T c3 ;;
  (* block 4, lines 109-112 *)
  c4 <- mzeros (nbh * nbv * (nblocs_side ^ 2)) (nbv * nblocs_side) ;;
  c4 <- foldM (fun col ind_col => mset col ((nbv * nblocs_side - ind_col - 1) * nbh * nblocs_side) ind_col 1)
              c4 (zrange 0 (nbv * nblocs_side)) ;;
  mconcat1 T c4.

(** latticeFunctions.py:115-137 *)
Definition build_rectangular_bond_matrix (nbh nbv nblocs_side : Z) : res mat :=
  let nsites := nbh * nbv * (nblocs_side ^ 2) in
  J_matrix <- build_J_matrix (nblocs_side * nbh) ;;
  bm <- mzeros nsites nsites ;;
  bm <- foldM (fun bm iB =>
                 mset_block bm
                   (nblocs_side * nbh * iB) (nblocs_side * nbh * (iB + 1))
                   (nblocs_side * nbh * iB) (nblocs_side * nbh * (iB + 1)) J_matrix)
              bm (zrange 0 (nblocs_side * nbv)) ;;
  foldM (fun bm jB =>
           bm <- mset_block bm
                   (nblocs_side * nbh * (jB + 1)) (nblocs_side * nbh * (jB + 2))
                   (nblocs_side * nbh * jB) (nblocs_side * nbh * (jB + 1))
                   (meye (nblocs_side * nbh)) ;;
           mset_block bm
             (nblocs_side * nbh * jB) (nblocs_side * nbh * (jB + 1))
             (nblocs_side * nbh * (jB + 1)) (nblocs_side * nbh * (jB + 2))
             (meye (nblocs_side * nbh)))
        bm (zrange 0 (nblocs_side * nbv - 1)).

(** latticeFunctions.py:139-162 *)
Definition build_bond_matrix_neel_outer_lattice (nbh nbv nblocs_side : Z) : res mat :=
  Jh <- build_J_matrix (nbh * nblocs_side) ;;
  Jv <- build_J_matrix (nbv * nblocs_side) ;;
  (* column 1, line 151 *)
  z <- mzeros ((nbh + 2 * nbv) * nblocs_side) (nbh * nblocs_side) ;;
  rest <- mconcat0 Jh z ;;
  (* column 2, lines 153-154 *)
  za <- mzeros (nbh * nblocs_side) (nbv * nblocs_side) ;;
  zb <- mzeros ((nbh + nbv) * nblocs_side) (nbv * nblocs_side) ;;
  col <- mconcat0 za Jv ;;
  col <- mconcat0 col zb ;;
  rest <- mconcat1 rest col ;;
  (* column 3, lines 156-157 *)
  za <- mzeros ((nbh + nbv) * nblocs_side) (nbh * nblocs_side) ;;
  zb <- mzeros (nbv * nblocs_side) (nbh * nblocs_side) ;;
  col <- mconcat0 za Jh ;;
  col <- mconcat0 col zb ;;
  rest <- mconcat1 rest col ;;
  (* column 4, lines 159-160 *)
  za <- mzeros ((2 * nbh + nbv) * nblocs_side) (nbv * nblocs_side) ;;
  col <- mconcat0 za Jv ;;
  mconcat1 rest col.

(** latticeFunctions.py:164-193 *)
Definition build_bond_matrix_neel_embedding (nbh nbv nblocs_side : Z) : res mat :=
  bond_matrix <- build_rectangular_bond_matrix nbh nbv nblocs_side ;;
  bond_matrix_rest <- build_bond_matrix_neel_outer_lattice nbh nbv nblocs_side ;;
  connexion <- build_T_matrix nbh nbv nblocs_side ;;
  a <- mconcat0 bond_matrix (mtrans connexion) ;;
  b <- mconcat0 connexion bond_matrix_rest ;;
  mconcat1 a b.

(** latticeFunctions.py:195-218 *)
Definition build_bond_matrix_block_embedding (nbh nbv nblocs_side : Z) : res mat :=
  bond_matrix <- build_rectangular_bond_matrix nbh nbv nblocs_side ;;
  connection <- build_U_matrix nbh nbv nblocs_side ;;
  row_0 <- mconcat1 bond_matrix (mtrans connection) ;;
  row_1 <- mconcat1 connection bond_matrix ;;
  mconcat0 row_0 row_1.

(** Values taken by a [sites_restriction] argument or attribute: a list of sites,
    a pair of lists, or (after a JSON round trip) a list of lists. *)
Inductive restriction : Type :=
| RList (l : list Z)
| RTuple (a b : list Z)
| RNested (l : list (list Z)).

(** [not sites_restriction] *)
Definition restr_falsy (r : restriction) : bool :=
  match r with RList [] => true | RNested [] => true | _ => false end.

(** latticeFunctions.py:224-243.  A list of ints is not indexable twice
    ([set(sites_restriction[0])] of an int): TypeError. *)
Definition build_bond_list (E : runtime) (bm : mat) (r : restriction) : res (list (Z * Z)) :=
  let nsites := mrows bm in
  '(r0, r1) <- (if restr_falsy r then Ok (zrange 0 nsites, zrange 0 nsites)
                else match r with
                     | RTuple a b => Ok (a, b)
                     | RNested (a :: b :: _) => Ok (a, b)
                     | RNested _ => Err IndexError
                     | RList _ => Err TypeError
                     end) ;;
  concatM (fun ind_i =>
    concatM (fun ind_j =>
      b <- mget bm ind_i ind_j ;;
      Ok (if b =? 1 then [(ind_i, ind_j)] else []))
      (py_set_and E (zrange ind_i nsites) r1))
    (py_set_and E (zrange 0 nsites) r0).

(** latticeFunctions.py:245-266.  A list of lists cannot be turned into a set: TypeError. *)
Definition get_neighbors (E : runtime) (n_site : Z) (bm : mat) (r : restriction) : res (list Z) :=
  let nsites := mrows bm in
  sites <- (if restr_falsy r then Ok (zrange 0 nsites)
            else match r with
                 | RTuple _ b => Ok b
                 | RList l => Ok l
                 | RNested _ => Err TypeError
                 end) ;;
  filterM (fun ind => b <- mget bm n_site ind ;; Ok (b =? 1))
          (py_set_and E (zrange 0 nsites) sites).

(** latticeFunctions.py:268-289 *)
Definition get_second_neighbors (E : runtime) (n_site : Z) (bm : mat) (r : restriction) : res (list Z) :=
  let nsites := mrows bm in
  let r := if restr_falsy r then RTuple (zrange 0 nsites) (zrange 0 nsites) else r in
  neighbors <- get_neighbors E n_site bm (RList []) ;;
  let non_second := n_site :: neighbors in
  sec <- concatM (fun neigh =>
           ns <- get_neighbors E neigh bm r ;;
           Ok (py_set_diff E ns non_second)) neighbors ;;
  Ok (py_set_list E sec).
