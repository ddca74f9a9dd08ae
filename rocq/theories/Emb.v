(** Model of /repo/embedding.py: the block in a Néel ring (19-262), the block beside another block (341-766) and
    the files they write (264-336, 768-850).
    The file ./initialComputations/D/f is the file "D/f" of the directory of Files.v; a missing sub-directory is made.
    Printing and progress bars are left out, except for the calls of the program they make.
    As in Prob.v, a division by zero of numpy is an error here. *)
From Coq Require Import ZArith String List Bool QArith Qcanon.
From Verif Require Import PyBase Lattice Base Interact Ham Spin Prob Dav Files.
Import ListNotations.
Open Scope Z_scope.

(** [sp.coo_matrix((data, (row, col)), shape=ham.shape)] in add_ham_coo (hamiltonianConstruction.py:98-104): the places are checked *)
Definition add_coo (dim : Z) (ham : coo) (elt : Qc) (ind_row ind_col : Z) : res coo :=
  if (0 <=? ind_row) && (ind_row <? dim) && (0 <=? ind_col) && (ind_col <? dim)
  then Ok (add_ham_coo ham elt ind_row ind_col) else Err ValueError.

(** [vect = np.zeros((n, 1)); vect[i] = 1] *)
Definition unit_column (n i : Z) : res vect := py_set (repeat 0%Qc (Z.to_nat n)) i 1%Qc.

(** [probabilities[spin][site]] *)
Definition proba (p : list (Z * list Qc)) (spin site : Z) : res Qc := l <- dict_get p spin ;; py_get l site.

(** embedding.py:161-168 and 497-504: the interaction of one site of the block with its neighbours outside *)
Definition add_bonds (I : interactions) (pa pb ph : Qc) (pR : list (Z * list Qc)) (shift : Z) (intr : Qc) (sites : list Z) : res Qc :=
  foldM (fun intr site =>
           ra <- proba pR 1 (site - shift) ;;
           rb <- proba pR (-1) (site - shift) ;;
           rh <- proba pR 0 (site - shift) ;;
           Ok (intr + ((- (i_J I / qz 2)) * (pa * rb + pb * ra) + i_VNN I * ph * rh))%Qc) intr sites.
(** embedding.py:179-184 and 509-514: with its diagonal second neighbours outside *)
Definition add_diagonals (I : interactions) (ph : Qc) (pR : list (Z * list Qc)) (shift : Z) (intr : Qc) (sites : list Z) : res Qc :=
  foldM (fun intr site =>
           rh <- proba pR 0 (site - shift) ;;
           Ok (intr + i_VNNNper I * ph * rh)%Qc) intr sites.
(** embedding.py:152-184 and 488-514: the loop on the sites of the frontier; [bonds] and [diagonals] are the two lists of foreign sites *)
Definition frontier_energy (I : interactions) (bonds diagonals : Z -> res (list Z)) (pA pR : list (Z * list Qc)) (shift : Z) (frontier : list Z) : res Qc :=
  foldM (fun intr site_A =>
           pa <- proba pA 1 site_A ;;
           pb <- proba pA (-1) site_A ;;
           ph <- proba pA 0 site_A ;;
           l <- bonds site_A ;;
           intr <- add_bonds I pa pb ph pR shift intr l ;;
           l <- diagonals site_A ;;
           add_diagonals I ph pR shift intr l) 0%Qc frontier.

(** ** The Néel ring *)

(** embedding.py:94-95 *)
Definition beta_neel (nbh nbv nblocs_side : Z) : list Z :=
  let b (x : bool) := if x then 1 else 0 in
  filter (fun site =>
            (site + 1 + b (nbh * nblocs_side <=? site) + b ((nbh + nbv) * nblocs_side <=? site) + b ((2 * nbh + nbv) * nblocs_side <=? site)) mod 2 =? 1)
         (zrange 0 (2 * (nbh + nbv) * nblocs_side)).
(** embedding.py:96 *)
Definition det_neel (E : runtime) (nbh nbv nblocs_side : Z) : det :=
  let beta := beta_neel nbh nbv nblocs_side in
  beta ++ py_set_diff E (zrange 0 (2 * (nbh + nbv) * nblocs_side)) beta.

(** embedding.py:89-103 and 118-122: the probabilities on the ring at the start *)
Definition neel_start (E : runtime) (nbh nbv nblocs_side : Z) : res (list (Z * list Qc)) :=
  bm <- build_bond_matrix_neel_outer_lattice nbh nbv nblocs_side ;;
  c <- make_configuration bm 0 (zlen (beta_neel nbh nbv nblocs_side)) (RList []) Periodic nbh nbv nblocs_side ;;
  b <- construct_basis c ;;
  i <- get_index_in_basis c (det_neel E nbh nbv nblocs_side) ;;
  v <- unit_column (nb_conf c) i ;;
  get_spins_probabilitites_lattice b v false.

(** [site for site in range(n) if len(get_neighbors(site, bm)) < len(get_neighbors(site + shift, bm_large))] *)
Definition fewer_neighbors (E : runtime) (bm bm_large : mat) (shift site : Z) : res bool :=
  l <- get_neighbors E site bm (RList []) ;;
  l' <- get_neighbors E (site + shift) bm_large (RList []) ;;
  Ok (zlen l <? zlen l').

(** what the two embeddings know of the surroundings: the matrix, the configuration of the whole, the frontier *)
Record surroundings : Type := mkSur {
  u_conf : configuration;
  u_frontier_A : list Z;
  u_frontier_B : list Z;
  u_bonds : Z -> res (list Z);
  u_diagonals : Z -> res (list Z)
}.

(** embedding.py:106-116, 159 and 171-173 *)
Definition neel_surroundings (E : runtime) (c : configuration) : res surroundings :=
  let n := nsites c in
  let rest := 2 * (nbh c + nbv c) * nblocs_side c in
  bm <- build_bond_matrix_neel_embedding (nbh c) (nbv c) (nblocs_side c) ;;
  frontier <- filterM (fewer_neighbors E (bond_matrix c) bm 0) (zrange 0 n) ;;
  around <- concatM (fun site => get_neighbors E site bm (RList [])) (zrange 0 n) ;;
  cu <- make_configuration bm (nholes c) (nbeta c + zlen (beta_neel (nbh c) (nbv c) (nblocs_side c)))
          (RList (py_set_list E (zrange 0 n ++ around))) Peripheral (nbh c) (nbv c) (nblocs_side c) ;;
  Ok (mkSur cu frontier (zrange n (n + rest))
        (fun site => get_neighbors E site bm (RList (zrange n (n + rest))))
        (fun site => l <- get_diagonal_second_neighbors E cu site ;; Ok (py_set_and E (zrange n (n + rest)) l))).

(** embedding.py:145-191: the loop on the determinants *)
Definition dress_neel (I : interactions) (b : basis) (u : surroundings) (pR : list (Z * list Qc)) (dim : Z) (ham : coo) : res coo :=
  foldM (fun ham p =>
           v <- unit_column (nb_conf (b_conf b)) (fst p) ;;
           pA <- get_spins_probabilitites_lattice b v false ;;
           intr <- frontier_energy I (u_bonds u) (u_diagonals u) pA pR (nsites (b_conf b)) (u_frontier_A u) ;;
           add_coo dim ham intr (fst p) (fst p)) ham (enumerate (determinants b)).

(** embedding.py:209-223: the new probabilities on the ring *)
Definition set_proba (p : list (Z * list Qc)) (spin site : Z) (x : Qc) : res (list (Z * list Qc)) :=
  mapM (fun q => if fst q =? spin then l <- py_set (snd q) site x ;; Ok (fst q, l) else Ok q) p.
Definition mirror_frontier (u : surroundings) (pL : list (Z * list Qc)) (shift rest : Z) : res (list (Z * list Qc)) :=
  let zero := repeat 0%Qc (Z.to_nat rest) in
  foldM (fun pR site_A =>
           pa <- proba pL 1 site_A ;;
           pb <- proba pL (-1) site_A ;;
           ph <- proba pL 0 site_A ;;
           l <- u_bonds u site_A ;;
           foldM (fun pR site_R =>
                    pR <- set_proba pR 1 (site_R - shift) pb ;;
                    pR <- set_proba pR (-1) (site_R - shift) pa ;;
                    set_proba pR 0 (site_R - shift) ph) pR l)
        [(1, zero); (-1, zero); (0, zero)] (u_frontier_A u).

(** [eigvects[:,[0]]] *)
Definition first_column (vects : cols) : res vect := match vects with v :: _ => Ok v | [] => Err IndexError end.

(** embedding.py:143-203, one diagonalisation in the field of the ring.  The loop [while True] leaves at its first turn:
    without eigenvalues there is no first column either. *)
Definition neel_turn (N : numerics) (I : interactions) (g : diagonalization) (nb_val : Z) (rand : Z -> Z -> cols) (b : basis) (u : surroundings)
    (ham : csr) (pR : list (Z * list Qc)) : res eigenstates :=
  h <- dress_neel I b u pR (csr_dim ham) (csr_entries ham) ;;
  h <- coo_to_csr (csr_dim ham) h ;;
  r <- modified_davidson_algorithm N (csr_dense h) nb_val (rand (csr_dim h) (Z.min nb_val (if g_dim_max g =? 0 then csr_dim h else g_dim_max g)))
         (g_stp g) (g_tol g) (g_dim_max g) ;;
  let '(_, vals, vects) := r in
  gs <- first_column vects ;;
  match vals with
  | [] => Err OutOfFuel
  | _ => _ <- get_probability_spin_rectangular_lattice b gs 0 ;; Ok (mkEig vals [] vects)
  end.

(** [lin.norm(new - old) / lin.norm(old) < tol] *)
Definition settled (N : numerics) (new old : vect) (tol : Qc) : res bool :=
  q <- fdiv (norm N (vsub new old)) (norm N old) ;; Ok (negb (qleb tol q)).

(** embedding.py:126-262, the self-consistent loop from turn [k] on; [last] are the eigenstates of the turn before.
    [rand k] is the random matrix of turn [k]. *)
Fixpoint neel_loop (N : numerics) (I : interactions) (g : diagonalization) (sc_tol : Qc) (nb_val : Z) (rand : Z -> Z -> Z -> cols) (b : basis)
    (u : surroundings) (ham : csr) (rest : Z) (turns : nat) (k : Z) (gs : vect) (pR : list (Z * list Qc)) (last : option eigenstates) : res eigenstates :=
  match turns with
  | O => match last with Some e => Ok e | None => Err NameError end
  | S turns =>
    e <- neel_turn N I g nb_val (rand k) b u ham pR ;;
    new <- first_column (e_vects e) ;;
    pL <- get_spins_probabilitites_lattice b new false ;;
    pR <- mirror_frontier u pL (nsites (b_conf b)) rest ;;
    stop <- settled N new gs sc_tol ;;
    if stop : bool then Ok e else neel_loop N I g sc_tol nb_val rand b u ham rest turns (k + 1) new pR (Some e)
  end.

(** embedding.py:299-316 and 813-830: the text, without the durations.  A guess which is not None cannot be serialised. *)
Definition embedded_to_json (dc : data_computations) : json :=
  JObj [("configuration"%string, configuration_to_json (d_conf (dc_data dc)));
        ("interactions"%string, interactions_to_json (d_inter (dc_data dc)));
        ("diagonalization"%string, diagonalization_to_json (d_diag (dc_data dc)));
        ("bool_interactions"%string, bools_to_json (d_bools (dc_data dc)));
        ("determinants"%string, JList (map JInts (dc_dets dc)));
        ("hamiltonian"%string, hamiltonian_to_json (dc_ham dc));
        ("eigenstates"%string, eigenstates_to_json (csr_dim (dc_ham dc)) (dc_eig dc))].
Definition save_embedded (fs : files) (file_name : string) (dc : data_computations) : files * res data_computations :=
  match g_guess (d_diag (dc_data dc)) with
  | Some _ => (fs_put fs file_name None, Err TypeError)
  | None => (fs_put fs file_name (Some (embedded_to_json dc)), Ok dc)
  end.

(** embedding.py:286-299 *)
Definition peripheral_name (c : configuration) (s : switches) : string := append "Peripheral_embedding/" (embedding_name c s).

(** embedding.py:19-262 up to the last save: the results of the embedding, with the Hamiltonian of the block alone *)
Definition embedded_neel (E : runtime) (N : numerics) (rand : Z -> Z -> Z -> cols) (fs : files) (d : data) (sc_tol : Qc) (max_iter nb_val : Z)
    : res data_computations :=
  let c := d_conf d in
  dc <- load_data fs (embedding_name c (s_of (d_bools d))) ;;
  let b := mkBasis c (dc_dets dc) in
  gs <- first_column (e_vects (dc_eig dc)) ;;
  u <- neel_surroundings E c ;;
  pR <- neel_start E (nbh c) (nbv c) (nblocs_side c) ;;
  e <- neel_loop N (d_inter d) (d_diag d) sc_tol nb_val rand b u (dc_ham dc) (2 * (nbh c + nbv c) * nblocs_side c) (Z.to_nat max_iter) 0 gs pR None ;;
  _ <- py_get (e_vals (dc_eig dc)) 0 ;;
  _ <- py_get (e_vals e) 0 ;;
  Ok (mkDC d (dc_dets dc) (dc_ham dc) e None).

(** embedding.py:19-262 *)
Definition embedding_neel (E : runtime) (N : numerics) (rand : Z -> Z -> Z -> cols) (fs : files) (d : data) (sc_tol : Qc) (max_iter nb_val : Z)
    : files * res data_computations :=
  match embedded_neel E N rand fs d sc_tol max_iter nb_val with
  | Err e => (fs, Err e)
  | Ok dc => save_embedded fs (peripheral_name (d_conf d) (s_of (d_bools d))) dc
  end.

(** ** The neighbouring block *)

(** embedding.py:421-431: configuration and determinants of the neighbour *)
Definition neighbor_basis (E : runtime) (b : basis) (reversed : bool) : res basis :=
  if reversed then reverse_spins_basis E b else Ok b.

(** embedding.py:434-464, 495 and 506-508 *)
Definition block_surroundings (E : runtime) (c cn : configuration) : res (surroundings * configuration) :=
  let n := nsites c in
  bm <- build_bond_matrix_block_embedding (nbh c) (nbv c) (nblocs_side c) ;;
  fA <- concatM (fun site => f <- fewer_neighbors E (bond_matrix c) bm 0 site ;;
                             if f : bool then get_neighbors E site bm (RList []) else Ok []) (zrange 0 n) ;;
  fB <- concatM (fun site => f <- fewer_neighbors E (bond_matrix c) bm n site ;;
                             if f : bool then get_neighbors E (site + n) bm (RList []) else Ok []) (zrange 0 (nsites cn)) ;;
  let frontier := py_set_list E (fA ++ fB) in
  let frontier_A := filter (fun site => site <? n) frontier in
  let frontier_B := filter (fun site => n <=? site) frontier in
  cu <- make_configuration bm (nholes c + nholes cn) (nbeta c + nbeta cn) (RTuple frontier_A frontier_B) Clusters (2 * nbh c) (nbv c) (nblocs_side c) ;;
  full <- make_configuration bm (nholes c + nholes cn) (nbeta c + nbeta cn) (RList []) Clusters (2 * nbh c) (nbv c) (nblocs_side c) ;;
  Ok (mkSur cu frontier_A frontier_B
        (fun site => l <- get_neighbors E site bm (RTuple frontier_A frontier_B) ;; Ok (py_set_and E frontier_B l))
        (fun site => l <- get_diagonal_second_neighbors E cu site ;; Ok (py_set_and E frontier_B l)),
      full).

(** embedding.py:515-526: the element at its place, or at the four rotated places *)
Definition rotated_index (c : configuration) (d : det) (rot : Z) : res Z := get_index_in_basis c (rotate_determinant rot c d).
Definition add_static (c : configuration) (single : bool) (dim : Z) (ham : coo) (elt : Qc) (i : Z) (d : det) : res coo :=
  if single then add_coo dim ham elt i i
  else foldM (fun ham rot => k <- rotated_index c d rot ;; add_coo dim ham elt k k) ham (zrange 0 4).

(** [getattr(configuration, spins_attributes[spin])]; spins are doubled *)
Definition count_of (c : configuration) (spin : Z) : Z := if spin =? 0 then nholes c else if spin =? -1 then nbeta c else nalpha c.

(** embedding.py:560-570: the block once [spin] has become [new_spin]; the constructor recomputes the number of spins up *)
Definition perturbed_A (c : configuration) (spin new_spin : Z) : res configuration :=
  let count k := if k =? spin then count_of c k - 1 else if k =? new_spin then count_of c k + 1 else count_of c k in
  make_configuration (bond_matrix c) (count 0) (count (-1)) (sites_restriction c) Periodic (nbh c) (nbv c) (nblocs_side c).
(** [(r[1], r[0])]; a restriction which is a plain list is rejected here *)
Definition swap_restriction (r : restriction) : res restriction :=
  match r with
  | RTuple a b => Ok (RTuple b a)
  | RNested (a :: b :: _) => Ok (RTuple b a)
  | RNested _ => Err IndexError
  | RList _ => Err TypeError
  end.
(** embedding.py:573-583: the neighbour once [new_spin] has become [spin]; the two changed numbers are those of the block *)
Definition perturbed_B (c cn : configuration) (spin new_spin : Z) : res configuration :=
  let count k := if k =? new_spin then count_of c k - 1 else if k =? spin then count_of c k + 1 else count_of cn k in
  r <- swap_restriction (sites_restriction cn) ;;
  make_configuration (bond_matrix cn) (count 0) (count (-1)) r Periodic (nbh cn) (nbv cn) (nblocs_side cn).
(** embedding.py:585-595 and 617-626: [c] is the configuration before, [c'] after *)
Definition perturb (E : runtime) (c c' : configuration) (d : det) (site old new : Z) : res det :=
  h <- get_indexes_of E c d 0 0 ;;
  b <- get_indexes_of E c d (-1) 0 ;;
  a <- get_indexes_of E c d 1 0 ;;
  let change k l := if k =? old then py_remove l site else Ok (if k =? new then l ++ [site] else l) in
  h <- change 0 h ;;
  b <- change (-1) b ;;
  a <- change 1 a ;;
  Ok (reorder_basis_element c' (h ++ b ++ a)).

(** embedding.py:530-548: the register of the perturbators, by numbers of holes and spins down of the two blocks *)
Definition memory : Type := list (((Z * Z) * (Z * Z)) * list (Z * Z)).
Definition get_id (c : configuration) : Z * Z := (nholes c, nbeta c).
Definition empty_memory (c : configuration) : memory :=
  map (fun p => let '(da, db) := p in
                let b (x : bool) := if x then 1 else 0 in
                (((nholes c + b (da + db =? -1) - b (da + db =? 1), nbeta c + db),
                  (nholes c - b (da + db =? -1) + b (da + db =? 1), nbeta c - db)), []))
      [(-1, 0); (-1, 1); (0, -1); (0, 1); (1, -1); (1, 0)].
Definition key_eqb (k l : (Z * Z) * (Z * Z)) : bool :=
  (fst (fst k) =? fst (fst l)) && (snd (fst k) =? snd (fst l)) && (fst (snd k) =? fst (snd l)) && (snd (snd k) =? snd (snd l)).
(** embedding.py:632-634: [None] when the perturbator is known *)
Fixpoint remember (m : memory) (key : (Z * Z) * (Z * Z)) (x : Z * Z) : res (option memory) :=
  match m with
  | [] => Err KeyError
  | (k, l) :: m' =>
    if key_eqb k key then Ok (if pair_mem x l then None else Some ((k, l ++ [x]) :: m'))
    else r <- remember m' key x ;; Ok (option_map (cons (k, l)) r)
  end.

(** embedding.py:611-615: the interactions that undo the exchange *)
Definition reverse_interactions (delta_n_B : Z) : res switches :=
  if delta_n_B =? 0 then Ok (mkSwitches false false true false false false)
  else if (delta_n_B =? 1) || (delta_n_B =? -1) then Ok (mkSwitches true false false true true false)
  else Err KeyError.

(** a configuration with another restriction *)
Definition with_restriction (c : configuration) (r : restriction) : configuration :=
  mkConf (bond_matrix c) (nsites c) (nholes c) (nbeta c) (nalpha c) (nb_conf c) r (lattice_type c) (nbh c) (nbv c) (nblocs_side c).

(** embedding.py:636-662: the determinants coupled to a perturbator; the numbers of line 640 are doubled *)
Definition coupled (E : runtime) (I : interactions) (cn pA pB : configuration) (u : surroundings) (dA dB perturbator : det) : res (list (det * Qc)) :=
  let delta_n := nalpha pB + nbeta pB - nalpha cn - nbeta cn in
  let delta_ms := nalpha pB - nbeta pB - nalpha cn + nbeta cn in
  let n := nsites pA in
  inB <- get_indexes_of E pB dB (Z.max delta_n 0 * delta_ms) 0 ;;
  inA <- get_indexes_of E pA dA (Z.min 0 delta_n * delta_ms) 0 ;;
  let r := RTuple (py_set_and E (u_frontier_B u) (map (fun site => site + n) inB)) (py_set_and E (u_frontier_A u) inA) in
  s <- reverse_interactions delta_n ;;
  compute_dynamic_interactions E (with_restriction (u_conf u) r) I s perturbator.

(** the pairs of the loops of embedding.py:672-673 *)
Fixpoint pairs_of {A} (l : list A) : list (A * A) :=
  match l with
  | [] => []
  | x :: l' => map (fun y => (x, y)) l' ++ pairs_of l'
  end.

(** embedding.py:696-703 and 712-719 *)
Definition add_both (dim : Z) (ham : coo) (x threshold : Qc) (i j : Z) : res coo :=
  if qleb threshold (qabs x) then ham <- add_coo dim ham x i j ;; add_coo dim ham x j i else Ok ham.

(** embedding.py:674-719: one pair of coupled determinants *)
Definition add_coupling (c : configuration) (single : bool) (threshold energy e_pert : Qc) (gs : vect) (dim : Z) (ham : coo)
    (p : (det * Qc) * (det * Qc)) : res coo :=
  let n := nsites c in
  let '((d1, c1), (d2, c2)) := p in
  let part_B d := map (fun site => site - n) (filter (fun site => n <=? site) d) in
  let part_A d := filter (fun site => site <? n) d in
  i1 <- get_index_in_basis c (part_B d1) ;;
  i2 <- get_index_in_basis c (part_B d2) ;;
  g1 <- py_get gs i1 ;;
  g2 <- py_get gs i2 ;;
  coupling <- fdiv (g1 * g2 * (c1 * c2))%Qc (qz 2 * energy - e_pert)%Qc ;;
  if single then
    k1 <- get_index_in_basis c (part_A d1) ;;
    k2 <- get_index_in_basis c (part_A d2) ;;
    add_both dim ham coupling threshold k1 k2
  else
    foldM (fun ham rot =>
             k1 <- rotated_index c (part_A d1) rot ;;
             k2 <- rotated_index c (part_A d2) rot ;;
             add_both dim ham coupling threshold k1 k2) ham (zrange 0 4).

(** what the dynamic part needs beside the determinant *)
Record dynamics : Type := mkDyn {
  y_conf : configuration;
  y_neighbor : basis;
  y_sur : surroundings;
  y_full : configuration;
  y_single : bool;
  y_threshold : Qc;
  y_energy : Qc;
  y_gs : vect;
  y_dim : Z
}.

(** embedding.py:607-719: one neighbouring site, for one determinant of each block *)
Definition dynamic_site (E : runtime) (I : interactions) (y : dynamics) (pA pB : configuration) (dA : det) (spin new_spin : Z) (det_B : det)
    (st : coo * memory) (new_site : Z) : res (coo * memory) :=
  let '(ham, mem) := st in
  let c := y_conf y in
  let cn := b_conf (y_neighbor y) in
  let new_site := new_site - nsites c in
  s <- get_spin_site cn det_B new_site ;;
  if negb (s =? new_spin) then Ok st else
  dB <- perturb E cn pB det_B new_site new_spin spin ;;
  iA <- compute_hash_table pA dA ;;
  iB <- compute_hash_table pB dB ;;
  m <- remember mem (get_id pA, get_id pB) (iA, iB) ;;
  match m with
  | None => Ok st
  | Some mem =>
    perturbator <- extend_determinant E pA pB dA dB ;;
    e_pert <- compute_energy E (y_full y) I perturbator ;;
    l <- coupled E I cn pA pB (y_sur y) dA dB perturbator ;;
    ham <- foldM (add_coupling c (y_single y) (y_threshold y) (y_energy y) e_pert (y_gs y) (y_dim y)) ham (pairs_of l) ;;
    Ok (ham, mem)
  end.

(** embedding.py:557-719: one exchange of a site of the frontier *)
Definition dynamic_exchange (E : runtime) (I : interactions) (y : dynamics) (det_A : det) (site spin : Z) (st : coo * memory) (new_spin : Z) : res (coo * memory) :=
  let c := y_conf y in
  let cn := b_conf (y_neighbor y) in
  if count_of cn new_spin <=? 0 then Ok st else
  pA <- perturbed_A c spin new_spin ;;
  pB <- perturbed_B c cn spin new_spin ;;
  dA <- perturb E c pA det_A site spin new_spin ;;
  near <- get_neighbors E site (bond_matrix (u_conf (y_sur y))) (RList (u_frontier_B (y_sur y))) ;;
  far <- get_second_neighbors E site (bond_matrix (u_conf (y_sur y))) (RList (u_frontier_B (y_sur y))) ;;
  foldM (fun st det_B => foldM (dynamic_site E I y pA pB dA spin new_spin det_B) st (near ++ far)) st (determinants (y_neighbor y)).

(** embedding.py:528-719: the dynamic part for one determinant *)
Definition dynamic_part (E : runtime) (I : interactions) (y : dynamics) (ham : coo) (det_A : det) : res coo :=
  let c := y_conf y in
  st <- foldM (fun st site =>
                 spin <- get_spin_site c det_A site ;;
                 foldM (dynamic_exchange E I y det_A site spin) st (filter (fun s => negb (s =? spin)) [-1; 0; 1]))
              (ham, empty_memory c) (u_frontier_A (y_sur y)) ;;
  Ok (fst st).

(** embedding.py:475-721: the dressed Hamiltonian; [b] is the basis of the block *)
Definition dress_blocks (E : runtime) (I : interactions) (b : basis) (dynamic : bool) (y : dynamics) (pB : list (Z * list Qc)) (ham : coo) : res coo :=
  foldM (fun ham p =>
           v <- unit_column (nb_conf (b_conf b)) (fst p) ;;
           pA <- get_spins_probabilitites_lattice b v false ;;
           intr <- frontier_energy I (u_bonds (y_sur y)) (u_diagonals (y_sur y)) pA pB (nsites (b_conf b)) (u_frontier_A (y_sur y)) ;;
           ham <- add_static (b_conf b) (y_single y) (y_dim y) ham intr (fst p) (snd p) ;;
           if dynamic then dynamic_part E I y ham (snd p) else Ok ham) ham (enumerate (determinants b)).

(** the parameters of embedding_blocks (embedding.py:341) *)
Record block_options : Type := mkOptions { o_dynamic : bool; o_neel : bool; o_neighbor : bool; o_threshold : Qc; o_reverse : bool }.

(** embedding.py:475-749, one diagonalisation in the field of the neighbour.  Without eigenvalues the loop [while True] never
    ends: the same computation is made again. *)
Definition block_turn (E : runtime) (N : numerics) (I : interactions) (g : diagonalization) (o : block_options) (b nb : basis)
    (u : surroundings) (full : configuration) (ham : csr) (first gs : vect) (energy : Qc) : res (csr * eigenstates) :=
  pB <- get_spins_probabilitites_lattice b gs (o_reverse o) ;;
  h <- dress_blocks E I b (o_dynamic o) (mkDyn (b_conf b) nb u full (o_neighbor o) (o_threshold o) energy gs (csr_dim ham)) pB (csr_entries ham) ;;
  h <- coo_to_csr (csr_dim ham) h ;;
  r <- modified_davidson_algorithm N (csr_dense h) 1 [first] (g_stp g) (g_tol g) (g_dim_max g) ;;
  let '(_, vals, vects) := r in
  match vals with
  | [] => Err OutOfFuel
  | _ => Ok (h, mkEig vals [] vects)
  end.

(** embedding.py:468-766, the self-consistent loop; [None] when the turns are used up *)
Fixpoint block_loop (E : runtime) (N : numerics) (I : interactions) (g : diagonalization) (o : block_options) (sc_tol : Qc) (b nb : basis)
    (u : surroundings) (full : configuration) (ham : csr) (first : vect) (turns : nat) (gs : vect) (energy : Qc) (last : option eigenstates)
    : res (option (csr * eigenstates)) :=
  match turns with
  | O => match last with Some _ => Ok None | None => Err NameError end
  | S turns =>
    r <- block_turn E N I g o b nb u full ham first gs energy ;;
    new <- first_column (e_vects (snd r)) ;;
    energy <- py_get (e_vals (snd r)) 0 ;;
    stop <- settled N new gs sc_tol ;;
    if stop : bool then Ok (Some r) else block_loop E N I g o sc_tol b nb u full ham first turns new energy (Some (snd r))
  end.

(** embedding.py:793-813 *)
Definition blocks_name (c : configuration) (s : switches) (o : block_options) : string :=
  let head := append "tJHam" (append (if o_dynamic o then "-dyn" else "") (append (if o_neel o then "-neel" else "") (if o_neighbor o then "-neigh" else ""))) in
  let head := append head (append "-" (append (str_of_int (nsites c)) (append (str_of_int (nalpha c)) (str_of_int (nbeta c))))) in
  append "Embedding_blocks/"
    (if all_on s then append head "Full.json"
     else append (fold_left (fun name p => match extension (fst p) with
                                           | Some ext => append name ext
                                           | None => name
                                           end) (dir_switches s) head) ".json").

(** embedding.py:341-766 up to the last save *)
Definition embedded_blocks (E : runtime) (N : numerics) (fs : files) (d : data) (sc_tol : Qc) (max_iter : Z) (o : block_options)
    : res (option data_computations) :=
  let c := d_conf d in
  let name := embedding_name c (s_of (d_bools d)) in
  dc <- load_data fs (if o_neel o then append "Peripheral_embedding/" name else name) ;;
  let b := mkBasis c (dc_dets dc) in
  gs <- first_column (e_vects (dc_eig dc)) ;;
  energy <- py_get (e_vals (dc_eig dc)) 0 ;;
  nb <- neighbor_basis E b (o_reverse o) ;;
  p <- block_surroundings E c (b_conf nb) ;;
  r <- block_loop E N (d_inter d) (d_diag d) o sc_tol b nb (fst p) (snd p) (dc_ham dc) gs (Z.to_nat max_iter) gs energy None ;;
  Ok (option_map (fun r => mkDC d (dc_dets dc) (fst r) (snd r) None) r).

(** embedding.py:341-766 *)
Definition embedding_blocks (E : runtime) (N : numerics) (fs : files) (d : data) (sc_tol : Qc) (max_iter : Z) (o : block_options)
    : files * res (option data_computations) :=
  match embedded_blocks E N fs d sc_tol max_iter o with
  | Err e => (fs, Err e)
  | Ok None => (fs, Ok None)
  | Ok (Some dc) =>
    let '(fs, r) := save_embedded fs (blocks_name (d_conf d) (s_of (d_bools d)) o) dc in
    (fs, r <- r ;; Ok (Some r))
  end.
