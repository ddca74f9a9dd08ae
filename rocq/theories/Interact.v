(** Model of /repo/interactions.py (interactions on determinants) *)
From Coq Require Import ZArith List Bool QArith Qcanon.
From Verif Require Import PyBase Lattice Base.
Import ListNotations.
Open Scope Z_scope.

(** an integer as a float *)
Definition qz (z : Z) : Qc := Q2Qc (inject_Z z).
(** the fraction [a / b] as a float *)
Definition qfrac (a : Z) (b : positive) : Qc := Q2Qc (a # b)%Q.

(** interactions.py:13-40 *)
Record interactions : Type := mkInter {
  i_t : Qc; i_J : Qc; i_Jhpar : Qc; i_Jhper : Qc; i_hSDpar : Qc; i_hSDper : Qc;
  i_tNNN : Qc; i_tnNNN : Qc; i_VNN : Qc; i_VNNNper : Qc
}.

(** [temp[i], temp[j] = temp[j], temp[i]] *)
Definition swap_at (d : det) (i j : Z) : res det :=
  x <- py_get d j ;;
  y <- py_get d i ;;
  d <- py_set d i x ;;
  py_set d j y.

(** interactions.py:47-75 *)
Definition compute_hopping_integral (E : runtime) (c : configuration) (d : det) : res (list det) :=
  if 0 <? nholes c then
    sites_holes <- get_indexes_of E c d 0 0 ;;
    concatM (fun site_hole =>
      hole_neighbors <- get_neighbors E site_hole (bond_matrix c) (sites_restriction c) ;;
      concatM (fun neighbor =>
        if mem neighbor sites_holes then Ok [] else
        ind_hole <- py_index d site_hole ;;
        ind_neighbor <- py_index d neighbor ;;
        temp <- swap_at d ind_hole ind_neighbor ;;
        Ok [reorder_basis_element c temp])
        hole_neighbors)
      sites_holes
  else Ok [].

(** membership of a pair in a list of pairs *)
Definition pair_mem (p : Z * Z) (l : list (Z * Z)) : bool :=
  existsb (fun q => (fst p =? fst q) && (snd p =? snd q)) l.

(** state of the loops of compute_next_hopping_integral:
    next_neighbors_jump_sites, images_col, images_ortho *)
Definition nh_state : Type := (list (Z * Z) * list det * list det)%type.

(** interactions.py:133-146 *)
Definition next_hop_step (E : runtime) (c : configuration) (d : det) (site_hole neighbor : Z)
    (st : nh_state) (elec : Z) : res nh_state :=
  let '(seen, col, ortho) := st in
  ind_hole <- py_index d site_hole ;;
  ind_elec <- py_index d elec ;;
  if pair_mem (site_hole, elec) seen then Ok st else
  temp <- py_set d ind_hole elec ;;
  temp <- py_set temp ind_elec site_hole ;;
  lin <- is_bond_linear E c elec neighbor site_hole ;;
  let seen := seen ++ [(site_hole, elec)] in
  Ok (if lin : bool then (seen, col ++ [reorder_basis_element c temp], ortho)
      else (seen, col, ortho ++ [reorder_basis_element c temp])).

(** interactions.py:101-147; returns (images_col, images_ortho) *)
Definition compute_next_hopping_integral (E : runtime) (c : configuration) (d : det)
  : res (list det * list det) :=
  if 0 <? nholes c then
    sites_holes <- get_indexes_of E c d 0 0 ;;
    '(_, col, ortho) <-
      foldM (fun st site_hole =>
        neighbors <- get_neighbors E site_hole (bond_matrix c) (RList []) ;;
        foldM (fun st neighbor =>
          ups <- get_indexes_of E c d 1 1 ;;
          downs <- get_indexes_of E c d (-1) 1 ;;
          next <- get_neighbors E neighbor (bond_matrix c) (sites_restriction c) ;;
          foldM (next_hop_step E c d site_hole neighbor) st (py_set_and E (ups ++ downs) next))
          st neighbors)
      (([], [], []) : nh_state) sites_holes ;;
    Ok (col, ortho)
  else Ok ([], []).

(** class of a bond: interactions.py:215-224 and 283-293 *)
Inductive bond_class : Type := Par | Per | Undoped.

Definition class_coupling (I : interactions) (k : bond_class) : Qc :=
  match k with Par => i_Jhpar I | Per => i_Jhper I | Undoped => i_J I end.

(** interactions.py:206-224: which coupling is used.  Line 219 reads
    [a or (b and no aligned hole)]; Python evaluates the second list only when [a] is empty. *)
Definition static_class (E : runtime) (c : configuration) (d : det) (ind_0 ind_1 : Z) : res bond_class :=
  n0 <- get_neighbors E ind_0 (bond_matrix c) (RList []) ;;
  n1 <- get_neighbors E ind_1 (bond_matrix c) (RList []) ;;
  let ind_neigh_0 := filter (fun x => negb (x =? ind_1)) n0 in
  let ind_neigh_1 := filter (fun x => negb (x =? ind_0)) n1 in
  holes <- get_indexes_of E c d 0 0 ;;
  let hole_0 := py_set_and E ind_neigh_0 holes in
  let hole_1 := py_set_and E ind_neigh_1 holes in
  let ne0 := negb (zlen hole_0 =? 0) in
  let ne1 := negb (zlen hole_1 =? 0) in
  if ne0 || ne1 then
    lins <- mapM (fun h => is_bond_linear E c ind_1 ind_0 h) (hole_0 ++ hole_1) ;;
    if existsb (fun b => b) lins then Ok Par
    else if ne0 || (ne1 && negb (existsb (fun b => b) lins)) then Ok Per
    else Ok Undoped
  else Ok Undoped.

(** interactions.py:179-225.  [spin_0 * spin_1] is a quarter of the product of the doubled spins. *)
Definition compute_static_spin_interaction (E : runtime) (c : configuration) (I : interactions) (d : det)
  : res Qc :=
  bond_list <- build_bond_list E (bond_matrix c) (sites_restriction c) ;;
  foldM (fun sz bond =>
    let '(b0, b1) := bond in
    spin_0 <- get_spin_site c d b0 ;;
    spin_1 <- get_spin_site c d b1 ;;
    if negb (spin_0 * spin_1 =? 0) then
      k <- static_class E c d (Z.min b0 b1) (Z.max b0 b1) ;;
      Ok (sz + class_coupling I k * (qfrac (spin_0 * spin_1) 4 - qfrac 1 4))%Qc
    else Ok sz)
    (qz 0) bond_list.

(** interactions.py:274-293: which list receives the image *)
Definition flip_class (E : runtime) (c : configuration) (d : det) (ind_0 ind_1 : Z) : res bond_class :=
  n0 <- get_neighbors E ind_0 (bond_matrix c) (RList []) ;;
  n1 <- get_neighbors E ind_1 (bond_matrix c) (RList []) ;;
  holes <- get_indexes_of E c d 0 0 ;;
  let hole_0 := py_set_and E n0 holes in
  let hole_1 := py_set_and E n1 holes in
  let ne := negb (zlen hole_0 =? 0) || negb (zlen hole_1 =? 0) in
  if ne && mem (ind_1 - ind_0) (map (fun h => Z.abs (ind_0 - h)) hole_0
                                ++ map (fun h => Z.abs (ind_1 - h)) hole_1)
  then Ok Par
  else if ne then Ok Per
  else Ok Undoped.

(** interactions.py:245-294; returns (images_par, images_per, images_undoped) *)
Definition compute_spin_flip (E : runtime) (c : configuration) (d : det)
  : res (list det * list det * list det) :=
  bond_list <- build_bond_list E (bond_matrix c) (sites_restriction c) ;;
  foldM (fun st bond =>
    let '(par, per, undoped) := st in
    let '(b0, b1) := bond in
    spin_0 <- get_spin_site c d b0 ;;
    spin_1 <- get_spin_site c d b1 ;;
    if spin_0 * spin_1 =? -1 then
      i0 <- py_index d b0 ;;
      i1 <- py_index d b1 ;;
      temp <- swap_at d i0 i1 ;;
      k <- flip_class E c d (Z.min b0 b1) (Z.max b0 b1) ;;
      let im := reorder_basis_element c temp in
      Ok match k with
         | Par => (par ++ [im], per, undoped)
         | Per => (par, per ++ [im], undoped)
         | Undoped => (par, per, undoped ++ [im])
         end
    else Ok st)
    ([], [], []) bond_list.

(** interactions.py:364-382 *)
Definition singlet_step (E : runtime) (c : configuration) (d : det) (site_hole site_neigh : Z)
    (st : list (det * det) * list (det * det)) (site_next : Z)
  : res (list (det * det) * list (det * det)) :=
  let '(par, per) := st in
  ind_hole <- py_index d site_hole ;;
  ind_neigh <- py_index d site_neigh ;;
  ind_next <- py_index d site_next ;;
  temp_1 <- py_set d ind_hole site_next ;;
  temp_1 <- py_set temp_1 ind_neigh site_hole ;;
  temp_1 <- py_set temp_1 ind_next site_neigh ;;
  temp_2 <- py_set d ind_hole site_next ;;
  temp_2 <- py_set temp_2 ind_neigh site_neigh ;;
  temp_2 <- py_set temp_2 ind_next site_hole ;;
  lin <- is_bond_linear E c site_next site_neigh site_hole ;;
  let im := (reorder_basis_element c temp_1, reorder_basis_element c temp_2) in
  Ok (if lin : bool then (par ++ [im], per) else (par, per ++ [im])).

(** interactions.py:330-383; returns (images_par, images_per) *)
Definition compute_singlet_displacement (E : runtime) (c : configuration) (d : det)
  : res (list (det * det) * list (det * det)) :=
  sites_holes <- get_indexes_of E c d 0 0 ;;
  foldM (fun st site_hole =>
    sites_neigh <- get_neighbors E site_hole (bond_matrix c) (sites_restriction c) ;;
    ups <- get_indexes_of E c d 1 1 ;;
    downs <- get_indexes_of E c d (-1) 1 ;;
    foldM (fun st site_neigh =>
      spin_site <- get_spin_site c d site_neigh ;;
      site_next_neigh <- get_neighbors E site_neigh (bond_matrix c) (sites_restriction c) ;;
      opp <- get_indexes_of E c d (- spin_site) 1 ;;
      foldM (singlet_step E c d site_hole site_neigh) st (py_set_and E opp site_next_neigh))
      st (py_set_and E (ups ++ downs) sites_neigh))
    ([], []) sites_holes.

(** interactions.py:415-447 *)
Definition compute_hole_repulsion (E : runtime) (c : configuration) (I : interactions) (d : det) : res Qc :=
  if 1 <? nholes c then
    sites_holes <- get_indexes_of E c d 0 0 ;;
    '(bonds, next_bonds) <-
      foldM (fun st p =>
        let '(bonds, next_bonds) := st in
        let '(ind_hole, site_hole) := p in
        neigh <- get_neighbors E site_hole (bond_matrix c) (sites_restriction c) ;;
        let neighboring := py_set_and E neigh (py_slice_from sites_holes ind_hole) in
        dg <- get_diagonal_second_neighbors E c site_hole ;;
        let diagonal := py_set_and E dg (py_slice_from sites_holes ind_hole) in
        Ok (bonds ++ map (fun x => (site_hole, x)) neighboring,
            next_bonds ++ map (fun x => (site_hole, x)) diagonal))
      ([], []) (enumerate (py_slice sites_holes 0 (-1))) ;;
    Ok (qz (zlen bonds) * i_VNN I + qz (zlen next_bonds) * i_VNNNper I)%Qc
  else Ok (qz 0).

(** interactions.py:468-481 *)
Definition compute_energy (E : runtime) (c : configuration) (I : interactions) (d : det) : res Qc :=
  sz <- compute_static_spin_interaction E c I d ;;
  v <- compute_hole_repulsion E c I d ;;
  Ok (sz + v)%Qc.

(** initialComputations.py:20-41 (the switches read by the Hamiltonian) *)
Record switches : Type := mkSwitches {
  s_bt : bool; s_bz : bool; s_bij : bool; s_bSD : bool; s_btN : bool; s_bV : bool
}.

(** dictionary with determinants as keys: [d[key] = x] or [d[key] += x] (interactions.py:534-537) *)
Fixpoint dict_add (dict : list (det * Qc)) (key : det) (x : Qc) : list (det * Qc) :=
  match dict with
  | [] => [(key, x)]
  | (k, v) :: dict' => if zlist_eqb k key then (k, (v + x)%Qc) :: dict' else (k, v) :: dict_add dict' key x
  end.

(** interactions.py:485-553 *)
Definition compute_dynamic_interactions (E : runtime) (c : configuration) (I : interactions) (S : switches)
    (d : det) : res (list (det * Qc)) :=
  ev_t <- (if s_bt S then l <- compute_hopping_integral E c d ;; Ok [(l, i_t I)] else Ok []) ;;
  ev_tN <- (if s_btN S then '(col, ortho) <- compute_next_hopping_integral E c d ;;
                            Ok [(col, i_tnNNN I); (ortho, i_tNNN I)] else Ok []) ;;
  ev_J <- (if s_bij S then '(par, per, und) <- compute_spin_flip E c d ;;
                           Ok [(par, i_Jhpar I); (per, i_Jhper I); (und, i_J I)] else Ok []) ;;
  ev_SD <- (if s_bSD S then '(par, per) <- compute_singlet_displacement E c d ;;
                            Ok [(par, i_hSDpar I); (per, i_hSDper I)] else Ok []) ;;
  let dict := fold_left (fun dict ev => fold_left (fun dict k => dict_add dict k (snd ev)) (fst ev) dict)
                        (ev_t ++ ev_tN ++ ev_J) [] in
  Ok (fold_left (fun dict ev =>
        fold_left (fun dict pm => dict_add (dict_add dict (fst pm) (snd ev)) (snd pm) (- snd ev)%Qc)
                  (fst ev) dict)
        ev_SD dict).
