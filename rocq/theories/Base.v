(** Model of /repo/baseConstruction.py (lattice, basis, determinants, hash functions) *)
From Coq Require Import ZArith List Bool.
From Verif Require Import PyBase Lattice.
Import ListNotations.
Open Scope Z_scope.

Inductive ltype : Type := Periodic | Clusters | Peripheral.

(** A determinant lists holes, then spins down, then spins up (baseConstruction.py:77-78). *)
Notation det := (list Z) (only parsing).

(** baseConstruction.py:11-50.  [spin_number] is [compute_ms2], [doping] is not stored. *)
Record configuration : Type := mkConf {
  bond_matrix : mat;
  nsites : Z;
  nholes : Z;
  nbeta : Z;
  nalpha : Z;
  nb_conf : Z;
  sites_restriction : restriction;
  lattice_type : ltype;
  nbh : Z;
  nbv : Z;
  nblocs_side : Z
}.

(** baseConstruction.py:15-50.  The division of line 36 raises ZeroDivisionError on an empty
    lattice.  [lattice_type] is already one of the three accepted strings, so the ValueError of
    line 47 does not arise.  A nested list as restriction is rejected here with TypeError
    (Python stores it and raises at the first use). *)
Definition make_configuration (bm : mat) (holes beta : Z) (r : restriction) (lt : ltype)
    (h v s : Z) : res configuration :=
  let n := mrows bm in
  if n =? 0 then Err ZeroDivisionError else
  r' <- (if restr_falsy r then Ok (RTuple (zrange 0 n) (zrange 0 n))
         else match r with
              | RTuple a b => Ok (RTuple a b)
              | RList l => Ok (RTuple l l)
              | RNested _ => Err TypeError
              end) ;;
  Ok (mkConf bm n holes beta (n - holes - beta)
        (compute_dimension n (n - holes - beta) beta) r' lt h v s).

(** baseConstruction.py:69-81 *)
Record basis : Type := mkBasis {
  b_conf : configuration;
  determinants : list det
}.

(** baseConstruction.py:85-123 *)
Definition construct_basis (c : configuration) : res basis :=
  if nholes c <? 0 then Err ValueError else
  holes_l <- py_combinations (zrange 0 (nsites c)) (nholes c) ;;
  dets <- concatM (fun sites_holes =>
            sites_electrons <- foldM (fun l x => py_remove l x) (zrange 0 (nsites c)) sites_holes ;;
            beta_l <- py_combinations sites_electrons (nbeta c) ;;
            mapM (fun sites_beta =>
                    sites_alpha <- foldM (fun l x => py_remove l x) sites_electrons sites_beta ;;
                    Ok (sites_holes ++ sites_beta ++ sites_alpha))
                 beta_l)
          holes_l ;;
  Ok (mkBasis c dets).

(** baseConstruction.py:201-220 *)
Definition reorder_basis_element (c : configuration) (vect : det) : det :=
  zsort (py_slice vect 0 (nholes c))
  ++ zsort (py_slice vect (nholes c) (nholes c + nbeta c))
  ++ zsort (py_slice_from vect (nholes c + nbeta c)).

(** baseConstruction.py:819-830 *)
Definition project_hash (list_h list_b : list Z) : list Z :=
  map (fun elt_b => zsum (map (fun elt_h => if elt_h <=? elt_b then 1 else 0) list_h)) list_b.

(** baseConstruction.py:832-856 *)
Definition get_distance_hash (n : Z) (list_h list_b : list Z) : res Z :=
  match list_b with
  | [] => Ok 0
  | _ :: _ =>
    let nb := zlen list_b in
    let list_bh := project_hash list_h list_b in
    let list_b1 := map (fun p => fst p - snd p) (combine list_b list_bh) in
    let free := n - zlen list_h in
    b0 <- py_get list_b1 0 ;;
    let dist0 := zsum (map (fun ind => comb (free - ind - 1) (nb - 1)) (zrange 0 b0)) in
    foldM (fun dist ind_i =>
             prev <- py_get list_b1 (ind_i - 1) ;;
             cur <- py_get list_b1 ind_i ;;
             Ok (dist + zsum (map (fun ind_j => comb (free - ind_j - 1) (nb - ind_i - 1))
                                  (zrange (prev + 1) cur))))
          dist0 (zrange 1 nb)
  end.

(** baseConstruction.py:858-875 *)
Definition compute_hash_table (c : configuration) (d : det) : res Z :=
  let list_h := py_slice d 0 (nholes c) in
  let list_b := py_slice d (nholes c) (nholes c + nbeta c) in
  dh <- get_distance_hash (nsites c) [] list_h ;;
  db <- get_distance_hash (nsites c) list_h list_b ;;
  Ok (dh * comb (nsites c - nholes c) (nbeta c) + db).

(** baseConstruction.py:125-135 *)
Definition get_index_in_basis (c : configuration) (d : det) : res Z :=
  compute_hash_table c (reorder_basis_element c d).

(** inner loop of baseConstruction.py:901-902: the first [rank], going down, that can be increased *)
Fixpoint target_rank (fuel : nat) (n : Z) (list_b : list Z) (rank : Z) : res Z :=
  match fuel with
  | O => Err OutOfFuel
  | S fuel' =>
    x <- py_get list_b rank ;;
    if n + rank - x =? 0 then target_rank fuel' n list_b (rank - 1) else Ok rank
  end.

(** outer loop of baseConstruction.py:890-906 *)
Fixpoint target_loop (fuel : nat) (n : Z) (list_b : list Z) (ind_temp : Z) : res (list Z) :=
  if ind_temp <=? 0 then Ok list_b else
  match fuel with
  | O => Err OutOfFuel
  | S fuel' =>
    last <- py_get list_b (-1) ;;
    let rest := n - 1 - last in
    if 0 <? rest then
      if ind_temp <=? rest then
        list_b <- py_set list_b (-1) (last + ind_temp) ;;
        target_loop fuel' n list_b 0
      else
        list_b <- py_set list_b (-1) (n + -1) ;;
        target_loop fuel' n list_b (ind_temp - rest)
    else
      rank <- target_rank (length list_b + 1) n list_b (-1) ;;
      x <- py_get list_b rank ;;
      list_b <- py_set list_b rank (x + 1) ;;
      list_b <- foldM (fun l ind_j => y <- py_get l (ind_j - 1) ;; py_set l ind_j (y + 1))
                      list_b (zrange (rank + 1) 0) ;;
      target_loop fuel' n list_b (ind_temp - 1)
  end.

(** baseConstruction.py:877-907 *)
Definition get_target_hash (n size ind : Z) : res (list Z) :=
  let list_b := zrange 0 size in
  if negb (size =? 0) then target_loop (Z.to_nat ind + 1) n list_b ind else Ok list_b.

(** baseConstruction.py:909-926 *)
Definition fusion_hash (list_h list_b : list Z) : list Z :=
  list_h ++
  map (fun elt_b => fold_left (fun e elt_h => e + (if elt_h <=? e then 1 else 0)) list_h elt_b) list_b.

(** baseConstruction.py:928-951 *)
Definition get_hash_basis (holes alpha beta ind : Z) : res det :=
  let n := holes + alpha + beta in
  let k := comb (n - holes) beta in
  if k =? 0 then Err ZeroDivisionError else
  let index_h := ind / k in
  let index_b := ind mod k in
  list_h <- get_target_hash n holes index_h ;;
  list_b <- get_target_hash (n - holes) beta index_b ;;
  let list_hb := fusion_hash list_h list_b in
  list_a <- foldM (fun l x => py_remove l x) (zrange 0 n) list_hb ;;
  Ok (list_hb ++ list_a).

(** baseConstruction.py:173-199; [target] is 0 or 1 *)
Definition get_indexes_of (E : runtime) (c : configuration) (d : det) (spin target : Z) : res (list Z) :=
  let group :=
    if spin =? 0 then Some (py_slice d 0 (nholes c))
    else if spin =? -1 then Some (py_slice d (nholes c) (nholes c + nbeta c))
    else if spin =? 1 then Some (py_slice_from d (nholes c + nbeta c))
    else None in
  match group with
  | None => Err ValueError
  | Some g =>
    r <- match sites_restriction c with
         | RTuple a b => Ok (if target =? 0 then a else b)
         | RList l => Ok l
         | RNested [] => Ok []
         | RNested _ => Err TypeError
         end ;;
    Ok (py_set_and E g r)
  end.

(** baseConstruction.py:222-243 *)
Definition extend_determinant (E : runtime) (c1 c2 : configuration) (d1 d2 : det) : res det :=
  let n1 := nsites c1 in
  h1 <- get_indexes_of E c1 d1 0 0 ;;
  h2 <- get_indexes_of E c2 d2 0 0 ;;
  b1 <- get_indexes_of E c1 d1 (-1) 0 ;;
  b2 <- get_indexes_of E c2 d2 (-1) 0 ;;
  a1 <- get_indexes_of E c1 d1 1 0 ;;
  a2 <- get_indexes_of E c2 d2 1 0 ;;
  Ok ((h1 ++ map (fun s => s + n1) h2) ++ (b1 ++ map (fun s => s + n1) b2)
      ++ (a1 ++ map (fun s => s + n1) a2)).

(** baseConstruction.py:245-266 *)
Definition reverse_spins (E : runtime) (c : configuration) (d : det) : res (configuration * det) :=
  c' <- make_configuration (bond_matrix c) (nholes c) (nalpha c) (sites_restriction c)
          (lattice_type c) (nbh c) (nbv c) (nblocs_side c) ;;
  h <- get_indexes_of E c d 0 0 ;;
  a <- get_indexes_of E c d 1 0 ;;
  b <- get_indexes_of E c d (-1) 0 ;;
  Ok (c', reorder_basis_element c' (h ++ a ++ b)).

(** baseConstruction.py:137-149 *)
Definition reverse_spins_basis (E : runtime) (b : basis) : res basis :=
  d0 <- py_get (determinants b) 0 ;;
  '(c', _) <- reverse_spins E (b_conf b) d0 ;;
  dets <- mapM (fun d => '(_, d') <- reverse_spins E (b_conf b) d ;; Ok d') (determinants b) ;;
  Ok (mkBasis c' dets).

(** baseConstruction.py:151-168; the vector entries are of an arbitrary type with a zero *)
Definition reverse_spins_vect {A} (zero : A) (E : runtime) (b : basis) (vect : list A) : res (list A) :=
  foldM (fun vect_flip p =>
           let '(ind, d) := p in
           '(c', d') <- reverse_spins E (b_conf b) d ;;
           ind' <- get_index_in_basis c' d' ;;
           x <- py_get vect ind ;;
           py_set vect_flip ind' x)
        (map (fun _ => zero) vect) (enumerate (determinants b)).

(** baseConstruction.py:271-289; the value is doubled: 0, -1 or 1 for 0, -1/2, 1/2 *)
Definition get_spin_site (c : configuration) (d : det) (site : Z) : res Z :=
  i <- py_index d site ;;
  Ok (if i <? nholes c then 0 else if i <? nholes c + nbeta c then -1 else 1).

(** baseConstruction.py:303-318: the checks and the choice of the middle site;
    returns (site_1, site_2, site_3) *)
Definition bond_middle (bm : mat) (s1 s2 s3 : Z) : res (Z * Z * Z) :=
  if (s1 =? s2) || (s1 =? s3) || (s2 =? s3) then Err ValueError else
  b12 <- mget bm s1 s2 ;;
  b13 <- mget bm s1 s3 ;;
  b23 <- mget bm s2 s3 ;;
  if (b12 =? 0) && (b13 =? 0) then Err ValueError else
  if (b12 =? 0) && (b23 =? 0) then Err ValueError else
  if (b13 =? 0) && (b23 =? 0) then Err ValueError else
  let sites := [s1; s2; s3] in
  mids <- filterM (fun s => bs <- mapM (fun o => mget bm s o) sites ;; Ok (zsum bs =? 2)) sites ;;
  m <- py_get mids 0 ;;
  match filter (fun s => negb (s =? m)) sites with
  | [a; b] => Ok (Z.min a b, m, Z.max a b)
  | _ => Err ValueError
  end.

(** baseConstruction.py:322-325 *)
Definition linear_periodic (t1 t2 t3 : Z) : bool := Z.abs (t3 - t2) =? Z.abs (t2 - t1).

Definition rentry_is01 (r : rentry) : bool := match r with ROther => false | _ => true end.
Definition rentry_is1 (r : rentry) : bool := match r with ROne => true | _ => false end.

(** baseConstruction.py:385-399: acceptance test of one candidate matrix.  The row by row scan of
    lines 386-393 reaches [ind_row == nsites] exactly when all entries round to 0 or 1. *)
Definition is_permutation_candidate (n : Z) (T : Z -> Z -> rentry) : bool :=
  rentry_is1 (T 0 0)
  && forallb (fun r => forallb (fun col => rentry_is01 (T r col)) (zrange 0 n)) (zrange 0 n).

(** baseConstruction.py:380-399: number of the candidate kept when the loop stops; the last one
    tried when none is accepted.  [fuel] is the number of candidates left to try. *)
Fixpoint search_candidate (fuel : nat) (n : Z) (T : Z -> Z -> Z -> rentry) (k : Z) : Z :=
  match fuel with
  | O => k - 1
  | S fuel' => if is_permutation_candidate n (T k) then k else search_candidate fuel' n T (k + 1)
  end.

(** baseConstruction.py:401-403 *)
Definition new_site (n : Z) (T : Z -> Z -> rentry) (s : Z) : res Z :=
  py_get (filter (fun row => rentry_is1 (T row s)) (zrange 0 n)) 0.

(** baseConstruction.py:291-405.  The calls of lines 336 and 405 on a row-major copy of the configuration
    (lines 333-335, 357-359) are written out: checks on the rectangular matrix, then the row-major rule. *)
Definition is_bond_linear (E : runtime) (c : configuration) (s1 s2 s3 : Z) : res bool :=
  '(t1, t2, t3) <- bond_middle (bond_matrix c) s1 s2 s3 ;;
  match lattice_type c with
  | Periodic => Ok (linear_periodic t1 t2 t3)
  | Peripheral =>
    let h := nbh c in let v := nbv c in let s := nblocs_side c in
    let n := h * v * (s ^ 2) in
    if (t1 <? n) && (t2 <? n) && (t3 <? n) then
      bm <- build_rectangular_bond_matrix h v s ;;
      '(u1, u2, u3) <- bond_middle bm t1 t2 t3 ;;
      Ok (linear_periodic u1 u2 u3)
    else if (n <=? t1) && (n <=? t2) && (n <=? t3) then Ok true
    else if zlen (filter (fun x => n <=? x) [t1; t2; t3]) =? 2 then Ok false
    else
      let vertical := ((n <=? t3) && (t3 <? n + h * s))
                      || ((n + (h + v) * s <=? t3) && (t3 <? n + (2 * h + v) * s)) in
      if Z.abs (t2 - t1) =? 1 then Ok (negb vertical) else Ok vertical
  | Clusters =>
    bmP <- build_rectangular_bond_matrix (nbh c) (nbv c) (nblocs_side c) ;;
    let n := nsites c in
    let k := search_candidate (Z.to_nat (2 ^ n)) n (transfer E (bond_matrix c) bmP) 0 in
    let T := transfer E (bond_matrix c) bmP k in
    n1 <- new_site n T t1 ;;
    n2 <- new_site n T t2 ;;
    n3 <- new_site n T t3 ;;
    '(u1, u2, u3) <- bond_middle bmP n1 n2 n3 ;;
    Ok (linear_periodic u1 u2 u3)
  end.

(** latticeFunctions.py:291-312 (needs is_bond_linear) *)
Definition get_diagonal_second_neighbors (E : runtime) (c : configuration) (site : Z) : res (list Z) :=
  let bm := bond_matrix c in
  neighbors <- get_neighbors E site bm (RList []) ;;
  let non_second := site :: neighbors in
  diag <- foldM (fun acc neigh =>
            ns <- get_neighbors E neigh bm (sites_restriction c) ;;
            foldM (fun acc sec =>
                     if mem sec acc then Ok acc else
                     lin <- is_bond_linear E c site neigh sec ;;
                     Ok (if lin : bool then acc else acc ++ [sec]))
                  acc (py_set_diff E ns non_second))
          [] neighbors ;;
  Ok (py_set_list E diag).

(** baseConstruction.py:789-814 *)
Definition rotate_determinant (nb_rot : Z) (c : configuration) (d : det) : det :=
  let h := nbh c in let v := nbv c in let s := nblocs_side c in
  let n := h * v * (s ^ 2) in
  if nb_rot mod 4 =? 1 then
    reorder_basis_element c
      (map (fun site => h * s * (v * s - 1 - site mod (h * s)) + site / (h * s)) d)
  else if nb_rot mod 4 =? 2 then
    reorder_basis_element c (map (fun site => n - 1 - site) d)
  else if nb_rot mod 4 =? 3 then
    reorder_basis_element c
      (map (fun site => (site mod (h * s)) * v * s + h * s - 1 - site / (h * s)) d)
  else d.
