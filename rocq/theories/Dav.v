(** Model of /repo/davidson.py.
    A matrix is the list of its columns, except the matrix [A] to be diagonalised, which is the list of
    its rows.  Arithmetic is exact.  lin.eigh, lin.qr and lin.norm are not modelled: they are the fields
    of [numerics], any functions.  The class Eigenstates is the pair (eigvals, eigvects); its field
    [spins] is [] in every function here.  Printing is left out. *)
From Coq Require Import ZArith List Bool QArith Qcanon.
From Verif Require Import PyBase Lattice Base Interact Spin Prob.
Import ListNotations.
Open Scope Z_scope.

Notation vect := (list Qc) (only parsing).
Notation cols := (list (list Qc)) (only parsing).

(** numpy.linalg: [eigh m] gives values and columns, [qr dim m] the factor Q of the matrix [m] of [dim] rows *)
Record numerics : Type := mkNumerics {
  eigh : cols -> list Qc * cols;
  qr : nat -> cols -> cols;
  norm : vect -> Qc
}.

(** [u - v] *)
Definition vsub (u v : vect) : vect := vadd u (vscale (- (1))%Qc v).
(** [np.zeros(dim)] *)
Definition zero_vect (dim : nat) : vect := repeat 0%Qc dim.
(** [A.dot(x)] *)
Definition mat_vect (A : list vect) (x : vect) : vect := map (fun row => vdot row x) A.
(** [np.matmul(V.T, W)] *)
Definition gram (V W : cols) : cols := map (fun w => map (fun v => vdot v w) V) W.
(** [np.dot(V, y)] for a matrix [V] of [dim] rows *)
Definition mix (dim : nat) (V : cols) (y : vect) : vect :=
  fold_right (fun p acc => vadd (vscale (fst p) (snd p)) acc) (zero_vect dim) (combine y V).
(** [A.diagonal()] *)
Definition mat_diagonal (A : list vect) : vect := map (fun p => nth (fst p) (snd p) 0%Qc) (combine (seq 0 (length A)) A).

(** removes repetitions of a sorted list: [sorted(list(set(l)))] when [l] is sorted *)
Fixpoint distinct_sorted (l : list Qc) : list Qc :=
  match l with
  | [] => []
  | x :: l' => match l' with
               | [] => [x]
               | y :: _ => if qeqb x y then distinct_sorted l' else x :: distinct_sorted l'
               end
  end.

(** davidson.py:101-120 *)
Definition get_lowests_eig (eigvals : list Qc) (eigvects : cols) (nb_eig : Z) : res (list Qc * cols) :=
  let sorted_eigvals := py_slice (qsort eigvals) 0 nb_eig in
  let val_sorted := distinct_sorted sorted_eigvals in
  let sorted_indexes :=
    fold_left (fun acc val =>
                 let val_indices := map fst (filter (fun p => qeqb (snd p) val) (enumerate eigvals)) in
                 acc ++ py_slice val_indices 0 (Z.min (zlen val_indices) (nb_eig - zlen acc)))
              val_sorted [] in
  vects <- mapM (fun i => py_get eigvects i) sorted_indexes ;;
  Ok (sorted_eigvals, vects).

(** davidson.py:143-145: the projections out of the columns *)
Definition project_out (us : cols) (x : vect) : vect :=
  fold_left (fun x u => vsub x (vscale (vdot u x) u)) us x.

(** davidson.py:140-148, the loop [while True]; max_orth is 2 *)
Fixpoint orthogonalise (N : numerics) (fuel : nat) (eta : Qc) (us : cols) (x : vect) (ind_k : Z) : res vect :=
  match fuel with
  | O => Err OutOfFuel
  | S f =>
    let old := norm N x in
    let x' := project_out us x in
    let ind_k' := ind_k + 1 in
    if (ind_k' =? 2 - 1) || negb (qleb (norm N x') (eta * old)) then Ok x'
    else orthogonalise N f eta us x' ind_k'
  end.

(** davidson.py:122-153; the argument dim_max is not used.  [[:, -b:]] with [b = 0] is [[:, 0:]]. *)
Definition get_meaningful_corrections (N : numerics) (krylov_basis temp_corrections : cols) (droptol eta : Qc) (nu : Z) : res cols :=
  st <- foldM (fun st corr =>
                 let '(corrections, block_size_new) := st in
                 x <- py_get temp_corrections corr ;;
                 x <- orthogonalise N 2 eta corrections x 0 ;;
                 if qleb (norm N x) droptol then Ok (corrections, block_size_new)
                 else
                   correction <- mapM (fun e => fdiv e (norm N x)) x ;;
                   Ok (corrections ++ [correction], block_size_new + 1))
              (krylov_basis, 0) (zrange 0 nu) ;;
  Ok (py_slice_from (fst st) (- (snd st))).

(** [m[:, i], m[:, j] = m[:, j], m[:, i]]: the right-hand side is a pair of views *)
Definition swap_views (m : cols) (i j : Z) : res cols :=
  x <- py_get m j ;;
  m <- py_set m i x ;;
  y <- py_get m i ;;
  py_set m j y.

(** the residues: davidson.py:196-198 and 268-270 *)
Definition residues_of (A : list vect) (mat_w : cols) (eigvals_temp : list Qc) (eigvects_temp ritz_vectors : cols) (nb : Z) : res cols :=
  mapM (fun col =>
          x <- py_get eigvals_temp col ;;
          u <- py_get ritz_vectors col ;;
          y <- py_get eigvects_temp col ;;
          Ok (vsub (vscale x u) (mix (length A) mat_w y)))
       (zrange 0 nb).

(** the deflation, davidson.py:202-208; nbc is 0 whenever it is read *)
Definition deflate (eigvals_temp : list Qc) (conv_residues : list bool) (nb_found nb_val : Z)
    (eigvals : list Qc) (eigvects ritz_vectors : cols) : res (list Qc * cols * cols) :=
  foldM (fun st p =>
           let '(eigvals, eigvects, ritz_vectors) := st in
           let '(col, res_ind) := p in
           let nbc := 0 in
           if res_ind && (nb_found <? nb_val) then
             x <- py_get eigvals_temp col ;;
             u <- py_get ritz_vectors col ;;
             eigvects <- py_set eigvects (nb_found + nbc) u ;;
             ritz_vectors <- swap_views ritz_vectors col nbc ;;
             Ok (eigvals ++ [x], eigvects, ritz_vectors)
           else Ok (eigvals, eigvects, ritz_vectors))
        (eigvals, eigvects, ritz_vectors) (enumerate conv_residues).

(** [sum(l)] of booleans *)
Definition count_true (l : list bool) : Z := zlen (filter (fun b => b) l).

(** state of modified_davidson_algorithm_opt between two iterations *)
Record opt_state : Type := mkOpt {
  o_found : Z;
  o_eigvals : list Qc;
  o_eigvects : cols;
  o_krylov : cols
}.
(** one iteration either returns or goes on *)
Inductive opt_out : Type := ODone (r : list Qc * cols) | ONext (s : opt_state).

(** davidson.py:186-226, one iteration.  A singular matrix (LinAlgError) is a ValueError. *)
Definition opt_step (N : numerics) (A : list vect) (nb_val nu_0 : Z) (tol droptol eta : Qc) (dim_max : Z) (s : opt_state) : res opt_out :=
  let dim := length A in
  let mat_w := map (mat_vect A) (o_krylov s) in
  let mat_rayleigh := gram (o_krylov s) mat_w in
  let nu := Z.min (zlen mat_rayleigh) (nu_0 - o_found s) in
  let '(vals, ys) := eigh N mat_rayleigh in
  low <- get_lowests_eig vals ys nu ;;
  let '(eigvals_temp, eigvects_temp) := low in
  let ritz_vectors := map (mix dim (o_krylov s)) eigvects_temp in
  residues <- residues_of A mat_w eigvals_temp eigvects_temp ritz_vectors nu ;;
  let conv_residues := map (fun r => qleb (norm N r) tol) residues in
  let nc := count_true conv_residues in
  d <- deflate eigvals_temp conv_residues (o_found s) nb_val (o_eigvals s) (o_eigvects s) ritz_vectors ;;
  let '(eigvals, eigvects, ritz_vectors) := d in
  let nb_found := o_found s + nc in
  if nb_val <=? nb_found then Ok (ODone (eigvals, eigvects)) else
  temp_corrections <- mapM (fun ind =>
      if ind <? nc then Ok (zero_vect dim) else
      x <- py_get eigvals_temp ind ;;
      r <- py_get residues ind ;;
      mapM (fun p => if qeqb (fst p) x then Err ValueError else Ok (snd p / (fst p - x))%Qc) (combine (mat_diagonal A) r))
    (zrange 0 nu) ;;
  corrections <- get_meaningful_corrections N (o_krylov s) temp_corrections droptol eta nu ;;
  let block_size_new := zlen corrections in
  let krylov :=
    if (dim_max - block_size_new <? Z.of_nat dim) || negb (nc =? 0) || (block_size_new =? 0)
    then qr N dim (py_slice_from ritz_vectors nc ++ corrections)
    else qr N dim (o_krylov s ++ corrections) in
  Ok (ONext (mkOpt nb_found eigvals eigvects krylov)).

(** davidson.py:185-227 *)
Fixpoint opt_loop (N : numerics) (A : list vect) (nb_val nu_0 : Z) (tol droptol eta : Qc) (dim_max : Z) (stp : nat) (s : opt_state) : res (list Qc * cols) :=
  match stp with
  | O => Ok (o_eigvals s, o_eigvects s)
  | S stp' =>
    o <- opt_step N A nb_val nu_0 tol droptol eta dim_max s ;;
    match o with
    | ODone r => Ok r
    | ONext s' => opt_loop N A nb_val nu_0 tol droptol eta dim_max stp' s'
    end
  end.

(** davidson.py:156-227; [guess] is [np.random.rand(dim, block_size)] *)
Definition modified_davidson_algorithm_opt (N : numerics) (A : list vect) (nb_val init_block_size : Z) (guess : cols) (stp : Z)
    (tol droptol eta : Qc) (dim_max : Z) : res (list Qc * cols) :=
  let dim := length A in
  let dim_max := if dim_max =? 0 then Z.of_nat dim else dim_max in
  let nu_0 := Z.max init_block_size nb_val in
  opt_loop N A nb_val nu_0 tol droptol eta dim_max (Z.to_nat stp)
    (mkOpt 0 [] (repeat (zero_vect dim) (Z.to_nat nb_val)) (qr N dim guess)).

(** one iteration of modified_davidson_algorithm: converged, or the next basis, with the current eigenpairs *)
Inductive dav_out : Type := Converged (vals : list Qc) (vects : cols) | Continue (vals : list Qc) (vects : cols) (krylov : cols).

(** davidson.py:259-288, one iteration *)
Definition dav_step (N : numerics) (A : list vect) (nb_val : Z) (tol : Qc) (dim_max : Z) (krylov_basis : cols) : res dav_out :=
  let dim := length A in
  let mat_w := map (mat_vect A) krylov_basis in
  let mat_rayleigh := gram krylov_basis mat_w in
  let '(vals, ys) := eigh N mat_rayleigh in
  low <- get_lowests_eig vals ys nb_val ;;
  let '(eigvals_temp, eigvects_temp) := low in
  let ritz_vectors := map (mix dim krylov_basis) eigvects_temp in
  residues <- residues_of A mat_w eigvals_temp eigvects_temp ritz_vectors nb_val ;;
  if forallb (fun r => qleb (norm N r) tol) residues then Ok (Converged eigvals_temp ritz_vectors) else
  corrections <- mapM (fun ind =>
      x <- py_get eigvals_temp ind ;;
      r <- py_get residues ind ;;
      mapM (fun p => f <- fdiv 1 (fst p - x)%Qc ;; Ok (f * snd p)%Qc) (combine (mat_diagonal A) r))
    (zrange 0 nb_val) ;;
  Ok (Continue eigvals_temp ritz_vectors
        (if dim_max - nb_val <? Z.of_nat dim then qr N dim (ritz_vectors ++ corrections)
         else qr N dim (krylov_basis ++ corrections))).

(** davidson.py:258-290; the boolean tells the return inside the loop from the one after it.
    Without any iteration the last line reads unbound variables (UnboundLocalError, a NameError). *)
Fixpoint dav_loop (N : numerics) (A : list vect) (nb_val : Z) (tol : Qc) (dim_max : Z) (stp : nat)
    (last : option (list Qc * cols)) (krylov_basis : cols) : res (bool * list Qc * cols) :=
  match stp with
  | O => match last with
         | Some (vals, vects) => Ok (false, vals, vects)
         | None => Err NameError
         end
  | S stp' =>
    o <- dav_step N A nb_val tol dim_max krylov_basis ;;
    match o with
    | Converged vals vects => Ok (true, vals, vects)
    | Continue vals vects krylov => dav_loop N A nb_val tol dim_max stp' (Some (vals, vects)) krylov
    end
  end.

(** davidson.py:244-256: the parameters and the first basis; a missing guess is a random one, any guess here *)
Definition dav_dim_max (A : list vect) (dim_max : Z) : Z := if dim_max =? 0 then zlen A else dim_max.
Definition dav_first (N : numerics) (A : list vect) (nb_val : Z) (guess : cols) : cols :=
  if 1 <? nb_val then qr N (length A) guess else guess.

(** davidson.py:229-290 *)
Definition modified_davidson_algorithm (N : numerics) (A : list vect) (nb_val : Z) (guess : cols) (stp : Z) (tol : Qc) (dim_max : Z) : res (bool * list Qc * cols) :=
  let dim_max := dav_dim_max A dim_max in
  let nb_val := Z.min nb_val dim_max in
  dav_loop N A nb_val tol dim_max (Z.to_nat stp) None (dav_first N A nb_val guess).

(** [round(x, prec)] *)
Definition round_to (x : Qc) (prec : Z) : Qc :=
  let p := qz (10 ^ (Z.abs prec)) in
  if prec <? 0 then (qz (round0 (x / p)) * p)%Qc else (qz (round0 (x * p)) / p)%Qc.

(** davidson.py:62-71 and 80-89: the lowest pair of the projected matrix, its vector and its residue *)
Definition lowest_pair (N : numerics) (A : list vect) (V : cols) : res (Qc * vect * vect) :=
  let H := gram V (map (mat_vect A) V) in
  let '(vals, ys) := eigh N H in
  match qsort vals with
  | [] => Err ValueError
  | m :: _ =>
    i <- qindex vals m ;;
    y <- py_get ys i ;;
    let u := mix (length A) V y in
    Ok (m, u, vsub (mat_vect A u) (vscale m u))
  end.

(** davidson.py:79-96: at most [stp] turns of the for loop *)
Inductive inner_out : Type := Returned (l : Qc) (u : vect) | Fell (l : Qc) (u r : vect) (V : cols).
Fixpoint inner_loop (N : numerics) (A : list vect) (tol : Qc) (prec : Z) (stp : nat) (l : Qc) (u r : vect) (V : cols) : res inner_out :=
  match stp with
  | O => Ok (Fell l u r V)
  | S stp' =>
    p <- lowest_pair N A V ;;
    let '(l, u, r) := p in
    if negb (qleb tol (norm N r)) then Ok (Returned (round_to l prec) u)
    else inner_loop N A tol prec stp' l u r (qr N (length A) (V ++ [r]))
  end.

(** davidson.py:78-98: the while loop; the number of its turns is not bounded in the program *)
Fixpoint outer_loop (N : numerics) (A : list vect) (tol : Qc) (prec : Z) (stp : nat) (fuel : nat) (l : Qc) (u r : vect) (V : cols) : res (Qc * vect) :=
  match fuel with
  | O => Err OutOfFuel
  | S fuel' =>
    if negb (qleb (norm N r) tol) then
      o <- inner_loop N A tol prec stp l u r V ;;
      match o with
      | Returned l u => Ok (l, u)
      | Fell l u r V => outer_loop N A tol prec stp fuel' l u r V
      end
    else Ok (round_to l prec, u)
  end.

(** davidson.py:50-98; [v0] is the random vector.  A singular diagonal matrix (LinAlgError) is a ValueError. *)
Definition davidson_algorithm (N : numerics) (A : list vect) (stp : Z) (tol : Qc) (prec : Z) (v0 : vect) (fuel : nat) : res (Qc * vect) :=
  p <- lowest_pair N A [v0] ;;
  let '(l, u, r) := p in
  if negb (qleb tol (norm N r)) then Ok (l, u) else
  t <- mapM (fun p => if qeqb (fst p) l then Err ValueError else Ok (snd p / (fst p - l))%Qc) (combine (mat_diagonal A) r) ;;
  outer_loop N A tol prec (Z.to_nat stp) fuel l u r (qr N (length A) [v0; t]).

(** davidson.py:320-322: the projections out of the previous columns *)
Definition gs_reduce (prev : cols) (v : vect) : res vect :=
  foldM (fun v p => f <- fdiv (vdot v p) (vdot p p) ;; Ok (vsub v (vscale f p))) v prev.

(** davidson.py:307-324; [dim] is the number of rows.  The columns that the loop does not reach stay zero. *)
Definition gramSchmidt (N : numerics) (dim : nat) (V : cols) : res cols :=
  v0 <- py_get V 0 ;;
  a0 <- mapM (fun e => fdiv e (norm N v0)) v0 ;;
  done <- foldM (fun done col =>
                   v <- py_get V col ;;
                   w <- gs_reduce done v ;;
                   a <- mapM (fun e => fdiv e (norm N w)) w ;;
                   Ok (done ++ [a]))
                [a0] (zrange 1 (Z.of_nat dim)) ;;
  Ok (done ++ repeat (zero_vect dim) (length V - length done)).
