(** Model of the spin operators of /repo/interactions.py.
    A vector is the list of its [nb_conf] amplitudes (numpy shape (nb_conf,) or (nb_conf, 1)). *)
From Coq Require Import ZArith List Bool String QArith Qcanon Qround.
From Verif Require Import PyBase Lattice Base Interact.
Import ListNotations.
Open Scope Z_scope.

(** [x * v] *)
Definition vscale (x : Qc) (v : list Qc) : list Qc := map (fun y => (x * y)%Qc) v.
(** [u + v] on equal lengths *)
Definition vadd (u v : list Qc) : list Qc := map (fun p => (fst p + snd p)%Qc) (combine u v).
(** [np.dot(u.T, v)] on equal lengths *)
Definition vdot (u v : list Qc) : Qc := fold_right (fun p a => (fst p * snd p + a)%Qc) 0%Qc (combine u v).
(** [np.zeros(v.shape)] *)
Definition vzeros (v : list Qc) : list Qc := map (fun _ => 0%Qc) v.
(** [v[i] += x] *)
Definition vplus_at (v : list Qc) (i : Z) (x : Qc) : res (list Qc) :=
  y <- py_get v i ;; py_set v i (y + x)%Qc.

(** interactions.py:559-574 *)
Definition compute_spin_z (c : configuration) (vect : list Qc) : Qc * list Qc :=
  let sz := (qz (nalpha c - nbeta c) / qz 2)%Qc in (sz, vscale sz vect).

(** interactions.py:576-588; get_spin_site of the model is doubled *)
Definition compute_spins_z_two_bodies_det (c : configuration) (d : det) (site_i site_j : Z) : res Qc :=
  a <- get_spin_site c d site_i ;;
  b <- get_spin_site c d site_j ;;
  Ok ((qz a / qz 2) * (qz b / qz 2))%Qc.

(** interactions.py:590-606; the copy is of floats already, so the assignment of dtype changes nothing *)
Definition compute_spins_z_two_bodies (c : configuration) (vect : list Qc) (site_i site_j : Z) : res (list Qc) :=
  foldM (fun vect_return ind =>
           x <- py_get vect ind ;;
           d <- get_hash_basis (nholes c) (nalpha c) (nbeta c) ind ;;
           s <- compute_spins_z_two_bodies_det c d site_i site_j ;;
           py_set vect_return ind (x * s)%Qc)
        vect (zrange 0 (nb_conf c)).

(** interactions.py:608-637; [None] when nothing is returned *)
Definition compute_S_plus_S_minus_det (E : runtime) (c : configuration) (d : det) (site_plus site_minus : Z) : res (option det) :=
  list_alpha <- get_indexes_of E c d 1 0 ;;
  list_beta <- get_indexes_of E c d (-1) 0 ;;
  if mem site_plus list_beta then
    if mem site_minus list_alpha then
      alpha <- py_remove list_alpha site_minus ;;
      beta <- py_remove list_beta site_plus ;;
      holes <- get_indexes_of E c d 0 0 ;;
      Ok (Some (holes ++ zsort (beta ++ [site_minus]) ++ zsort (alpha ++ [site_plus])))
    else Ok None
  else Ok None.

(** interactions.py:639-656; [None] and the empty list are both false *)
Definition compute_S_plus_S_minus (E : runtime) (c : configuration) (vect : list Qc) (site_plus site_minus : Z) : res (list Qc) :=
  foldM (fun vect_return ind =>
           d <- get_hash_basis (nholes c) (nalpha c) (nbeta c) ind ;;
           o <- compute_S_plus_S_minus_det E c d site_plus site_minus ;;
           match o with
           | Some (x :: l) =>
             i <- compute_hash_table c (x :: l) ;;
             y <- py_get vect ind ;;
             vplus_at vect_return i y
           | _ => Ok vect_return
           end)
        (vzeros vect) (zrange 0 (nb_conf c)).

(** interactions.py:671: the factor in front of the vector *)
Definition s2_constant (c : configuration) : Qc :=
  let na := qz (nalpha c) in let nb := qz (nbeta c) in
  (qfrac 3 4 * (na + nb) + (na * (na - 1) / qz 2 + nb * (nb - 1) / qz 2 - na * nb) / qz 2)%Qc.

(** interactions.py:658-676 *)
Definition compute_S2 (E : runtime) (c : configuration) (vect : list Qc) : res (list Qc) :=
  foldM (fun vect_return site_0 =>
    foldM (fun vect_return site_1 =>
             a <- compute_S_plus_S_minus E c vect site_0 site_1 ;;
             b <- compute_S_plus_S_minus E c vect site_1 site_0 ;;
             Ok (vadd vect_return (vadd a b)))
          vect_return (zrange (site_0 + 1) (nsites c)))
    (vscale (s2_constant c) vect) (zrange 0 (nsites c - 1)).

(** interactions.py:678-695; [lin.norm(vect)**2] is the sum of the squares *)
Definition compute_S2_exp_val (E : runtime) (c : configuration) (vect : list Qc) : res Qc :=
  let norm2 := vdot vect vect in
  if Qc_eq_dec norm2 0 then Ok 0%Qc else
  vect_return <- compute_S2 E c vect ;;
  Ok (vdot vect vect_return / norm2)%Qc.

(** [round(x, 0)]: nearest integer, the even one in the middle *)
Definition round0 (x : Qc) : Z :=
  let f := Qfloor x in
  let r := (x - qz f)%Qc in
  if Qclt_le_dec r (qfrac 1 2) then f
  else if Qc_eq_dec r (qfrac 1 2) then (if Z.even f then f else f + 1) else f + 1.

(** interactions.py:697-718.  [roots x] are the two numbers numpy finds for [np.roots([1, 1, -x])];
    complex ones are not modelled.  [None] stands for the string "-". *)
Definition compute_spin_number (E : runtime) (roots : Qc -> Qc * Qc) (c : configuration) (vect : list Qc) : res (option Qc) :=
  match compute_S2_exp_val E c vect with
  | Ok expval =>
    let '(s1, s2) := roots expval in
    if Qclt_le_dec s1 0 then Ok (Some (qz (round0 (qz 2 * s2)%Qc) / qz 2)%Qc)
    else Ok (Some (qz (round0 (qz 2 * s1)%Qc) / qz 2)%Qc)
  | Err IndexError => Ok None
  | Err e => Err e
  end.

(** interactions.py:720-743; [None] as result when no branch returns *)
Definition compute_spin_multiplicity (spin_number : option Qc) : option string :=
  match spin_number with
  | None => Some "-"%string
  | Some s =>
    let mult := (qz 2 * s + 1)%Qc in
    if Qc_eq_dec mult (qz 1) then Some "singlet"%string
    else if Qc_eq_dec mult (qz 2) then Some "doublet"%string
    else if Qc_eq_dec mult (qz 3) then Some "triplet"%string
    else if Qc_eq_dec mult (qz 4) then Some "quartet"%string
    else if Qc_eq_dec mult (qz 5) then Some "quintet"%string
    else if Qclt_le_dec (qz 5) mult then Some "multiplet"%string
    else None
  end.
