(** The arithmetic of the spin operators of /repo/interactions.py with rounded operations (see [Round]). *)
From Coq Require Import ZArith List Bool QArith Qcanon Qround.
From Verif Require Import PyBase Lattice Base Interact Spin Ham Round.
Import ListNotations.
Open Scope Z_scope.

(** [x * v], [u + v] and [v[i] += x], rounded *)
Definition vscale_fl (F : floats) (x : Qc) (v : list Qc) : list Qc := map (fun y => fl F (x * y)%Qc) v.
Definition vadd_fl (F : floats) (u v : list Qc) : list Qc := map (fun p => fl F (fst p + snd p)%Qc) (combine u v).
Definition vplus_at_fl (F : floats) (v : list Qc) (i : Z) (x : Qc) : res (list Qc) :=
  y <- py_get v i ;; py_set v i (fl F (y + x)%Qc).
(** [np.dot(u.T, v)]: rounded products, added one after the other in the order of [F] *)
Definition vdot_fl (F : floats) (u v : list Qc) : Qc := add_all F (add_order F (map (fun p => fl F (fst p * snd p)%Qc) (combine u v))).

(** interactions.py:639-656 *)
Definition compute_S_plus_S_minus_fl (F : floats) (E : runtime) (c : configuration) (vect : list Qc) (site_plus site_minus : Z) : res (list Qc) :=
  foldM (fun vect_return ind =>
           d <- get_hash_basis (nholes c) (nalpha c) (nbeta c) ind ;;
           o <- compute_S_plus_S_minus_det E c d site_plus site_minus ;;
           match o with
           | Some (x :: l) =>
             i <- compute_hash_table c (x :: l) ;;
             y <- py_get vect ind ;;
             vplus_at_fl F vect_return i y
           | _ => Ok vect_return
           end)
        (vzeros vect) (zrange 0 (nb_conf c)).

(** interactions.py:658-676.  The factor of line 671 is computed from integers by halvings and sums: it is a multiple of 1/4, exact in
    floats below 2^50, and not rounded here. *)
Definition compute_S2_fl (F : floats) (E : runtime) (c : configuration) (vect : list Qc) : res (list Qc) :=
  foldM (fun vect_return site_0 =>
    foldM (fun vect_return site_1 =>
             a <- compute_S_plus_S_minus_fl F E c vect site_0 site_1 ;;
             b <- compute_S_plus_S_minus_fl F E c vect site_1 site_0 ;;
             Ok (vadd_fl F vect_return (vadd_fl F a b)))
          vect_return (zrange (site_0 + 1) (nsites c)))
    (vscale_fl F (s2_constant c) vect) (zrange 0 (nsites c - 1)).

(** interactions.py:678-695; [norm] is [lin.norm] *)
Definition compute_S2_exp_val_fl (F : floats) (norm : list Qc -> Qc) (E : runtime) (c : configuration) (vect : list Qc) : res Qc :=
  if Qc_eq_dec (norm vect) 0 then Ok 0%Qc else
  vect_return <- compute_S2_fl F E c vect ;;
  Ok (fl F (vdot_fl F vect vect_return / fl F (norm vect * norm vect))%Qc).

(** interactions.py:697-718, as [Spin.compute_spin_number]; doubling and halving are not rounded *)
Definition compute_spin_number_fl (F : floats) (norm : list Qc -> Qc) (E : runtime) (roots : Qc -> Qc * Qc) (c : configuration) (vect : list Qc) : res (option Qc) :=
  match compute_S2_exp_val_fl F norm E c vect with
  | Ok expval =>
    let '(s1, s2) := roots expval in
    if Qclt_le_dec s1 0 then Ok (Some (qz (round0 (qz 2 * s2)%Qc) / qz 2)%Qc)
    else Ok (Some (qz (round0 (qz 2 * s1)%Qc) / qz 2)%Qc)
  | Err IndexError => Ok None
  | Err e => Err e
  end.
