(** The arithmetic of the probabilities of /repo/baseConstruction.py with rounded operations (see [Round]). *)
From Coq Require Import ZArith List Bool QArith Qcanon.
From Verif Require Import PyBase Lattice Base Interact Spin Prob Ham Round.
Import ListNotations.
Open Scope Z_scope.

(** [x / y] of numpy floats, rounded; division by zero is an error as in [Prob.fdiv] *)
Definition fdiv_fl (F : floats) (x y : Qc) : res Qc := if qeqb y 0 then Err ZeroDivisionError else Ok (fl F (x / y)%Qc).

(** baseConstruction.py:681-683; the product with the truth value 0 or 1 is exact *)
Definition proba_site_fl (F : floats) (b : basis) (vect : list Qc) (spin site : Z) : res Qc :=
  foldM (fun acc p =>
           x <- py_get vect (fst p) ;;
           s <- get_spin_site (b_conf b) (snd p) site ;;
           Ok (fl F (acc + fl F (qabs x * qabs x) * (if (s =? spin)%Z then 1 else 0)))%Qc)
        0%Qc (enumerate (determinants b)).

(** baseConstruction.py:656-685; [norm] is [np.linalg.norm] *)
Definition get_probability_spin_lattice_fl (F : floats) (norm : list Qc -> Qc) (b : basis) (vect : list Qc) (spin : Z) (reverse_spins : bool) : res (list Qc) :=
  if bad_spin spin then Err ValueError else
  let spin := if reverse_spins then - spin else spin in
  mapM (fun site => p <- proba_site_fl F b vect spin site ;; fdiv_fl F p (fl F (norm vect * norm vect))%Qc) (zrange 0 (nsites (b_conf b))).

(** baseConstruction.py:688-703 *)
Definition get_spins_probabilitites_lattice_fl (F : floats) (norm : list Qc -> Qc) (b : basis) (vect : list Qc) (reverse_spins : bool) : res (list (Z * list Qc)) :=
  mapM (fun spin => p <- get_probability_spin_lattice_fl F norm b vect spin reverse_spins ;; Ok (spin, p)) [-1; 0; 1].

(** baseConstruction.py:706-736, as [Prob.get_probability_spin_rectangular_lattice] *)
Definition get_probability_spin_rectangular_lattice_fl (F : floats) (norm : list Qc -> Qc) (b : basis) (vect : list Qc) (spin : Z) : res (list (list Qc)) :=
  if bad_spin spin then Err ValueError else
  let c := b_conf b in
  match lattice_type c with
  | Periodic =>
    let rows := nblocs_side c * nbv c in
    let cols := nblocs_side c * nbh c in
    mapM (fun r =>
            mapM (fun ind_h =>
                    let ind_site := (rows - 1 - r) * nblocs_side c * nbh c + ind_h in
                    proba_sites <- get_probability_spin_lattice_fl F norm b vect spin false ;;
                    p <- py_get proba_sites ind_site ;;
                    fdiv_fl F p (fl F (norm vect * norm vect))%Qc)
                 (zrange 0 cols))
         (zrange 0 rows)
  | _ => Err ValueError
  end.
