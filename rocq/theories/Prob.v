(** Model of the probabilities and of the dominant determinants: /repo/baseConstruction.py 656-770
    and /repo/initialComputations.py 316-336.
    A vector is the list of its amplitudes (numpy shape (n, 1) in baseConstruction.py, (n,) in
    initialComputations.py).  Amplitudes are real. *)
From Coq Require Import ZArith List Bool QArith Qcanon.
From Verif Require Import PyBase Lattice Base Interact Spin.
Import ListNotations.
Open Scope Z_scope.

(** [x <= y], [x == y] and [abs(x)] on floats *)
Definition qleb (x y : Qc) : bool := Qle_bool x y.
Definition qeqb (x y : Qc) : bool := Qeq_bool x y.
Definition qabs (x : Qc) : Qc := if qleb 0 x then x else (- x)%Qc.

(** [x / y] of numpy floats.  Division by zero, which gives nan or inf in numpy, is an error here. *)
Definition fdiv (x y : Qc) : res Qc := if qeqb y 0 then Err ZeroDivisionError else Ok (x / y)%Qc.

(** [np.linalg.norm(vect) ** 2], without the rounding of the square root *)
Definition norm_square (v : list Qc) : Qc := vdot v v.

(** the test [spin not in (-1, 0, 1)] *)
Definition bad_spin (spin : Z) : bool := negb (mem spin [-1; 0; 1]).

(** baseConstruction.py:681-683, the loop on the determinants for one site; get_spin_site of the
    model is doubled, so it is compared with [spin] *)
Definition proba_site (b : basis) (vect : list Qc) (spin site : Z) : res Qc :=
  foldM (fun acc p =>
           x <- py_get vect (fst p) ;;
           s <- get_spin_site (b_conf b) (snd p) site ;;
           Ok (acc + qabs x * qabs x * (if (s =? spin)%Z then 1 else 0))%Qc)
        0%Qc (enumerate (determinants b)).

(** baseConstruction.py:656-685 *)
Definition get_probability_spin_lattice (b : basis) (vect : list Qc) (spin : Z) (reverse_spins : bool) : res (list Qc) :=
  if bad_spin spin then Err ValueError else
  let spin := if reverse_spins then - spin else spin in
  mapM (fun site => p <- proba_site b vect spin site ;; fdiv p (norm_square vect)) (zrange 0 (nsites (b_conf b))).

(** baseConstruction.py:688-703; the dict as the list of its items in insertion order *)
Definition get_spins_probabilitites_lattice (b : basis) (vect : list Qc) (reverse_spins : bool) : res (list (Z * list Qc)) :=
  mapM (fun spin => p <- get_probability_spin_lattice b vect spin reverse_spins ;; Ok (spin, p)) [-1; 0; 1].

(** [dict[key]] *)
Fixpoint dict_get {A} (d : list (Z * A)) (k : Z) : res A :=
  match d with
  | [] => Err KeyError
  | (k', a) :: d' => if (k' =? k)%Z then Ok a else dict_get d' k
  end.

(** baseConstruction.py:706-736; the array is the list of its rows.  The loop writes every entry once;
    here the rows are built in the order of the array, row [r] from [ind_v = rows - 1 - r]. *)
Definition get_probability_spin_rectangular_lattice (b : basis) (vect : list Qc) (spin : Z) : res (list (list Qc)) :=
  if bad_spin spin then Err ValueError else
  let c := b_conf b in
  match lattice_type c with
  | Periodic =>
    let rows := nblocs_side c * nbv c in
    let cols := nblocs_side c * nbh c in
    mapM (fun r =>
            mapM (fun ind_h =>
                    let ind_site := (rows - 1 - r) * nblocs_side c * nbh c + ind_h in
                    proba_sites <- get_probability_spin_lattice b vect spin false ;;
                    p <- py_get proba_sites ind_site ;;
                    fdiv p (norm_square vect))
                 (zrange 0 cols))
         (zrange 0 rows)
  | _ => Err ValueError
  end.

(** [sorted(l)] on floats *)
Fixpoint qinsert (x : Qc) (l : list Qc) : list Qc :=
  match l with
  | [] => [x]
  | y :: l' => if qleb x y then x :: l else y :: qinsert x l'
  end.
Fixpoint qsort (l : list Qc) : list Qc :=
  match l with
  | [] => []
  | x :: l' => qinsert x (qsort l')
  end.
(** [l.index(x)] on floats *)
Fixpoint qindex (l : list Qc) (x : Qc) : res Z :=
  match l with
  | [] => Err ValueError
  | y :: l' => if qeqb y x then Ok 0 else i <- qindex l' x ;; Ok (i + 1)
  end.

(** baseConstruction.py:739-770; [sorted(l, reverse=True)] of numbers is the reverse of [sorted(l)].
    The two returned lists are given as one list of pairs. *)
Definition get_dominant_determinants (b : basis) (vect : list Qc) (ndet : Z) : res (list (Qc * det)) :=
  let c := b_conf b in
  let abs_vect := map qabs vect in
  let sorted_abs := py_slice (rev (qsort abs_vect)) 0 (Z.min ndet (zlen vect)) in
  mapM (fun a =>
          i <- qindex abs_vect a ;;
          x <- py_get vect i ;;
          d <- get_hash_basis (nholes c) (nalpha c) (nbeta c) i ;;
          Ok (x, d))
       sorted_abs.

(** initialComputations.py:331-333, the while loop *)
Fixpoint next_index (fuel : nat) (amplitudes : list Qc) (amplitude : Qc) (memory : list Z) (index : Z) : res Z :=
  match fuel with
  | O => Err OutOfFuel
  | S f =>
    a <- py_get amplitudes index ;;
    if negb (qeqb a amplitude) || mem index memory then next_index f amplitudes amplitude memory (index + 1)
    else Ok index
  end.

(** initialComputations.py:316-336; the dict as the list of its items in insertion order (its keys
    start with an index that is not used before, so no item is overwritten).  The while loop has fuel
    for one turn more than there are amplitudes. *)
Definition get_most_dominant_determinants (dets : list det) (vect : list Qc) (nb_det : Z) : res (list ((Z * Qc) * det)) :=
  let amplitudes := map qabs vect in
  st <- foldM (fun st amplitude =>
                 let '(memory, items) := st in
                 index <- next_index (S (length vect)) amplitudes amplitude memory 0 ;;
                 x <- py_get vect index ;;
                 d <- py_get dets index ;;
                 Ok (memory ++ [index], items ++ [((index, x), d)]))
              ([], []) (py_slice (rev (qsort amplitudes)) 0 nb_det) ;;
  Ok (snd st).
