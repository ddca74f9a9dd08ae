(** Vocabulary of the statements on runs and result files.  Used in statements only. *)
From Coq Require Import ZArith String List Bool QArith Qcanon.
From Verif Require Import PyBase Lattice Base Interact Ham Spin Prob Dav Spec SpecTJ DavDefs Files.
Import ListNotations.
Open Scope Z_scope.

(** The numbers of electrons fit in the lattice. *)
Definition counts (c : configuration) : Prop := 0 <= nalpha c /\ 0 <= nbeta c /\ nalpha c + nbeta c <= nsites c.
Definition same_counts (c c' : configuration) : Prop := nsites c = nsites c' /\ nalpha c = nalpha c' /\ nbeta c = nbeta c'.

(** The switches other than the static one. *)
Definition same_five (s s' : switches) : Prop :=
  s_bt s = s_bt s' /\ s_bij s = s_bij s' /\ s_bSD s = s_bSD s' /\ s_btN s = s_btN s' /\ s_bV s = s_bV s'.
Definition five_on (s : switches) : Prop :=
  s_bt s = true /\ s_bij s = true /\ s_bSD s = true /\ s_btN s = true /\ s_bV s = true.

(** Configurations as the constructor makes them, on a square matrix of bonds. *)
Definition made (c : configuration) : Prop :=
  mrows (bond_matrix c) = mcols (bond_matrix c) /\ 0 <= mrows (bond_matrix c) /\
  exists h b r lt x y s, make_configuration (bond_matrix c) h b r lt x y s = Ok c.

(** Matrices of bonds with the same entries. *)
Definition same_matrix (m m' : mat) : Prop :=
  mrows m = mrows m' /\ mcols m = mcols m' /\
  forall i j, 0 <= i < mrows m -> 0 <= j < mcols m -> mat_at m i j = mat_at m' i j.

(** The same lattice and the same particles. *)
Definition same_system (c c' : configuration) : Prop :=
  same_matrix (bond_matrix c) (bond_matrix c') /\ same_counts c c' /\ nholes c = nholes c' /\ nb_conf c = nb_conf c' /\
  nbh c = nbh c' /\ nbv c = nbv c' /\ nblocs_side c = nblocs_side c'.

(** A sparse matrix of the given size. *)
Definition shaped (n : Z) (m : csr) : Prop :=
  csr_dim m = n /\ forall x i j, In (x, i, j) (csr_entries m) -> 0 <= i < n /\ 0 <= j < n.

(** The results of a run. *)
Definition complete (dc : data_computations) : Prop :=
  let c := d_conf (dc_data dc) in
  made c /\ 1 <= nb_conf c /\ shaped (nb_conf c) (dc_ham dc) /\ tall (Z.to_nat (nb_conf c)) (e_vects (dc_eig dc)).

(** What a file gives back. *)
Definition reloaded (dc r : data_computations) : Prop :=
  same_system (d_conf (dc_data dc)) (d_conf (dc_data r)) /\
  d_inter (dc_data r) = d_inter (dc_data dc) /\ d_bools (dc_data r) = d_bools (dc_data dc) /\
  d_diag (dc_data r) = mkDiag (g_nb_val (d_diag (dc_data dc))) (g_stp (d_diag (dc_data dc))) (g_tol (d_diag (dc_data dc))) (g_dim_max (d_diag (dc_data dc))) None /\
  dc_dets r = dc_dets dc /\ dc_eig r = dc_eig dc /\ dc_times r = dc_times dc /\
  csr_dim (dc_ham r) = csr_dim (dc_ham dc) /\ forall i j, csr_at (dc_ham r) i j = csr_at (dc_ham dc) i j.

(** The file a run goes to. *)
Definition file_of (dc : data_computations) : string := result_name (d_conf (dc_data dc)) (s_of (d_bools (dc_data dc))).

(** The same numbers with a guess. *)
Definition with_guess (g : diagonalization) (v : option (list (list Qc))) : diagonalization :=
  mkDiag (g_nb_val g) (g_stp g) (g_tol g) (g_dim_max g) v.

(** The run of one sector of the lattice of [d]. *)
Definition sector_run (E : runtime) (N : numerics) (roots : Qc -> Qc * Qc) (rand : Z -> Z -> Z -> list (list Qc)) (tm : Z -> times)
    (d : data) (alpha : Z) (dc : data_computations) : Prop :=
  exists c, nsites c = nsites (d_conf d) /\ nholes c = nholes (d_conf d) /\ nalpha c = alpha /\
    bond_matrix c = bond_matrix (d_conf d) /\ sites_restriction c = sites_restriction (d_conf d) /\ lattice_type c = Periodic /\
    nbh c = nbh (d_conf d) /\ nbv c = nbv (d_conf d) /\ nblocs_side c = nblocs_side (d_conf d) /\ made c /\
    dc_data dc = mkData c (d_inter d) (with_guess (d_diag d) (if alpha =? 0 then g_guess (d_diag d) else None)) (d_bools d) /\
    perform_initial_computations E N roots (rand alpha) (tm alpha) (dc_data dc) = Ok dc.

(** Guesses are matrices of the right height. *)
Definition good_guesses (rand : Z -> Z -> Z -> list (list Qc)) (d : data) : Prop :=
  (forall k dim nb, 0 <= dim -> tall (Z.to_nat dim) (rand k dim nb)) /\
  forall v, g_guess (d_diag d) = Some v ->
    tall (Z.to_nat (compute_dimension (nsites (d_conf d)) 0 (nsites (d_conf d) - nholes (d_conf d)))) v.

(** The matrix of the t-J operator between the states [st 0], ..., [st (dim - 1)]. *)
Definition tj_matrix (L : lattice) (K : interactions) (S : switches) (st : nat -> occupation) (dim : nat) : list (list Qc) :=
  map (fun i => map (fun j => tj_element L K S (st i) (st j)) (seq 0 dim)) (seq 0 dim).

(** The value found by following keys in a JSON value. *)
Fixpoint at_path (keys : list string) (j : json) : option json :=
  match keys with
  | [] => Some j
  | k :: keys' =>
    match j with
    | JObj l => match find (fun p => if String.string_dec (fst p) k then true else false) l with Some p => at_path keys' (snd p) | None => None end
    | _ => None
    end
  end.

(** The three arrays of a compressed matrix: row [i] lies between [indptr[i]] and [indptr[i+1]], columns in increasing order. *)
Definition compressed (m : csr) (data : list Qc) (indices indptr : list Z) : Prop :=
  let from i := nth (Z.to_nat i) indptr 0 in let col k := nth (Z.to_nat k) indices 0 in
  zlen indptr = csr_dim m + 1 /\ from 0 = 0 /\ from (csr_dim m) = zlen data /\ zlen indices = zlen data /\
  forall i, 0 <= i < csr_dim m -> from i <= from (i + 1) /\
    (forall k l, from i <= k < l -> l < from (i + 1) -> col k < col l) /\
    (forall k, from i <= k < from (i + 1) -> csr_at m i (col k) = nth (Z.to_nat k) data 0%Qc) /\
    (forall j, csr_at m i j <> 0%Qc -> exists k, from i <= k < from (i + 1) /\ col k = j).

(** The text of the file of a run. *)
Definition tells (dc : data_computations) (t : times) (j : json) : Prop :=
  let c := d_conf (dc_data dc) in let G := d_diag (dc_data dc) in let B := d_bools (dc_data dc) in
  let here group key x := at_path [group; key] j = Some x in
  let conf := here "configuration"%string in let ham := here "hamiltonian"%string in let eig := here "eigenstates"%string in
  conf "nsites"%string (JInt (nsites c)) /\ conf "nholes"%string (JInt (nholes c)) /\ conf "nbeta"%string (JInt (nbeta c)) /\
  conf "nalpha"%string (JInt (nalpha c)) /\ conf "nb_conf"%string (JInt (nb_conf c)) /\
  conf "nbh"%string (JInt (nbh c)) /\ conf "nbv"%string (JInt (nbv c)) /\ conf "nblocs_side"%string (JInt (nblocs_side c)) /\
  (exists s, conf "spin_number"%string (JFloat s) /\ (qz 2 * s = qz (nalpha c - nbeta c))%Qc) /\
  (exists x, conf "doping"%string (JFloat x) /\ (x * qz (nsites c) = qz (nholes c))%Qc) /\
  (exists rows, conf "bond_matrix"%string (JList (map (fun row => JList (map JInt row)) rows)) /\ zlen rows = nsites c /\
     forall i k, 0 <= i < nsites c -> 0 <= k < nsites c -> zlen (nth (Z.to_nat i) rows []) = nsites c /\
       nth (Z.to_nat k) (nth (Z.to_nat i) rows []) 0 = mat_at (bond_matrix c) i k) /\
  (exists data indices indptr, ham "data"%string (JList (map JFloat data)) /\ ham "indices"%string (JList (map JInt indices)) /\
     ham "indptr"%string (JList (map JInt indptr)) /\ compressed (dc_ham dc) data indices indptr) /\
  at_path ["determinants"%string] j = Some (JList (map (fun d => JList (map JInt d)) (dc_dets dc))) /\
  eig "eigvals"%string (JList (map JFloat (e_vals (dc_eig dc)))) /\
  (exists rows, eig "eigvects"%string (JList (map (fun row => JList (map JFloat row)) rows)) /\ zlen rows = nb_conf c /\
     forall i k, 0 <= i < nb_conf c -> nth k (nth (Z.to_nat i) rows []) 0%Qc = nth (Z.to_nat i) (nth k (e_vects (dc_eig dc)) []) 0%Qc) /\
  here "interactions"%string "t"%string (JFloat (i_t (d_inter (dc_data dc)))) /\ here "interactions"%string "J"%string (JFloat (i_J (d_inter (dc_data dc)))) /\
  here "diagonalization"%string "nb_val"%string (JInt (g_nb_val G)) /\ here "diagonalization"%string "initial_guess"%string JNull /\
  here "bool_interactions"%string "bz"%string (JBool (s_bz (s_of B))) /\ here "times"%string "tbasis"%string (JFloat (t_basis t)).
