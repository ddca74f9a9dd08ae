(** Model of /repo/postProcessing.py:177-470 (spectra along t/J, phase diagrams) and of the functions of
    /repo/davidson.py:326-366 that no run calls.  What is drawn is a value, as in Post.v. *)
From Coq Require Import ZArith String List Bool QArith Qcanon.
From Verif Require Import PyBase Lattice Base Interact Ham Spin Prob Dav Files Emb Display Post.
Import ListNotations.
Open Scope Z_scope.

(** ** davidson.py *)

(** davidson.py:326-343; [A] is the list of its rows, the result the list of its columns.
    np.ones with a negative size raises ValueError. *)
Definition perform_matrix_orthogonal_projection (N : numerics) (A : list vect) (vects : cols) : res cols :=
  let dim := length A in
  let dim_sub := length vects in
  if (dim <? dim_sub)%nat then Err ValueError else
  let comp_basis := repeat (repeat 1%Qc dim) (dim - dim_sub) in
  let projector := qr N dim (vects ++ comp_basis) in
  Ok (map (skipn dim_sub) (skipn dim_sub (gram projector (map (mat_vect A) projector)))).

(** interactions.py:678-695 with the object the caller passes *)
Definition compute_S2_exp_val_of (E : runtime) (o : obj) (v : vect) : res Qc :=
  if qeqb (vdot v v) 0 then Ok 0%Qc else c <- as_conf o ;; compute_S2_exp_val E c v.

(** davidson.py:345-366 *)
Definition compute_spin_and_multiplicity (E : runtime) (b : basis) (eigvects : cols) : res (list Qc * list (option string)) :=
  spins <- mapM (compute_S2_exp_val_of E (AsBasis b)) eigvects ;;
  Ok (spins, map (fun spin => compute_spin_multiplicity (Some spin)) spins).

(** ** Phase diagrams *)

(** the call of postProcessing.py:433: modified_davidson_algorithm(ham, nb_state, stp, tol, dim_max).
    The third argument is initial_guess, a number here, and the fourth is stp, a float here
    (davidson.py:229).  lin.qr of a number raises LinAlgError, given as ValueError; range of a float
    raises TypeError (davidson.py:252-258). *)
Definition davidson_of_numbers (dim nb_val : Z) : res (list Qc * cols) :=
  if 1 <? Z.min nb_val dim then Err ValueError else Err TypeError.

(** [configuration.nalpha = nalpha; configuration.nbeta = nbeta] (postProcessing.py:401-402) *)
Definition set_counts (c : configuration) (alpha beta : Z) : configuration :=
  mkConf (bond_matrix c) (nsites c) (nholes c) beta alpha (nb_conf c) (sites_restriction c) (lattice_type c) (nbh c) (nbv c) (nblocs_side c).

(** postProcessing.py:421-427 *)
Definition phase_interactions (K : interactions) (iX iY : Z) : interactions :=
  let t := (- qz iY * i_J K)%Qc in
  let v := (qz iX * i_J K)%Qc in
  mkInter t (i_J K) (i_Jhpar K) (i_Jhper K) (i_hSDpar K) (i_hSDper K) (qz (-13) * t / qz 55)%Qc (qz 36 * t / qz 55)%Qc
    v (qfrac 79 177 * v)%Qc.

(** interactions.py:697-718 with the object the caller passes *)
Definition compute_spin_number_of (E : runtime) (roots : Qc -> Qc * Qc) (o : obj) (v : vect) : res (option Qc) :=
  match compute_S2_exp_val_of E o v with
  | Ok expval =>
    let '(s1, s2) := roots expval in
    if Qclt_le_dec s1 0 then Ok (Some (qz (round0 (qz 2 * s2)%Qc) / qz 2)%Qc)
    else Ok (Some (qz (round0 (qz 2 * s1)%Qc) / qz 2)%Qc)
  | Err IndexError => Ok None
  | Err e => Err e
  end.

(** postProcessing.py:429-445: one point of the two maps; LinAlgError is caught *)
Definition phase_point (E : runtime) (roots : Qc -> Qc * Qc) (b : basis) (K : interactions) (s : switches) (nb_state : Z) : res (Qc * Qc) :=
  ham <- build_hamiltonian E (b_conf b) K b s (RList []) ;;
  match davidson_of_numbers (csr_dim ham) nb_state with
  | Err ValueError => Ok (0, 0)%Qc
  | Err e => Err e
  | Ok (vals, vects) =>
    eigval <- py_get vals nb_state ;;
    eigvect <- py_get vects nb_state ;;
    spin <- compute_spin_number_of E roots (AsBasis b) eigvect ;;
    Ok (eigval, match spin with Some s => s | None => 0%Qc end)
  end.

(** [np.linspace(a, b, n)] *)
Definition linspace (a b : Qc) (n : Z) : res (list Qc) :=
  if n <? 0 then Err ValueError
  else Ok (map (fun k => if n =? 1 then a else (a + (b - a) * (qz k / qz (n - 1)))%Qc) (zrange 0 n)).

(** A saved phase diagram: its name, its axes and its points, column by column. *)
Record phase_map : Type := mkPhase { h_name : string; h_x : list Qc; h_y : list Qc; h_points : list (list (Qc * Qc)) }.

(** postProcessing.py:408-469.  After np.meshgrid, [len(X)] and [len(Y)] are both the number of rows, [nb_t].
    pcolormesh raises TypeError unless the axes have the sizes of the map (for [nb_v = nb_t + 1] old versions
    of matplotlib draw part of the map; this is not modelled). *)
Definition phase_sector (E : runtime) (roots : Qc -> Qc * Qc) (c : configuration) (K : interactions) (s : switches) (nb_state nb_t nb_v : Z) : res phase_map :=
  b <- construct_basis c ;;
  x <- linspace 0 (qz 15) nb_v ;;
  y <- linspace (- qz 5)%Qc 0 nb_t ;;
  points <- mapM (fun iX => mapM (fun iY => phase_point E roots b (phase_interactions K iX iY) s nb_state) (zrange 0 nb_t)) (zrange 0 nb_t) ;;
  if zlen x =? nb_t then Ok (mkPhase (append (picture c "PhaseDiagrams") ".png") x y points) else Err TypeError.

(** postProcessing.py:370-469: the maps saved so far and how the function ends; the configuration of the caller is
    changed, its couplings too (they are overwritten before each use). *)
Definition save_phase_space (E : runtime) (roots : Qc -> Qc * Qc) (d : data) (nb_state nb_t nb_v : Z) : list phase_map * res configuration :=
  let c := d_conf d in
  fold_left (fun st alpha =>
      match st with
      | (maps, Err e) => (maps, Err e)
      | (maps, Ok c) =>
        let c := set_counts c alpha (nsites c - nholes c - alpha) in
        match phase_sector E roots c (d_inter d) (s_of (d_bools d)) nb_state nb_t nb_v with
        | Err e => (maps, Err e)
        | Ok m => (maps ++ [m], Ok c)
        end
      end)
    (zrange 0 (nsites c - nholes c + 1)) ([], Ok c).

(** ** Spectra along t/J *)

(** One energy with the two labels read for it (postProcessing.py:197-203: three lists extended together). *)
Record point : Type := mkPoint { q_energy : Qc; q_mult : option string; q_deg : Z }.
Notation curve := (list point) (only parsing).

(** postProcessing.py:207-218 *)
Definition scaled_interactions (K : interactions) (tJ : Qc) : res interactions :=
  J <- fdiv (qabs (i_t K)) tJ ;;
  jhpar <- fdiv (i_Jhpar K * J)%Qc (i_J K) ;;
  jhper <- fdiv (i_Jhper K * J)%Qc (i_J K) ;;
  hper <- fdiv (i_hSDper K * J)%Qc (i_J K) ;;
  hpar <- fdiv (i_hSDpar K * J)%Qc (i_J K) ;;
  Ok (mkInter (i_t K) J jhpar jhper hpar hper (i_tNNN K) (i_tnNNN K) (i_VNN K) (i_VNNNper K)).

(** [l.count(x)] *)
Definition qcount (l : list Qc) (x : Qc) : Z := zlen (filter (fun y => qeqb y x) l).

(** postProcessing.py:226-228 and 231-233 *)
Definition rounded (vals : list Qc) : list Qc := map (fun e => round_to e 6) vals.
Definition labels (spins : list (option Qc)) : list (option string) := map compute_spin_multiplicity spins.
Definition degeneracies (vals : list Qc) : list Z := map (qcount vals) vals.

(** postProcessing.py:235-242: the energies are sorted, the labels are not *)
Definition points_of (e : eigenstates) (count : Z) : res (list point) :=
  let vals := rounded (e_vals e) in
  mapM (fun ind =>
          x <- py_get (qsort vals) ind ;;
          m <- py_get (labels (e_spins e)) ind ;;
          k <- py_get (degeneracies vals) ind ;;
          Ok (mkPoint x m k)) (zrange 0 count).
Definition append_points (curves : list curve) (pts : list point) : res (list curve) :=
  foldM (fun curves p => l <- py_get curves (fst p) ;; py_set curves (fst p) (l ++ [snd p])) curves (enumerate pts).

(** postProcessing.py:205-242: the loop on the values of t/J; [rand k] is the random matrix of the k-th diagonalisation *)
Definition gather (E : runtime) (N : numerics) (roots : Qc -> Qc * Qc) (rand : Z -> Z -> Z -> cols) (tm : times) (d : data) (grid : list Qc)
    : res (list curve * list curve) :=
  let none := repeat ([] : curve) (Z.to_nat (g_nb_val (d_diag d))) in
  foldM (fun st p =>
           let '(curves, extended) := st in
           K <- scaled_interactions (d_inter d) (snd p) ;;
           r <- perform_initial_computations E N roots (rand (2 * fst p)) tm (mkData (d_conf d) K (d_diag d) (make_bools true true true false false false false true)) ;;
           r' <- perform_initial_computations E N roots (rand (2 * fst p + 1)) tm (mkData (d_conf d) K (d_diag d) (make_bools true true true true true true false true)) ;;
           let count := Z.min (zlen (e_vals (dc_eig r))) (zlen (e_vals (dc_eig r'))) in
           pts <- points_of (dc_eig r) count ;;
           pts' <- points_of (dc_eig r') count ;;
           curves <- append_points curves pts ;;
           extended <- append_points extended pts' ;;
           Ok (curves, extended))
        (none, none) (enumerate grid).

Definition label_eqb (a b : option string) : bool :=
  match a, b with
  | Some x, Some y => String.eqb x y
  | None, None => true
  | _, _ => false
  end.
Definition same_labels (p q : point) : bool := label_eqb (q_mult p) (q_mult q) && (q_deg p =? q_deg q).

(** postProcessing.py:253-259, 306-312: the last index before a change of label *)
Fixpoint run_length (p : point) (l : curve) : Z :=
  match l with
  | [] => 0
  | q :: l' => if same_labels p q then 1 + run_length q l' else 0
  end.

(** postProcessing.py:266-268: two curves exchange their labels between [ind] and [ind + 1] *)
Definition crossing (a b : curve) (ind : Z) : res bool :=
  a0 <- py_get a ind ;;
  a1 <- py_get a (ind + 1) ;;
  b1 <- py_get b (ind + 1) ;;
  b0 <- py_get b ind ;;
  Ok (same_labels a0 b1 && same_labels b0 a1).

(** postProcessing.py:264-269 from [new_ind] on; [rest] are the curves from there on; [None] when there is none *)
Fixpoint find_crossing (a : curve) (rest : list curve) (ind new_ind : Z) : res (option Z) :=
  match rest with
  | [] => Ok None
  | b :: rest' => x <- crossing a b ind ;; if x : bool then Ok (Some new_ind) else find_crossing a rest' ind (new_ind + 1)
  end.

(** postProcessing.py:276-279 *)
Definition qltb (x y : Qc) : bool := negb (qleb y x).
Definition exchanged (a b : curve) (ind : Z) : res bool :=
  am <- py_get a (ind - 1) ;; a0 <- py_get a ind ;; ap <- py_get a (ind + 1) ;;
  bm <- py_get b (ind - 1) ;; b0 <- py_get b ind ;; bp <- py_get b (ind + 1) ;;
  let gap x y z := qabs (qabs (q_energy x - q_energy y) - qabs (q_energy y - q_energy z))%Qc in
  Ok ((1 <? ind) && qltb (gap ap a0 am) (gap bp a0 am) && qltb (gap bp b0 bm) (gap ap b0 bm)).

(** postProcessing.py:285-287: the two curves exchange what comes after [ind] *)
Definition exchange_tails (curves : list curve) (i j ind : Z) : res (list curve) :=
  a <- py_get curves i ;;
  b <- py_get curves j ;;
  curves <- py_set curves i (py_slice a 0 (ind + 1) ++ py_slice_from b (ind + 1)) ;;
  py_set curves j (py_slice b 0 (ind + 1) ++ py_slice_from a (ind + 1)).

(** postProcessing.py:248-291 and 301-343, the while loop; a curve without points is an IndexError (line 254) *)
Fixpoint reorganise (fuel : nat) (curves : list curve) (ind_spectrum : Z) : res (list curve) :=
  if zlen curves - 1 <=? ind_spectrum then Ok curves else
  match fuel with
  | O => Err OutOfFuel
  | S f =>
    a <- py_get curves ind_spectrum ;;
    p <- py_get a 0 ;;
    let ind := run_length p (py_slice_from a 1) in
    if ind =? zlen a - 1 then reorganise f curves (ind_spectrum + 1) else
    o <- find_crossing a (py_slice_from curves (ind_spectrum + 1)) ind (ind_spectrum + 1) ;;
    match o with
    | None => reorganise f curves (ind_spectrum + 1)
    | Some new_ind =>
      b <- py_get curves new_ind ;;
      x <- exchanged a b ind ;;
      if x : bool then
        curves <- exchange_tails curves ind_spectrum new_ind ind ;;
        reorganise f curves ind_spectrum
      else reorganise f curves (ind_spectrum + 1)
    end
  end.

(** postProcessing.py:245-246, the two dictionaries *)
Definition color_of (m : option string) : res string :=
  match m with
  | Some x => if String.eqb x "doublet" then Ok "b"%string else if String.eqb x "quartet" then Ok "g"%string else Err KeyError
  | None => Err KeyError
  end.
Definition linestyle_of (k : Z) : res string :=
  if k =? 1 then Ok "--"%string else if k =? 2 then Ok "-"%string else Err KeyError.

(** A saved figure: its name and its lines (colour, style, energies). *)
Record figure : Type := mkFigure { f_name : string; f_lines : list ((string * string) * list Qc) }.

(** postProcessing.py:334-336, 352-354; the colour and the style of the first point *)
Definition draw_curves (curves : list curve) : res (list ((string * string) * list Qc)) :=
  mapM (fun l =>
          p <- py_get l 0 ;;
          color <- color_of (q_mult p) ;;
          style <- linestyle_of (q_deg p) ;;
          Ok ((color, style), map q_energy l)) curves.

(** one figure: the loop has fuel for every point of every curve *)
Definition loop_fuel (curves : list curve) : nat := length curves * S (length (nth 0 curves [])).

(** postProcessing.py:248-367, once the spectra are gathered: the figures saved and how the function ends *)
Definition plot_spectra (c : configuration) (curves extended : list curve) : list figure * res unit :=
  let name := picture c "ParametrizedSpectrum" in
  match reorganise (loop_fuel curves) curves 0 with
  | Err e => ([], Err e)
  | Ok curves =>
    match reorganise (loop_fuel extended) extended 0 with
    | Err e => ([], Err e)
    | Ok extended =>
      match draw_curves curves with
      | Err e => ([], Err e)
      | Ok l =>
        let first := mkFigure (append name ".png") l in
        match draw_curves extended with
        | Err e => ([first], Err e)
        | Ok l' => ([first; mkFigure (append name "-extended.png") l'], Ok tt)
        end
      end
    end
  end.

(** postProcessing.py:179-367 on a list of values of t/J; the program uses np.linspace(0.3, 10, 1000) *)
Definition plot_spectrum_dependance (E : runtime) (N : numerics) (roots : Qc -> Qc * Qc) (rand : Z -> Z -> Z -> cols) (tm : times) (d : data) (grid : list Qc)
    : list figure * res unit :=
  match gather E N roots rand tm d grid with
  | Err e => ([], Err e)
  | Ok (curves, extended) => plot_spectra (d_conf d) curves extended
  end.
