(** Model of /repo/postProcessing.py:26-168, 370-883 (plots).  What is drawn is a value; matplotlib itself
    is not modelled, and the directories of the pictures exist. *)
From Coq Require Import ZArith String List Bool QArith Qcanon.
From Verif Require Import PyBase Lattice Base Interact Ham Spin Prob Dav Files Emb Display.
Import ListNotations.
Open Scope Z_scope.

(** External functions: scipy.interpolate.interp2d (its result is only drawn; it may raise) and
    np.arange(-5e-4, m + 5e-4, 1e-4). *)
Record plotting : Type := mkPlotting {
  interp2d : list Z -> list Z -> list (list Qc) -> res unit;
  arange : Qc -> list Qc
}.

(** postProcessing.py:26-50 *)
Record input_plotting : Type := mkInput {
  p_excited : Z; p_plot : Z;
  p_spectrum : bool; p_holes : bool; p_electrons : bool; p_determinants : bool;
  p_neel : bool; p_static : bool; p_dynamic : bool; p_neighbor : bool
}.

(** A saved picture: its name and what it shows. *)
Inductive drawing : Type :=
| DSpectrum (name : string) (orbitals : list ((Qc * Qc) * (Qc * Qc)))
| DHoles (name : string) (panels : list ((Z * Z) * list (list Qc)))
| DElectrons (name : string) (alpha beta charge : list (list Qc))
| DAmplitudes (name : string) (panels : list ((Z * Z) * (list Qc * list Z)))
| DBars (name : string) (cluster embedding : list Qc).

(** "./tJ-HamCsr/tJ-H{}/dir/tJ-H{}{}{}" *)
Definition picture (c : configuration) (dir : string) : string :=
  append "./tJ-HamCsr/tJ-H" (append (str_of_int (nsites c)) (append "/" (append dir (append "/tJ-H"
    (append (str_of_int (nsites c)) (append (str_of_int (nalpha c)) (str_of_int (nbeta c)))))))).

(** ** Spectrum *)

(** [x in l] and [l.remove(x)] on floats *)
Definition qmem (x : Qc) (l : list Qc) : bool := existsb (fun y => qeqb y x) l.
Fixpoint qremove (l : list Qc) (x : Qc) : res (list Qc) :=
  match l with
  | [] => Err ValueError
  | y :: l' => if qeqb y x then Ok l' else r <- qremove l' x ;; Ok (y :: r)
  end.

(** postProcessing.py:497-506, the while loop *)
Fixpoint merge_loop (fuel : nat) (vals : list Qc) (degeneracy : list Z) (ind : Z) : res (list Qc * list Z) :=
  match fuel with
  | O => Err OutOfFuel
  | S f =>
    if ind <? zlen vals - 1 then
      let rest := py_slice_from vals (ind + 1) in
      v <- py_get vals ind ;;
      if qmem v rest then
        rest <- qremove rest v ;;
        k <- py_get degeneracy ind ;;
        degeneracy <- py_set degeneracy ind (k + 1) ;;
        merge_loop f (py_slice vals 0 (ind + 1) ++ rest) degeneracy ind
      else merge_loop f vals degeneracy (ind + 1)
    else Ok (vals, degeneracy)
  end.

(** postProcessing.py:494-507 *)
Definition merge_energies (eigvals : list Qc) : res (list Qc * list Z) :=
  '(vals, degeneracy) <- merge_loop (S (length eigvals)) eigvals (map (fun _ => 1) eigvals) 0 ;;
  Ok (vals, py_slice degeneracy 0 (zlen vals)).

(** postProcessing.py:511-514 *)
Definition orbitals_of (vals : list Qc) (degeneracy : list Z) : res (list ((Qc * Qc) * (Qc * Qc))) :=
  concatM (fun p => let '(ind_val, val) := p in
             k <- py_get degeneracy ind_val ;;
             Ok (map (fun ind => ((qz (ind + 1), (qz ind + qfrac 3 2)%Qc), (val, val))) (zrange 0 k)))
          (enumerate vals).

(** postProcessing.py:474-528 *)
Definition save_spectrum (dc : data_computations) : res drawing :=
  '(vals, degeneracy) <- merge_energies (e_vals (dc_eig dc)) ;;
  orbitals <- orbitals_of vals degeneracy ;;
  Ok (DSpectrum (append (picture (d_conf (dc_data dc)) "Spectrum") ".png") orbitals).

(** ** Panels *)

(** postProcessing.py:540-542, 753-755: [nb_row] of [nb_plot = nb_row ** 2] panels.  math.sqrt of a negative number
    raises ValueError, plt.subplots(0, 0) too.  The floating point square roots are exact. *)
Definition panel_rows (nb_subplots : Z) : res Z :=
  if nb_subplots <? 0 then Err ValueError
  else if Z.sqrt nb_subplots =? 0 then Err ValueError
  else Ok (Z.sqrt nb_subplots).

(** [ax[ind // nb_row, ind % nb_row]]: plt.subplots(1, 1) returns a single axis, which cannot be indexed *)
Definition panel (nb_row ind : Z) : res (Z * Z) :=
  if nb_row =? 1 then Err TypeError
  else if (ind / nb_row <? nb_row) then Ok (ind / nb_row, ind mod nb_row) else Err IndexError.

(** ** Densities *)

(** initialComputations.py:24-41 *)
Definition make_bools (bt bz bij bSD btN bV bV_embedding b_spin_multipicities : bool) : bool_interactions :=
  mkBools (mkSwitches bt bz bij bSD btN bV) b_spin_multipicities.

(** the attributes set at initialComputations.py:35-41 *)
Definition bool_attribute (b : bool_interactions) (name : string) : res bool :=
  let s := s_of b in
  if String.eqb name "bt" then Ok (s_bt s)
  else if String.eqb name "bz" then Ok (s_bz s)
  else if String.eqb name "bij" then Ok (s_bij s)
  else if String.eqb name "bSD" then Ok (s_bSD s)
  else if String.eqb name "btN" then Ok (s_btN s)
  else if String.eqb name "bV" then Ok (s_bV s)
  else if String.eqb name "b_spin_multipicities" then Ok (b_spin b)
  else Err AttributeError.

(** postProcessing.py:532-628; the name is built from the switches when all are there *)
Definition save_hole_probability_lattice (P : plotting) (dc : data_computations) (nb_subplots : Z) : res drawing :=
  nb_row <- panel_rows nb_subplots ;;
  let c := d_conf (dc_data dc) in
  let b := mkBasis c (dc_dets dc) in
  let eigvects := e_vects (dc_eig dc) in
  panels <- mapM (fun ind_vect =>
              vect <- py_get eigvects ind_vect ;;
              proba <- get_probability_spin_rectangular_lattice b vect 0 ;;
              _ <- interp2d P (zrange 0 (nblocs_side c * nbh c)) (zrange 0 (nblocs_side c * nbv c)) proba ;;
              pos <- panel nb_row ind_vect ;;
              Ok (pos, proba))
            (zrange 0 (Z.min (nb_row ^ 2) (zlen eigvects))) ;;
  let bools := d_bools (dc_data dc) in
  bt <- bool_attribute bools "bt" ;;
  bz <- bool_attribute bools "bz" ;;
  bij <- bool_attribute bools "bij" ;;
  bSD <- bool_attribute bools "bSD" ;;
  btN <- bool_attribute bools "btN" ;;
  bV <- bool_attribute bools "bV" ;;
  bV_embedding <- bool_attribute bools "bV_embedding" ;;
  let name := picture c "HolePresenceProbability" in
  let name := if bt && bz && bij && bSD && btN && bV && bV_embedding then append name "Full.png"
              else append (fold_left (fun name p => match extension (fst p) with
                                                    | Some ext => if snd p : bool then append name ext else name
                                                    | None => name
                                                    end) (dir_switches (s_of bools)) name) ".png" in
  Ok (DHoles name panels).

(** postProcessing.py:667-672 *)
Definition charges (z_alpha z_beta : list (list Qc)) : res (list (list Qc)) :=
  mapM (fun ind_row =>
          row0 <- py_get z_alpha 0 ;;
          mapM (fun ind_col =>
                  ra <- py_get z_alpha ind_row ;; a <- py_get ra ind_col ;;
                  rb <- py_get z_beta ind_row ;; b <- py_get rb ind_col ;;
                  Ok (a - b)%Qc)
               (zrange 0 (zlen row0)))
       (zrange 0 (zlen z_alpha)).

(** postProcessing.py:630-741; nothing is drawn for a state that was not computed *)
Definition save_electron_probability_lattice (P : plotting) (dc : data_computations) (nb_state : Z) : res (list drawing) :=
  let c := d_conf (dc_data dc) in
  let b := mkBasis c (dc_dets dc) in
  let eigvects := e_vects (dc_eig dc) in
  if nb_state <? zlen eigvects then
    vect <- py_get eigvects nb_state ;;
    alpha <- get_probability_spin_rectangular_lattice b vect 1 ;;
    beta <- get_probability_spin_rectangular_lattice b vect (-1) ;;
    charge <- charges alpha beta ;;
    let x := zrange 0 (nblocs_side c * nbh c) in
    let y := zrange 0 (nblocs_side c * nbv c) in
    _ <- interp2d P x y alpha ;;
    _ <- interp2d P x y beta ;;
    _ <- interp2d P x y charge ;;
    let dir := if nb_state =? 0 then "SpinDistribution/GroundState"%string else append "SpinDistribution/Excited" (str_of_int nb_state) in
    Ok [DElectrons (append (picture c dir) ".png") alpha beta charge]
  else Ok [].

(** ** Amplitudes *)

(** postProcessing.py:776-778, the while loop on the sorted amplitudes from index [ind_j] on *)
Fixpoint first_above (vect : list Qc) (x : Qc) (ind_j : Z) : Z :=
  match vect with
  | [] => ind_j
  | v :: vect' => if negb (qleb x (qabs v)) then first_above vect' x (ind_j + 1) else ind_j
  end.

(** [np.amax], raising ValueError on nothing *)
Definition amax (l : list Qc) : res Qc :=
  match l with
  | [] => Err ValueError
  | x :: l' => Ok (fold_left (fun m y => if qleb m y then y else m) l' x)
  end.

(** postProcessing.py:745-800 *)
Definition plot_determinants_amplitude_repartition (P : plotting) (dc : data_computations) (nb_subplots : Z) : res drawing :=
  nb_row <- panel_rows nb_subplots ;;
  let eigvects := e_vects (dc_eig dc) in
  panels <- mapM (fun ind_vect =>
              v <- py_get eigvects ind_vect ;;
              let vect := qsort (map qabs v) in
              max_coeff <- amax vect ;;
              let x := arange P max_coeff in
              let y := map (fun x_i => zlen vect - first_above vect x_i 0) x in
              pos <- panel nb_row ind_vect ;;
              Ok (pos, (x, y)))
            (zrange 0 (Z.min (nb_row ^ 2) (zlen eigvects))) ;;
  Ok (DAmplitudes (append (picture (d_conf (dc_data dc)) "DeterminantsAmplitude") ".png") panels).

(** ** Effect of an embedding *)

(** [d[ind]] in a dictionary with keys 0, 1, .. *)
Definition key_get {A} (l : list A) (ind : Z) : res A :=
  if (0 <=? ind) && (ind <? zlen l) then py_get l ind else Err KeyError.

(** postProcessing.py:826-827, 831-832 *)
Definition squares (v : vect) : list Qc := map (fun x => (qabs x * qabs x)%Qc) v.
Definition highests (ground_state : list Qc) (nb_det : Z) : res (list Z) :=
  mapM (fun ndet => qindex ground_state ndet) (py_slice (rev (qsort ground_state)) 0 nb_det).

(** postProcessing.py:804-883 *)
Definition plot_embedding_effect_on_determinants (cluster embedding : data_computations) (nb_det : Z) : res drawing :=
  v <- first_column (e_vects (dc_eig cluster)) ;;
  let ground_state := squares v in
  highests_det <- highests ground_state nb_det ;;
  v_emb <- first_column (e_vects (dc_eig embedding)) ;;
  let ground_state_emb := squares v_emb in
  highests_det_emb <- highests ground_state_emb nb_det ;;
  top <- key_get highests_det_emb 0 ;;
  d <- py_get (dc_dets embedding) top ;;
  _ <- get_displayable_rectangular_lattice (AsConf (d_conf (dc_data embedding))) d ;;
  coeffs <- mapM (fun ind => i <- key_get highests_det ind ;; py_get ground_state i) (zrange 0 nb_det) ;;
  coeffs_emb <- mapM (fun ind => i <- key_get highests_det_emb ind ;; py_get ground_state_emb i) (zrange 0 nb_det) ;;
  Ok (DBars (append (picture (d_conf (dc_data cluster)) "AmplitudesStaticEmbeddingNeel") ".png") coeffs coeffs_emb).

(** ** All the plots *)

(** postProcessing.py:83-93 *)
Definition plots_name (c : configuration) (s : switches) : string :=
  let head := append "tJHam-" (append (str_of_int (nsites c)) (append (str_of_int (nalpha c)) (str_of_int (nbeta c)))) in
  if all_on s then append head "Full.json"
  else append (fold_left (fun name p => match extension (fst p) with
                                        | Some ext => if snd p : bool then append name ext else name
                                        | None => name
                                        end) (dir_switches s) head) ".json".

(** postProcessing.py:101-116 *)
Definition plots_embedding_name (c : configuration) (s : switches) (i : input_plotting) : string :=
  let name := "tJHam"%string in
  let name := if p_dynamic i then append name "-dyn" else name in
  let name := if p_neel i then append name "-neel" else name in
  let name := if p_neighbor i then append name "-neigh" else name in
  let name := append name (append "-" (append (str_of_int (nsites c)) (append (str_of_int (nalpha c)) (str_of_int (nbeta c))))) in
  append "Embedding_blocks/"
    (if all_on s then append name "Full.json"
     else append (fold_left (fun name p => match extension (fst p) with
                                           | Some ext => append name ext
                                           | None => name
                                           end) (dir_switches s) name) ".json").

(** pictures saved so far, and how the function ends *)
Definition plots : Type := list drawing * res unit.
Definition and_then (x : plots) (f : unit -> plots) : plots :=
  match x with
  | (l, Ok _) => let '(l', r) := f tt in (l ++ l', r)
  | (l, Err e) => (l, Err e)
  end.
Definition drawn_one (r : res drawing) : plots := match r with Ok d => ([d], Ok tt) | Err e => ([], Err e) end.
Definition drawn_all (r : res (list drawing)) : plots := match r with Ok l => (l, Ok tt) | Err e => ([], Err e) end.
Definition nothing : plots := ([], Ok tt).

(** postProcessing.py:132-149: the plots, once the files are read *)
Definition plot_everything (P : plotting) (c : configuration) (i : input_plotting) (dc : data_computations) (emb : option data_computations) : plots :=
  and_then (if p_spectrum i then drawn_one (save_spectrum dc) else nothing) (fun _ =>
  and_then (if (0 <? nholes c) && p_holes i then drawn_one (save_hole_probability_lattice P dc (p_plot i)) else nothing) (fun _ =>
  and_then (if p_electrons i && (0 <? nalpha c * nbeta c)
            then fold_left (fun st ind_state => and_then st (fun _ => drawn_all (save_electron_probability_lattice P dc ind_state))) (zrange 0 (p_excited i)) nothing
            else nothing) (fun _ =>
  and_then (if p_determinants i then drawn_one (plot_determinants_amplitude_repartition P dc (p_plot i)) else nothing) (fun _ =>
  let effect := match emb with
                | Some e => drawn_one (plot_embedding_effect_on_determinants dc e (Z.min (nb_conf c) 30))
                | None => ([], Err NameError)
                end in
  and_then (if p_neel i then effect else nothing) (fun _ =>
  if p_static i || p_dynamic i then effect else nothing))))).

(** postProcessing.py:52-149 *)
Definition generate_plots_configuration (P : plotting) (fs : files) (d : data) (i : input_plotting) : plots :=
  let c := d_conf d in
  let s := s_of (d_bools d) in
  match load_data fs (plots_name c s) with
  | Err e => ([], Err e)
  | Ok dc =>
    if p_neel i || p_static i || p_dynamic i then
      match load_data fs (plots_embedding_name c s i) with
      | Err e => ([], Err e)
      | Ok emb => plot_everything P c i dc (Some emb)
      end
    else plot_everything P c i dc None
  end.

(** postProcessing.py:151-175: the sizes of the lattice are not passed on to the new configurations *)
Definition generate_plots (P : plotting) (fs : files) (d : data) (i : input_plotting) : plots :=
  let c := d_conf d in
  fold_left (fun st alpha =>
      and_then st (fun _ =>
        match make_configuration (bond_matrix c) (nholes c) (nsites c - nholes c - alpha) (RList []) Periodic 0 0 0 with
        | Err e => ([], Err e)
        | Ok c' => generate_plots_configuration P fs (mkData c' (d_inter d) (d_diag d) (d_bools d)) i
        end))
    (zrange 0 (nsites c - nholes c + 1)) nothing.
