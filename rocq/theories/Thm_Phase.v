(** Theorems on the spectra along t/J, the phase diagrams and the functions of davidson.py that no run calls (C68, C74, C75, C78, C79). *)
From Coq Require Import ZArith String List Bool Sorted Permutation QArith Qcanon.
From Verif Require Import PyBase Runtimes Lattice Base Interact Ham Spin Prob Dav Files Emb Display Spec SpecTJ SpinDefs HamSpec DavDefs ProbDefs FilesDefs Examples
  FSites FProb FGeo FDav FInter FFiles FRun Post Phase PhaseDefs FPhase FPhaseMap FProj FTight FTight2.
Import ListNotations.
Open Scope Z_scope.

(** C68 *)
Theorem C68_sorted :
  forall E N roots rand tm d dc, 0 <= g_nb_val (d_diag d) -> 0 <= g_dim_max (d_diag d) ->
  perform_initial_computations E N roots rand tm d = Ok dc -> StronglySorted (fun x y => (x <= y)%Qc) (e_vals (dc_eig dc)).
Proof. exact C68_sorted_pf. Qed.
Print Assumptions C68_sorted.

Example C68_sorted_example : let d := mkData (ex_rect 2 1 1 0 1) (mkInter 0 (qz 1) 0 0 0 0 0 0 0 0) (mkDiag 1 100 (qfrac 1 1000) 0 (Some [[qfrac 3 5; qfrac 4 5]])) (mkBools only_z true) in
  match perform_initial_computations cpython ex_numerics (fun _ => (0%Qc, 0%Qc)) (fun n _ => ex_rand n) (mkTimes 1 1 1) d with
  | Ok dc => map this (e_vals (dc_eig dc)) = [-1 # 2]%Q
  | Err _ => False
  end.
Proof. vm_compute. reflexivity. Qed.

(** C74 *)
Theorem C74_blank :
  forall E roots d w r nb_state nb, set_iter_ok E -> filled (d_conf d) w r -> let c := d_conf d in
  0 < nholes c < nsites c -> 2 <= nb_state -> 1 <= nb ->
  exists x y c', linspace 0 (qz 15) nb = Ok x /\ linspace (- qz 5)%Qc 0 nb = Ok y /\
    save_phase_space E roots d nb_state nb nb =
      (map (fun alpha => mkPhase (append (picture (set_counts c alpha (nsites c - nholes c - alpha)) "PhaseDiagrams") ".png") x y
              (repeat (repeat (0, 0)%Qc (Z.to_nat nb)) (Z.to_nat nb))) (zrange 0 (nsites c - nholes c + 1)), Ok c') /\
    nalpha c' = nsites c - nholes c /\ nbeta c' = 0 /\ nholes c' = nholes c /\ nb_conf c' = nb_conf c.
Proof. exact C74_blank_pf. Qed.
Print Assumptions C74_blank.

Theorem C74_fails :
  forall E roots d w r nb_state nb_t nb_v, set_iter_ok E -> filled (d_conf d) w r -> let c := d_conf d in
  nholes c <= nsites c -> 1 <= nb_t -> 0 <= nb_v -> nb_state <= 1 \/ nholes c = 0 \/ nholes c = nsites c ->
  save_phase_space E roots d nb_state nb_t nb_v = ([], Err TypeError).
Proof. exact C74_fails_pf. Qed.
Print Assumptions C74_fails.

Theorem C74_sizes :
  forall E roots d w r nb_state nb_t nb_v, set_iter_ok E -> filled (d_conf d) w r -> let c := d_conf d in
  0 < nholes c < nsites c -> 2 <= nb_state -> 1 <= nb_t -> 0 <= nb_v -> nb_v <> nb_t -> nb_v <> nb_t + 1 ->
  save_phase_space E roots d nb_state nb_t nb_v = ([], Err TypeError).
Proof. exact C74_sizes_pf. Qed.
Print Assumptions C74_sizes.

Theorem C74_axes :
  forall K iX iY, i_J K <> 0%Qc -> let K' := phase_interactions K iX iY in
  (i_VNN K' / i_J K' = qz iX)%Qc /\ (i_t K' / i_J K' = - qz iY)%Qc /\
  (i_tNNN K' * qz 55 = - qz 13 * i_t K')%Qc /\ (i_tnNNN K' * qz 55 = qz 36 * i_t K')%Qc /\ (i_VNNNper K' * qz 177 = qz 79 * i_VNN K')%Qc /\
  i_J K' = i_J K /\ i_Jhpar K' = i_Jhpar K /\ i_Jhper K' = i_Jhper K /\ i_hSDpar K' = i_hSDpar K /\ i_hSDper K' = i_hSDper K.
Proof. exact C74_axes_pf. Qed.
Print Assumptions C74_axes.

Theorem C74_linspace :
  forall a b n, 2 <= n ->
  exists x, linspace a b n = Ok x /\ Z.of_nat (length x) = n /\ nth 0 x 0%Qc = a /\ nth (Z.to_nat (n - 1)) x 0%Qc = b /\
  forall k, (k < length x)%nat -> ((nth k x 0 - a) * qz (n - 1) = qz (Z.of_nat k) * (b - a))%Qc.
Proof. exact C74_linspace_pf. Qed.
Print Assumptions C74_linspace.

Example C74_linspace_example : match linspace (- qz 5)%Qc 0 5 with Ok x => map this x = [-5; -15 # 4; -5 # 2; -5 # 4; 0]%Q | Err _ => False end.
Proof. vm_compute. reflexivity. Qed.

Theorem C74_axes_refuted :
  forall nb y, 2 <= nb -> linspace (- qz 5)%Qc 0 nb = Ok y ->
  exists iY v, nth_error y (Z.to_nat iY) = Some v /\ 0 <= iY < nb /\ forall K iX, i_J K <> 0%Qc -> (i_t (phase_interactions K iX iY) / i_J K <> v)%Qc.
Proof. exact C74_axes_refuted_pf. Qed.
Print Assumptions C74_axes_refuted.

(** two sites, one hole: a map of three by three for no spin up and for one *)
Definition ex_phase_data : data :=
  mkData (ex_rect 2 1 1 1 0) (mkInter 0 1 0 0 0 0 0 0 0 0) (mkDiag 2 10 0 0 None) (mkBools (mkSwitches true true true false false true) false).
Example C74_example : filled (d_conf ex_phase_data) 2 [0; 1] /\ 0 < nholes (d_conf ex_phase_data) < nsites (d_conf ex_phase_data) /\
  map h_points (fst (save_phase_space cpython (fun _ => (0%Qc, 0%Qc)) ex_phase_data 2 3 3)) = repeat (repeat (repeat (0, 0)%Qc 3) 3) 2 /\
  map (fun m => map this (h_y m)) (fst (save_phase_space cpython (fun _ => (0%Qc, 0%Qc)) ex_phase_data 2 3 3)) = repeat [-5; -5 # 2; 0]%Q 2 /\
  map (fun m => map this (h_x m)) (fst (save_phase_space cpython (fun _ => (0%Qc, 0%Qc)) ex_phase_data 2 3 3)) = repeat [0; 15 # 2; 15]%Q 2 /\
  save_phase_space cpython (fun _ => (0%Qc, 0%Qc)) ex_phase_data 1 3 3 = ([], Err TypeError) /\
  save_phase_space cpython (fun _ => (0%Qc, 0%Qc)) ex_phase_data 2 3 5 = ([], Err TypeError) /\
  map this (map (fun iY => i_t (phase_interactions (d_inter ex_phase_data) 0 iY)) [0; 1; 2]) = [0; -1; -2]%Q.
Proof.
  split. { split; [exists 2, 1, 1; vm_compute; repeat (split; [congruence|]); reflexivity|]. split; [reflexivity|]. vm_compute. intuition congruence. }
  split; [vm_compute; intuition congruence|]. vm_compute. repeat (split; [reflexivity|]). reflexivity.
Qed.

(** C75 *)
Theorem C75_scaled :
  forall K tJ, (tJ <> 0)%Qc -> i_J K <> 0%Qc ->
  exists K', scaled_interactions K tJ = Ok K' /\ i_t K' = i_t K /\ (i_J K' * tJ = if Qclt_le_dec (i_t K) 0 then - i_t K else i_t K)%Qc /\
    (i_Jhpar K' * i_J K = i_Jhpar K * i_J K')%Qc /\ (i_Jhper K' * i_J K = i_Jhper K * i_J K')%Qc /\
    (i_hSDpar K' * i_J K = i_hSDpar K * i_J K')%Qc /\ (i_hSDper K' * i_J K = i_hSDper K * i_J K')%Qc /\
    i_tNNN K' = i_tNNN K /\ i_tnNNN K' = i_tnNNN K /\ i_VNN K' = i_VNN K /\ i_VNNNper K' = i_VNNNper K.
Proof. exact C75_scaled_pf. Qed.
Print Assumptions C75_scaled.

Theorem C75_no_exchange :
  forall K tJ, i_J K = 0%Qc \/ tJ = 0%Qc -> scaled_interactions K tJ = Err ZeroDivisionError.
Proof. exact C75_no_exchange_pf. Qed.
Print Assumptions C75_no_exchange.

Theorem C75_points :
  forall e count, StronglySorted (fun x y => (x <= y)%Qc) (e_vals e) -> length (e_spins e) = length (e_vals e) -> 
  0 <= count <= zlen (e_vals e) ->
  exists pts, points_of e count = Ok pts /\ length pts = Z.to_nat count /\ forall i p, nth_error pts i = Some p -> point_of_run e i p.
Proof. exact C75_points_pf. Qed.
Print Assumptions C75_points.

Theorem C75_unsorted :
  forall e count, length (e_spins e) = length (e_vals e) -> 0 <= count <= zlen (e_vals e) ->
  exists pts energies, points_of e count = Ok pts /\ length pts = Z.to_nat count /\
  Permutation (map (fun l => round_to l 6) (e_vals e)) energies /\ StronglySorted (fun x y => (x <= y)%Qc) energies /\
  forall i p, nth_error pts i = Some p -> exists l s, nth_error (e_vals e) i = Some l /\ nth_error (e_spins e) i = Some s /\
    nth_error energies i = Some (q_energy p) /\ q_mult p = compute_spin_multiplicity s /\
    q_deg p = Z.of_nat (length (filter (fun l' => if Qc_eq_dec (round_to l' 6) (round_to l 6) then true else false) (e_vals e))).
Proof. exact C75_unsorted_pf. Qed.
Print Assumptions C75_unsorted.

(** two energies in the wrong order: the lowest one is drawn with the label and the degeneracy of the other *)
Example C75_unsorted_example : 
  match points_of (mkEig [qz 3; qz 1; qz 1] [Some (qfrac 3 2); Some (qfrac 1 2); Some (qfrac 1 2)] []) 3 with
  | Ok pts => map (fun p => (this (q_energy p), q_mult p, q_deg p)) pts =
      [(1%Q, Some "quartet"%string, 1); (1%Q, Some "doublet"%string, 2); (3%Q, Some "doublet"%string, 2)]
  | Err _ => False
  end.
Proof. vm_compute. reflexivity. Qed.

Theorem C75_gathered :
  forall E N roots rand tm d w r grid curves extended, set_iter_ok E -> filled (d_conf d) w r ->
  let c := d_conf d in let g := d_diag d in
  qr_shape N -> norm_above N -> 0 <= g_nb_val g -> 0 <= g_dim_max g ->
  (forall v, g_guess g = Some v -> tall (Z.to_nat (compute_dimension (nsites c) (nalpha c) (nbeta c))) v) ->
  (forall k dim nb, 0 <= dim -> tall (Z.to_nat dim) (rand k dim nb)) ->
  gather E N roots rand tm d grid = Ok (curves, extended) ->
  let count := Z.to_nat (Z.min (g_nb_val g) (if g_dim_max g =? 0 then compute_dimension (nsites c) (nalpha c) (nbeta c) else g_dim_max g)) in
  length curves = Z.to_nat (g_nb_val g) /\ length extended = Z.to_nat (g_nb_val g) /\
  rectangle (length grid) (firstn count curves) /\ rectangle (length grid) (firstn count extended) /\
  rectangle 0 (skipn count curves) /\ rectangle 0 (skipn count extended) /\
  forall i k tJ, (i < count)%nat -> nth_error grid k = Some tJ ->
  exists K dc dc' p p', scaled_interactions (d_inter d) tJ = Ok K /\
    perform_initial_computations E N roots (rand (2 * Z.of_nat k)) tm (mkData c K g (mkBools (mkSwitches true true true false false false) true)) = Ok dc /\
    perform_initial_computations E N roots (rand (2 * Z.of_nat k + 1)) tm (mkData c K g (mkBools (mkSwitches true true true true true true) true)) = Ok dc' /\
    nth_error (nth i curves []) k = Some p /\ nth_error (nth i extended []) k = Some p' /\
    point_of_run (dc_eig dc) i p /\ point_of_run (dc_eig dc') i p'.
Proof. exact C75_gathered_pf. Qed.
Print Assumptions C75_gathered.

Theorem C75_too_many :
  forall E N roots rand tm d w r grid, set_iter_ok E -> filled (d_conf d) w r ->
  let c := d_conf d in let g := d_diag d in
  qr_shape N -> norm_above N -> 0 < compute_dimension (nsites c) (nalpha c) (nbeta c) < g_nb_val g -> g_dim_max g = 0 -> grid <> [] ->
  (forall v, g_guess g = Some v -> tall (Z.to_nat (compute_dimension (nsites c) (nalpha c) (nbeta c))) v) ->
  (forall k dim nb, 0 <= dim -> tall (Z.to_nat dim) (rand k dim nb)) ->
  exists e, plot_spectrum_dependance E N roots rand tm d grid = ([], Err e) /\
    (gather E N roots rand tm d grid = Err e \/ e = IndexError \/ e = KeyError).
Proof. exact C75_too_many_pf. Qed.
Print Assumptions C75_too_many.

Theorem C75_reorganised :
  forall n curves, (1 <= n)%nat -> rectangle n curves ->
  exists curves', reorganise (loop_fuel curves) curves 0 = Ok curves' /\ length curves' = length curves /\ rectangle n curves' /\
    (forall k, Permutation (column k curves) (column k curves')) /\ map (firstn 3) curves' = map (firstn 3) curves.
Proof. exact C75_reorganised_pf. Qed.
Print Assumptions C75_reorganised.

Theorem C75_untangled :
  forall n curves curves', (1 <= n)%nat -> rectangle n curves ->
  reorganise (loop_fuel curves) curves 0 = Ok curves' -> untangled 0 curves curves'.
Proof. exact C75_untangled_pf. Qed.
Print Assumptions C75_untangled.

Theorem C75_labels_refuted :
  exists curves curves' l p q, rectangle 3 curves /\ reorganise (loop_fuel curves) curves 0 = Ok curves' /\
  In l curves' /\ nth_error l 0 = Some p /\ nth_error l 2 = Some q /\ q_mult p <> q_mult q /\
  exists l', In l' curves /\ In l curves /\ nth_error l' 0 = Some q /\ option_map q_mult (nth_error l' 2) = Some (q_mult p).
Proof. exact C75_labels_refuted_pf. Qed.
Print Assumptions C75_labels_refuted.

Theorem C75_drawn :
  forall c n n' curves extended, (1 <= n)%nat -> (1 <= n')%nat -> rectangle n curves -> rectangle n' extended ->
  (forall l p, In l curves \/ In l extended -> nth_error l 0 = Some p -> drawable p) ->
  exists lines lines', drawn curves lines /\ drawn extended lines' /\
    plot_spectra c curves extended =
      ([mkFigure (append (picture c "ParametrizedSpectrum") ".png") lines; mkFigure (append (picture c "ParametrizedSpectrum") "-extended.png") lines'], Ok tt).
Proof. exact C75_drawn_pf. Qed.
Print Assumptions C75_drawn.

Theorem C75_undrawable :
  forall c n n' curves extended l p, (1 <= n)%nat -> (1 <= n')%nat -> rectangle n curves -> rectangle n' extended ->
  nth_error l 0 = Some p -> ~ drawable p ->
  (In l curves -> plot_spectra c curves extended = ([], Err KeyError)) /\
  (In l extended -> (forall m q, In m curves -> nth_error m 0 = Some q -> drawable q) ->
   exists lines, drawn curves lines /\ plot_spectra c curves extended = ([mkFigure (append (picture c "ParametrizedSpectrum") ".png") lines], Err KeyError)).
Proof. exact C75_undrawable_pf. Qed.
Print Assumptions C75_undrawable.

Theorem C75_integer_spin :
  forall k p, q_mult p = compute_spin_multiplicity (Some (qz k)) -> ~ drawable p.
Proof. exact C75_integer_spin_pf. Qed.
Print Assumptions C75_integer_spin.

(** three sites and three spins up: one state, a quartet of energy zero *)
Definition ex_line_data (nb : Z) : data :=
  mkData (ex_rect 3 1 1 0 0) (mkInter (qz 2) (qz 1) (qz 1) (qz 1) (qz 1) (qz 1) 0 0 0 0) (mkDiag nb 100 (qfrac 1 1000) 0 (Some [[1%Qc]])) (mkBools only_z true).
Definition ex_line_roots (_ : Qc) : Qc * Qc := (qfrac 3 2, qfrac (-5) 2).
Example C75_example : filled (d_conf (ex_line_data 1)) 3 [0; 1; 2] /\ qr_shape ex_numerics /\ norm_above ex_numerics /\
  (forall dim nb : Z, 0 <= dim -> tall (Z.to_nat dim) (ex_rand dim)) /\
  (exists curves extended, gather cpython ex_numerics ex_line_roots (fun _ n _ => ex_rand n) (mkTimes 1 1 1) (ex_line_data 1) [qz 1; qz 4] = Ok (curves, extended) /\
    map (map q_deg) curves = [[1; 1]] /\ map (map q_mult) curves = [[Some "quartet"; Some "quartet"]]%string /\ map (map (fun p => this (q_energy p))) curves = [[0; 0]]%Q) /\
  match plot_spectrum_dependance cpython ex_numerics ex_line_roots (fun _ n _ => ex_rand n) (mkTimes 1 1 1) (ex_line_data 1) [qz 1; qz 4] with
  | (figs, Ok tt) => map f_name figs = ["./tJ-HamCsr/tJ-H3/ParametrizedSpectrum/tJ-H330.png"; "./tJ-HamCsr/tJ-H3/ParametrizedSpectrum/tJ-H330-extended.png"]%string
  | _ => False
  end.
Proof.
  split. { split; [exists 3, 1, 1; vm_compute; repeat (split; [congruence|]); reflexivity|]. split; [reflexivity|]. vm_compute. intuition congruence. }
  split; [exact ex_qr_shape|]. split; [exact ex_norm_above|]. split; [intros dim nb H; repeat constructor; rewrite map_length; unfold zrange; rewrite map_length, seq_length; f_equal; apply Z.sub_0_r|].
  split; [eexists; eexists; split; [vm_compute; reflexivity|]; vm_compute; auto|]. vm_compute. reflexivity.
Qed.

(** two curves of five points; their labels are exchanged after the third and going straight on is smoother: the tails are exchanged *)
Definition ex_tangle : list (list point) :=
  let p (e : Z) (m : string) := mkPoint (qz e) (Some m) 1 in
  [[p 0 "doublet"; p 1 "doublet"; p 2 "doublet"; p 3 "quartet"; p 4 "quartet"]; [p 9 "quartet"; p 8 "quartet"; p 7 "quartet"; p 6 "doublet"; p 5 "doublet"]]%string.
Example C75_tangle : rectangle 5 ex_tangle /\ (forall l p, In l ex_tangle -> nth_error l 0 = Some p -> drawable p) /\
  (exists curves', reorganise (loop_fuel ex_tangle) ex_tangle 0 = Ok curves' /\ map (map (fun p => this (q_energy p))) curves' = [[0; 1; 2; 6; 5]; [9; 8; 7; 3; 4]]%Q).
Proof.
  split; [repeat constructor|]. split.
  - intros l p [<-|[<-|[]]] E; injection E as <-; split; cbn; auto.
  - eexists. split; vm_compute; reflexivity.
Qed.

(** C78 *)
Theorem C78_attribute :
  forall E b vects v, In v vects -> inner v v <> 0%Qc -> compute_spin_and_multiplicity E b vects = Err AttributeError.
Proof. exact C78_attribute_pf. Qed.
Print Assumptions C78_attribute.

Theorem C78_zero :
  forall E b vects, (forall v, In v vects -> inner v v = 0%Qc) ->
  compute_spin_and_multiplicity E b vects = Ok (map (fun _ => 0%Qc) vects, map (fun _ => Some "singlet"%string) vects).
Proof. exact C78_zero_pf. Qed.
Print Assumptions C78_zero.

Theorem C78_number :
  forall E roots c b v,
  compute_spin_number_of E roots (AsConf c) v = compute_spin_number E roots c v /\
  (inner v v <> 0%Qc -> compute_spin_number_of E roots (AsBasis b) v = Err AttributeError) /\
  (inner v v = 0%Qc -> roots 0%Qc = (0, - (1))%Qc -> compute_spin_number_of E roots (AsBasis b) v = Ok (Some 0%Qc)).
Proof. exact C78_number_pf. Qed.
Print Assumptions C78_number.

Example C78_example : inner [1%Qc] [1%Qc] <> 0%Qc /\ compute_spin_and_multiplicity cpython (mkBasis (ex_rect 3 1 1 0 0) [[0; 1; 2]]) [[1%Qc]] = Err AttributeError /\
  compute_spin_and_multiplicity cpython (mkBasis (ex_rect 3 1 1 0 0) [[0; 1; 2]]) [[0%Qc]] = Ok ([0%Qc], [Some "singlet"%string]).
Proof. split; [discriminate|]. split; vm_compute; reflexivity. Qed.

(** a triplet of two sites: the number is 1 *)
Example C78_number_example : let roots := fun x => if Qc_eq_dec x (qz 2) then (1, - qz 2)%Qc else (0, - (1))%Qc in
  (exists x, compute_spin_number_of cpython roots (AsConf (ex_rect 2 1 1 0 1)) [1%Qc; 1%Qc] = Ok (Some x) /\ this x = 1%Q) /\
  compute_spin_number_of cpython roots (AsBasis (mkBasis (ex_rect 2 1 1 0 1) [[0; 1]; [1; 0]])) [1%Qc; 1%Qc] = Err AttributeError.
Proof. split; [eexists; split|]; vm_compute; reflexivity. Qed.

(** C79 *)
Theorem C79_projection :
  forall N A vects, let dim := length A in
  let Q := qr N dim (vects ++ repeat (repeat 1%Qc dim) (dim - length vects)) in
  square A -> tall dim vects -> orthonormal vects -> (length vects <= dim)%nat ->
  length Q = dim -> tall dim Q -> orthonormal Q -> (forall j, (j < length vects)%nat -> combination dim (firstn (S j) Q) (nth j vects [])) ->
  exists comp, length comp = (dim - length vects)%nat /\ tall dim comp /\ orthonormal comp /\
    (forall x, length x = dim -> (combination dim comp x <-> forall v, In v vects -> inner v x = 0%Qc)) /\
    perform_matrix_orthogonal_projection N A vects = Ok (projected A comp).
Proof. exact C79_projection_pf. Qed.
Print Assumptions C79_projection.

Theorem C79_spectrum :
  forall N A vects, let dim := length A in
  let Q := qr N dim (vects ++ repeat (repeat 1%Qc dim) (dim - length vects)) in
  square A -> symmetric A -> tall dim vects -> orthonormal vects -> (length vects <= dim)%nat ->
  (forall v, In v vects -> exists l, residual A l v = repeat 0%Qc dim) ->
  length Q = dim -> tall dim Q -> orthonormal Q -> (forall j, (j < length vects)%nat -> combination dim (firstn (S j) Q) (nth j vects [])) ->
  exists B, perform_matrix_orthogonal_projection N A vects = Ok B /\ length B = (dim - length vects)%nat /\
    forall m, (exists x, length x = dim /\ x <> repeat 0%Qc dim /\ (forall v, In v vects -> inner v x = 0%Qc) /\ residual A m x = repeat 0%Qc dim) <->
              (exists y, length y = length B /\ y <> repeat 0%Qc (length B) /\ residual B m y = repeat 0%Qc (length B)).
Proof. exact C79_spectrum_pf. Qed.
Print Assumptions C79_spectrum.

Theorem C79_too_many :
  forall N A vects, (length A < length vects)%nat -> perform_matrix_orthogonal_projection N A vects = Err ValueError.
Proof. exact C79_too_many_pf. Qed.
Print Assumptions C79_too_many.

(** a matrix with the eigenvectors (3/5, 4/5) and (-4/5, 3/5), for 1 and 2; the first one is removed *)
Definition ex_factor : list (list Qc) := [[qfrac 3 5; qfrac 4 5]; [qfrac (-4) 5; qfrac 3 5]].
Definition ex_factored : numerics := mkNumerics (eigh ex_numerics) (fun _ _ => ex_factor) (norm ex_numerics).
Definition ex_deflated : list (list Qc) := [[qfrac 41 25; qfrac (-12) 25]; [qfrac (-12) 25; qfrac 34 25]].
Example C79_example : let vects := [[qfrac 3 5; qfrac 4 5]] in
  let Q := qr ex_factored 2 (vects ++ repeat (repeat 1%Qc 2) 1) in
  square ex_deflated /\ symmetric ex_deflated /\ tall 2 vects /\ orthonormal vects /\ residual ex_deflated 1 [qfrac 3 5; qfrac 4 5] = repeat 0%Qc 2 /\
  length Q = 2%nat /\ tall 2 Q /\ orthonormal Q /\ (forall j, (j < 1)%nat -> combination 2 (firstn (S j) Q) (nth j vects [])) /\
  perform_matrix_orthogonal_projection ex_factored ex_deflated vects = Ok [[qz 2]].
Proof.
  cbv zeta. split; [repeat constructor|].
  split. { intros [|[|i]] [|[|j]] Hi Hj; try reflexivity; exfalso; cbn [length ex_deflated ex_factor qr ex_factored] in *; repeat apply le_S_n in Hi; repeat apply le_S_n in Hj; solve [inversion Hi | inversion Hj]. }
  split; [repeat constructor|].
  split. { intros [|i] [|j] Hi Hj; try (exfalso; cbn in *; apply le_S_n in Hi; inversion Hi; fail); try (exfalso; cbn in *; apply le_S_n in Hj; inversion Hj; fail). apply Qc_is_canon. vm_compute. reflexivity. }
  split; [unfold residual; cbn [length ex_deflated seq map repeat]; repeat f_equal; apply Qc_is_canon; vm_compute; reflexivity|]. split; [reflexivity|]. split; [repeat constructor|].
  split. { intros [|[|i]] [|[|j]] Hi Hj; try (apply Qc_is_canon; vm_compute; reflexivity); exfalso; cbn [length ex_deflated ex_factor qr ex_factored] in *; repeat apply le_S_n in Hi; repeat apply le_S_n in Hj; solve [inversion Hi | inversion Hj]. }
  split. { intros [|j] Hj; [|exfalso; apply le_S_n in Hj; inversion Hj]. exists [1%Qc]. split; [reflexivity|]. assert (X : forall a b c d : Qc, a = c -> b = d -> [a; b] = [c; d]) by (intros; congruence). apply X; apply Qc_is_canon; vm_compute; reflexivity. }
  unfold perform_matrix_orthogonal_projection. cbn. repeat f_equal. apply Qc_is_canon. vm_compute. reflexivity.
Qed.
