(** Theorems on the plots (C63-C65, C73, C76, C80). *)
From Coq Require Import ZArith String List Bool QArith Qcanon.
From Verif Require Import PyBase Runtimes Lattice Base Interact Ham Spin Prob Dav Files Emb Display Spec SpecTJ SpinDefs HamSpec DavDefs ProbDefs FilesDefs Examples
  FSites FProb FGeo FDav FInter FFiles FRun Post PostDefs PlotDefs FPost FPlots FTight FTight2 FTight3 FTight4 FTight5.
Import ListNotations.
Open Scope Z_scope.

(** C63 *)
Theorem C63_merged :
  forall l, merge_energies l = Ok (firsts l, map (times_in l) (firsts l)).
Proof. exact C63_merged_pf. Qed.
Print Assumptions C63_merged.

Theorem C63_values :
  forall l, NoDup (firsts l) /\ (forall x, In x (firsts l) <-> In x l).
Proof. exact C63_values_pf. Qed.
Print Assumptions C63_values.

Theorem C63_total :
  forall l, int_total (map (times_in l) (firsts l)) = zlen l.
Proof. exact C63_total_pf. Qed.
Print Assumptions C63_total.

Theorem C63_drawn :
  forall dc, save_spectrum dc = Ok (DSpectrum (append (picture (d_conf (dc_data dc)) "Spectrum") ".png") (spectrum_lines (e_vals (dc_eig dc)))).
Proof. exact C63_drawn_pf. Qed.
Print Assumptions C63_drawn.

Theorem C63_lines :
  forall l, length (spectrum_lines l) = length l.
Proof. exact C63_lines_pf. Qed.
Print Assumptions C63_lines.

Example C63_example : merge_energies [qz 1; qz 2; qz 1; qz 3; qz 2; qz 1] = Ok ([qz 1; qz 2; qz 3], [3; 2; 1]) /\
  spectrum_lines [qz 5; qz 5] = [((qz 1, qfrac 3 2), (qz 5, qz 5)); ((qz 2, qfrac 5 2), (qz 5, qz 5))].
Proof. split; vm_compute; reflexivity. Qed.

(** two sites, one hole and one down; two states of norm one *)
Definition ex_plot : data_computations :=
  mkDC (mkData (ex_rect 2 1 1 1 1) (mkInter 0 0 0 0 0 0 0 0 0 0) (mkDiag 2 10 0 0 None) (mkBools (mkSwitches true true true true true true) false))
    [[0; 1]; [1; 0]] (mkCsr 2 []) (mkEig [0%Qc; 1%Qc] [] [[qfrac 3 5; qfrac (-4) 5]; [qfrac 4 5; qfrac 3 5]]) None.
Definition ex_plotting : plotting := mkPlotting (fun _ _ _ => Ok tt) (fun m => [0%Qc; qfrac 7 10; m]).
Definition ex_plot_state (k : nat) : occupation := fun x => if x =? Z.of_nat k then Hole else Down.
Example ex_plot_listed : listed 2 1 1 (dc_dets ex_plot) ex_plot_state.
Proof.
  intros [|[|k]] d H; [injection H as <-| injection H as <-| destruct k; discriminate H]; apply describesb_ok; vm_compute; reflexivity.
Qed.

(** C64 *)
Theorem C64_curves :
  forall P dc n, let vs := e_vects (dc_eig dc) in let r := Z.sqrt n in 4 <= n -> Forall (fun v => v <> []) vs ->
  exists panels, plot_determinants_amplitude_repartition P dc n = Ok (DAmplitudes (append (picture (d_conf (dc_data dc)) "DeterminantsAmplitude") ".png") panels) /\
    zlen panels = Z.min (r ^ 2) (zlen vs) /\
    forall k, 0 <= k < r ^ 2 -> k < zlen vs -> exists m, peak (nth (Z.to_nat k) vs []) m /\
      nth_error panels (Z.to_nat k) = Some ((k / r, k mod r), (arange P m, map (at_least (nth (Z.to_nat k) vs [])) (arange P m))).
Proof. exact C64_curves_pf. Qed.
Print Assumptions C64_curves.

Theorem C64_single :
  forall P dc n, 1 <= n < 4 -> e_vects (dc_eig dc) <> [] -> Forall (fun v => v <> []) (e_vects (dc_eig dc)) ->
  plot_determinants_amplitude_repartition P dc n = Err TypeError.
Proof. exact C64_single_pf. Qed.
Print Assumptions C64_single.

Theorem C64_none :
  forall P dc n, n <= 0 ->
  plot_determinants_amplitude_repartition P dc n = Err ValueError /\ save_hole_probability_lattice P dc n = Err ValueError.
Proof. exact C64_none_pf. Qed.
Print Assumptions C64_none.

Theorem C64_empty :
  forall P dc n k, 4 <= n -> Z.of_nat k < Z.sqrt n ^ 2 -> nth_error (e_vects (dc_eig dc)) k = Some [] ->
  plot_determinants_amplitude_repartition P dc n = Err ValueError.
Proof. exact C64_empty_pf. Qed.
Print Assumptions C64_empty.

Example C64_example : Forall (fun v => v <> []) (e_vects (dc_eig ex_plot)) /\
  (exists name, plot_determinants_amplitude_repartition ex_plotting ex_plot 5 =
    Ok (DAmplitudes name [((0, 0), ([0%Qc; qfrac 7 10; qfrac 4 5], [2; 1; 1])); ((0, 1), ([0%Qc; qfrac 7 10; qfrac 4 5], [2; 1; 1]))])) /\
  plot_determinants_amplitude_repartition ex_plotting ex_plot 3 = Err TypeError.
Proof. split; [repeat constructor; discriminate|]. split; [eexists; vm_compute; reflexivity | vm_compute; reflexivity]. Qed.

Definition ex_void : data_computations := mkDC (dc_data ex_plot) (dc_dets ex_plot) (dc_ham ex_plot) (mkEig [0%Qc; 1%Qc] [] [[qz 1; 0%Qc]; []]) None.
Example C64_empty_example : Z.of_nat 1 < Z.sqrt 5 ^ 2 /\ nth_error (e_vects (dc_eig ex_void)) 1 = Some [].
Proof. split; reflexivity. Qed.

(** C65 *)
Theorem C65_forgotten :
  forall bt bz bij bSD btN bV bV_embedding b_spin,
  bool_attribute (make_bools bt bz bij bSD btN bV bV_embedding b_spin) "bV_embedding" = Err AttributeError.
Proof. exact C65_forgotten_pf. Qed.
Print Assumptions C65_forgotten.

Theorem C65_others :
  forall bt bz bij bSD btN bV bV_embedding b_spin, let b := make_bools bt bz bij bSD btN bV bV_embedding b_spin in
  bool_attribute b "bt" = Ok bt /\ bool_attribute b "bz" = Ok bz /\ bool_attribute b "bij" = Ok bij /\ bool_attribute b "bSD" = Ok bSD /\
  bool_attribute b "btN" = Ok btN /\ bool_attribute b "bV" = Ok bV /\ bool_attribute b "b_spin_multipicities" = Ok b_spin.
Proof. exact C65_others_pf. Qed.
Print Assumptions C65_others.

Theorem C65_never :
  forall P dc n x, save_hole_probability_lattice P dc n <> Ok x.
Proof. exact C65_never_pf. Qed.
Print Assumptions C65_never.

Theorem C65_raises :
  forall P dc st n, let c := d_conf (dc_data dc) in
  (forall x y z, exists u, interp2d P x y z = Ok u) ->
  listed (nsites c) (nholes c) (nbeta c) (dc_dets dc) st -> lattice_type c = Periodic -> 0 <= nbh c * nblocs_side c -> 0 <= nbv c * nblocs_side c ->
  nsites c = (nbh c * nblocs_side c) * (nbv c * nblocs_side c) ->
  Forall (fun v => length v = length (dc_dets dc) /\ inner v v <> 0%Qc) (e_vects (dc_eig dc)) -> 4 <= n ->
  save_hole_probability_lattice P dc n = Err AttributeError.
Proof. exact C65_raises_pf. Qed.
Print Assumptions C65_raises.

Theorem C65_interpolation :
  forall P dc st n v vs e, let c := d_conf (dc_data dc) in
  (forall x y z, interp2d P x y z = Err e) ->
  listed (nsites c) (nholes c) (nbeta c) (dc_dets dc) st -> lattice_type c = Periodic -> 0 <= nbh c * nblocs_side c -> 0 <= nbv c * nblocs_side c ->
  nsites c = (nbh c * nblocs_side c) * (nbv c * nblocs_side c) ->
  e_vects (dc_eig dc) = v :: vs -> length v = length (dc_dets dc) -> inner v v <> 0%Qc -> 4 <= n ->
  save_hole_probability_lattice P dc n = Err e.
Proof. exact C65_interpolation_pf. Qed.
Print Assumptions C65_interpolation.

Theorem C65_plots :
  forall P fs d i, 0 < nholes (d_conf d) -> p_holes i = true ->
  (exists e, snd (generate_plots_configuration P fs d i) = Err e) /\
  forall x, In x (fst (generate_plots_configuration P fs d i)) -> exists name l, x = DSpectrum name l.
Proof. exact C65_plots_pf. Qed.
Print Assumptions C65_plots.

Example C65_example : let c := d_conf (dc_data ex_plot) in
  listed (nsites c) (nholes c) (nbeta c) (dc_dets ex_plot) ex_plot_state /\ lattice_type c = Periodic /\ 0 < nholes c /\
  nsites c = (nbh c * nblocs_side c) * (nbv c * nblocs_side c) /\
  Forall (fun v => length v = length (dc_dets ex_plot) /\ inner v v <> 0%Qc) (e_vects (dc_eig ex_plot)) /\
  save_hole_probability_lattice ex_plotting ex_plot 4 = Err AttributeError /\
  exists l, generate_plots_configuration ex_plotting (fst (save_data [] (ex_saved ex22))) (dc_data (ex_saved ex22)) (mkInput 1 4 true true true true false false false false) =
    ([DSpectrum "./tJ-HamCsr/tJ-H4/Spectrum/tJ-H421.png" l], Err AttributeError).
Proof.
  cbv zeta. split; [exact ex_plot_listed|]. split; [reflexivity|]. split; [reflexivity|]. split; [reflexivity|].
  split; [repeat constructor; vm_compute; discriminate|]. split; [vm_compute; reflexivity|]. eexists. vm_compute. reflexivity.
Qed.

(** with a SciPy whose interp2d raises *)
Example C65_interpolation_example : let P := mkPlotting (fun _ _ _ => Err NameError) (fun m => [0%Qc; m]) in
  (exists v vs, e_vects (dc_eig ex_plot) = v :: vs /\ length v = length (dc_dets ex_plot) /\ inner v v <> 0%Qc) /\
  save_hole_probability_lattice P ex_plot 4 = Err NameError.
Proof. split; [|vm_compute; reflexivity]. do 2 eexists. split; [reflexivity|]. split; [reflexivity|]. vm_compute. discriminate. Qed.

(** C73 *)
Theorem C73_run_file :
  forall c s, plots_name c s = result_name c s.
Proof. exact C73_run_file_pf. Qed.
Print Assumptions C73_run_file.

Theorem C73_blocks_file :
  forall c s i o, o_dynamic o = p_dynamic i -> o_neel o = p_neel i -> o_neighbor o = p_neighbor i ->
  plots_embedding_name c s i = blocks_name c s o.
Proof. exact C73_blocks_file_pf. Qed.
Print Assumptions C73_blocks_file.

Theorem C73_ring_refuted :
  exists i, p_neel i = true /\ p_static i = false /\ p_dynamic i = false /\
  forall c s c' s', plots_embedding_name c s i <> peripheral_name c' s'.
Proof. exact C73_ring_refuted_pf. Qed.
Print Assumptions C73_ring_refuted.

Theorem C73_spectrum :
  forall P fs d i dc, spectra_only i -> load_data fs (result_name (d_conf d) (s_of (d_bools d))) = Ok dc ->
  generate_plots_configuration P fs d i = ([DSpectrum (append (picture (d_conf (dc_data dc)) "Spectrum") ".png") (spectrum_lines (e_vals (dc_eig dc)))], Ok tt).
Proof. exact C73_spectrum_pf. Qed.
Print Assumptions C73_spectrum.

Theorem C73_missing :
  forall P fs d i, (forall x, ~ In (result_name (d_conf d) (s_of (d_bools d)), x) fs) ->
  generate_plots_configuration P fs d i = ([], Err FileNotFoundError).
Proof. exact C73_missing_pf. Qed.
Print Assumptions C73_missing.

Theorem C73_sweep :
  forall P E N roots rand tm fs d fs' d' i, qr_shape N -> good_guesses rand d ->
  made (d_conf d) -> nsites (d_conf d) <= 10 -> 0 <= nholes (d_conf d) <= nsites (d_conf d) -> 0 <= g_nb_val (d_diag d) -> 0 <= g_dim_max (d_diag d) ->
  perform_configurations_computations E N roots rand tm fs d = (fs', Ok d') -> spectra_only i ->
  exists pictures, generate_plots P fs' d i = (pictures, Ok tt) /\
    Forall2 (fun alpha x => exists dc, sector_run E N roots rand tm d alpha dc /\ spectrum_of dc x) (zrange 0 (nsites (d_conf d) - nholes (d_conf d) + 1)) pictures.
Proof. exact C73_sweep_pf. Qed.
Print Assumptions C73_sweep.

Example C73_example : let d := ex_sweep (ex_rect 2 1 1 1 1) only_z in let i := mkInput 1 4 true false false false false false false false in
  qr_shape ex_numerics /\ good_guesses (fun _ n _ => ex_rand n) d /\ made (d_conf d) /\ nsites (d_conf d) = 2 /\ is_ok (snd (ex_swept d)) = true /\ spectra_only i /\
  exists l l', generate_plots ex_plotting (fst (ex_swept d)) d i =
    ([DSpectrum "./tJ-HamCsr/tJ-H2/Spectrum/tJ-H201.png" l; DSpectrum "./tJ-HamCsr/tJ-H2/Spectrum/tJ-H210.png" l'], Ok tt).
Proof.
  cbv zeta. split; [exact ex_qr_shape|]. split; [apply ex_rand_good|]. split.
  { apply (ex_made _ 1 1 (RList []) Periodic 2 1 1); [reflexivity | vm_compute; discriminate | reflexivity]. }
  split; [reflexivity|]. split; [vm_compute; reflexivity|]. split; [repeat split|]. eexists. eexists. vm_compute. reflexivity.
Qed.

(** C76 *)
Theorem C76_bars :
  forall cluster embedding n v w st, let c := d_conf (dc_data embedding) in
  first_column (e_vects (dc_eig cluster)) = Ok v -> first_column (e_vects (dc_eig embedding)) = Ok w ->
  listed (nsites c) (nholes c) (nbeta c) (dc_dets embedding) st -> length w = length (dc_dets embedding) ->
  1 <= nblocs_side c * nbh c -> 1 <= nblocs_side c * nbv c -> (nblocs_side c * nbh c) * (nblocs_side c * nbv c) <= nsites c ->
  1 <= n <= zlen v -> n <= zlen w ->
  exists bars bars', plot_embedding_effect_on_determinants cluster embedding n = Ok (DBars (append (picture (d_conf (dc_data cluster)) "AmplitudesStaticEmbeddingNeel") ".png") bars bars') /\
    largest (Z.to_nat n) (map (fun a => (a * a)%Qc) v) bars /\ largest (Z.to_nat n) (map (fun a => (a * a)%Qc) w) bars'.
Proof. exact C76_bars_pf. Qed.
Print Assumptions C76_bars.

Theorem C76_missing :
  forall cluster embedding n v w st, let c := d_conf (dc_data embedding) in
  first_column (e_vects (dc_eig cluster)) = Ok v -> first_column (e_vects (dc_eig embedding)) = Ok w ->
  listed (nsites c) (nholes c) (nbeta c) (dc_dets embedding) st -> length w = length (dc_dets embedding) ->
  1 <= nblocs_side c * nbh c -> 1 <= nblocs_side c * nbv c -> (nblocs_side c * nbh c) * (nblocs_side c * nbv c) <= nsites c ->
  1 <= n -> w <> [] -> zlen v < n \/ zlen w < n -> plot_embedding_effect_on_determinants cluster embedding n = Err KeyError.
Proof. exact C76_missing_pf. Qed.
Print Assumptions C76_missing.

Theorem C76_run :
  forall P fs d i o dc emb v w st, let c0 := d_conf d in let s := s_of (d_bools d) in let c := d_conf (dc_data emb) in let n := Z.min (nb_conf c0) 30 in
  p_spectrum i = false -> p_holes i = false -> p_electrons i = false -> p_determinants i = false -> p_neel i = true \/ p_static i = true \/ p_dynamic i = true ->
  o_dynamic o = p_dynamic i -> o_neel o = p_neel i -> o_neighbor o = p_neighbor i ->
  load_data fs (result_name c0 s) = Ok dc -> load_data fs (blocks_name c0 s o) = Ok emb ->
  first_column (e_vects (dc_eig dc)) = Ok v -> first_column (e_vects (dc_eig emb)) = Ok w ->
  listed (nsites c) (nholes c) (nbeta c) (dc_dets emb) st -> length w = length (dc_dets emb) ->
  1 <= nblocs_side c * nbh c -> 1 <= nblocs_side c * nbv c -> (nblocs_side c * nbh c) * (nblocs_side c * nbv c) <= nsites c ->
  1 <= nb_conf c0 -> nb_conf c0 <= zlen v -> nb_conf c0 <= zlen w ->
  exists bars bars', let x := DBars (append (picture (d_conf (dc_data dc)) "AmplitudesStaticEmbeddingNeel") ".png") bars bars' in
    generate_plots_configuration P fs d i = ((if p_neel i && (p_static i || p_dynamic i) then [x; x] else [x]), Ok tt) /\
    largest (Z.to_nat n) (map (fun a => (a * a)%Qc) v) bars /\ largest (Z.to_nat n) (map (fun a => (a * a)%Qc) w) bars'.
Proof. exact C76_run_pf. Qed.
Print Assumptions C76_run.

Example C76_example : let c := d_conf (dc_data ex_plot) in
  first_column (e_vects (dc_eig ex_plot)) = Ok [qfrac 3 5; qfrac (-4) 5] /\ listed (nsites c) (nholes c) (nbeta c) (dc_dets ex_plot) ex_plot_state /\
  1 <= nblocs_side c * nbh c /\ 1 <= nblocs_side c * nbv c /\ (nblocs_side c * nbh c) * (nblocs_side c * nbv c) <= nsites c /\
  (exists name, plot_embedding_effect_on_determinants ex_plot ex_plot 2 = Ok (DBars name [qfrac 16 25; qfrac 9 25] [qfrac 16 25; qfrac 9 25])) /\
  plot_embedding_effect_on_determinants ex_plot ex_plot 3 = Err KeyError.
Proof.
  cbv zeta. split; [reflexivity|]. split; [exact ex_plot_listed|]. split; [vm_compute; discriminate|]. split; [vm_compute; discriminate|]. split; [vm_compute; discriminate|].
  split; [eexists; vm_compute; reflexivity | vm_compute; reflexivity].
Qed.

(** the result of the run written under both names *)
Example C76_run_example : let c := d_conf (dc_data ex_plot) in let sw := s_of (d_bools (dc_data ex_plot)) in let o := mkOptions false true false 0%Qc false in
  let j := result_to_json ex_plot (mkTimes 1 1 1) in let fs := [(result_name c sw, Some j); (blocks_name c sw o, Some j)] in
  let i := mkInput 1 4 false false false false true true false false in let x name := DBars name [qfrac 16 25; qfrac 9 25] [qfrac 16 25; qfrac 9 25] in
  nb_conf c = 2 /\ (exists dc, load_data fs (result_name c sw) = Ok dc /\ load_data fs (blocks_name c sw o) = Ok dc /\ dc_dets dc = dc_dets ex_plot /\
    e_vects (dc_eig dc) = e_vects (dc_eig ex_plot)) /\
  exists name, generate_plots_configuration ex_plotting fs (dc_data ex_plot) i = ([x name; x name], Ok tt).
Proof.
  split; [reflexivity|]. split.
  - eexists. split; [vm_compute; reflexivity|]. split; [vm_compute; reflexivity|]. split; vm_compute; reflexivity.
  - eexists. vm_compute. reflexivity.
Qed.

(** C80 *)
Theorem C80_charge :
  forall P dc st k v, let c := d_conf (dc_data dc) in let w := nbh c * nblocs_side c in let h := nbv c * nblocs_side c in
  (forall x y z, exists u, interp2d P x y z = Ok u) ->
  listed (nsites c) (nholes c) (nbeta c) (dc_dets dc) st -> lattice_type c = Periodic -> 0 <= w -> 0 <= h -> nsites c = w * h ->
  0 <= k -> nth_error (e_vects (dc_eig dc)) (Z.to_nat k) = Some v -> length v = length (dc_dets dc) -> inner v v = 1%Qc ->
  exists name up down charge, save_electron_probability_lattice P dc k = Ok [DElectrons name up down charge] /\
    forall x y, 0 <= x < w -> 0 <= y < h -> let at_site m := nth (Z.to_nat x) (nth (Z.to_nat (h - 1 - y)) m []) 0%Qc in
      at_site up = weight st v Up (site w (x, y)) /\ at_site down = weight st v Down (site w (x, y)) /\
      at_site charge = (weight st v Up (site w (x, y)) - weight st v Down (site w (x, y)))%Qc.
Proof. exact C80_charge_pf. Qed.
Print Assumptions C80_charge.

Theorem C80_absent :
  forall P dc k, zlen (e_vects (dc_eig dc)) <= k -> save_electron_probability_lattice P dc k = Ok [].
Proof. exact C80_absent_pf. Qed.
Print Assumptions C80_absent.

Example C80_example : let v := [qfrac 3 5; qfrac (-4) 5] in
  nth_error (e_vects (dc_eig ex_plot)) (Z.to_nat 0) = Some v /\ length v = length (dc_dets ex_plot) /\ inner v v = 1%Qc /\
  exists name, save_electron_probability_lattice ex_plotting ex_plot 0 =
    Ok [DElectrons name [[0%Qc; 0%Qc]] [[qfrac 16 25; qfrac 9 25]] [[qfrac (-16) 25; qfrac (-9) 25]]].
Proof. cbv zeta. split; [reflexivity|]. split; [reflexivity|]. split; [apply Qc_is_canon; vm_compute; reflexivity | eexists; vm_compute; reflexivity]. Qed.

Theorem C80_pictures :
  forall P fs d i dc st, let c := d_conf (dc_data dc) in let w := nbh c * nblocs_side c in let h := nbv c * nblocs_side c in let vs := e_vects (dc_eig dc) in
  (forall x y z, exists u, interp2d P x y z = Ok u) ->
  p_electrons i = true -> p_spectrum i = false -> p_holes i = false -> p_determinants i = false -> p_neel i = false -> p_static i = false -> p_dynamic i = false ->
  load_data fs (result_name (d_conf d) (s_of (d_bools d))) = Ok dc -> 0 < nalpha (d_conf d) * nbeta (d_conf d) ->
  listed (nsites c) (nholes c) (nbeta c) (dc_dets dc) st -> lattice_type c = Periodic -> 0 <= w -> 0 <= h -> nsites c = w * h ->
  Forall (fun v => length v = length (dc_dets dc) /\ inner v v = 1%Qc) vs -> 0 <= p_excited i ->
  exists pictures, generate_plots_configuration P fs d i = (pictures, Ok tt) /\ zlen pictures = Z.min (p_excited i) (zlen vs) /\
    forall k v, (k < length pictures)%nat -> nth_error vs k = Some v ->
    exists name up down charge, nth_error pictures k = Some (DElectrons name up down charge) /\
    forall x y, 0 <= x < w -> 0 <= y < h -> let at_site m := nth (Z.to_nat x) (nth (Z.to_nat (h - 1 - y)) m []) 0%Qc in
      at_site up = weight st v Up (site w (x, y)) /\ at_site down = weight st v Down (site w (x, y)) /\
      at_site charge = (weight st v Up (site w (x, y)) - weight st v Down (site w (x, y)))%Qc.
Proof. exact C80_pictures_pf. Qed.
Print Assumptions C80_pictures.

(** two sites, one down and one up; three states asked for, two computed *)
Definition ex_pair : data_computations :=
  mkDC (mkData (ex_rect 2 1 1 0 1) (mkInter 0 0 0 0 0 0 0 0 0 0) (mkDiag 2 10 0 0 None) (mkBools (mkSwitches true true true true true true) false))
    [[0; 1]; [1; 0]] (mkCsr 2 []) (mkEig [0%Qc; 1%Qc] [] [[qfrac 3 5; qfrac (-4) 5]; [qfrac 4 5; qfrac 3 5]]) None.
Definition ex_pair_state (k : nat) : occupation := fun x => if x =? Z.of_nat k then Down else Up.
Example C80_pictures_example : let c := d_conf (dc_data ex_pair) in let name := result_name c (s_of (d_bools (dc_data ex_pair))) in
  let fs := [(name, Some (result_to_json ex_pair (mkTimes 1 1 1)))] in let i := mkInput 3 4 false false true false false false false false in
  (exists dc, load_data fs name = Ok dc /\ dc_dets dc = dc_dets ex_pair /\ e_vects (dc_eig dc) = e_vects (dc_eig ex_pair)) /\
  0 < nalpha c * nbeta c /\ listed (nsites c) (nholes c) (nbeta c) (dc_dets ex_pair) ex_pair_state /\
  Forall (fun v => length v = length (dc_dets ex_pair) /\ inner v v = 1%Qc) (e_vects (dc_eig ex_pair)) /\
  exists n1 n2, generate_plots_configuration ex_plotting fs (dc_data ex_pair) i =
    ([DElectrons n1 [[qfrac 16 25; qfrac 9 25]] [[qfrac 9 25; qfrac 16 25]] [[(qfrac 16 25 - qfrac 9 25)%Qc; (qfrac 9 25 - qfrac 16 25)%Qc]];
      DElectrons n2 [[qfrac 9 25; qfrac 16 25]] [[qfrac 16 25; qfrac 9 25]] [[(qfrac 9 25 - qfrac 16 25)%Qc; (qfrac 16 25 - qfrac 9 25)%Qc]]], Ok tt).
Proof.
  cbv zeta. split; [eexists; split; [vm_compute; reflexivity | split; vm_compute; reflexivity]|]. split; [reflexivity|].
  split; [intros [|[|k]] d H; [injection H as <-| injection H as <-| destruct k; discriminate H]; apply describesb_ok; vm_compute; reflexivity|].
  split; [repeat constructor; apply Qc_is_canon; vm_compute; reflexivity|]. do 2 eexists. vm_compute. reflexivity.
Qed.

Theorem C80_total :
  forall P dc st k v, let c := d_conf (dc_data dc) in let w := nbh c * nblocs_side c in let h := nbv c * nblocs_side c in
  (forall x y z, exists u, interp2d P x y z = Ok u) ->
  listed (nsites c) (nholes c) (nbeta c) (dc_dets dc) st -> nalpha c = nsites c - nholes c - nbeta c -> lattice_type c = Periodic -> 0 < w -> 0 < h -> nsites c = w * h ->
  0 <= k -> nth_error (e_vects (dc_eig dc)) (Z.to_nat k) = Some v -> length v = length (dc_dets dc) -> inner v v = 1%Qc ->
  exists name up down charge, save_electron_probability_lattice P dc k = Ok [DElectrons name up down charge] /\
    let all m := sum_sites (nsites c) (fun i => nth (Z.to_nat (fst (point w i))) (nth (Z.to_nat (h - 1 - snd (point w i))) m []) 0%Qc) in
    all up = qz (nalpha c) /\ all down = qz (nbeta c) /\ all charge = qz (nalpha c - nbeta c).
Proof. exact C80_total_pf. Qed.
Print Assumptions C80_total.

(** the same two sites; with one up and one down the charge adds up to zero *)
Example C80_total_example : let c := d_conf (dc_data ex_pair) in nalpha c = 1 /\ nalpha c = nsites c - nholes c - nbeta c /\ lattice_type c = Periodic /\ nbh c * nblocs_side c = 2 /\ nbv c * nblocs_side c = 1 /\ nsites c = 2 * 1.
Proof. vm_compute. intuition congruence. Qed.
