(** Theorems on runs and result files (C52-C55, C68, C103). *)
From Coq Require Import ZArith String List Bool QArith Qcanon.
From Verif Require Import PyBase Runtimes Lattice Base Interact Ham Spin Prob Dav Spec SpecTJ SpinDefs Geometry HamSpec DavDefs Files FilesDefs FDav Examples FInter FFiles FRun FWritten DrawnDefs FDraw FDrawn FRunDrawn.
Import ListNotations.
Open Scope Z_scope.

(** C52 *)
Theorem C52_spelled :
  forall c s, result_name c s =
  append "tJHam-" (append (str_of_int (nsites c)) (append (str_of_int (nalpha c)) (append (str_of_int (nbeta c))
    (if s_bt s && s_bz s && s_bij s && s_bSD s && s_btN s && s_bV s then "Full.json" else
     append (if s_bSD s then "SD" else "") (append (if s_bV s then "V" else "") (append (if s_bij s then "J" else "")
       (append (if s_bt s then "t" else "") (append (if s_btN s then "tN" else "") ".json")))))))).
Proof. exact C52_spelled_pf. Qed.
Print Assumptions C52_spelled.

Theorem C52_injective :
  forall c c' s s', counts c -> counts c' -> nsites c <= 10 -> nsites c' <= 10 ->
  result_name c s = result_name c' s' -> same_counts c c' /\ same_five s s' /\ (five_on s -> s_bz s = s_bz s').
Proof. exact C52_injective_pf. Qed.
Print Assumptions C52_injective.

Theorem C52_switches :
  forall c c' s s', counts c -> counts c' ->
  result_name c s = result_name c' s' -> same_five s s' /\ (five_on s -> s_bz s = s_bz s').
Proof. exact C52_switches_pf. Qed.
Print Assumptions C52_switches.

Example C52_example : counts ex22 /\ nsites ex22 <= 10 /\
  result_name ex22 (mkSwitches true true true true true true) = "tJHam-421Full.json"%string /\
  result_name ex22 (mkSwitches true true true true true false) = "tJHam-421SDJttN.json"%string /\
  result_name (ex_rect 9 2 1 2 8) (mkSwitches true false true true true true) = "tJHam-1888SDVJttN.json"%string.
Proof. vm_compute. repeat split; congruence. Qed.

Theorem C52_static_refuted :
  exists s s', s_bz s <> s_bz s' /\ forall c, result_name c s = result_name c s'.
Proof. exact C52_static_refuted_pf. Qed.
Print Assumptions C52_static_refuted.

Theorem C52_sizes_refuted :
  exists c c' s, counts c /\ counts c' /\ bond_matrix c = bond_matrix c' /\ nsites c = 11 /\ nholes c = nholes c' /\ nalpha c = 1 /\ nalpha c' = 11 /\
  result_name c s = result_name c' s.
Proof. exact C52_sizes_refuted_pf. Qed.
Print Assumptions C52_sizes_refuted.

(** C53 *)
Theorem C53_reload :
  forall fs dc fs' dc', complete dc -> save_data fs dc = (fs', Ok dc') ->
  exists r, load_data fs' (file_of dc) = Ok r /\ reloaded dc r.
Proof. exact C53_reload_pf. Qed.
Print Assumptions C53_reload.

(** The text of the file. *)
Theorem C53_written :
  forall fs dc fs' dc' t, complete dc -> dc_times dc = Some t -> save_data fs dc = (fs', Ok dc') ->
  exists j, fs_get fs' (file_of dc) = Some (Some j) /\ tells dc t j.
Proof. exact C53_written_pf. Qed.
Print Assumptions C53_written.

Example C53_written_example : complete (ex_saved ex22) /\ exists t fs' dc' j, dc_times (ex_saved ex22) = Some t /\ save_data [] (ex_saved ex22) = (fs', Ok dc') /\
  fs_get fs' "tJHam-421Full.json" = Some (Some j) /\ at_path ["configuration"; "nalpha"]%string j = Some (JInt 2) /\
  at_path ["configuration"; "lattice_type"]%string j = Some (JStr "periodic") /\ at_path ["configuration"; "spin"]%string j = None.
Proof.
  split; [apply ex_saved_complete; [|vm_compute; discriminate]; apply (ex_made _ 1 1 (RList []) Periodic 1 1 2); [reflexivity | vm_compute; discriminate | reflexivity]|].
  do 4 eexists. split; [reflexivity|]. split; [reflexivity|]. split; [reflexivity|]. split; [reflexivity|]. split; reflexivity.
Qed.

Theorem C53_saves :
  forall fs dc, snd (save_data fs dc) = match dc_times dc with
  | Some _ => Ok (mkDC (mkData (d_conf (dc_data dc)) (d_inter (dc_data dc)) (with_guess (d_diag (dc_data dc)) None) (d_bools (dc_data dc)))
                       (dc_dets dc) (dc_ham dc) (dc_eig dc) (dc_times dc))
  | None => Err AttributeError end.
Proof. exact C53_saves_pf. Qed.
Print Assumptions C53_saves.

Theorem C53_others :
  forall fs dc name, name <> file_of dc -> load_data (fst (save_data fs dc)) name = load_data fs name.
Proof. exact C53_others_pf. Qed.
Print Assumptions C53_others.

Theorem C53_unknown :
  forall fs name, (forall x, ~ In (name, x) fs) -> load_data fs name = Err FileNotFoundError.
Proof. exact C53_unknown_pf. Qed.
Print Assumptions C53_unknown.

Theorem C53_without_times :
  forall fs dc, dc_times dc = None -> snd (save_data fs dc) = Err AttributeError /\
  load_data (fst (save_data fs dc)) (file_of dc) = Err ValueError.
Proof. exact C53_without_times_pf. Qed.
Print Assumptions C53_without_times.

Theorem C53_lattice_type :
  forall fs dc fs' dc' r, complete dc -> save_data fs dc = (fs', Ok dc') -> load_data fs' (file_of dc) = Ok r ->
  lattice_type (d_conf (dc_data r)) = Periodic /\
  forall E x, get_neighbors E x (bond_matrix (d_conf (dc_data r))) (sites_restriction (d_conf (dc_data r))) = Err TypeError.
Proof. exact C53_lattice_type_pf. Qed.
Print Assumptions C53_lattice_type.

Theorem C53_restored_refuted :
  exists dc r, complete dc /\ load_data (fst (save_data [] dc)) (file_of dc) = Ok r /\
  lattice_type (d_conf (dc_data dc)) = Clusters /\ lattice_type (d_conf (dc_data r)) = Periodic /\
  exists E l, set_iter_ok E /\ get_neighbors E 0 (bond_matrix (d_conf (dc_data dc))) (sites_restriction (d_conf (dc_data dc))) = Ok l /\
    get_neighbors E 0 (bond_matrix (d_conf (dc_data r))) (sites_restriction (d_conf (dc_data r))) = Err TypeError.
Proof. exact C53_restored_refuted_pf. Qed.
Print Assumptions C53_restored_refuted.

Example C53_example : complete (ex_saved ex22) /\ exists fs' dc' r, save_data [] (ex_saved ex22) = (fs', Ok dc') /\
  map fst fs' = ["tJHam-421Full.json"%string] /\ load_data fs' "tJHam-421Full.json" = Ok r /\ csr_at (dc_ham r) 0 0 = 1%Qc /\ e_vals (dc_eig r) = [1%Qc].
Proof.
  assert (C : complete (ex_saved ex22)).
  { apply ex_saved_complete; [|vm_compute; discriminate]. apply (ex_made _ 1 1 (RList []) Periodic 1 1 2); [reflexivity | vm_compute; discriminate | reflexivity]. }
  split; [exact C|]. destruct (save_data [] (ex_saved ex22)) as [fs' [dc'|e]] eqn:Q; [|discriminate Q].
  destruct (C53_reload _ _ _ _ C Q) as (r & L & R). exists fs', dc', r. split; [reflexivity|].
  split; [replace fs' with (fst (save_data [] (ex_saved ex22))) by (now rewrite Q); vm_compute; reflexivity|].
  split; [exact L|]. destruct R as (_ & _ & _ & _ & _ & RE & _ & _ & RH). split; [rewrite RH; apply Qc_is_canon; vm_compute; reflexivity | rewrite RE; reflexivity].
Qed.

(** C54 *)
Theorem C54_sweep :
  forall E N roots rand tm fs d fs' r, qr_shape N -> good_guesses rand d ->
  made (d_conf d) -> nsites (d_conf d) <= 10 -> 0 <= nholes (d_conf d) <= nsites (d_conf d) -> 0 <= g_nb_val (d_diag d) -> 0 <= g_dim_max (d_diag d) ->
  perform_configurations_computations E N roots rand tm fs d = (fs', r) ->
  exists m, 0 <= m /\ (forall d', r = Ok d' -> m = nsites (d_conf d) - nholes (d_conf d) + 1) /\ (forall e, r = Err e -> m <= nsites (d_conf d) - nholes (d_conf d)) /\
    (forall alpha, 0 <= alpha < m -> exists dc back, sector_run E N roots rand tm d alpha dc /\ load_data fs' (file_of dc) = Ok back /\ reloaded dc back) /\
    (forall name, (forall alpha dc, 0 <= alpha < m -> sector_run E N roots rand tm d alpha dc -> name <> file_of dc) -> load_data fs' name = load_data fs name).
Proof. exact C54_sweep_pf. Qed.
Print Assumptions C54_sweep.

Theorem C54_one_file_each :
  forall E N roots rand tm d fs' d',
  made (d_conf d) -> nsites (d_conf d) <= 10 -> 0 <= nholes (d_conf d) <= nsites (d_conf d) ->
  perform_configurations_computations E N roots rand tm [] d = (fs', Ok d') ->
  Forall2 (fun alpha name => exists dc, sector_run E N roots rand tm d alpha dc /\ name = file_of dc)
    (zrange 0 (nsites (d_conf d) - nholes (d_conf d) + 1)) (map fst fs') /\ NoDup (map fst fs').
Proof. exact C54_one_file_each_pf. Qed.
Print Assumptions C54_one_file_each.

Theorem C54_eleven_sites :
  forall E N roots rand tm fs d fs' d', qr_shape N -> good_guesses rand d ->
  made (d_conf d) -> nsites (d_conf d) = 11 -> nholes (d_conf d) = 0 -> 0 <= g_nb_val (d_diag d) -> 0 <= g_dim_max (d_diag d) ->
  perform_configurations_computations E N roots rand tm fs d = (fs', Ok d') ->
  exists dc back, sector_run E N roots rand tm d 1 dc /\ load_data fs' (file_of dc) = Ok back /\ nalpha (d_conf (dc_data dc)) = 1 /\ nalpha (d_conf (dc_data back)) = 11.
Proof. exact C54_eleven_sites_pf. Qed.
Print Assumptions C54_eleven_sites.

Theorem C54_eleven_refuted :
  exists E N roots rand tm d fs' d' dc back, set_iter_ok E /\ qr_shape N /\ made (d_conf d) /\ nsites (d_conf d) = 11 /\ nholes (d_conf d) = 0 /\
  perform_configurations_computations E N roots rand tm [] d = (fs', Ok d') /\ sector_run E N roots rand tm d 1 dc /\
  load_data fs' (file_of dc) = Ok back /\ nalpha (d_conf (dc_data dc)) = 1 /\ nalpha (d_conf (dc_data back)) = 11.
Proof. exact C54_eleven_refuted_pf. Qed.
Print Assumptions C54_eleven_refuted.

Theorem C54_lattice_type_refuted :
  exists c c', made c /\ sector_configuration c (nalpha c) = Ok c' /\ lattice_type c = Clusters /\ lattice_type c' = Periodic.
Proof. exact C54_lattice_type_refuted_pf. Qed.
Print Assumptions C54_lattice_type_refuted.

(** two sites, one hole: one up or one down *)
Example C54_example : let d := ex_sweep (ex_rect 2 1 1 1 1) only_z in
  qr_shape ex_numerics /\ good_guesses (fun _ n _ => ex_rand n) d /\ made (d_conf d) /\ nsites (d_conf d) = 2 /\
  map fst (fst (ex_swept d)) = ["tJHam-201.json"; "tJHam-210.json"]%string /\ is_ok (snd (ex_swept d)) = true.
Proof.
  cbv zeta. split; [exact ex_qr_shape|]. split; [apply ex_rand_good|]. split.
  { apply (ex_made _ 1 1 (RList []) Periodic 2 1 1); [reflexivity | vm_compute; discriminate | reflexivity]. }
  vm_compute. auto.
Qed.

(** C55 *)
Theorem C55_lookup :
  forall c s, counts c -> embedding_name c s = result_name c s <-> five_on s.
Proof. exact C55_lookup_pf. Qed.
Print Assumptions C55_lookup.

Theorem C55_any_saved :
  forall c c' s s', counts c -> counts c' -> nsites c <= 10 -> nsites c' <= 10 ->
  embedding_name c s = result_name c' s' <-> same_counts c c' /\ five_on s' /\ (s_bz s' = true <-> five_on s /\ s_bz s = true).
Proof. exact C55_any_saved_pf. Qed.
Print Assumptions C55_any_saved.

Theorem C55_missing :
  forall dc fs' dc', let c := d_conf (dc_data dc) in let s := s_of (d_bools (dc_data dc)) in
  counts c -> ~ five_on s -> save_data [] dc = (fs', Ok dc') -> load_data fs' (embedding_name c s) = Err FileNotFoundError.
Proof. exact C55_missing_pf. Qed.
Print Assumptions C55_missing.

Theorem C55_wrong_run_refuted :
  exists c s s', counts c /\ ~ same_five s s' /\ embedding_name c s = result_name c s'.
Proof. exact C55_wrong_run_refuted_pf. Qed.
Print Assumptions C55_wrong_run_refuted.

Example C55_example : ~ five_on only_t /\ result_name ex22 only_t = "tJHam-421t.json"%string /\ embedding_name ex22 only_t = "tJHam-421SDVJttN.json"%string /\
  five_on (mkSwitches true false true true true true) /\ embedding_name ex22 (mkSwitches true false true true true true) = "tJHam-421SDVJttN.json"%string.
Proof. split; [intros (_ & H & _); discriminate H|]. vm_compute. auto 10. Qed.

(** C68 *)
Theorem C68_run :
  forall E N roots rand tm d w r, set_iter_ok E -> filled (d_conf d) w r ->
  let c := d_conf d in let g := d_diag d in
  exists l ham st, assembled E c (d_inter d) (s_of (d_bools d)) (RList []) l ham /\
    (forall i x, nth_error l i = Some x -> describes (nsites c) (nholes c) (nbeta c) x (st i) /\ sector (nsites c) (nholes c) (nbeta c) (st i)) /\
    let H := tj_matrix (between (nsites c) (point w) r r) (d_inter d) (s_of (d_bools d)) st (length l) in
    let dim := Z.of_nat (length l) in
    let guess := match g_guess g with Some v => v | None => rand dim (Z.min (g_nb_val g) (if g_dim_max g =? 0 then dim else g_dim_max g)) end in
    perform_initial_computations E N roots rand tm d =
      match modified_davidson_algorithm N H (g_nb_val g) guess (g_stp g) (g_tol g) (g_dim_max g) with
      | Err e => Err e
      | Ok (_, vals, vects) =>
        match (if b_spin (d_bools d) then mapM (compute_spin_number E roots c) vects else Ok []) with
        | Err e => Err e
        | Ok spins => Ok (mkDC d l ham (mkEig vals spins vects) (Some tm))
        end
      end.
Proof. exact C68_run_pf. Qed.
Print Assumptions C68_run.

Theorem C68_eigenpairs :
  forall E N roots rand tm d w r dc st, set_iter_ok E -> filled (d_conf d) w r ->
  let c := d_conf d in let g := d_diag d in
  qr_shape N -> norm_above N -> 0 <= g_nb_val g -> 0 <= g_dim_max g ->
  (forall v, g_guess g = Some v -> tall (Z.to_nat (compute_dimension (nsites c) (nalpha c) (nbeta c))) v) ->
  (forall dim nb, 0 <= dim -> tall (Z.to_nat dim) (rand dim nb)) ->
  perform_initial_computations E N roots rand tm d = Ok dc ->
  (forall i x, nth_error (dc_dets dc) i = Some x -> describes (nsites c) (nholes c) (nbeta c) x (st i)) ->
  let dim := length (dc_dets dc) in
  let H := tj_matrix (between (nsites c) (point w) r r) (d_inter d) (s_of (d_bools d)) st dim in
  let count := Z.to_nat (Z.min (g_nb_val g) (if g_dim_max g =? 0 then Z.of_nat dim else g_dim_max g)) in
  length (e_vals (dc_eig dc)) = count /\ length (e_vects (dc_eig dc)) = count /\ tall dim (e_vects (dc_eig dc)) /\
  ((forall k l x, nth_error (e_vals (dc_eig dc)) k = Some l -> nth_error (e_vects (dc_eig dc)) k = Some x ->
      (inner (residual H l x) (residual H l x) <= g_tol g * g_tol g)%Qc) \/
   exists guess, modified_davidson_algorithm N H (g_nb_val g) guess (g_stp g) (g_tol g) (g_dim_max g) = Ok (false, e_vals (dc_eig dc), e_vects (dc_eig dc))).
Proof. exact C68_eigenpairs_pf. Qed.
Print Assumptions C68_eigenpairs.

(** two sites, one up and one down, the static term on: any guess of norm one is found at once *)
Definition ex_run_data : data :=
  mkData (ex_rect 2 1 1 0 1) ex_couplings (mkDiag 1 100 (qfrac 1 1000) 0 (Some [[qfrac 3 5; qfrac 4 5]])) (mkBools only_z true).
Example C68_example : filled (d_conf ex_run_data) 2 [0; 1] /\ qr_shape ex_numerics /\ norm_above ex_numerics /\
  tall (Z.to_nat (compute_dimension 2 1 1)) [[qfrac 3 5; qfrac 4 5]] /\
  match perform_initial_computations cpython ex_numerics (fun _ => (0%Qc, 0%Qc)) (fun n _ => ex_rand n) (mkTimes 1 1 1) ex_run_data with
  | Ok dc => dc_dets dc = [[0; 1]; [1; 0]] /\ map this (e_vals (dc_eig dc)) = [-1]%Q /\ length (e_vects (dc_eig dc)) = 1%nat
  | Err _ => False
  end.
Proof.
  split. { split; [exists 2, 1, 1; vm_compute; repeat (split; [congruence|]); reflexivity|]. split; [reflexivity|]. vm_compute. intuition congruence. }
  split; [exact ex_qr_shape|]. split; [exact ex_norm_above|]. split; [repeat constructor|]. vm_compute. auto.
Qed.

(** C103: the same for any drawn lattice *)
Theorem C103_run :
  forall E N roots rand tm d pos r, set_iter_ok E -> filled_drawn E (d_conf d) pos r -> flips_agree (d_conf d) pos (d_inter d) (s_of (d_bools d)) ->
  let c := d_conf d in let g := d_diag d in
  exists l ham st, assembled E c (d_inter d) (s_of (d_bools d)) (RList []) l ham /\
    (forall i x, nth_error l i = Some x -> describes (nsites c) (nholes c) (nbeta c) x (st i) /\ sector (nsites c) (nholes c) (nbeta c) (st i)) /\
    let H := tj_matrix (between (nsites c) pos r r) (d_inter d) (s_of (d_bools d)) st (length l) in
    let dim := Z.of_nat (length l) in
    let guess := match g_guess g with Some v => v | None => rand dim (Z.min (g_nb_val g) (if g_dim_max g =? 0 then dim else g_dim_max g)) end in
    perform_initial_computations E N roots rand tm d =
      match modified_davidson_algorithm N H (g_nb_val g) guess (g_stp g) (g_tol g) (g_dim_max g) with
      | Err e => Err e
      | Ok (_, vals, vects) =>
        match (if b_spin (d_bools d) then mapM (compute_spin_number E roots c) vects else Ok []) with
        | Err e => Err e
        | Ok spins => Ok (mkDC d l ham (mkEig vals spins vects) (Some tm))
        end
      end.
Proof. exact C103_run_pf. Qed.
Print Assumptions C103_run.

Theorem C103_eigenpairs :
  forall E N roots rand tm d pos r dc st, set_iter_ok E -> filled_drawn E (d_conf d) pos r -> flips_agree (d_conf d) pos (d_inter d) (s_of (d_bools d)) ->
  let c := d_conf d in let g := d_diag d in
  qr_shape N -> norm_above N -> 0 <= g_nb_val g -> 0 <= g_dim_max g ->
  (forall v, g_guess g = Some v -> tall (Z.to_nat (compute_dimension (nsites c) (nalpha c) (nbeta c))) v) ->
  (forall dim nb, 0 <= dim -> tall (Z.to_nat dim) (rand dim nb)) ->
  perform_initial_computations E N roots rand tm d = Ok dc ->
  (forall i x, nth_error (dc_dets dc) i = Some x -> describes (nsites c) (nholes c) (nbeta c) x (st i)) ->
  let dim := length (dc_dets dc) in
  let H := tj_matrix (between (nsites c) pos r r) (d_inter d) (s_of (d_bools d)) st dim in
  let count := Z.to_nat (Z.min (g_nb_val g) (if g_dim_max g =? 0 then Z.of_nat dim else g_dim_max g)) in
  length (e_vals (dc_eig dc)) = count /\ length (e_vects (dc_eig dc)) = count /\ tall dim (e_vects (dc_eig dc)) /\
  ((forall k l x, nth_error (e_vals (dc_eig dc)) k = Some l -> nth_error (e_vects (dc_eig dc)) k = Some x ->
      (inner (residual H l x) (residual H l x) <= g_tol g * g_tol g)%Qc) \/
   exists guess, modified_davidson_algorithm N H (g_nb_val g) guess (g_stp g) (g_tol g) (g_dim_max g) = Ok (false, e_vals (dc_eig dc), e_vects (dc_eig dc))).
Proof. exact C103_eigenpairs_pf. Qed.
Print Assumptions C103_eigenpairs.

(** two squares side by side, numbered square after square, seven downs and one up, the static term on; the guess is the state with the up on site 7 *)
Definition ex_cluster_run : data :=
  mkData (get empty_conf (bm <- build_bond_matrix_block_embedding 1 1 2 ;; make_configuration bm 0 7 (RList []) Clusters 2 1 2)) ex_couplings
    (mkDiag 1 100 (qfrac 1 1000) 0 (Some [[1; 0; 0; 0; 0; 0; 0; 0]%Qc])) (mkBools only_z false).
Example C103_run_example : let pos := fun x => point 4 (ex_iso x) in
  filled_drawn ex_clusters_runtime (d_conf ex_cluster_run) pos (zrange 0 8) /\ flips_agree (d_conf ex_cluster_run) pos (d_inter ex_cluster_run) (s_of (d_bools ex_cluster_run)) /\
  tall (Z.to_nat (compute_dimension 8 1 7)) [[1; 0; 0; 0; 0; 0; 0; 0]%Qc] /\
  match perform_initial_computations ex_clusters_runtime ex_numerics (fun _ => (0%Qc, 0%Qc)) (fun n _ => ex_rand n) (mkTimes 1 1 1) ex_cluster_run with
  | Ok dc => nth_error (dc_dets dc) 0 = Some [0; 1; 2; 3; 4; 5; 6; 7] /\ map this (e_vals (dc_eig dc)) = [-2]%Q /\ length (e_vects (dc_eig dc)) = 1%nat
  | Err _ => False
  end.
Proof.
  cbv zeta. split; [|split; [left; reflexivity|split; [repeat constructor | vm_compute; auto]]].
  assert (D : drawn (d_conf ex_cluster_run) (fun x => point 4 (ex_iso x)) /\ straightness_decided ex_clusters_runtime (d_conf ex_cluster_run) (fun x => point 4 (ex_iso x))).
  { apply (same_drawn _ ex_clusters); [vm_compute; reflexivity | vm_compute; reflexivity | vm_compute; reflexivity | vm_compute; reflexivity | vm_compute; reflexivity | vm_compute; reflexivity |]. exact ex_clusters_drawn. }
  split; [apply D|]. split; [apply D|]. split; [exact ex_clusters_middle|]. split; [vm_compute; reflexivity|]. vm_compute. intuition congruence.
Qed.
