(** Theorems on main.py and on the functions of latticeFunctions.py that nothing calls (C82-C84). *)
From Coq Require Import String ZArith List Bool QArith Qcanon.
From Verif Require Import PyBase Runtimes Lattice Base Interact Ham Spin Prob Dav Files Emb Display Main Spec SpecTJ SpinDefs ProbDefs DavDefs FilesDefs DisplayDefs MainDefs
  Examples FSites FDav FProb FMain FMainRun.
Import ListNotations.
Open Scope Z_scope.

(** C82 *)
Theorem C82_columns :
  forall c l dets n, proper c -> construct_basis c = Ok (mkBasis c l) -> (forall d, In d dets -> fits c d) -> zlen dets <= n ->
  exists g, fill_guess c dets n = Ok g /\ zlen g = n /\ tall (length l) g /\
    (forall i j d d', nth_error dets i = Some d -> nth_error l j = Some d' ->
       (d = d' -> nth j (nth i g []) 0%Qc = 1%Qc) /\ (d <> d' -> nth j (nth i g []) 0%Qc = 0%Qc)) /\
    forall i x, (length dets <= i)%nat -> In x (nth i g []) -> x = 0%Qc.
Proof. exact C82_columns_pf. Qed.
Print Assumptions C82_columns.

Theorem C82_orthonormal :
  forall c dets n g, proper c -> (forall d, In d dets -> fits c d) -> zlen dets <= n -> fill_guess c dets n = Ok g ->
  forall i i' d d', nth_error dets i = Some d -> nth_error dets i' = Some d' ->
  (d = d' -> inner (nth i g []) (nth i' g []) = 1%Qc) /\ (d <> d' -> inner (nth i g []) (nth i' g []) = 0%Qc).
Proof. exact C82_orthonormal_pf. Qed.
Print Assumptions C82_orthonormal.

Theorem C82_too_many :
  forall c dets n, proper c -> (forall d, In d dets -> fits c d) -> 0 <= n < zlen dets -> fill_guess c dets n = Err IndexError.
Proof. exact C82_too_many_pf. Qed.
Print Assumptions C82_too_many.

Theorem C82_order_refuted :
  exists c l d d' s g, proper c /\ construct_basis c = Ok (mkBasis c l) /\
  describes (nsites c) (nholes c) (nbeta c) d s /\ describes (nsites c) (nholes c) (nbeta c) d' s /\ nth_error l 0 = Some d /\
  fill_guess c [d'] 1 = Ok g /\ nth 0 (nth 0 g []) 0%Qc = 0%Qc /\
  exists e s', describes (nsites c) (nholes c) (nbeta c) e s' /\ fill_guess c [e] 1 = Err IndexError.
Proof. exact C82_order_refuted_pf. Qed.
Print Assumptions C82_order_refuted.

Theorem C82_main :
  forall c16 c18 c81, rectangle 2 2 2 4 6 = Ok c16 -> rectangle 2 1 3 2 8 = Ok c18 -> rectangle 1 2 3 2 8 = Ok c81 ->
  (forall d, In d guesses_16 -> fits c16 d /\ forall s, describes (nsites c16) (nholes c16) (nbeta c16) d s -> alternating c16 s) /\
  (forall d, In d guesses_18 -> fits c18 d /\ forall s, describes (nsites c18) (nholes c18) (nbeta c18) d s -> ~ alternating c18 s /\ alternating c81 s) /\
  NoDup guesses_16 /\ NoDup guesses_18.
Proof. exact C82_main_pf. Qed.
Print Assumptions C82_main.

(** two determinants of the square in three columns of twelve *)
Example C82_example : proper ex22 /\ construct_basis ex22 = Ok (mkBasis ex22 ex22_basis) /\
  (forall d, In d [[0; 2; 1; 3]; [3; 1; 0; 2]] -> fits ex22 d) /\
  match fill_guess ex22 [[0; 2; 1; 3]; [3; 1; 0; 2]] 3 with
  | Ok g => map (map this) g = map (map this) [unit_vect 12 1; unit_vect 12 10; repeat 0%Qc 12]
  | Err _ => False
  end /\ fill_guess ex22 [[0; 2; 1; 3]; [3; 1; 0; 2]] 1 = Err IndexError.
Proof.
  split; [unfold proper; vm_compute; intuition congruence|]. split; [vm_compute; reflexivity|]. split; [|vm_compute; auto].
  intros d Hd. assert (Hp : In d ex22_basis) by (destruct Hd as [<-|[<-|[]]]; vm_compute; tauto).
  destruct (In_nth_error _ _ Hp) as (k & Hk). split.
  - destruct Hd as [<-|[<-|[]]]; [exists [0], [2], [1; 3] | exists [3], [1], [0; 2]]; vm_compute; repeat split; repeat constructor.
  - exists (ex22_states k). exact (ex22_listed k d Hk).
Qed.
Example C82_main_example : (exists c, rectangle 2 2 2 4 6 = Ok c /\ nsites c = 16 /\ nb_conf c = 1681680) /\ (exists c, rectangle 2 1 3 2 8 = Ok c /\ nsites c = 18) /\
  exists c, rectangle 1 2 3 2 8 = Ok c /\ nsites c = 18.
Proof.
  assert (K : forall h v k holes beta, 1 <= h -> 1 <= v -> 1 <= k -> exists c, rectangle h v k holes beta = Ok c /\ nsites c = (k * h) * (k * v) /\
    nb_conf c = compute_dimension ((k * h) * (k * v)) ((k * h) * (k * v) - holes - beta) beta).
  { intros h v k holes beta A B C. destruct (rectangle_ok h v k holes beta A B C) as (c & H & (_ & N & _ & Hb & Ha & D & _)). exists c. rewrite D, Ha, Hb, N. auto. }
  split; [|split].
  - destruct (K 2 2 2 4 6) as (c & H & N & D); [discriminate | discriminate | discriminate |]. exists c. rewrite N, D. split; [exact H | vm_compute; auto].
  - destruct (K 2 1 3 2 8) as (c & H & N & D); [discriminate | discriminate | discriminate |]. exists c. rewrite N. auto.
  - destruct (K 1 2 3 2 8) as (c & H & N & D); [discriminate | discriminate | discriminate |]. exists c. rewrite N. auto.
Qed.

(** C83 *)
Theorem C83_earlier :
  exists cs, mapM (fun '(h, v, s, holes, beta) => rectangle h v s holes beta) earlier = Ok cs /\
  (forall c, In c cs -> proper c) /\
  map (fun c => [nsites c; nholes c; nbeta c; nalpha c; nb_conf c]) cs =
  [[4; 1; 0; 3; 4]; [4; 1; 0; 3; 4]; [4; 0; 2; 2; 6]; [4; 2; 0; 2; 6]; [4; 3; 0; 1; 4]; [4; 0; 2; 2; 6]; [4; 0; 2; 2; 6];
   [8; 1; 0; 7; 8]; [8; 2; 0; 6; 28]; [8; 3; 0; 5; 56];
   [9; 1; 0; 8; 9]; [9; 1; 4; 4; 630]; [9; 1; 4; 4; 630]; [9; 1; 4; 4; 630]; [9; 2; 0; 7; 36]; [9; 2; 3; 4; 1260]; [9; 3; 0; 6; 84]; [9; 3; 3; 3; 1680]; [9; 0; 0; 9; 1]].
Proof. exact C83_earlier_pf. Qed.
Print Assumptions C83_earlier.

Theorem C83_missing :
  forall E N rand fs e, load_data fs "tJHam-1888Full.json" = Err e -> main_script E N rand fs = (fs, Err e).
Proof. exact C83_missing_pf. Qed.
Print Assumptions C83_missing.

Theorem C83_script :
  forall E N rand fs fs' p, main_script E N rand fs = (fs', Ok p) ->
  exists c dc0 dc gs, rectangle_of 2 1 3 2 8 c /\ load_data fs "tJHam-1888Full.json" = Ok dc0 /\
    embedding_neel E N rand fs (data_18 c) (qfrac 1 1000000) 1000 10 = (fs', Ok dc) /\
    nth_error (e_vals (dc_eig dc)) 0 = Some (embedded_energy p) /\ isolated_energy p = embedded_energy p /\
    nth_error (e_vects (dc_eig dc)) 0 = Some gs /\
    (forall st, listed 18 2 8 (dc_dets dc0) st -> (length gs <= length (dc_dets dc0))%nat ->
       exists idx, largest gs idx /\ length idx = Nat.min 50 (length gs) /\
         dominant_lines p = map (fun i => ((Z.of_nat i, nth i gs 0%Qc), paragraph (rectangle_lines 6 3 (st i)))) idx) /\
    forall name, name <> "Peripheral_embedding/tJHam-1888Full.json"%string -> load_data fs' name = load_data fs name.
Proof. exact C83_script_pf. Qed.
Print Assumptions C83_script.

Theorem C83_file :
  forall E N rand fs fs' p, main_script E N rand fs = (fs', Ok p) ->
  exists dc, rectangle_of 2 1 3 2 8 (d_conf (dc_data dc)) /\
    (let K := d_inter (dc_data dc) in
     map this [i_t K; i_J K; i_Jhpar K; i_Jhper K; i_hSDpar K; i_hSDper K; i_tNNN K; i_tnNNN K; i_VNN K; i_VNNNper K] =
       [(-11 # 20); (123 # 1000); (39 # 250); (13 # 125); (-2 # 25); (-41 # 1000); (14 # 125); (-47 # 1000); (177 # 100); (79 # 100)]%Q) /\
    d_bools (dc_data dc) = mkBools (mkSwitches true true true true true true) false /\
    (let g := d_diag (dc_data dc) in g_nb_val g = 4 /\ g_stp g = 10000 /\ this (g_tol g) = (1 # 10000)%Q /\ g_dim_max g = 1000 /\ g_guess g = None) /\
    dc_times dc = None /\ nth_error (e_vals (dc_eig dc)) 0 = Some (embedded_energy p) /\
    (complete dc -> exists r, load_data fs' "Peripheral_embedding/tJHam-1888Full.json" = Ok r /\ reloaded dc r).
Proof. exact C83_file_pf. Qed.
Print Assumptions C83_file.

(** a run that ends, with a file of the 1969110 determinants *)
Theorem C83_run :
  forall E, set_iter_ok E -> exists N rand fs fs' p, main_script E N rand fs = (fs', Ok p).
Proof. exact C83_run_pf. Qed.
Print Assumptions C83_run.

Example C83_example : load_data [] "tJHam-1888Full.json" = Err FileNotFoundError /\
  load_data [("tJHam-1888Full.json"%string, None)] "tJHam-1888Full.json" = Err ValueError.
Proof. vm_compute. auto. Qed.

(** C84 *)
Theorem C84_K :
  forall dim, 2 <= dim -> exists m, build_K_matrix dim = Ok m /\ mrows m = 4 /\ mcols m = dim /\
  forall i j, 0 <= i < 4 -> 0 <= j < dim ->
  (mat_at m i j = 1 <-> i = 0 /\ j = 0 \/ i = 1 /\ j = 1 \/ i = 2 /\ j = dim - 2 \/ i = 3 /\ j = dim - 1) /\ (mat_at m i j = 0 \/ mat_at m i j = 1).
Proof. exact C84_K_pf. Qed.
Print Assumptions C84_K.

Theorem C84_L :
  forall dim, 1 <= dim -> exists m, build_L_matrix dim = Ok m /\ mrows m = dim /\ mcols m = 4 /\
  forall i j, 0 <= i < dim -> 0 <= j < 4 -> (mat_at m i j = 1 <-> i = 0 /\ j = 1 \/ i = dim - 1 /\ j = 2) /\ (mat_at m i j = 0 \/ mat_at m i j = 1).
Proof. exact C84_L_pf. Qed.
Print Assumptions C84_L.

Theorem C84_small :
  forall dim,
  (dim < 0 -> build_K_matrix dim = Err ValueError /\ build_L_matrix dim = Err ValueError) /\
  (0 <= dim < 2 -> build_K_matrix dim = Err IndexError) /\ (dim = 0 -> build_L_matrix dim = Err IndexError).
Proof. exact C84_small_pf. Qed.
Print Assumptions C84_small.

Example C84_example :
  match build_K_matrix 5 with Ok m => map (fun i => map (mat_at m i) (zrange 0 5)) (zrange 0 4) | Err _ => [] end =
    [[1; 0; 0; 0; 0]; [0; 1; 0; 0; 0]; [0; 0; 0; 1; 0]; [0; 0; 0; 0; 1]] /\
  match build_L_matrix 3 with Ok m => map (fun i => map (mat_at m i) (zrange 0 4)) (zrange 0 3) | Err _ => [] end = [[0; 1; 0; 0]; [0; 0; 0; 0]; [0; 0; 1; 0]].
Proof. vm_compute. auto. Qed.
