(** Model of main.py and of the two functions of latticeFunctions.py that nothing calls. *)
From Coq Require Import String ZArith List Bool QArith Qcanon.
From Verif Require Import PyBase Lattice Base Interact Ham Spin Prob Dav Files Emb Display.
Import ListNotations.
Open Scope Z_scope.

(** latticeFunctions.py:48-61 *)
Definition build_K_matrix (dim : Z) : res mat :=
  K <- mzeros 4 dim ;;
  K <- mset K 0 0 1 ;;
  K <- mset K 1 1 1 ;;
  K <- mset K 2 (dim - 2) 1 ;;
  mset K 3 (dim - 1) 1.

(** latticeFunctions.py:63-74 *)
Definition build_L_matrix (dim : Z) : res mat :=
  L <- mzeros dim 4 ;;
  L <- mset L 0 1 1 ;;
  mset L (dim - 1) 2 1.

(** [g[k, ind] = 1] on a matrix given by its columns: one IndexError for both indices *)
Definition set_one (g : cols) (k ind : Z) : res cols :=
  col <- py_get g ind ;;
  col' <- py_set col k 1%Qc ;;
  py_set g ind col'.

(** main.py:454-456 and 485-487; [n] is the literal 6 *)
Definition fill_guess (c : configuration) (dets : list det) (n : Z) : res cols :=
  if n <? 0 then Err ValueError else
  foldM (fun g p => k <- compute_hash_table c (snd p) ;; set_one g k (fst p))
    (repeat (repeat 0%Qc (Z.to_nat (nb_conf c))) (Z.to_nat n)) (enumerate dets).

(** main.py:447-453 *)
Definition guesses_16 : list det :=
  [[0; 2; 12; 14; 1; 3; 4; 6; 9; 11; 5; 7; 8; 10; 13; 15];
   [0; 2; 9; 11; 1; 3; 4; 6; 12; 14; 5; 7; 8; 10; 13; 15];
   [5; 7; 12; 14; 1; 3; 4; 6; 9; 11; 0; 2; 8; 10; 13; 15];
   [1; 3; 13; 15; 4; 6; 9; 11; 12; 14; 0; 2; 5; 7; 8; 10];
   [1; 3; 8; 10; 4; 6; 9; 11; 12; 14; 0; 2; 5; 7; 13; 15];
   [4; 6; 13; 15; 1; 3; 9; 11; 12; 14; 0; 2; 5; 7; 8; 10]].

(** main.py:478-484 *)
Definition guesses_18 : list det :=
  [[4; 13; 1; 3; 5; 7; 9; 11; 15; 17; 0; 2; 6; 8; 10; 12; 14; 16];
   [4; 13; 0; 2; 6; 8; 10; 12; 14; 16; 1; 3; 5; 7; 9; 11; 15; 17];
   [8; 9; 1; 3; 5; 7; 11; 13; 15; 17; 0; 2; 4; 6; 10; 12; 14; 16];
   [8; 9; 0; 2; 4; 6; 10; 12; 14; 16; 1; 3; 5; 7; 11; 13; 15; 17];
   [6; 11; 0; 2; 4; 8; 10; 12; 14; 16; 1; 3; 5; 7; 9; 13; 15; 17];
   [6; 11; 1; 3; 5; 7; 9; 13; 15; 17; 0; 2; 4; 8; 10; 12; 14; 16]].

(** a pair of statements such as main.py:443-445 *)
Definition rectangle (h v s holes beta : Z) : res configuration :=
  bm <- build_rectangular_bond_matrix h v s ;;
  make_configuration bm holes beta (RList []) Periodic h v s.

(** main.py:25-425: nbh, nbv, nblocs_side, nholes, nbeta of the configurations made before the guesses *)
Definition earlier : list (Z * Z * Z * Z * Z) :=
  [(1,1,2,1,0); (1,1,2,1,0); (1,1,2,0,2); (1,1,2,2,0); (1,1,2,3,0); (1,1,2,0,2); (1,1,2,0,2);
   (2,1,2,1,0); (2,1,2,2,0); (2,1,2,3,0);
   (1,1,3,1,0); (1,1,3,1,4); (1,1,3,1,4); (1,1,3,1,4); (1,1,3,2,0); (1,1,3,2,3); (1,1,3,3,0); (1,1,3,3,3); (1,1,3,0,0)].

(** main.py:246-247 *)
Definition couplings_eV : interactions :=
  mkInter (qfrac (-55) 100) (qfrac 123 1000) (qfrac 156 1000) (qfrac 104 1000) (qfrac (-80) 1000) (qfrac (-41) 1000)
    (qfrac 112 1000) (qfrac (-47) 1000) (qfrac 177 100) (qfrac 79 100).

(** main.py:489-494 *)
Definition data_18 (c : configuration) : data :=
  mkData c couplings_eV (mkDiag 4 10000 (qfrac 1 10000) 1000 None) (mkBools (mkSwitches true true true true true true) false).

(** What main.py:534-537 print: the two energies, then the lines of the loop. *)
Record printed : Type := mkPrinted {
  isolated_energy : Qc;
  embedded_energy : Qc;
  dominant_lines : list ((Z * Qc) * list Z)
}.

(** main.py:534-537 *)
Definition print_results (c : configuration) (dc : data_computations) : res printed :=
  e <- py_get (e_vals (dc_eig dc)) 0 ;;
  e' <- py_get (e_vals (dc_eig dc)) 0 ;;
  gs <- first_column (e_vects (dc_eig dc)) ;;
  ds <- get_most_dominant_determinants (dc_dets dc) gs 50 ;;
  ls <- mapM (fun p => t <- get_displayable_rectangular_lattice (AsConf c) (snd p) ;; Ok (fst p, t)) ds ;;
  Ok (mkPrinted e e' ls).

(** main.py:1-564, the statements which are not commented out: constructions, the two guesses (not used afterwards), the loading of
    line 504 (the result is not used), the embedding with its default of ten states, and what is printed. *)
Definition main_inputs : res configuration :=
  _ <- mapM (fun '(h, v, s, holes, beta) => rectangle h v s holes beta) earlier ;;
  c16 <- rectangle 2 2 2 4 6 ;;
  _ <- fill_guess c16 guesses_16 6 ;;
  c18 <- rectangle 2 1 3 2 8 ;;
  _ <- fill_guess c18 guesses_18 6 ;;
  Ok c18.
Definition after_inputs (E : runtime) (N : numerics) (rand : Z -> Z -> Z -> cols) (fs : files) (r : res configuration) : files * res printed :=
  match r with
  | Err e => (fs, Err e)
  | Ok c18 =>
    match load_data fs "tJHam-1888Full.json" with
    | Err e => (fs, Err e)
    | Ok _ =>
      let '(fs', r) := embedding_neel E N rand fs (data_18 c18) (qfrac 1 1000000) 1000 10 in
      (fs', dc <- r ;; p <- print_results c18 dc ;; _ <- rectangle 1 2 3 2 8 ;; Ok p)
    end
  end.
Definition main_script (E : runtime) (N : numerics) (rand : Z -> Z -> Z -> cols) (fs : files) : files * res printed :=
  after_inputs E N rand fs main_inputs.
