(** Model of /repo/initialComputations.py 1-313: the runs, the result files and the sweep over the sectors.
    A JSON text is the value it denotes: json.loads(json.dumps(x)) is taken to be [x], with tuples
    turned into lists.  The directory ./initialComputations is a list of named files; it exists.
    Printing and progress bars are left out. *)
From Coq Require Import ZArith String List Bool QArith Qcanon DecimalString.
From Verif Require Import PyBase Lattice Base Interact Ham Spin Prob Dav.
Import ListNotations.
Open Scope Z_scope.

(** davidson.py:14-31 *)
Record diagonalization : Type := mkDiag { g_nb_val : Z; g_stp : Z; g_tol : Qc; g_dim_max : Z; g_guess : option cols }.
(** initialComputations.py:20-41: the parameter [bV_embedding] is not stored *)
Record bool_interactions : Type := mkBools { s_of : switches; b_spin : bool }.
(** davidson.py:33-46; [None] is the spin "-" *)
Record eigenstates : Type := mkEig { e_vals : list Qc; e_spins : list (option Qc); e_vects : cols }.
(** initialComputations.py:43-56 *)
Record times : Type := mkTimes { t_basis : Qc; t_hamiltonian : Qc; t_eigenstates : Qc }.
(** initialComputations.py:58-73 *)
Record data : Type := mkData { d_conf : configuration; d_inter : interactions; d_diag : diagonalization; d_bools : bool_interactions }.
(** initialComputations.py:75-81 *)
Record data_computations : Type := mkDC { dc_data : data; dc_dets : list det; dc_ham : csr; dc_eig : eigenstates; dc_times : option times }.

(** the matrix handed to davidson.py, as rows *)
Definition csr_dense (m : csr) : list vect := map (fun i => map (csr_at m i) (zrange 0 (csr_dim m))) (zrange 0 (csr_dim m)).

(** davidson.py:249-250: a missing guess is [np.random.rand(dim, nb_val)] *)
Definition first_guess (rand : Z -> Z -> cols) (dim : Z) (g : diagonalization) : cols :=
  match g_guess g with
  | Some v => v
  | None => rand dim (Z.min (g_nb_val g) (if g_dim_max g =? 0 then dim else g_dim_max g))
  end.

(** initialComputations.py:85-138.  [rand] is numpy's random matrix, [roots] np.roots, [tm] the three durations. *)
Definition perform_initial_computations (E : runtime) (N : numerics) (roots : Qc -> Qc * Qc) (rand : Z -> Z -> cols) (tm : times)
    (d : data) : res data_computations :=
  let c := d_conf d in
  let g := d_diag d in
  b <- construct_basis c ;;
  ham <- build_hamiltonian E c (d_inter d) b (s_of (d_bools d)) (RList []) ;;
  r <- modified_davidson_algorithm N (csr_dense ham) (g_nb_val g) (first_guess rand (csr_dim ham) g) (g_stp g) (g_tol g) (g_dim_max g) ;;
  let '(_, eigvals, eigvects) := r in
  spins <- (if b_spin (d_bools d) then mapM (fun vect => compute_spin_number E roots c vect) eigvects else Ok []) ;;
  Ok (mkDC d (determinants b) ham (mkEig eigvals spins eigvects) (Some tm)).

(** ** File names *)

(** [str(z)] *)
Definition str_of_int (z : Z) : string := NilZero.string_of_int (Z.to_int z).

(** the attributes in the order of [dir(bool_interactions)] *)
Definition dir_switches (s : switches) : list (string * bool) :=
  [("bSD"%string, s_bSD s); ("bV"%string, s_bV s); ("bij"%string, s_bij s); ("bt"%string, s_bt s); ("btN"%string, s_btN s); ("bz"%string, s_bz s)].
(** the dictionary of initialComputations.py:172 *)
Definition extension (name : string) : option string :=
  if String.eqb name "bt" then Some "t"%string
  else if String.eqb name "bij" then Some "J"%string
  else if String.eqb name "bSD" then Some "SD"%string
  else if String.eqb name "btN" then Some "tN"%string
  else if String.eqb name "bV" then Some "V"%string
  else None.
Definition all_on (s : switches) : bool := s_bt s && s_bz s && s_bij s && s_bSD s && s_btN s && s_bV s.

(** initialComputations.py:168, embedding.py:66 *)
Definition name_head (c : configuration) : string :=
  append "tJHam-" (append (str_of_int (nsites c)) (append (str_of_int (nalpha c)) (str_of_int (nbeta c)))).

(** initialComputations.py:167-176 *)
Definition result_name (c : configuration) (s : switches) : string :=
  if all_on s then append (name_head c) "Full.json"
  else append (fold_left (fun name p => match extension (fst p) with
                                        | Some ext => if snd p : bool then append name ext else name
                                        | None => name
                                        end) (dir_switches s) (name_head c)) ".json".

(** embedding.py:65-74, 287-296 and 395-404: the value of the switch is not looked at *)
Definition embedding_name (c : configuration) (s : switches) : string :=
  if all_on s then append (name_head c) "Full.json"
  else append (fold_left (fun name p => match extension (fst p) with
                                        | Some ext => append name ext
                                        | None => name
                                        end) (dir_switches s) (name_head c)) ".json".

(** ** JSON *)

Inductive json : Type :=
| JNull | JBool (b : bool) | JInt (z : Z) | JFloat (q : Qc) | JStr (s : string)
| JList (l : list json) | JObj (l : list (string * json)).

Definition JInts (l : list Z) : json := JList (map JInt l).
Definition JFloats (l : list Qc) : json := JList (map JFloat l).

(** [m.tolist()] and [np.array(rows)] *)
Definition mat_rows (m : mat) : list (list Z) := map (fun i => map (mat_at m i) (zrange 0 (mcols m))) (zrange 0 (mrows m)).
Definition mat_of_rows (rows : list (list Z)) : mat :=
  mkMat (zlen rows) (zlen (nth 0 rows [])) (fun i j => nth (Z.to_nat j) (nth (Z.to_nat i) rows []) 0).

(** the attribute sites_restriction *)
Definition json_of_restriction (r : restriction) : json :=
  match r with
  | RList l => JInts l
  | RTuple a b => JList [JInts a; JInts b]
  | RNested l => JList (map JInts l)
  end.
Definition name_of_ltype (lt : ltype) : string :=
  match lt with Periodic => "periodic" | Clusters => "clusters" | Peripheral => "peripheral" end.

(** baseConstruction.py:51-59 *)
Definition configuration_to_json (c : configuration) : json :=
  JObj [("bond_matrix"%string, JList (map JInts (mat_rows (bond_matrix c))));
        ("nsites"%string, JInt (nsites c)); ("nholes"%string, JInt (nholes c)); ("nbeta"%string, JInt (nbeta c)); ("nalpha"%string, JInt (nalpha c));
        ("spin_number"%string, JFloat (qz (compute_ms2 (nalpha c) (nbeta c)) / qz 2)%Qc);
        ("doping"%string, JFloat (qz (nholes c) / qz (nsites c))%Qc);
        ("nb_conf"%string, JInt (nb_conf c));
        ("sites_restriction"%string, json_of_restriction (sites_restriction c));
        ("lattice_type"%string, JStr (name_of_ltype (lattice_type c)));
        ("nbh"%string, JInt (nbh c)); ("nbv"%string, JInt (nbv c)); ("nblocs_side"%string, JInt (nblocs_side c))].

(** [interactions.__dict__] *)
Definition interactions_to_json (I : interactions) : json :=
  JObj [("t"%string, JFloat (i_t I)); ("J"%string, JFloat (i_J I)); ("Jhpar"%string, JFloat (i_Jhpar I)); ("Jhper"%string, JFloat (i_Jhper I));
        ("hSDpar"%string, JFloat (i_hSDpar I)); ("hSDper"%string, JFloat (i_hSDper I)); ("tNNN"%string, JFloat (i_tNNN I)); ("tnNNN"%string, JFloat (i_tnNNN I));
        ("VNN"%string, JFloat (i_VNN I)); ("VNNNper"%string, JFloat (i_VNNNper I))].

(** [diagonalization.__dict__], after the guess has been dropped (initialComputations.py:165) *)
Definition diagonalization_to_json (g : diagonalization) : json :=
  JObj [("nb_val"%string, JInt (g_nb_val g)); ("stp"%string, JInt (g_stp g)); ("tol"%string, JFloat (g_tol g)); ("dim_max"%string, JInt (g_dim_max g));
        ("initial_guess"%string, JNull)].

(** [bool_interactions.__dict__] *)
Definition bools_to_json (b : bool_interactions) : json :=
  JObj [("bt"%string, JBool (s_bt (s_of b))); ("bz"%string, JBool (s_bz (s_of b))); ("bij"%string, JBool (s_bij (s_of b)));
        ("bSD"%string, JBool (s_bSD (s_of b))); ("btN"%string, JBool (s_btN (s_of b))); ("bV"%string, JBool (s_bV (s_of b)));
        ("b_spin_multipicities"%string, JBool (b_spin b))].

(** the arrays of a scipy csr matrix made by tocsr: rows in turn, columns in increasing order, repeated places summed *)
Definition row_columns (m : csr) (i : Z) : list Z :=
  zsort (nodup Z.eq_dec (map (fun p => snd p) (filter (fun p => (snd (fst p) =? i)) (csr_entries m)))).
Definition csr_data (m : csr) : list Qc := concat (map (fun i => map (csr_at m i) (row_columns m i)) (zrange 0 (csr_dim m))).
Definition csr_indices (m : csr) : list Z := concat (map (row_columns m) (zrange 0 (csr_dim m))).
Definition csr_indptr (m : csr) : list Z :=
  map (fun k => zsum (map (fun i => zlen (row_columns m i)) (zrange 0 k))) (zrange 0 (csr_dim m + 1)).

Definition hamiltonian_to_json (m : csr) : json :=
  JObj [("data"%string, JFloats (csr_data m)); ("indices"%string, JInts (csr_indices m)); ("indptr"%string, JInts (csr_indptr m))].

(** [eigvects.tolist()]: the rows of the matrix of [dim] rows with the given columns *)
Definition vects_rows (dim : Z) (vects : cols) : list (list Qc) :=
  map (fun i => map (fun v => nth (Z.to_nat i) v 0%Qc) vects) (zrange 0 dim).
Definition rows_vects (rows : list (list Qc)) : cols :=
  map (fun j => map (fun row => nth (Z.to_nat j) row 0%Qc) rows) (zrange 0 (zlen (nth 0 rows []))).

Definition json_of_spin (s : option Qc) : json := match s with Some q => JFloat q | None => JStr "-" end.
Definition eigenstates_to_json (dim : Z) (e : eigenstates) : json :=
  JObj [("eigvals"%string, JFloats (e_vals e)); ("spins"%string, JList (map json_of_spin (e_spins e)));
        ("eigvects"%string, JList (map JFloats (vects_rows dim (e_vects e))))].
Definition times_to_json (t : times) : json :=
  JObj [("tbasis"%string, JFloat (t_basis t)); ("thamiltonian"%string, JFloat (t_hamiltonian t)); ("teigenstates"%string, JFloat (t_eigenstates t))].

(** ** Files: a name and the text, [None] for an empty text *)
Definition files : Type := list (string * option json).

Fixpoint fs_put (fs : files) (name : string) (x : option json) : files :=
  match fs with
  | [] => [(name, x)]
  | (n, y) :: fs' => if String.eqb n name then (name, x) :: fs' else (n, y) :: fs_put fs' name x
  end.
Fixpoint fs_get (fs : files) (name : string) : option (option json) :=
  match fs with
  | [] => None
  | (n, y) :: fs' => if String.eqb n name then Some y else fs_get fs' name
  end.

(** initialComputations.py:165: the guess is dropped from the caller's data *)
Definition drop_guess (d : data) : data :=
  mkData (d_conf d) (d_inter d) (mkDiag (g_nb_val (d_diag d)) (g_stp (d_diag d)) (g_tol (d_diag d)) (g_dim_max (d_diag d)) None) (d_bools d).
Definition forget_guess (dc : data_computations) : data_computations :=
  mkDC (drop_guess (dc_data dc)) (dc_dets dc) (dc_ham dc) (dc_eig dc) (dc_times dc).

(** initialComputations.py:179-197 *)
Definition result_to_json (dc : data_computations) (t : times) : json :=
  JObj [("configuration"%string, configuration_to_json (d_conf (dc_data dc)));
        ("interactions"%string, interactions_to_json (d_inter (dc_data dc)));
        ("diagonalization"%string, diagonalization_to_json (d_diag (dc_data dc)));
        ("bool_interactions"%string, bools_to_json (d_bools (dc_data dc)));
        ("determinants"%string, JList (map JInts (dc_dets dc)));
        ("hamiltonian"%string, hamiltonian_to_json (dc_ham dc));
        ("eigenstates"%string, eigenstates_to_json (csr_dim (dc_ham dc)) (dc_eig dc));
        ("times"%string, times_to_json t)].

(** initialComputations.py:141-197.  The file is opened, hence emptied, before the text is made:
    without durations, [None.__dict__] raises AttributeError and the file stays empty. *)
Definition save_data (fs : files) (dc : data_computations) : files * res data_computations :=
  let dc := forget_guess dc in
  let file_name := result_name (d_conf (dc_data dc)) (s_of (d_bools (dc_data dc))) in
  match dc_times dc with
  | None => (fs_put fs file_name None, Err AttributeError)
  | Some t => (fs_put fs file_name (Some (result_to_json dc t)), Ok dc)
  end.

(** ** Reading.  A value of an unexpected JSON type is a TypeError here; Python keeps it. *)

Definition jfield (o : list (string * json)) (key : string) : option json :=
  option_map snd (find (fun p => String.eqb (fst p) key) o).
(** [o[key]] *)
Definition jget (o : list (string * json)) (key : string) : res json :=
  match jfield o key with Some x => Ok x | None => Err KeyError end.
(** argument passed by [f( **o )] *)
Definition jarg (o : list (string * json)) (key : string) : res json :=
  match jfield o key with Some x => Ok x | None => Err TypeError end.
(** no other arguments than the given ones *)
Definition only_args (o : list (string * json)) (keys : list string) : res unit :=
  if forallb (fun p => existsb (String.eqb (fst p)) keys) o then Ok tt else Err TypeError.

Definition jobj (j : json) : res (list (string * json)) := match j with JObj l => Ok l | _ => Err TypeError end.
Definition jint (j : json) : res Z := match j with JInt z => Ok z | _ => Err TypeError end.
Definition jbool (j : json) : res bool := match j with JBool b => Ok b | _ => Err TypeError end.
Definition jfloat (j : json) : res Qc := match j with JFloat q => Ok q | _ => Err TypeError end.
Definition jlist {A} (f : json -> res A) (j : json) : res (list A) := match j with JList l => mapM f l | _ => Err TypeError end.
Definition jspin (j : json) : res (option Qc) :=
  match j with JFloat q => Ok (Some q) | JStr s => if String.eqb s "-" then Ok None else Err TypeError | _ => Err TypeError end.
Definition jrestriction (j : json) : res restriction :=
  match jlist jint j with
  | Ok l => Ok (RList l)
  | Err _ => l <- jlist (jlist jint) j ;; Ok (RNested l)
  end.

(** [sp.csr_matrix((data, indices, indptr), shape=(dim, dim))]: the checks of check_format *)
Definition csr_of_arrays (dim : Z) (data : list Qc) (indices indptr : list Z) : res csr :=
  if (zlen indptr =? dim + 1) && (nth 0 indptr 0 =? 0) && (zlen indices =? zlen data) && (last indptr 0 <=? zlen indices)
  then Ok (mkCsr dim (concat (map (fun i =>
         map (fun k => (nth (Z.to_nat k) data 0%Qc, i, nth (Z.to_nat k) indices 0))
             (zrange (nth (Z.to_nat i) indptr 0) (nth (Z.to_nat (i + 1)) indptr 0))) (zrange 0 dim))))
  else Err ValueError.

(** [setattr(configuration_class, key, configuration[key])] for the sizes (initialComputations.py:221-223) *)
Definition optional_int (o : list (string * json)) (key : string) (default : Z) : res Z :=
  match jfield o key with Some x => jint x | None => Ok default end.

(** initialComputations.py:218-223 *)
Definition recover_configuration (o : list (string * json)) : res configuration :=
  bm <- jget o "bond_matrix" ;;
  rows <- jlist (jlist jint) bm ;;
  h <- jget o "nholes" ;; h <- jint h ;;
  b <- jget o "nbeta" ;; b <- jint b ;;
  c <- make_configuration (mat_of_rows rows) h b (RList []) Periodic 0 0 0 ;;
  r <- match jfield o "sites_restriction" with Some x => jrestriction x | None => Ok (sites_restriction c) end ;;
  x <- optional_int o "nbh" (nbh c) ;;
  y <- optional_int o "nbv" (nbv c) ;;
  s <- optional_int o "nblocs_side" (nblocs_side c) ;;
  Ok (mkConf (bond_matrix c) (nsites c) (nholes c) (nbeta c) (nalpha c) (nb_conf c) r (lattice_type c) x y s).

(** [itr.Interactions( **interactions )] *)
Definition recover_interactions (o : list (string * json)) : res interactions :=
  _ <- only_args o ["t"; "J"; "Jhpar"; "Jhper"; "hSDpar"; "hSDper"; "tNNN"; "tnNNN"; "VNN"; "VNNNper"]%string ;;
  t <- jarg o "t" ;; t <- jfloat t ;;
  J <- jarg o "J" ;; J <- jfloat J ;;
  jhpar <- jarg o "Jhpar" ;; jhpar <- jfloat jhpar ;;
  jhper <- jarg o "Jhper" ;; jhper <- jfloat jhper ;;
  hpar <- jarg o "hSDpar" ;; hpar <- jfloat hpar ;;
  hper <- jarg o "hSDper" ;; hper <- jfloat hper ;;
  tN <- jarg o "tNNN" ;; tN <- jfloat tN ;;
  tnN <- jarg o "tnNNN" ;; tnN <- jfloat tnN ;;
  vn <- jarg o "VNN" ;; vn <- jfloat vn ;;
  vd <- jarg o "VNNNper" ;; vd <- jfloat vd ;;
  Ok (mkInter t J jhpar jhper hpar hper tN tnN vn vd).

(** [dav.Diagonalization( **diagonalization )]; a stored guess other than null is not modelled *)
Definition recover_diagonalization (o : list (string * json)) : res diagonalization :=
  _ <- only_args o ["nb_val"; "stp"; "tol"; "dim_max"; "initial_guess"]%string ;;
  n <- jarg o "nb_val" ;; n <- jint n ;;
  s <- jarg o "stp" ;; s <- jint s ;;
  t <- jarg o "tol" ;; t <- jfloat t ;;
  m <- jarg o "dim_max" ;; m <- jint m ;;
  match jfield o "initial_guess" with
  | None | Some JNull => Ok (mkDiag n s t m None)
  | _ => Err TypeError
  end.

(** [BoolInteractions( **bool_interactions )] *)
Definition recover_bools (o : list (string * json)) : res bool_interactions :=
  _ <- only_args o ["bt"; "bz"; "bij"; "bSD"; "btN"; "bV"; "bV_embedding"; "b_spin_multipicities"]%string ;;
  bt <- jarg o "bt" ;; bt <- jbool bt ;;
  bz <- jarg o "bz" ;; bz <- jbool bz ;;
  bij <- jarg o "bij" ;; bij <- jbool bij ;;
  bSD <- jarg o "bSD" ;; bSD <- jbool bSD ;;
  btN <- jarg o "btN" ;; btN <- jbool btN ;;
  bV <- jarg o "bV" ;; bV <- jbool bV ;;
  sp <- match jfield o "b_spin_multipicities" with Some x => jbool x | None => Ok true end ;;
  Ok (mkBools (mkSwitches bt bz bij bSD btN bV) sp).

Definition recover_hamiltonian (dim : Z) (o : list (string * json)) : res csr :=
  d <- jget o "data" ;; d <- jlist jfloat d ;;
  i <- jget o "indices" ;; i <- jlist jint i ;;
  p <- jget o "indptr" ;; p <- jlist jint p ;;
  csr_of_arrays dim d i p.

Definition recover_eigenstates (o : list (string * json)) : res eigenstates :=
  v <- jget o "eigvals" ;; v <- jlist jfloat v ;;
  s <- jget o "spins" ;; s <- jlist jspin s ;;
  w <- jget o "eigvects" ;; w <- jlist (jlist jfloat) w ;;
  Ok (mkEig v s (rows_vects w)).

(** [Times( **kwargs["times"] )] *)
Definition recover_times (o : list (string * json)) : res times :=
  _ <- only_args o ["tbasis"; "thamiltonian"; "teigenstates"]%string ;;
  a <- jarg o "tbasis" ;; a <- jfloat a ;;
  b <- jarg o "thamiltonian" ;; b <- jfloat b ;;
  c <- jarg o "teigenstates" ;; c <- jfloat c ;;
  Ok (mkTimes a b c).

(** initialComputations.py:199-250 called as [recover_results( **o )] *)
Definition recover_results (o : list (string * json)) : res data_computations :=
  jc <- jarg o "configuration" ;; jc <- jobj jc ;;
  ji <- jarg o "interactions" ;; ji <- jobj ji ;;
  jd <- jarg o "diagonalization" ;; jd <- jobj jd ;;
  jb <- jarg o "bool_interactions" ;; jb <- jobj jb ;;
  jt <- jarg o "determinants" ;; dets <- jlist (jlist jint) jt ;;
  jh <- jarg o "hamiltonian" ;; jh <- jobj jh ;;
  je <- jarg o "eigenstates" ;; je <- jobj je ;;
  c <- recover_configuration jc ;;
  I <- recover_interactions ji ;;
  g <- recover_diagonalization jd ;;
  b <- recover_bools jb ;;
  nb <- jget jc "nb_conf" ;; nb <- jint nb ;;
  m <- recover_hamiltonian nb jh ;;
  e <- recover_eigenstates je ;;
  t <- match jfield o "times" with
       | Some x => x <- jobj x ;; t <- recover_times x ;; Ok (Some t)
       | None => Ok None
       end ;;
  Ok (mkDC (mkData c I g b) dets m e t).

(** initialComputations.py:253-262; json.loads of an empty text raises JSONDecodeError, a ValueError *)
Definition load_data (fs : files) (file_name : string) : res data_computations :=
  match fs_get fs file_name with
  | None => Err FileNotFoundError
  | Some None => Err ValueError
  | Some (Some j) => o <- jobj j ;; recover_results o
  end.

(** initialComputations.py:280-292: the configuration of the next sector; lattice_type is not passed on *)
Definition sector_configuration (c : configuration) (alpha : Z) : res configuration :=
  make_configuration (bond_matrix c) (nholes c) (nsites c - nholes c - alpha) (sites_restriction c) Periodic (nbh c) (nbv c) (nblocs_side c).

(** initialComputations.py:278-313.  [rand k] and [tm k] are the random matrix and the durations of sector [k].
    The result carries the files, whatever happens, and the final data. *)
Fixpoint sweep_sectors (E : runtime) (N : numerics) (roots : Qc -> Qc * Qc) (rand : Z -> Z -> Z -> cols) (tm : Z -> times)
    (l : list Z) (fs : files) (d : data) : files * res data :=
  match l with
  | [] => (fs, Ok d)
  | alpha :: l' =>
    match sector_configuration (d_conf d) alpha with
    | Err e => (fs, Err e)
    | Ok c =>
      let d := mkData c (d_inter d) (d_diag d) (d_bools d) in
      match perform_initial_computations E N roots (rand alpha) (tm alpha) d with
      | Err e => (fs, Err e)
      | Ok dc =>
        match save_data fs dc with
        | (fs, Err e) => (fs, Err e)
        | (fs, Ok dc) => sweep_sectors E N roots rand tm l' fs (dc_data dc)
        end
      end
    end
  end.

(** initialComputations.py:265-313 *)
Definition perform_configurations_computations (E : runtime) (N : numerics) (roots : Qc -> Qc * Qc) (rand : Z -> Z -> Z -> cols) (tm : Z -> times)
    (fs : files) (d : data) : files * res data :=
  sweep_sectors E N roots rand tm (zrange 0 (nsites (d_conf d) - nholes (d_conf d) + 1)) fs d.
