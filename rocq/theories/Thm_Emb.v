(** Theorems on embeddings (C21, C56-C59, C69, C70, C77, C85, C86). *)
From Coq Require Import ZArith List Bool QArith Qcanon.
From Verif Require Import PyBase Runtimes Lattice Base Interact Ham Spin Prob Dav Files Spec SpecOps SpecTJ SpinDefs Geometry HamSpec ProbDefs Emb EmbDefs DynDefs Examples FSites FProb FDav FFiles FEmb FEmbBlock FEmbDrop FEmbEx FEmbDyn FEmbSecond FEmbOnce FTight2 FTight4 FTight5 FTight6 PBasis.
Import ListNotations.
Open Scope Z_scope.

(** C21 *)
Theorem C21_checkerboard :
  forall E h v s, set_iter_ok E -> 1 <= h -> 1 <= v -> 1 <= s ->
  describes (2 * (s * h + s * v)) 0 (zlen (beta_neel h v s)) (det_neel E h v s) (fun r => checkerboard (ring_point (s * h) (s * v) r)).
Proof. exact C21_checkerboard_pf. Qed.
Print Assumptions C21_checkerboard.

Theorem C21_opposite :
  forall p q, adjacent p q -> checkerboard p = flip_particle (checkerboard q).
Proof. exact C21_opposite_pf. Qed.
Print Assumptions C21_opposite.

Theorem C21_start :
  forall E h v s, set_iter_ok E -> 1 <= h -> 1 <= v -> 1 <= s ->
  exists p, neel_start E h v s = Ok p /\
    holds p (2 * (s * h + s * v)) (fun q r => only (samep (checkerboard (ring_point (s * h) (s * v) r)) q) 1%Qc).
Proof. exact C21_start_pf. Qed.
Print Assumptions C21_start.

Example C21_example : det_neel cpython 1 1 2 = [0; 3; 4; 7; 1; 2; 5; 6] /\
  map (fun r => (ring_point 2 2 r, checkerboard (ring_point 2 2 r))) [0; 1; 2; 3]
    = [((0, -1), Down); ((1, -1), Up); ((2, 0), Up); ((2, 1), Down)].
Proof. vm_compute. auto. Qed.

(** C56 *)
Theorem C56_dressing :
  forall E c I l st pR rho ham, let w := nblocs_side c * nbh c in let ht := nblocs_side c * nbv c in
  set_iter_ok E -> sized c -> proper c -> 2 <= w -> 2 <= ht ->
  construct_basis c = Ok (mkBasis c l) -> listed (nsites c) (nholes c) (nbeta c) l st -> csr_dim ham = zlen l ->
  holds pR (2 * (w + ht)) rho ->
  exists u h, neel_surroundings E c = Ok u /\ dress_neel I (mkBasis c l) u pR (csr_dim ham) (csr_entries ham) = Ok h /\
    (forall i j, csr_at (mkCsr (csr_dim ham) h) i j =
      (csr_at ham i j + only ((0 <=? i) && (i <? zlen l) && (i =? j))
                             (facing I (nsites c) (point w) (st (Z.to_nat i)) (2 * (w + ht)) (ring_point w ht) rho))%Qc) /\
    ((forall i j, csr_at ham i j = csr_at ham j i) -> forall i j, csr_at (mkCsr (csr_dim ham) h) i j = csr_at (mkCsr (csr_dim ham) h) j i).
Proof. exact C56_dressing_pf. Qed.
Print Assumptions C56_dressing.

Theorem C56_turn :
  forall N I g nb_val rand c l u ham pR e, neel_turn N I g nb_val rand (mkBasis c l) u ham pR = Ok e ->
  exists h k, dress_neel I (mkBasis c l) u pR (csr_dim ham) (csr_entries ham) = Ok h /\
    modified_davidson_algorithm N (csr_dense (mkCsr (csr_dim ham) h)) nb_val
      (rand (csr_dim ham) (Z.min nb_val (if g_dim_max g =? 0 then csr_dim ham else g_dim_max g))) (g_stp g) (g_tol g) (g_dim_max g) = Ok (k, e_vals e, e_vects e) /\
    e_spins e = [] /\ e_vals e <> [] /\ exists v, first_column (e_vects e) = Ok v.
Proof. exact C56_turn_pf. Qed.
Print Assumptions C56_turn.

(** a square of four sites in its ring of eight; diagonal Hamiltonian with 1, ..., 12 *)
Definition ex_ham : csr := mkCsr 12 (map (fun k => (qz (k + 1), k, k)) (zrange 0 12)).
Definition ex_inter : interactions := mkInter 1 (qz 4) 1 1 1 1 1 1 (qz 2) (qz 3).
Example C56_example : let pR := get [] (neel_start cpython 1 1 2) in
  set_iter_ok cpython /\ sized ex22 /\ proper ex22 /\ construct_basis ex22 = Ok (mkBasis ex22 ex22_basis) /\
  listed (nsites ex22) (nholes ex22) (nbeta ex22) ex22_basis ex22_states /\ csr_dim ex_ham = zlen ex22_basis /\
  (exists rho, holds pR (2 * (2 + 2)) rho) /\
  exists r, (u <- neel_surroundings cpython ex22 ;; dress_neel ex_inter (mkBasis ex22 ex22_basis) u pR 12 (csr_entries ex_ham)) = Ok r /\
    map (fun k => this (csr_at (mkCsr 12 r) k k)) (zrange 0 12) = [-7; -6; 3; 0; -7; 2; 3; -4; 5; 10; 3; 4]%Q /\ this (csr_at (mkCsr 12 r) 0 1) = 0%Q.
Proof.
  cbv zeta. split; [exact cpython_ok|]. split; [unfold sized; vm_compute; intuition congruence|]. split; [unfold proper; vm_compute; intuition congruence|]. split; [vm_compute; reflexivity|]. split; [exact ex22_listed|]. split; [vm_compute; reflexivity|]. split.
  { destruct (C21_start cpython 1 1 2 cpython_ok) as (p & Q & H); [discriminate..|]. rewrite Q. eexists. exact H. }
  set (t := u <- neel_surroundings cpython ex22 ;; dress_neel ex_inter (mkBasis ex22 ex22_basis) u (get [] (neel_start cpython 1 1 2)) 12 (csr_entries ex_ham)).
  assert (Q : t = Ok (get [] t)) by (destruct t eqn:Q; [reflexivity | exfalso; apply (f_equal is_ok) in Q; vm_compute in Q; discriminate]).
  exists (get [] t). split; [exact Q | vm_compute; split; reflexivity].
Qed.

(** On a block one site wide the program also counts straight neighbours in the ring as diagonal ones. *)
Theorem C56_surroundings :
  forall E c u s, let w := nblocs_side c * nbh c in let ht := nblocs_side c * nbv c in
  sized c -> proper c -> neel_surroundings E c = Ok u -> in_sector (nsites c) (nholes c) (nbeta c) s ->
  nsites (u_conf u) = nsites c + 2 * (w + ht) /\ lattice_type (u_conf u) = Peripheral /\ nalpha (u_conf u) = nsites (u_conf u) - nholes (u_conf u) - nbeta (u_conf u) /\
  in_sector (nsites (u_conf u)) (nholes (u_conf u)) (nbeta (u_conf u)) (fun x => if x <? nsites c then s x else checkerboard (ring_point w ht (x - nsites c))) /\
  u_frontier_B u = zrange (nsites c) (nsites (u_conf u)).
Proof. exact C56_surroundings_pf. Qed.
Print Assumptions C56_surroundings.

(** the same square with a hole and a down: the square and its ring have a hole and five downs *)
Example C56_surroundings_example : sized ex22 /\ proper ex22 /\ in_sector (nsites ex22) (nholes ex22) (nbeta ex22) ex22_state /\
  exists u, neel_surroundings cpython ex22 = Ok u /\ nsites (u_conf u) = 12 /\ nholes (u_conf u) = 1 /\ nbeta (u_conf u) = 5.
Proof.
  split; [unfold sized; vm_compute; intuition congruence|]. split; [unfold proper; vm_compute; intuition congruence|]. split; [split; vm_compute; reflexivity|].
  assert (G : option_map (fun c => (nsites c, nholes c, nbeta c)) (match neel_surroundings cpython ex22 with Ok u => Some (u_conf u) | Err _ => None end) = Some (12, 1, 5)) by (vm_compute; reflexivity).
  destruct (neel_surroundings cpython ex22) as [u|]; [|discriminate G]. cbn [option_map] in G. injection G as G1 G2 G3. exists u. auto.
Qed.

Theorem C56_thin_refuted :
  exists E c I l st pR rho ham u h, let w := nblocs_side c * nbh c in let ht := nblocs_side c * nbv c in
  set_iter_ok E /\ sized c /\ proper c /\ w = 1 /\ construct_basis c = Ok (mkBasis c l) /\ listed (nsites c) (nholes c) (nbeta c) l st /\ csr_dim ham = zlen l /\
  holds pR (2 * (w + ht)) rho /\ neel_surroundings E c = Ok u /\ dress_neel I (mkBasis c l) u pR (csr_dim ham) (csr_entries ham) = Ok h /\
  csr_at (mkCsr (csr_dim ham) h) 0 0 <> (csr_at ham 0 0 + facing I (nsites c) (point w) (st 0%nat) (2 * (w + ht)) (ring_point w ht) rho)%Qc.
Proof. exact C56_thin_refuted_pf. Qed.
Print Assumptions C56_thin_refuted.

(** C58 *)
Theorem C58_neel :
  forall N I g tol nb_val rand b u ham rest max_iter gs pR e,
  neel_loop N I g tol nb_val rand b u ham rest (Z.to_nat max_iter) 0 gs pR None = Ok e <->
  exists n r, Z.of_nat n < max_iter /\ (r = true \/ Z.of_nat n = max_iter - 1) /\
    self_consistent
      (fun k x e y => neel_turn N I g nb_val (rand (Z.of_nat k)) b u ham (snd x) = Ok e /\ first_column (e_vects e) = Ok (fst y) /\
         exists pL, get_spins_probabilitites_lattice b (fst y) false = Ok pL /\ mirror_frontier u pL (nsites (b_conf b)) rest = Ok (snd y))
      (fun x y b => settled N (fst y) (fst x) tol = Ok b) (gs, pR) n e r.
Proof. exact C58_neel_pf. Qed.
Print Assumptions C58_neel.

Theorem C58_neel_never :
  forall N I g tol nb_val rand b u ham rest max_iter gs pR, max_iter <= 0 ->
  neel_loop N I g tol nb_val rand b u ham rest (Z.to_nat max_iter) 0 gs pR None = Err NameError.
Proof. exact C58_neel_never_pf. Qed.
Print Assumptions C58_neel_never.

Theorem C58_settled :
  forall N new old tol b, settled N new old tol = Ok b <->
  norm N old <> 0%Qc /\ (b = true <-> (norm N (vsub new old) / norm N old < tol)%Qc).
Proof. exact C58_settled_pf. Qed.
Print Assumptions C58_settled.

Theorem C58_blocks :
  forall E N I g o tol b nb u full ham first max_iter gs energy out,
  block_loop E N I g o tol b nb u full ham first (Z.to_nat max_iter) gs energy None = Ok out <->
  exists n r res, Z.of_nat n < max_iter /\ (r = true \/ Z.of_nat n = max_iter - 1) /\ (out = if r : bool then Some res else None) /\
    self_consistent
      (fun _ x r y => block_turn E N I g o b nb u full ham first (fst x) (snd x) = Ok r /\
         first_column (e_vects (snd r)) = Ok (fst y) /\ py_get (e_vals (snd r)) 0 = Ok (snd y))
      (fun x y b => settled N (fst y) (fst x) tol = Ok b) (gs, energy) n res r.
Proof. exact C58_blocks_pf. Qed.
Print Assumptions C58_blocks.

Theorem C58_blocks_never :
  forall E N I g o tol b nb u full ham first max_iter gs energy, max_iter <= 0 ->
  block_loop E N I g o tol b nb u full ham first (Z.to_nat max_iter) gs energy None = Err NameError.
Proof. exact C58_blocks_never_pf. Qed.
Print Assumptions C58_blocks_never.

(** two turns: the first one moves away from the start, the second one stays *)
Definition ex_turns (n : nat) : res (list Q * list (list Q)) :=
  u <- neel_surroundings cpython ex22 ;;
  pR <- neel_start cpython 1 1 2 ;;
  e <- neel_loop ex_numerics ex_inter (mkDiag 1 100 (qfrac 1 1000) 0 None) (qfrac 1 100) 1 (fun _ n _ => ex_rand n) (mkBasis ex22 ex22_basis) u ex_ham 8 n 0
         (repeat 1%Qc 12) pR None ;;
  Ok (map this (e_vals e), map (map this) (e_vects e)).
Example C58_example : ex_turns 0 = Err NameError /\ ex_turns 1 = Ok ([-7]%Q, [[1; 0; 0; 0; 0; 0; 0; 0; 0; 0; 0; 0]%Q]) /\ ex_turns 9 = ex_turns 2 /\
  settled ex_numerics (unit_vect 12 0) (repeat 1%Qc 12) (qfrac 1 100) = Ok false /\
  settled ex_numerics (unit_vect 12 0) (unit_vect 12 0) (qfrac 1 100) = Ok true.
Proof. vm_compute. repeat split. Qed.

(** C70 *)
Theorem C70_mirror :
  forall E c pL rhoL, let w := nblocs_side c * nbh c in let ht := nblocs_side c * nbv c in
  set_iter_ok E -> sized c -> 2 <= w -> 2 <= ht -> holds pL (nsites c) rhoL ->
  exists u pR near, neel_surroundings E c = Ok u /\ mirror_frontier u pL (nsites c) (2 * (w + ht)) = Ok pR /\
    (forall r, 0 <= r < 2 * (w + ht) -> 0 <= near r < nsites c /\ adjacent (point w (near r)) (ring_point w ht r) /\
       forall x, 0 <= x < nsites c -> adjacent (point w x) (ring_point w ht r) -> x = near r) /\
    holds pR (2 * (w + ht)) (fun q r => rhoL (flip_particle q) (near r)).
Proof. exact C70_mirror_pf. Qed.
Print Assumptions C70_mirror.

Theorem C70_wave :
  forall c l st v r, listed (nsites c) (nholes c) (nbeta c) l st -> length v = length l -> inner v v <> 0%Qc -> 0 <= nsites c ->
  exists p, get_spins_probabilitites_lattice (mkBasis c l) v r = Ok p /\
    holds p (nsites c) (fun q x => weight st v (if r : bool then flip_particle q else q) x / inner v v)%Qc.
Proof. exact C70_wave_pf. Qed.
Print Assumptions C70_wave.

(** the wave of equal weights: 1/4 of hole, 1/4 of spin down and 1/2 of spin up on each site, mirrored with the spins exchanged *)
Example C70_example : (exists rho, holds (get [] (get_spins_probabilitites_lattice (mkBasis ex22 ex22_basis) (repeat 1%Qc 12) false)) (nsites ex22) rho) /\
  exists r, (u <- neel_surroundings cpython ex22 ;; pL <- get_spins_probabilitites_lattice (mkBasis ex22 ex22_basis) (repeat 1%Qc 12) false ;;
             mirror_frontier u pL 4 8) = Ok r /\
    map (fun p => (fst p, map this (snd p))) r = [(1, repeat (1 # 4)%Q 8); (-1, repeat (1 # 2)%Q 8); (0, repeat (1 # 4)%Q 8)].
Proof.
  split.
  { destruct (C70_wave ex22 ex22_basis ex22_states (repeat 1%Qc 12) false ex22_listed) as (p & Q & H); [reflexivity | vm_compute; discriminate | vm_compute; discriminate|].
    rewrite Q. eexists. exact H. }
  set (t := u <- neel_surroundings cpython ex22 ;; pL <- get_spins_probabilitites_lattice (mkBasis ex22 ex22_basis) (repeat 1%Qc 12) false ;; mirror_frontier u pL 4 8).
  assert (Q : t = Ok (get [] t)) by (destruct t eqn:Q; [reflexivity | exfalso; apply (f_equal is_ok) in Q; vm_compute in Q; discriminate]).
  exists (get [] t). split; [exact Q | vm_compute; reflexivity].
Qed.

(** C69 *)
Theorem C69_neighbor :
  forall E c l st r, set_iter_ok E -> sized c -> proper c -> construct_basis c = Ok (mkBasis c l) ->
  listed (nsites c) (nholes c) (nbeta c) l st ->
  exists nb, neighbor_basis E (mkBasis c l) r = Ok nb /\ length (determinants nb) = length l /\
    nsites (b_conf nb) = nsites c /\ nholes (b_conf nb) = nholes c /\ nbeta (b_conf nb) = (if r : bool then nalpha c else nbeta c) /\
    listed (nsites c) (nholes c) (if r then nalpha c else nbeta c) (determinants nb) (fun k => if r then flip_state (st k) else st k).
Proof. exact C69_neighbor_pf. Qed.
Print Assumptions C69_neighbor.

Theorem C69_dressing :
  forall E c I l st r gs energy thr ham, let w := nblocs_side c * nbh c in
  set_iter_ok E -> sized c -> proper c -> numbering_found E (nbh c) (nbv c) (nblocs_side c) ->
  construct_basis c = Ok (mkBasis c l) -> listed (nsites c) (nholes c) (nbeta c) l st -> csr_dim ham = zlen l ->
  length gs = length l -> inner gs gs <> 0%Qc ->
  exists nb pB u full h, neighbor_basis E (mkBasis c l) r = Ok nb /\ get_spins_probabilitites_lattice (mkBasis c l) gs r = Ok pB /\
    block_surroundings E c (b_conf nb) = Ok (u, full) /\
    dress_blocks E I (mkBasis c l) false (mkDyn c nb u full true thr energy gs (csr_dim ham)) pB (csr_entries ham) = Ok h /\
    forall i j, csr_at (mkCsr (csr_dim ham) h) i j =
      (csr_at ham i j + only ((0 <=? i) && (i <? zlen l) && (i =? j))
         (facing I (nsites c) (point w) (st (Z.to_nat i)) (nsites c) (beside w)
                 (fun q x => weight st gs (if r : bool then flip_particle q else q) x / inner gs gs)))%Qc.
Proof. exact C69_dressing_pf. Qed.
Print Assumptions C69_dressing.

Theorem C69_symmetric :
  forall E I c l nb u full single thr energy gs dynamic pB ham h,
  dress_blocks E I (mkBasis c l) dynamic (mkDyn c nb u full single thr energy gs (csr_dim ham)) pB (csr_entries ham) = Ok h ->
  forall i j, (csr_at (mkCsr (csr_dim ham) h) i j - csr_at ham i j = csr_at (mkCsr (csr_dim ham) h) j i - csr_at ham j i)%Qc.
Proof. exact C69_symmetric_pf. Qed.
Print Assumptions C69_symmetric.

Theorem C69_turn :
  forall E N I g o c l nb u full ham first gs energy h e,
  block_turn E N I g o (mkBasis c l) nb u full ham first gs energy = Ok (h, e) ->
  exists pB k, get_spins_probabilitites_lattice (mkBasis c l) gs (o_reverse o) = Ok pB /\ csr_dim h = csr_dim ham /\
    dress_blocks E I (mkBasis c l) (o_dynamic o) (mkDyn c nb u full (o_neighbor o) (o_threshold o) energy gs (csr_dim ham)) pB (csr_entries ham) = Ok (csr_entries h) /\
    modified_davidson_algorithm N (csr_dense h) 1 [first] (g_stp g) (g_tol g) (g_dim_max g) = Ok (k, e_vals e, e_vects e) /\
    e_spins e = [] /\ e_vals e <> [].
Proof. exact C69_turn_pf. Qed.
Print Assumptions C69_turn.

(** two squares of four sites side by side, each with the wave of equal weights *)
Definition ex_dressed (r single : bool) (ham : csr) : res coo :=
  nb <- neighbor_basis ex_clusters_runtime (mkBasis ex22 ex22_basis) r ;;
  pB <- get_spins_probabilitites_lattice (mkBasis ex22 ex22_basis) (repeat 1%Qc 12) r ;;
  u <- block_surroundings ex_clusters_runtime ex22 (b_conf nb) ;;
  dress_blocks ex_clusters_runtime ex_inter (mkBasis ex22 ex22_basis) false
    (mkDyn ex22 nb (fst u) (snd u) single (qfrac 1 1000) (qz (-50)) (repeat 1%Qc 12) 12) pB (csr_entries ham).
Example C69_example :
  set_iter_ok ex_clusters_runtime /\ sized ex22 /\ proper ex22 /\ numbering_found ex_clusters_runtime (nbh ex22) (nbv ex22) (nblocs_side ex22) /\
  construct_basis ex22 = Ok (mkBasis ex22 ex22_basis) /\ listed (nsites ex22) (nholes ex22) (nbeta ex22) ex22_basis ex22_states /\
  csr_dim ex_ham = zlen ex22_basis /\ length (repeat 1%Qc 12) = length ex22_basis /\ inner (repeat 1%Qc 12) (repeat 1%Qc 12) <> 0%Qc /\
  match ex_dressed false true ex_ham with Ok h => map (fun k => this (csr_at (mkCsr 12 h) k k)) (zrange 0 12) | Err _ => [] end =
      [(-1 # 2); 1; (3 # 2); (19 # 4); (23 # 4); (25 # 4); 6; (13 # 2); (15 # 2); (43 # 4); (45 # 4); (51 # 4)]%Q.
Proof.
  split; [intros l; exact (cpython_ok l)|]. split; [unfold sized; vm_compute; intuition congruence|]. split; [unfold proper; vm_compute; intuition congruence|]. split; [exact ex_numbering|]. split; [vm_compute; reflexivity|]. split; [exact ex22_listed|].
  split; [vm_compute; reflexivity|]. split; [vm_compute; reflexivity|]. split; [vm_compute; discriminate|].
  vm_compute. reflexivity.
Qed.

(** C57 *)
Theorem C57_static :
  forall E c I l st r gs energy thr ham, let w := nblocs_side c * nbh c in
  set_iter_ok E -> sized c -> proper c -> nbh c = nbv c -> numbering_found E (nbh c) (nbv c) (nblocs_side c) ->
  construct_basis c = Ok (mkBasis c l) -> listed (nsites c) (nholes c) (nbeta c) l st -> csr_dim ham = zlen l ->
  length gs = length l -> inner gs gs <> 0%Qc ->
  exists nb pB u full h, neighbor_basis E (mkBasis c l) r = Ok nb /\ get_spins_probabilitites_lattice (mkBasis c l) gs r = Ok pB /\
    block_surroundings E c (b_conf nb) = Ok (u, full) /\
    dress_blocks E I (mkBasis c l) false (mkDyn c nb u full false thr energy gs (csr_dim ham)) pB (csr_entries ham) = Ok h /\
    forall i j, csr_at (mkCsr (csr_dim ham) h) i j =
      (csr_at ham i j + only ((0 <=? i)%Z && (i <? zlen l)%Z && (i =? j)%Z)
         (qsum (fun k => facing I (nsites c) (point w) (fun x => st (Z.to_nat i) (site w (turns k w (point w x)))) (nsites c) (beside w)
                                (fun q x => weight st gs (if r : bool then flip_particle q else q) x / inner gs gs)) [0; 1; 2; 3]%nat))%Qc.
Proof. exact C57_static_pf. Qed.
Print Assumptions C57_static.

Theorem C57_invariant :
  forall E I c l r nb u full thr energy gs dynamic pB ham h k i j d e,
  set_iter_ok E -> sized c -> proper c -> nbh c = nbv c -> construct_basis c = Ok (mkBasis c l) ->
  (dynamic = true -> r = true -> nalpha c = nbeta c) ->
  neighbor_basis E (mkBasis c l) r = Ok nb -> block_surroundings E c (b_conf nb) = Ok (u, full) ->
  dress_blocks E I (mkBasis c l) dynamic (mkDyn c nb u full false thr energy gs (csr_dim ham)) pB (csr_entries ham) = Ok h ->
  nth_error l i = Some d -> nth_error l j = Some e ->
  exists i' j', get_index_in_basis c (rotate_determinant k c d) = Ok i' /\ get_index_in_basis c (rotate_determinant k c e) = Ok j' /\
    (csr_at (mkCsr (csr_dim ham) h) i' j' - csr_at ham i' j' =
     csr_at (mkCsr (csr_dim ham) h) (Z.of_nat i) (Z.of_nat j) - csr_at ham (Z.of_nat i) (Z.of_nat j))%Qc.
Proof. exact C57_invariant_pf. Qed.
Print Assumptions C57_invariant.

Theorem C57_outside :
  forall c dim ham x k d, ~ (0 <= k < dim) -> add_static c true dim ham x k d = Err ValueError.
Proof. exact C57_outside_pf. Qed.
Print Assumptions C57_outside.

Example C57_outside_example : add_static ex22 true 2 [] 1%Qc 2 [0; 1; 2; 3] = Err ValueError /\ exists h, add_static ex22 true 2 [] 1%Qc 1 [0; 1; 2; 3] = Ok h.
Proof. split; [vm_compute; reflexivity | eexists; vm_compute; reflexivity]. Qed.

(** squares with one hole and three spins up: the quarter turn carries determinants 0, 1, 2, 3 onto 2, 0, 3, 1;
    the dressing, dynamic part included, has elements off the diagonal *)
Definition ex21 : configuration := ex_rect 1 1 2 1 0.
Definition ex21_basis : list det := [[0; 1; 2; 3]; [1; 0; 2; 3]; [2; 0; 1; 3]; [3; 0; 1; 2]].
Definition ex21_dressed : res coo :=
  pB <- get_spins_probabilitites_lattice (mkBasis ex21 ex21_basis) (repeat 1%Qc 4) false ;;
  u <- block_surroundings ex_clusters_runtime ex21 ex21 ;;
  dress_blocks ex_clusters_runtime ex_inter (mkBasis ex21 ex21_basis) true
    (mkDyn ex21 (mkBasis ex21 ex21_basis) (fst u) (snd u) false (qfrac 1 1000) (qz (-50)) (repeat 1%Qc 4) 4) pB [].
Example C57_example : nbh ex21 = nbv ex21 /\ sized ex21 /\ proper ex21 /\ construct_basis ex21 = Ok (mkBasis ex21 ex21_basis) /\
  map (fun d => get_index_in_basis ex21 (rotate_determinant 1 ex21 d)) ex21_basis = map Ok [2; 0; 3; 1] /\
  match ex21_dressed with
  | Ok h => map (fun p => this (csr_at (mkCsr 4 h) (fst p) (snd p))) [(0, 0); (2, 2); (0, 1); (2, 0); (0, 3); (2, 1)]
  | Err _ => []
  end = [(22157 # 10506); (22157 # 10506); (-4111 # 5253); (-4111 # 5253); (-3490 # 5253); (-3490 # 5253)]%Q.
Proof.
  split; [reflexivity|]. split; [unfold sized; vm_compute; intuition congruence|]. split; [unfold proper; vm_compute; intuition congruence|].
  split; [vm_compute; reflexivity|]. split; vm_compute; reflexivity.
Qed.

(** C59 *)
Theorem C59_bonds :
  forall E bm r0 r1, set_iter_ok E -> (forall x y, In x r0 -> In y r1 -> y < x) -> build_bond_list E bm (RTuple r0 r1) = Ok [].
Proof. exact C59_bonds_pf. Qed.
Print Assumptions C59_bonds.

Theorem C59_exchange :
  forall E c I d r0 r1, set_iter_ok E -> sites_restriction c = RTuple r0 r1 -> (forall x y, In x r0 -> In y r1 -> y < x) ->
  compute_spin_flip E c d = Ok ([], [], []) /\ compute_static_spin_interaction E c I d = Ok 0%Qc.
Proof. exact C59_exchange_pf. Qed.
Print Assumptions C59_exchange.

Theorem C59_holes :
  forall E c d r0 r1, set_iter_ok E -> sites_restriction c = RTuple r0 r1 -> 0 <= nholes c ->
  (forall x, In x r0 -> ~ In x (firstn (Z.to_nat (nholes c)) d)) ->
  compute_hopping_integral E c d = Ok [] /\ compute_next_hopping_integral E c d = Ok ([], []) /\ compute_singlet_displacement E c d = Ok ([], []).
Proof. exact C59_holes_pf. Qed.
Print Assumptions C59_holes.

Theorem C59_dropped :
  forall E I c l r nb u full single thr energy gs dim ham h det_A,
  set_iter_ok E -> sized c -> proper c -> construct_basis c = Ok (mkBasis c l) -> (r = true -> nalpha c = nbeta c) ->
  neighbor_basis E (mkBasis c l) r = Ok nb -> block_surroundings E c (b_conf nb) = Ok (u, full) ->
  In det_A l -> (forall x, In x (u_frontier_A u) -> get_spin_site c det_A x <> Ok 0) ->
  dynamic_part E I (mkDyn c nb u full single thr energy gs dim) ham det_A = Ok h -> h = ham.
Proof. exact C59_dropped_pf. Qed.
Print Assumptions C59_dropped.

Theorem C59_coupled :
  forall E I cn pA pB u dA dB sA sB pert n l, set_iter_ok E -> 0 <= n ->
  nsites pA = n -> sites_restriction pA = RTuple (zrange 0 n) (zrange 0 n) -> describes n (nholes pA) (nbeta pA) dA sA ->
  nsites pB = n -> sites_restriction pB = RTuple (zrange 0 n) (zrange 0 n) -> describes n (nholes pB) (nbeta pB) dB sB ->
  nalpha pB = n - nholes pB - nbeta pB -> nalpha cn = n - nholes cn - nbeta cn ->
  extend_determinant E pA pB dA dB = Ok pert -> nholes (u_conf u) = nholes pA + nholes pB ->
  (forall x, In x (u_frontier_A u) -> x < n) -> (forall x, In x (u_frontier_B u) -> n <= x) ->
  nholes pB = nholes cn \/ nholes pB = nholes cn - 1 ->
  coupled E I cn pA pB u dA dB pert = Ok l -> l = [].
Proof. exact C59_coupled_pf. Qed.
Print Assumptions C59_coupled.

Theorem C59_outside :
  forall dim ham x threshold i j, ~ (0 <= i < dim /\ 0 <= j < dim) ->
  add_both dim ham x threshold i j = if qleb threshold (qabs x) then Err ValueError else Ok ham.
Proof. exact C59_outside_pf. Qed.
Print Assumptions C59_outside.

Example C59_outside_example : add_both 2 [] 1%Qc (qfrac 1 10) 0 2 = Err ValueError /\ add_both 2 [] 0%Qc (qfrac 1 10) 0 2 = Ok [] /\
  exists h, add_both 2 [] 1%Qc (qfrac 1 10) 0 1 = Ok h.
Proof. split; [vm_compute; reflexivity|]. split; [vm_compute; reflexivity | eexists; vm_compute; reflexivity]. Qed.

(** two rows of three sites end to end: the frontiers are 1, 2 and 3, 4.  Determinants 0 and 1 have their hole on site 0: no element.
    After the exchange of a spin down of the block with a spin up of the neighbour nothing is coupled; after the exchange of a hole, three determinants are. *)
Definition ex31 : configuration := ex_rect 3 1 1 1 1.
Definition ex31_runtime : runtime := mkRuntime (set_iter cpython) (fun _ _ _ r s => if r =? s then ROne else RZero).
Definition ex31_basis : list det := [[0; 1; 2]; [0; 2; 1]; [1; 0; 2]; [1; 2; 0]; [2; 0; 1]; [2; 1; 0]].
Definition ex31_sur : surroundings * configuration :=
  get (mkSur empty_conf [] [] (fun _ => Err KeyError) (fun _ => Err KeyError), empty_conf) (block_surroundings ex31_runtime ex31 ex31).
Definition ex31_dynamic (d : det) : res coo :=
  dynamic_part ex31_runtime ex_inter (mkDyn ex31 (mkBasis ex31 ex31_basis) (fst ex31_sur) (snd ex31_sur) true (qfrac 1 1000) (qz (-50)) (repeat 1%Qc 6) 6) [] d.
Definition ex31_coupled (spin new_spin : Z) (dA dB : det) : res nat :=
  pA <- perturbed_A ex31 spin new_spin ;;
  pB <- perturbed_B ex31 ex31 spin new_spin ;;
  p <- extend_determinant ex31_runtime pA pB dA dB ;;
  l <- coupled ex31_runtime ex_inter ex31 pA pB (fst ex31_sur) dA dB p ;;
  Ok (length l).
Example C59_example : set_iter_ok ex31_runtime /\ sized ex31 /\ proper ex31 /\ construct_basis ex31 = Ok (mkBasis ex31 ex31_basis) /\
  block_surroundings ex31_runtime ex31 ex31 = Ok ex31_sur /\
  u_frontier_A (fst ex31_sur) = [1; 2] /\ u_frontier_B (fst ex31_sur) = [3; 4] /\
  map (fun d => l <- ex31_dynamic d ;; Ok (length l)) ex31_basis = map Ok [0; 0; 8; 8; 10; 10]%nat /\
  ex31_coupled (-1) 1 [0; 1; 2] [1; 0; 2] = Ok 0%nat /\ ex31_coupled 0 1 [0; 1; 2] [0; 1; 2] = Ok 3%nat /\
  build_bond_list ex31_runtime (bond_matrix (u_conf (fst ex31_sur))) (RTuple [3; 4] [1; 2]) = Ok [] /\
  build_bond_list ex31_runtime (bond_matrix (u_conf (fst ex31_sur))) (RTuple [1; 2] [3; 4]) = Ok [(2, 3)].
Proof.
  split; [intros l; exact (cpython_ok l)|]. split; [unfold sized; vm_compute; intuition congruence|]. split; [unfold proper; vm_compute; intuition congruence|].
  split; [vm_compute; reflexivity|]. split; [reflexivity|]. vm_compute. repeat split.
Qed.

(** C77 *)
Theorem C77_exchange :
  forall c cn spin new pA pB,
  In spin [-1; 0; 1] -> In new [-1; 0; 1] -> spin <> new ->
  mrows (bond_matrix c) = nholes c + nbeta c + nalpha c -> mrows (bond_matrix cn) = nholes cn + nbeta cn + nalpha cn ->
  nholes cn = nholes c -> nbeta cn = nbeta c -> nalpha cn = nalpha c ->
  perturbed_A c spin new = Ok pA -> perturbed_B c cn spin new = Ok pB ->
  (nholes pA = nholes c + (if new =? 0 then 1 else 0) - (if spin =? 0 then 1 else 0) /\
   nbeta pA = nbeta c + (if new =? -1 then 1 else 0) - (if spin =? -1 then 1 else 0) /\
   nalpha pA = nalpha c + (if new =? 1 then 1 else 0) - (if spin =? 1 then 1 else 0)) /\
  (nholes pA + nholes pB = nholes c + nholes cn /\ nbeta pA + nbeta pB = nbeta c + nbeta cn /\ nalpha pA + nalpha pB = nalpha c + nalpha cn).
Proof. exact C77_exchange_pf. Qed.
Print Assumptions C77_exchange.

Theorem C77_register :
  forall c cn spin new pA pB m x,
  In spin [-1; 0; 1] -> In new [-1; 0; 1] -> spin <> new ->
  mrows (bond_matrix c) = nholes c + nbeta c + nalpha c -> mrows (bond_matrix cn) = nholes cn + nbeta cn + nalpha cn ->
  nholes cn = nholes c -> nbeta cn = nbeta c -> nalpha cn = nalpha c ->
  perturbed_A c spin new = Ok pA -> perturbed_B c cn spin new = Ok pB -> map fst m = map fst (empty_memory c) ->
  exists r, remember m (get_id pA, get_id pB) x = Ok r /\ forall m', r = Some m' -> map fst m' = map fst (empty_memory c).
Proof. exact C77_register_pf. Qed.
Print Assumptions C77_register.

Theorem C77_reversed :
  forall c cn pA pB,
  mrows (bond_matrix c) = nholes c + nbeta c + nalpha c -> mrows (bond_matrix cn) = nholes cn + nbeta cn + nalpha cn ->
  nholes cn = nholes c -> nbeta cn = nalpha c -> nalpha cn = nbeta c -> nalpha c <> nbeta c ->
  perturbed_A c (-1) 0 = Ok pA -> perturbed_B c cn (-1) 0 = Ok pB ->
  nbeta pA + nbeta pB <> nbeta c + nbeta cn.
Proof. exact C77_reversed_pf. Qed.
Print Assumptions C77_reversed.

Theorem C77_shape :
  forall c cn spin new pA pB, perturbed_A c spin new = Ok pA -> perturbed_B c cn spin new = Ok pB ->
  (bond_matrix pA = bond_matrix c /\ nsites pA = mrows (bond_matrix c) /\ lattice_type pA = Periodic /\ nbh pA = nbh c /\ nbv pA = nbv c /\ nblocs_side pA = nblocs_side c) /\
  (bond_matrix pB = bond_matrix cn /\ nsites pB = mrows (bond_matrix cn) /\ lattice_type pB = Periodic /\ nbh pB = nbh cn /\ nbv pB = nbv cn /\ nblocs_side pB = nblocs_side cn).
Proof. exact C77_shape_pf. Qed.
Print Assumptions C77_shape.

Theorem C77_restriction :
  forall c cn a b a' b' spin new pA pB, a <> [] -> b <> [] -> a' <> [] -> b' <> [] ->
  sites_restriction c = RTuple a b -> sites_restriction cn = RTuple a' b' ->
  perturbed_A c spin new = Ok pA -> perturbed_B c cn spin new = Ok pB ->
  sites_restriction pA = RTuple a b /\ sites_restriction pB = RTuple b' a'.
Proof. exact C77_restriction_pf. Qed.
Print Assumptions C77_restriction.

(** two squares of four sites with one hole and two spins up; the wave of equal weights *)
Definition ex_dynamic (r : bool) : res coo :=
  nb <- neighbor_basis ex_clusters_runtime (mkBasis ex22 ex22_basis) r ;;
  pB <- get_spins_probabilitites_lattice (mkBasis ex22 ex22_basis) (repeat 1%Qc 12) r ;;
  u <- block_surroundings ex_clusters_runtime ex22 (b_conf nb) ;;
  dress_blocks ex_clusters_runtime ex_inter (mkBasis ex22 ex22_basis) true
    (mkDyn ex22 nb (fst u) (snd u) true (qfrac 1 1000) (qz (-50)) (repeat 1%Qc 12) 12) pB (csr_entries ex_ham).
Example C77_example : mrows (bond_matrix ex22) = nholes ex22 + nbeta ex22 + nalpha ex22 /\ nalpha ex22 <> nbeta ex22 /\
  match perturbed_A ex22 (-1) 0, perturbed_B ex22 ex22 (-1) 0 with
  | Ok pA, Ok pB => [nholes pA; nbeta pA; nalpha pA; nholes pB; nbeta pB; nalpha pB]
  | _, _ => []
  end = [2; 0; 2; 0; 2; 2] /\
  match (nb <- neighbor_basis cpython (mkBasis ex22 ex22_basis) true ;; pB <- perturbed_B ex22 (b_conf nb) (-1) 0 ;; Ok (b_conf nb, pB)) with
  | Ok (cB, pB) => [nholes cB; nbeta cB; nalpha cB; nholes pB; nbeta pB; nalpha pB]
  | Err _ => []
  end = [1; 2; 1; 0; 2; 2] /\
  ex_dynamic true = Err ValueError.
Proof.
  split; [vm_compute; reflexivity|]. split; [vm_compute; discriminate|].
  split; [vm_compute; reflexivity|]. split; [vm_compute; reflexivity|].
  vm_compute. reflexivity.
Qed.

(** a block of two sites by one *)
Example C77_shape_example : let c := ex_rect 2 1 1 1 0 in
  sites_restriction c = RTuple [0; 1] [0; 1] /\
  match perturbed_A c 1 0, perturbed_B c c 1 0 with
  | Ok pA, Ok pB => [nbh pA; nbv pA; nblocs_side pA; nbh pB; nbv pB; nblocs_side pB]
  | _, _ => []
  end = [2; 1; 1; 2; 1; 1].
Proof. split; vm_compute; reflexivity. Qed.

(** C85 *)
Theorem C85_dressing :
  forall E c I l st r gs energy thr ham, let w := nblocs_side c * nbh c in let ht := nblocs_side c * nbv c in
  set_iter_ok E -> sized c -> proper c -> numbering_found E (nbh c) (nbv c) (nblocs_side c) ->
  construct_basis c = Ok (mkBasis c l) -> listed (nsites c) (nholes c) (nbeta c) l st -> csr_dim ham = zlen l ->
  length gs = length l -> inner gs gs <> 0%Qc -> (r = true -> nalpha c = nbeta c) ->
  (forall k v, (k < length l)%nat -> In v (words (Z.to_nat (2 * nsites c))) -> lent_by w ht (length gs) st (st k) (spelt v) = true ->
     (qz 2 * energy)%Qc <> pair_energy w ht I (spelt v)) ->
  exists nb pB u full h, neighbor_basis E (mkBasis c l) r = Ok nb /\ get_spins_probabilitites_lattice (mkBasis c l) gs r = Ok pB /\
    block_surroundings E c (b_conf nb) = Ok (u, full) /\
    dress_blocks E I (mkBasis c l) true (mkDyn c nb u full true thr energy gs (csr_dim ham)) pB (csr_entries ham) = Ok h /\
    forall i j, 0 <= i < zlen l -> 0 <= j < zlen l -> csr_at (mkCsr (csr_dim ham) h) i j =
      (csr_at ham i j
       + only (i =? j)
           (facing I (nsites c) (point w) (st (Z.to_nat i)) (nsites c) (beside w)
                   (fun q x => weight st gs (if r : bool then flip_particle q else q) x / inner gs gs))
       + second_order w ht I thr energy st gs (st (Z.to_nat i)) (st (Z.to_nat j)))%Qc.
Proof. exact C85_dressing_pf. Qed.
Print Assumptions C85_dressing.

(** two sites beside two sites, one hole and one spin up on each block: the state with both holes on the second block
    is reached from the two states of the first one; the matrix has an element off the diagonal *)
Example C85_example :
  set_iter_ok ex2_runtime /\ sized ex2 /\ proper ex2 /\ numbering_found ex2_runtime (nbh ex2) (nbv ex2) (nblocs_side ex2) /\
  construct_basis ex2 = Ok (mkBasis ex2 ex2_basis) /\ listed (nsites ex2) (nholes ex2) (nbeta ex2) ex2_basis ex2_states /\
  csr_dim ex2_ham = zlen ex2_basis /\ length ex2_gs = length ex2_basis /\ inner ex2_gs ex2_gs <> 0%Qc /\ nalpha ex2 <> nbeta ex2 /\
  (forall k v, (k < length ex2_basis)%nat -> In v (words (Z.to_nat (2 * nsites ex2))) ->
     lent_by 2 1 (length ex2_gs) ex2_states (ex2_states k) (spelt v) = true -> (qz 2 * ex2_energy)%Qc <> pair_energy 2 1 ex2_inter (spelt v)) /\
  (forall k, (k < 2)%nat -> filter (fun v => lent_by 2 1 2 ex2_states (ex2_states k) (spelt v)) (words 4) = [[Up; Up; Hole; Hole]]) /\
  mediated 2 1 ex2_inter ex2_thr ex2_energy ex2_states ex2_gs (spelt [Up; Up; Hole; Hole]) (ex2_states 0) (ex2_states 1) = qfrac (-72) 109 /\
  match (nb <- neighbor_basis ex2_runtime (mkBasis ex2 ex2_basis) false ;;
         pB <- get_spins_probabilitites_lattice (mkBasis ex2 ex2_basis) ex2_gs false ;;
         u <- block_surroundings ex2_runtime ex2 (b_conf nb) ;;
         dress_blocks ex2_runtime ex2_inter (mkBasis ex2 ex2_basis) true
           (mkDyn ex2 nb (fst u) (snd u) true ex2_thr ex2_energy ex2_gs 2) pB (csr_entries ex2_ham)) with
  | Ok h => map (fun p => this (csr_at (mkCsr 2 h) (fst p) (snd p))) [(0, 0); (0, 1); (1, 0); (1, 1)]
  | Err _ => []
  end = [1; (-144 # 109); (-144 # 109); (917 # 218)]%Q.
Proof.
  split; [intros l; exact (cpython_ok l)|]. split; [unfold sized; vm_compute; intuition congruence|]. split; [unfold proper; vm_compute; intuition congruence|].
  split; [exact ex2_numbering|]. split; [vm_compute; reflexivity|]. split; [exact ex2_listed|]. split; [reflexivity|]. split; [reflexivity|].
  split; [vm_compute; discriminate|]. split; [vm_compute; discriminate|]. split; [exact ex2_division|]. split; [exact ex2_lent|]. split; [exact ex2_mediated|].
  vm_compute. reflexivity.
Qed.

Theorem C85_once_refuted :
  exists E c I l st gs energy thr ham nb pB u full h,
  let w := nblocs_side c * nbh c in let ht := nblocs_side c * nbv c in
  set_iter_ok E /\ sized c /\ proper c /\ numbering_found E (nbh c) (nbv c) (nblocs_side c) /\
  construct_basis c = Ok (mkBasis c l) /\ listed (nsites c) (nholes c) (nbeta c) l st /\ csr_dim ham = zlen l /\
  length gs = length l /\ inner gs gs <> 0%Qc /\
  (forall k v, (k < length l)%nat -> In v (words (Z.to_nat (2 * nsites c))) -> lent_by w ht (length gs) st (st k) (spelt v) = true ->
     (qz 2 * energy)%Qc <> pair_energy w ht I (spelt v)) /\
  neighbor_basis E (mkBasis c l) false = Ok nb /\ get_spins_probabilitites_lattice (mkBasis c l) gs false = Ok pB /\
  block_surroundings E c (b_conf nb) = Ok (u, full) /\
  dress_blocks E I (mkBasis c l) true (mkDyn c nb u full true thr energy gs (csr_dim ham)) pB (csr_entries ham) = Ok h /\
  let reached_once := sum_states (2 * nsites c) (fun p => only (existsb (fun k => lent_by w ht (length gs) st (st k) p) (seq 0 (length gs)))
                                                               (mediated w ht I thr energy st gs p (st 0%nat) (st 1%nat))) in
  csr_at (mkCsr (csr_dim ham) h) 0 1 = (csr_at ham 0 1 + qz 2 * reached_once)%Qc /\ reached_once <> 0%Qc.
Proof. exact C85_once_refuted_pf. Qed.
Print Assumptions C85_once_refuted.

(** C86 *)
Theorem C86_dressing :
  forall E c I l st r gs energy thr ham, let w := nblocs_side c * nbh c in
  set_iter_ok E -> sized c -> proper c -> nbh c = nbv c -> numbering_found E (nbh c) (nbv c) (nblocs_side c) ->
  construct_basis c = Ok (mkBasis c l) -> listed (nsites c) (nholes c) (nbeta c) l st -> csr_dim ham = zlen l ->
  length gs = length l -> inner gs gs <> 0%Qc -> (r = true -> nalpha c = nbeta c) ->
  (forall k v, (k < length l)%nat -> In v (words (Z.to_nat (2 * nsites c))) -> lent_by w w (length gs) st (st k) (spelt v) = true ->
     (qz 2 * energy)%Qc <> pair_energy w w I (spelt v)) ->
  exists nb pB u full h, neighbor_basis E (mkBasis c l) r = Ok nb /\ get_spins_probabilitites_lattice (mkBasis c l) gs r = Ok pB /\
    block_surroundings E c (b_conf nb) = Ok (u, full) /\
    dress_blocks E I (mkBasis c l) true (mkDyn c nb u full false thr energy gs (csr_dim ham)) pB (csr_entries ham) = Ok h /\
    forall i j, 0 <= i < zlen l -> 0 <= j < zlen l ->
      let turned k a := fun x => st (Z.to_nat a) (site w (turns k w (point w x))) in
      csr_at (mkCsr (csr_dim ham) h) i j =
      (csr_at ham i j
       + qsum (fun k => only (i =? j)%Z
                          (facing I (nsites c) (point w) (turned k i) (nsites c) (beside w)
                                  (fun q x => weight st gs (if r : bool then flip_particle q else q) x / inner gs gs))
                        + second_order w w I thr energy st gs (turned k i) (turned k j)) [0; 1; 2; 3]%nat)%Qc.
Proof. exact C86_dressing_pf. Qed.
Print Assumptions C86_dressing.

(** squares with one hole and three spins up: through the state whose holes are on the sites 5 and 6 of the two squares,
    reached from the determinant 1, the determinants 1 and 3 are coupled; the matrix is that of [C57_example] *)
Definition ex21_states (k : nat) : occupation := fun x => if x =? Z.of_nat k then Hole else Up.
Definition ex21_between : occupation := spelt [Up; Up; Up; Up; Up; Hole; Hole; Up].
Example C86_example :
  nbh ex21 = nbv ex21 /\ sized ex21 /\ proper ex21 /\ numbering_found ex_clusters_runtime (nbh ex21) (nbv ex21) (nblocs_side ex21) /\
  construct_basis ex21 = Ok (mkBasis ex21 ex21_basis) /\ listed (nsites ex21) (nholes ex21) (nbeta ex21) ex21_basis ex21_states /\
  inner (repeat 1%Qc 4) (repeat 1%Qc 4) <> 0%Qc /\
  lent_by 2 2 4 ex21_states (ex21_states 1) ex21_between = true /\ this (pair_energy 2 2 ex_inter ex21_between) = 3%Q /\
  jump 2 2 ex_inter ex21_between (ex21_states 1) (ex21_states 1) = 1%Qc /\ jump 2 2 ex_inter ex21_between (ex21_states 3) (ex21_states 1) = 1%Qc.
Proof.
  split; [reflexivity|]. split; [unfold sized; vm_compute; intuition congruence|]. split; [unfold proper; vm_compute; intuition congruence|].
  split; [exact ex_numbering|]. split; [vm_compute; reflexivity|].
  split. { intros k d H. destruct k as [|[|[|[|k]]]]; [| | | |destruct k; discriminate H]; injection H as <-; apply describesb_ok; vm_compute; reflexivity. }
  split; [vm_compute; discriminate|]. split; [vm_compute; reflexivity|]. split; [vm_compute; reflexivity|].
  split; apply Qc_is_canon; vm_compute; reflexivity.
Qed.
