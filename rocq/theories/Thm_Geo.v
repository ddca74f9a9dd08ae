(** Theorems on bond matrices, neighbours and straight paths (C13-C20). *)
From Coq Require Import ZArith List Bool Sorted Permutation.
From Verif Require Import PyBase Runtimes Lattice Base Spec Geometry PMat PRing PGeo FGeo FWritten Examples.
Import ListNotations.
Open Scope Z_scope.

(** C13 *)
Theorem C13_rectangular :
  forall h v s, 1 <= h -> 1 <= v -> 1 <= s ->
  exists m, build_rectangular_bond_matrix h v s = Ok m /\
    let n := (s * h) * (s * v) in
    mrows m = n /\ mcols m = n /\
    (forall i j, 0 <= i < n -> 0 <= j < n -> bond_entry (mat_at m i j) (point (s * h) i) (point (s * h) j)) /\
    (forall i j, 0 <= i < n -> 0 <= j < n -> mat_at m i j = mat_at m j i) /\
    (forall i, 0 <= i < n -> mat_at m i i = 0).
Proof. exact C13_rectangular_pf. Qed.
Print Assumptions C13_rectangular.

(** one row of two blocks of side 2: 4 x 2 sites *)
Example C13_example :
  (m <- build_rectangular_bond_matrix 2 1 2 ;;
   Ok (map (fun j => mat_at m 3 j) (zrange 0 8), map (fun j => mat_at m 5 j) (zrange 0 8))) =
  Ok ([0; 0; 1; 0; 0; 0; 0; 1], [0; 1; 0; 0; 1; 0; 1; 0]).
Proof. vm_compute. reflexivity. Qed.

(** C14 *)
Theorem C14_ring :
  forall h v s, 1 <= h -> 1 <= v -> 1 <= s ->
  exists m o, build_bond_matrix_neel_embedding h v s = Ok m /\ build_bond_matrix_neel_outer_lattice h v s = Ok o /\
    let w := s * h in let ht := s * v in
    let n := w * ht + 2 * (w + ht) in
    mrows m = n /\ mcols m = n /\
    (forall i j, 0 <= i < n -> 0 <= j < n -> bond_entry (mat_at m i j) (ringed_point w ht i) (ringed_point w ht j)) /\
    mrows o = 2 * (w + ht) /\ mcols o = 2 * (w + ht) /\
    (forall i j, 0 <= i < 2 * (w + ht) -> 0 <= j < 2 * (w + ht) ->
       bond_entry (mat_at o i j) (ring_point w ht i) (ring_point w ht j) /\
       mat_at o i j = mat_at m (w * ht + i) (w * ht + j)).
Proof. exact C14_ring_pf. Qed.
Print Assumptions C14_ring.

(** 2x2 sites and their ring of 8: site 4 is below site 0, site 11 left of it *)
Example C14_example :
  (m <- build_bond_matrix_neel_embedding 1 1 2 ;;
   Ok (map (fun j => mat_at m 0 j) (zrange 0 12), map (fun j => mat_at m 5 j) (zrange 0 12))) =
  Ok ([0; 1; 1; 0; 1; 0; 0; 0; 0; 0; 0; 1], [0; 1; 0; 0; 1; 0; 0; 0; 0; 0; 0; 0]).
Proof. vm_compute. reflexivity. Qed.

(** C15 *)
Theorem C15_blocks :
  forall h v s, 1 <= h -> 1 <= v -> 1 <= s ->
  exists m r, build_bond_matrix_block_embedding h v s = Ok m /\ build_rectangular_bond_matrix (2 * h) v s = Ok r /\
    let w := s * h in let ht := s * v in let n := w * ht in
    mrows m = 2 * n /\ mcols m = 2 * n /\ mrows r = 2 * n /\ mcols r = 2 * n /\
    (forall i j, 0 <= i < 2 * n -> 0 <= j < 2 * n ->
       bond_entry (mat_at m i j) (blocks_point w ht i) (blocks_point w ht j)) /\
    (** row by row relabelling *)
    let relabel x := site (2 * w) (blocks_point w ht x) in
    (forall i, 0 <= i < 2 * n -> 0 <= relabel i < 2 * n) /\
    (forall i j, 0 <= i < 2 * n -> 0 <= j < 2 * n -> relabel i = relabel j -> i = j) /\
    (forall i j, 0 <= i < 2 * n -> 0 <= j < 2 * n -> mat_at m i j = mat_at r (relabel i) (relabel j)).
Proof. exact C15_blocks_pf. Qed.
Print Assumptions C15_blocks.

(** two 2x2 blocks: site 1 touches site 4 *)
Example C15_example :
  (m <- build_bond_matrix_block_embedding 1 1 2 ;;
   Ok (map (fun j => mat_at m 1 j) (zrange 0 8))) = Ok [1; 0; 0; 1; 1; 0; 0; 0].
Proof. vm_compute. reflexivity. Qed.

(** C16 *)
Theorem C16_neighbors :
  forall E m n x r,
  set_iter_ok E -> mrows m = n -> mcols m = n -> 0 <= x < n ->
  (forall l, r = RNested l -> l = []) ->
  exists l, get_neighbors E x m r = Ok l /\ NoDup l /\
    (forall y, In y l <-> 0 <= y < n /\ allowed n r y /\ mat_at m x y = 1).
Proof. exact C16_neighbors_pf. Qed.
Print Assumptions C16_neighbors.

Example C16_example :
  set_iter_ok cpython /\ mrows (bond_matrix (ex_rect 3 3 1 0 4)) = 9 /\ mcols (bond_matrix (ex_rect 3 3 1 0 4)) = 9 /\
  get_neighbors cpython 4 (bond_matrix (ex_rect 3 3 1 0 4)) (RList []) = Ok [1; 3; 5; 7] /\
  get_neighbors cpython 4 (bond_matrix (ex_rect 3 3 1 0 4)) (RTuple [0] [0; 1; 2; 3]) = Ok [1; 3].
Proof. split; [exact cpython_ok|]. vm_compute. auto. Qed.

Theorem C16_neighbors_nested :
  forall E m x a l, get_neighbors E x m (RNested (a :: l)) = Err TypeError.
Proof. exact C16_neighbors_nested_pf. Qed.
Print Assumptions C16_neighbors_nested.

Theorem C16_bond_list :
  forall E m n r0 r1,
  set_iter_ok E -> mrows m = n -> mcols m = n ->
  exists l, build_bond_list E m (RTuple r0 r1) = Ok l /\ NoDup l /\
    (forall i j, In (i, j) l <-> 0 <= i <= j /\ j < n /\ In i r0 /\ In j r1 /\ mat_at m i j = 1).
Proof. exact C16_bond_list_pf. Qed.
Print Assumptions C16_bond_list.

Theorem C16_bond_list_default :
  forall E m n,
  set_iter_ok E -> mrows m = n -> mcols m = n ->
  (exists l, build_bond_list E m (RList []) = Ok l /\ NoDup l /\
    (forall i j, In (i, j) l <-> 0 <= i <= j /\ j < n /\ mat_at m i j = 1)) /\
  (forall a q, build_bond_list E m (RList (a :: q)) = Err TypeError).
Proof. exact C16_bond_list_default_pf. Qed.
Print Assumptions C16_bond_list_default.

Example C16_example_bonds :
  build_bond_list cpython (bond_matrix ex22) (RList []) = Ok [(0, 1); (0, 2); (1, 3); (2, 3)] /\
  build_bond_list cpython (bond_matrix ex22) (RTuple [0; 2] [1; 2; 3]) = Ok [(0, 1); (0, 2); (2, 3)] /\
  build_bond_list cpython (bond_matrix ex22) (RTuple [1; 3] [0; 2]) = Ok [].
Proof. vm_compute. auto. Qed.

(** C17 *)
Theorem C17_second_neighbors :
  forall E c h v s x r,
  set_iter_ok E -> 1 <= h -> 1 <= v -> 1 <= s -> build_rectangular_bond_matrix h v s = Ok (bond_matrix c) ->
  0 <= x < mrows (bond_matrix c) -> (forall l, r = RNested l -> l = []) ->
  let n := mrows (bond_matrix c) in let p := point (s * h) in
  exists l, get_second_neighbors E x (bond_matrix c) r = Ok l /\ NoDup l /\
    (forall y, In y l <-> 0 <= y < n /\ allowed n r y /\
       Z.abs (fst (p x) - fst (p y)) + Z.abs (snd (p x) - snd (p y)) = 2).
Proof. exact C17_second_neighbors_pf. Qed.
Print Assumptions C17_second_neighbors.

Theorem C17_diagonal_neighbors :
  forall E c h v s x r0 r1,
  set_iter_ok E -> 1 <= h -> 1 <= v -> 1 <= s -> build_rectangular_bond_matrix h v s = Ok (bond_matrix c) ->
  nsites c = mrows (bond_matrix c) -> lattice_type c = Periodic -> sites_restriction c = RTuple r0 r1 ->
  0 <= x < nsites c ->
  let p := point (s * h) in
  exists l, get_diagonal_second_neighbors E c x = Ok l /\ NoDup l /\
    (forall y, In y l <-> 0 <= y < nsites c /\ In y r1 /\
       Z.abs (fst (p x) - fst (p y)) = 1 /\ Z.abs (snd (p x) - snd (p y)) = 1).
Proof. exact C17_diagonal_neighbors_pf. Qed.
Print Assumptions C17_diagonal_neighbors.

Example C17_example :
  let c := ex_rect 3 3 1 0 4 in
  build_rectangular_bond_matrix 3 3 1 = Ok (bond_matrix c) /\ nsites c = mrows (bond_matrix c) /\
  lattice_type c = Periodic /\ sites_restriction c = RTuple (zrange 0 9) (zrange 0 9) /\
  get_second_neighbors cpython 0 (bond_matrix c) (RList []) = Ok [2; 4; 6] /\
  get_diagonal_second_neighbors cpython c 0 = Ok [4].
Proof. vm_compute. auto 10. Qed.

(** C18 *)
Theorem C18_straight :
  forall E c h v s a m b x y z,
  1 <= h -> 1 <= v -> 1 <= s -> build_rectangular_bond_matrix h v s = Ok (bond_matrix c) ->
  nsites c = mrows (bond_matrix c) -> lattice_type c = Periodic ->
  path (nsites c) (point (s * h)) a m b -> Permutation [x; y; z] [a; m; b] ->
  exists r, is_bond_linear E c x y z = Ok r /\
    (r = true <-> straight (point (s * h) a) (point (s * h) m) (point (s * h) b)).
Proof. exact C18_straight_pf. Qed.
Print Assumptions C18_straight.

Theorem C18_errors :
  forall E c x y z,
  (x = y \/ x = z \/ y = z \/
   (0 <= x < mrows (bond_matrix c) /\ 0 <= y < mrows (bond_matrix c) /\ 0 <= z < mrows (bond_matrix c) /\
    mcols (bond_matrix c) = mrows (bond_matrix c) /\
    let M := mat_at (bond_matrix c) in
    ((M x y = 0 /\ M x z = 0) \/ (M x y = 0 /\ M y z = 0) \/ (M x z = 0 /\ M y z = 0)))) ->
  is_bond_linear E c x y z = Err ValueError.
Proof. exact C18_errors_pf. Qed.
Print Assumptions C18_errors.

Example C18_example :
  let c := ex_rect 3 3 1 0 4 in
  path (nsites c) (point 3) 0 1 2 /\ path (nsites c) (point 3) 0 1 4 /\
  is_bond_linear cpython c 2 0 1 = Ok true /\ is_bond_linear cpython c 4 0 1 = Ok false /\
  is_bond_linear cpython c 0 1 8 = Err ValueError /\ is_bond_linear cpython c 0 1 1 = Err ValueError.
Proof.
  cbv zeta. split; [|split].
  - repeat split; vm_compute; congruence.
  - repeat split; vm_compute; congruence.
  - vm_compute. auto.
Qed.

(** C19 *)
Theorem C19_ring_straight :
  forall E c a m b x y z,
  let w := nblocs_side c * nbh c in let h := nblocs_side c * nbv c in
  1 <= nbh c -> 1 <= nbv c -> 1 <= nblocs_side c -> 2 <= w -> 2 <= h ->
  build_bond_matrix_neel_embedding (nbh c) (nbv c) (nblocs_side c) = Ok (bond_matrix c) ->
  nsites c = mrows (bond_matrix c) -> lattice_type c = Peripheral ->
  path (nsites c) (ringed_point w h) a m b -> Permutation [x; y; z] [a; m; b] ->
  exists r, is_bond_linear E c x y z = Ok r /\
    (r = true <-> straight (ringed_point w h a) (ringed_point w h m) (ringed_point w h b)).
Proof. exact C19_ring_straight_pf. Qed.
Print Assumptions C19_ring_straight.

(** 2x2 sites with ring: ring site 4 - site 0 - site 2 is a column; 4 - 0 - 1 turns *)
Example C19_example :
  let c := ex_ring 1 1 2 0 6 in
  build_bond_matrix_neel_embedding (nbh c) (nbv c) (nblocs_side c) = Ok (bond_matrix c) /\
  nsites c = mrows (bond_matrix c) /\ lattice_type c = Peripheral /\
  path (nsites c) (ringed_point 2 2) 4 0 2 /\ path (nsites c) (ringed_point 2 2) 4 0 1 /\
  is_bond_linear cpython c 4 0 2 = Ok true /\ is_bond_linear cpython c 4 0 1 = Ok false.
Proof.
  cbv zeta. do 3 (split; [vm_compute; reflexivity|]).
  split; [repeat split; vm_compute; congruence|]. split; [repeat split; vm_compute; congruence|].
  vm_compute. auto.
Qed.

(** Blocks one site wide or high are misjudged. *)
Theorem C19_thin_refuted :
  (exists c, nblocs_side c * nbh c = 1 /\ nblocs_side c * nbv c = 2 /\
     build_bond_matrix_neel_embedding (nbh c) (nbv c) (nblocs_side c) = Ok (bond_matrix c) /\
     nsites c = mrows (bond_matrix c) /\ lattice_type c = Peripheral /\
     exists a m b, path (nsites c) (ringed_point 1 2) a m b /\
       straight (ringed_point 1 2 a) (ringed_point 1 2 m) (ringed_point 1 2 b) /\
       forall E, is_bond_linear E c a m b = Ok false) /\
  (exists c, nblocs_side c * nbh c = 2 /\ nblocs_side c * nbv c = 1 /\
     build_bond_matrix_neel_embedding (nbh c) (nbv c) (nblocs_side c) = Ok (bond_matrix c) /\
     nsites c = mrows (bond_matrix c) /\ lattice_type c = Peripheral /\
     exists a m b, path (nsites c) (ringed_point 2 1) a m b /\
       straight (ringed_point 2 1 a) (ringed_point 2 1 m) (ringed_point 2 1 b) /\
       forall E, is_bond_linear E c a m b = Ok false).
Proof. exact C19_thin_refuted_pf. Qed.
Print Assumptions C19_thin_refuted.

(** C20 *)
Theorem C20_clusters_straight :
  forall E c P iso a m b x y z,
  let w := nblocs_side c * nbh c in let pos i := point w (iso i) in
  1 <= nbh c -> 1 <= nbv c -> 1 <= nblocs_side c ->
  build_rectangular_bond_matrix (nbh c) (nbv c) (nblocs_side c) = Ok P ->
  nsites c = mrows P -> mrows (bond_matrix c) = nsites c -> mcols (bond_matrix c) = nsites c ->
  lattice_type c = Clusters ->
  (** [iso] is a graph isomorphism onto the rectangle, found by the search *)
  (forall i j, 0 <= i < nsites c -> 0 <= j < nsites c -> iso i = iso j -> i = j) ->
  (forall i j, 0 <= i < nsites c -> 0 <= j < nsites c -> mat_at (bond_matrix c) i j = mat_at P (iso i) (iso j)) ->
  search_finds (nsites c) (transfer E (bond_matrix c) P) iso ->
  path (nsites c) pos a m b -> Permutation [x; y; z] [a; m; b] ->
  exists r, is_bond_linear E c x y z = Ok r /\ (r = true <-> straight (pos a) (pos m) (pos b)).
Proof. exact C20_clusters_straight_pf. Qed.
Print Assumptions C20_clusters_straight.

Example C20_example :
  let c := ex_clusters in
  (exists P, build_rectangular_bond_matrix (nbh c) (nbv c) (nblocs_side c) = Ok P /\ nsites c = mrows P /\
     forallb (fun i => forallb (fun j => mat_at (bond_matrix c) i j =? mat_at P (ex_iso i) (ex_iso j)) (zrange 0 8))
             (zrange 0 8) = true) /\
  lattice_type c = Clusters /\ map ex_iso (zrange 0 8) = [0; 1; 4; 5; 2; 3; 6; 7] /\
  search_finds (nsites c) (transfer ex_clusters_runtime (bond_matrix c) (bond_matrix c)) ex_iso /\
  is_bond_linear ex_clusters_runtime c 0 1 4 = Ok true /\ is_bond_linear ex_clusters_runtime c 3 1 4 = Ok false.
Proof.
  cbv zeta. split; [eexists; vm_compute; auto|]. split; [reflexivity|]. split; [reflexivity|]. split.
  - exists 0. split; [vm_compute; split; congruence|]. split.
    + split; [reflexivity|]. intros r s _ _. cbn [transfer ex_clusters_runtime].
      destruct (r =? ex_iso s); auto.
    + split; [intros j Hj; exfalso; apply (Z.lt_irrefl 0); eapply Z.le_lt_trans; apply Hj|].
      intros s Hs.
      assert (B : forallb (fun s => (0 <=? ex_iso s) && (ex_iso s <? 8)) (zrange 0 8) = true) by reflexivity.
      rewrite forallb_forall in B.
      assert (I : In s (zrange 0 8)) by (apply PyFacts.in_zrange; exact Hs).
      specialize (B s I). apply andb_true_iff in B. destruct B as [B1 B2].
      apply Z.leb_le in B1. apply Z.ltb_lt in B2. split; [split; [exact B1 | exact B2]|].
      intros r _. cbn [transfer ex_clusters_runtime].
      destruct (Z.eqb_spec r (ex_iso s)); split; congruence.
  - vm_compute. auto.
Qed.

(** Straightness of a path is a property of the graph of bonds. *)
Theorem C20_graph_determined :
  forall w h a m b, 1 <= w -> 1 <= h ->
  path (w * h) (point w) a m b ->
  (straight (point w a) (point w m) (point w b) <->
   forall m', path (w * h) (point w) a m' b -> m' = m).
Proof. exact C20_graph_determined_pf. Qed.
Print Assumptions C20_graph_determined.

(** When no candidate fits, the last one is used, and a column of it without a 1 stops the program. *)
Theorem C20_not_found :
  forall E c P pos a m b x y z s, lattice_type c = Clusters -> drawn c pos ->
  build_rectangular_bond_matrix (nbh c) (nbv c) (nblocs_side c) = Ok P ->
  (forall k, 0 <= k < 2 ^ nsites c -> ~ acceptable (nsites c) (transfer E (bond_matrix c) P k)) ->
  path (nsites c) pos a m b -> Permutation [x; y; z] [a; m; b] ->
  In s [a; m; b] -> (forall r, 0 <= r < nsites c -> transfer E (bond_matrix c) P (2 ^ nsites c - 1) r s <> ROne) ->
  is_bond_linear E c x y z = Err IndexError.
Proof. exact C20_not_found_pf. Qed.
Print Assumptions C20_not_found.

(** 4 x 2 sites; candidates without a 1, up to the last *)
Example C20_not_found_example :
  let c := get empty_conf (bm <- build_rectangular_bond_matrix 2 1 2 ;; make_configuration bm 1 3 (RList []) Clusters 2 1 2) in
  let E := mkRuntime (set_iter cpython) (fun _ _ k _ _ => if k <? 256 then RZero else ROne) in
  lattice_type c = Clusters /\ drawn c (point 4) /\ nsites c = 8 /\ path (nsites c) (point 4) 1 2 3 /\
  (forall k, 0 <= k < 2 ^ nsites c -> ~ acceptable (nsites c) (transfer E (bond_matrix c) (bond_matrix c) k)) /\
  (forall r, 0 <= r < nsites c -> transfer E (bond_matrix c) (bond_matrix c) (2 ^ nsites c - 1) r 2 <> ROne) /\
  is_bond_linear E c 3 2 1 = Err IndexError.
Proof.
  cbv zeta. split; [reflexivity|]. split; [apply (rect_drawn _ 2 1 2); vm_compute; congruence|]. split; [reflexivity|].
  split; [unfold path; vm_compute; intuition congruence|]. split; [|split; [intros r _; vm_compute; discriminate | vm_compute; reflexivity]].
  intros k Hk [Q _]. cbn [transfer] in Q. change (nsites _) with 8 in Hk. change (2 ^ 8) with 256 in Hk.
  apply proj2, Z.ltb_lt in Hk. rewrite Hk in Q. discriminate.
Qed.
