(** Concrete lattices used in the examples beside the theorems. *)
From Coq Require Import ZArith List Bool Lia Permutation.
From Verif Require Import PyBase PyFacts Runtimes Lattice Base Spec PBasis.
Import ListNotations.
Open Scope Z_scope.

(** the value of a computation, or a default *)
Definition get {A} (d : A) (r : res A) : A := match r with Ok a => a | Err _ => d end.

Definition empty_mat : mat := mkMat 0 0 (fun _ _ => 0).
Definition empty_conf : configuration := mkConf empty_mat 0 0 0 0 0 (RList []) Periodic 0 0 0.

(** row-major lattice of nbh x nbv blocks of side s *)
Definition ex_rect (h v s holes beta : Z) : configuration :=
  get empty_conf
    (bm <- build_rectangular_bond_matrix h v s ;;
     make_configuration bm holes beta (RList []) Periodic h v s).

(** 2x2 sites, one hole, one down, two ups *)
Definition ex22 : configuration := ex_rect 1 1 2 1 1.

Definition ex22_state : occupation := fun x => if x =? 1 then Hole else if x =? 2 then Down else Up.

(** [describes] is decidable *)
Definition describesb (n h b : Z) (d : list Z) (s : occupation) : bool :=
  let hs := firstn (Z.to_nat h) d in
  let bs := firstn (Z.to_nat b) (skipn (Z.to_nat h) d) in
  let us := skipn (Z.to_nat b) (skipn (Z.to_nat h) d) in
  (zlen hs =? h) && (zlen bs =? b) && zlist_eqb (zsort hs) (sites_of n s Hole)
  && zlist_eqb (zsort bs) (sites_of n s Down) && zlist_eqb (zsort us) (sites_of n s Up).

Lemma describesb_ok : forall n h b d s, describesb n h b d s = true -> describes n h b d s.
Proof.
  intros n h b d s H. unfold describesb in H.
  repeat rewrite andb_true_iff in H. destruct H as ((((H1 & H2) & H3) & H4) & H5).
  apply Z.eqb_eq in H1, H2. apply zlist_eqb_eq in H3, H4, H5.
  assert (G : forall l p, zsort l = sites_of n s p -> NoDup l /\ (forall x, In x l <-> 0 <= x < n /\ s x = p)).
  { intros l p E. split.
    - eapply Permutation_NoDup; [apply zsort_perm|]. rewrite E. apply sites_of_NoDup.
    - intros x. rewrite <- in_zsort, E. apply in_sites_of. }
  destruct (G _ _ H3) as [N1 I1], (G _ _ H4) as [N2 I2], (G _ _ H5) as [N3 I3].
  exists (firstn (Z.to_nat h) d), (firstn (Z.to_nat b) (skipn (Z.to_nat h) d)), (skipn (Z.to_nat b) (skipn (Z.to_nat h) d)).
  split; [now rewrite !firstn_skipn|]. repeat (split; [assumption|]). assumption.
Qed.

(** two 2x2 blocks side by side; the first candidate is the row by row relabelling *)
Definition ex_iso (x : Z) : Z := site 4 (blocks_point 2 2 x).
Definition ex_clusters_runtime : runtime :=
  mkRuntime (set_iter cpython) (fun _ _ _ r s => if r =? ex_iso s then ROne else RZero).
Definition ex_clusters : configuration :=
  get empty_conf
    (bm <- build_bond_matrix_block_embedding 1 1 2 ;;
     make_configuration bm 1 3 (RList []) Clusters 2 1 2).

