(** Final lemmas of C65, C77 and C78 that were added after the random mutation runs. *)
From Coq Require Import ZArith String List Bool Lia QArith Qcanon.
From Verif Require Import PyBase PyFacts Lattice Base Interact Spin Prob Dav Files Display Emb Post Phase Spec SpecTJ SpinDefs ProbDefs DavDefs
  PSpin PVec PQc PProb PDavVec PFiles FilesDefs FProb FPost FEmbDyn.
Import ListNotations.
Open Scope Z_scope.

(** ** C65 *)
Lemma C65_interpolation_pf : forall P dc st n v vs e, let c := d_conf (dc_data dc) in
  (forall x y z, interp2d P x y z = Err e) ->
  listed (nsites c) (nholes c) (nbeta c) (dc_dets dc) st -> lattice_type c = Periodic -> 0 <= nbh c * nblocs_side c -> 0 <= nbv c * nblocs_side c ->
  nsites c = (nbh c * nblocs_side c) * (nbv c * nblocs_side c) ->
  e_vects (dc_eig dc) = v :: vs -> length v = length (dc_dets dc) -> inner v v <> 0%Qc -> 4 <= n ->
  save_hole_probability_lattice P dc n = Err e.
Proof.
  intros P dc st n v vs e c HI HL HP Hh Hv HN EV Lv Nv Hn. unfold save_hole_probability_lattice. rewrite rows_ok by lia. cbn [bind]. fold c.
  pose proof (sqrt_rows n Hn) as Hr. set (r := Z.sqrt n) in *. rewrite EV.
  pose proof (zlen_nonneg _ vs) as Z0. assert (ZL : zlen (v :: vs) = zlen vs + 1) by (unfold zlen; cbn [length]; lia).
  rewrite ZL, (zrange_cons 0 (Z.min (r ^ 2) (zlen vs + 1))) by (rewrite Z.pow_2_r; nia). cbn [mapM].
  rewrite (py_get_nth _ (v :: vs) 0 v) by (try lia; reflexivity). cbn [bind].
  destruct (C43_map_pf c (dc_dets dc) st v Hole HL Lv Nv HP Hh Hv HN) as (rows & pr & _ & E & _). change (spin_code Hole) with 0 in E. rewrite E. cbn [bind].
  rewrite HI. reflexivity.
Qed.

(** ** C77 *)
Lemma make_shape : forall bm h b r lt x v s c', make_configuration bm h b r lt x v s = Ok c' ->
  bond_matrix c' = bm /\ nsites c' = mrows bm /\ lattice_type c' = lt /\ nbh c' = x /\ nbv c' = v /\ nblocs_side c' = s.
Proof.
  intros bm h b r lt x v s c' H. unfold make_configuration in H. destruct (mrows bm =? 0); [discriminate|].
  apply bind_ok_inv in H. destruct H as (r' & _ & H). injection H as <-. repeat split.
Qed.
Lemma C77_shape_pf : forall c cn spin new pA pB, perturbed_A c spin new = Ok pA -> perturbed_B c cn spin new = Ok pB ->
  (bond_matrix pA = bond_matrix c /\ nsites pA = mrows (bond_matrix c) /\ lattice_type pA = Periodic /\ nbh pA = nbh c /\ nbv pA = nbv c /\ nblocs_side pA = nblocs_side c) /\
  (bond_matrix pB = bond_matrix cn /\ nsites pB = mrows (bond_matrix cn) /\ lattice_type pB = Periodic /\ nbh pB = nbh cn /\ nbv pB = nbv cn /\ nblocs_side pB = nblocs_side cn).
Proof.
  intros c cn spin new pA pB A B. split.
  - unfold perturbed_A in A. now apply make_shape in A.
  - unfold perturbed_B in B. apply bind_ok_inv in B. destruct B as (r & _ & B). now apply make_shape in B.
Qed.
Lemma C77_restriction_pf : forall c cn a b a' b' spin new pA pB, a <> [] -> b <> [] -> a' <> [] -> b' <> [] ->
  sites_restriction c = RTuple a b -> sites_restriction cn = RTuple a' b' ->
  perturbed_A c spin new = Ok pA -> perturbed_B c cn spin new = Ok pB ->
  sites_restriction pA = RTuple a b /\ sites_restriction pB = RTuple b' a'.
Proof.
  intros c cn a b a' b' spin new pA pB Na Nb Na' Nb' R R' A B. split.
  - unfold perturbed_A in A. rewrite R in A. unfold make_configuration in A. destruct (_ =? 0); [discriminate|].
    destruct a as [|x a]; [congruence|]. cbn in A. injection A as <-. reflexivity.
  - unfold perturbed_B in B. rewrite R' in B. cbn [swap_restriction bind] in B. unfold make_configuration in B. destruct (_ =? 0); [discriminate|].
    destruct b' as [|x b']; [congruence|]. cbn in B. injection B as <-. reflexivity.
Qed.

(** ** C78 *)
Lemma C78_number_pf : forall E roots c b v,
  compute_spin_number_of E roots (AsConf c) v = compute_spin_number E roots c v /\
  (inner v v <> 0%Qc -> compute_spin_number_of E roots (AsBasis b) v = Err AttributeError) /\
  (inner v v = 0%Qc -> roots 0%Qc = (0, - (1))%Qc -> compute_spin_number_of E roots (AsBasis b) v = Ok (Some 0%Qc)).
Proof.
  intros E roots c b v. split; [|split].
  - unfold compute_spin_number_of, compute_spin_number, compute_S2_exp_val_of, compute_S2_exp_val. cbn [as_conf bind].
    destruct (qeqb (vdot v v) 0) eqn:Q; destruct (Qc_eq_dec (vdot v v) 0) as [Z|Z]; try reflexivity.
    apply qeqb_eq in Q. contradiction.
  - intros H. unfold compute_spin_number_of, compute_S2_exp_val_of. rewrite vdot_inner by reflexivity.
    destruct (qeqb (inner v v) 0) eqn:Q; [apply qeqb_eq in Q; contradiction|]. reflexivity.
  - intros H R. unfold compute_spin_number_of, compute_S2_exp_val_of. rewrite vdot_inner by reflexivity.
    rewrite (proj2 (qeqb_eq _ _) H). rewrite R. destruct (Qclt_le_dec 0 0) as [L|L]; [now apply Qclt_not_eq in L|].
    apply f_equal, f_equal, Qc_is_canon. vm_compute. reflexivity.
Qed.
