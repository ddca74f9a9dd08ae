(** Final lemmas for C20, C40, C53: what the search does when it fails, the ties of the rounding, the text of a file. *)
From Coq Require Import ZArith String List Bool Lia Permutation Sorted QArith Lqa Qcanon Qround.
From Verif Require Import PyBase PyFacts Lattice Base Interact Ham Spin Prob Dav PQc PProb PSpin PFiles Spec SpecTJ SpinDefs Geometry HamSpec DavDefs Files FilesDefs PGeo FGeo.
Import ListNotations.
Open Scope Z_scope.

(** ** C20 *)
Lemma search_fails : forall fuel n T j, (forall i, j <= i < j + Z.of_nat fuel -> ~ acceptable n (T i)) -> search_candidate fuel n T j = j + Z.of_nat fuel - 1.
Proof.
  induction fuel as [|fuel IH]; intros n T j H; cbn [search_candidate]; [lia|].
  destruct (is_permutation_candidate n (T j)) eqn:Q; [apply acceptable_iff in Q; exfalso; apply (H j); [lia | exact Q]|].
  rewrite IH; [lia|]. intros i Hi. apply H. lia.
Qed.
Lemma filter_nothing : forall (A : Type) (f : A -> bool) l, (forall x, In x l -> f x = false) -> filter f l = [].
Proof. induction l as [|x l IH]; intros H; cbn; [reflexivity|]. rewrite (H x) by (left; reflexivity). apply IH. intros y Hy. apply H. right. exact Hy. Qed.
Lemma new_site_none : forall n T s, (forall r, 0 <= r < n -> T r s <> ROne) -> new_site n T s = Err IndexError.
Proof.
  intros n T s H. unfold new_site. replace (filter _ (zrange 0 n)) with (@nil Z); [reflexivity|].
  symmetry. apply filter_nothing. intros r Hr. apply in_zrange in Hr. specialize (H r ltac:(lia)). destruct (T r s); cbn; congruence.
Qed.
Lemma new_site_error : forall n T s e, new_site n T s = Err e -> e = IndexError.
Proof.
  intros n T s e H. unfold new_site, py_get in H. destruct (_ <? 0); [congruence|]. destruct (nth_error _ _); congruence.
Qed.

Lemma C20_not_found_pf : forall E c P pos a m b x y z s, lattice_type c = Clusters -> drawn c pos ->
  build_rectangular_bond_matrix (nbh c) (nbv c) (nblocs_side c) = Ok P ->
  (forall k, 0 <= k < 2 ^ nsites c -> ~ acceptable (nsites c) (transfer E (bond_matrix c) P k)) ->
  path (nsites c) pos a m b -> Permutation [x; y; z] [a; m; b] ->
  In s [a; m; b] -> (forall r, 0 <= r < nsites c -> transfer E (bond_matrix c) P (2 ^ nsites c - 1) r s <> ROne) ->
  is_bond_linear E c x y z = Err IndexError.
Proof.
  intros E c P pos a m b x y z s HT D HP Nf Pt Pm Hs Hn. unfold is_bond_linear.
  rewrite (middle_ok c pos D a m b x y z Pt Pm). cbn [bind]. rewrite HT, HP. cbn [bind].
  assert (N0 : 0 <= nsites c) by (destruct Pt as (Ha & _); lia).
  pose proof (Z.pow_pos_nonneg 2 (nsites c) ltac:(lia) N0) as Pp.
  rewrite search_fails by (intros i Hi; apply Nf; lia). replace (0 + Z.of_nat (Z.to_nat (2 ^ nsites c)) - 1) with (2 ^ nsites c - 1) by lia.
  pose proof (new_site_none _ _ s Hn) as Q. set (T := transfer E (bond_matrix c) P (2 ^ nsites c - 1)) in *.
  assert (Q' : new_site (nsites c) T (Z.min a b) = Err IndexError \/ new_site (nsites c) T m = Err IndexError \/ new_site (nsites c) T (Z.max a b) = Err IndexError).
  { destruct Hs as [<-|[<-|[<-|[]]]]; [|right; left; exact Q|]; destruct (Z.min_spec a b) as [[? ->]|[? ->]]; destruct (Z.max_spec a b) as [[? ->]|[? ->]]; try lia; auto. }
  destruct (new_site (nsites c) T (Z.min a b)) as [n1|e1] eqn:E1; [cbn [bind] | rewrite (new_site_error _ _ _ _ E1); reflexivity].
  destruct (new_site (nsites c) T m) as [n2|e2] eqn:E2; [cbn [bind] | rewrite (new_site_error _ _ _ _ E2); reflexivity].
  destruct (new_site (nsites c) T (Z.max a b)) as [n3|e3] eqn:E3; [cbn [bind] | rewrite (new_site_error _ _ _ _ E3); reflexivity].
  destruct Q' as [Q'|[Q'|Q']]; discriminate.
Qed.

(** ** C40 *)
Lemma round_tie : forall k, round0 (qz k + half)%Qc = if Z.even k then k else k + 1.
Proof.
  intros k. unfold round0.
  assert (F : Qfloor (qz k + half)%Qc = k).
  { assert (F1 : (inject_Z (Qfloor (qz k + half)%Qc) <= this (qz k + half)%Qc)%Q) by apply Qfloor_le.
    assert (F2 : (this (qz k + half)%Qc < inject_Z (Qfloor (qz k + half)%Qc + 1))%Q) by apply Qlt_floor.
    set (f := Qfloor _) in *. clearbody f. rewrite inject_Z_plus in F2. change (inject_Z 1) with 1%Q in F2. qc.
    assert (A : (inject_Z f < inject_Z (k + 1))%Q) by (rewrite inject_Z_plus; change (inject_Z 1) with 1%Q; lra).
    assert (B : (inject_Z k < inject_Z (f + 1))%Q) by (rewrite inject_Z_plus; change (inject_Z 1) with 1%Q; lra).
    rewrite <- Zlt_Qlt in A, B. lia. }
  rewrite F. replace (qz k + half - qz k)%Qc with half by ring.
  destruct (Qclt_le_dec half (qfrac 1 2)) as [L|_]; [exfalso; vm_compute in L; discriminate|].
  destruct (Qc_eq_dec half (qfrac 1 2)) as [_|N]; [reflexivity | exfalso; apply N; apply Qc_is_canon; vm_compute; reflexivity].
Qed.

Lemma C40_halfway_pf : forall E c v roots x a b k, compute_S2_exp_val E c v = Ok x -> roots x = (a, b) -> 0 <= k -> a = (half * qz k + qfrac 1 4)%Qc ->
  exists j, compute_spin_number E roots c v = Ok (Some (half * qz j)%Qc) /\ Z.Even j /\ (j = k \/ j = k + 1).
Proof.
  intros E c v roots x a b k H R K ->. unfold compute_spin_number. rewrite H, R.
  destruct (Qclt_le_dec _ 0) as [L|_].
  { exfalso. assert ((0 <= half * qz k + qfrac 1 4)%Qc) as G; [|exact (Qclt_not_le _ _ L G)].
    assert (inject_Z 0 <= inject_Z k)%Q by (rewrite <- Zle_Qle; exact K). change (inject_Z 0) with 0%Q in *. qc. }
  replace (qz 2 * (half * qz k + qfrac 1 4))%Qc with (qz k + half)%Qc by (apply Qc_is_canon; qc; change (inject_Z 2) with 2%Q; lra).
  rewrite round_tie. exists (if Z.even k then k else k + 1). split.
  - do 2 f_equal. unfold Qcdiv. replace (/ qz 2)%Qc with half by (apply Qc_is_canon; vm_compute; reflexivity). ring.
  - rewrite <- Z.even_spec. destruct (Z.even k) eqn:Q; [auto|]. rewrite Z.even_add, Q. auto.
Qed.

(** ** C53 *)
Lemma sorted_nodup_nth : forall l, Sorted Z.le l -> NoDup l -> forall a b, (a < b < length l)%nat -> nth a l 0 < nth b l 0.
Proof.
  intros l S N a b H. apply Sorted_StronglySorted in S; [|intros x y z ? ?; lia].
  revert a b H. induction S as [|x l S IH F]; intros a b H; [cbn in H; lia|]. apply NoDup_cons_iff in N. destruct N as [N1 N2].
  destruct b as [|b]; [lia|]. cbn [length] in H. destruct a as [|a]; cbn [nth].
  - rewrite Forall_forall in F. assert (I : In (nth b l 0) l) by (apply nth_In; lia). specialize (F _ I).
    assert (x <> nth b l 0) by (intros ->; contradiction). lia.
  - apply IH; [assumption | lia].
Qed.

Lemma compressed_ok : forall m, 0 <= csr_dim m -> compressed m (csr_data m) (csr_indices m) (csr_indptr m).
Proof.
  intros m HN. set (L := row_columns m). set (V := fun i => map (csr_at m i) (row_columns m i)).
  assert (LI : zlen (csr_indices m) = offset L (csr_dim m)) by (unfold csr_indices; fold L; apply concat_len).
  assert (LD : zlen (csr_data m) = offset L (csr_dim m)).
  { unfold csr_data. change (fun i0 => map (csr_at m i0) (row_columns m i0)) with V. rewrite concat_len. apply (offsets_same m). }
  assert (NP : forall k, 0 <= k <= csr_dim m -> nth (Z.to_nat k) (csr_indptr m) 0 = offset L k).
  { intros k Hk. unfold csr_indptr. rewrite nth_map_zrange by lia. reflexivity. }
  unfold compressed. cbv zeta. split; [unfold csr_indptr; rewrite zlen_map, zlen_zrange; lia|].
  split; [rewrite NP by lia; reflexivity|]. split; [rewrite NP by lia; lia|]. split; [lia|].
  intros i Hi. rewrite !NP by lia. rewrite offset_next by lia. pose proof (zlen_nonneg _ (L i)) as Z0. pose proof (offset_nonneg _ L i) as O0.
  assert (C : forall k, offset L i <= k < offset L i + zlen (L i) -> nth (Z.to_nat k) (csr_indices m) 0 = nth (Z.to_nat (k - offset L i)) (L i) 0).
  { intros k Hk. unfold csr_indices. fold L. rewrite <- (chunk _ L (csr_dim m)) by lia. do 2 f_equal. lia. }
  assert (D : forall k, offset L i <= k < offset L i + zlen (L i) -> nth (Z.to_nat k) (csr_data m) 0%Qc = csr_at m i (nth (Z.to_nat (k - offset L i)) (L i) 0)).
  { intros k Hk. assert (LV : zlen (V i) = zlen (L i)) by apply zlen_map. unfold csr_data. change (fun i0 => map (csr_at m i0) (row_columns m i0)) with V.
    replace k with (offset V i + (k - offset L i)) at 1 by (rewrite (offsets_same m); fold L; lia). rewrite (chunk _ V) by lia.
    unfold V. fold (L i). rewrite (nth_indep _ 0%Qc (csr_at m i 0)) by (rewrite map_length; unfold zlen in *; lia). now rewrite (map_nth (csr_at m i)). }
  split; [lia|]. split; [|split].
  - intros k l Hk Hl. rewrite !C by lia. apply sorted_nodup_nth; [apply zsort_sorted | apply (L_NoDup m) | unfold zlen in *; lia].
  - intros k Hk. rewrite C, D by lia. reflexivity.
  - intros j Hj. destruct (in_dec Z.eq_dec j (L i)) as [I|I]; [|exfalso; apply Hj; now apply csr_at_absent].
    apply (In_nth _ _ 0) in I. destruct I as (k & Hk & <-). exists (offset L i + Z.of_nat k). unfold zlen in *. split; [lia|]. rewrite C by lia. f_equal. lia.
Qed.

Lemma C53_written_pf : forall fs dc fs' dc' t, complete dc -> dc_times dc = Some t -> save_data fs dc = (fs', Ok dc') ->
  exists j, fs_get fs' (file_of dc) = Some (Some j) /\ tells dc t j.
Proof.
  intros fs dc fs' dc' t (M & N1 & (Sh & _) & T) HT H. unfold save_data in H. cbn [forget_guess dc_times] in H. rewrite HT in H.
  injection H as <- _. destruct (made_inv _ M) as (n & r0 & r1 & h & b & Hn & Hr & Hc & Hs & _).
  exists (result_to_json (forget_guess dc) t). split; [apply fs_get_same|].
  unfold tells. cbv zeta. do 8 (split; [reflexivity|]).
  split; [eexists; split; [reflexivity|] |].
  { unfold Qcdiv. rewrite Qcmult_comm, <- Qcmult_assoc, (Qcmult_comm (/ qz 2)), Qcmult_inv_r by discriminate. rewrite Qcmult_1_r. reflexivity. }
  split; [eexists; split; [reflexivity|] |].
  { unfold Qcdiv. cbn [forget_guess dc_data drop_guess d_conf]. rewrite <- Qcmult_assoc, (Qcmult_comm (/ _)), Qcmult_inv_r; [apply Qcmult_1_r|].
    intros Q. apply this_eq in Q. rewrite this_qz in Q. change (this 0%Qc) with (inject_Z 0) in Q. rewrite inject_Z_injective in Q. lia. }
  split; [exists (mat_rows (bond_matrix (d_conf (dc_data dc)))); split; [reflexivity|] |].
  { unfold mat_rows. split; [rewrite zlen_map, zlen_zrange; lia|]. intros i k Hi Hk. rewrite nth_map_zrange by lia.
    split; [rewrite zlen_map, zlen_zrange; lia | apply nth_map_zrange; lia]. }
  split; [exists (csr_data (dc_ham dc)), (csr_indices (dc_ham dc)), (csr_indptr (dc_ham dc)); do 3 (split; [reflexivity|]); apply compressed_ok; lia|].
  split; [reflexivity|]. split; [reflexivity|].
  split; [exists (vects_rows (csr_dim (dc_ham dc)) (e_vects (dc_eig dc))); split; [reflexivity|] |].
  { unfold vects_rows. split; [rewrite zlen_map, zlen_zrange; lia|]. intros i k Hi. rewrite nth_map_zrange by lia.
    destruct (Nat.lt_ge_cases k (length (e_vects (dc_eig dc)))) as [Hk|Hk].
    - rewrite (nth_indep _ 0%Qc ((fun v => nth (Z.to_nat i) v 0%Qc) [])) by (rewrite map_length; exact Hk). now rewrite (map_nth (fun v => nth (Z.to_nat i) v 0%Qc)).
    - rewrite nth_overflow by (rewrite map_length; exact Hk). rewrite (nth_overflow _ [] Hk). symmetry. now destruct (Z.to_nat i). }
  repeat split; reflexivity.
Qed.
