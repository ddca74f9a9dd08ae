(** Result files: round trips. *)
From Coq Require Import ZArith String List Bool Lia QArith Qcanon.
From Verif Require Import PyBase PyFacts Lattice Base Interact Ham Spin Prob Dav DavDefs SpecTJ Files FilesDefs PBasis PRot PRep PInter PSpin PVec PHam PMat SpinDefs.
Import ListNotations.
Open Scope Z_scope.

(** ** Files *)
Lemma fs_get_same : forall fs n x, fs_get (fs_put fs n x) n = Some x.
Proof.
  induction fs as [|[m y] fs IH]; intros n x; cbn [fs_put fs_get].
  - now rewrite String.eqb_refl.
  - destruct (String.eqb m n) eqn:Q; cbn [fs_get]; [now rewrite String.eqb_refl|]. rewrite Q. apply IH.
Qed.

Lemma fs_get_other : forall fs n n' x, n' <> n -> fs_get (fs_put fs n x) n' = fs_get fs n'.
Proof.
  induction fs as [|[m y] fs IH]; intros n n' x D; cbn [fs_put fs_get].
  - destruct (String.eqb n n') eqn:Q; [|reflexivity]. apply String.eqb_eq in Q. now subst.
  - destruct (String.eqb m n) eqn:Q; cbn [fs_get].
    + apply String.eqb_eq in Q. subst m. destruct (String.eqb n n') eqn:R; [|reflexivity]. apply String.eqb_eq in R. now subst.
    + now rewrite IH.
Qed.

(** ** Lists *)
Lemma jlist_ok : forall A (f : json -> res A) (g : A -> json) l, (forall x, f (g x) = Ok x) -> jlist f (JList (map g l)) = Ok l.
Proof.
  intros A f g l H. cbn [jlist]. induction l as [|x l IH]; cbn [map mapM]; [reflexivity|]. rewrite H. cbn [bind]. now rewrite IH.
Qed.
Lemma jints_ok : forall l, jlist jint (JInts l) = Ok l.
Proof. intros. apply jlist_ok. reflexivity. Qed.
Lemma jfloats_ok : forall l, jlist jfloat (JFloats l) = Ok l.
Proof. intros. apply jlist_ok. reflexivity. Qed.
Lemma jintss_ok : forall l, jlist (jlist jint) (JList (map JInts l)) = Ok l.
Proof. intros. apply jlist_ok. apply jints_ok. Qed.
Lemma jfloatss_ok : forall l, jlist (jlist jfloat) (JList (map JFloats l)) = Ok l.
Proof. intros. apply jlist_ok. apply jfloats_ok. Qed.
Lemma jspins_ok : forall l, jlist jspin (JList (map json_of_spin l)) = Ok l.
Proof. intros. apply jlist_ok. intros [q|]; reflexivity. Qed.

Lemma jrestriction_tuple : forall a b, jrestriction (json_of_restriction (RTuple a b)) = Ok (RNested [a; b]).
Proof.
  intros. unfold jrestriction. change (jlist jint (json_of_restriction (RTuple a b))) with (@Err (list Z) TypeError). cbv iota.
  change (json_of_restriction (RTuple a b)) with (JList (map JInts [a; b])). now rewrite jintss_ok.
Qed.

(** ** The bond matrix *)
Lemma nth_zrange : forall n i d, 0 <= i < n -> nth (Z.to_nat i) (zrange 0 n) d = i.
Proof.
  intros n i d H. unfold zrange. rewrite Z.sub_0_r.
  rewrite (nth_indep _ d (0 + Z.of_nat 0)) by (rewrite map_length, seq_length; lia).
  rewrite (map_nth (fun k => 0 + Z.of_nat k)). rewrite seq_nth by lia. lia.
Qed.

Lemma nth_map_zrange : forall A (f : Z -> A) n i d, 0 <= i < n -> nth (Z.to_nat i) (map f (zrange 0 n)) d = f i.
Proof.
  intros A f n i d H. rewrite (nth_indep _ d (f 0)) by (rewrite map_length, zrange_length; lia).
  rewrite (map_nth f). now rewrite nth_zrange.
Qed.

Lemma matrix_back : forall m, mrows m = mcols m -> 0 < mrows m -> same_matrix m (mat_of_rows (mat_rows m)).
Proof.
  intros m Sq P. unfold mat_of_rows, mat_rows, same_matrix. cbn [mrows mcols mat_at].
  rewrite zlen_map, zlen_zrange by lia. split; [lia|]. split.
  - pose proof (nth_map_zrange _ (fun i => map (mat_at m i) (zrange 0 (mcols m))) (mrows m) 0 [] ltac:(lia)) as Q. change (Z.to_nat 0) with 0%nat in Q.
    rewrite Q. rewrite zlen_map, zlen_zrange by lia. lia.
  - intros i j Hi Hj. rewrite nth_map_zrange by lia. now rewrite nth_map_zrange by lia.
Qed.

(** ** The vectors *)
Lemma vects_back : forall dim vects, 1 <= dim -> tall (Z.to_nat dim) vects -> rows_vects (vects_rows dim vects) = vects.
Proof.
  intros dim vects P T. unfold rows_vects, vects_rows.
  pose proof (nth_map_zrange _ (fun i => map (fun v => nth (Z.to_nat i) v 0%Qc) vects) dim 0 [] ltac:(lia)) as Q. change (Z.to_nat 0) with 0%nat in Q.
  rewrite Q, zlen_map. clear Q. apply nth_ext with (d := []) (d' := []).
  - rewrite map_length, zrange_length. unfold zlen. lia.
  - intros k Hk. rewrite map_length, zrange_length in Hk. unfold zlen in Hk. replace k with (Z.to_nat (Z.of_nat k)) at 1 by lia.
    rewrite nth_map_zrange by (unfold zlen; lia). rewrite map_map. rewrite Nat2Z.id.
    assert (Lk : length (nth k vects []) = Z.to_nat dim). { unfold tall in T. rewrite Forall_forall in T. apply T. apply nth_In. lia. }
    apply nth_ext with (d := 0%Qc) (d' := 0%Qc).
    + rewrite map_length, zrange_length. lia.
    + intros i Hi. rewrite map_length, zrange_length in Hi. replace i with (Z.to_nat (Z.of_nat i)) at 1 by lia.
      rewrite nth_map_zrange by lia. rewrite Nat2Z.id.
      rewrite (nth_indep _ 0%Qc (nth i [] 0%Qc)) by (rewrite map_length; lia). now rewrite (map_nth (fun v => nth i v 0%Qc)).
Qed.

(** ** The sparse matrix *)
Section Chunks.
Variable A : Type.
Variable L : Z -> list A.
Definition offset (k : Z) : Z := zsum (map (fun i => zlen (L i)) (zrange 0 k)).

Lemma offset_nonneg : forall k, 0 <= offset k.
Proof.
  intros k. unfold offset. induction (zrange 0 k) as [|x l IH]; cbn [map]; [reflexivity|].
  change (zsum (zlen (L x) :: map (fun i => zlen (L i)) l)) with (zlen (L x) + zsum (map (fun i => zlen (L i)) l)).
  pose proof (zlen_nonneg _ (L x)). lia.
Qed.

Lemma zsum_app : forall a b, zsum (a ++ b) = zsum a + zsum b.
Proof. induction a as [|x a IH]; intros b; [reflexivity|]. cbn [app]. change (zsum (x :: a ++ b)) with (x + zsum (a ++ b)). rewrite IH. change (zsum (x :: a)) with (x + zsum a). lia. Qed.

Lemma offset_next : forall k, 0 <= k -> offset (k + 1) = offset k + zlen (L k).
Proof. intros k H. unfold offset. rewrite zrange_snoc by lia. rewrite map_app, zsum_app. cbn [map]. change (zsum [zlen (L k)]) with (zlen (L k) + 0). lia. Qed.

Lemma concat_len : forall k, zlen (concat (map L (zrange 0 k))) = offset k.
Proof.
  intros k. unfold offset. induction (zrange 0 k) as [|x l IH]; [reflexivity|]. cbn [map concat]. rewrite zlen_app, IH. reflexivity.
Qed.

Lemma chunk : forall n i k d, 0 <= i < n -> 0 <= k < zlen (L i) ->
  nth (Z.to_nat (offset i + k)) (concat (map L (zrange 0 n))) d = nth (Z.to_nat k) (L i) d.
Proof.
  intros n i k d Hi Hk. rewrite (zrange_app 0 i n) by lia. rewrite (zrange_cons i n) by lia.
  rewrite map_app, concat_app. cbn [map concat]. pose proof (concat_len i) as Q. pose proof (offset_nonneg i).
  unfold zlen in Q, Hk. rewrite app_nth2 by lia. rewrite app_nth1 by lia. f_equal. lia.
Qed.
End Chunks.
Arguments offset {A}.

Section Sparse.
Variable m : csr.
Hypothesis HN : 0 <= csr_dim m.
Let L := row_columns m.
Let V := fun i => map (csr_at m i) (row_columns m i).

Lemma offsets_same : forall k, offset V k = offset L k.
Proof. intros. unfold offset. f_equal. apply map_ext. intros i. unfold V, L. apply zlen_map. Qed.

Lemma row_back : forall i, 0 <= i < csr_dim m ->
  map (fun k => (nth (Z.to_nat k) (csr_data m) 0%Qc, i, nth (Z.to_nat k) (csr_indices m) 0)) (zrange (offset L i) (offset L (i + 1)))
  = map (fun j => (csr_at m i j, i, j)) (L i).
Proof.
  intros i Hi. rewrite offset_next by lia. replace (zrange (offset L i) (offset L i + zlen (L i))) with (map (fun k => k + offset L i) (zrange 0 (zlen (L i)))).
  2:{ rewrite zrange_shift. f_equal; lia. }
  rewrite map_map. pose proof (zlen_nonneg _ (L i)).
  apply nth_ext with (d := (0%Qc, 0, 0)) (d' := (0%Qc, 0, 0)).
  - rewrite !map_length, zrange_length. unfold zlen. lia.
  - intros k Hk. rewrite map_length, zrange_length in Hk. replace k with (Z.to_nat (Z.of_nat k)) at 1 by lia.
    rewrite nth_map_zrange by lia.
    assert (E1 : nth (Z.to_nat (Z.of_nat k + offset L i)) (csr_indices m) 0 = nth k (L i) 0).
    { rewrite Z.add_comm. unfold csr_indices. fold L. rewrite (chunk _ L) by lia. now rewrite Nat2Z.id. }
    assert (E2 : nth (Z.to_nat (Z.of_nat k + offset L i)) (csr_data m) 0%Qc = csr_at m i (nth k (L i) 0)).
    { rewrite Z.add_comm. rewrite <- offsets_same. unfold csr_data. change (fun i0 => map (csr_at m i0) (row_columns m i0)) with V.
      assert (LV : zlen (V i) = zlen (L i)) by apply zlen_map. rewrite (chunk _ V) by lia.
      rewrite Nat2Z.id. unfold V. fold (L i). rewrite (nth_indep _ 0%Qc (csr_at m i 0)) by (rewrite map_length; unfold zlen in *; lia).
      now rewrite (map_nth (csr_at m i)). }
    rewrite E1, E2. rewrite (nth_indep _ (0%Qc, 0, 0) ((fun j => (csr_at m i j, i, j)) 0)) by (rewrite map_length; unfold zlen in *; lia).
    now rewrite (map_nth (fun j => (csr_at m i j, i, j))).
Qed.

Definition back_entries : coo := concat (map (fun i => map (fun j => (csr_at m i j, i, j)) (L i)) (zrange 0 (csr_dim m))).

Lemma csr_back : csr_of_arrays (csr_dim m) (csr_data m) (csr_indices m) (csr_indptr m) = Ok (mkCsr (csr_dim m) back_entries).
Proof.
  assert (LI : zlen (csr_indices m) = offset L (csr_dim m)) by (unfold csr_indices; fold L; apply concat_len).
  assert (LD : zlen (csr_data m) = offset L (csr_dim m)).
  { unfold csr_data. change (fun i0 => map (csr_at m i0) (row_columns m i0)) with V. rewrite concat_len. apply offsets_same. }
  assert (NP : forall k, 0 <= k <= csr_dim m -> nth (Z.to_nat k) (csr_indptr m) 0 = offset L k).
  { intros k Hk. unfold csr_indptr. rewrite nth_map_zrange by lia. reflexivity. }
  unfold csr_of_arrays.
  replace (zlen (csr_indptr m) =? csr_dim m + 1) with true.
  2:{ symmetry. apply Z.eqb_eq. unfold csr_indptr. rewrite zlen_map, zlen_zrange; lia. }
  replace (nth 0 (csr_indptr m) 0 =? 0) with true.
  2:{ symmetry. apply Z.eqb_eq. change 0%nat with (Z.to_nat 0). rewrite NP by lia. reflexivity. }
  replace (zlen (csr_indices m) =? zlen (csr_data m)) with true by (symmetry; apply Z.eqb_eq; lia).
  replace (last (csr_indptr m) 0 <=? zlen (csr_indices m)) with true.
  2:{ symmetry. apply Z.leb_le. rewrite LI. unfold csr_indptr. rewrite zrange_snoc by lia. rewrite map_app. cbn [map]. rewrite last_last.
      change (zsum (map (fun i => zlen (row_columns m i)) (zrange 0 (csr_dim m)))) with (offset L (csr_dim m)). lia. }
  cbn [andb]. f_equal. f_equal. unfold back_entries. f_equal. apply map_ext_in. intros i Hi. apply in_zrange in Hi.
  rewrite !NP by lia. apply row_back. lia.
Qed.

Lemma csr_at_absent : forall i j, ~ In j (L i) -> csr_at m i j = 0%Qc.
Proof.
  intros i j H. rewrite csr_at_coo. unfold coo_at. apply qsum_zero. intros [[x r] k] I.
  destruct (Z.eqb_spec r i) as [->|N]; [|reflexivity]. destruct (Z.eqb_spec k j) as [->|N]; [|reflexivity].
  exfalso. apply H. unfold L, row_columns. rewrite in_zsort, nodup_In, in_map_iff. exists (x, i, j). split; [reflexivity|].
  apply filter_In. split; [assumption|]. cbn. apply Z.eqb_refl.
Qed.

Lemma L_NoDup : forall i, NoDup (L i).
Proof. intros i. unfold L, row_columns. eapply Permutation.Permutation_NoDup; [apply Permutation.Permutation_sym, zsort_perm | apply NoDup_nodup]. Qed.

Lemma qsum_concat : forall X (f : X -> Qc) ls, qsum f (concat ls) = qsum (fun l => qsum f l) ls.
Proof. intros X f ls. induction ls as [|l ls IH]; [reflexivity|]. cbn [concat]. rewrite qsum_app, IH. now rewrite qsum_cons. Qed.

Lemma back_at : (forall x i j, In (x, i, j) (csr_entries m) -> 0 <= i < csr_dim m /\ 0 <= j < csr_dim m) ->
  forall i j, csr_at (mkCsr (csr_dim m) back_entries) i j = csr_at m i j.
Proof.
  intros R i j. rewrite csr_at_coo. cbn [csr_entries]. unfold coo_at, back_entries.
  rewrite qsum_concat. rewrite qsum_map.
  destruct (in_dec Z.eq_dec j (L i)) as [I|I].
  - assert (Hi : 0 <= i < csr_dim m).
    { unfold L, row_columns in I. rewrite in_zsort, nodup_In, in_map_iff in I. destruct I as ([[x r] k] & <- & F). apply filter_In in F. destruct F as [F Q]. cbn in Q.
      apply Z.eqb_eq in Q. subst r. apply R in F. lia. }
    rewrite (qsum_single _ _ _ i).
    + rewrite qsum_map. rewrite (qsum_single _ _ _ j).
      * now rewrite !Z.eqb_refl.
      * apply L_NoDup.
      * assumption.
      * intros k _ N. rewrite Z.eqb_refl. cbn [andb]. apply Z.eqb_neq in N. now rewrite N.
    + apply zrange_NoDup.
    + now apply in_zrange.
    + intros k _ N. rewrite qsum_map. apply qsum_zero. intros z _. apply Z.eqb_neq in N. now rewrite N.
  - rewrite csr_at_absent by assumption. apply qsum_zero. intros k _. rewrite qsum_map. apply qsum_zero. intros z Hz.
    destruct (Z.eqb_spec k i) as [->|N]; [|reflexivity]. destruct (Z.eqb_spec z j) as [->|N]; [|reflexivity]. contradiction.
Qed.
End Sparse.

(** ** A whole file *)
Lemma make_inv : forall bm h b r lt x y s c, make_configuration bm h b r lt x y s = Ok c ->
  mrows bm <> 0 /\ exists r0 r1, c = mkConf bm (mrows bm) h b (mrows bm - h - b) (compute_dimension (mrows bm) (mrows bm - h - b) b) (RTuple r0 r1) lt x y s.
Proof.
  intros bm h b r lt x y s c H. unfold make_configuration in H. destruct (Z.eqb_spec (mrows bm) 0) as [|N]; [discriminate|]. split; [assumption|].
  destruct (restr_falsy r); cbn [bind] in H.
  - injection H as <-. do 2 eexists. reflexivity.
  - destruct r as [l|a b'|l]; cbn [bind] in H; try discriminate; injection H as <-; do 2 eexists; reflexivity.
Qed.

Lemma made_inv : forall c, made c -> exists n r0 r1 h b, 0 < n /\ mrows (bond_matrix c) = n /\ mcols (bond_matrix c) = n /\ nsites c = n /\ nholes c = h /\ nbeta c = b /\
  nalpha c = n - h - b /\ nb_conf c = compute_dimension n (n - h - b) b /\ sites_restriction c = RTuple r0 r1.
Proof.
  intros c (Sq & P & h & b & r & lt & x & y & s & M). apply make_inv in M. destruct M as (N & r0 & r1 & Q).
  exists (mrows (bond_matrix c)), r0, r1, h, b. pose proof (f_equal nsites Q) as Q1. pose proof (f_equal nholes Q) as Q2. pose proof (f_equal nbeta Q) as Q3.
  pose proof (f_equal nalpha Q) as Q4. pose proof (f_equal nb_conf Q) as Q5. pose proof (f_equal sites_restriction Q) as Q6. clear Q.
  cbn [nsites nholes nbeta nalpha nb_conf sites_restriction] in *.
  split; [lia|]. split; [reflexivity|]. split; [lia|]. auto 10.
Qed.

Lemma configuration_back : forall c o, made c -> configuration_to_json c = JObj o ->
  exists c', recover_configuration o = Ok c' /\ same_system c c' /\ lattice_type c' = Periodic /\
    (forall a b, sites_restriction c = RTuple a b -> sites_restriction c' = RNested [a; b]) /\ jget o "nb_conf" = Ok (JInt (nb_conf c)).
Proof.
  intros c o M Q. injection Q as <-. destruct (made_inv c M) as (n & r0 & r1 & h & b & P & R & C & S & H & B & A & D & F).
  pose proof (matrix_back (bond_matrix c) ltac:(lia) ltac:(lia)) as MB.
  unfold recover_configuration. cbn [jget jfield find fst snd option_map String.eqb Ascii.eqb Bool.eqb bind jint optional_int]. rewrite jintss_ok. cbn [bind].
  unfold make_configuration. rewrite <- (proj1 MB). replace (mrows (bond_matrix c) =? 0) with false by (symmetry; apply Z.eqb_neq; lia).
  cbn [restr_falsy bind bond_matrix nsites nholes nbeta nalpha nb_conf sites_restriction lattice_type nbh nbv nblocs_side].
  rewrite F, jrestriction_tuple. cbn [bind]. eexists. split; [reflexivity|].
  split; [|split; [reflexivity|split; [|reflexivity]]].
  - unfold same_system, same_counts. cbn [bond_matrix nsites nholes nbeta nalpha nb_conf sites_restriction lattice_type nbh nbv nblocs_side].
    rewrite R, S, A, D, H, B. auto 10.
  - intros a b0 Q. injection Q as <- <-. reflexivity.
Qed.

Lemma interactions_back : forall I o, interactions_to_json I = JObj o -> recover_interactions o = Ok I.
Proof. intros I o Q. injection Q as <-. destruct I. reflexivity. Qed.
Lemma diagonalization_back : forall g o, diagonalization_to_json g = JObj o -> recover_diagonalization o = Ok (with_guess g None).
Proof. intros g o Q. injection Q as <-. destruct g. reflexivity. Qed.
Lemma bools_back : forall b o, bools_to_json b = JObj o -> recover_bools o = Ok b.
Proof. intros b o Q. injection Q as <-. destruct b as [[? ? ? ? ? ?] ?]. reflexivity. Qed.
Lemma times_back : forall t o, times_to_json t = JObj o -> recover_times o = Ok t.
Proof. intros t o Q. injection Q as <-. destruct t. reflexivity. Qed.
Lemma hamiltonian_back : forall m o, 0 <= csr_dim m -> hamiltonian_to_json m = JObj o -> recover_hamiltonian (csr_dim m) o = Ok (mkCsr (csr_dim m) (back_entries m)).
Proof.
  intros m o H Q. injection Q as <-. unfold recover_hamiltonian. cbn [jget jfield find fst snd option_map String.eqb Ascii.eqb Bool.eqb bind].
  rewrite jfloats_ok. cbn [bind]. rewrite !jints_ok. cbn [bind]. now apply csr_back.
Qed.
Lemma eigenstates_back : forall dim e o, 1 <= dim -> tall (Z.to_nat dim) (e_vects e) -> eigenstates_to_json dim e = JObj o -> recover_eigenstates o = Ok e.
Proof.
  intros dim e o H T Q. injection Q as <-. unfold recover_eigenstates. cbn [jget jfield find fst snd option_map String.eqb Ascii.eqb Bool.eqb bind].
  rewrite jfloats_ok. cbn [bind]. rewrite jspins_ok. cbn [bind]. rewrite jfloatss_ok. cbn [bind]. rewrite vects_back by assumption. now destruct e.
Qed.

Lemma result_back : forall dc t o, complete dc -> dc_times dc = Some t -> result_to_json (forget_guess dc) t = JObj o ->
  exists r, recover_results o = Ok r /\ reloaded dc r /\ lattice_type (d_conf (dc_data r)) = Periodic /\
    (forall a b, sites_restriction (d_conf (dc_data dc)) = RTuple a b -> sites_restriction (d_conf (dc_data r)) = RNested [a; b]).
Proof.
  intros dc t o (M & P & (SD & SR) & T) HT Q. injection Q as <-.
  destruct (configuration_back (d_conf (dc_data dc)) _ M eq_refl) as (c' & RC & SS & LT & RR & NB).
  unfold recover_results. cbn [jarg jfield find fst snd option_map String.eqb Ascii.eqb Bool.eqb bind jobj].
  cbn [forget_guess drop_guess dc_data dc_dets dc_ham dc_eig dc_times d_conf d_inter d_diag d_bools].
  rewrite jintss_ok. cbn [bind].
  unfold configuration_to_json, interactions_to_json, diagonalization_to_json, bools_to_json, hamiltonian_to_json, eigenstates_to_json, times_to_json. cbn [jobj bind].
  rewrite RC. cbn [bind].
  rewrite (interactions_back (d_inter (dc_data dc)) _ eq_refl). cbn [bind].
  cbn [g_nb_val g_stp g_tol g_dim_max]. rewrite (diagonalization_back (d_diag (dc_data dc)) _ eq_refl). cbn [bind].
  rewrite (bools_back (d_bools (dc_data dc)) _ eq_refl). cbn [bind].
  rewrite NB. cbn [bind jint]. rewrite <- SD.
  rewrite (hamiltonian_back (dc_ham dc) _ ltac:(lia) eq_refl). cbn [bind].
  rewrite (eigenstates_back (csr_dim (dc_ham dc)) (dc_eig dc) _ ltac:(lia) ltac:(rewrite SD; exact T) eq_refl). cbn [bind].
  rewrite (times_back t _ eq_refl). cbn [bind].
  eexists. split; [reflexivity|]. split; [|split; [exact LT | exact RR]].
  unfold reloaded. cbn [dc_data dc_dets dc_ham dc_eig dc_times d_conf d_inter d_diag d_bools csr_dim].
  split; [exact SS|]. do 5 (split; [reflexivity|]). split; [now rewrite HT|]. split; [reflexivity|].
  apply back_at; intros x i j I; rewrite SD; now apply SR with x.
Qed.
