(** Final lemmas for C111: the Hamiltonian built with rounded operations. *)
From Coq Require Import ZArith List Bool Lia Permutation QArith Qcanon Lqa.
From Verif Require Import PyBase PyFacts Lattice Base Interact Ham Round Spec SpecOps SpecTJ SpinDefs Geometry HamSpec SignDefs EnergyDefs RangeDefs RoundDefs.
From Verif Require Import PSpin PQc PBasis PSites PRep PMat PGeo PInter PHam POps FGeo FSites FInter FHam PSecSum PBound PDavIter PDav FDav FSpinVal PSign PSignOp PPerron FSign FMotion PEnergy FEnergy PRange FRange PRound PRound2.
Import ListNotations.
Open Scope Z_scope.

(** ** sums of duplicates *)
Lemma at_summed : forall F dim h i j, (forall l, Permutation l (add_order F l)) -> 0 <= i < dim -> 0 <= j < dim ->
  coo_at (sum_duplicates F dim h) i j = add_all F (add_order F (at_place h i j)).
Proof.
  intros F dim h i j HO Hi Hj. unfold coo_at, sum_duplicates. rewrite qsum_flat_map. rewrite (qsum_single _ _ _ i); [|apply zrange_NoDup | apply in_zrange; lia|].
  - rewrite qsum_flat_map. rewrite (qsum_single _ _ _ j); [|apply zrange_NoDup | apply in_zrange; lia|].
    + destruct (at_place h i j) as [|x l] eqn:Q.
      * pose proof (HO []) as P. apply Permutation_nil in P. rewrite P. reflexivity.
      * rewrite qsum_one. rewrite !Z.eqb_refl. reflexivity.
    + intros y _ Ny. destruct (at_place h i y); [reflexivity|]. rewrite qsum_one. destruct (Z.eqb_spec y j); [contradiction|]. now rewrite andb_false_r.
  - intros y _ Ny. rewrite qsum_flat_map. apply qsum_zero. intros k _. destruct (at_place h y k); [reflexivity|]. rewrite qsum_one. destruct (Z.eqb_spec y i); [contradiction | reflexivity].
Qed.
Lemma lock_range : forall R a b c dim, lock R a b c -> let f := fun p : Qc * Z * Z => let '(_, r, k) := p in (0 <=? r) && (r <? dim) && (0 <=? k) && (k <? dim) in forallb f a = forallb f b.
Proof. intros R a b c dim H. cbv zeta. induction H; cbn [forallb]; [reflexivity | now rewrite IHlock]. Qed.

Lemma total_ones : forall l, (forall x, In x l -> x = 1%Qc) -> total l = qz (zlen l).
Proof.
  induction l as [|x l IH]; intros H; [reflexivity|]. unfold total. rewrite qsum_cons. fold (total l). rewrite IH by (intros; apply H; now right). rewrite (H x) by now left. rewrite zlen_cons. generalize (zlen l). intros k.
  apply Qc_eq_this. rewrite this_add, !this_qz. change (this 1%Qc) with (inject_Z 1). rewrite <- inject_Z_plus, Z.add_comm. reflexivity.
Qed.
Lemma qz_le : forall a b, (qz a <= qz b)%Qc <-> a <= b.
Proof. intros a b. rewrite Qcle_this, !this_qz, <- Zle_Qle. reflexivity. Qed.

(** the bonds of the list are bonds of the rectangle *)
Lemma bonds_listed : forall E c w r, set_iter_ok E -> filled c w r -> exists bl, build_bond_list E (bond_matrix c) (sites_restriction c) = Ok bl /\ zlen bl <= grid_bonds w (nsites c / w).
Proof.
  intros E c w r HE HC. pose proof HC as (RM & HR0 & _). pose proof (row_major_drawn c w RM) as HD0.
  destruct (bl_ok E c (point w) r r HE HD0 HR0) as (B & ND & I). exists (bl E c). split; [exact B|].
  apply qz_le. destruct (shape c w r HC) as (Hw & Hh0 & HN).
  assert (Q : forall l : list (Z * Z), qz (zlen l) = qsum (fun _ => 1%Qc) l).
  { induction l as [|x l IH]; [reflexivity|]. rewrite qsum_cons, <- IH, zlen_cons. generalize (zlen l). intros k.
    apply Qc_eq_this. rewrite this_add, !this_qz. change (this 1%Qc) with (inject_Z 1). rewrite <- inject_Z_plus, Z.add_comm. reflexivity. }
  rewrite Q. set (L := between (nsites c) (point w) r r).
  assert (Hf : forall x, 0 <= x < nsites c -> (lat_from L x = true <-> In x r)) by exact (HLf c w r).
  assert (Ht : forall x, 0 <= x < nsites c -> (lat_to L x = true <-> In x r)) by exact (HLt c w r).
  assert (Hb : forall x y, 0 <= x < nsites c -> 0 <= y < nsites c -> (bonded L x y = true <-> adjacent (point w x) (point w y))) by (intros; apply (bonded_iff' c (point w) L); [reflexivity | assumption | assumption]).
  rewrite (sum_pairs (nsites c) (bl E c) (fun i j => (i <? j) && lat_from L i && lat_to L j && bonded L i j)).
  - eapply Qcle_trans; [|apply Qcle_of_eq; rewrite <- (Qcmult_1_r (qz (grid_bonds w (nsites c / w)))); apply (count_bonds w (nsites c / w) 1%Qc Hw Hh0)]. rewrite <- HN.
    apply sites_le. intros x _. apply sites_le. intros y _. apply only_weak; [|discriminate]. rewrite !andb_true_iff. unfold bonded. cbn [lat_pos L between]. tauto.
  - exact ND.
  - intros i j. rewrite I, !andb_true_iff, Z.ltb_lt. split.
    + intros (H1 & H2 & H3 & H4 & H5). assert (0 <= i < nsites c) by lia. assert (0 <= j < nsites c) by lia. split; [assumption|]. split; [assumption|].
      rewrite (Hf i), (Ht j), (Hb i j) by assumption. repeat split; try assumption; lia.
    + intros (H1 & H2 & ((H3 & H4) & H5) & H6). rewrite (Hf i) in H4 by assumption. rewrite (Ht j) in H5 by assumption. rewrite (Hb i j) in H6 by assumption.
      repeat split; try assumption; lia.
Qed.

Definition ones : interactions := mkInter 1 (qz 2) (qz 2) (qz 2) 1 1 1 1 1 1.
Lemma half_two : (qz 2 / qz 2)%Qc = 1%Qc. Proof. apply Qc_is_canon. reflexivity. Qed.
Lemma only_le : forall b x, (0 <= x)%Qc -> (only b x <= x)%Qc.
Proof. intros [] x H; [apply Qcle_refl | exact H]. Qed.

(** the number of terms added up in one element *)
Lemma terms_in_element : forall E c w r S es i j d d', set_iter_ok E -> filled c w r ->
  build_mirror E ones (fun _ => Ok 1%Qc) (fun _ => Ok 1%Qc) (mkBasis c (dl c)) S = Ok es -> (forall x, In x (at_place es i j) -> x = 1%Qc) ->
  0 <= i -> 0 <= j -> nth_error (dl c) (Z.to_nat i) = Some d -> nth_error (dl c) (Z.to_nat j) = Some d' ->
  zlen (at_place es i j) <= 36 * nholes c + grid_bonds w (nsites c / w) + 2.
Proof.
  intros E c w r S es i j d d' HE HC B H1 Hi Hj Nd Nd'. destruct (mirror_ok E c w r ones HE HC (fun _ => Ok 1%Qc) (fun _ => Ok 1%Qc) (fun _ => 1%Qc) (fun _ => 1%Qc) S (fun _ _ => eq_refl) (fun _ _ => eq_refl)) as (es' & B' & _ & M).
  rewrite B in B'. injection B' as <-. specialize (M i j d d' Hi Hj Nd Nd'). rewrite total_at, (total_ones _ H1) in M.
  apply qz_le. rewrite M. eapply Qcle_trans; [apply le_magnitude|].
  eapply Qcle_trans; [apply (one_of_sum _ (fun e => mirror_element c w r ones (fun _ => 1%Qc) (fun _ => 1%Qc) S (state_of c d) (state_of c e)) (dl c) d'); eapply nth_error_In, Nd'|].
  assert (W : couplings_within (mkSizes 1 (qz 2) 1 1 1) ones) by (repeat split; vm_compute; discriminate).
  assert (O : (magnitude 1 <= 1)%Qc) by (vm_compute; discriminate).
  eapply Qcle_trans; [apply (row_mirror c w r HC _ _ W d (state_of c d) (dl_describes c w r _ d HC Nd) (fun _ => 1%Qc) (fun _ => 1%Qc) S 1%Qc 1%Qc O O)|].
  cbn [z_t z_J z_SD z_tN z_V]. replace (half * qz 2)%Qc with 1%Qc by (apply Qc_is_canon; reflexivity). rewrite !Qcmult_1_r.
  pose proof (proj1 (proj2 (proj2 HC))) as Hn. destruct (shape c w r HC) as (Hw & Hh0 & _).
  assert (G : 0 <= grid_bonds w (nsites c / w)) by (unfold grid_bonds; nia).
  assert (N0 : forall k, 0 <= k -> (0 <= qz k)%Qc) by (intros k Hk; now apply (qz_le 0 k)).
  repeat match goal with |- context [only ?b ?x] => let y := fresh "y" in assert (only b x <= x)%Qc by (apply only_le; first [apply N0; lia | discriminate]); set (y := only b x) in * end.
  assert (Q : (qz (4 * nholes c) + 1 + qz (grid_bonds w (nsites c / w)) + qz (24 * nholes c) + qz (8 * nholes c) + 1)%Qc = qz (36 * nholes c + grid_bonds w (nsites c / w) + 2)).
  { apply Qc_eq_this. rewrite !this_add, !this_qz. change (this 1%Qc) with (inject_Z 1). rewrite <- !inject_Z_plus. apply inject_Z_injective. ring. }
  rewrite <- Q. repeat apply Qcplus_le_compat; assumption.
Qed.

Lemma size_mirror : forall c w r K S s t, tj_size (between (nsites c) (point w) r r) K S s t =
  mirror_element c w r (positive_couplings K) (fun s => (- op_static (between (nsites c) (point w) r r) (positive_couplings K) s)%Qc) (op_repulsion (between (nsites c) (point w) r r) (positive_couplings K)) S s t.
Proof. reflexivity. Qed.
Lemma half_magnitude : forall x, (magnitude x / qz 2)%Qc = magnitude (x / qz 2).
Proof. intros x. unfold Qcdiv. rewrite magnitude_product. f_equal. Qed.

Lemma rounded_core : forall u F E c w r K S arg, rounds u F -> set_iter_ok E -> filled c w r ->
  exists m, construct_basis c = Ok (mkBasis c (dl c)) /\ build_hamiltonian_fl F E c K (mkBasis c (dl c)) S arg = Ok m /\ csr_dim m = zlen (dl c) /\
    (forall x i j, In (x, i, j) (csr_entries m) -> 0 <= i < zlen (dl c) /\ 0 <= j < zlen (dl c)) /\
    forall i j d d', 0 <= i -> 0 <= j -> nth_error (dl c) (Z.to_nat i) = Some d -> nth_error (dl c) (Z.to_nat j) = Some d' ->
      near (growth u (roundings (nholes c) (grid_bonds w (nsites c / w)))) (csr_at m i j)
        (tj_element (between (nsites c) (point w) r r) K S (state_of c d) (state_of c d'))
        (tj_size (between (nsites c) (point w) r r) K S (state_of c d) (state_of c d')).
Proof.
  intros u F E c w r K S arg HU HE HC. pose proof HC as (RM & HR & Hh & Hb & Ha). pose proof (row_major_drawn c w RM) as HD.
  pose proof (proj2 (proj2 HU)) as HO.
  destruct (bonds_listed E c w r HE HC) as (bl & Bl & Nbl). set (L := between (nsites c) (point w) r r). set (P := positive_couplings K).
  destruct (shape c w r HC) as (Hw & Hh0 & _). assert (G : 0 <= grid_bonds w (nsites c / w)) by (unfold grid_bonds; nia). set (g := grid_bonds w (nsites c / w)) in *.
  assert (Hf : forall x, 0 <= x < nsites c -> (lat_from L x = true <-> In x r)) by exact (HLf c w r).
  assert (Ht : forall x, 0 <= x < nsites c -> (lat_to L x = true <-> In x r)) by exact (HLt c w r).
  assert (St : forall d, In d (dl c) -> compute_static_spin_interaction E c P d = Ok (op_static L P (state_of c d))).
  { intros d Hd. apply (static_ok E c (point w) r r d (state_of c d) HE HD HR (in_dl c (point w) HD Hh Hb d Hd) L eq_refl (fun _ _ => eq_refl) Hf Ht). apply (row_major_straight E c w RM). }
  assert (Rp : forall d, In d (dl c) -> compute_hole_repulsion E c P d = Ok (op_repulsion L P (state_of c d))).
  { intros d Hd. apply (repulsion_ok E c (point w) r r d (state_of c d) HE HD HR); try assumption; try reflexivity.
    all: first [apply (in_dl c (point w) HD Hh Hb d Hd) | apply (row_major_straight E c w RM) | apply (row_major_middle c w RM) | idtac].
    auto. }
  destruct (built E c w r K S arg HE HC) as (es & E1 & E2 & R0 & M0). rewrite build_split in E2.
  destruct (entries_of E (mkBasis c (dl c)) K S) as [h0|] eqn:Q0; [|discriminate]. cbn [bind] in E2. unfold coo_to_csr in E2.
  destruct (forallb _ h0) eqn:C0 in E2; [|discriminate]. injection E2 as Q1 Q2. rewrite Q2 in *. clear Q2.
  pose (q := Z.to_nat (g + 2)).
  assert (Hq : (2 <= q)%nat) by (unfold q; lia).
  assert (Hbl : (1 + length bl <= q)%nat) by (unfold q; unfold zlen in Nbl; lia).
  pose (fs := fun d => x <- compute_static_spin_interaction E c P d ;; Ok (- x)%Qc).
  assert (LK : locked (near (eps u q)) (entries_fl F E (mkBasis c (dl c)) K S) (entries_of E (mkBasis c (dl c)) K S) (build_mirror E P fs (compute_hole_repulsion E c P) (mkBasis c (dl c)) S)).
  { assert (NS : forall x, near (eps u q) x x (magnitude x)) by (intros x; apply (near_self u F HU), Qcle_refl).
    assert (NH : forall x, near (eps u q) (fl F (x / qz 2)%Qc) (x / qz 2)%Qc (magnitude x / qz 2)%Qc).
    { intros x. rewrite half_magnitude. eapply near_weak; [apply (eps_le u F HU 1); lia|]. apply (near_exact u F HU). }
    apply locked_build; try apply NS; try apply NH.
    - split; [apply NS|]. change (i_hSDpar P) with (magnitude (i_hSDpar K)). rewrite <- (magnitude_opp (i_hSDpar K)). apply NS.
    - split; [apply NS|]. change (i_hSDper P) with (magnitude (i_hSDper K)). rewrite <- (magnitude_opp (i_hSDper K)). apply NS.
    - intros d x Hd Hx. destruct (static_near u F E c K d HU bl x Bl Hx) as (x' & y & A1 & A2 & A3). exists x', (- y)%Qc. split; [exact A1|]. split; [unfold fs, P; now rewrite A2|].
      eapply near_weak; [|exact A3]. now apply (eps_le u F HU).
    - intros d x Hd Hx. destruct (repulsion_near u F E c K d HU x Hx) as (x' & y & A1 & A2 & A3). exists x', y. split; [exact A1|]. split; [exact A2|].
      eapply near_weak; [|exact A3]. now apply (eps_le u F HU). }
  destruct (LK es Q0) as (h & h'' & B1 & B2 & L1).
  assert (LC : locked (fun _ _ y => y = 1%Qc) (entries_fl F E (mkBasis c (dl c)) K S) (entries_of E (mkBasis c (dl c)) K S) (build_mirror E ones (fun _ => Ok 1%Qc) (fun _ => Ok 1%Qc) (mkBasis c (dl c)) S)).
  { apply locked_build; try reflexivity; try apply half_two; try (split; reflexivity).
    - intros d x Hd Hx. destruct (static_near u F E c K d HU bl x Bl Hx) as (x' & y & A1 & _). exists x', 1%Qc. auto.
    - intros d x Hd Hx. destruct (repulsion_near u F E c K d HU x Hx) as (x' & y & A1 & _). exists x', 1%Qc. auto. }
  destruct (LC es Q0) as (h1 & h2 & B3 & B4 & L2). rewrite B1 in B3. injection B3 as <-.
  destruct (mirror_ok E c w r P HE HC fs (compute_hole_repulsion E c P) (fun s => (- op_static L P s)%Qc) (op_repulsion L P) S) as (e3 & B5 & R3 & M3).
  { intros d Hd. unfold fs. now rewrite (St d Hd). }
  { exact Rp. }
  rewrite B2 in B5. injection B5 as <-.
  exists (mkCsr (zlen (dl c)) (sum_duplicates F (zlen (dl c)) h)). split; [exact E1|]. split.
  - rewrite build_fl_split, B1. cbn [bind]. unfold coo_to_csr_fl. rewrite (lock_range _ _ _ _ _ L1). rewrite C0. now rewrite Q1.
  - split; [reflexivity|]. split.
    + cbn [csr_entries]. intros x i j H. unfold sum_duplicates in H. apply in_flat_map in H. destruct H as (i' & Hi & H). apply in_flat_map in H. destruct H as (j' & Hj & H).
      apply in_zrange in Hi, Hj. destruct (at_place h i' j'); [contradiction|]. destruct H as [[= _ <- <-]|[]]. lia.
    + intros i j d d' Hi Hj Nd Nd'.
      assert (Bi : 0 <= i < zlen (dl c)) by (split; [exact Hi|]; unfold zlen; pose proof (proj1 (nth_error_Some (dl c) (Z.to_nat i)) ltac:(congruence)); lia).
      assert (Bj : 0 <= j < zlen (dl c)) by (split; [exact Hj|]; unfold zlen; pose proof (proj1 (nth_error_Some (dl c) (Z.to_nat j)) ltac:(congruence)); lia).
      rewrite csr_at_coo. cbn [csr_entries]. rewrite (at_summed F _ h i j HO Bi Bj).
      specialize (M0 i j d d' Hi Hj Nd Nd'). specialize (M3 i j d d' Hi Hj Nd Nd').
      unfold L. rewrite size_mirror. fold P. rewrite <- M0. fold L. rewrite <- M3, !total_at.
      destruct (lock_places _ _ _ _ i j L1) as (tl & T1 & T2 & T3 & T4). destruct (lock_places _ _ _ _ i j L2) as (ul & U1 & U2 & U3 & U4).
      rewrite T1, T2, T3. eapply near_weak; [|apply (add_all_error u F q tl HU T4)].
      apply (eps_le u F HU). fold L in T4.
      pose proof (terms_in_element E c w r S h2 i j d d' HE HC B4) as NT. rewrite U3 in NT.
      assert (LE : length tl = length ul) by (rewrite <- (map_length (fun p => fst (fst p)) tl), <- T1, U1; apply map_length).
      specialize (NT ltac:(intros x Hx; apply in_map_iff in Hx; destruct Hx as ([[a b] s] & <- & Hx); exact (U4 a b s Hx)) Hi Hj Nd Nd').
      fold g in NT. unfold zlen in NT. rewrite map_length in NT. unfold roundings, q. lia.
Qed.
