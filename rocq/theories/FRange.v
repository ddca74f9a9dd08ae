(** Final lemmas for C100: range of the energies of the whole Hamiltonian. *)
From Coq Require Import ZArith List Bool QArith Qcanon Lia.
From Verif Require Import PyBase PyFacts Runtimes Lattice Base Interact Ham Spec SpecOps SpecTJ SpinDefs Geometry HamSpec SignDefs EnergyDefs RangeDefs.
From Verif Require Import PSpin PQc PBasis PSites PHam POps FGeo FBasis FSites FInter FHam PSecSum PBound PDavIter PDav FDav FSpinVal PSign PSignOp PPerron FSign FMotion PEnergy FEnergy PRange Examples.
Import ListNotations.
Open Scope Z_scope.

Lemma over_list : forall A (f : nat -> Qc) (g : A -> Qc) l, (forall j e, nth_error l j = Some e -> f j = g e) -> qsum f (seq 0 (length l)) = qsum g l.
Proof.
  intros A f g l. assert (G : forall k, (forall j e, nth_error l j = Some e -> f (k + j)%nat = g e) -> qsum f (seq k (length l)) = qsum g l); [|intros H; exact (G 0%nat H)].
  induction l as [|e l IH]; intros k H; [reflexivity|]. cbn [length seq]. rewrite !qsum_cons. f_equal.
  - rewrite <- (Nat.add_0_r k). now apply H.
  - apply IH. intros j x Hj. rewrite <- (H (Datatypes.S j) x Hj). f_equal. lia.
Qed.

Lemma mean_within : forall E c w r K S arg l m z, set_iter_ok E -> filled c w r -> assembled E c K S arg l m -> couplings_within z K ->
  forall u, zlen u = csr_dim m -> within (energy_bound z S (nholes c) (grid_bonds w (nsites c / w)) * inner u u) (csr_mean m u).
Proof.
  intros E c w r K S arg l m z HE HF HA HK u Lu. pose proof (len_of E c w r K S arg l m HE HF HA u Lu) as LN.
  rewrite (mean_is c w l m u LN), (size_is l u LN).
  apply rows_bound.
  - intros i j _ _. exact (C30_symmetric_pf E c w r K S arg l m (Z.of_nat i) (Z.of_nat j) HE HF HA).
  - intros i Hi. destruct (state_at E c w r K S arg l m HE HF HA i Hi) as (d & Qd & Dd).
    destruct (core _ _ _ _ _ _ _ _ _ HE HF HA) as (El & D & R & M).
    eapply Qcle_trans; [|exact (row_all c w r HF z K HK d (state_of c d) Dd S)]. apply Qcle_of_eq. unfold sumN. rewrite El. apply over_list.
    intros j e He. f_equal. apply (M i j d e _ _ Qd); [now rewrite El | exact Dd | exact (dl_describes _ _ _ _ _ HF He)].
Qed.
Lemma within_eigen : forall m e v b, eigenvector m e v -> within (b * inner v v) (csr_mean m v) -> within b e.
Proof.
  intros m e v b V [H1 H2]. rewrite (mean_eigen _ _ _ V) in H1, H2. pose proof (inner_positive _ _ _ V) as P.
  split; apply (div_le _ _ _ P); [|exact H2]. eapply Qcle_trans; [|exact H1]. apply Qcle_of_eq. ring.
Qed.
Lemma C100_range_pf : forall E c w r K S arg l m z, set_iter_ok E -> filled c w r -> assembled E c K S arg l m -> couplings_within z K ->
  let b := energy_bound z S (nholes c) (grid_bonds w (nsites c / w)) in
  (forall u, zlen u = csr_dim m -> within (b * inner u u) (csr_mean m u)) /\ (forall e v, eigenvector m e v -> within b e).
Proof.
  intros E c w r K S arg l m z HE HF HA HK b. pose proof (mean_within E c w r K S arg l m z HE HF HA HK) as G. split; [exact G|].
  intros e v V. apply (within_eigen m e v b V). exact (G v (proj1 V)).
Qed.

Lemma tj_mean : forall E c w r K S arg l m Jm tm, set_iter_ok E -> filled c w r -> assembled E c K S arg l m -> hops_and_exchanges K S Jm tm ->
  let bonds := grid_bonds w (nsites c / w) in
  forall v, zlen v = csr_dim m -> (- (Jm * qz bonds + qz (4 * nholes c) * tm) * inner v v <= csr_mean m v)%Qc /\ (csr_mean m v <= qz (4 * nholes c) * tm * inner v v)%Qc.
Proof.
  intros E c w r K S arg l m Jm tm HE HF HA (-> & T & J1 & J2 & J3 & J4 & J5 & J6) bonds v Lv.
  destruct (core _ _ _ _ _ _ _ _ _ HE HF HA) as (El & D & R & M).
  set (Sx := mkSwitches false true true false false false). set (St := mkSwitches true false false false false false).
  destruct (built E c w r K Sx arg HE HF) as (ex & B1 & B2 & _). destruct (built E c w r K St arg HE HF) as (et & B3 & B4 & _).
  assert (HX : assembled E c K Sx arg l (mkCsr (zlen (dl c)) ex)) by (rewrite El; split; assumption).
  assert (HT : assembled E c K St arg l (mkCsr (zlen (dl c)) et)) by (rewrite El; split; assumption).
  set (mx := mkCsr (zlen (dl c)) ex) in *. set (mt := mkCsr (zlen (dl c)) et) in *.
  destruct (core _ _ _ _ _ _ _ _ _ HE HF HX) as (_ & Dx & _ & Mx). destruct (core _ _ _ _ _ _ _ _ _ HE HF HT) as (_ & Dt & _ & Mt).
  assert (X : exchanges_only c K Sx Jm) by (unfold exchanges_only; repeat split; try assumption; right; repeat split; assumption).
  destruct (C98_range_pf E c w r K Sx arg l mx Jm HE HF HX X) as [GX _]. specialize (GX v ltac:(now rewrite Dx, <- D)).
  set (big := (SignDefs.magnitude (i_J K) + SignDefs.magnitude (i_Jhpar K) + SignDefs.magnitude (i_Jhper K))%Qc).
  set (z := mkSizes tm (SignDefs.magnitude (i_J K) + (SignDefs.magnitude (i_Jhpar K) + SignDefs.magnitude (i_Jhper K)))%Qc
    (SignDefs.magnitude (i_hSDpar K) + SignDefs.magnitude (i_hSDper K))%Qc (SignDefs.magnitude (i_tNNN K) + SignDefs.magnitude (i_tnNNN K))%Qc
    (SignDefs.magnitude (i_VNN K) + SignDefs.magnitude (i_VNNNper K))%Qc).
  assert (A1 : forall x y, (SignDefs.magnitude x <= SignDefs.magnitude x + y)%Qc <-> (0 <= y)%Qc) by (intros x y; split; intros; qc).
  assert (A2 : forall x y, (0 <= x)%Qc -> (y <= x + y)%Qc) by (intros x y; intros; qc).
  assert (A3 : forall x y, (0 <= SignDefs.magnitude x + SignDefs.magnitude y)%Qc) by (intros x y; pose proof (magnitude_nonneg x); pose proof (magnitude_nonneg y); qc).
  assert (HZ : couplings_within z K).
  { unfold couplings_within, z. cbn [z_t z_J z_SD z_tN z_V]. split; [exact T|]. rewrite !magnitude_le.
    repeat split; try (apply A1; try apply A3; apply magnitude_nonneg); try (apply A2; apply magnitude_nonneg).
    - eapply Qcle_trans; [apply A1; apply (magnitude_nonneg (i_Jhper K)) | apply A2; apply magnitude_nonneg].
    - eapply Qcle_trans; [apply (A2 (SignDefs.magnitude (i_Jhpar K))); apply magnitude_nonneg | apply A2; apply magnitude_nonneg]. }
  destruct (mean_within E c w r K St arg l mt z HE HF HT HZ v ltac:(now rewrite Dt, <- D)) as [GT1 GT2].
  assert (EB : energy_bound z St (nholes c) (grid_bonds w (nsites c / w)) = (qz (4 * nholes c) * tm)%Qc).
  { unfold energy_bound, St, z. cbn [s_bt s_bz s_bij s_bSD s_btN s_bV only z_t]. ring. }
  rewrite EB in GT1, GT2. clear EB HZ z A1 A2 A3 big.
  pose proof (len_of E c w r K _ arg l m HE HF HA v Lv) as LN.
  assert (ME : csr_mean m v = (csr_mean mt v + csr_mean mx v)%Qc).
  { rewrite !(mean_is c w l _ v LN). unfold mean_of, act. rewrite <- sum_add. apply sum_ext. intros i Hi. rewrite <- Qcmult_plus_distr_r, <- sum_add. f_equal. apply sum_ext. intros j Hj.
    destruct (state_at E c w r K _ arg l m HE HF HA i Hi) as (d & Qd & Dd). destruct (state_at E c w r K _ arg l m HE HF HA j Hj) as (d' & Qd' & Dd').
    rewrite (M i j d d' _ _ Qd Qd' Dd Dd'), (Mt i j d d' _ _ Qd Qd' Dd Dd'), (Mx i j d d' _ _ Qd Qd' Dd Dd'). unfold tj_element, St, Sx. cbn [s_bt s_bz s_bij s_bSD s_btN s_bV only]. ring. }
  destruct GX as [GX1 GX2]. fold bonds in GX1.
  rewrite ME. split.
  - replace (- (Jm * qz bonds + qz (4 * nholes c) * tm) * inner v v)%Qc with (- (qz (4 * nholes c) * tm * inner v v) + - (Jm * qz bonds) * inner v v)%Qc by ring. now apply Qcplus_le_compat.
  - rewrite <- (Qcplus_0_r (qz (4 * nholes c) * tm * inner v v)%Qc). now apply Qcplus_le_compat.
Qed.
Lemma C100_tj_pf : forall E c w r K S arg l m Jm tm, set_iter_ok E -> filled c w r -> assembled E c K S arg l m -> hops_and_exchanges K S Jm tm ->
  let bonds := grid_bonds w (nsites c / w) in
  forall e v, eigenvector m e v -> (- (Jm * qz bonds + qz (4 * nholes c) * tm) <= e)%Qc /\ (e <= qz (4 * nholes c) * tm)%Qc.
Proof.
  intros E c w r K S arg l m Jm tm HE HF HA HX bonds e v V. destruct (tj_mean E c w r K S arg l m Jm tm HE HF HA HX v (proj1 V)) as [A B]. fold bonds in A.
  rewrite (mean_eigen _ _ _ V) in A, B. pose proof (inner_positive _ _ _ V) as P. split; now apply (div_le _ _ _ P).
Qed.
