(** Final lemmas for C105: range and comparison of the real energies. *)
From Coq Require Import ZArith List Bool Lia QArith Qcanon Reals Qreals Lra Lqa Psatz.
From Verif Require Import PyBase PyFacts Lattice Base Interact Ham Spec SpecOps SpecTJ SpinDefs Geometry HamSpec EnergyDefs RangeDefs TraceDefs ShiftDefs DrawnDefs SignDefs RealSum RealDefs
  PSpin PBasis FHam FSign FEnergy FRange FTrace FShift FDrawn PReal PReal2 PRealQ FReal.
Import ListNotations.
Open Scope R_scope.

Lemma no_mean : forall m u, csr_mean (mkCsr (csr_dim m) []) u = 0%Qc.
Proof.
  intros m u. unfold csr_mean, inner. apply qsum_zero. intros k Hk. apply in_seq in Hk. rewrite times_at by lia. rewrite qsum_zero; [ring|]. intros j _. replace (csr_at (mkCsr (csr_dim m) []) (Z.of_nat k) (Z.of_nat j)) with 0%Qc by reflexivity. ring.
Qed.
Lemma no_form : forall d n u, form n (element (mkCsr d [])) u = 0.
Proof. intros. unfold form, dot. apply rsum_zero. intros i _. unfold actR. rewrite rsum_zero; [ring|]. intros j _. unfold element. replace (csr_at (mkCsr d []) (Z.of_nat i) (Z.of_nat j)) with 0%Qc by reflexivity. rewrite real_0. ring. Qed.
Lemma mirrored_none : forall m, mirrored m -> mirrored (mkCsr (csr_dim m) []).
Proof. intros m (D & _). split; [exact D|]. reflexivity. Qed.
Lemma mean_below : forall m b, mirrored m -> (forall u, zlen u = csr_dim m -> (csr_mean m u <= b * inner u u)%Qc) -> forall x v, energy_state m x v -> x <= real b.
Proof.
  intros m b M H x v V. apply (bounded_above m (real b) x v); [|exact V]. intros u.
  pose proof (means_le m (mkCsr (csr_dim m) []) b M (mirrored_none m M) eq_refl) as G. rewrite <- (Rplus_0_l (real b * _)), <- (no_form (csr_dim m) (dimension m) u). apply G.
  intros z Lz. rewrite no_mean, Qcplus_0_l. now apply H.
Qed.
Lemma mean_above : forall m b, mirrored m -> lowest m b -> forall x v, energy_state m x v -> real b <= x.
Proof. intros m b M H x v V. apply (bounded_state m (real b) x v); [now apply lowest_form | exact V]. Qed.

Lemma C105_range_pf : forall E c w r K S arg l m z x v, set_iter_ok E -> filled c w r -> assembled E c K S arg l m -> couplings_within z K -> energy_state m x v ->
  Rabs x <= real (energy_bound z S (nholes c) (grid_bonds w (nsites c / w))).
Proof.
  intros E c w r K S arg l m z x v HE HF HA HK V. destruct (mirrored_filled E c w r K S arg l m HE HF HA) as (M & _). destruct (C100_range_pf E c w r K S arg l m z HE HF HA HK) as [G _].
  set (b := energy_bound _ _ _ _) in *. assert (B1 : x <= real b) by (apply (mean_below m b M) with (v := v); [intros u Lu; now apply G | exact V]).
  assert (B2 : real (- b)%Qc <= x) by (apply (mean_above m (- b)%Qc M) with (v := v); [|exact V]; intros u Lu; replace (- b * inner u u)%Qc with (- (b * inner u u))%Qc by ring; now apply G).
  rewrite real_opp in B2. apply Rabs_le. lra.
Qed.
Lemma C105_exchanges_pf : forall E c w r K S arg l m Jm x v, set_iter_ok E -> filled c w r -> assembled E c K S arg l m -> exchanges_only c K S Jm -> energy_state m x v ->
  - (real Jm * IZR (grid_bonds w (nsites c / w))) <= x <= 0.
Proof.
  intros E c w r K S arg l m Jm x v HE HF HA HX V. destruct (mirrored_filled E c w r K S arg l m HE HF HA) as (M & _). destruct (C98_range_pf E c w r K S arg l m Jm HE HF HA HX) as [G _].
  set (b := (Jm * qz (grid_bonds w (nsites c / w)))%Qc) in *. split.
  - replace (- (real Jm * IZR (grid_bonds w (nsites c / w)))) with (real (- b)%Qc) by (unfold b; rewrite real_opp, real_mul, real_qz; ring). apply (mean_above m (- b)%Qc M) with (v := v); [|exact V]. intros u Lu. now apply G.
  - rewrite <- real_0. apply (mean_below m 0%Qc M) with (v := v); [|exact V]. intros u Lu. rewrite Qcmult_0_l. now apply G.
Qed.
Lemma C105_tj_pf : forall E c w r K S arg l m Jm tm x v, set_iter_ok E -> filled c w r -> assembled E c K S arg l m -> hops_and_exchanges K S Jm tm -> energy_state m x v ->
  - (real Jm * IZR (grid_bonds w (nsites c / w)) + IZR (4 * nholes c) * real tm) <= x <= IZR (4 * nholes c) * real tm.
Proof.
  intros E c w r K S arg l m Jm tm x v HE HF HA HX V. destruct (mirrored_filled E c w r K S arg l m HE HF HA) as (M & _). pose proof (tj_mean E c w r K S arg l m Jm tm HE HF HA HX) as G. cbv zeta in G.
  set (b := (Jm * qz (grid_bonds w (nsites c / w)) + qz (4 * nholes c) * tm)%Qc) in *. split.
  - replace (- (real Jm * IZR (grid_bonds w (nsites c / w)) + IZR (4 * nholes c) * real tm)) with (real (- b)%Qc) by (unfold b; rewrite real_opp, real_add, !real_mul, !real_qz; ring).
    apply (mean_above m (- b)%Qc M) with (v := v); [|exact V]. intros u Lu. now apply G.
  - replace (IZR (4 * nholes c) * real tm) with (real (qz (4 * nholes c) * tm)%Qc) by (now rewrite real_mul, real_qz). apply (mean_below m _ M) with (v := v); [|exact V]. intros u Lu. now apply G.
Qed.
Lemma C105_neel_pf : forall E c w K S arg l m e, set_iter_ok E -> filled_whole c w -> assembled E c K S arg l m -> nholes c = 0%Z ->
  (nbeta c = nsites c / 2 \/ nbeta c = nsites c - nsites c / 2)%Z -> s_bz S = true -> ground_energy m e ->
  e <= - (real (i_J K) * IZR (grid_bonds w (nsites c / w)) / 2).
Proof.
  intros E c w K S arg l m e HE HF HA H0 HB HZ G. destruct (mirrored_filled E c w _ K S arg l m HE HF HA) as (M & _).
  set (b := (- (half * i_J K * qz (grid_bonds w (nsites c / w))))%Qc). replace (- (real (i_J K) * IZR (grid_bonds w (nsites c / w)) / 2)) with (real b).
  2: { unfold b. rewrite real_opp, !real_mul, real_qz. replace (real half) with (/ 2); [field|]. unfold real, half, Q2R. cbn. lra. }
  destruct (Rle_lt_dec e (real b)) as [L|L]; [exact L|]. exfalso. destruct (close ((e + real b) / 2) ((e - real b) / 4)) as (q & Hq); [lra|]. pose proof (Rle_abs (real q - (e + real b) / 2)) as Hq1. pose proof (Rle_abs (- (real q - (e + real b) / 2))) as Hq2. rewrite Rabs_Ropp in Hq2.
  assert (LO : lowest m q).
  { intros u Lu. apply real_le_inv. destruct M as (Dm & Sm). assert (Lu' : length u = dimension m) by (unfold dimension, zlen in *; lia). rewrite real_mul, mean_real, (inner_real (dimension m)), Lu' by assumption.
    pose proof (ground_form m e (conj Dm Sm) G (reals u)) as Q. pose proof (dot_nonneg (dimension m) (reals u)) as Q0. assert (Q1 : real q <= e) by lra. pose proof (Rmult_le_compat_r _ _ _ Q0 Q1). lra. }
  pose proof (C98_neel_pf E c w K S arg l m q HE HF HA H0 HB HZ LO) as B. fold b in B. apply real_le in B. lra.
Qed.

(** two sets of couplings *)
Lemma same_dimension : forall E c w r K K' S S' arg l m m', set_iter_ok E -> filled c w r -> assembled E c K S arg l m -> assembled E c K' S' arg l m' -> csr_dim m' = csr_dim m /\ dimension m' = dimension m.
Proof. intros E c w r K K' S S' arg l m m' HE HF H1 H2. pose proof (same_dim E c w r K K' S S' arg l m m' HE HF H1 H2) as D. unfold dimension. now rewrite D. Qed.
Lemma compare_means : forall m m' e v e' v' d, mirrored m -> mirrored m' -> csr_dim m' = csr_dim m -> all_states m e v -> all_states m' e' v' ->
  (forall u, zlen u = csr_dim m -> (csr_mean m' u <= csr_mean m u + d * inner u u)%Qc) -> forall k, (k < dimension m)%nat -> e' k <= e k + real d.
Proof.
  intros m m' e v e' v' d M M' D A A' H k Hk. assert (DD : dimension m' = dimension m) by (unfold dimension; now rewrite D).
  apply (states_compare m m' e v e' v' (real d) M M' DD A A'); [|exact Hk]. intros u. rewrite <- DD. apply (means_le m' m d M' M D). intros z Lz. apply H. congruence.
Qed.
Lemma C105_couplings_pf : forall E c w r K K' S arg l m m' z e v e' v' k, set_iter_ok E -> filled c w r -> assembled E c K S arg l m -> assembled E c K' S arg l m' ->
  couplings_within z (combine_couplings 1 (- (1))%Qc K' K) -> all_states m e v -> all_states m' e' v' -> (k < dimension m)%nat ->
  Rabs (e' k - e k) <= real (energy_bound z S (nholes c) (grid_bonds w (nsites c / w))).
Proof.
  intros E c w r K K' S arg l m m' z e v e' v' k HE HF H1 H2 HZ A A' Hk. destruct (difference E c w r K K' S arg l m m' HE HF H1 H2) as (md & HD & D1 & D2 & Md).
  pose proof (mean_within E c w r _ S arg l md z HE HF HD HZ) as G. set (delta := energy_bound _ _ _ _) in *.
  destruct (mirrored_filled E c w r K S arg l m HE HF H1) as (M & _). destruct (mirrored_filled E c w r K' S arg l m' HE HF H2) as (M' & _).
  assert (B1 : e' k <= e k + real delta).
  { apply (compare_means m m' e v e' v' delta M M' (eq_sym D2) A A'); [|exact Hk]. intros u Lu. destruct (G u ltac:(now rewrite D1)) as [_ G1]. rewrite Md. apply Qcplus_le_compat; [apply Qcle_refl | exact G1]. }
  assert (B2 : e k <= e' k + real delta).
  { apply (compare_means m' m e' v' e v delta M' M D2 A' A); [|unfold dimension in *; now rewrite <- D2]. intros u Lu. rewrite <- D2 in Lu. destruct (G u ltac:(now rewrite D1)) as [G1 _]. rewrite Md.
    revert G1. generalize (csr_mean m u) (csr_mean md u) (delta * inner u u)%Qc. intros x y p G1. apply real_le in G1. apply real_le_inv. rewrite !real_add. rewrite real_opp in G1. Lra.lra. }
  apply Rabs_le. lra.
Qed.
Lemma C105_concave_pf : forall E c w r a b K K' S arg l m1 m2 m e1 e2 e, set_iter_ok E -> filled c w r ->
  assembled E c K S arg l m1 -> assembled E c K' S arg l m2 -> assembled E c (combine_couplings a b K K') S arg l m ->
  (0 <= a)%Qc -> (0 <= b)%Qc -> ground_energy m1 e1 -> ground_energy m2 e2 -> ground_energy m e -> real a * e1 + real b * e2 <= e.
Proof.
  intros E c w r a b K K' S arg l m1 m2 m e1 e2 e HE HF H1 H2 HA Ha Hb G1 G2 ((v & V) & _). apply real_le in Ha, Hb. rewrite real_0 in Ha, Hb.
  destruct (mirrored_filled E c w r _ S arg l m1 HE HF H1) as (M1 & D1). destruct (mirrored_filled E c w r _ S arg l m2 HE HF H2) as (M2 & D2). destruct (mirrored_filled E c w r _ S arg l m HE HF HA) as (M & D).
  apply (bounded_state m _ e v); [|exact V]. intros u. pose proof (ground_form m1 e1 M1 G1 u) as Q1. pose proof (ground_form m2 e2 M2 G2 u) as Q2. rewrite D1 in Q1. rewrite D2 in Q2. rewrite D.
  assert (F : form (length l) (element m) u = real a * form (length l) (element m1) u + real b * form (length l) (element m2) u).
  { unfold form. rewrite <- dot_lin. apply dot_ext; [reflexivity|]. intros i _. unfold actR. rewrite <- !rsum_scale, <- rsum_add. apply rsum_ext. intros j _. unfold element.
    rewrite (C35_linear_pf E c w r a b K K' S arg l m1 m2 m HE HF H1 H2 HA), real_add, !real_mul. ring. }
  rewrite F. pose proof (Rmult_le_compat_l _ _ _ Ha Q1). pose proof (Rmult_le_compat_l _ _ _ Hb Q2). lra.
Qed.
Lemma C105_repulsions_pf : forall E c w r K K' S arg l m m' e v e' v' k, set_iter_ok E -> filled c w r -> assembled E c K S arg l m -> assembled E c K' S arg l m' -> stronger_repulsions K K' ->
  all_states m e v -> all_states m' e' v' -> (k < dimension m)%nat -> e k <= e' k.
Proof.
  intros E c w r K K' S arg l m m' e v e' v' k HE HF H1 H2 HS A A' Hk. destruct (C102_repulsions_pf E c w r K K' S arg l m m' HE HF H1 H2 HS) as [G _].
  destruct (mirrored_filled E c w r K S arg l m HE HF H1) as (M & _). destruct (mirrored_filled E c w r K' S arg l m' HE HF H2) as (M' & _). destruct (same_dimension E c w r K K' S S arg l m m' HE HF H1 H2) as [D DD].
  pose proof (compare_means m' m e' v' e v 0%Qc M' M (eq_sym D) A' A) as B. rewrite real_0, DD in B. rewrite <- (Rplus_0_r (e' k)). apply B; [|exact Hk].
  intros u Lu. rewrite Qcmult_0_l, Qcplus_0_r. apply G. congruence.
Qed.
Lemma C105_stronger_pf : forall E c w r K K' S arg l m m' e v e' v' k, set_iter_ok E -> filled c w r -> assembled E c K S arg l m -> assembled E c K' S arg l m' -> stronger_exchanges K K' ->
  s_bz S = true -> s_bij S = true -> all_states m e v -> all_states m' e' v' -> (k < dimension m)%nat -> e' k <= e k.
Proof.
  intros E c w r K K' S arg l m m' e v e' v' k HE HF H1 H2 HS Bz Bij A A' Hk. destruct (C102_exchanges_pf E c w r K K' S arg l m m' HE HF H1 H2 HS Bz Bij) as [G _].
  destruct (mirrored_filled E c w r K S arg l m HE HF H1) as (M & _). destruct (mirrored_filled E c w r K' S arg l m' HE HF H2) as (M' & _). destruct (same_dimension E c w r K K' S S arg l m m' HE HF H1 H2) as [D DD].
  pose proof (compare_means m m' e v e' v' 0%Qc M M' D A A') as B. rewrite real_0 in B. rewrite <- (Rplus_0_r (e k)). apply B; [|exact Hk].
  intros u Lu. rewrite Qcmult_0_l, Qcplus_0_r. apply G. congruence.
Qed.
