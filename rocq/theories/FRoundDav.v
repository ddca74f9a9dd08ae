(** Final lemmas for C111: Davidson iterations on the rounded matrix. *)
From Coq Require Import ZArith List Bool Lia QArith Qcanon Reals Qreals Lra.
From Verif Require Import PyBase PyFacts Lattice Base Interact Ham Dav Files Spin Round Spec SpecOps SpecTJ SpinDefs Geometry HamSpec DrawnDefs SignDefs EnergyDefs RangeDefs RoundDefs VarDefs LevelDefs RealSum RealDefs DavDefs.
From Verif Require Import PSpin PQc PHam FHam PPerron PRange FRange PDav PDavIter PFiles FFiles FDav FProj FVar FLevels PReal PRealQ FReal FReal4 PRound PRound2 FRound FRound2 FRoundReal.
Import ListNotations.
Open Scope R_scope.

(** the length of a sum is at most the sum of the lengths *)
Lemma minkowski : forall n f g a b, 0 <= a -> 0 <= b -> dot n f f <= a * a -> dot n g g <= b * b -> dot n (fun i => f i + g i) (fun i => f i + g i) <= (a + b) * (a + b).
Proof.
  intros n f g a b Ha Hb Hf Hg. pose proof (cauchy n f g) as C. pose proof (dot_nonneg n f) as F0. pose proof (dot_nonneg n g) as G0.
  assert (E : dot n (fun i => f i + g i) (fun i => f i + g i) = dot n f f + 2 * dot n f g + dot n g g).
  { unfold dot. rewrite <- rsum_scale, <- !rsum_add. apply rsum_ext. intros. ring. }
  assert (X : dot n f g * dot n f g <= (a * b) * (a * b)).
  { eapply Rle_trans; [exact C|]. replace (a * b * (a * b)) with ((a * a) * (b * b)) by ring. apply Rmult_le_compat; assumption. }
  assert (Y : dot n f g <= a * b). { apply Rsqr_incr_0_var; [exact X | now apply Rmult_le_pos]. }
  rewrite E. lra.
Qed.

Section Runs.
Variables (u : Qc) (F : floats) (E : runtime) (c : configuration) (w : Z) (r : list Z) (K : interactions) (S : switches) (arg arg0 : restriction) (l l0 : list (list Z)) (m m0 : csr) (z : sizes).
Hypothesis HU : rounds u F.
Hypothesis HE : set_iter_ok E.
Hypothesis HF : filled c w r.
Hypothesis HA : assembled_fl F E c K S arg l m.
Hypothesis HA0 : assembled E c K S arg0 l0 m0.
Hypothesis HK : couplings_within z K.
Let G := growth u (roundings (nholes c) (grid_bonds w (nsites c / w))).
Let B := energy_bound z S (nholes c) (grid_bonds w (nsites c / w)).

Lemma dims_run : dimension m = length l /\ dimension m0 = length l /\ (0 <= csr_dim m)%Z /\ (0 <= csr_dim m0)%Z /\ dimension m = length (dl c).
Proof.
  destruct (dims u F E c w r K S arg arg0 l l0 m m0 HU HE HF HA HA0) as (D & D0 & El & El0). destruct (dims_nat u F E c w r K S arg arg0 l l0 m m0 HU HE HF HA HA0) as [N N0]. rewrite El.
  repeat split; try assumption; rewrite ?D, ?D0; unfold zlen; lia.
Qed.
Lemma bound_nonneg : (0 < length l)%nat -> 0 <= real (G * B).
Proof.
  intros Hl. destruct dims_run as (D & _ & _ & _ & D'). rewrite <- D, D' in Hl. eapply Rle_trans; [|apply (b_rows u F c w r K S z HU HF HK 0%nat Hl)].
  apply rsum_nonneg. intros j Hj. eapply Rle_trans; [apply Rabs_pos | exact (b_near u F E c w r K S arg arg0 l l0 m m0 HU HE HF HA HA0 0%nat j Hl Hj)].
Qed.

(** a unit vector of small residual for the rounded matrix is near a level of the exact one *)
Lemma near_rounded : forall e v x y t, all_states m0 e v -> 0 <= t -> length y = length l -> inner y y = 1%Qc ->
  real (inner (residual (csr_dense m) x y) (residual (csr_dense m) x y)) <= t * t -> exists j, (j < length l)%nat /\ Rabs (e j - real x) <= t + real (G * B).
Proof.
  intros e v x y t HS Ht Ly Uy H. destruct dims_run as (D & D0 & P & P0 & D'). rewrite residual_real in H by (rewrite ?D; assumption).
  assert (Y1 : dot (length l) (reals y) (reals y) = 1) by (rewrite <- (inner_real (length l)), Uy by assumption; apply real_1).
  assert (NZ : forall n, (exists i, (i < n)%nat /\ reals y i <> 0) \/ forall i, (i < n)%nat -> reals y i = 0).
  { induction n as [|n [(i & Hi & N)|IH]]; [right; intros; lia | left; exists i; split; [lia | assumption]|]. destruct (Req_dec (reals y n) 0) as [Q|Q]; [right | left; exists n; split; [lia | assumption]].
    intros i Hi. destruct (Nat.eq_dec i n) as [->|]; [assumption | apply IH; lia]. }
  destruct (NZ (length l)) as [NY|NY]; [|exfalso; unfold dot in Y1; rewrite (rsum_zero (length l)) in Y1 by (intros i Hi; rewrite (NY i Hi); ring); lra]. clear NZ.
  assert (Hl : (0 < length l)%nat) by (destruct NY as (i & Hi & _); lia). pose proof (bound_nonneg Hl) as PB.
  pose proof (moved (length (dl c)) (element m0) (element m) _ (real (G * B)) (fun i j _ _ => b_sym u c w r K S i j) (b_rows u F c w r K S z HU HF HK) (b_near u F E c w r K S arg arg0 l l0 m m0 HU HE HF HA HA0) (reals y)) as MV.
  rewrite <- D', D in MV. rewrite Y1, Rmult_1_r in MV. rewrite D in H.
  destruct (states_parts m0 e v HS) as (O & V & I). rewrite D0 in O, V, I.
  apply (near_level (length l) (element m0)) with (v := v) (u := reals y); try assumption.
  - intros i j Hi Hj. apply (element_sym m0 (m0_mirrored E c w r K S arg0 l0 m0 HE HF HA0)); now rewrite D0.
  - lra.
  - rewrite Y1, Rmult_1_r.
    set (g := fun i => actR (length l) (element m) (reals y) i - real x * reals y i) in H.
    set (h := fun i => actR (length l) (element m) (reals y) i - actR (length l) (element m0) (reals y) i) in MV.
    assert (MV' : dot (length l) (fun i => - h i) (fun i => - h i) <= real (G * B) * real (G * B)) by (replace (dot (length l) (fun i => - h i) (fun i => - h i)) with (dot (length l) h h) by (apply rsum_ext; intros; ring); exact MV).
    pose proof (minkowski (length l) g (fun i => - h i) t (real (G * B)) Ht PB H MV') as Q. eapply Rle_trans; [apply Req_le | exact Q]. apply rsum_ext. intros i _. unfold g, h. ring.
Qed.

Lemma davidson_rounded : forall e v N nb guess stp tol dim_max vals vects k x, all_states m0 e v ->
  qr_shape N -> qr_orthonormal N -> eigh_unit N -> norm_above N -> tall (length l) guess -> (0 <= nb)%Z -> (0 <= dim_max)%Z ->
  (2 <= Z.min nb (if dim_max =? 0 then Z.of_nat (length l) else dim_max))%Z \/ DavDefs.orthonormal guess ->
  modified_davidson_algorithm N (csr_dense m) nb guess stp tol dim_max = Ok (true, vals, vects) -> nth_error vals k = Some x ->
  exists j, (j < length l)%nat /\ Rabs (e j - real x) <= Rabs (real tol) + real (G * B).
Proof.
  intros e v N nb guess stp tol dim_max vals vects k x HS HQ HO HU' HN T Hnb Hdm Hs H Hx. destruct dims_run as (D & D0 & P & P0 & D').
  assert (L : length (csr_dense m) = length l) by (rewrite <- D; apply dense_length). rewrite <- L in T, Hs.
  destruct (unit_found N (csr_dense m) nb guess stp tol dim_max vals vects HQ HO HU' HN (dense_square m) T Hnb Hdm Hs H k x Hx) as (y & Hy & Ly & Uy & R). rewrite L in Ly.
  apply (near_rounded e v x y (Rabs (real tol)) HS (Rabs_pos _) Ly Uy). apply real_le in R. rewrite real_mul in R. eapply Rle_trans; [exact R|]. apply Req_le. pose proof (Rsqr_abs (real tol)) as Q. exact Q.
Qed.

Lemma levels_rounded : forall e v N nb guess stp tol dim_max eps found vals vects k x, all_states m0 e v ->
  let dm := (if dim_max =? 0 then Z.of_nat (length l) else dim_max)%Z in
  let K0 := dav_first N (csr_dense m) (Z.min nb dm) guess in
  qr_shape N -> tall (length l) K0 -> (1 <= nb)%Z -> (1 <= dm)%Z -> well_diagonalised N (csr_dense m) (Z.min nb dm) tol dm K0 eps ->
  modified_davidson_algorithm N (csr_dense m) nb guess stp tol dim_max = Ok (found, vals, vects) -> nth_error vals k = Some x -> (k < length l)%nat /\ e k <= real x + real eps + real (G * B).
Proof.
  intros e v N nb guess stp tol dim_max eps found vals vects k x A dm K0 HQ T Hnb Hdm HW H Hk. destruct dims_run as (D & D0 & P & P0 & D').
  assert (L : length (csr_dense m) = length l) by (rewrite <- D; apply dense_length). assert (Hn0 : (0 <= Z.min nb dm)%Z) by lia. rewrite <- L in T.
  destruct (C47_budget_pf _ _ _ _ _ _ _ _ _ _ H) as (i & K1 & S0 & F1 & F2). rewrite L in S0, F1, F2. fold dm in S0, F1, F2. fold K0 in S0.
  pose proof (search_tall _ _ _ _ _ _ _ _ HQ (dense_square m) T Hn0 S0) as TK. destruct (HW _ _ S0) as (O & AC & _). rewrite <- !real_add, <- D.
  apply (step_near m m0 e v N (Z.min nb dm) tol dm K1 eps (G * B)%Qc k x (m0_mirrored E c w r K S arg0 l0 m0 HE HF HA0) A); try assumption; [congruence | | rewrite D, <- L; exact TK|].
  - intros y Ly. rewrite (mean_csr m0), (mean_csr m) by (rewrite ?D0, <- ?D; assumption).
    pose proof (pair_mean u F E c w r K S arg arg0 l l0 m m0 z y HU HE HF HA HA0 HK) as Q. fold G B in Q.
    assert (Zy : zlen y = csr_dim m) by (unfold zlen; rewrite Ly; unfold dimension; lia). specialize (Q Zy).
    apply magnitude_le in Q. destruct Q as [Q1 Q2]. apply real_le in Q1. apply real_le in Q2. apply real_le_inv. rewrite real_add. rewrite ?real_sub, ?real_opp in Q1. rewrite ?real_sub, ?real_opp in Q2. Lra.lra.
  - exists vals, vects. split; [|exact Hk]. destruct found; [left; apply F1; reflexivity | right; apply F2; reflexivity].
Qed.
End Runs.

Lemma C111_davidson_pf : forall u F E c w r K S arg arg0 l l0 m m0 z e v N nb guess stp tol dim_max vals vects k x, rounds u F -> set_iter_ok E -> filled c w r ->
  assembled_fl F E c K S arg l m -> assembled E c K S arg0 l0 m0 -> couplings_within z K -> all_states m0 e v ->
  qr_shape N -> qr_orthonormal N -> eigh_unit N -> norm_above N -> tall (length l) guess -> (0 <= nb)%Z -> (0 <= dim_max)%Z ->
  (2 <= Z.min nb (if dim_max =? 0 then Z.of_nat (length l) else dim_max))%Z \/ DavDefs.orthonormal guess ->
  modified_davidson_algorithm N (csr_dense m) nb guess stp tol dim_max = Ok (true, vals, vects) -> nth_error vals k = Some x ->
  exists j, (j < length l)%nat /\ Rabs (e j - real x) <= Rabs (real tol) + real (growth u (roundings (nholes c) (grid_bonds w (nsites c / w))) * energy_bound z S (nholes c) (grid_bonds w (nsites c / w))).
Proof. intros u F E c w r K S arg arg0 l l0 m m0 z e v N nb guess stp tol dim_max vals vects k x HU HE HF HA HA0 HK. exact (davidson_rounded u F E c w r K S arg arg0 l l0 m m0 z HU HE HF HA HA0 HK e v N nb guess stp tol dim_max vals vects k x). Qed.
Lemma C111_ranks_pf : forall u F E c w r K S arg arg0 l l0 m m0 z e v N nb guess stp tol dim_max eps found vals vects k x, rounds u F -> set_iter_ok E -> filled c w r ->
  assembled_fl F E c K S arg l m -> assembled E c K S arg0 l0 m0 -> couplings_within z K -> all_states m0 e v ->
  let dm := (if dim_max =? 0 then Z.of_nat (length l) else dim_max)%Z in
  let K0 := dav_first N (csr_dense m) (Z.min nb dm) guess in
  qr_shape N -> tall (length l) K0 -> (1 <= nb)%Z -> (1 <= dm)%Z -> well_diagonalised N (csr_dense m) (Z.min nb dm) tol dm K0 eps ->
  modified_davidson_algorithm N (csr_dense m) nb guess stp tol dim_max = Ok (found, vals, vects) -> nth_error vals k = Some x ->
  (k < length l)%nat /\ e k <= real x + real eps + real (growth u (roundings (nholes c) (grid_bonds w (nsites c / w))) * energy_bound z S (nholes c) (grid_bonds w (nsites c / w))).
Proof. intros u F E c w r K S arg arg0 l l0 m m0 z e v N nb guess stp tol dim_max eps found vals vects k x HU HE HF HA HA0 HK. exact (levels_rounded u F E c w r K S arg arg0 l l0 m m0 z HU HE HF HA HA0 HK e v N nb guess stp tol dim_max eps found vals vects k x). Qed.
