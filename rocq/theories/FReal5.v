(** Final lemmas for C108: spin of the ground state, without asking for rational amplitudes. *)
From Coq Require Import ZArith List Bool Lia QArith Qcanon Reals Qreals Lra Lqa Psatz Relations.
From Verif Require Import PyBase PyFacts Lattice Base Interact Ham Spin Spec SpecOps SpecTJ SpecSpin SpinDefs Geometry HamSpec EnergyDefs DrawnDefs SignDefs RealSum RealDefs
  PSpin PQc PBasis PSites PHam FGeo FSites FInter FHam PWave PTJSpin PVec PSecSum PSpinOp PBound PAct PDavIter FSpin FSpinVal FMulti FProj PSign PSignOp PPerron PSinglet FSign FSinglet FFerro FTop PReal PReal2 PRealQ FReal FReal3.
Import ListNotations.
Open Scope R_scope.

Lemma unit_column_length : forall n k, length (unit_column n k) = n.
Proof. intros. unfold unit_column. now rewrite map_length, seq_length. Qed.
Lemma unit_column_at : forall n k i, (i < n)%nat -> nth i (unit_column n k) 0%Qc = if Nat.eqb i k then 1%Qc else 0%Qc.
Proof. intros n k i Hi. unfold unit_column. now rewrite (nth_map_seq (fun i => if Nat.eqb i k then 1%Qc else 0%Qc)). Qed.
Lemma inner_unit : forall n k v, (k < n)%nat -> length v = n -> inner (unit_column n k) v = nth k v 0%Qc.
Proof.
  intros n k v Hk Lv. unfold inner. rewrite unit_column_length. rewrite (qsum_ext _ _ (fun i => if Nat.eqb k i then nth i v 0%Qc else 0%Qc)); [apply (qsum_delta n k (fun i => nth i v 0%Qc) Hk)|].
  intros i Hi. apply in_seq in Hi. rewrite unit_column_at by lia. rewrite (Nat.eqb_sym i k). destruct (Nat.eqb k i); ring.
Qed.

Section SpinMatrix.
Variables (E : runtime) (c : configuration) (l : list (list Z)).
Hypothesis HE : set_iter_ok E.
Hypothesis P : proper c.
Hypothesis HO : holes_in_order E c.
Hypothesis HB : construct_basis c = Ok (mkBasis c l).
Let n := length l.
Let sp := spin_element E c n.

Lemma len_conf : forall v : list Qc, length v = n -> zlen v = nb_conf c.
Proof. intros v Lv. unfold zlen. rewrite Lv. unfold n. rewrite (basis_is c l P HB). apply (proper_length c P). Qed.
Lemma spin_column : forall k, exists u, compute_S2 E c (unit_column n k) = Ok u /\ length u = n /\ forall i, sp i k = reals u i.
Proof.
  intros k. destruct (S2_ok E c HE P HO (unit_column n k) (len_conf _ (unit_column_length n k))) as (u & Q & L & _). rewrite unit_column_length in L. exists u. split; [exact Q|]. split; [exact L|].
  intros i. unfold sp, spin_element. now rewrite Q.
Qed.
Lemma spin_sym : forall i k, (i < n)%nat -> (k < n)%nat -> sp i k = sp k i.
Proof.
  intros i k Hi Hk. destruct (spin_column i) as (u & Qu & Lu & ->). destruct (spin_column k) as (w & Qw & Lw & ->).
  pose proof (C38_symmetric_pf E c l _ _ _ _ HE P HO HB (unit_column_length _ i) (unit_column_length _ k) Qu Qw) as Q. fold n in Q. rewrite !inner_unit in Q by assumption. unfold reals. now rewrite Q.
Qed.
Lemma spin_acts : forall v v', length v = n -> compute_S2 E c v = Ok v' -> forall i, (i < n)%nat -> reals v' i = actR n sp (reals v) i.
Proof.
  intros v v' Lv Qv i Hi. destruct (spin_column i) as (u & Qu & Lu & Su). pose proof (C38_symmetric_pf E c l _ _ _ _ HE P HO HB (unit_column_length _ i) Lv Qu Qv) as Q. fold n in Q.
  assert (Lv' : length v' = n) by (destruct (S2_ok E c HE P HO v (len_conf v Lv)) as (x & Qx & Lx & _); rewrite Qv in Qx; injection Qx as <-; congruence).
  rewrite inner_unit in Q by assumption. unfold reals at 1. rewrite Q, (inner_real n) by assumption. unfold actR, dot. apply rsum_ext. intros k Hk. rewrite (spin_sym i k Hi Hk), Su. ring.
Qed.
End SpinMatrix.

Lemma spin_commutes : forall E c w K S arg l m, set_iter_ok E -> filled_whole c w -> proper c -> holes_in_order E c -> s_bz S = s_bij S -> assembled E c K S arg l m ->
  forall v i, (i < length l)%nat -> actR (length l) (element m) (actR (length l) (spin_element E c (length l)) v) i = actR (length l) (spin_element E c (length l)) (actR (length l) (element m) v) i.
Proof.
  intros E c w K S arg l m HE HF P HO HQ HA v i Hi. set (n := length l). set (sp := spin_element E c n). pose proof (proj1 HA) as HB.
  assert (X : forall j, (j < n)%nat -> rsum n (fun k => element m i k * sp k j) = rsum n (fun k => sp i k * element m k j)).
  { intros j Hj. destruct (spin_column E c l HE P HO HB j) as (u & Qu & Lu & Su). fold n sp in Qu, Lu, Su.
    destruct (C36_conserved_pf E c w K S arg l m (unit_column n j) HE HF P HO HQ HA (unit_column_length n j)) as (u' & Q1 & Q2). rewrite Qu in Q1. injection Q1 as <-.
    assert (Lt : length (times m (unit_column n j)) = n) by (rewrite times_len; apply unit_column_length).
    pose proof (spin_acts E c l HE P HO HB _ _ Lt Q2 i Hi) as Q. fold n sp in Q. unfold reals in Q at 1. rewrite times_real in Q by (rewrite Lu; exact Hi). rewrite Lu in Q.
    transitivity (actR n (element m) (reals u) i); [apply rsum_ext; intros k _; now rewrite Su|]. rewrite Q. unfold actR at 1. apply rsum_ext. intros k Hk. f_equal. unfold reals at 1. rewrite times_real by (rewrite unit_column_length; exact Hk).
    rewrite unit_column_length. unfold actR. rewrite (rsum_single n _ j Hj).
    - unfold reals. rewrite unit_column_at, Nat.eqb_refl, real_1 by exact Hj. ring.
    - intros q Hq Dq. unfold reals. rewrite unit_column_at by exact Hq. destruct (Nat.eqb_spec q j); [contradiction | rewrite real_0; ring]. }
  unfold actR. transitivity (rsum n (fun j => rsum n (fun k => element m i k * sp k j) * v j)).
  - rewrite (rsum_ext n _ (fun k => rsum n (fun j => element m i k * sp k j * v j))) by (intros; rewrite <- rsum_scale; apply rsum_ext; intros; ring). rewrite rsum_exchange. apply rsum_ext. intros j _.
    rewrite Rmult_comm, <- rsum_scale. apply rsum_ext. intros. ring.
  - rewrite (rsum_ext n _ (fun j => rsum n (fun k => sp i k * element m k j) * v j)) by (intros j Hj; now rewrite X).
    rewrite (rsum_ext n (fun j => sp i j * _) (fun k => rsum n (fun j => sp i k * element m k j * v j))) by (intros; rewrite <- rsum_scale; apply rsum_ext; intros; ring). rewrite rsum_exchange. apply rsum_ext. intros j _.
    rewrite Rmult_comm, <- rsum_scale. apply rsum_ext. intros. ring.
Qed.

(** a state which is alone at its energy and not orthogonal to a state of spin [x] has this spin *)
Lemma spin_by_overlap : forall E c w K S arg l m e v f x, set_iter_ok E -> filled_whole c w -> proper c -> holes_in_order E c -> s_bz S = s_bij S -> assembled E c K S arg l m ->
  energy_state m e v -> (forall v', energy_state m e v' -> exists y, forall i, (i < dimension m)%nat -> v' i = y * v i) ->
  length f = length l -> compute_S2 E c f = Ok (map (fun y => (x * y)%Qc) f) -> dot (length l) (reals f) v <> 0 ->
  forall i, (i < length l)%nat -> actR (length l) (spin_element E c (length l)) v i = real x * v i.
Proof.
  intros E c w K S arg l m e v f x HE HF P HO HQ HA V U Lf Qf OV. destruct (mirrored_filled E c w _ K S arg l m HE HF HA) as (M & D). rewrite D in U. set (n := length l) in *. set (sp := spin_element E c n) in *.
  pose proof (proj1 HA) as HB. set (v1 := actR n sp v).
  assert (ST : forall i, (i < n)%nat -> actR n (element m) v1 i = e * v1 i).
  { intros i Hi. unfold v1, sp, n. rewrite (spin_commutes E c w K S arg l m HE HF P HO HQ HA v i Hi). fold n sp. destruct V as (_ & Ev). rewrite D in Ev. fold n in Ev.
    transitivity (actR n sp (fun j => e * v j) i); [apply actR_ext; intros; now apply Ev|]. unfold actR. rewrite <- rsum_scale. apply rsum_ext. intros. ring. }
  assert (X : exists y, forall i, (i < n)%nat -> v1 i = y * v i).
  { assert (DE : forall k, (forall i, (i < k)%nat -> v1 i = 0) \/ exists i, (i < k)%nat /\ v1 i <> 0).
    { induction k as [|k [IH|(i & Hi & N)]]; [left; intros; lia| |right; exists i; split; [lia | assumption]]. destruct (Req_dec (v1 k) 0) as [Y|Y]; [left | right; exists k; split; [lia | assumption]].
      intros i Hi. destruct (Nat.eq_dec i k) as [->|]; [assumption | apply IH; lia]. }
    destruct (DE n) as [Z|(i & Hi & N)]; [exists 0; intros i Hi; rewrite (Z i Hi); ring|]. apply U. split; [exists i; rewrite D; split; assumption|]. rewrite D. exact ST. }
  destruct X as (y & X).
  assert (FA : forall i, (i < n)%nat -> actR n sp (reals f) i = real x * reals f i).
  { intros i Hi. unfold sp, n. rewrite <- (spin_acts E c l HE P HO HB f _ Lf Qf i Hi). unfold reals. rewrite <- real_mul. f_equal. rewrite (nth_indep _ 0%Qc (x * 0)%Qc) by (rewrite map_length, Lf; exact Hi). apply (map_nth (fun y => (x * y)%Qc)). }
  assert (Y : y * dot n (reals f) v = real x * dot n (reals f) v).
  { transitivity (dot n (reals f) v1); [rewrite <- dot_scale; apply dot_ext; [reflexivity | intros; symmetry; now apply X]|]. unfold v1.
    rewrite (swap_sides n sp) by (intros; now apply (spin_sym E c l HE P HO HB)). transitivity (dot n v (fun i => real x * reals f i)); [apply dot_ext; [reflexivity | exact FA]|]. rewrite dot_scale. now rewrite dot_sym. }
  apply Rmult_eq_reg_r in Y; [|exact OV]. intros i Hi. fold v1. rewrite (X i Hi), Y. reflexivity.
Qed.

(** a vector with the signs of another, or 0, is not orthogonal to it *)
Lemma signs_overlap : forall c l f fs v (F : list Qc), length F = length l -> (forall s, (f s * f s)%Qc = 1%Qc) -> (forall k, (k < length l)%nat -> exists d s, nth_error l k = Some d /\ describes (nsites c) (nholes c) (nbeta c) d s /\ (nth k F 0%Qc = 0%Qc \/ nth k F 0%Qc = f s)) ->
  (exists k, (k < length l)%nat /\ nth k F 0%Qc <> 0%Qc) -> fs = 1 \/ fs = -1 -> follows_real c l f (fun i => fs * v i) -> dot (length l) (reals F) v <> 0.
Proof.
  intros c l f fs v F LF F2 H (k0 & Hk0 & N0) Hs FO Z. assert (T : forall k, (k < length l)%nat -> 0 <= fs * (reals F k * v k)).
  { intros k Hk. destruct (H k Hk) as (d & s & Qd & Ds & [Q|Q]); unfold reals; rewrite Q; [rewrite real_0; Lra.lra|]. pose proof (FO k d s Qd Ds). Lra.lra. }
  assert (Z0 : fs * (reals F k0 * v k0) = 0).
  { apply (rsum_nonneg_zero (length l) (fun k => fs * (reals F k * v k)) k0 Hk0 T). rewrite rsum_scale. unfold dot in Z. rewrite Z. Lra.lra. }
  destruct (H k0 Hk0) as (d & s & Qd & Ds & [Q|Q]); [contradiction|]. unfold reals in Z0. rewrite Q in Z0. pose proof (FO k0 d s Qd Ds). Lra.lra.
Qed.
Lemma C108_spin_pf : forall E c w K S arg l m e v, set_iter_ok E -> filled_whole c w -> proper c -> assembled E c K S arg l m ->
  nholes c = 0%Z -> s_bij S = true -> s_bz S = true -> (0 < i_J K)%Qc -> ground_energy m e -> energy_state m e v ->
  let j := (IZR (Z.abs (nalpha c - nbeta c)) / 2) in
  forall i, (i < dimension m)%nat -> rsum (dimension m) (fun k => spin_element E c (dimension m) i k * v k) = j * (j + 1) * v i.
Proof.
  intros E c w K S arg l m e v HE HF P HA H0 HB HZ HJ G V j. destruct (mirrored_filled E c w _ K S arg l m HE HF HA) as (M & D). rewrite D. assert (J1 : (0 <= i_J K)%Qc) by now apply Qclt_le_weak.
  assert (HO : holes_in_order E c) by (left; lia). assert (HQ : s_bz S = s_bij S) by congruence. pose proof (proj1 HA) as HC. pose proof (basis_is c l P HC) as El.
  destruct (ground_signed E c w (zrange 0 (nsites c)) K S arg l m (down_sign (nsites c) (point w)) HE HF HA) with (e := e) (v := v) as [SG U]; try assumption;
    [intros; apply sign_square | intros; now apply down_same | now apply (marshall_signs E c w K S arg l m) | now apply (indices_linked E c w K S arg l m)|].
  destruct (pairs_spin c w HF P H0) as (psi & Op & Sp & Vp & s0 & Hs0 & P0). set (jq := (half * qz (Z.abs (nalpha c - nbeta c)))%Qc) in Sp. cbv zeta in Sp.
  destruct (vector_exists c psi P Op) as (f & Af). change (slist (nsites c) (nholes c) (nbeta c)) with (dets (nsites c) (Z.to_nat (nholes c)) (Z.to_nat (nbeta c))) in Af. rewrite <- El in Af.
  pose proof Af as Af'. rewrite El in Af'. apply (amplitudes_iff c P f psi Op) in Af'. destruct Af' as [Lf Vf]. destruct Af as [LLf Af].
  pose proof (S2_of_wave E c HE P HO f psi (jq * (jq + 1))%Qc Lf Op Vf Sp) as Qf.
  assert (RJ : real (jq * (jq + 1))%Qc = j * (j + 1)).
  { assert (Q : real jq = j) by (unfold jq, j; rewrite real_mul, real_qz; replace (real half) with (/ 2) by (unfold real, half, Q2R; cbn; Lra.lra); field). now rewrite real_mul, real_add, real_1, Q. }
  rewrite <- RJ. intros i Hi. refine (spin_by_overlap E c w K S arg l m e v f (jq * (jq + 1))%Qc HE HF P HO HQ HA V U LLf Qf _ i Hi).
  assert (TERM : forall k, (k < length l)%nat -> exists d s, nth_error l k = Some d /\ describes (nsites c) (nholes c) (nbeta c) d s /\ (nth k f 0%Qc = 0%Qc \/ nth k f 0%Qc = down_sign (nsites c) (point w) s)).
  { intros k Hk. destruct (nth_error l k) as [d|] eqn:Q; [|apply nth_error_None in Q; lia]. pose proof Q as Q'. rewrite El in Q'. pose proof (dl_describes c w _ _ _ HF Q') as Dd. exists d, (state_of c d). split; [reflexivity|]. split; [exact Dd|].
    assert (X : nth k f 0%Qc = psi (state_of c d)) by (apply nth_error_nth; now apply (Af k d)). rewrite X. apply Vp. }
  assert (NZ : exists k, (k < length l)%nat /\ nth k f 0%Qc <> 0%Qc).
  { pose proof (nth_dets (nsites c) (Z.to_nat (nholes c)) (Z.to_nat (nbeta c)) s0 (proper_n c P)) as N. pose proof P as (A1 & A2 & _). rewrite !Z2Nat.id in N by assumption. specialize (N Hs0). rewrite <- El in N.
    set (k0 := Z.to_nat _) in N. pose proof (canon_describes _ _ _ _ Hs0) as D0. exists k0. split; [apply nth_error_Some; congruence|].
    assert (F0 : nth k0 f 0%Qc = psi s0) by (apply nth_error_nth; now apply (Af k0 (canon (nsites c) s0))). rewrite F0, P0. intros Z. pose proof (sign_square (nsites c) (fun x => downb (s0 x) && black (point w x))) as Q. fold (down_sign (nsites c) (point w) s0) in Q. rewrite Z in Q. discriminate Q. }
  destruct SG as [SG|SG].
  - apply (signs_overlap c l (down_sign (nsites c) (point w)) 1 v f); try assumption; [intros; apply sign_square | now left|]. intros k d s Qd Ds. rewrite Rmult_1_l. now apply (SG k d s).
  - apply (signs_overlap c l (down_sign (nsites c) (point w)) (-1) v f); try assumption; [intros; apply sign_square | now right|]. intros k d s Qd Ds. pose proof (SG k d s Qd Ds). Lra.lra.
Qed.
Lemma C108_matrix_pf : forall E c l, set_iter_ok E -> proper c -> holes_in_order E c -> construct_basis c = Ok (mkBasis c l) ->
  let n := length l in
  (forall i j, (i < n)%nat -> (j < n)%nat -> spin_element E c n i j = spin_element E c n j i) /\
  forall v, length v = n -> exists v', compute_S2 E c v = Ok v' /\ length v' = n /\ forall i, (i < n)%nat -> real (nth i v' 0%Qc) = rsum n (fun k => spin_element E c n i k * real (nth k v 0%Qc)).
Proof.
  intros E c l HE P HO HB n. split; [intros i j Hi Hj; now apply (spin_sym E c l HE P HO HB)|]. intros v Lv.
  destruct (S2_ok E c HE P HO v (len_conf c l P HB v Lv)) as (u & Q & L & _). exists u. split; [exact Q|]. split; [congruence|]. intros i Hi. exact (spin_acts E c l HE P HO HB v u Lv Q i Hi).
Qed.
