(** Final lemmas for C102: energies at two sets of couplings. *)
From Coq Require Import ZArith List Bool QArith Qcanon Lia.
From Verif Require Import PyBase PyFacts Runtimes Lattice Base Interact Ham Spec SpecOps SpecTJ SpinDefs Geometry HamSpec SignDefs EnergyDefs RangeDefs LevelDefs TraceDefs ShiftDefs.
From Verif Require Import PSpin PQc PBasis PSites PHam POps FGeo FBasis FSites FInter FHam PSecSum PBound PSign PSignOp PPerron FSign FMotion PEnergy FEnergy PRange FRange PTrace FTrace PShift PDavIter FDav.
Import ListNotations.
Open Scope Z_scope.

Lemma mean_at : forall N m v, length v = N -> csr_mean m v = mean_of N (fun i j => csr_at m (Z.of_nat i) (Z.of_nat j)) (fun k => nth k v 0%Qc).
Proof. intros N m v Lv. unfold csr_mean, inner, mean_of, act, sumN. rewrite Lv. apply qsum_ext. intros i Hi. apply in_seq in Hi. rewrite times_at by lia. now rewrite Lv. Qed.
Lemma size_at : forall N (v : list Qc), length v = N -> inner v v = size_of N (fun k => nth k v 0%Qc).
Proof. intros N v Lv. unfold inner, size_of, sumN. now rewrite Lv. Qed.

Lemma below_list : forall (es : list (Qc * list Qc)) t, levels_below es t = length (below (length es) (fun k => fst (nth k es (0%Qc, []))) t).
Proof.
  intros es t. unfold levels_below, below.
  assert (G : forall s (g : nat -> Qc), (forall k p, nth_error es k = Some p -> g (s + k)%nat = fst p) ->
    length (filter (fun p => if Qclt_le_dec t (fst p) then false else true) es) = length (filter (fun k => if Qclt_le_dec t (g k) then false else true) (seq s (length es)))).
  { induction es as [|p es IH]; intros s g H; [reflexivity|]. cbn [length seq filter]. specialize (IH (Datatypes.S s) g). 
    assert (E0 : g s = fst p) by (rewrite <- (Nat.add_0_r s); now apply H). rewrite E0.
    assert (E1 := IH ltac:(intros k q Hk; rewrite <- (H (Datatypes.S k) q Hk); f_equal; lia)). destruct (Qclt_le_dec t (fst p)); cbn [length]; now rewrite E1. }
  apply (G 0%nat). intros k p Hk. cbn [Nat.add]. erewrite nth_error_nth; [reflexivity | exact Hk].
Qed.

(** a complete set of states, as functions *)
Lemma level_functions : forall m es, all_levels m es ->
  let N := length es in let at_ k := nth k es (0%Qc, []) in
  csr_dim m = Z.of_nat N /\
  (forall k, (k < N)%nat -> (0 < inner (snd (at_ k)) (snd (at_ k)))%Qc) /\
  (forall k l, (k < N)%nat -> (l < N)%nat -> sumN N (fun i => nth i (snd (at_ k)) 0 * nth i (snd (at_ l)) 0)%Qc = if Nat.eqb k l then inner (snd (at_ k)) (snd (at_ k)) else 0%Qc) /\
  (forall k i, (k < N)%nat -> (i < N)%nat -> sumN N (fun j => csr_at m (Z.of_nat i) (Z.of_nat j) * nth j (snd (at_ k)) 0)%Qc = (fst (at_ k) * nth i (snd (at_ k)) 0)%Qc).
Proof.
  intros m es (Ln & EV & O) N at_. assert (D : csr_dim m = Z.of_nat (length es)) by (rewrite <- Ln; reflexivity).
  assert (At : forall k, (k < length es)%nat -> nth_error es k = Some (at_ k)) by (intros k Hk; unfold at_; now apply nth_error_nth').
  assert (V : forall k, (k < length es)%nat -> eigenvector m (fst (at_ k)) (snd (at_ k))) by (intros k Hk; apply EV; rewrite <- surjective_pairing; eapply nth_error_In, At, Hk).
  assert (Lv : forall k, (k < length es)%nat -> length (snd (at_ k)) = length es) by (intros k Hk; destruct (V k Hk) as (Z0 & _); rewrite D in Z0; unfold zlen in Z0; lia).
  split; [exact D|]. split; [intros k Hk; exact (inner_positive _ _ _ (V k Hk))|]. split.
  - intros k l Hk Hl. transitivity (inner (snd (at_ k)) (snd (at_ l))); [unfold inner, sumN; now rewrite Lv|].
    destruct (Nat.eqb_spec k l) as [->|NE]; [reflexivity|]. exact (O k l _ _ NE (At k Hk) (At l Hl)).
  - intros k i Hk Hi. destruct (V k Hk) as (Z0 & T & _). apply (eigen_stationary m _ _ Z0) with (i := i) in T; [|now rewrite Lv]. rewrite Lv in T by assumption. exact T.
Qed.

Lemma C102_shift_pf : forall m m' es es' delta, csr_dim m = csr_dim m' -> all_levels m es -> all_levels m' es' ->
  (forall u, zlen u = csr_dim m -> (csr_mean m' u <= csr_mean m u + delta * inner u u)%Qc) ->
  forall t, (levels_below es t <= levels_below es' (t + delta)%Qc)%nat.
Proof.
  intros m m' es es' delta DD A A' H t. destruct (level_functions m es A) as (D & P & O & V). destruct (level_functions m' es' A') as (D' & P' & O' & V').
  assert (LL : length es' = length es) by lia. rewrite LL in P', O', V'. rewrite !below_list, LL.
  refine (count_levels (length es) (fun i j => csr_at m (Z.of_nat i) (Z.of_nat j)) (fun k i => nth i (snd (nth k es (0%Qc, []))) 0%Qc) _ _
    (fun i j => csr_at m' (Z.of_nat i) (Z.of_nat j)) (fun k i => nth i (snd (nth k es' (0%Qc, []))) 0%Qc) _ _ delta P O V P' O' V' _ t).
  intros x. set (u := map x (seq 0 (length es))). assert (Lu : length u = length es) by (unfold u; now rewrite map_length, seq_length).
  specialize (H u ltac:(unfold zlen; now rewrite Lu, D)). rewrite !(mean_at (length es)), (size_at (length es)) in H by exact Lu.
  assert (X : forall i, (i < length es)%nat -> nth i u 0%Qc = x i) by (intros i Hi; unfold u; now rewrite nth_map_seq).
  now rewrite !(mean_ext _ _ _ _ X), (size_ext _ _ _ X) in H.
Qed.

Lemma mean_linear : forall E c w r a b K K' S arg l m1 m2 m, set_iter_ok E -> filled c w r ->
  assembled E c K S arg l m1 -> assembled E c K' S arg l m2 -> assembled E c (combine_couplings a b K K') S arg l m ->
  forall u, csr_mean m u = (a * csr_mean m1 u + b * csr_mean m2 u)%Qc.
Proof.
  intros E c w r a b K K' S arg l m1 m2 m HE HF H1 H2 HA u. pose proof (C35_linear_pf E c w r a b K K' S arg l m1 m2 m HE HF H1 H2 HA) as G.
  rewrite !(mean_at (length u)) by reflexivity. unfold mean_of, act. rewrite <- !sum_scale, <- sum_add. apply sum_ext. intros i Hi.
  transitivity (nth i u 0 * (a * sumN (length u) (fun j => csr_at m1 (Z.of_nat i) (Z.of_nat j) * nth j u 0) + b * sumN (length u) (fun j => csr_at m2 (Z.of_nat i) (Z.of_nat j) * nth j u 0)))%Qc; [|ring].
  f_equal. rewrite <- !sum_scale, <- sum_add. apply sum_ext. intros j Hj. rewrite G. ring.
Qed.
Lemma same_dim : forall E c w r K K' S S' arg l m m', set_iter_ok E -> filled c w r -> assembled E c K S arg l m -> assembled E c K' S' arg l m' -> csr_dim m = csr_dim m'.
Proof.
  intros E c w r K K' S S' arg l m m' HE HF H1 H2. destruct (core _ _ _ _ _ _ _ _ _ HE HF H1) as (_ & D & _). destruct (core _ _ _ _ _ _ _ _ _ HE HF H2) as (_ & D' & _). congruence.
Qed.
(** the matrix of the difference of the couplings *)
Lemma difference : forall E c w r K K' S arg l m m', set_iter_ok E -> filled c w r -> assembled E c K S arg l m -> assembled E c K' S arg l m' ->
  exists md, assembled E c (combine_couplings 1 (- (1))%Qc K' K) S arg l md /\ csr_dim md = csr_dim m /\ csr_dim m = csr_dim m' /\ forall u, csr_mean m' u = (csr_mean m u + csr_mean md u)%Qc.
Proof.
  intros E c w r K K' S arg l m m' HE HF H1 H2. destruct (built E c w r (combine_couplings 1 (- (1))%Qc K' K) S arg HE HF) as (ex & B1 & B2 & _).
  destruct (core _ _ _ _ _ _ _ _ _ HE HF H1) as (El & _).
  assert (HD : assembled E c (combine_couplings 1 (- (1))%Qc K' K) S arg l (mkCsr (zlen (dl c)) ex)) by (rewrite El; split; assumption).
  eexists. split; [exact HD|]. split; [exact (same_dim E c w r _ _ S S arg l _ _ HE HF HD H1)|]. split; [exact (same_dim E c w r _ _ S S arg l _ _ HE HF H1 H2)|].
  intros u. rewrite (mean_linear E c w r 1 (- (1))%Qc K' K S arg l m' m _ HE HF H2 H1 HD u). ring.
Qed.

(** consequences of an inequality between means *)
Lemma lower_mean : forall m m' delta, csr_dim m = csr_dim m' -> (forall u, zlen u = csr_dim m -> (csr_mean m u <= csr_mean m' u + delta * inner u u)%Qc) ->
  (forall e, lowest m e -> lowest m' (e - delta)%Qc) /\
  (forall es es', all_levels m es -> all_levels m' es' -> forall t, (levels_below es' t <= levels_below es (t + delta)%Qc)%nat).
Proof.
  intros m m' delta D H. split.
  - intros e L u Lu. rewrite <- D in Lu. specialize (L u Lu). specialize (H u Lu). pose proof (Qcle_trans _ _ _ L H) as G. revert G. generalize (csr_mean m' u) (inner u u). intros x y G.
    replace ((e - delta) * y)%Qc with (e * y - delta * y)%Qc by ring. revert G. generalize (e * y)%Qc (delta * y)%Qc. intros p q G. qc.
  - intros es es' A A' t. apply (C102_shift_pf m' m es' es delta); try assumption; [now symmetry|]. intros u Lu. apply H. now rewrite D.
Qed.

Lemma C102_couplings_pf : forall E c w r K K' S arg l m m' z, set_iter_ok E -> filled c w r -> assembled E c K S arg l m -> assembled E c K' S arg l m' ->
  couplings_within z (combine_couplings 1 (- (1))%Qc K' K) ->
  let delta := energy_bound z S (nholes c) (grid_bonds w (nsites c / w)) in
  (forall e, lowest m e -> lowest m' (e - delta)%Qc) /\
  (forall es es', all_levels m es -> all_levels m' es' -> forall t,
    (levels_below es t <= levels_below es' (t + delta)%Qc)%nat /\ (levels_below es' t <= levels_below es (t + delta)%Qc)%nat).
Proof.
  intros E c w r K K' S arg l m m' z HE HF H1 H2 HZ delta. destruct (difference E c w r K K' S arg l m m' HE HF H1 H2) as (md & HD & D1 & D2 & M).
  pose proof (mean_within E c w r _ S arg l md z HE HF HD HZ) as G. fold delta in G.
  assert (M1 : forall u, zlen u = csr_dim m -> (csr_mean m u <= csr_mean m' u + delta * inner u u)%Qc).
  { intros u Lu. destruct (G u ltac:(now rewrite D1)) as [G1 _]. rewrite M. revert G1. generalize (csr_mean m u) (csr_mean md u) (delta * inner u u)%Qc. intros x y p G1. qc. }
  assert (M2 : forall u, zlen u = csr_dim m -> (csr_mean m' u <= csr_mean m u + delta * inner u u)%Qc).
  { intros u Lu. destruct (G u ltac:(now rewrite D1)) as [_ G1]. rewrite M. revert G1. generalize (csr_mean m u) (csr_mean md u) (delta * inner u u)%Qc. intros x y p G1. qc. }
  destruct (lower_mean m m' delta D2 M1) as [A B]. split; [exact A|]. intros es es' L L' t. split; [|now apply B]. exact (C102_shift_pf m m' es es' delta D2 L L' M2 t).
Qed.

Lemma C102_concave_pf : forall E c w r a b K K' S arg l m1 m2 m e1 e2, set_iter_ok E -> filled c w r ->
  assembled E c K S arg l m1 -> assembled E c K' S arg l m2 -> assembled E c (combine_couplings a b K K') S arg l m ->
  (0 <= a)%Qc -> (0 <= b)%Qc -> lowest m1 e1 -> lowest m2 e2 -> lowest m (a * e1 + b * e2)%Qc.
Proof.
  intros E c w r a b K K' S arg l m1 m2 m e1 e2 HE HF H1 H2 HA Ha Hb L1 L2 u Lu. rewrite (mean_linear E c w r a b K K' S arg l m1 m2 m HE HF H1 H2 HA u).
  pose proof (same_dim E c w r _ _ S S arg l _ _ HE HF HA H1) as D1. pose proof (same_dim E c w r _ _ S S arg l _ _ HE HF HA H2) as D2.
  specialize (L1 u ltac:(congruence)). specialize (L2 u ltac:(congruence)).
  replace ((a * e1 + b * e2) * inner u u)%Qc with ((e1 * inner u u) * a + (e2 * inner u u) * b)%Qc by ring. rewrite (Qcmult_comm a), (Qcmult_comm b).
  apply Qcplus_le_compat; now apply Qcmult_le_compat_r.
Qed.

Lemma no_delta : forall m m', csr_dim m = csr_dim m' -> (forall u, zlen u = csr_dim m -> (csr_mean m u <= csr_mean m' u)%Qc) ->
  (forall e, lowest m e -> lowest m' e) /\ (forall es es', all_levels m es -> all_levels m' es' -> forall t, (levels_below es' t <= levels_below es t)%nat).
Proof.
  intros m m' D H. destruct (lower_mean m m' 0 D) as [A B].
  - intros u Lu. rewrite Qcmult_0_l, Qcplus_0_r. now apply H.
  - split.
    + intros e L. specialize (A e L). now replace (e - 0)%Qc with e in A by ring.
    + intros es es' L L' t. specialize (B es es' L L' t). now rewrite Qcplus_0_r in B.
Qed.

(** no coupling, no element *)
Lemma zero_hop : forall L K s t, i_t K = 0%Qc -> op_hop L K s t = 0%Qc.
Proof. intros L K s t H. apply sum_sites_zero. intros i _. apply sum_sites_zero. intros j _. rewrite H. now destruct (_ && _). Qed.
Lemma zero_next_hop : forall L K s t, i_tNNN K = 0%Qc -> i_tnNNN K = 0%Qc -> op_next_hop L K s t = 0%Qc.
Proof. intros L K s t H1 H2. apply sum_sites_zero. intros i _. apply sum_sites_zero. intros j _. rewrite H1, H2. destruct (lineb2 _ _); now destruct (_ && _). Qed.
Lemma zero_singlet : forall L K s t, i_hSDpar K = 0%Qc -> i_hSDper K = 0%Qc -> op_singlet L K s t = 0%Qc.
Proof. intros L K s t H1 H2. apply sum_sites_zero. intros i _. apply sum_sites_zero. intros j _. apply sum_sites_zero. intros k _. rewrite H1, H2. destruct (lineb2 _ _); rewrite Qcmult_0_l; now destruct (_ && _). Qed.
Lemma zero_static : forall L K s, (forall k, exchange K k = 0%Qc) -> op_static L K s = 0%Qc.
Proof. intros L K s H. apply sum_sites_zero. intros i _. apply sum_sites_zero. intros j _. rewrite H. match goal with |- only ?b _ = _ => destruct b end; cbn [only]; ring. Qed.
Lemma zero_flip : forall L K s t, (forall k, exchange K k = 0%Qc) -> op_flip L K s t = 0%Qc.
Proof. intros L K s t H. apply sum_sites_zero. intros i _. apply sum_sites_zero. intros j _. rewrite H, Qcmult_0_r. now destruct (_ && _). Qed.
Lemma zero_repulsion : forall L K s, i_VNN K = 0%Qc -> i_VNNNper K = 0%Qc -> op_repulsion L K s = 0%Qc.
Proof. intros L K s H1 H2. apply sum_sites_zero. intros i _. apply sum_sites_zero. intros j _. rewrite H1, H2. destruct (_ && _); [|reflexivity]. cbn [only]. destruct (bonded L i j), (diagb _ _); cbn [only]; ring. Qed.
Lemma no_change : forall x y : Qc, y = x -> (1 * y + - (1) * x)%Qc = 0%Qc.
Proof. intros x y ->. ring. Qed.
Lemma a_change : forall x y : Qc, (x <= y)%Qc -> (0 <= 1 * y + - (1) * x)%Qc.
Proof. intros x y H. replace (1 * y + - (1) * x)%Qc with (y - x)%Qc by ring. qc. Qed.

Lemma C102_repulsions_pf : forall E c w r K K' S arg l m m', set_iter_ok E -> filled c w r -> assembled E c K S arg l m -> assembled E c K' S arg l m' -> stronger_repulsions K K' ->
  (forall u, zlen u = csr_dim m -> (csr_mean m u <= csr_mean m' u)%Qc) /\ (forall e, lowest m e -> lowest m' e) /\
  (forall es es', all_levels m es -> all_levels m' es' -> forall t, (levels_below es' t <= levels_below es t)%nat).
Proof.
  intros E c w r K K' S arg l m m' HE HF H1 H2 (V1 & V2 & T1 & T2 & T3 & T4 & T5 & T6 & T7 & T8).
  destruct (difference E c w r K K' S arg l m m' HE HF H1 H2) as (md & HD & D1 & D2 & M).
  assert (G : forall u, zlen u = csr_dim m -> (csr_mean m u <= csr_mean m' u)%Qc); [|split; [exact G | exact (no_delta m m' D2 G)]].
  intros u Lu. rewrite M. assert (P : (0 <= csr_mean md u)%Qc); [|revert P; generalize (csr_mean m u) (csr_mean md u); intros x y P; qc].
  destruct (core _ _ _ _ _ _ _ _ _ HE HF HD) as (El & D & _ & MD).
  pose proof (len_of E c w r _ S arg l md HE HF HD u ltac:(now rewrite D1)) as LN.
  rewrite (mean_at (length l) md u LN). unfold mean_of, act, sumN. apply qsum_nonneg. intros i Hi. apply in_seq in Hi.
  destruct (state_at E c w r _ _ arg l md HE HF HD i ltac:(lia)) as (d & Qd & Dd).
  set (L := between (nsites c) (point w) r r) in *. set (KD := combine_couplings 1 (- (1))%Qc K' K) in *.
  assert (XD : forall k, exchange KD k = 0%Qc) by (intros []; cbn [exchange KD combine_couplings i_J i_Jhpar i_Jhper]; now apply no_change).
  assert (EL : forall s t, tj_element L KD S s t = only (s_bV S) (only (sameb (lat_size L) s t) (op_repulsion L KD s))).
  { intros s t. unfold tj_element. rewrite zero_hop, zero_static, zero_flip, zero_singlet, zero_next_hop by (try exact XD; unfold KD; cbn [combine_couplings i_t i_hSDpar i_hSDper i_tNNN i_tnNNN]; now apply no_change).
    destruct (s_bt S), (s_bz S), (s_bij S), (s_bSD S), (s_btN S), (sameb (lat_size L) s t); cbn [only]; ring. }
  assert (NN : (0 <= op_repulsion L KD (state_of c d))%Qc).
  { apply qsum_nonneg. intros x _. apply qsum_nonneg. intros y _. destruct (_ && _); [|apply Qcle_refl]. cbn [only].
    assert (V1' := a_change _ _ V1). assert (V2' := a_change _ _ V2). destruct (bonded L x y), (diagb _ _); cbn [only KD combine_couplings i_VNN i_VNNNper]; revert V1' V2'; generalize (1 * i_VNN K' + - (1) * i_VNN K)%Qc (1 * i_VNNNper K' + - (1) * i_VNNNper K)%Qc; intros p q V1' V2'; qc. }
  rewrite (qsum_ext _ _ (fun j => if Nat.eqb i j then csr_at md (Z.of_nat i) (Z.of_nat i) * nth i u 0 else 0)%Qc).
  - rewrite (FProj.qsum_delta (length l) i (fun _ => csr_at md (Z.of_nat i) (Z.of_nat i) * nth i u 0)%Qc) by lia.
    rewrite (MD i i d d _ _ Qd Qd Dd Dd). fold L. rewrite EL, same_refl. cbn [only].
    replace (nth i u 0 * (only (s_bV S) (op_repulsion L KD (state_of c d)) * nth i u 0))%Qc with (only (s_bV S) (op_repulsion L KD (state_of c d)) * (nth i u 0 * nth i u 0))%Qc by ring.
    apply Qcmult_nonneg; [|apply square_nonneg]. destruct (s_bV S); [exact NN | apply Qcle_refl].
  - intros j Hj. apply in_seq in Hj. destruct (Nat.eqb_spec i j) as [->|NE]; [reflexivity|]. destruct (state_at E c w r _ _ arg l md HE HF HD j ltac:(lia)) as (e & Qe & De).
    rewrite (MD i j d e _ _ Qd Qe Dd De). fold L. rewrite EL. destruct (sameb (lat_size L) (state_of c d) (state_of c e)) eqn:SB; [|destruct (s_bV S); cbn [only]; ring].
    exfalso. apply NE. rewrite El in Qd, Qe. assert (d = e).
    { destruct (shape c w r HF) as (Hw & Hh & HN). assert (Hn : 0 <= nsites c) by nia. pose proof (proj2 (proj2 HF)) as (H0 & B0 & _).
      destruct (in_slist_st (nsites c) (nholes c) (nbeta c) Hn ltac:(lia) ltac:(lia) d (nth_error_In _ _ Qd)) as [_ <-].
      destruct (in_slist_st (nsites c) (nholes c) (nbeta c) Hn ltac:(lia) ltac:(lia) e (nth_error_In _ _ Qe)) as [_ <-].
      apply canon_same. apply sameb_same in SB. exact SB. }
    subst e. assert (ND : NoDup (dl c)) by apply dets_NoDup. rewrite NoDup_nth_error in ND. apply ND; [apply nth_error_Some; congruence | congruence].
Qed.

Lemma C102_exchanges_pf : forall E c w r K K' S arg l m m', set_iter_ok E -> filled c w r -> assembled E c K S arg l m -> assembled E c K' S arg l m' -> stronger_exchanges K K' ->
  s_bz S = true -> s_bij S = true ->
  (forall u, zlen u = csr_dim m' -> (csr_mean m' u <= csr_mean m u)%Qc) /\ (forall e, lowest m' e -> lowest m e) /\
  (forall es es', all_levels m es -> all_levels m' es' -> forall t, (levels_below es t <= levels_below es' t)%nat).
Proof.
  intros E c w r K K' S arg l m m' HE HF H1 H2 (J1 & J2 & J3 & T1 & T2 & T3 & T4 & T5 & T6 & T7) Bz Bij.
  destruct (difference E c w r K K' S arg l m m' HE HF H1 H2) as (md & HD & D1 & D2 & M).
  assert (G : forall u, zlen u = csr_dim m' -> (csr_mean m' u <= csr_mean m u)%Qc).
  - intros u Lu. rewrite M. assert (P : (csr_mean md u <= 0)%Qc); [|revert P; generalize (csr_mean m u) (csr_mean md u); intros x y P; qc].
    set (KD := combine_couplings 1 (- (1))%Qc K' K) in *. set (Sx := mkSwitches false true true false false false).
    destruct (built E c w r KD Sx arg HE HF) as (ex & B1 & B2 & _). destruct (core _ _ _ _ _ _ _ _ _ HE HF HD) as (El & D & _ & MD).
    assert (HX : assembled E c KD Sx arg l (mkCsr (zlen (dl c)) ex)) by (rewrite El; split; assumption). set (mx := mkCsr (zlen (dl c)) ex) in *.
    destruct (core _ _ _ _ _ _ _ _ _ HE HF HX) as (_ & Dx & _ & Mx).
    set (Jm := (i_J KD + (i_Jhpar KD + i_Jhper KD))%Qc).
    assert (J1' : (0 <= i_J KD)%Qc) by (unfold KD; cbn [combine_couplings i_J]; now apply a_change).
    assert (J2' : (0 <= i_Jhpar KD)%Qc) by (unfold KD; cbn [combine_couplings i_Jhpar]; now apply a_change).
    assert (J3' : (0 <= i_Jhper KD)%Qc) by (unfold KD; cbn [combine_couplings i_Jhper]; now apply a_change).
    assert (X : exchanges_only c KD Sx Jm).
    { unfold exchanges_only, Jm. repeat split; try assumption; try reflexivity; [|right; repeat split; try assumption; try reflexivity]; revert J1' J2' J3'; generalize (i_J KD) (i_Jhpar KD) (i_Jhper KD); intros x y z J1' J2' J3'; qc. }
    destruct (C98_range_pf E c w r KD Sx arg l mx Jm HE HF HX X) as [GX _]. specialize (GX u ltac:(rewrite Dx, <- D; congruence)). destruct GX as [_ GX].
    eapply Qcle_trans; [|exact GX]. apply Qcle_of_eq.
    pose proof (len_of E c w r _ S arg l md HE HF HD u ltac:(congruence)) as LN.
    rewrite !(mean_at (length l) _ u LN). unfold mean_of, act. apply sum_ext. intros i Hi. f_equal. apply sum_ext. intros j Hj. f_equal.
    destruct (state_at E c w r _ _ arg l md HE HF HD i Hi) as (d & Qd & Dd). destruct (state_at E c w r _ _ arg l md HE HF HD j Hj) as (e & Qe & De).
    rewrite (MD i j d e _ _ Qd Qe Dd De), (Mx i j d e _ _ Qd Qe Dd De). unfold tj_element.
    rewrite zero_hop, zero_singlet, zero_next_hop, zero_repulsion by (unfold KD; cbn [combine_couplings i_t i_hSDpar i_hSDper i_tNNN i_tnNNN i_VNN i_VNNNper]; now apply no_change).
    rewrite Bz, Bij. unfold Sx. cbn [s_bt s_bz s_bij s_bSD s_btN s_bV only]. destruct (s_bt S), (s_bSD S), (s_btN S), (s_bV S), (sameb _ (state_of c d) (state_of c e)); cbn [only]; ring.
  - destruct (no_delta m' m (eq_sym D2) G) as [A B]. split; [exact G|]. split; [exact A|]. intros es es' L L'. now apply B.
Qed.

Lemma C102_lowest_pf : forall m es x, all_levels m es -> (lowest m x <-> forall e v, In (e, v) es -> (x <= e)%Qc).
Proof.
  intros m es x A. split.
  - intros L e v I. destruct A as (_ & EV & _). specialize (EV e v I). specialize (L v (proj1 EV)). rewrite (mean_eigen _ _ _ EV) in L. exact (div_le _ _ _ (inner_positive _ _ _ EV) L).
  - intros H u Lu. destruct (level_functions m es A) as (D & P & O & V). assert (Ln : length u = length es) by (unfold zlen in Lu; lia).
    rewrite (mean_at _ _ u Ln), (size_at _ u Ln). set (v := fun k i => nth i (snd (nth k es (0%Qc, []))) 0%Qc). set (q := fun k => inner (snd (nth k es (0%Qc, []))) (snd (nth k es (0%Qc, [])))).
    assert (QN : forall k, (k < length es)%nat -> q k <> 0%Qc) by (intros k Hk Z0; specialize (P k Hk); fold (q k) in P; rewrite Z0 in P; discriminate P).
    pose proof (all_mixed (length es) v q O QN (fun k => nth k u 0%Qc)) as G. set (g := fun k => (sumN (length es) (fun j => v k j * nth j u 0) / q k)%Qc) in G.
    rewrite (mean_ext _ _ _ _ G), (size_ext _ _ _ G). rewrite (mixed_size (length es) v q O), (mixed_mean (length es) _ v _ q O V), <- sum_scale. apply sum_le. intros k Hk.
    apply Qcmult_le_compat_r; [apply (H _ (snd (nth k es (0%Qc, [])))); rewrite <- surjective_pairing; now apply nth_In|].
    apply Qcmult_nonneg; [apply Qclt_le_weak; exact (P k Hk) | apply square_nonneg].
Qed.
