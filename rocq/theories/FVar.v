(** The lowest value of modified_davidson_algorithm is variational (C87). *)
From Coq Require Import ZArith List Bool Sorted QArith Qcanon Lia.
From Verif Require Import PyBase PyFacts Lattice Base Spec SpecTJ Interact SpinDefs Prob ProbDefs Dav DavDefs VarDefs PSpin PQc PProb PSecSum PBound PDavIter PDav FDav FProj.
Import ListNotations.
Open Scope Z_scope.

Lemma image_blend : forall A V y u, square A -> tall (length A) V -> length u = length A ->
  inner u (image A (blend (length A) V y)) = qsum (fun k => nth k y 0 * inner u (image A (nth k V [])))%Qc (seq 0 (length V)).
Proof.
  intros A V y u SA T Lu. unfold inner at 1. rewrite Lu.
  rewrite (qsum_ext _ _ (fun i => qsum (fun k => nth k y 0 * (nth i u 0 * nth i (image A (nth k V [])) 0))%Qc (seq 0 (length V)))).
  - rewrite qsum_exchange. apply qsum_ext. intros k _. rewrite qsum_scale. unfold inner. now rewrite Lu.
  - intros i Hi. apply in_seq in Hi. rewrite image_nth by lia. rewrite (inner_blend (length A)) by (apply row_length; [assumption | lia]).
    rewrite <- qsum_scale. apply qsum_ext. intros k _. rewrite image_nth by lia. ring.
Qed.

Lemma projected_nth : forall A V k, (k < length V)%nat -> nth k (projected A V) [] = map (fun v => inner v (image A (nth k V []))) V.
Proof. intros A V k H. unfold projected. rewrite (nth_indep _ [] (map (fun v => inner v (image A [])) V)) by (rewrite map_length; exact H). apply (map_nth (fun w => map (fun v => inner v (image A w)) V)). Qed.

(** the mean of the projected matrix *)
Lemma mean_projected : forall A V y, square A -> tall (length A) V -> length y = length V ->
  inner y (image (projected A V) y) = mean A (blend (length A) V y).
Proof.
  intros A V y SA T Ly. unfold mean. rewrite image_blend by (try assumption; apply blend_length).
  unfold inner at 1. rewrite Ly. apply qsum_ext. intros k Hk. apply in_seq in Hk.
  assert (Lv : forall j, (j < length V)%nat -> length (nth j V []) = length A) by (intros j Hj; unfold tall in T; rewrite Forall_forall in T; apply T, nth_In, Hj).
  f_equal. rewrite image_nth by (unfold projected; rewrite map_length; lia). rewrite projected_nth by lia.
  rewrite (inner_sym (blend _ _ _)) by (now rewrite blend_length, image_length).
  rewrite (inner_blend (length A)) by apply image_length. rewrite inner_map. apply qsum_ext. intros j Hj. apply in_seq in Hj.
  rewrite Qcmult_comm. f_equal. apply inner_sym. rewrite image_length. apply Lv. lia.
Qed.

Lemma unit_blend : forall (dim : nat) V y, tall dim V -> orthonormal V -> length y = length V -> inner (blend dim V y) (blend dim V y) = inner y y.
Proof.
  intros dim V y T O Ly.
  assert (Lv : forall j, (j < length V)%nat -> length (nth j V []) = dim) by (intros j Hj; unfold tall in T; rewrite Forall_forall in T; apply T, nth_In, Hj).
  rewrite (inner_blend dim) by apply blend_length. unfold inner at 2. rewrite Ly. apply qsum_ext. intros k Hk. apply in_seq in Hk. f_equal.
  rewrite inner_sym by (rewrite blend_length; symmetry; apply Lv; lia). rewrite (inner_blend dim) by (apply Lv; lia).
  rewrite (qsum_ext _ _ (fun j => if Nat.eqb k j then nth j y 0 else 0)%Qc).
  - apply qsum_delta. lia.
  - intros j Hj. apply in_seq in Hj. rewrite O by lia. destruct (Nat.eqb k j); ring.
Qed.

(** the first of the smallest values is below all of them *)
Lemma first_smallest : forall vals i idx k, smallest vals (i :: idx) -> (k < length vals)%nat -> (nth i vals 0 <= nth k vals 0)%Qc.
Proof.
  intros vals i idx k (ND & B & S & O) Hk. destruct (in_dec Nat.eq_dec k (i :: idx)) as [[->|I]|I].
  - apply Qcle_refl.
  - inversion S as [|? ? _ F]; subst. rewrite Forall_forall in F. now apply F.
  - apply O; [now left | assumption | assumption].
Qed.

Lemma step_lowest : forall N A nb tol dim_max K eps out, square A -> tall (length A) K -> orthonormal K -> 1 <= nb ->
  accurate eps (projected A K) (eigh N (projected A K)) -> dav_step N A nb tol dim_max K = Ok out ->
  exists vals vects l x, (out = Converged vals vects \/ exists K', out = Continue vals vects K') /\ nth_error vals 0 = Some l /\ nth_error vects 0 = Some x /\
    length x = length A /\ inner x x = 1%Qc /\ combination (length A) K x /\ (mean A x <= l + eps)%Qc /\
    forall g, combination (length A) K g -> inner g g = 1%Qc -> (l <= mean A g + eps)%Qc.
Proof.
  intros N A nb tol dim_max K eps out SA T O Hnb (L1 & L2 & P & Q) H.
  assert (LP : length (projected A K) = length K) by (unfold projected; apply map_length). rewrite LP in *.
  destruct (C47_iteration_pf N A nb tol dim_max K SA T ltac:(lia) ltac:(lia)) as (idx & S & Li & E). rewrite E in H. clear E.
  destruct (Z.ltb_spec (Z.of_nat (length (fst (eigh N (projected A K))))) nb) as [|G]; [discriminate|]. rewrite Z.min_l in Li by assumption.
  destruct idx as [|i idx]; [cbn in Li; lia|]. set (vals0 := fst (eigh N (projected A K))) in *. set (ys0 := snd (eigh N (projected A K))) in *.
  assert (Hi : (i < length K)%nat) by (rewrite <- L1; apply S; now left).
  exists (map (fun i => nth i vals0 0%Qc) (i :: idx)), (map (fun i => blend (length A) K (nth i ys0 [])) (i :: idx)), (nth i vals0 0%Qc), (blend (length A) K (nth i ys0 [])).
  split.
  { cbv zeta in H. destruct (forallb _ _); [left; now injection H as <-|]. destruct (existsb _ _); [discriminate|]. right. eexists. now injection H as <-. }
  split; [reflexivity|]. split; [reflexivity|]. destruct (P i Hi) as (Ly & Uy & P1 & P2).
  split; [apply blend_length|]. split; [rewrite unit_blend by assumption; exact Uy|]. split; [exists (nth i ys0 []); auto|].
  split; [rewrite <- mean_projected by assumption; exact P1|].
  intros g (z & Lz & ->) Ug. rewrite unit_blend in Ug by assumption. destruct (Q z Lz Ug) as (k & Hk & Lk). rewrite mean_projected in Lk by assumption.
  eapply Qcle_trans; [|exact Lk]. apply (first_smallest vals0 i idx k S). lia.
Qed.

Lemma parts_same : forall (out : dav_out) v1 x1 v2 x2,
  (out = Converged v1 x1 \/ exists K, out = Continue v1 x1 K) -> (out = Converged v2 x2 \/ exists K, out = Continue v2 x2 K) -> v1 = v2 /\ x1 = x2.
Proof. intros out v1 x1 v2 x2 [->|(K1 & ->)] [E|(K2 & E)]; try discriminate; injection E as <- <-; auto. Qed.

Lemma lowest_is : forall out l vals vects, lowest_value (Ok out) l -> (out = Converged vals vects \/ exists K, out = Continue vals vects K) -> nth_error vals 0 = Some l.
Proof.
  intros out l vals vects (v & x & E & H) E'. assert (Q : out = Converged v x \/ exists K, out = Continue v x K).
  { destruct E as [E|(K & E)]; injection E as ->; eauto. }
  destruct (parts_same _ _ _ _ _ Q E') as [-> _]. exact H.
Qed.

(** one iteration lower *)
Lemma step_lower : forall N A nb tol dim_max K vals vects K' eps l l', square A -> tall (length A) K -> tall (length A) K' -> orthonormal K -> orthonormal K' -> 1 <= nb ->
  accurate eps (projected A K) (eigh N (projected A K)) -> accurate eps (projected A K') (eigh N (projected A K')) ->
  dav_step N A nb tol dim_max K = Ok (Continue vals vects K') -> (forall x, In x vects -> combination (length A) K' x) ->
  lowest_value (dav_step N A nb tol dim_max K) l -> lowest_value (dav_step N A nb tol dim_max K') l' -> (l' <= l + qz 2 * eps)%Qc.
Proof.
  intros N A nb tol dim_max K vals vects K' eps l l' SA T T' O O' Hnb AC AC' H HC Hl Hl'.
  destruct (step_lowest _ _ _ _ _ _ _ _ SA T O Hnb AC H) as (v1 & x1 & l1 & x & E1 & N1 & N2 & Lx & Ux & _ & M1 & _).
  rewrite H in Hl. pose proof (lowest_is _ _ _ _ Hl E1) as Q. rewrite N1 in Q. injection Q as ->.
  destruct E1 as [E1|(K2 & E1)]; [discriminate|]. injection E1 as <- <- <-.
  destruct Hl' as (v' & x' & E' & N'). assert (E2 : exists out, dav_step N A nb tol dim_max K' = Ok out) by (destruct E' as [->|(K2 & ->)]; eauto). destruct E2 as (out & E2).
  destruct (step_lowest _ _ _ _ _ _ _ _ SA T' O' Hnb AC' E2) as (v2 & x2 & l2 & y & E3 & N3 & _ & _ & _ & _ & _ & G).
  assert (Q : lowest_value (Ok out) l') by (rewrite <- E2; exists v', x'; auto).
  pose proof (lowest_is _ _ _ _ Q E3) as Q2. rewrite N3 in Q2. injection Q2 as ->.
  specialize (G x (HC x (nth_error_In _ _ N2)) Ux). eapply Qcle_trans; [exact G|]. replace (l + qz 2 * eps)%Qc with ((l + eps) + eps)%Qc.
  - apply Qcplus_le_compat; [exact M1 | apply Qcle_refl].
  - replace (qz 2) with (1 + 1)%Qc by (apply Qc_is_canon; reflexivity). ring.
Qed.

Lemma search_fun : forall N A nb tol dim_max K0 i K, search_space N A nb tol dim_max K0 i K -> forall K', search_space N A nb tol dim_max K0 i K' -> K = K'.
Proof.
  intros N A nb tol dim_max K0 i K S. induction S as [|i K v x K1 S IH E]; intros K' S'; inversion S' as [|i' K2 v' x' K3 S2 E2]; subst; [reflexivity|].
  rewrite <- (IH _ S2) in E2. congruence.
Qed.

Lemma qz_S : forall n, qz (Z.of_nat (S n)) = (qz (Z.of_nat n) + 1)%Qc.
Proof. intros n. rewrite Nat2Z.inj_succ. unfold Z.succ. rewrite qz_add. reflexivity. Qed.

Lemma C87_monotone_pf : forall N A nb tol dim_max K0 eps, qr_shape N -> square A -> tall (length A) K0 -> 1 <= nb ->
  well_behaved N A nb tol dim_max K0 eps ->
  forall i j K K' l l', search_space N A nb tol dim_max K0 i K -> search_space N A nb tol dim_max K0 (i + j) K' ->
  lowest_value (dav_step N A nb tol dim_max K) l -> lowest_value (dav_step N A nb tol dim_max K') l' ->
  (l' <= l + qz (2 * Z.of_nat j) * eps)%Qc.
Proof.
  intros N A nb tol dim_max K0 eps HQ SA T Hnb HW i j. assert (Hn : 0 <= nb) by lia. induction j as [|j IH]; intros K K' l l' S0 S' Hl Hl'.
  - rewrite Nat.add_0_r in S'. rewrite <- (search_fun _ _ _ _ _ _ _ _ S0 _ S') in Hl'. destruct Hl as (v & x & E & H), Hl' as (v' & x' & E' & H').
    assert (v = v') as <- by (destruct E as [E|(K1 & E)], E' as [E'|(K2 & E')]; rewrite E in E'; try discriminate; now injection E').
    rewrite H in H'. injection H' as <-. replace (l + qz (2 * Z.of_nat 0) * eps)%Qc with l; [apply Qcle_refl|]. change (qz (2 * Z.of_nat 0)) with 0%Qc. ring.
  - rewrite Nat.add_succ_r in S'. inversion S' as [|i' K1 v1 x1 K2 S1 E1]; subst.
    destruct (HW _ _ S1) as (O1 & A1 & C1). destruct (HW _ _ S') as (O2 & A2 & _).
    pose proof (search_tall _ _ _ _ _ _ _ _ HQ SA T Hn S1) as T1. pose proof (search_tall _ _ _ _ _ _ _ _ HQ SA T Hn S') as T2.
    assert (H1 : exists l1, lowest_value (dav_step N A nb tol dim_max K1) l1).
    { destruct (step_lowest _ _ _ _ _ _ _ _ SA T1 O1 Hnb A1 E1) as (v2 & x2 & l1 & _ & E2 & N2 & _). exists l1, v2, x2. rewrite E1. split; [|exact N2].
      destruct E2 as [->|(K2 & ->)]; [now left | right; now exists K2]. }
    destruct H1 as (l1 & H1). specialize (IH _ _ _ _ S0 S1 Hl H1).
    pose proof (step_lower _ _ _ _ _ _ _ _ _ _ _ _ SA T1 T2 O1 O2 Hnb A1 A2 E1 (C1 _ _ _ E1) H1 Hl') as St.
    eapply Qcle_trans; [exact St|]. replace (l + qz (2 * Z.of_nat (S j)) * eps)%Qc with ((l + qz (2 * Z.of_nat j) * eps) + qz 2 * eps)%Qc.
    + apply Qcplus_le_compat; [exact IH | apply Qcle_refl].
    + replace (2 * Z.of_nat (S j)) with (2 * Z.of_nat j + 2) by lia. rewrite qz_add. ring.
Qed.

(** a weighted mean is between its terms *)
Lemma mean_above : forall T (w m : T -> Qc) es, (forall p, In p es -> (0 <= w p)%Qc) -> qsum w es = 1%Qc ->
  exists p, In p es /\ (m p <= qsum (fun p => m p * w p)%Qc es)%Qc.
Proof.
  intros T w m es Hw U. set (t := qsum (fun p => m p * w p)%Qc es).
  destruct (existsb (fun p => qleb (m p) t) es) eqn:Q.
  - apply existsb_exists in Q. destruct Q as (p & I & Q). exists p. split; [assumption | now apply qleb_le].
  - exfalso.
    assert (F : forall p, In p es -> (t < m p)%Qc).
    { intros p Hp. apply Qcnot_le_lt. intros L. rewrite <- qleb_le in L. rewrite <- not_true_iff_false in Q. apply Q. apply existsb_exists. eauto. }
    assert (Z0 : (qsum (fun p => (m p - t) * w p)%Qc es <= 0)%Qc).
    { replace (qsum _ es) with (t - t * qsum w es)%Qc; [rewrite U; replace (t - t * 1)%Qc with 0%Qc by ring; apply Qcle_refl|].
      unfold t at 1. rewrite <- qsum_scale. unfold Qcminus at 1. rewrite <- qsum_opp, <- qsum_add. apply qsum_ext. intros; ring. }
    assert (Zw : forall p, In p es -> w p = 0%Qc).
    { intros p Hp. pose proof (qsum_nonneg_zero _ _ es (fun p Hp => Qcmult_nonneg _ _ (Qclt_le_weak _ _ (proj1 (Qclt_minus_iff _ _) (F p Hp))) (Hw p Hp)) Z0 p Hp) as Q0.
      cbv beta in Q0. apply Qcmult_integral in Q0. destruct Q0 as [Q0|Q0]; [|assumption]. specialize (F p Hp). exfalso.
      change (m p - t = 0)%Qc in Q0. replace (m p) with ((m p - t) + t)%Qc in F by ring. rewrite Q0, Qcplus_0_l in F. now apply Qclt_not_eq in F. }
    rewrite (qsum_zero _ _ es Zw) in U. discriminate U.
Qed.
Lemma mean_below : forall T (w m : T -> Qc) es, (forall p, In p es -> (0 <= w p)%Qc) -> qsum w es = 1%Qc ->
  exists p, In p es /\ (qsum (fun p => m p * w p)%Qc es <= m p)%Qc.
Proof.
  intros T w m es Hw U. destruct (mean_above T w (fun p => - m p)%Qc es Hw U) as (p & I & L). exists p. split; [assumption|].
  rewrite (qsum_ext _ _ (fun p => - (m p * w p))%Qc) in L by (intros; ring). rewrite qsum_opp in L. qc.
Qed.

(** the mean of a matrix over its levels *)
Lemma mean_spectrum : forall A es x, square A -> symmetric A -> spectrum A es -> length x = length A ->
  mean A x = qsum (fun p => fst p * (inner x (snd p) * inner x (snd p)))%Qc es.
Proof.
  intros A es x SA SY [Hes Hres] Lx.
  (* 4 <x, A x> = |x + A x|^2 - |x - A x|^2 = 2 (<x,Ax> + <Ax,x>) *)
  assert (R : forall l, inner (residual A l x) (residual A l x) = (inner (image A x) (image A x) - (l + l) * mean A x + l * l * inner x x)%Qc).
  { intros l. unfold mean, inner. rewrite residual_length, image_length, Lx.
    rewrite <- !qsum_scale. unfold Qcminus. rewrite <- qsum_opp, <- !qsum_add. apply qsum_ext. intros k Hk. apply in_seq in Hk.
    replace (nth k (residual A l x) 0%Qc) with (l * nth k x 0 - nth k (image A x) 0)%Qc; [ring|].
    unfold residual. rewrite nth_map_seq, image_nth by lia. reflexivity. }
  assert (S1 : forall l, inner (residual A l x) (residual A l x) = qsum (fun p => (fst p - l) * (fst p - l) * (inner x (snd p) * inner x (snd p)))%Qc es).
  { intros l. rewrite Hres by apply residual_length. apply qsum_ext. intros [m e] Hp. cbn [fst snd]. destruct (Hes m e Hp) as [Le Re].
    rewrite (residual_inner A l m x e) by assumption. ring. }
  assert (E1 : (inner (residual A 1 x) (residual A 1 x) - inner (residual A (-(1)) x) (residual A (-(1)) x) = - (qz 4 * mean A x))%Qc).
  { rewrite !R. replace (qz 4) with (1 + 1 + 1 + 1)%Qc by (apply Qc_is_canon; reflexivity). ring. }
  assert (E2 : (inner (residual A 1 x) (residual A 1 x) - inner (residual A (-(1)) x) (residual A (-(1)) x) = - (qz 4 * qsum (fun p => fst p * (inner x (snd p) * inner x (snd p))) es))%Qc).
  { rewrite !S1. rewrite <- qsum_scale, <- qsum_opp. unfold Qcminus at 1. rewrite <- qsum_opp, <- qsum_add. apply qsum_ext. intros p _.
    replace (qz 4) with (1 + 1 + 1 + 1)%Qc by (apply Qc_is_canon; reflexivity). ring. }
  rewrite E1 in E2. assert (N4 : qz 4 <> 0%Qc) by apply qz_pos_neq.
  assert (E3 : (qz 4 * mean A x = qz 4 * qsum (fun p => fst p * (inner x (snd p) * inner x (snd p))) es)%Qc).
  { rewrite <- (Qcopp_involutive (qz 4 * mean A x)), E2. ring. }
  apply (f_equal (fun q => / qz 4 * q)%Qc) in E3. rewrite !Qcmult_assoc, !(Qcmult_comm (/ qz 4)), Qcmult_inv_r, !Qcmult_1_l in E3 by assumption. exact E3.
Qed.

(** every pair of an iteration *)
Lemma step_pairs : forall N A nb tol dim_max K eps out vals vects, square A -> tall (length A) K -> orthonormal K -> 1 <= nb ->
  accurate eps (projected A K) (eigh N (projected A K)) -> dav_step N A nb tol dim_max K = Ok out ->
  (out = Converged vals vects \/ exists K', out = Continue vals vects K') ->
  forall k l, nth_error vals k = Some l -> exists x, nth_error vects k = Some x /\
    length x = length A /\ inner x x = 1%Qc /\ (mean A x <= l + eps)%Qc /\ (l <= mean A x + eps)%Qc.
Proof.
  intros N A nb tol dim_max K eps out vals vects SA T O Hnb (L1 & L2 & P & _) H Ho k l Hk.
  assert (LP : length (projected A K) = length K) by (unfold projected; apply map_length). rewrite LP in *.
  destruct (C47_iteration_pf N A nb tol dim_max K SA T ltac:(lia) ltac:(lia)) as (idx & S0 & Li & E). rewrite E in H. clear E.
  destruct (Z.ltb_spec (Z.of_nat (length (fst (eigh N (projected A K))))) nb) as [|G]; [discriminate|]. cbv zeta in H.
  set (vals0 := fst (eigh N (projected A K))) in *. set (ys0 := snd (eigh N (projected A K))) in *.
  assert (E : vals = map (fun i => nth i vals0 0%Qc) idx /\ vects = map (fun i => blend (length A) K (nth i ys0 [])) idx).
  { destruct (forallb _ _).
    - injection H as <-. destruct Ho as [Ho|(K' & Ho)]; [|discriminate]. injection Ho as <- <-. auto.
    - destruct (existsb _ _); [discriminate|]. injection H as <-. destruct Ho as [Ho|(K' & Ho)]; [discriminate|]. injection Ho as <- <- <-. auto. }
  destruct E as [-> ->]. rewrite nth_error_map in Hk |- *. destruct (nth_error idx k) as [i|] eqn:Ei; [|discriminate]. cbn [option_map] in Hk |- *.
  injection Hk as <-. eexists. split; [reflexivity|]. destruct S0 as (_ & B & _). specialize (B i (nth_error_In _ _ Ei)).
  destruct (P i ltac:(lia)) as (Ly & Uy & P1 & P2). rewrite mean_projected in P1, P2 by assumption.
  split; [apply blend_length|]. split; [rewrite unit_blend by assumption; exact Uy | auto].
Qed.

(** from the first basis to the last one *)
Lemma lowest_bound : forall N A nb tol dim_max K0 eps, qr_shape N -> square A -> tall (length A) K0 -> 1 <= nb -> well_behaved N A nb tol dim_max K0 eps ->
  forall g, combination (length A) K0 g -> inner g g = 1%Qc ->
  forall i K, search_space N A nb tol dim_max K0 i K -> forall l, lowest_value (dav_step N A nb tol dim_max K) l -> (l <= mean A g + qz (2 * Z.of_nat i + 1) * eps)%Qc.
Proof.
  intros N A nb tol dim_max K0 eps HQ SA T Hnb HW g Cg Ug i K S0. assert (Hn : 0 <= nb) by lia. induction S0 as [|i K1 v1 x1 K2 S1 IH E1]; intros l Hl.
  - destruct (HW _ _ (search_first _ _ _ _ _ _)) as (O & AC & _). assert (E : exists out, dav_step N A nb tol dim_max K0 = Ok out) by (destruct Hl as (v & x & [->|(K & ->)] & _); eauto).
    destruct E as (out & E). destruct (step_lowest _ _ _ _ _ _ _ _ SA T O Hnb AC E) as (v1 & x1 & l1 & x & E1 & N1 & _ & _ & _ & _ & _ & G).
    rewrite E in Hl. pose proof (lowest_is _ _ _ _ Hl E1) as Q. rewrite N1 in Q. injection Q as ->.
    change (qz (2 * Z.of_nat 0 + 1)) with (qz 1). rewrite qz_1, Qcmult_1_l. now apply G.
  - assert (S2 : search_space N A nb tol dim_max K0 (S i) K2) by (eapply search_next; eassumption).
    destruct (HW _ _ S1) as (O1 & A1 & C1). destruct (HW _ _ S2) as (O2 & A2 & _).
    pose proof (search_tall _ _ _ _ _ _ _ _ HQ SA T Hn S1) as T1. pose proof (search_tall _ _ _ _ _ _ _ _ HQ SA T Hn S2) as T2.
    assert (H1 : exists l1, lowest_value (dav_step N A nb tol dim_max K1) l1).
    { destruct (step_lowest _ _ _ _ _ _ _ _ SA T1 O1 Hnb A1 E1) as (v2 & x2 & l1 & _ & E2 & N2 & _). exists l1, v2, x2. rewrite E1. split; [|exact N2].
      destruct E2 as [->|(K3 & ->)]; [now left | right; now exists K3]. }
    destruct H1 as (l1 & H1). specialize (IH l1 H1).
    pose proof (step_lower _ _ _ _ _ _ _ _ _ _ _ _ SA T1 T2 O1 O2 Hnb A1 A2 E1 (C1 _ _ _ E1) H1 Hl) as St.
    eapply Qcle_trans; [exact St|]. replace (mean A g + qz (2 * Z.of_nat (S i) + 1) * eps)%Qc with ((mean A g + qz (2 * Z.of_nat i + 1) * eps) + qz 2 * eps)%Qc.
    + apply Qcplus_le_compat; [exact IH | apply Qcle_refl].
    + replace (2 * Z.of_nat (S i) + 1) with (2 * Z.of_nat i + 1 + 2) by lia. rewrite (qz_add _ 2). ring.
Qed.

Lemma C87_bounds_pf : forall N A nb guess stp tol dim_max eps found vals vects,
  let dm := if dim_max =? 0 then Z.of_nat (length A) else dim_max in
  let K0 := dav_first N A (Z.min nb dm) guess in
  qr_shape N -> square A -> tall (length A) K0 -> 1 <= nb -> 1 <= dm -> well_behaved N A (Z.min nb dm) tol dm K0 eps ->
  modified_davidson_algorithm N A nb guess stp tol dim_max = Ok (found, vals, vects) ->
  (exists i l, 0 <= i < stp /\ nth_error vals 0 = Some l /\
    forall g, combination (length A) K0 g -> inner g g = 1%Qc -> (l <= mean A g + qz (2 * i + 1) * eps)%Qc) /\
  (forall es k l, symmetric A -> spectrum A es -> nth_error vals k = Some l ->
    (exists m e, In (m, e) es /\ (m <= l + eps)%Qc) /\ exists m e, In (m, e) es /\ (l <= m + eps)%Qc).
Proof.
  intros N A nb guess stp tol dim_max eps found vals vects dm K0 HQ SA T Hnb Hdm HW H.
  assert (Hn : 1 <= Z.min nb dm) by lia. assert (Hn0 : 0 <= Z.min nb dm) by lia.
  destruct (C47_budget_pf _ _ _ _ _ _ _ _ _ _ H) as (i & K & S0 & F1 & F2). fold dm in S0, F1, F2. fold K0 in S0.
  assert (E : Z.of_nat i < stp /\ exists out, dav_step N A (Z.min nb dm) tol dm K = Ok out /\ (out = Converged vals vects \/ exists K', out = Continue vals vects K')).
  { destruct found.
    - destruct (F1 eq_refl) as [B E]. split; [assumption|]. eexists. split; [exact E | now left].
    - destruct (F2 eq_refl) as [B (K' & E)]. split; [lia|]. eexists. split; [exact E | right; now exists K']. }
  clear F1 F2. destruct E as (B & out & E & Ho).
  pose proof (search_tall _ _ _ _ _ _ _ _ HQ SA T Hn0 S0) as TK. destruct (HW _ _ S0) as (O & AC & _). split.
  - destruct (step_lowest _ _ _ _ _ _ _ _ SA TK O Hn AC E) as (v1 & x1 & l & x & E1 & N1 & _ & _ & _ & _ & _ & G).
    destruct (parts_same _ _ _ _ _ E1 Ho) as [-> ->]. exists (Z.of_nat i), l. split; [lia|]. split; [assumption|]. intros g Cg Ug.
    apply (lowest_bound _ _ _ _ _ _ _ HQ SA T Hn HW g Cg Ug i K S0). exists vals, vects. split; [|assumption].
    rewrite E. destruct Ho as [->|(K' & ->)]; [now left | right; now exists K'].
  - intros es k l SY SP Hk.
    destruct (step_pairs _ _ _ _ _ _ _ _ _ _ SA TK O Hn AC E Ho k l Hk) as (x & _ & L & U & M1 & M2).
    rewrite (mean_spectrum A es x SA SY SP L) in M1, M2. pose proof (proj2 SP x L) as P. rewrite U in P. symmetry in P.
    assert (NN : forall p, In p es -> (0 <= inner x (snd p) * inner x (snd p))%Qc) by (intros; apply PBound.square_nonneg). split.
    + destruct (mean_above _ _ fst es NN P) as ([m e] & I & Q). exists m, e. split; [assumption|]. eapply Qcle_trans; [exact Q | exact M1].
    + destruct (mean_below _ _ fst es NN P) as ([m e] & I & Q). exists m, e. split; [assumption|]. eapply Qcle_trans; [exact M2|].
      apply Qcplus_le_compat; [exact Q | apply Qcle_refl].
Qed.

(** the diagonal of a diagonal matrix diagonalises it *)
Lemma diagonal_accurate : forall R, square R -> (forall i j, (i < length R)%nat -> (j < length R)%nat -> i <> j -> nth j (nth i R []) 0%Qc = 0%Qc) ->
  accurate 0 R (eigh ex_numerics R).
Proof.
  intros R SR D. cbn [ex_numerics eigh]. assert (LD : length (mat_diagonal R) = length R) by apply mat_diagonal_length.
  assert (ND : forall k, (k < length R)%nat -> nth k (mat_diagonal R) 0%Qc = nth k (nth k R []) 0%Qc) by (intros k Hk; rewrite mat_diagonal_seq, nth_map_seq by assumption; reflexivity).
  assert (M : forall y, length y = length R -> inner y (image R y) = qsum (fun k => nth k (mat_diagonal R) 0 * (nth k y 0 * nth k y 0))%Qc (seq 0 (length R))).
  { intros y Ly. unfold inner at 1. rewrite Ly. apply qsum_ext. intros k Hk. apply in_seq in Hk. rewrite image_nth by lia. unfold inner. rewrite (row_length R k SR) by lia.
    rewrite (qsum_ext _ _ (fun j => if Nat.eqb k j then nth j (nth k R []) 0 * nth j y 0 else 0)%Qc).
    - rewrite qsum_delta by lia. rewrite ND by lia. ring.
    - intros j Hj. apply in_seq in Hj. destruct (Nat.eqb_spec k j) as [|Q]; [reflexivity|]. rewrite D by lia. ring. }
  split; [assumption|]. split; [cbn [snd]; unfold identity_cols; now rewrite map_length, seq_length|]. cbn [fst snd]. split.
  - intros k Hk. rewrite identity_nth by assumption. cbv zeta. rewrite unit_length, unit_inner, Nat.eqb_refl by assumption. split; [reflexivity|]. split; [reflexivity|].
    rewrite M by apply unit_length. rewrite (qsum_ext _ _ (fun j => if Nat.eqb k j then nth j (mat_diagonal R) 0 else 0)%Qc).
    + rewrite qsum_delta by assumption. rewrite Qcplus_0_r. split; apply Qcle_refl.
    + intros j Hj. apply in_seq in Hj. rewrite unit_nth by lia. rewrite Nat.eqb_sym. destruct (Nat.eqb k j); ring.
  - intros y Ly Uy. rewrite M by assumption. assert (U : qsum (fun k => nth k y 0 * nth k y 0)%Qc (seq 0 (length R)) = 1%Qc) by (rewrite <- Uy; unfold inner; now rewrite Ly).
    destruct (mean_above _ _ (fun k => nth k (mat_diagonal R) 0%Qc) _ (fun k _ => PBound.square_nonneg (nth k y 0%Qc)) U) as (k & I & L). apply in_seq in I.
    exists k. split; [lia|]. rewrite Qcplus_0_r. exact L.
Qed.

Definition ex_tol : Qc := qfrac 1 1000.
Lemma ex_projected : projected ex_A4 ex_K4 = [[qz 16; qz 0]; [qz 0; qz 33]].
Proof. apply sameqm_eq. vm_compute. reflexivity. Qed.
Definition ex_second (r : res dav_out) : bool := match r with Ok (Continue v x K) => sameql v [qz 16; qz 33] && sameqm K (identity_cols 4 4) && forallb (fun x => Nat.eqb (length x) 4) x | _ => false end.
Lemma ex_step0 : ex_second (dav_step ex_numerics ex_A4 2 ex_tol 4 ex_K4) = true.
Proof. vm_compute. reflexivity. Qed.
Definition ex_found (r : res dav_out) : bool := match r with Ok (Converged v x) => sameql v [qz 0; qz 1] && sameqm x [unit_vect 4 0; unit_vect 4 2] | _ => false end.
Lemma ex_step1 : ex_found (dav_step ex_numerics ex_A4 2 ex_tol 4 (identity_cols 4 4)) = true.
Proof. vm_compute. reflexivity. Qed.

Lemma ex_well_behaved : well_behaved ex_numerics ex_A4 2 ex_tol 4 ex_K4 0.
Proof.
  assert (R : forall i K, search_space ex_numerics ex_A4 2 ex_tol 4 ex_K4 i K -> (i = 0%nat /\ K = ex_K4) \/ (i = 1%nat /\ K = identity_cols 4 4)).
  { intros i K S0. induction S0 as [|i K v x K' S0 IH E]; [now left|]. destruct IH as [[-> ->]|[-> ->]].
    - pose proof ex_step0 as Q. rewrite E in Q. cbn [ex_second] in Q. apply andb_prop in Q. destruct Q as [Q _]. apply andb_prop in Q. destruct Q as [_ Q]. apply sameqm_eq in Q. right. split; [reflexivity | exact Q].
    - pose proof ex_step1 as Q. rewrite E in Q. discriminate Q. }
  intros i K S0. destruct (R i K S0) as [[-> ->]|[-> ->]].
  - split; [apply orthonormalb_ok; vm_compute; reflexivity|]. split.
    + rewrite ex_projected. apply diagonal_accurate; [repeat constructor|]. cbn [length]. intros [|[|i]] [|[|j]] Hi Hj Hn; try lia; apply Qc_is_canon; vm_compute; reflexivity.
    + intros vals vects K' E x Hx. pose proof ex_step0 as Q. rewrite E in Q. cbn [ex_second] in Q. apply andb_prop in Q. destruct Q as [Q Q2]. apply andb_prop in Q. destruct Q as [_ Q].
      apply sameqm_eq in Q. subst K'. rewrite forallb_forall in Q2. specialize (Q2 x Hx). apply Nat.eqb_eq in Q2. change (length ex_A4) with 4%nat. exists x. split; [exact Q2|].
      destruct x as [|a [|b [|c [|d [|]]]]]; try discriminate Q2. clear.
      apply nth_ext with (d := 0%Qc) (d' := 0%Qc); [reflexivity|]. intros k Hk. cbn [length] in Hk. unfold blend. rewrite nth_map_seq by exact Hk.
      change (length (identity_cols 4 4)) with 4%nat. rewrite (qsum_ext _ _ (fun j => if Nat.eqb k j then nth j [a; b; c; d] 0 else 0)%Qc); [rewrite qsum_delta by assumption; reflexivity|].
      intros j Hj. apply in_seq in Hj. rewrite identity_nth by lia. rewrite unit_nth by assumption. destruct (Nat.eqb k j); ring.
  - assert (P : projected ex_A4 (identity_cols 4 4) = ex_A4) by (apply sameqm_eq; vm_compute; reflexivity). split; [apply orthonormalb_ok; vm_compute; reflexivity|]. split.
    + rewrite P. apply diagonal_accurate; [repeat constructor|]. change (length ex_A4) with 4%nat. intros [|[|[|[|i]]]] [|[|[|[|j]]]] Hi Hj Hn; try lia; apply Qc_is_canon; vm_compute; reflexivity.
    + intros vals vects K' E. pose proof ex_step1 as Q. rewrite E in Q. discriminate Q.
Qed.

Definition ex_levels : list (Qc * list Qc) := [(0%Qc, unit_vect 4 0); (qz 25, unit_vect 4 1); (qz 1, unit_vect 4 2); (qz 51, unit_vect 4 3)].
Lemma ex_spectrum : spectrum ex_A4 ex_levels.
Proof.
  split.
  - intros l e [Q|[Q|[Q|[Q|[]]]]]; injection Q as <- <-; (split; [reflexivity|]); apply sameql_eq; vm_compute; reflexivity.
  - intros x Lx. change (length ex_A4) with 4%nat in Lx. destruct x as [|a [|b [|c [|d [|]]]]]; try discriminate Lx.
    unfold ex_levels, inner. cbn [length seq qsum fold_right map snd nth unit_vect Nat.eqb]. ring.
Qed.
