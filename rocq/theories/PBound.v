(** Sums of squares and the spectrum of S^2 on a sector. *)
From Coq Require Import ZArith List Bool Lia Permutation QArith Qcanon.
From Verif Require Import PyBase PyFacts Interact Spec SpecOps SpecTJ SpecSpin PBasis PSites PRot PInter PSpin POps PHam PWave PSecSum PSpinOp.
Import ListNotations.
Open Scope Z_scope.

Lemma qz_inj : forall a b, qz a = qz b -> a = b.
Proof. intros a b H. unfold qz in H. apply Q2Qc_eq_iff in H. unfold Qeq in H. cbn in H. lia. Qed.

Lemma qz_sub : forall a b, qz (a - b) = (qz a - qz b)%Qc.
Proof. intros a b. replace (qz a) with (qz (a - b + b)) by (f_equal; lia). rewrite qz_add. ring. Qed.

Lemma Qcle_eq : forall x y : Qc, x = y -> (x <= y)%Qc.
Proof. intros x y ->. apply Qcle_refl. Qed.

Lemma num_put : forall n t i q p, 0 <= i < n ->
  num n (put i q t) p = (num n t p + only (samep q p) 1 - only (samep (t i) p) 1)%Qc.
Proof.
  intros n t i q p Hi. unfold num.
  transitivity (sum_sites n (fun j => only (samep (t j) p) 1%Qc) + sum_sites n (fun j => only (j =? i) (only (samep q p) 1 - only (samep (t i) p) 1)%Qc))%Qc.
  - rewrite <- sum_sites_add. apply sum_sites_ext. intros j Hj. unfold put. destruct (Z.eqb_spec j i) as [->|]; cbn [only]; ring.
  - rewrite sum_delta by assumption. ring.
Qed.

Lemma sector_num : forall n h b s, in_sector n h b s <-> num n s Hole = qz h /\ num n s Down = qz b.
Proof.
  intros n h b s. unfold in_sector. rewrite !num_sites. split.
  - intros [<- <-]. split; reflexivity.
  - intros [A B]. apply qz_inj in A, B. split; assumption.
Qed.

Lemma put_up_sector : forall n h b s i, 0 <= i < n -> s i = Down -> in_sector n h b s -> in_sector n h (b - 1) (put i Up s).
Proof.
  intros n h b s i Hi Q S. apply sector_num in S. destruct S as [A B]. apply sector_num. rewrite !num_put, Q, A, B by assumption. cbn. rewrite qz_sub. split; [ring|]. replace (qz 1) with 1%Qc by reflexivity. ring.
Qed.
Lemma put_down_sector : forall n h b s i, 0 <= i < n -> s i = Up -> in_sector n h b s -> in_sector n h (b + 1) (put i Down s).
Proof.
  intros n h b s i Hi Q S. apply sector_num in S. destruct S as [A B]. apply sector_num. rewrite !num_put, Q, A, B by assumption. cbn. rewrite qz_add. split; [ring|]. replace (qz 1) with 1%Qc by reflexivity. ring.
Qed.

Lemma square_nonneg : forall x : Qc, (0 <= x * x)%Qc.
Proof.
  intros x. destruct (Qclt_le_dec x 0) as [L|L].
  - replace (x * x)%Qc with ((- x) * (- x))%Qc by ring. rewrite <- (Qcmult_0_l (- x)). apply Qcmult_le_compat_r.
    + rewrite <- (Qcplus_opp_r x). rewrite <- (Qcplus_0_l (- x)) at 2. apply Qcplus_le_compat; [now apply Qclt_le_weak | apply Qcle_refl].
    + rewrite <- (Qcplus_opp_r x). rewrite <- (Qcplus_0_l (- x)) at 2. apply Qcplus_le_compat; [now apply Qclt_le_weak | apply Qcle_refl].
  - rewrite <- (Qcmult_0_l x). now apply Qcmult_le_compat_r.
Qed.

(** [S-S+] and [S+S-] are sums of squares *)
Lemma ladder_square : forall n h b b' p q psi, 0 <= n -> 0 <= h -> 0 <= b -> 0 <= b' -> p <> q -> on_lattice n psi ->
  (forall i s, 0 <= i < n -> s i = q -> in_sector n h b s -> in_sector n h b' (put i p s)) ->
  (forall i s, 0 <= i < n -> s i = p -> in_sector n h b' s -> in_sector n h b (put i q s)) ->
  ssum n h b (fun t => (psi t * ladder n q p (ladder n p q psi) t)%Qc) =
  ssum n h b' (fun u => (ladder n p q psi u * ladder n p q psi u)%Qc).
Proof.
  intros n h b b' p q psi Hn Hh Hb Hb' Npq O F1 F2. set (X := ladder n p q psi).
  assert (OX : on_lattice n X) by (now apply ladder_on).
  transitivity (sum_sites n (fun i => ssum n h b (fun t => only (samep (t i) q) (psi t * X (put i p t))%Qc))).
  - rewrite <- ssum_sites. apply ssum_ext; try assumption. intros s _. unfold ladder at 1. rewrite <- sum_sites_scale.
    apply sum_sites_ext. intros i _. destruct (samep (s i) q); cbn [only]; ring.
  - transitivity (sum_sites n (fun i => ssum n h b' (fun u => only (samep (u i) p) (psi (put i q u) * X u)%Qc))).
    + apply sum_sites_ext. intros i Hi.
      assert (PP : forall r r' s, s i = r -> same_state n (put i r (put i r' s)) s).
      { intros r r' s Q x Hx. unfold put. destruct (Z.eqb_spec x i); congruence. }
      rewrite (ssum_move n h b h b' (put i p) (put i q) (fun s => samep (s i) q) (fun s => samep (s i) p) (fun t => (psi t * X (put i p t))%Qc)); try assumption.
      * apply ssum_ext; try assumption. intros s _. destruct (samep (s i) p) eqn:Q; [|reflexivity]. apply samep_iff in Q. cbn [only]. f_equal.
        apply OX. now apply PP.
      * intros; now apply put_same.
      * intros; now apply put_same.
      * intros s t H. now rewrite (H i Hi).
      * intros s t H. now rewrite (H i Hi).
      * intros s t H. f_equal; [now apply O | apply OX; now apply put_same].
      * intros s S Q. apply samep_iff in Q. split; [now apply F1|]. split; [apply samep_iff; unfold put; now rewrite Z.eqb_refl | now apply PP].
      * intros s S Q. apply samep_iff in Q. split; [now apply F2|]. split; [apply samep_iff; unfold put; now rewrite Z.eqb_refl | now apply PP].
    + rewrite <- ssum_sites. apply ssum_ext; try assumption. intros u _. unfold X at 3. unfold ladder at 1. rewrite <- sum_sites_scale.
      apply sum_sites_ext. intros i _. destruct (samep (u i) p); cbn [only]; ring.
Qed.

Lemma num_partition : forall n t, 0 <= n -> (num n t Hole + num n t Down + num n t Up = qz n)%Qc.
Proof.
  intros n t Hn. rewrite !num_sites. pose proof (sites_partition n t Hn) as Q. rewrite <- !qz_add. f_equal. lia.
Qed.

Section Bounds.
Variables n h b : Z.
Hypothesis Hn : 0 <= n.
Hypothesis Hh : 0 <= h.
Hypothesis Hb : 0 <= b.
Hypothesis Ha : 0 <= n - h - b.

Lemma swap_sec : forall s i j, 0 <= i < n -> 0 <= j < n -> in_sector n h b s -> in_sector n h b (swap_state i j s).
Proof. intros s i j Hi Hj S. eapply describes_sector. apply (swap_describes _ _ _ (canon n s)); try assumption. now apply canon_describes. Qed.

Lemma swap_swap : forall i j s x, swap_state i j (swap_state i j s) x = s x.
Proof.
  intros i j s x. unfold swap_state. rewrite !Z.eqb_refl. destruct (Z.eqb_spec x i), (Z.eqb_spec x j), (Z.eqb_spec j i); subst; congruence.
Qed.
Lemma swap_ext : forall i j s t, 0 <= i < n -> 0 <= j < n -> same_state n s t -> same_state n (swap_state i j s) (swap_state i j t).
Proof. intros i j s t Hi Hj H x Hx. unfold swap_state. destruct (x =? i); [now apply H|]. destruct (x =? j); now apply H. Qed.
Lemma swap_1 : forall i j s, swap_state i j s i = s j.
Proof. intros. unfold swap_state. now rewrite Z.eqb_refl. Qed.
Lemma swap_2 : forall i j s, swap_state i j s j = s i.
Proof. intros. unfold swap_state. destruct (Z.eqb_spec j i) as [->|]; [reflexivity|]. now rewrite Z.eqb_refl. Qed.

Lemma sum_swapped : forall i j p q G, 0 <= i < n -> 0 <= j < n -> on_lattice n G ->
  ssum n h b (fun t => only (samep (t i) p && samep (t j) q) (G t)) =
  ssum n h b (fun t => only (samep (t i) q && samep (t j) p) (G (swap_state i j t))).
Proof.
  intros i j p q G Hi Hj O.
  apply (ssum_move n h b h b (swap_state i j) (swap_state i j) (fun t => samep (t i) p && samep (t j) q) (fun t => samep (t i) q && samep (t j) p)); try assumption.
  - intros; now apply swap_ext.
  - intros; now apply swap_ext.
  - intros s t H. now rewrite (H i Hi), (H j Hj).
  - intros s t H. now rewrite (H i Hi), (H j Hj).
  - intros s S Q. split; [now apply swap_sec|]. rewrite swap_1, swap_2, andb_comm. split; [assumption | intros x _; apply swap_swap].
  - intros s S Q. split; [now apply swap_sec|]. rewrite swap_1, swap_2, andb_comm. split; [assumption | intros x _; apply swap_swap].
Qed.

Lemma sum_num : forall t, sum_sites n (fun i => sum_sites n (fun j => only (samep (t i) Up && samep (t j) Down) 1%Qc)) = (num n t Up * num n t Down)%Qc.
Proof.
  intros t. unfold num at 2. rewrite <- sum_sites_scale. rewrite sum_swap. apply sum_sites_ext. intros j _. unfold num.
  rewrite Qcmult_comm, <- sum_sites_scale. apply sum_sites_ext. intros i _. destruct (samep (t i) Up), (samep (t j) Down); cbn [only andb]; ring.
Qed.

Lemma flips_form : forall psi phi, ssum n h b (fun t => (psi t * flips n phi t)%Qc) =
  sum_sites n (fun i => sum_sites n (fun j => ssum n h b (fun t => only (samep (t i) Up && samep (t j) Down) (psi t * phi (swap_state i j t))%Qc))).
Proof.
  intros psi phi. 
  transitivity (ssum n h b (fun t => sum_sites n (fun i => sum_sites n (fun j => only (samep (t i) Up && samep (t j) Down) (psi t * phi (swap_state i j t))%Qc)))).
  - apply ssum_ext; try assumption. intros s _. unfold flips. rewrite <- sum_sites_scale. apply sum_sites_ext. intros i _. rewrite <- sum_sites_scale.
    apply sum_sites_ext. intros j _. destruct (_ && _); cbn [only]; ring.
  - rewrite ssum_sites. apply sum_sites_ext. intros i _. now rewrite ssum_sites.
Qed.

Lemma flips_sym : forall psi phi, on_lattice n psi -> on_lattice n phi ->
  ssum n h b (fun t => (psi t * flips n phi t)%Qc) = ssum n h b (fun t => (phi t * flips n psi t)%Qc).
Proof.
  intros psi phi O1 O2. rewrite !flips_form. rewrite (sum_swap n (fun i j => ssum n h b (fun t => only (samep (t i) Up && samep (t j) Down) (phi t * psi (swap_state i j t))%Qc))).
  apply sum_sites_ext. intros i Hi. apply sum_sites_ext. intros j Hj.
  rewrite (sum_swapped i j Up Down (fun t => psi t * phi (swap_state i j t))%Qc) by (first [assumption | intros s t H; rewrite (O1 s t H); f_equal; apply O2; now apply swap_ext]).
  apply ssum_ext; try assumption. intros s _. rewrite andb_comm. destruct (_ && _); [|reflexivity]. cbn [only].
  rewrite Qcmult_comm. f_equal; [|apply O1; intros x _; apply swap_sym]. apply O2. intros x _. apply swap_swap.
Qed.

Lemma num_of : forall t, in_sector n h b t -> num n t Up = qz (n - h - b) /\ num n t Down = qz b.
Proof.
  intros t S. apply sector_num in S. destruct S as [A B]. split; [|assumption]. pose proof (num_partition n t Hn) as Q. rewrite A, B in Q.
  rewrite !qz_sub. rewrite <- Q. ring.
Qed.

Definition mz : Qc := (half * (qz (n - h - b) - qz b))%Qc.
Definition full : Qc := (half * (qz (n - h - b) + qz b))%Qc.

Lemma squared_sym : forall psi phi, on_lattice n psi -> on_lattice n phi ->
  ssum n h b (fun t => (psi t * S_squared n phi t)%Qc) = ssum n h b (fun t => (phi t * S_squared n psi t)%Qc).
Proof.
  intros psi phi O1 O2.
  assert (G : forall f g, on_lattice n f -> on_lattice n g -> ssum n h b (fun t => (f t * S_squared n g t)%Qc) =
     (ssum n h b (fun t => ((full + mz * mz) * (f t * g t))%Qc) + ssum n h b (fun t => (f t * flips n g t)%Qc))%Qc).
  { intros f g Of Og. rewrite <- ssum_add. apply ssum_ext; try assumption. intros s S. rewrite squared_form by assumption.
    destruct (num_of s S) as [-> ->]. unfold full, mz. ring. }
  rewrite !G, (flips_sym psi phi) by assumption. f_equal. apply ssum_ext; try assumption. intros. ring.
Qed.

Lemma squared_square : forall psi, on_lattice n psi ->
  (0 <= ssum n h b (fun t => (psi t * (S_squared n psi t - mz * (mz + 1) * psi t))%Qc))%Qc /\
  (0 <= ssum n h b (fun t => (psi t * (S_squared n psi t - mz * (mz - 1) * psi t))%Qc))%Qc.
Proof.
  intros psi O.
  assert (H1 : forall t, in_sector n h b t -> (S_squared n psi t - mz * (mz + 1) * psi t = S_minus n (S_plus n psi) t)%Qc).
  { intros t S. rewrite sm_sp, squared_form by assumption. destruct (num_of t S) as [-> ->]. unfold mz.
    set (a := qz (n - h - b)). set (d := qz b). transitivity ((half * (a + d) - half * (a - d)) * psi t + flips n psi t)%Qc; [ring|].
    f_equal. transitivity ((half + half) * d * psi t)%Qc; [ring|]. rewrite half_half. ring. }
  assert (H2 : forall t, in_sector n h b t -> (S_squared n psi t - mz * (mz - 1) * psi t = S_plus n (S_minus n psi) t)%Qc).
  { intros t S. rewrite sp_sm, squared_form by assumption. destruct (num_of t S) as [-> ->]. unfold mz.
    set (a := qz (n - h - b)). set (d := qz b). transitivity ((half * (a + d) + half * (a - d)) * psi t + flips n psi t)%Qc; [ring|].
    f_equal. transitivity ((half + half) * a * psi t)%Qc; [ring|]. rewrite half_half. ring. }
  split.
  - rewrite (ssum_ext n h b Hn Hh Hb _ (fun t => (psi t * S_minus n (S_plus n psi) t)%Qc)) by (intros; now rewrite H1).
    destruct (Z.eq_dec b 0) as [B0|B0].
    + rewrite ssum_zero; try assumption; [apply Qcle_refl|]. intros s S. rewrite sm_sp by assumption. destruct (num_of s S) as [_ Q].
      assert (flips n psi s = 0%Qc) as ->.
      { apply sum_zero. intros i Hi. apply sum_zero. intros j Hj. destruct (samep (s j) Down) eqn:Q'; [|now rewrite andb_false_r].
        exfalso. rewrite num_sites in Q. apply qz_inj in Q. rewrite B0 in Q. apply samep_iff in Q'.
        assert (In j (sites_of n s Down)) by (apply in_sites_of; auto). destruct (sites_of n s Down); [contradiction|]. unfold zlen in Q. cbn [length] in Q. lia. }
      rewrite Q, B0. replace (qz 0) with 0%Qc by reflexivity. ring.
    + replace (ssum n h b (fun t => (psi t * S_minus n (S_plus n psi) t)%Qc)) with (ssum n h (b - 1) (fun u => (S_plus n psi u * S_plus n psi u)%Qc)).
      { apply qsum_nonneg. intros; apply square_nonneg. }
      symmetry. apply (ladder_square n h b (b - 1) Up Down psi); try assumption; try lia; [discriminate| |].
      * intros; now apply put_up_sector.
      * intros i s Hi Q S. replace b with (b - 1 + 1) by lia. now apply put_down_sector.
  - rewrite (ssum_ext n h b Hn Hh Hb _ (fun t => (psi t * S_plus n (S_minus n psi) t)%Qc)) by (intros; now rewrite H2).
    replace (ssum n h b (fun t => (psi t * S_plus n (S_minus n psi) t)%Qc)) with (ssum n h (b + 1) (fun u => (S_minus n psi u * S_minus n psi u)%Qc)).
    { apply qsum_nonneg. intros; apply square_nonneg. }
    symmetry. apply (ladder_square n h b (b + 1) Down Up psi); try assumption; try lia; [discriminate| |].
    + intros; now apply put_down_sector.
    + intros i s Hi Q S. replace b with (b + 1 - 1) by lia. now apply put_up_sector.
Qed.

Lemma squared_upper : forall psi, on_lattice n psi ->
  (ssum n h b (fun t => (psi t * S_squared n psi t)%Qc) <= full * (full + 1) * ssum n h b (fun t => (psi t * psi t)%Qc))%Qc.
Proof.
  intros psi O. set (N2 := ssum n h b (fun t => (psi t * psi t)%Qc)).
  assert (F : (ssum n h b (fun t => (psi t * flips n psi t)%Qc) <= qz (n - h - b) * qz b * N2)%Qc).
  { rewrite flips_form.
    set (A := fun i j => ssum n h b (fun t => only (samep (t i) Up && samep (t j) Down) (psi t * psi t)%Qc)).
    assert (SA : sum_sites n (fun i => sum_sites n (A i)) = (qz (n - h - b) * qz b * N2)%Qc).
    { unfold N2. rewrite <- ssum_scale. transitivity (ssum n h b (fun t => sum_sites n (fun i => sum_sites n (fun j => only (samep (t i) Up && samep (t j) Down) (psi t * psi t)%Qc)))).
      - rewrite ssum_sites. apply sum_sites_ext. intros i _. now rewrite ssum_sites.
      - apply ssum_ext; try assumption. intros s S. destruct (num_of s S) as [<- <-]. rewrite <- sum_num, (Qcmult_comm _ (psi s * psi s)%Qc), <- sum_sites_scale.
        apply sum_sites_ext. intros i _. rewrite <- sum_sites_scale. apply sum_sites_ext. intros j _. destruct (_ && _); cbn [only]; ring. }
    apply Qcle_trans with (sum_sites n (fun i => sum_sites n (fun j => half * (A i j + A j i))%Qc)).
    - apply qsum_le. intros i Hi. apply qsum_le. intros j Hj. apply in_sites in Hi, Hj.
      replace (A j i) with (ssum n h b (fun t => only (samep (t i) Up && samep (t j) Down) (psi (swap_state i j t) * psi (swap_state i j t))%Qc)).
      + unfold A. rewrite <- ssum_add, <- ssum_scale. apply qsum_le. intros d _. destruct (_ && _); cbn [only].
        * set (x := psi (stt h b d)). set (y := psi (swap_state i j (stt h b d))).
          apply Qcle_minus_iff. replace (half * (x * x + y * y) + - (x * y))%Qc with (half * ((x - y) * (x - y)))%Qc.
          { rewrite <- (Qcmult_0_l ((x - y) * (x - y))%Qc). apply Qcmult_le_compat_r; [vm_compute; discriminate | apply square_nonneg]. }
          transitivity (half * (x * x + y * y) + - ((half + half) * (x * y)))%Qc; [ring|]. rewrite half_half. ring.
        * rewrite Qcplus_0_r, Qcmult_0_r. apply Qcle_refl.
      + unfold A. rewrite (sum_swapped i j Up Down (fun t => psi (swap_state i j t) * psi (swap_state i j t))%Qc) by (first [assumption | intros s t H; f_equal; apply O; now apply swap_ext]).
        apply ssum_ext; try assumption. intros s _. rewrite andb_comm. destruct (_ && _); cbn [only]; [|reflexivity]. f_equal; apply O; intros x _; apply swap_swap.
    - rewrite <- SA. apply Qcle_eq. transitivity (half * (sum_sites n (fun i => sum_sites n (A i)) + sum_sites n (fun i => sum_sites n (fun j => A j i))))%Qc.
      + rewrite <- sum_sites_add, <- sum_sites_scale. apply sum_sites_ext. intros i _. rewrite <- sum_sites_add, <- sum_sites_scale. reflexivity.
      + assert (SW : sum_sites n (fun i => sum_sites n (fun j => A j i)) = sum_sites n (fun i => sum_sites n (A i))) by exact (sum_swap n (fun i j => A j i)).
        rewrite SW. transitivity ((half + half) * sum_sites n (fun i => sum_sites n (A i)))%Qc; [ring|]. rewrite half_half. ring. }
  replace (ssum n h b (fun t => (psi t * S_squared n psi t)%Qc)) with ((full + mz * mz) * N2 + ssum n h b (fun t => (psi t * flips n psi t)%Qc))%Qc.
  - replace (full * (full + 1) * N2)%Qc with ((full + mz * mz) * N2 + qz (n - h - b) * qz b * N2)%Qc; [apply Qcplus_le_compat; [apply Qcle_refl | exact F]|].
    unfold full, mz. set (a := qz (n - h - b)). set (d := qz b).
    transitivity ((half * (a + d) + (half * (a + d)) * (half * (a + d))) * N2 + (1 - (half + half) * (half + half)) * (a * d * N2))%Qc; [ring|]. rewrite half_half. ring.
  - unfold N2. rewrite <- ssum_scale, <- ssum_add. apply ssum_ext; try assumption. intros s S. rewrite squared_form by assumption.
    destruct (num_of s S) as [-> ->]. unfold full, mz. ring.
Qed.
End Bounds.
