(** Symmetric matrices whose elements off the diagonal are not positive: lowest states. *)
From Coq Require Import ZArith List Bool QArith Qcanon Lia Relations.
From Verif Require Import PyBase Interact Spec SpecTJ SignDefs PSpin PQc PSecSum PBound PDav FDav.
Import ListNotations.
Open Scope Qc_scope.

Lemma magnitude_nonneg : forall x, 0 <= magnitude x.
Proof. intros x. unfold magnitude. destruct (Qclt_le_dec x 0); [qc | assumption]. Qed.
Lemma magnitude_square : forall x, magnitude x * magnitude x = x * x.
Proof. intros x. unfold magnitude. destruct (Qclt_le_dec x 0); ring. Qed.
Lemma magnitude_cases : forall x, (0 <= x /\ magnitude x = x) \/ (x < 0 /\ magnitude x = - x).
Proof. intros x. unfold magnitude. destruct (Qclt_le_dec x 0); auto. Qed.
Lemma mul_le : forall a b c : Qc, 0 <= c -> a <= b -> a * c <= b * c.
Proof. intros. now apply Qcmult_le_compat_r. Qed.
Lemma magnitude_mul : forall x y, x * y <= magnitude x * magnitude y.
Proof.
  intros x y. destruct (magnitude_cases x) as [[P ->]|[P ->]], (magnitude_cases y) as [[Q ->]|[Q ->]].
  - apply Qcle_refl.
  - assert (H : 0 <= x * (- y)) by (apply Qcmult_nonneg; qc). replace (x * y) with (- (x * - y)) by ring. qc.
  - assert (H : 0 <= (- x) * y) by (apply Qcmult_nonneg; qc). replace (x * y) with (- (- x * y)) by ring. qc.
  - replace (x * y) with (- x * - y) by ring. apply Qcle_refl.
Qed.

Section Perron.
Variable N : nat.
Variable a : nat -> nat -> Qc.
Hypothesis sym : forall i j, (i < N)%nat -> (j < N)%nat -> a i j = a j i.
Hypothesis off : forall i j, (i < N)%nat -> (j < N)%nat -> i <> j -> a i j <= 0.
Definition sumN (f : nat -> Qc) : Qc := qsum f (seq 0 N).
Definition act (v : nat -> Qc) (i : nat) : Qc := sumN (fun j => a i j * v j).
Definition mean_of (v : nat -> Qc) : Qc := sumN (fun i => v i * act v i).
Definition size_of (v : nat -> Qc) : Qc := sumN (fun i => v i * v i).

Lemma sum_ext : forall f g, (forall i, (i < N)%nat -> f i = g i) -> sumN f = sumN g.
Proof. intros f g H. apply qsum_ext. intros i I. apply in_seq in I. apply H. lia. Qed.
Lemma sum_le : forall f g, (forall i, (i < N)%nat -> f i <= g i) -> sumN f <= sumN g.
Proof.
  intros f g H. unfold sumN. assert (G : forall i, In i (seq 0 N) -> f i <= g i) by (intros i I; apply in_seq in I; apply H; lia). clear H.
  induction (seq 0 N) as [|x l IH]; [apply Qcle_refl|]. rewrite !qsum_cons. apply Qcplus_le_compat; [apply G; now left | apply IH; intros; apply G; now right].
Qed.
Lemma sum_scale : forall k f, sumN (fun i => k * f i) = k * sumN f.
Proof. intros. apply qsum_scale. Qed.
Lemma sum_add : forall f g, sumN (fun i => f i + g i) = sumN f + sumN g.
Proof. intros. apply qsum_add. Qed.

Lemma act_lin : forall x y u v i, act (fun j => x * u j + y * v j) i = x * act u i + y * act v i.
Proof. intros. unfold act. rewrite <- !sum_scale, <- sum_add. apply sum_ext. intros; ring. Qed.
Lemma swap_sides : forall u v, sumN (fun i => u i * act v i) = sumN (fun i => v i * act u i).
Proof.
  intros u v. unfold act. transitivity (sumN (fun i => sumN (fun j => u i * a i j * v j))).
  { apply sum_ext. intros i _. rewrite <- sum_scale. apply sum_ext. intros; ring. }
  unfold sumN at 1 2. rewrite qsum_exchange. apply qsum_ext. intros j Hj. apply in_seq in Hj. unfold sumN. rewrite <- qsum_scale. apply qsum_ext. intros i Hi. apply in_seq in Hi.
  rewrite (sym i j) by lia. ring.
Qed.

(** sizes instead of amplitudes *)
Lemma mean_magnitude : forall v, mean_of (fun i => magnitude (v i)) <= mean_of v.
Proof.
  intros v. unfold mean_of, act. apply sum_le. intros i Hi. rewrite <- !sum_scale. apply sum_le. intros j Hj.
  replace (magnitude (v i) * (a i j * magnitude (v j))) with (a i j * (magnitude (v i) * magnitude (v j))) by ring. replace (v i * (a i j * v j)) with (a i j * (v i * v j)) by ring.
  destruct (Nat.eq_dec i j) as [->|D]; [rewrite magnitude_square; apply Qcle_refl|].
  pose proof (off i j Hi Hj D) as O. pose proof (magnitude_mul (v i) (v j)) as M.
  assert (H : 0 <= (- a i j) * (magnitude (v i) * magnitude (v j) - v i * v j)) by (apply Qcmult_nonneg; qc).
  replace (a i j * (v i * v j)) with (a i j * (magnitude (v i) * magnitude (v j)) + (- a i j) * (magnitude (v i) * magnitude (v j) - v i * v j)) by ring. qc.
Qed.
Lemma size_magnitude : forall v, size_of (fun i => magnitude (v i)) = size_of v.
Proof. intros v. apply sum_ext. intros. apply magnitude_square. Qed.

Variable e : Qc.
Hypothesis low : forall v, e * size_of v <= mean_of v.
Definition stationary (v : nat -> Qc) : Prop := forall i, (i < N)%nat -> act v i = e * v i.

Lemma stationary_mean : forall v, stationary v -> mean_of v = e * size_of v.
Proof. intros v H. unfold mean_of, size_of. rewrite <- sum_scale. apply sum_ext. intros i Hi. rewrite (H i Hi). ring. Qed.
Lemma stationary_lin : forall x y u v, stationary u -> stationary v -> stationary (fun j => x * u j + y * v j).
Proof. intros x y u v Hu Hv i Hi. rewrite act_lin, (Hu i Hi), (Hv i Hi). ring. Qed.

Lemma lowest_stationary : forall v, mean_of v = e * size_of v -> stationary v.
Proof.
  intros v Hv. set (g := fun i => act v i - e * v i). set (G := size_of g). set (Q := mean_of g - e * G).
  assert (Q0 : 0 <= Q) by (unfold Q, G; pose proof (low g); qc).
  assert (G0 : 0 <= G) by (apply qsum_nonneg; intros; apply square_nonneg).
  set (y := 1 + Q). set (x := - G). set (u := fun i => y * v i + x * g i).
  assert (M : mean_of u - e * size_of u = y * y * (mean_of v - e * size_of v) + (1 + 1) * (x * y) * G + x * x * Q).
  { assert (M1 : mean_of u = y * y * mean_of v + x * y * sumN (fun i => v i * act g i) + x * y * sumN (fun i => g i * act v i) + x * x * mean_of g).
    { unfold mean_of. rewrite <- !sum_scale, <- !sum_add. apply sum_ext. intros i Hi. unfold u at 2. rewrite act_lin. unfold u. ring. }
    assert (M2 : size_of u = y * y * size_of v + (1 + 1) * (x * y) * sumN (fun i => g i * v i) + x * x * G).
    { unfold G. unfold size_of. rewrite <- !sum_scale, <- !sum_add. apply sum_ext. intros i Hi. unfold u. ring. }
    assert (M3 : sumN (fun i => g i * act v i) - e * sumN (fun i => g i * v i) = G).
    { unfold G, size_of. rewrite <- sum_scale. unfold Qcminus. replace (- sumN (fun i => e * (g i * v i))) with (sumN (fun i => - (1) * (e * (g i * v i)))) by (rewrite sum_scale; ring).
      rewrite <- sum_add. apply sum_ext. intros i Hi. replace (g i * act v i + - (1) * (e * (g i * v i))) with (g i * (act v i - e * v i)) by ring. reflexivity. }
    rewrite M1, M2, (swap_sides v g). replace ((1 + 1) * (x * y) * G) with ((1 + 1) * (x * y) * (sumN (fun i => g i * act v i) - e * sumN (fun i => g i * v i))) by (rewrite M3; reflexivity).
    unfold Q. ring. }
  assert (L : 0 <= mean_of u - e * size_of u) by (pose proof (low u); qc).
  rewrite M, Hv in L. assert (L2 : 0 <= - (G * G * (1 + 1 + Q))).
  { replace (- (G * G * (1 + 1 + Q))) with (y * y * (e * size_of v - e * size_of v) + (1 + 1) * (x * y) * G + x * x * Q); [exact L|]. unfold x, y. ring. }
  assert (L3 : 0 <= G * G * (1 + Q)) by (apply Qcmult_nonneg; [apply square_nonneg | assert (0 <= 1) by discriminate; qc]).
  assert (GG : G * G = 0) by (apply Qcle_antisym; [replace (- (G * G * (1 + 1 + Q))) with (- (G * G * (1 + Q)) - G * G) in L2 by ring; qc | apply square_nonneg]).
  assert (Gz : G = 0) by (destruct (Qcmult_integral _ _ GG); assumption).
  intros i Hi. assert (Z : g i * g i = 0).
  { apply (qsum_nonneg_zero _ (fun i => g i * g i) (seq 0 N)); [intros; apply square_nonneg | fold (sumN (fun i => g i * g i)); fold (size_of g); fold G; rewrite Gz; apply Qcle_refl | apply in_seq; lia]. }
  assert (Zg : g i = 0) by (destruct (Qcmult_integral _ _ Z); assumption). unfold g in Zg.
  replace (act v i) with ((act v i - e * v i) + e * v i) by ring. rewrite Zg. ring.
Qed.

(** a stationary state without negative amplitudes vanishes at the neighbours of its zeros *)
Lemma zero_spreads : forall w i j, stationary w -> (forall k, (k < N)%nat -> 0 <= w k) -> (i < N)%nat -> (j < N)%nat -> w i = 0 -> i <> j -> a i j < 0 -> w j = 0.
Proof.
  intros w i j Hw P Hi Hj Z D L. pose proof (Hw i Hi) as E. rewrite Z in E. replace (e * 0) with 0 in E by ring.
  assert (T : forall k, In k (seq 0 N) -> 0 <= - (a i k * w k)).
  { intros k Hk. apply in_seq in Hk. destruct (Nat.eq_dec i k) as [<-|Dk]; [rewrite Z; replace (- (a i i * 0)) with 0 by ring; apply Qcle_refl|].
    replace (- (a i k * w k)) with ((- a i k) * w k) by ring. apply Qcmult_nonneg; [pose proof (off i k Hi ltac:(lia) Dk); qc | apply P; lia]. }
  assert (Q : - (a i j * w j) = 0).
  { apply (qsum_nonneg_zero _ _ _ T); [|apply in_seq; lia]. rewrite qsum_opp. unfold act, sumN in E. rewrite E. replace (- 0) with 0 by ring. apply Qcle_refl. }
  assert (Q2 : a i j * w j = 0) by (replace (a i j * w j) with (- - (a i j * w j)) by ring; rewrite Q; ring).
  apply Qcmult_integral in Q2. destruct Q2 as [Q2|Q2]; [rewrite Q2 in L; now apply Qclt_not_eq in L | assumption].
Qed.

Definition linked (i j : nat) : Prop := (i < N)%nat /\ (j < N)%nat /\ i <> j /\ a i j < 0.
Hypothesis connected : forall i j, (i < N)%nat -> (j < N)%nat -> clos_refl_trans nat linked i j.

Lemma all_zero : forall w i, stationary w -> (forall k, (k < N)%nat -> 0 <= w k) -> (i < N)%nat -> w i = 0 -> forall j, (j < N)%nat -> w j = 0.
Proof.
  intros w i Hw P Hi Z j Hj. specialize (connected i j Hi Hj). apply clos_rt_rt1n_iff in connected. revert Z. induction connected as [i|i k j (H1 & H2 & H3 & H4) R IH]; [auto|].
  intros Z. apply IH; try assumption. now apply (zero_spreads w i k).
Qed.

(** no amplitude vanishes, all have one sign *)
Lemma one_zero : forall v i, stationary v -> (i < N)%nat -> v i = 0 -> forall j, (j < N)%nat -> v j = 0.
Proof.
  intros v i Hv Hi Z j Hj. assert (S0 : stationary (fun i => magnitude (v i))).
  { apply lowest_stationary. apply Qcle_antisym; [|apply low]. rewrite size_magnitude, <- (stationary_mean v Hv). apply mean_magnitude. }
  pose proof (all_zero _ i S0 (fun k _ => magnitude_nonneg (v k)) Hi) as A. cbv beta in A. rewrite Z in A. specialize (A eq_refl j Hj).
  assert (Q : v j * v j = 0) by (rewrite <- magnitude_square, A; ring). destruct (Qcmult_integral _ _ Q); assumption.
Qed.

Lemma one_sign : forall v, stationary v -> (exists i, (i < N)%nat /\ v i <> 0) -> (forall i, (i < N)%nat -> 0 < v i) \/ (forall i, (i < N)%nat -> v i < 0).
Proof.
  intros v Hv (k & Hk & Nk). assert (NZ : forall i, (i < N)%nat -> v i <> 0) by (intros i Hi Z; apply Nk; now apply (one_zero v i)).
  assert (S0 : stationary (fun i => magnitude (v i))).
  { apply lowest_stationary. apply Qcle_antisym; [|apply low]. rewrite size_magnitude, <- (stationary_mean v Hv). apply mean_magnitude. }
  pose proof (stationary_lin 1 1 _ _ Hv S0) as S1. destruct (magnitude_cases (v k)) as [[P E]|[P E]].
  - left. intros i Hi. destruct (magnitude_cases (v i)) as [[P' E']|[P' E']].
    + apply Qcle_lt_or_eq in P'. destruct P' as [P'|P']; [assumption | now destruct (NZ i Hi)].
    + exfalso. pose proof (one_zero _ i S1 Hi) as A. cbv beta in A. rewrite E' in A. specialize (A ltac:(ring) k Hk). cbv beta in A. rewrite E in A.
      replace (1 * v k + 1 * v k) with ((1 + 1) * v k) in A by ring. apply Qcmult_integral in A. destruct A as [A|A]; [discriminate A | contradiction].
  - right. intros i Hi. destruct (magnitude_cases (v i)) as [[P' E']|[P' E']]; [|assumption].
    exfalso. pose proof (one_zero _ k S1 Hk) as A. cbv beta in A. rewrite E in A. specialize (A ltac:(ring) i Hi). cbv beta in A. rewrite E' in A.
    replace (1 * v i + 1 * v i) with ((1 + 1) * v i) in A by ring. apply Qcmult_integral in A. destruct A as [A|A]; [discriminate A | now apply (NZ i Hi)].
Qed.

Lemma one_state : forall u v, stationary u -> stationary v -> (exists i, (i < N)%nat /\ v i <> 0) -> exists k, forall i, (i < N)%nat -> u i = k * v i.
Proof.
  intros u v Hu Hv (k & Hk & Nk). exists (u k / v k). intros i Hi.
  pose proof (stationary_lin (v k) (- u k) _ _ Hu Hv) as S1. pose proof (one_zero _ k S1 Hk) as A. cbv beta in A. specialize (A ltac:(ring) i Hi). cbv beta in A.
  assert (B : v k * u i = u k * v i) by (replace (v k * u i) with ((v k * u i + - u k * v i) + u k * v i) by ring; rewrite A; ring).
  assert (C : u i = / v k * (v k * u i)) by (field; exact Nk). rewrite C, B. field. exact Nk.
Qed.
End Perron.
