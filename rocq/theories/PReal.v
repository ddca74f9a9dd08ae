(** Symmetric matrices of real numbers: lowest states and complete sets of states. *)
From Coq Require Import Reals Lra Lia Psatz Arith.
From Verif Require Import RealSum.
Open Scope R_scope.

Lemma rsum_ext : forall n f g, (forall i, (i < n)%nat -> f i = g i) -> rsum n f = rsum n g.
Proof. induction n as [|n IH]; intros f g H; [reflexivity|]. cbn [rsum]. rewrite (IH f g), (H n) by (intros; try apply H; lia). reflexivity. Qed.
Lemma rsum_0 : forall n, rsum n (fun _ => 0) = 0.
Proof. induction n as [|n IH]; cbn [rsum]; [reflexivity | rewrite IH; ring]. Qed.
Lemma rsum_zero : forall n f, (forall i, (i < n)%nat -> f i = 0) -> rsum n f = 0.
Proof. intros n f H. rewrite <- (rsum_0 n). now apply rsum_ext. Qed.
Lemma rsum_add : forall n f g, rsum n (fun i => f i + g i) = rsum n f + rsum n g.
Proof. induction n as [|n IH]; intros; cbn [rsum]; [ring | rewrite IH; ring]. Qed.
Lemma rsum_scale : forall n x f, rsum n (fun i => x * f i) = x * rsum n f.
Proof. induction n as [|n IH]; intros; cbn [rsum]; [ring | rewrite IH; ring]. Qed.
Lemma rsum_opp : forall n f, rsum n (fun i => - f i) = - rsum n f.
Proof. induction n as [|n IH]; intros; cbn [rsum]; [ring | rewrite IH; ring]. Qed.
Lemma rsum_sub : forall n f g, rsum n (fun i => f i - g i) = rsum n f - rsum n g.
Proof. induction n as [|n IH]; intros; cbn [rsum]; [ring | rewrite IH; ring]. Qed.
Lemma rsum_const : forall n x, rsum n (fun _ => x) = INR n * x.
Proof. induction n as [|n IH]; intros x; [cbn; ring|]. rewrite S_INR. cbn [rsum]. rewrite IH. ring. Qed.
Lemma rsum_exchange : forall n m f, rsum n (fun i => rsum m (fun j => f i j)) = rsum m (fun j => rsum n (fun i => f i j)).
Proof. induction n as [|n IH]; intros m f; cbn [rsum]; [now rewrite rsum_0|]. now rewrite IH, <- rsum_add. Qed.
Lemma rsum_le : forall n f g, (forall i, (i < n)%nat -> f i <= g i) -> rsum n f <= rsum n g.
Proof. induction n as [|n IH]; intros f g H; cbn [rsum]; [lra|]. pose proof (IH f g ltac:(intros; apply H; lia)). pose proof (H n ltac:(lia)). lra. Qed.
Lemma rsum_nonneg : forall n f, (forall i, (i < n)%nat -> 0 <= f i) -> 0 <= rsum n f.
Proof. intros n f H. rewrite <- (rsum_0 n). now apply rsum_le. Qed.
Lemma rsum_one : forall n f k, (k < n)%nat -> (forall i, (i < n)%nat -> 0 <= f i) -> f k <= rsum n f.
Proof.
  induction n as [|n IH]; intros f k Hk H; [lia|]. cbn [rsum]. destruct (Nat.eq_dec k n) as [->|D].
  - pose proof (rsum_nonneg n f ltac:(intros; apply H; lia)). lra.
  - pose proof (IH f k ltac:(lia) ltac:(intros; apply H; lia)). pose proof (H n ltac:(lia)). lra.
Qed.
Lemma rsum_nonneg_zero : forall n f k, (k < n)%nat -> (forall i, (i < n)%nat -> 0 <= f i) -> rsum n f <= 0 -> f k = 0.
Proof. intros n f k Hk H Z. pose proof (rsum_one n f k Hk H). pose proof (H k Hk). lra. Qed.
Lemma rsum_single : forall n f k, (k < n)%nat -> (forall i, (i < n)%nat -> i <> k -> f i = 0) -> rsum n f = f k.
Proof.
  induction n as [|n IH]; intros f k Hk H; [lia|]. cbn [rsum]. destruct (Nat.eq_dec k n) as [->|D].
  - rewrite rsum_zero by (intros; apply H; lia). ring.
  - rewrite (IH f k), (H n) by (intros; try apply H; lia). ring.
Qed.
Lemma rsum_S : forall n f, rsum (S n) f = f 0%nat + rsum n (fun i => f (S i)).
Proof. induction n as [|n IH]; intros f; [cbn; ring|]. change (rsum (S (S n)) f) with (rsum (S n) f + f (S n)). rewrite IH. cbn [rsum]. ring. Qed.
Lemma rsum_abs : forall n f, Rabs (rsum n f) <= rsum n (fun i => Rabs (f i)).
Proof. induction n as [|n IH]; intros f; cbn [rsum]; [rewrite Rabs_R0; lra|]. pose proof (Rabs_triang (rsum n f) (f n)). pose proof (IH f). lra. Qed.

Definition dot (n : nat) (u v : nat -> R) : R := rsum n (fun i => u i * v i).
Definition actR (n : nat) (A : nat -> nat -> R) (v : nat -> R) (i : nat) : R := rsum n (fun j => A i j * v j).
Definition form (n : nat) (A : nat -> nat -> R) (v : nat -> R) : R := dot n v (actR n A v).

Lemma dot_sym : forall n u v, dot n u v = dot n v u.
Proof. intros. apply rsum_ext. intros. ring. Qed.
Lemma dot_lin : forall n w x u y v, dot n w (fun i => x * u i + y * v i) = x * dot n w u + y * dot n w v.
Proof. intros. unfold dot. rewrite <- !rsum_scale, <- rsum_add. apply rsum_ext. intros. ring. Qed.
Lemma dot_scale : forall n w x u, dot n w (fun i => x * u i) = x * dot n w u.
Proof. intros. unfold dot. rewrite <- rsum_scale. apply rsum_ext. intros. ring. Qed.
Lemma dot_scale2 : forall n x u, dot n (fun i => x * u i) (fun i => x * u i) = x * x * dot n u u.
Proof. intros. unfold dot. rewrite <- rsum_scale. apply rsum_ext. intros. ring. Qed.
Lemma dot_ext : forall n u u' v v', (forall i, (i < n)%nat -> u i = u' i) -> (forall i, (i < n)%nat -> v i = v' i) -> dot n u v = dot n u' v'.
Proof. intros. apply rsum_ext. intros. now rewrite H, H0. Qed.
Lemma dot_nonneg : forall n u, 0 <= dot n u u.
Proof. intros. apply rsum_nonneg. intros. apply Rle_0_sqr. Qed.
Lemma dot_zero : forall n u, dot n u u <= 0 -> forall i, (i < n)%nat -> u i = 0.
Proof. intros n u H i Hi. pose proof (rsum_nonneg_zero n (fun i => u i * u i) i Hi (fun k _ => Rle_0_sqr (u k)) H) as Q. cbv beta in Q. nra. Qed.
Lemma dot_pos : forall n u i, (i < n)%nat -> u i <> 0 -> 0 < dot n u u.
Proof. intros n u i Hi H. destruct (Rlt_le_dec 0 (dot n u u)) as [Q|Q]; [assumption|]. now destruct H; apply (dot_zero n u). Qed.
Lemma dot_sum : forall n w k f (v : nat -> nat -> R), dot n w (fun i => rsum k (fun j => f j * v j i)) = rsum k (fun j => f j * dot n w (v j)).
Proof.
  intros. unfold dot. transitivity (rsum n (fun i => rsum k (fun j => w i * (f j * v j i)))); [apply rsum_ext; intros; now rewrite <- rsum_scale|].
  rewrite rsum_exchange. apply rsum_ext. intros j _. rewrite <- rsum_scale. apply rsum_ext. intros. ring.
Qed.
Lemma actR_lin : forall n A x u y v i, actR n A (fun j => x * u j + y * v j) i = x * actR n A u i + y * actR n A v i.
Proof. intros. unfold actR. rewrite <- !rsum_scale, <- rsum_add. apply rsum_ext. intros. ring. Qed.
Lemma actR_ext : forall n A u v i, (forall j, (j < n)%nat -> u j = v j) -> actR n A u i = actR n A v i.
Proof. intros. apply rsum_ext. intros. now rewrite H. Qed.

(** Bessel: orthonormal vectors *)
Definition orthonormal (n k : nat) (v : nat -> nat -> R) : Prop := forall i j, (i < k)%nat -> (j < k)%nat -> dot n (v i) (v j) = if Nat.eqb i j then 1 else 0.
Definition rest (n k : nat) (v : nat -> nat -> R) (u : nat -> R) : nat -> R := fun i => u i - rsum k (fun j => dot n (v j) u * v j i).
Lemma rest_orth : forall n k v u j, orthonormal n k v -> (j < k)%nat -> dot n (v j) (rest n k v u) = 0.
Proof.
  intros n k v u j H Hj. unfold rest. transitivity (dot n (v j) u - dot n (v j) (fun i => rsum k (fun j => dot n (v j) u * v j i))).
  { unfold dot. rewrite <- rsum_sub. apply rsum_ext. intros. ring. }
  rewrite dot_sum. rewrite (rsum_single k _ j Hj).
  - rewrite (H j j Hj Hj), Nat.eqb_refl. ring.
  - intros i Hi D. rewrite (H j i Hj Hi). destruct (Nat.eqb_spec j i); [congruence | ring].
Qed.
Lemma rest_norm : forall n k v u, orthonormal n k v -> dot n (rest n k v u) (rest n k v u) = dot n u u - rsum k (fun j => dot n (v j) u * dot n (v j) u).
Proof.
  intros n k v u H. transitivity (dot n (rest n k v u) u - dot n (rest n k v u) (fun i => rsum k (fun j => dot n (v j) u * v j i))).
  { unfold dot at 1 2 3. rewrite <- rsum_sub. apply rsum_ext. intros. unfold rest at 2. ring. }
  rewrite dot_sum. rewrite (rsum_zero k (fun j => _ * dot n (rest n k v u) (v j))) by (intros j Hj; rewrite (dot_sym n (rest n k v u) (v j)), rest_orth by assumption; ring).
  rewrite Rminus_0_r, (dot_sym n (rest n k v u) u). transitivity (dot n u u - dot n u (fun i => rsum k (fun j => dot n (v j) u * v j i))).
  { unfold dot at 1 2 3. rewrite <- rsum_sub. apply rsum_ext. intros. unfold rest. ring. }
  rewrite dot_sum. f_equal. apply rsum_ext. intros j _. now rewrite (dot_sym n u (v j)).
Qed.
Definition unit_at (i j : nat) : R := if Nat.eqb j i then 1 else 0.
Lemma unit_self : forall i, unit_at i i = 1.
Proof. intros. unfold unit_at. now rewrite Nat.eqb_refl. Qed.
Lemma dot_unit : forall n u i, (i < n)%nat -> dot n u (unit_at i) = u i.
Proof. intros n u i Hi. unfold dot. rewrite (rsum_single n _ i Hi); unfold unit_at; [rewrite Nat.eqb_refl; ring|]. intros j Hj D. destruct (Nat.eqb_spec j i); [contradiction | ring]. Qed.
Lemma bessel_at : forall n k v i, orthonormal n k v -> (i < n)%nat -> rsum k (fun j => v j i * v j i) <= 1.
Proof.
  intros n k v i H Hi. pose proof (rest_norm n k v (unit_at i) H) as Q. pose proof (dot_nonneg n (rest n k v (unit_at i))) as P. rewrite Q in P.
  rewrite (dot_unit n (unit_at i) i Hi) in P. rewrite unit_self in P.
  rewrite (rsum_ext k _ (fun j => v j i * v j i)) in P by (intros; now rewrite !dot_unit). lra.
Qed.
Lemma bessel_total : forall n k v, orthonormal n k v -> rsum n (fun i => rsum k (fun j => v j i * v j i)) = INR k.
Proof.
  intros n k v H. rewrite rsum_exchange. rewrite (rsum_ext k _ (fun _ => 1)); [rewrite rsum_const; ring|]. intros j Hj. change (dot n (v j) (v j) = 1). rewrite (H j j Hj Hj). now rewrite Nat.eqb_refl.
Qed.
Lemma orthonormal_le : forall n k v, orthonormal n k v -> (k <= n)%nat.
Proof.
  intros n k v H. apply INR_le. rewrite <- (bessel_total n k v H). replace (INR n) with (rsum n (fun _ => 1)) by (rewrite rsum_const; ring). apply rsum_le. intros i Hi. now apply (bessel_at n).
Qed.
(** [n] orthonormal vectors are complete *)
Lemma complete_at : forall n v i, orthonormal n n v -> (i < n)%nat -> rsum n (fun j => v j i * v j i) = 1.
Proof.
  intros n v i H Hi. pose proof (bessel_total n n v H) as T.
  assert (Z : 1 - rsum n (fun j => v j i * v j i) = 0); [|lra].
  apply (rsum_nonneg_zero n (fun i => 1 - rsum n (fun j => v j i * v j i)) i Hi); [intros k Hk; pose proof (bessel_at n n v k H Hk); lra|].
  rewrite rsum_sub, T, rsum_const. lra.
Qed.
Lemma complete : forall n v u i, orthonormal n n v -> (i < n)%nat -> u i = rsum n (fun j => dot n (v j) u * v j i).
Proof.
  intros n v u i H Hi.
  assert (U : forall a b, (a < n)%nat -> (b < n)%nat -> unit_at a b = rsum n (fun j => v j a * v j b)).
  { intros a b Ha Hb. pose proof (rest_norm n n v (unit_at a) H) as Q. rewrite (dot_unit n (unit_at a) a Ha) in Q. rewrite unit_self in Q.
    rewrite (rsum_ext n _ (fun j => v j a * v j a)) in Q by (intros; now rewrite !dot_unit). rewrite complete_at in Q by assumption.
    pose proof (dot_zero n _ ltac:(rewrite Q; lra) b Hb) as Z. unfold rest in Z. rewrite (rsum_ext n _ (fun j => v j a * v j b)) in Z by (intros; now rewrite dot_unit). lra. }
  transitivity (dot n u (unit_at i)); [symmetry; now apply dot_unit|]. unfold dot at 1.
  rewrite (rsum_ext n _ (fun k => rsum n (fun j => u k * (v j k * v j i)))).
  - rewrite rsum_exchange. apply rsum_ext. intros j _. unfold dot. rewrite Rmult_comm, <- rsum_scale. apply rsum_ext. intros. ring.
  - intros k Hk. rewrite rsum_scale. f_equal. rewrite (U i k Hi Hk). apply rsum_ext. intros. ring.
Qed.
Lemma parseval : forall n v u, orthonormal n n v -> dot n u u = rsum n (fun j => dot n (v j) u * dot n (v j) u).
Proof.
  intros n v u H. transitivity (dot n u (fun i => rsum n (fun j => dot n (v j) u * v j i))); [apply dot_ext; [reflexivity | intros; now apply complete]|].
  rewrite dot_sum. apply rsum_ext. intros j _. now rewrite (dot_sym n u (v j)).
Qed.
(** a unit vector orthogonal to fewer than [n] vectors *)
Lemma another : forall n k v, orthonormal n k v -> (k < n)%nat -> exists u, dot n u u = 1 /\ forall j, (j < k)%nat -> dot n (v j) u = 0.
Proof.
  intros n k v H Hk. assert (X : exists i, (i < n)%nat /\ rsum k (fun j => v j i * v j i) < 1).
  { assert (D : forall m, (m <= n)%nat -> (exists i, (i < m)%nat /\ rsum k (fun j => v j i * v j i) < 1) \/ forall i, (i < m)%nat -> rsum k (fun j => v j i * v j i) = 1).
    { induction m as [|m IH]; intros Hm; [right; intros; lia|]. destruct IH as [(i & Hi & L)|IH]; [lia | left; exists i; split; [lia | assumption]|].
      destruct (Rlt_le_dec (rsum k (fun j => v j m * v j m)) 1) as [L|L]; [left; exists m; split; [lia | assumption]|].
      right. intros i Hi. destruct (Nat.eq_dec i m) as [->|N]; [|apply IH; lia]. pose proof (bessel_at n k v m H ltac:(lia)). lra. }
    destruct (D n (le_n n)) as [X|X]; [exact X|]. exfalso. pose proof (bessel_total n k v H) as T. rewrite (rsum_ext n _ (fun _ => 1) X), rsum_const in T.
    assert (Q : INR n = INR k) by lra. apply INR_eq in Q. lia. }
  destruct X as (i & Hi & L). set (g := rest n k v (unit_at i)).
  assert (G : 0 < dot n g g).
  { unfold g. rewrite rest_norm by assumption. rewrite (dot_unit n (unit_at i) i Hi). rewrite unit_self. rewrite (rsum_ext k _ (fun j => v j i * v j i)) by (intros; now rewrite !dot_unit). lra. }
  exists (fun a => / sqrt (dot n g g) * g a). pose proof (sqrt_lt_R0 _ G) as P. split.
  - rewrite dot_scale2. transitivity (/ sqrt (dot n g g) * (/ sqrt (dot n g g) * (sqrt (dot n g g) * sqrt (dot n g g)))); [rewrite sqrt_def by lra; ring | field; lra].
  - intros j Hj. rewrite dot_scale. unfold g. rewrite rest_orth by assumption. ring.
Qed.

(** ** quadratic forms *)
Section Forms.
Variable n : nat.
Variable A : nat -> nat -> R.
Hypothesis sym : forall i j, (i < n)%nat -> (j < n)%nat -> A i j = A j i.
Lemma swap_sides : forall u v, dot n u (actR n A v) = dot n v (actR n A u).
Proof.
  intros u v. unfold dot, actR. rewrite (rsum_ext n _ (fun i => rsum n (fun j => u i * (A i j * v j)))) by (intros; now rewrite rsum_scale).
  rewrite rsum_exchange. apply rsum_ext. intros j Hj. rewrite <- rsum_scale. apply rsum_ext. intros i Hi. rewrite (sym i j) by assumption. ring.
Qed.
Lemma form_lin : forall x u y v, form n A (fun i => x * u i + y * v i) = x * x * form n A u + 2 * (x * y) * dot n v (actR n A u) + y * y * form n A v.
Proof.
  intros x u y v. unfold form. rewrite (dot_ext n _ (fun i => x * u i + y * v i) _ (fun i => x * actR n A u i + y * actR n A v i)) by (intros; reflexivity || apply actR_lin).
  rewrite dot_lin. rewrite !(dot_sym n (fun i => x * u i + y * v i)), !dot_lin. rewrite !(dot_sym n (actR n A _)). rewrite (swap_sides u v). ring.
Qed.
Lemma dot_lin2 : forall x u y v, dot n (fun i => x * u i + y * v i) (fun i => x * u i + y * v i) = x * x * dot n u u + 2 * (x * y) * dot n v u + y * y * dot n v v.
Proof. intros. rewrite dot_lin. rewrite !(dot_sym n (fun i => x * u i + y * v i)), !dot_lin. rewrite (dot_sym n u v). ring. Qed.

(** a vector on which the form takes its smallest value is an eigenvector *)
Lemma lowest_eigen : forall e v, (forall u, e * dot n u u <= form n A u) -> form n A v <= e * dot n v v -> forall i, (i < n)%nat -> actR n A v i = e * v i.
Proof.
  intros e v low Hv. set (g := fun i => actR n A v i - e * v i). set (G := dot n g g). set (Q := form n A g - e * G).
  assert (Q0 : 0 <= Q) by (unfold Q, G; pose proof (low g); lra). pose proof (dot_nonneg n g) as G0. fold G in G0.
  pose proof (low (fun i => (1 + Q) * v i + (- G) * g i)) as L. rewrite form_lin, dot_lin2 in L. fold G in L.
  assert (M : dot n g (actR n A v) - e * dot n g v = G).
  { unfold G, dot. rewrite <- rsum_scale, <- rsum_sub. apply rsum_ext. intros i _. unfold g. ring. }
  pose proof (low v) as Lv.
  assert (X : (1 + Q) * (1 + Q) * (form n A v - e * dot n v v) + 2 * ((1 + Q) * - G) * (dot n g (actR n A v) - e * dot n g v) + G * G * Q >= 0) by (unfold Q in *; nra).
  rewrite M in X. assert (Z : form n A v - e * dot n v v = 0) by lra. rewrite Z in X.
  assert (G1 : G * G <= 0) by nra. assert (Gz : G <= 0) by nra.
  intros i Hi. pose proof (dot_zero n g Gz i Hi) as D. unfold g in D. lra.
Qed.

(** bounds of the form *)
Lemma form_bounds : exists b, 0 <= b /\ forall u, - b * dot n u u <= form n A u /\ form n A u <= b * dot n u u.
Proof.
  set (b := rsum n (fun i => rsum n (fun j => Rabs (A i j)))). exists b.
  assert (B : 0 <= b) by (apply rsum_nonneg; intros; apply rsum_nonneg; intros; apply Rabs_pos). split; [exact B|].
  intros u. assert (X : Rabs (form n A u) <= b * dot n u u).
  { unfold form, dot at 1, actR. rewrite (rsum_ext n _ (fun i => rsum n (fun j => u i * (A i j * u j)))) by (intros; now rewrite rsum_scale).
    eapply Rle_trans; [apply rsum_abs|]. unfold b. rewrite Rmult_comm, <- rsum_scale. apply rsum_le. intros i Hi.
    eapply Rle_trans; [apply rsum_abs|]. rewrite <- rsum_scale. apply rsum_le. intros j Hj. rewrite !Rabs_mult.
    pose proof (rsum_one n (fun i => u i * u i) i Hi (fun k _ => Rle_0_sqr (u k))) as Qi. pose proof (rsum_one n (fun i => u i * u i) j Hj (fun k _ => Rle_0_sqr (u k))) as Qj.
    fold (dot n u u) in Qi, Qj. cbv beta in Qi, Qj. pose proof (Rabs_pos (A i j)) as PA. pose proof (Rsqr_abs (u i)) as Si. pose proof (Rsqr_abs (u j)) as Sj. unfold Rsqr in Si, Sj.
    assert (P : Rabs (u i) * Rabs (u j) <= dot n u u) by (pose proof (Rle_0_sqr (Rabs (u i) - Rabs (u j))) as S0; unfold Rsqr in S0; nra).
    replace (Rabs (u i) * (Rabs (A i j) * Rabs (u j))) with (Rabs (A i j) * (Rabs (u i) * Rabs (u j))) by ring. rewrite (Rmult_comm (dot n u u)). now apply Rmult_le_compat_l. }
  pose proof (Rle_abs (form n A u)). pose proof (Rle_abs (- form n A u)) as Y. rewrite Rabs_Ropp in Y. lra.
Qed.
End Forms.

Lemma cauchy : forall n u v, dot n u v * dot n u v <= dot n u u * dot n v v.
Proof.
  intros n u v. destruct (Rlt_le_dec 0 (dot n v v)) as [P|P].
  - pose proof (dot_nonneg n (fun i => dot n v v * u i + - dot n u v * v i)) as Q. rewrite dot_lin2 in Q. rewrite (dot_sym n v u) in Q.
    apply Rmult_le_reg_l with (dot n v v); [exact P|]. ring_simplify in Q. ring_simplify. lra.
  - assert (Z : dot n u v = 0) by (apply rsum_zero; intros i Hi; rewrite (dot_zero n v P i Hi); ring). pose proof (dot_nonneg n v). rewrite Z. assert (dot n v v = 0) as -> by lra. lra.
Qed.

(** the first coordinate taken apart *)
Definition cons_at (x : R) (u : nat -> R) (i : nat) : R := match i with O => x | S k => u k end.
Lemma form_S : forall n B u, (forall i j, (i < S n)%nat -> (j < S n)%nat -> B i j = B j i) ->
  form (S n) B u = B 0%nat 0%nat * (u 0%nat * u 0%nat) + 2 * u 0%nat * dot n (fun j => B 0%nat (S j)) (fun i => u (S i)) + form n (fun i j => B (S i) (S j)) (fun i => u (S i)).
Proof.
  intros n B u H. unfold form, dot at 1, actR at 1. rewrite rsum_S, rsum_S.
  rewrite (rsum_ext n (fun i => u (S i) * rsum (S n) (fun j => B (S i) j * u j)) (fun i => u 0%nat * (B 0%nat (S i) * u (S i)) + u (S i) * actR n (fun i j => B (S i) (S j)) (fun i => u (S i)) i)).
  - rewrite rsum_add, rsum_scale. unfold dot. ring.
  - intros i Hi. rewrite rsum_S. rewrite (H (S i) 0%nat) by lia. unfold actR. ring.
Qed.

Lemma psd_split : forall n B, (forall i j, (i < n)%nat -> (j < n)%nat -> B i j = B j i) -> (forall u, 0 <= form n B u) ->
  (exists u i, (i < n)%nat /\ u i <> 0 /\ form n B u = 0) \/ (exists d, 0 < d /\ forall u, d * dot n u u <= form n B u).
Proof.
  induction n as [|n IH]; intros B H P; [right; exists 1; split; [lra|]; intros; cbn; lra|].
  set (b := B 0%nat 0%nat). set (r := fun j => B 0%nat (S j)). set (B' := fun i j => B (S i) (S j)).
  assert (F : forall u, form (S n) B u = b * (u 0%nat * u 0%nat) + 2 * u 0%nat * dot n r (fun i => u (S i)) + form n B' (fun i => u (S i))) by (intros; now apply form_S).
  assert (U : form (S n) B (unit_at 0) = b).
  { rewrite F, unit_self. assert (Z : forall f, dot n f (fun i => unit_at 0 (S i)) = 0) by (intros; apply rsum_zero; intros; unfold unit_at; cbn; ring).
    rewrite Z. unfold form. rewrite dot_sym, Z. ring. }
  destruct (Req_dec b 0) as [Z|NZ]; [left; exists (unit_at 0), 0%nat; split; [lia|]; split; [rewrite unit_self; lra | now rewrite U]|].
  assert (Pb : 0 < b) by (pose proof (P (unit_at 0)); lra).
  set (C := fun i j => B' i j - r i * r j / b).
  assert (FC : forall u, form n C u = form n B' u - dot n r u * dot n r u / b).
  { intros u. unfold form. transitivity (dot n u (fun i => 1 * actR n B' u i + (- (dot n r u / b)) * r i)).
    - apply dot_ext; [reflexivity|]. intros i Hi. unfold actR, C, dot. replace (- (rsum n (fun j => r j * u j) / b) * r i) with ((- (r i / b)) * rsum n (fun j => r j * u j)) by (field; lra).
      rewrite <- !rsum_scale, <- rsum_add. apply rsum_ext. intros. field. lra.
    - rewrite dot_lin. rewrite (dot_sym n u r). field. lra. }
  assert (FB : forall u, form (S n) B u = b * ((u 0%nat + dot n r (fun i => u (S i)) / b) * (u 0%nat + dot n r (fun i => u (S i)) / b)) + form n C (fun i => u (S i))) by (intros u; rewrite F, FC; field; lra).
  assert (E : forall u, form (S n) B (cons_at (- (dot n r u / b)) u) = form n C u) by (intros u; rewrite FB; cbn [cons_at]; change (fun i => u i) with u; ring).
  destruct (IH C) as [(u & i & Hi & Nu & Q)|(d & Pd & D)].
  - intros i j Hi Hj. unfold C, B'. rewrite (H (S i) (S j)) by lia. field. lra.
  - intros u. rewrite <- E. apply P.
  - left. exists (cons_at (- (dot n r u / b)) u), (S i). split; [lia|]. split; [exact Nu|]. now rewrite E.
  - right. set (k := 1 + 2 * (dot n r r / (b * b))). pose proof (dot_nonneg n r) as Pr.
    assert (Pk : 1 <= k) by (unfold k; assert (0 <= dot n r r / (b * b)) by (unfold Rdiv; apply Rmult_le_pos; [lra | apply Rlt_le, Rinv_0_lt_compat; nra]); lra).
    exists (Rmin (b / 2) (d / k)). split; [apply Rmin_pos; [lra | apply Rdiv_lt_0_compat; lra]|].
    intros u. set (u' := fun i => u (S i)). rewrite FB. fold u'. set (y := u 0%nat + dot n r u' / b).
    assert (N : dot (S n) u u = u 0%nat * u 0%nat + dot n u' u') by (unfold dot; now rewrite rsum_S). rewrite N.
    set (q := dot n r u' / b) in *. pose proof (cauchy n r u') as CS. pose proof (dot_nonneg n u') as Pu.
    assert (Qq : q * q <= dot n r r / (b * b) * dot n u' u').
    { unfold q. replace (dot n r u' / b * (dot n r u' / b)) with (/ (b * b) * (dot n r u' * dot n r u')) by (field; lra).
      replace (dot n r r / (b * b) * dot n u' u') with (/ (b * b) * (dot n r r * dot n u' u')) by (field; lra). apply Rmult_le_compat_l; [|exact CS]. apply Rlt_le, Rinv_0_lt_compat. nra. }
    assert (U0 : u 0%nat * u 0%nat + dot n u' u' <= 2 * (y * y) + k * dot n u' u').
    { unfold k. assert (u 0%nat = y - q) as -> by (unfold y; ring). pose proof (Rle_0_sqr (y + q)) as S0. unfold Rsqr in S0. nra. }
    set (dd := Rmin (b / 2) (d / k)). assert (D1 : dd <= b / 2) by apply Rmin_l. assert (D2 : dd <= d / k) by apply Rmin_r.
    assert (D0 : 0 < dd) by (apply Rmin_pos; [lra | apply Rdiv_lt_0_compat; lra]).
    assert (D3 : dd * k <= d) by (apply Rmult_le_reg_r with (/ k); [apply Rinv_0_lt_compat; lra | replace (dd * k * / k) with dd by (field; lra); exact D2]).
    pose proof (D u') as Du. apply Rle_trans with (dd * (2 * (y * y) + k * dot n u' u')); [apply Rmult_le_compat_l; lra|].
    pose proof (Rle_0_sqr y) as Sy. unfold Rsqr in Sy. nra.
Qed.

(** ** the lowest state *)
Lemma lowest_exists : forall n A, (forall i j, (i < n)%nat -> (j < n)%nat -> A i j = A j i) -> (0 < n)%nat ->
  exists e v, dot n v v = 1 /\ (forall i, (i < n)%nat -> actR n A v i = e * v i) /\ forall u, e * dot n u u <= form n A u.
Proof.
  intros n A H Hn. set (E := fun e => forall u, e * dot n u u <= form n A u). destruct (form_bounds n A) as (b & Pb & Bd).
  destruct (completeness E) as (e & Ub & Lub).
  - exists b. intros x Hx. specialize (Hx (unit_at 0)). rewrite (dot_unit n (unit_at 0) 0 Hn), unit_self in Hx. destruct (Bd (unit_at 0)) as [_ Q]. rewrite (dot_unit n (unit_at 0) 0 Hn), unit_self in Q. lra.
  - exists (- b). intros u. apply Bd.
  - assert (Ee : E e).
    { intros u. destruct (Rlt_le_dec 0 (dot n u u)) as [P|P].
      - assert (L : e <= form n A u / dot n u u).
        { apply Lub. intros x Hx. apply Rmult_le_reg_r with (dot n u u); [exact P|]. replace (form n A u / dot n u u * dot n u u) with (form n A u) by (field; lra). apply Hx. }
        apply Rmult_le_compat_r with (r := dot n u u) in L; [|lra]. replace (form n A u / dot n u u * dot n u u) with (form n A u) in L by (field; lra). exact L.
      - pose proof (dot_nonneg n u). assert (Z : dot n u u = 0) by lra. destruct (Bd u) as [Q _]. rewrite Z in Q |- *. lra. }
    set (B := fun i j => A i j - e * (if Nat.eqb i j then 1 else 0)).
    assert (FB : forall u, form n B u = form n A u - e * dot n u u).
    { intros u. unfold form. transitivity (dot n u (fun i => 1 * actR n A u i + (- e) * u i)); [|rewrite dot_lin; ring]. apply dot_ext; [reflexivity|]. intros i Hi. unfold actR, B.
      transitivity (rsum n (fun j => A i j * u j) + - e * rsum n (fun j => (if Nat.eqb i j then 1 else 0) * u j)); [rewrite <- rsum_scale, <- rsum_add; apply rsum_ext; intros; ring|].
      rewrite (rsum_single n (fun j => (if Nat.eqb i j then 1 else 0) * u j) i Hi); [rewrite Nat.eqb_refl; ring|]. intros j _ D. destruct (Nat.eqb_spec i j); [congruence | ring]. }
    destruct (psd_split n B) as [(u & i & Hi & Nu & Q)|(d & Pd & D)].
    + intros i j Hi Hj. unfold B. rewrite (H i j Hi Hj), (Nat.eqb_sym i j). reflexivity.
    + intros u. rewrite FB. specialize (Ee u). lra.
    + pose proof (dot_pos n u i Hi Nu) as P. rewrite FB in Q. pose proof (sqrt_lt_R0 _ P) as Ps.
      exists e, (fun i => / sqrt (dot n u u) * u i). split; [|split; [|exact Ee]].
      * rewrite dot_scale2. transitivity (/ sqrt (dot n u u) * (/ sqrt (dot n u u) * (sqrt (dot n u u) * sqrt (dot n u u)))); [rewrite sqrt_def by lra; ring | field; lra].
      * intros k Hk. unfold actR. rewrite (rsum_ext n _ (fun j => / sqrt (dot n u u) * (A k j * u j))) by (intros; ring). rewrite rsum_scale.
        fold (actR n A u k). rewrite (lowest_eigen n A H e u Ee) by (assumption || lra). ring.
    + exfalso. assert (Q : e + d <= e); [|lra]. apply Ub. intros u. specialize (D u). rewrite FB in D. lra.
Qed.

(** ** complete sets of states *)
Definition set_at {X} (v : nat -> X) (k : nat) (u : X) (j : nat) : X := if Nat.eqb j k then u else v j.
Lemma set_same : forall {X} (v : nat -> X) k u, set_at v k u k = u.
Proof. intros. unfold set_at. now rewrite Nat.eqb_refl. Qed.
Lemma set_other : forall {X} (v : nat -> X) k u j, (j < k)%nat -> set_at v k u j = v j.
Proof. intros. unfold set_at. destruct (Nat.eqb_spec j k); [lia | reflexivity]. Qed.

Lemma levels_upto : forall n A, (forall i j, (i < n)%nat -> (j < n)%nat -> A i j = A j i) -> forall k, (k <= n)%nat ->
  exists (e : nat -> R) (v : nat -> nat -> R), orthonormal n k v /\ (forall j i, (j < k)%nat -> (i < n)%nat -> actR n A (v j) i = e j * v j i) /\
    forall j, (j < k)%nat -> forall u, (forall i, (i < j)%nat -> dot n (v i) u = 0) -> e j * dot n u u <= form n A u.
Proof.
  intros n A H. induction k as [|k IH]; intros Hk.
  { exists (fun _ => 0), (fun _ _ => 0). split; [intros i j Hi; lia|]. split; intros; lia. }
  destruct IH as (e & v & O & Ev & Lo); [lia|]. destruct (another n k v O ltac:(lia)) as (w & Nw & Ow).
  set (M := 1 + Rabs (form n A w) + rsum k (fun j => Rabs (e j))).
  set (A' := fun i j => A i j + M * rsum k (fun p => v p i * v p j)).
  assert (Sy : forall i j, (i < n)%nat -> (j < n)%nat -> A' i j = A' j i) by (intros i j Hi Hj; unfold A'; rewrite (H i j Hi Hj); f_equal; f_equal; apply rsum_ext; intros; ring).
  assert (Ac : forall u i, actR n A' u i = actR n A u i + M * rsum k (fun p => dot n (v p) u * v p i)).
  { intros u i. unfold actR, A'. rewrite (rsum_ext n _ (fun j => A i j * u j + M * rsum k (fun p => v p j * u j * v p i))).
    - rewrite rsum_add, rsum_scale, rsum_exchange. f_equal. f_equal. apply rsum_ext. intros p _. unfold dot. rewrite Rmult_comm, <- rsum_scale. apply rsum_ext. intros. ring.
    - intros j _. rewrite (rsum_ext k (fun p => v p j * u j * v p i) (fun p => u j * (v p i * v p j))) by (intros; ring). rewrite rsum_scale. ring. }
  assert (Fo : forall u, (forall p, (p < k)%nat -> dot n (v p) u = 0) -> form n A' u = form n A u).
  { intros u Hu. unfold form. apply dot_ext; [reflexivity|]. intros i Hi. rewrite Ac, rsum_zero; [ring|]. intros p Hp. rewrite Hu by assumption. ring. }
  destruct (lowest_exists n A' Sy ltac:(lia)) as (e' & u & Nu & Eu & Lu).
  assert (Ou : forall p, (p < k)%nat -> dot n (v p) u = 0).
  { intros p Hp. assert (E1 : dot n (v p) (actR n A' u) = e' * dot n (v p) u) by (rewrite <- dot_scale; apply dot_ext; [reflexivity | exact Eu]).
    assert (E2 : dot n u (actR n A' (v p)) = (e p + M) * dot n u (v p)).
    { rewrite <- dot_scale. apply dot_ext; [reflexivity|]. intros i Hi. rewrite Ac, (Ev p i Hp Hi). rewrite (rsum_single k _ p Hp); [rewrite (O p p Hp Hp), Nat.eqb_refl; ring|].
      intros q Hq D. rewrite (O q p Hq Hp). destruct (Nat.eqb_spec q p); [contradiction | ring]. }
    rewrite (swap_sides n A' Sy u (v p)) in E2. rewrite (dot_sym n u (v p)) in E2. rewrite E1 in E2.
    assert (L : e' <= form n A w) by (pose proof (Lu w) as Q; rewrite Nw, (Fo w Ow) in Q; lra).
    assert (B : - Rabs (e p) <= e p) by (pose proof (Rle_abs (- e p)) as Q; rewrite Rabs_Ropp in Q; lra).
    pose proof (rsum_one k (fun j => Rabs (e j)) p Hp (fun i _ => Rabs_pos (e i))) as B2. cbv beta in B2. pose proof (Rle_abs (form n A w)).
    assert (P : 0 < e p + M - e') by (unfold M; lra). assert (Q : (e p + M - e') * dot n (v p) u = 0) by lra. apply Rmult_integral in Q. destruct Q as [Q|Q]; [lra | exact Q]. }
  exists (set_at e k e'), (set_at v k u). split; [|split].
  - intros i j Hi Hj. destruct (Nat.eq_dec i k) as [->|Di], (Nat.eq_dec j k) as [->|Dj].
    + rewrite set_same, Nat.eqb_refl. exact Nu.
    + rewrite set_same, set_other by lia. rewrite dot_sym, Ou by lia. destruct (Nat.eqb_spec k j); [lia | reflexivity].
    + rewrite set_same, set_other by lia. rewrite Ou by lia. destruct (Nat.eqb_spec i k); [lia | reflexivity].
    + rewrite !set_other by lia. apply O; lia.
  - intros j i Hj Hi. destruct (Nat.eq_dec j k) as [->|D]; [|rewrite !set_other by lia; apply Ev; lia]. rewrite !set_same. rewrite <- (Eu i Hi), Ac, rsum_zero; [ring|].
    intros p Hp. rewrite Ou by assumption. ring.
  - intros j Hj x Hx. destruct (Nat.eq_dec j k) as [->|D].
    + rewrite set_same. rewrite <- (Fo x); [apply Lu|]. intros p Hp. rewrite <- (Hx p Hp), set_other by lia. reflexivity.
    + rewrite set_other by lia. apply Lo; [lia|]. intros i Hi. rewrite <- (Hx i Hi), set_other by lia. reflexivity.
Qed.

Lemma spectral : forall n A, (forall i j, (i < n)%nat -> (j < n)%nat -> A i j = A j i) ->
  exists (e : nat -> R) (v : nat -> nat -> R), orthonormal n n v /\ (forall j i, (j < n)%nat -> (i < n)%nat -> actR n A (v j) i = e j * v j i) /\
    forall i j, (i <= j)%nat -> (j < n)%nat -> e i <= e j.
Proof.
  intros n A H. destruct (levels_upto n A H n (le_n n)) as (e & v & O & Ev & Lo). exists e, v. split; [exact O|]. split; [exact Ev|].
  intros i j Hij Hj. pose proof (Lo i ltac:(lia) (v j)) as Q. rewrite (O j j Hj Hj), Nat.eqb_refl in Q.
  assert (F : form n A (v j) = e j).
  { unfold form. transitivity (dot n (v j) (fun i => e j * v j i)); [apply dot_ext; [reflexivity | intros; now apply Ev]|]. rewrite dot_scale, (O j j Hj Hj), Nat.eqb_refl. ring. }
  rewrite F in Q. assert (X : e i * 1 <= e j); [|lra]. apply Q. intros p Hp. rewrite (O p j) by lia. destruct (Nat.eqb_spec p j); [lia | reflexivity].
Qed.

(** ** consequences of a complete set of states *)
Section Complete.
Variable n : nat.
Variable A : nat -> nat -> R.
Hypothesis sym : forall i j, (i < n)%nat -> (j < n)%nat -> A i j = A j i.
Variable e : nat -> R.
Variable v : nat -> nat -> R.
Hypothesis ortho : orthonormal n n v.
Hypothesis eigen : forall j i, (j < n)%nat -> (i < n)%nat -> actR n A (v j) i = e j * v j i.

Lemma coef_act : forall u j, (j < n)%nat -> dot n (v j) (actR n A u) = e j * dot n (v j) u.
Proof.
  intros u j Hj. rewrite (swap_sides n A sym (v j) u). transitivity (dot n u (fun i => e j * v j i)); [apply dot_ext; [reflexivity | intros; now apply eigen]|]. now rewrite dot_scale, dot_sym.
Qed.
Lemma form_levels : forall u, form n A u = rsum n (fun j => e j * (dot n (v j) u * dot n (v j) u)).
Proof.
  intros u. unfold form. transitivity (dot n (actR n A u) (fun i => rsum n (fun j => dot n (v j) u * v j i))); [rewrite dot_sym; apply dot_ext; [reflexivity | intros; now apply complete]|].
  rewrite dot_sum. apply rsum_ext. intros j Hj. rewrite (dot_sym n (actR n A u) (v j)), coef_act by assumption. ring.
Qed.
Lemma trace_levels : rsum n (fun i => A i i) = rsum n e.
Proof.
  transitivity (rsum n (fun i => rsum n (fun j => e j * (v j i * v j i)))).
  - apply rsum_ext. intros i Hi. transitivity (form n A (unit_at i)).
    + unfold form. rewrite dot_sym, dot_unit by assumption. symmetry. apply (dot_unit n (fun j => A i j) i Hi).
    + rewrite form_levels. apply rsum_ext. intros j Hj. now rewrite dot_unit.
  - rewrite rsum_exchange. apply rsum_ext. intros j Hj. rewrite rsum_scale. change (e j * dot n (v j) (v j) = e j). rewrite (ortho j j Hj Hj), Nat.eqb_refl. ring.
Qed.
Lemma all_found : forall x u i, (i < n)%nat -> u i <> 0 -> (forall i, (i < n)%nat -> actR n A u i = x * u i) -> exists j, (j < n)%nat /\ e j = x.
Proof.
  intros x u i Hi Nu Eu. assert (D : forall m, (m <= n)%nat -> (exists j, (j < m)%nat /\ dot n (v j) u <> 0) \/ forall j, (j < m)%nat -> dot n (v j) u = 0).
  { induction m as [|m IH]; intros Hm; [right; intros; lia|]. destruct IH as [(j & Hj & N)|IH]; [lia | left; exists j; split; [lia | assumption]|].
    destruct (Req_dec (dot n (v m) u) 0) as [Z|N]; [|left; exists m; split; [lia | assumption]]. right. intros j Hj. destruct (Nat.eq_dec j m) as [->|]; [assumption | apply IH; lia]. }
  destruct (D n (le_n n)) as [(j & Hj & N)|Z].
  - exists j. split; [exact Hj|]. pose proof (coef_act u j Hj) as Q. rewrite (dot_ext n (v j) (v j) (actR n A u) (fun i => x * u i)) in Q by (reflexivity || exact Eu). rewrite dot_scale in Q.
    apply Rmult_eq_reg_r with (dot n (v j) u); [lra | exact N].
  - exfalso. apply Nu. rewrite (complete n v u i ortho Hi). apply rsum_zero. intros j Hj. rewrite Z by assumption. ring.
Qed.
(** a vector that is almost an eigenvector has a level nearby *)
Lemma near_level : forall x u d, 0 <= d -> (exists i, (i < n)%nat /\ u i <> 0) -> (dot n (fun i => actR n A u i - x * u i) (fun i => actR n A u i - x * u i) <= d * d * dot n u u) -> exists j, (j < n)%nat /\ Rabs (e j - x) <= d.
Proof.
  intros x u d Pd (i & Hi & Nu) Hr. set (g := fun i => actR n A u i - x * u i) in *.
  assert (D : forall m, (m <= n)%nat -> (exists j, (j < m)%nat /\ Rabs (e j - x) <= d) \/ forall j, (j < m)%nat -> d < Rabs (e j - x)).
  { induction m as [|m IH]; intros Hm; [right; intros; lia|]. destruct IH as [(j & Hj & N)|IH]; [lia | left; exists j; split; [lia | assumption]|].
    destruct (Rle_lt_dec (Rabs (e m - x)) d) as [Z|N]; [left; exists m; split; [lia | assumption]|]. right. intros j Hj. destruct (Nat.eq_dec j m) as [->|]; [assumption | apply IH; lia]. }
  destruct (D n (le_n n)) as [X|X]; [exact X|]. exfalso.
  assert (C : forall j, (j < n)%nat -> dot n (v j) g = (e j - x) * dot n (v j) u).
  { intros j Hj. transitivity (dot n (v j) (fun i => 1 * actR n A u i + (- x) * u i)); [apply dot_ext; [reflexivity | intros; unfold g; ring]|]. rewrite dot_lin, coef_act by assumption. ring. }
  assert (L : forall j, (j < n)%nat -> d * d < (e j - x) * (e j - x)).
  { intros j Hj. specialize (X j Hj). pose proof (Rsqr_abs (e j - x)) as S0. unfold Rsqr in S0. rewrite S0. nra. }
  rewrite (parseval n v g ortho) in Hr. rewrite (parseval n v u ortho) in Hr. rewrite (rsum_ext n _ (fun j => (e j - x) * (e j - x) * (dot n (v j) u * dot n (v j) u))) in Hr by (intros; rewrite C by assumption; ring).
  assert (Z : rsum n (fun j => ((e j - x) * (e j - x) - d * d) * (dot n (v j) u * dot n (v j) u)) <= 0).
  { rewrite (rsum_ext n _ (fun j => (e j - x) * (e j - x) * (dot n (v j) u * dot n (v j) u) - d * d * (dot n (v j) u * dot n (v j) u))) by (intros; ring). rewrite rsum_sub, rsum_scale. lra. }
  apply Nu. rewrite (complete n v u i ortho Hi). apply rsum_zero. intros j Hj.
  pose proof (rsum_nonneg_zero n _ j Hj (fun p Hp => Rmult_le_pos _ _ (Rlt_le _ _ (Rlt_Rminus _ _ (L p Hp))) (Rle_0_sqr (dot n (v p) u))) Z) as Q. cbv beta in Q. unfold Rsqr in Q.
  apply Rmult_integral in Q. destruct Q as [Q|Q]; [pose proof (L j Hj); lra|]. assert (dot n (v j) u = 0) as -> by nra. ring.
Qed.
End Complete.
