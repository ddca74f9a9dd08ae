(** From rational to real numbers. *)
From Coq Require Import ZArith List Bool QArith Qcanon Reals Qreals Lra Lia Psatz.
From Verif Require Import PyBase Lattice Base Interact Ham Spec SpecTJ SpinDefs SignDefs RealSum RealDefs PReal PReal2 PSpin PQc FSign.
Import ListNotations.
Open Scope R_scope.

Lemma real_red : forall q, Q2R (Qred q) = Q2R q.
Proof. intros. apply Qeq_eqR, Qred_correct. Qed.
Lemma real_0 : real 0 = 0.
Proof. unfold real. cbn. unfold Q2R. cbn. lra. Qed.
Lemma real_1 : real 1 = 1.
Proof. unfold real. cbn. unfold Q2R. cbn. lra. Qed.
Lemma real_add : forall x y, real (x + y)%Qc = real x + real y.
Proof. intros. unfold real. cbn [this Qcplus Q2Qc]. rewrite real_red. apply Q2R_plus. Qed.
Lemma real_mul : forall x y, real (x * y)%Qc = real x * real y.
Proof. intros. unfold real. cbn [this Qcmult Q2Qc]. rewrite real_red. apply Q2R_mult. Qed.
Lemma real_opp : forall x, real (- x)%Qc = - real x.
Proof. intros. unfold real. cbn [this Qcopp Q2Qc]. rewrite real_red. apply Q2R_opp. Qed.
Lemma real_sub : forall x y, real (x - y)%Qc = real x - real y.
Proof. intros. unfold Qcminus. rewrite real_add, real_opp. ring. Qed.
Lemma real_le : forall x y, (x <= y)%Qc -> real x <= real y.
Proof. intros x y H. apply Qle_Rle. exact H. Qed.
Lemma real_lt : forall x y, (x < y)%Qc -> real x < real y.
Proof. intros x y H. apply Qlt_Rlt. exact H. Qed.
Lemma real_le_inv : forall x y, real x <= real y -> (x <= y)%Qc.
Proof. intros x y H. apply Rle_Qle. exact H. Qed.
Lemma real_lt_inv : forall x y, real x < real y -> (x < y)%Qc.
Proof. intros x y H. apply Rlt_Qlt. exact H. Qed.
Lemma real_inj : forall x y, real x = real y -> x = y.
Proof. intros x y H. apply Qc_is_canon. apply eqR_Qeq. exact H. Qed.
Lemma real_qz : forall z, real (qz z) = IZR z.
Proof. intros z. unfold real, qz. cbn [this Q2Qc]. rewrite real_red. unfold Q2R, inject_Z. cbn. field. Qed.
Lemma real_sum : forall n f, real (qsum f (seq 0 n)) = rsum n (fun i => real (f i)).
Proof.
  induction n as [|n IH]; intros f; [apply real_0|]. rewrite seq_S, qsum_app, real_add, IH. cbn [rsum plus]. f_equal.
  rewrite qsum_cons, real_add. change (qsum f []) with 0%Qc. rewrite real_0. ring.
Qed.

(** rational numbers close to real ones *)
Lemma close : forall x d, 0 < d -> exists q, Rabs (real q - x) <= d.
Proof.
  intros x d H. destruct (archimed_cor1 d H) as (N & L & P). assert (PN : 0 < INR N) by (apply lt_0_INR; lia).
  exists (Q2Qc (up (x * INR N) # Pos.of_nat N)%Q). unfold real. cbn [this Q2Qc]. rewrite real_red. unfold Q2R. cbn [Qnum Qden].
  assert (EN : IZR (Z.pos (Pos.of_nat N)) = INR N) by (rewrite INR_IZR_INZ; f_equal; rewrite <- positive_nat_Z, Nat2Pos.id by lia; reflexivity).
  rewrite EN. destruct (archimed (x * INR N)) as [A B]. set (z := IZR (up (x * INR N))) in *.
  assert (Q : z * / INR N - x = (z - x * INR N) * / INR N) by (field; lra). rewrite Q. rewrite Rabs_mult.
  pose proof (Rinv_0_lt_compat _ PN) as PI. rewrite (Rabs_pos_eq (z - x * INR N)) by lra. rewrite (Rabs_pos_eq (/ INR N)) by lra. nra.
Qed.
Lemma finite_choice : forall n (P : nat -> Qc -> Prop), (forall i, (i < n)%nat -> exists q, P i q) -> exists l, length l = n /\ forall i, (i < n)%nat -> P i (nth i l 0%Qc).
Proof.
  induction n as [|n IH]; intros P H; [exists []; split; [reflexivity | intros; lia]|]. destruct (IH P) as (l & L & Q); [intros; apply H; lia|]. destruct (H n ltac:(lia)) as (q & Hq).
  exists (l ++ [q]). split; [rewrite app_length, L; cbn; lia|]. intros i Hi. destruct (Nat.eq_dec i n) as [->|D].
  - rewrite app_nth2 by lia. rewrite L, Nat.sub_diag. exact Hq.
  - rewrite app_nth1 by lia. apply Q. lia.
Qed.

(** a rational form that is nowhere negative on rational vectors is so on real ones *)
Lemma dense : forall n (M : nat -> nat -> R), (forall i j, (i < n)%nat -> (j < n)%nat -> M i j = M j i) ->
  (forall l : list Qc, length l = n -> 0 <= form n M (fun i => real (nth i l 0%Qc))) -> forall u, 0 <= form n M u.
Proof.
  intros n M S H u. destruct (Rle_lt_dec 0 (form n M u)) as [P|P]; [exact P|]. exfalso.
  destruct (form_bounds n M) as (b & Pb & Bd). set (s := rsum n (fun i => Rabs (actR n M u i))).
  assert (Ps : 0 <= s) by (apply rsum_nonneg; intros; apply Rabs_pos).
  set (K := 2 * s + b * INR n + 1). assert (Pn : 0 <= INR n) by apply pos_INR. assert (PK : 1 <= K) by (unfold K; nra).
  set (d := Rmin 1 (- form n M u / (2 * K))). assert (Pd : 0 < d) by (apply Rmin_pos; [lra | apply Rdiv_lt_0_compat; lra]). assert (D1 : d <= 1) by apply Rmin_l.
  assert (D2 : d * K <= - form n M u / 2).
  { assert (X : d <= - form n M u / (2 * K)) by apply Rmin_r. apply Rmult_le_compat_r with (r := K) in X; [|lra]. replace (- form n M u / (2 * K) * K) with (- form n M u / 2) in X by (field; lra). exact X. }
  destruct (finite_choice n (fun i q => Rabs (real q - u i) <= d)) as (l & L & C); [intros; now apply close|].
  specialize (H l L). set (h := fun i => real (nth i l 0%Qc) - u i).
  assert (E : form n M (fun i => real (nth i l 0%Qc)) = form n M (fun i => 1 * u i + 1 * h i)).
  { unfold form. apply dot_ext; [intros; unfold h; ring|]. intros. apply actR_ext. intros. unfold h. ring. }
  rewrite E, form_lin in H by exact S.
  assert (B1 : dot n h (actR n M u) <= d * s).
  { unfold dot, s. rewrite <- rsum_scale. apply rsum_le. intros i Hi. eapply Rle_trans; [apply Rle_abs|]. rewrite Rabs_mult. apply Rmult_le_compat_r; [apply Rabs_pos|]. now apply C. }
  assert (B2 : dot n h h <= d * INR n).
  { unfold dot. rewrite Rmult_comm, <- rsum_const. apply rsum_le. intros i Hi. pose proof (C i Hi) as Ci. fold (h i) in Ci. pose proof (Rsqr_abs (h i)) as Q. unfold Rsqr in Q. rewrite Q. pose proof (Rabs_pos (h i)). nra. }
  destruct (Bd h) as [_ B3]. unfold K in D2. nra.
Qed.

(** means of the assembled matrix *)
Lemma inner_real : forall n l l', length l = n -> length l' = n -> real (inner l l') = dot n (reals l) (reals l').
Proof. intros n l l' L L'. unfold inner. rewrite L. rewrite real_sum. apply rsum_ext. intros. unfold reals. now rewrite real_mul. Qed.
Lemma times_real : forall m l i, (i < length l)%nat -> real (nth i (times m l) 0%Qc) = actR (length l) (element m) (reals l) i.
Proof. intros m l i Hi. rewrite times_at by assumption. rewrite real_sum. apply rsum_ext. intros. unfold reals, element. now rewrite real_mul. Qed.
Lemma mean_real : forall m l, real (csr_mean m l) = form (length l) (element m) (reals l).
Proof.
  intros m l. unfold csr_mean. rewrite (inner_real (length l)) by (reflexivity || apply times_len). unfold form. apply dot_ext; [reflexivity|]. intros i Hi. unfold reals. now apply times_real.
Qed.

Lemma mean_ge : forall m b, (0 <= csr_dim m)%Z -> (forall i j, csr_at m i j = csr_at m j i)%Z -> (forall u, zlen u = csr_dim m -> b * inner u u <= csr_mean m u)%Qc ->
  forall u, real b * dot (dimension m) u u <= form (dimension m) (element m) u.
Proof.
  intros m b D S H u. set (n := dimension m). set (M := fun i j => element m i j - real b * (if Nat.eqb i j then 1 else 0)).
  assert (FM : forall u, form n M u = form n (element m) u - real b * dot n u u).
  { intros v. unfold form. transitivity (dot n v (fun i => 1 * actR n (element m) v i + (- real b) * v i)); [|rewrite dot_lin; ring]. apply dot_ext; [reflexivity|]. intros i Hi. unfold actR, M.
    transitivity (rsum n (fun j => element m i j * v j) + - real b * rsum n (fun j => (if Nat.eqb i j then 1 else 0) * v j)); [rewrite <- rsum_scale, <- rsum_add; apply rsum_ext; intros; ring|].
    rewrite (rsum_single n (fun j => (if Nat.eqb i j then 1 else 0) * v j) i Hi); [rewrite Nat.eqb_refl; ring|]. intros j _ Dj. destruct (Nat.eqb_spec i j); [congruence | ring]. }
  assert (P : 0 <= form n M u); [|rewrite FM in P; lra]. apply dense.
  - intros i j _ _. unfold M, element. rewrite S, (Nat.eqb_sym i j). reflexivity.
  - intros l L. rewrite FM. specialize (H l). assert (Z : zlen l = csr_dim m) by (unfold zlen; rewrite L; unfold n, dimension; lia). specialize (H Z). apply real_le in H.
    rewrite real_mul, (inner_real n) in H by assumption. rewrite mean_real, L in H. unfold reals in H. lra.
Qed.
