(** Counting levels of two symmetric forms (for C102). *)
From Coq Require Import ZArith List Bool QArith Qcanon Lia.
From Verif Require Import PyBase PyFacts Spec SpecTJ SpinDefs PSpin PQc PHam POps PSecSum PBound PPerron FDav FProj PLevels PEnergy PTrace.
Import ListNotations.

Section Expand.
Variables (N : nat) (a v : nat -> nat -> Qc) (e q : nat -> Qc).
Hypothesis orth : forall k l, (k < N)%nat -> (l < N)%nat -> sumN N (fun i => v k i * v l i)%Qc = if Nat.eqb k l then q k else 0%Qc.
Hypothesis eigen : forall k i, (k < N)%nat -> (i < N)%nat -> sumN N (fun j => a i j * v k j)%Qc = (e k * v k i)%Qc.

Definition mixed (c : nat -> Qc) (i : nat) : Qc := sumN N (fun k => c k * v k i)%Qc.

Lemma with_mixed : forall c l, (l < N)%nat -> sumN N (fun i => v l i * mixed c i)%Qc = (c l * q l)%Qc.
Proof.
  intros c l Hl. rewrite (sum_ext N _ (fun i => sumN N (fun k => c k * (v l i * v k i)))%Qc).
  - unfold sumN. rewrite qsum_exchange. rewrite (qsum_ext _ _ (fun k => if Nat.eqb l k then c k * q k else 0)%Qc).
    + now apply (qsum_delta N l (fun k => c k * q k)%Qc).
    + intros k Hk. apply in_seq in Hk. rewrite qsum_scale. fold (sumN N (fun i => v l i * v k i)%Qc). rewrite orth by lia. destruct (Nat.eqb_spec l k) as [->|]; ring.
  - intros i _. unfold mixed. rewrite <- sum_scale. apply sum_ext. intros; ring.
Qed.
Lemma mixed_size : forall c, size_of N (mixed c) = sumN N (fun k => q k * (c k * c k))%Qc.
Proof.
  intros c. unfold size_of. rewrite (sum_ext N _ (fun i => sumN N (fun k => c k * (v k i * mixed c i)))%Qc).
  - unfold sumN at 1 2. rewrite qsum_exchange. apply qsum_ext. intros k Hk. apply in_seq in Hk. rewrite qsum_scale. fold (sumN N (fun i => v k i * mixed c i)%Qc). rewrite with_mixed by lia. ring.
  - intros i _. unfold mixed at 1. rewrite Qcmult_comm, <- sum_scale. apply sum_ext. intros; ring.
Qed.
Lemma mixed_act : forall c i, (i < N)%nat -> act N a (mixed c) i = mixed (fun k => c k * e k)%Qc i.
Proof.
  intros c i Hi. unfold act. rewrite (sum_ext N _ (fun j => sumN N (fun k => c k * (a i j * v k j)))%Qc).
  - unfold sumN at 1 2. rewrite qsum_exchange. unfold mixed, sumN. apply qsum_ext. intros k Hk. apply in_seq in Hk. rewrite qsum_scale. fold (sumN N (fun j => a i j * v k j)%Qc). rewrite eigen by lia. ring.
  - intros j _. unfold mixed. rewrite <- sum_scale. apply sum_ext. intros; ring.
Qed.
Lemma mixed_mean : forall c, mean_of N a (mixed c) = sumN N (fun k => e k * (q k * (c k * c k)))%Qc.
Proof.
  intros c. unfold mean_of. rewrite (sum_ext N _ (fun i => sumN N (fun k => c k * (v k i * mixed (fun k => c k * e k) i)))%Qc).
  - unfold sumN at 1 2. rewrite qsum_exchange. apply qsum_ext. intros k Hk. apply in_seq in Hk. rewrite qsum_scale. fold (sumN N (fun i => v k i * mixed (fun k => c k * e k) i)%Qc). rewrite with_mixed by lia. ring.
  - intros i Hi. rewrite mixed_act by assumption. unfold mixed at 1. rewrite Qcmult_comm, <- sum_scale. apply sum_ext. intros; ring.
Qed.
Lemma all_mixed : (forall k, (k < N)%nat -> q k <> 0%Qc) -> forall x i, (i < N)%nat -> x i = mixed (fun k => sumN N (fun j => v k j * x j) / q k)%Qc i.
Proof.
  intros Q x i Hi. unfold mixed. transitivity (sumN N (fun j => (if Nat.eqb i j then 1 else 0) * x j)%Qc).
  - rewrite (sum_ext N _ (fun j => if Nat.eqb i j then x j else 0%Qc)) by (intros j _; destruct (Nat.eqb i j); ring). symmetry. now apply sum_delta.
  - rewrite (sum_ext N _ (fun j => sumN N (fun k => (v k i * (v k j / q k)) * x j))%Qc).
    + unfold sumN. rewrite qsum_exchange. apply qsum_ext. intros k Hk. transitivity (qsum (fun j => (v k i / q k) * (v k j * x j)) (seq 0 N))%Qc; [apply qsum_ext; intros; unfold Qcdiv; ring|]. rewrite qsum_scale. unfold Qcdiv. ring.
    + intros j Hj. rewrite <- (other_side N v q Q orth i j Hi Hj). rewrite Qcmult_comm, <- sum_scale. apply sum_ext. intros; ring.
Qed.
End Expand.

Lemma mean_ext : forall N a x y, (forall i, (i < N)%nat -> x i = y i) -> mean_of N a x = mean_of N a y.
Proof. intros N a x y H. unfold mean_of, act. apply sum_ext. intros i Hi. rewrite H by assumption. f_equal. apply sum_ext. intros j Hj. now rewrite H. Qed.
Lemma size_ext : forall N x y, (forall i, (i < N)%nat -> x i = y i) -> size_of N x = size_of N y.
Proof. intros N x y H. unfold size_of. apply sum_ext. intros i Hi. now rewrite H. Qed.

Section Count.
Variables (N : nat) (a v : nat -> nat -> Qc) (e q : nat -> Qc) (b w : nat -> nat -> Qc) (f r : nat -> Qc) (delta : Qc).
Hypothesis qpos : forall k, (k < N)%nat -> (0 < q k)%Qc.
Hypothesis orth : forall k l, (k < N)%nat -> (l < N)%nat -> sumN N (fun i => v k i * v l i)%Qc = if Nat.eqb k l then q k else 0%Qc.
Hypothesis eigen : forall k i, (k < N)%nat -> (i < N)%nat -> sumN N (fun j => a i j * v k j)%Qc = (e k * v k i)%Qc.
Hypothesis rpos : forall k, (k < N)%nat -> (0 < r k)%Qc.
Hypothesis orth' : forall k l, (k < N)%nat -> (l < N)%nat -> sumN N (fun i => w k i * w l i)%Qc = if Nat.eqb k l then r k else 0%Qc.
Hypothesis eigen' : forall k i, (k < N)%nat -> (i < N)%nat -> sumN N (fun j => b i j * w k j)%Qc = (f k * w k i)%Qc.
Hypothesis near : forall x, (mean_of N b x <= mean_of N a x + delta * size_of N x)%Qc.

Definition below (g : nat -> Qc) (t : Qc) : list nat := filter (fun k => if Qclt_le_dec t (g k) then false else true) (seq 0 N).

Lemma in_below : forall g t k, In k (below g t) <-> (k < N)%nat /\ (g k <= t)%Qc.
Proof.
  intros g t k. unfold below. rewrite filter_In, in_seq. destruct (Qclt_le_dec t (g k)) as [L|L]; split; intros [A B]; split; try lia; try assumption; try discriminate; try reflexivity.
  exfalso. exact (Qclt_not_le _ _ L B).
Qed.

Lemma count_levels : forall t, (length (below e t) <= length (below f (t + delta)))%nat.
Proof.
  intros t. destruct (le_lt_dec (length (below e t)) (length (below f (t + delta)))) as [|G]; [assumption|]. exfalso.
  set (others := filter (fun k => if Qclt_le_dec t (e k) then true else false) (seq 0 N)).
  assert (LO : (length (below e t) + length others = N)%nat).
  { replace N with (length (seq 0 N)) at 1 by apply seq_length. unfold others, below. generalize (seq 0 N). intros l. induction l as [|k l IH]; [reflexivity|]. cbn [filter].
    destruct (Qclt_le_dec t (e k)); cbn [length] in *; lia. }
  destruct (nullspace N (map (fun l k => sumN N (fun i => w l i * v k i)%Qc) (below f (t + delta)) ++ map (fun i0 k => if Nat.eqb i0 k then 1%Qc else 0%Qc) others)) as (c & (j & Hj & NJ) & Z0);
    [rewrite app_length, !map_length; lia|].
  assert (C0 : forall k, (k < N)%nat -> c k <> 0%Qc -> (e k <= t)%Qc).
  { intros k Hk NZ. destruct (Qclt_le_dec t (e k)) as [L|L]; [|assumption]. exfalso. apply NZ.
    assert (IO : In k others) by (apply filter_In; split; [apply in_seq; lia | now destruct (Qclt_le_dec t (e k)) as [|L']; [|exfalso; exact (Qclt_not_le _ _ L L')]]).
    specialize (Z0 _ (in_or_app _ _ _ (or_intror (in_map _ _ k IO)))). cbv beta in Z0. refine (eq_trans _ Z0).
    rewrite (qsum_ext _ _ (fun i => if Nat.eqb k i then c i else 0)%Qc) by (intros i _; destruct (Nat.eqb k i); ring). symmetry. now apply (qsum_delta N k c). }
  set (x := mixed N v c).
  assert (S1 : (0 < size_of N x)%Qc).
  { unfold x. rewrite (mixed_size N v q orth). destruct (Qclt_le_dec 0 (sumN N (fun k => q k * (c k * c k))%Qc)) as [|L]; [assumption|]. exfalso.
    assert (P : forall k, In k (seq 0 N) -> (0 <= q k * (c k * c k))%Qc) by (intros k Hk; apply in_seq in Hk; apply Qcmult_nonneg; [apply Qclt_le_weak, qpos; lia | apply square_nonneg]).
    pose proof (qsum_nonneg_zero _ _ _ P L j ltac:(apply in_seq; lia)) as Z1. cbv beta in Z1. apply Qcmult_integral in Z1. destruct Z1 as [Z1|Z1].
    - specialize (qpos j Hj). rewrite Z1 in qpos. discriminate qpos.
    - apply Qcmult_integral in Z1. tauto. }
  assert (M1 : (mean_of N a x <= t * size_of N x)%Qc).
  { unfold x. rewrite (mixed_mean N a v e q orth eigen), (mixed_size N v q orth), <- sum_scale. apply sum_le. intros k Hk. destruct (Qc_eq_dec (c k) 0) as [->|NZ]; [rewrite !Qcmult_0_r; apply Qcle_refl|].
    apply Qcmult_le_compat_r; [now apply C0|]. apply Qcmult_nonneg; [apply Qclt_le_weak, qpos; lia | apply square_nonneg]. }
  set (g := fun k => (sumN N (fun i => w k i * x i) / r k)%Qc).
  assert (RN : forall k, (k < N)%nat -> r k <> 0%Qc) by (intros k Hk Z1; specialize (rpos k Hk); rewrite Z1 in rpos; discriminate rpos).
  assert (XG : forall i, (i < N)%nat -> x i = mixed N w g i) by exact (all_mixed N w r orth' RN x).
  assert (G0 : forall k, (k < N)%nat -> g k <> 0%Qc -> (t + delta < f k)%Qc).
  { intros k Hk NZ. destruct (Qclt_le_dec (t + delta)%Qc (f k)) as [|L]; [assumption|]. exfalso. apply NZ. unfold g.
    assert (IT : In k (below f (t + delta))) by (apply in_below; split; assumption).
    specialize (Z0 _ (in_or_app _ _ _ (or_introl (in_map _ _ k IT)))). cbv beta in Z0.
    assert (Z2 : sumN N (fun i => w k i * x i)%Qc = 0%Qc); [|rewrite Z2; unfold Qcdiv; ring].
    refine (eq_trans _ Z0). rewrite (sum_ext N _ (fun i => qsum (fun l => (w k i * v l i) * c l) (seq 0 N))%Qc).
    - unfold sumN at 1. rewrite qsum_exchange. apply qsum_ext. intros l _. rewrite Qcmult_comm. unfold sumN. rewrite <- qsum_scale. apply qsum_ext. intros; ring.
    - intros i _. unfold x, mixed, sumN. rewrite <- qsum_scale. apply qsum_ext. intros; ring. }
  assert (M2 : ((t + delta) * size_of N x < mean_of N b x)%Qc).
  { rewrite (mean_ext N b _ _ XG), (size_ext N _ _ XG). rewrite (size_ext N _ _ XG) in S1. rewrite (mixed_size N w r orth') in S1 |- *. rewrite (mixed_mean N b w f r orth' eigen').
    destruct (Qclt_le_dec ((t + delta) * sumN N (fun k => r k * (g k * g k))) (sumN N (fun k => f k * (r k * (g k * g k)))))%Qc as [|L]; [assumption|]. exfalso.
    assert (P : forall k, In k (seq 0 N) -> (0 <= (f k - (t + delta)) * (r k * (g k * g k)))%Qc).
    { intros k Hk. apply in_seq in Hk. destruct (Qc_eq_dec (g k) 0) as [->|NZ]; [rewrite !Qcmult_0_r; apply Qcle_refl|]. apply Qcmult_nonneg; [|apply Qcmult_nonneg; [apply Qclt_le_weak, rpos; lia | apply square_nonneg]].
      specialize (G0 k ltac:(lia) NZ). revert G0. generalize (t + delta)%Qc (f k). intros y z H. qc. }
    assert (L' : (qsum (fun k => (f k - (t + delta)) * (r k * (g k * g k))) (seq 0 N) <= 0)%Qc).
    { rewrite (qsum_ext _ _ (fun k => f k * (r k * (g k * g k)) + (- (t + delta)) * (r k * (g k * g k)))%Qc) by (intros; ring). rewrite qsum_add, qsum_scale. unfold sumN in L. revert L.
      generalize (qsum (fun k => f k * (r k * (g k * g k))) (seq 0 N))%Qc (qsum (fun k => r k * (g k * g k)) (seq 0 N))%Qc. intros y z L.
      replace (y + - (t + delta) * z)%Qc with (y - (t + delta) * z)%Qc by ring. revert L. generalize ((t + delta) * z)%Qc. intros u L. qc. }
    pose proof (qsum_nonneg_zero _ _ _ P L') as Z1. unfold sumN in S1. rewrite qsum_zero in S1; [discriminate S1|]. intros k Hk. specialize (Z1 k Hk). cbv beta in Z1. apply in_seq in Hk.
    destruct (Qc_eq_dec (g k) 0) as [->|NZ]; [ring|]. exfalso. specialize (G0 k ltac:(lia) NZ). apply Qcmult_integral in Z1. destruct Z1 as [Z1|Z1].
    - revert G0 Z1. generalize (t + delta)%Qc (f k). intros y z H Z1. replace z with (z - y + y)%Qc in H by ring. rewrite Z1, Qcplus_0_l in H. now apply Qclt_not_eq in H.
    - apply Qcmult_integral in Z1. destruct Z1 as [Z1|Z1]; [exact (RN k ltac:(lia) Z1)|]. apply Qcmult_integral in Z1. tauto. }
  pose proof (near x) as M3. apply (Qclt_not_le _ _ M2). eapply Qcle_trans; [exact M3|]. revert M1. generalize (mean_of N a x). intros y M1.
  replace ((t + delta) * size_of N x)%Qc with (t * size_of N x + delta * size_of N x)%Qc by ring. apply Qcplus_le_compat; [exact M1 | apply Qcle_refl].
Qed.
End Count.
