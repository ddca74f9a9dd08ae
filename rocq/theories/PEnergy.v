(** Forms whose rows sum to zero, and the number of bonds of a rectangle (for C98). *)
From Coq Require Import ZArith List Bool QArith Qcanon Lia.
From Verif Require Import PyBase PyFacts Runtimes Lattice Base Interact Ham Spec SpecOps SpecTJ SpinDefs Geometry HamSpec SignDefs EnergyDefs.
From Verif Require Import PSpin PQc PBasis PSites PHam POps FGeo FSites FInter FHam PSecSum PBound PDavIter PDav FDav FSpinVal PSign PSignOp PPerron FSign FMotion Examples.
Import ListNotations.
Open Scope Z_scope.

(** ** symmetric matrices whose rows sum to zero *)
Section Form.
Variables (N : nat) (a : nat -> nat -> Qc).
Hypothesis sym : forall i j, (i < N)%nat -> (j < N)%nat -> a i j = a j i.
Hypothesis rows : forall i, (i < N)%nat -> sumN N (fun j => a i j) = 0%Qc.
Hypothesis off : forall i j, (i < N)%nat -> (j < N)%nat -> i <> j -> (0 <= a i j)%Qc.

Lemma sum_both : forall f : nat -> nat -> Qc, sumN N (fun i => sumN N (fun j => f i j)) = sumN N (fun i => sumN N (fun j => f j i)).
Proof. intros f. unfold sumN. now rewrite qsum_exchange. Qed.

Lemma form : forall u, (mean_of N a u + mean_of N a u = - sumN N (fun i => sumN N (fun j => a i j * ((u i - u j) * (u i - u j)))))%Qc.
Proof.
  intros u.
  assert (Q1 : sumN N (fun i => sumN N (fun j => a i j * (u i * u i)))%Qc = 0%Qc).
  { transitivity (sumN N (fun i => (u i * u i) * 0)%Qc); [|unfold sumN; apply qsum_zero; intros; ring]. apply sum_ext. intros i Hi. rewrite <- (rows i Hi), <- sum_scale. apply sum_ext. intros; ring. }
  assert (Q2 : sumN N (fun i => sumN N (fun j => a i j * (u j * u j)))%Qc = 0%Qc).
  { rewrite sum_both. rewrite <- Q1. apply sum_ext. intros i Hi. apply sum_ext. intros j Hj. now rewrite (sym j i). }
  assert (M : mean_of N a u = sumN N (fun i => sumN N (fun j => a i j * (u i * u j)))%Qc).
  { unfold mean_of, act. apply sum_ext. intros i _. rewrite <- sum_scale. apply sum_ext. intros; ring. }
  assert (F : sumN N (fun i => sumN N (fun j => a i j * ((u i - u j) * (u i - u j))))%Qc =
    (sumN N (fun i => sumN N (fun j => a i j * (u i * u i))) + sumN N (fun i => sumN N (fun j => a i j * (u j * u j))) +
     (- (1 + 1)) * sumN N (fun i => sumN N (fun j => a i j * (u i * u j))))%Qc).
  { rewrite <- sum_scale, <- !sum_add. apply sum_ext. intros i _. rewrite <- sum_scale, <- !sum_add. apply sum_ext. intros; ring. }
  rewrite F, Q1, Q2, M. ring.
Qed.

Lemma form_above : forall u, (mean_of N a u <= 0)%Qc.
Proof.
  intros u. pose proof (form u) as F. set (x := mean_of N a u) in *.
  assert (G : (0 <= sumN N (fun i => sumN N (fun j => a i j * ((u i - u j) * (u i - u j)))))%Qc).
  { apply qsum_nonneg. intros i Ii. apply in_seq in Ii. apply qsum_nonneg. intros j Ij. apply in_seq in Ij. destruct (Nat.eq_dec i j) as [->|D].
    - replace (a j j * ((u j - u j) * (u j - u j)))%Qc with 0%Qc by ring. apply Qcle_refl.
    - apply Qcmult_nonneg; [apply off; lia | apply square_nonneg]. }
  revert F G. generalize (sumN N (fun i => sumN N (fun j => a i j * ((u i - u j) * (u i - u j))))%Qc). intros y F G. apply this_eq in F. rewrite this_add, this_opp in F. qc.
Qed.

Lemma form_below : forall u b, (forall i, (i < N)%nat -> (- b <= a i i)%Qc) -> (- (b + b) * size_of N u <= mean_of N a u)%Qc.
Proof.
  intros u b B.
  assert (G : (sumN N (fun i => sumN N (fun j => a i j * ((u i - u j) * (u i - u j)))) <= (1 + 1) * ((b + b) * size_of N u))%Qc).
  { set (o := fun i j => if Nat.eqb i j then 0%Qc else a i j).
    assert (Oi : forall i, (i < N)%nat -> (sumN N (fun j => o i j) <= b)%Qc).
    { intros i Hi. assert (E : (sumN N (fun j => o i j) + a i i = 0)%Qc).
      { rewrite <- (rows i Hi). replace (a i i) with (sumN N (fun j => if Nat.eqb i j then a i j else 0%Qc)).
        - rewrite <- sum_add. apply sum_ext. intros j Hj. unfold o. destruct (Nat.eqb i j); ring.
        - unfold sumN. assert (I : In i (seq 0 N)) by (apply in_seq; lia). pose proof (seq_NoDup N 0) as ND. clear - I ND. induction (seq 0 N) as [|x l IH]; [destruct I|].
          rewrite qsum_cons. inversion ND as [|? ? NI ND']; subst. destruct (Nat.eqb_spec i x) as [->|D].
          + rewrite (qsum_zero _ _ l); [ring|]. intros y Iy. destruct (Nat.eqb_spec x y) as [->|]; [contradiction | reflexivity].
          + destruct I as [I|I]; [congruence|]. rewrite IH by assumption. ring. }
      specialize (B i Hi). revert E B. generalize (sumN N (fun j => o i j)) (a i i). intros x y E B. apply this_eq in E. rewrite this_add in E. qc. }
    assert (Os : forall i j, (i < N)%nat -> (j < N)%nat -> o i j = o j i).
    { intros i j Hi Hj. unfold o. rewrite Nat.eqb_sym. destruct (Nat.eqb j i); [reflexivity | now apply sym]. }
    assert (Op : forall i j, (i < N)%nat -> (j < N)%nat -> (0 <= o i j)%Qc).
    { intros i j Hi Hj. unfold o. destruct (Nat.eqb_spec i j); [apply Qcle_refl | now apply off]. }
    assert (P1 : (sumN N (fun i => sumN N (fun j => o i j * (u i * u i))) <= b * size_of N u)%Qc).
    { unfold size_of. rewrite <- sum_scale. apply sum_le. intros i Hi. rewrite (sum_ext N _ (fun j => (u i * u i) * o i j)%Qc) by (intros; ring). rewrite sum_scale, Qcmult_comm.
      apply Qcmult_le_compat_r; [now apply Oi | apply square_nonneg]. }
    assert (P2 : sumN N (fun i => sumN N (fun j => o i j * (u j * u j)))%Qc = sumN N (fun i => sumN N (fun j => o i j * (u i * u i)))%Qc).
    { rewrite sum_both. apply sum_ext. intros i Hi. apply sum_ext. intros j Hj. now rewrite Os. }
    apply Qcle_trans with (sumN N (fun i => sumN N (fun j => (1 + 1) * (o i j * (u i * u i)) + (1 + 1) * (o i j * (u j * u j)))))%Qc.
    - apply sum_le. intros i Hi. apply sum_le. intros j Hj. unfold o. destruct (Nat.eqb_spec i j) as [->|D].
      + replace (a j j * ((u j - u j) * (u j - u j)))%Qc with 0%Qc by ring. replace ((1 + 1) * (0 * (u j * u j)) + (1 + 1) * (0 * (u j * u j)))%Qc with 0%Qc by ring. apply Qcle_refl.
      + replace ((1 + 1) * (a i j * (u i * u i)) + (1 + 1) * (a i j * (u j * u j)))%Qc with (a i j * ((u i - u j) * (u i - u j)) + a i j * ((u i + u j) * (u i + u j)))%Qc by ring.
        rewrite <- (Qcplus_0_r (a i j * ((u i - u j) * (u i - u j)))%Qc) at 1. apply Qcplus_le_compat; [apply Qcle_refl|]. apply Qcmult_nonneg; [now apply off | apply square_nonneg].
    - rewrite (sum_ext N _ (fun i => (1 + 1) * sumN N (fun j => o i j * (u i * u i)) + (1 + 1) * sumN N (fun j => o i j * (u j * u j)))%Qc) by (intros i _; rewrite <- !sum_scale, <- sum_add; reflexivity).
      rewrite sum_add, !sum_scale, P2. revert P1. generalize (sumN N (fun i => sumN N (fun j => o i j * (u i * u i)))%Qc). intros x P1.
      replace ((1 + 1) * ((b + b) * size_of N u))%Qc with ((1 + 1) * (b * size_of N u) + (1 + 1) * (b * size_of N u))%Qc by ring. revert P1. generalize (b * size_of N u)%Qc. intros y P1. qc. }
  pose proof (form u) as F. revert F G. generalize (sumN N (fun i => sumN N (fun j => a i j * ((u i - u j) * (u i - u j))))%Qc) (mean_of N a u). intros y x F G.
  replace (- (b + b) * size_of N u)%Qc with (- ((b + b) * size_of N u))%Qc by ring. revert G. generalize ((b + b) * size_of N u)%Qc. intros z G. apply this_eq in F. rewrite this_add, this_opp in F. qc.
Qed.
End Form.

(** ** number of bonds *)
Lemma sum_site : forall n k f, 0 <= k < n -> sum_sites n (fun x => only (x =? k) (f x)) = f k.
Proof.
  intros n k f Hk. unfold sum_sites. apply in_sites in Hk. pose proof (PSpin.sites_NoDup n) as ND. induction (sites n) as [|x l IH]; [destruct Hk|].
  rewrite qsum_cons. inversion ND as [|? ? NI ND']; subst. destruct (Z.eqb_spec x k) as [->|D]; cbn [only].
  - rewrite (qsum_zero _ _ l); [ring|]. intros y Iy. destruct (Z.eqb_spec y k) as [->|]; [contradiction | reflexivity].
  - destruct Hk as [Hk|Hk]; [congruence|]. rewrite IH by assumption. ring.
Qed.
Lemma sites_add : forall a b, 0 <= a -> 0 <= b -> sites (a + b) = sites a ++ map (Z.add a) (sites b).
Proof.
  intros a b Ha Hb. unfold sites. rewrite Z2Nat.inj_add, seq_app, map_app by assumption. f_equal. rewrite map_map. generalize (Z.to_nat b). intros m.
  assert (G : forall k, map Z.of_nat (seq (Z.to_nat a + k) m) = map (fun x => a + Z.of_nat x) (seq k m)).
  { induction m as [|m IH]; intros k; [reflexivity|]. cbn [seq map]. f_equal; [lia|]. rewrite <- (IH (S k)). f_equal. f_equal. lia. }
  rewrite <- (G 0%nat). f_equal. f_equal. lia.
Qed.
Lemma sum_rows : forall w h (f : Z -> Qc), 0 <= w -> 0 <= h -> sum_sites (w * h) f = sum_sites h (fun b => sum_sites w (fun a => f (w * b + a))).
Proof.
  intros w h f Hw Hh. pattern h. apply natlike_ind; [now rewrite Z.mul_0_r| |assumption]. clear h Hh. intros h Hh IH. rewrite Z.mul_succ_r, <- Z.add_1_r.
  unfold sum_sites in *. rewrite (sites_add (w * h) w), (sites_add h 1), !qsum_app, IH, !qsum_map by lia. f_equal.
  change (sites 1) with [0]. rewrite qsum_one. apply qsum_ext. intros x _. f_equal. f_equal. ring.
Qed.
Lemma sum_const : forall n k, 0 <= n -> sum_sites n (fun _ => k) = (qz n * k)%Qc.
Proof. intros n k Hn. unfold sum_sites. rewrite qsum_const. unfold zlen, sites. rewrite map_length, seq_length, Z2Nat.id by assumption. reflexivity. Qed.
Lemma sum_but_last : forall n k, 0 < n -> sum_sites n (fun x => only (x <? n - 1) k) = (qz (n - 1) * k)%Qc.
Proof.
  intros n k Hn. replace n with (n - 1 + 1) at 1 by lia. unfold sum_sites. rewrite sites_add, qsum_app, qsum_map by lia. change (sites 1) with [0]. rewrite qsum_one.
  rewrite Z.add_0_r, Z.ltb_irrefl. cbn [only]. rewrite Qcplus_0_r. rewrite (qsum_ext _ _ (fun _ => k)); [apply (sum_const (n - 1)); lia|].
  intros x Hx. apply in_sites in Hx. destruct (Z.ltb_spec x (n - 1)); [reflexivity | lia].
Qed.

Lemma count_bonds : forall w h k, 0 < w -> 0 < h ->
  sum_sites (w * h) (fun i => sum_sites (w * h) (fun j => only ((i <? j) && bondb (point w i) (point w j)) k)) = (qz (grid_bonds w h) * k)%Qc.
Proof.
  intros w h k Hw Hh.
  assert (N : forall i, 0 <= i < w * h -> sum_sites (w * h) (fun j => only ((i <? j) && bondb (point w i) (point w j)) k) = (only (i mod w <? w - 1) k + only (i / w <? h - 1) k)%Qc).
  { intros i Hi. destruct (point_bound w h i Hw Hi) as [A B]. assert (D : i = w * (i / w) + i mod w) by (apply Z.div_mod; lia).
    transitivity (sum_sites (w * h) (fun j => only ((i mod w <? w - 1) && (j =? i + 1)) k + only ((i / w <? h - 1) && (j =? i + w)) k)%Qc).
    - apply sum_sites_ext. intros j Hj. destruct (point_bound w h j Hw Hj) as [A' B']. assert (D' : j = w * (j / w) + j mod w) by (apply Z.div_mod; lia).
      unfold bondb, point. cbn [fst snd]. set (a := i mod w) in *. set (b := i / w) in *. set (a' := j mod w) in *. set (b' := j / w) in *. clearbody a b a' b'. subst i j.
      destruct (Z.ltb_spec (w * b + a) (w * b' + a')), (Z.eqb_spec (Z.abs (a - a') + Z.abs (b - b')) 1), (Z.ltb_spec a (w - 1)), (Z.ltb_spec b (h - 1)),
        (Z.eqb_spec (w * b' + a') (w * b + a + 1)), (Z.eqb_spec (w * b' + a') (w * b + a + w)); cbn [andb only]; try ring; exfalso.
      all: assert (CB : b' = b \/ b' < b \/ b < b') by lia; destruct CB as [CB|[CB|CB]]; [subst b' | assert (w * b' <= w * b - w) by nia | assert (w * b + w <= w * b') by nia]; try nia.
      all: try (assert (b' = b + 1) by (assert (w * b' < w * b + w + w) by nia; nia); subst b'; nia).
      all: try (assert (w = 1) by nia; subst w; assert (a = 0) by lia; assert (a' = 0) by lia; subst; lia).
    - rewrite sum_sites_add. f_equal.
      + destruct (Z.ltb_spec (i mod w) (w - 1)) as [L|L]; cbn [andb only]; [apply (sum_site _ _ (fun _ => k)); nia | apply sum_sites_zero; reflexivity].
      + destruct (Z.ltb_spec (i / w) (h - 1)) as [L|L]; cbn [andb only]; [apply (sum_site _ _ (fun _ => k)); nia | apply sum_sites_zero; reflexivity]. }
  rewrite (sum_sites_ext _ _ _ N), sum_sites_add. unfold grid_bonds. rewrite qz_add, Qcmult_plus_distr_l. f_equal; rewrite sum_rows by lia.
  - rewrite (sum_sites_ext _ _ (fun _ => qz (w - 1) * k)%Qc); [rewrite sum_const by lia; rewrite Qcmult_assoc; f_equal; apply Qc_eq_this; rewrite this_mul, !this_qz; unfold Qeq; cbn; lia|].
    intros b Hb. rewrite <- (sum_but_last w k Hw). apply sum_sites_ext. intros a Ha. pose proof (point_of w a b Ha) as P. injection P as P1 P2. now rewrite P1.
  - rewrite (sum_sites_ext _ _ (fun b => only (b <? h - 1) (qz w * k))%Qc); [rewrite sum_but_last by lia; rewrite Qcmult_assoc; f_equal; apply Qc_eq_this; rewrite this_mul, !this_qz; unfold Qeq; cbn; lia|].
    intros b Hb. rewrite (sum_sites_ext _ _ (fun _ => only (b <? h - 1) k)).
    + rewrite sum_const by lia. destruct (b <? h - 1); cbn [only]; ring.
    + intros a Ha. pose proof (point_of w a b Ha) as P. injection P as P1 P2. now rewrite P2.
Qed.
