(** Sums over the states of a sector of quantities of two sites, and the diagonal of the Hamiltonian (for C101). *)
From Coq Require Import ZArith List Bool QArith Qcanon Lia.
From Verif Require Import PyBase PyFacts Runtimes Lattice Base Interact Ham Spec SpecOps SpecTJ SpecSpin SpinDefs Geometry HamSpec SignDefs EnergyDefs TraceDefs.
From Verif Require Import PSpin PQc PBasis PSites PRot PInter PHam POps PWave FGeo FSites FInter FHam PSecSum PBound PSign PSignOp PPerron FSign FMotion PEnergy FEnergy FProj PLevels.
Import ListNotations.
Open Scope Z_scope.

Lemma qz_mul : forall a b, qz (a * b) = (qz a * qz b)%Qc.
Proof. intros a b. apply Qc_eq_this. rewrite this_mul, !this_qz. unfold Qeq. cbn. lia. Qed.

Section Pairs.
Variables n h b : Z.
Hypotheses (Hn : 0 <= n) (Hh : 0 <= h) (Hb : 0 <= b).
Variable g : particle -> particle -> bool.
Hypothesis sym : forall p q, g p q = g q p.

(** how many states of the sector have the property at the two sites *)
Definition pairs (x y : Z) : Qc := ssum n h b (fun s => only (g (s x) (s y)) 1%Qc).

Lemma pairs_sym : forall x y, pairs x y = pairs y x.
Proof. intros x y. unfold pairs, ssum. apply qsum_ext. intros d _. now rewrite sym. Qed.
Lemma swap_swap : forall x y s z, x <> y -> swap_state x y (swap_state x y s) z = s z.
Proof.
  intros x y s z D. unfold swap_state. destruct (Z.eqb_spec z x) as [->|].
  - destruct (Z.eqb_spec y x); [congruence|]. now rewrite Z.eqb_refl.
  - destruct (Z.eqb_spec z y) as [->|]; [|reflexivity]. rewrite Z.eqb_refl. reflexivity.
Qed.
Lemma swap_sector : forall x y s, 0 <= x < n -> 0 <= y < n -> in_sector n h b s -> in_sector n h b (swap_state x y s).
Proof. intros x y s Hx Hy Sc. eapply describes_sector. apply swap_describes; try assumption. now apply canon_describes. Qed.
Lemma pairs_move : forall x x' y, 0 <= x < n -> 0 <= x' < n -> 0 <= y < n -> x <> y -> x' <> y -> pairs x y = pairs x' y.
Proof.
  intros x x' y Hx Hx' Hy D D'. destruct (Z.eq_dec x x') as [->|N]; [reflexivity|]. unfold pairs.
  apply (ssum_move n h b h b (swap_state x x') (swap_state x x') (fun s => g (s x) (s y)) (fun s => g (s x') (s y)) (fun _ => 1%Qc)); try assumption.
  - intros s t E z Hz. unfold swap_state. destruct (z =? x); [now apply E|]. destruct (z =? x'); now apply E.
  - intros s t E z Hz. unfold swap_state. destruct (z =? x); [now apply E|]. destruct (z =? x'); now apply E.
  - intros s t E. now rewrite (E x Hx), (E y Hy).
  - intros s t E. now rewrite (E x' Hx'), (E y Hy).
  - intros s t E. reflexivity.
  - intros s Sc P. split; [now apply swap_sector|]. split; [|intros z _; now apply swap_swap].
    unfold swap_state. destruct (Z.eqb_spec x' x); [congruence|]. rewrite Z.eqb_refl. destruct (Z.eqb_spec y x); [congruence|]. destruct (Z.eqb_spec y x'); [congruence|]. exact P.
  - intros s Sc P. split; [now apply swap_sector|]. split; [|intros z _; now apply swap_swap].
    unfold swap_state. rewrite Z.eqb_refl. destruct (Z.eqb_spec y x); [congruence|]. destruct (Z.eqb_spec y x'); [congruence|]. exact P.
Qed.
Lemma pairs_same : forall x y x' y', 0 <= x < n -> 0 <= y < n -> 0 <= x' < n -> 0 <= y' < n -> x <> y -> x' <> y' -> pairs x y = pairs x' y'.
Proof.
  intros x y x' y' Hx Hy Hx' Hy' D D'. destruct (Z.eq_dec x' y) as [->|N].
  - rewrite (pairs_sym y y'). apply pairs_move; auto.
  - rewrite (pairs_move x x' y) by assumption. rewrite (pairs_sym x' y), (pairs_sym x' y'). apply pairs_move; auto.
Qed.

Lemma sum_not : forall x k, 0 <= x < n -> sum_sites n (fun y => only (negb (x =? y)) k) = (qz (n - 1) * k)%Qc.
Proof.
  intros x k Hx. assert (E : (sum_sites n (fun y => only (negb (x =? y)) k) + k = qz n * k)%Qc).
  { rewrite <- (sum_const n k Hn). transitivity (sum_sites n (fun y => only (negb (x =? y)) k) + sum_sites n (fun y => only (y =? x) k))%Qc; [f_equal; symmetry; exact (sum_site n x (fun _ => k) Hx)|]. rewrite <- sum_sites_add. apply sum_sites_ext. intros y _. rewrite (Z.eqb_sym y x). destruct (x =? y); cbn [negb only]; ring. }
  assert (Q : qz n = (qz (n - 1) + 1)%Qc) by (change 1%Qc with (qz 1); rewrite <- qz_add; f_equal; lia). rewrite Q in E.
  replace ((qz (n - 1) + 1) * k)%Qc with (qz (n - 1) * k + k)%Qc in E by ring. revert E. generalize (sum_sites n (fun y => only (negb (x =? y)) k)). intros u E.
  replace u with (u + k - k)%Qc by ring. rewrite E. ring.
Qed.
Lemma states_const : forall k, ssum n h b (fun _ => k) = (qz (zlen (slist n h b)) * k)%Qc.
Proof. intros k. unfold ssum. apply qsum_const. Qed.

(** if every state has the same number [t] of such pairs *)
Lemma pairs_total : forall t x y, 0 <= x < n -> 0 <= y < n -> x <> y ->
  (forall s, in_sector n h b s -> sum_sites n (fun i => sum_sites n (fun j => only (negb (i =? j) && g (s i) (s j)) 1%Qc)) = t) ->
  (qz (n * (n - 1)) * pairs x y = qz (zlen (slist n h b)) * t)%Qc.
Proof.
  intros t x y Hx Hy D T. rewrite <- states_const. rewrite (ssum_ext n h b Hn Hh Hb _ (fun s => sum_sites n (fun i => sum_sites n (fun j => only (negb (i =? j) && g (s i) (s j)) 1%Qc)))) by (intros; symmetry; now apply T).
  rewrite ssum_sites. rewrite qz_mul, <- Qcmult_assoc, <- (sum_const n) by assumption. apply sum_sites_ext. intros i Hi. rewrite ssum_sites, <- (sum_not i) by assumption.
  apply sum_sites_ext. intros j Hj. destruct (Z.eqb_spec i j) as [->|N]; cbn [negb only andb].
  - symmetry. apply ssum_zero; try assumption. reflexivity.
  - now apply pairs_same.
Qed.
End Pairs.

(** ** numbers of particles *)
Section Particles.
Variables (n h b : Z) (s : occupation).
Hypotheses (Hn : 0 <= n) (Sc : in_sector n h b s).

Lemma group_sum : forall p, sum_sites n (fun x => only (is_p (s x) p) 1%Qc) = qz (match p with Hole => h | Down => b | Up => n - h - b end).
Proof.
  assert (G : forall q, sum_sites n (fun x => only (is_p (s x) q) 1%Qc) = qz (zlen (sites_of n s q))).
  { intros q. unfold sum_sites. rewrite <- (qsum_filter _ (fun _ => 1%Qc)), qsum_const, Qcmult_1_r. f_equal. unfold zlen. f_equal. apply Permutation.Permutation_length. apply Permutation.NoDup_Permutation.
    - apply NoDup_filter, PSpin.sites_NoDup.
    - apply sites_of_NoDup.
    - intros x. rewrite filter_In, in_sites, in_sites_of, is_p_eq. reflexivity. }
  destruct Sc as [S1 S2]. intros p. destruct p; [now rewrite G, S1 | now rewrite G, S2 |].
  assert (T : (sum_sites n (fun x => only (is_p (s x) Hole) 1) + sum_sites n (fun x => only (is_p (s x) Down) 1) + sum_sites n (fun x => only (is_p (s x) Up) 1) = qz n)%Qc).
  { rewrite <- !sum_sites_add. rewrite <- (Qcmult_1_r (qz n)), <- (sum_const n) by assumption. apply sum_sites_ext. intros x _. destruct (s x); cbn [is_p only]; ring. }
  rewrite (G Hole), (G Down), S1, S2 in T. revert T. generalize (sum_sites n (fun x => only (is_p (s x) Up) 1%Qc)). intros u T.
  replace u with (qz h + qz b + u - qz h - qz b)%Qc by ring. rewrite T. apply Qc_eq_this. rewrite !this_sub, !this_qz. unfold Qeq. cbn. lia.
Qed.
Lemma product_sum : forall p q, sum_sites n (fun i => sum_sites n (fun j => only (is_p (s i) p && is_p (s j) q) 1%Qc)) =
  (sum_sites n (fun x => only (is_p (s x) p) 1) * sum_sites n (fun x => only (is_p (s x) q) 1))%Qc.
Proof.
  intros p q. rewrite Qcmult_comm. unfold sum_sites at 1 4. rewrite <- qsum_scale. apply qsum_ext. intros i _. rewrite Qcmult_comm. unfold sum_sites. rewrite <- qsum_scale. apply qsum_ext. intros j _.
  destruct (is_p (s i) p), (is_p (s j) q); cbn [andb only]; ring.
Qed.

(** ordered pairs of opposite spins, and of holes *)
Lemma opposite_pairs : sum_sites n (fun i => sum_sites n (fun j => only (negb (i =? j) && oppositeb (s i) (s j)) 1%Qc)) = qz (2 * ((n - h - b) * b)).
Proof.
  transitivity (sum_sites n (fun i => sum_sites n (fun j => only (is_p (s i) Up && is_p (s j) Down) 1 + only (is_p (s i) Down && is_p (s j) Up) 1)%Qc)).
  - apply sum_sites_ext. intros i _. apply sum_sites_ext. intros j _. destruct (Z.eqb_spec i j) as [->|N]; cbn [negb andb].
    + destruct (s j); cbn [is_p andb only]; ring.
    + destruct (s i), (s j); cbn [is_p oppositeb andb only]; ring.
  - rewrite (sum_sites_ext _ _ (fun i => sum_sites n (fun j => only (is_p (s i) Up && is_p (s j) Down) 1) + sum_sites n (fun j => only (is_p (s i) Down && is_p (s j) Up) 1))%Qc) by (intros; apply sum_sites_add).
    rewrite sum_sites_add, !product_sum, !group_sum, !qz_mul. replace (qz 2) with (1 + 1)%Qc by (apply Qc_is_canon; reflexivity). ring.
Qed.
Lemma hole_pairs : sum_sites n (fun i => sum_sites n (fun j => only (negb (i =? j) && (holeb (s i) && holeb (s j))) 1%Qc)) = qz (h * (h - 1)).
Proof.
  assert (E : (sum_sites n (fun i => sum_sites n (fun j => only (negb (i =? j) && (holeb (s i) && holeb (s j))) 1)) + qz h = qz h * qz h)%Qc).
  { rewrite <- (group_sum Hole) at 2 3. rewrite <- product_sum. rewrite <- (group_sum Hole), <- sum_sites_add. apply sum_sites_ext. intros i Hi.
    rewrite <- (sum_site n i (fun _ => only (is_p (s i) Hole) 1%Qc)) by assumption. rewrite <- sum_sites_add. apply sum_sites_ext. intros j Hj. destruct (Z.eqb_spec i j) as [->|N].
    - rewrite Z.eqb_refl. cbn [negb andb only]. destruct (s j); cbn [is_p andb only]; ring.
    - destruct (Z.eqb_spec j i); [congruence|]. cbn [negb andb only]. destruct (s i), (s j); cbn [is_p holeb andb only]; ring. }
  revert E. generalize (sum_sites n (fun i => sum_sites n (fun j => only (negb (i =? j) && (holeb (s i) && holeb (s j))) 1%Qc))). intros u E.
  replace u with (u + qz h - qz h)%Qc by ring. rewrite E. replace (h * (h - 1)) with (h * h + - h) by ring. rewrite qz_add, qz_mul. replace (qz (- h)) with (- qz h)%Qc by (apply Qc_is_canon; rewrite this_opp, !this_qz; reflexivity). ring.
Qed.
End Particles.

(** ** number of diagonals *)
Lemma count_diagonals : forall w h k, 0 < w -> 0 < h ->
  sum_sites (w * h) (fun i => sum_sites (w * h) (fun j => only ((i <? j) && diagb (point w i) (point w j)) k)) = (qz (grid_diagonals w h) * k)%Qc.
Proof.
  intros w h k Hw Hh.
  assert (N : forall i, 0 <= i < w * h -> sum_sites (w * h) (fun j => only ((i <? j) && diagb (point w i) (point w j)) k) =
    (only ((i mod w <? w - 1) && (i / w <? h - 1)) k + only ((0 <? i mod w) && (i / w <? h - 1)) k)%Qc).
  { intros i Hi. destruct (point_bound w h i Hw Hi) as [A B]. assert (D : i = w * (i / w) + i mod w) by (apply Z.div_mod; lia).
    transitivity (sum_sites (w * h) (fun j => only (((i mod w <? w - 1) && (i / w <? h - 1)) && (j =? i + w + 1)) k + only (((0 <? i mod w) && (i / w <? h - 1)) && (j =? i + w - 1)) k)%Qc).
    - apply sum_sites_ext. intros j Hj. destruct (point_bound w h j Hw Hj) as [A' B']. assert (D' : j = w * (j / w) + j mod w) by (apply Z.div_mod; lia).
      unfold diagb, point. cbn [fst snd]. set (a := i mod w) in *. set (b := i / w) in *. set (a' := j mod w) in *. set (b' := j / w) in *. clearbody a b a' b'. subst i j.
      assert (CB : b' <= b - 1 \/ b' = b \/ b' = b + 1 \/ b + 2 <= b') by lia. destruct CB as [CB|[CB|[CB|CB]]].
      + assert (w * b' <= w * b - w) by nia. destruct (Z.ltb_spec (w * b + a) (w * b' + a')); [lia|]. cbn [andb only].
        destruct (Z.eqb_spec (w * b' + a') (w * b + a + w + 1)); [lia|]. destruct (Z.eqb_spec (w * b' + a') (w * b + a + w - 1)); [lia|]. rewrite !andb_false_r. cbn [only]. ring.
      + subst b'. rewrite Z.sub_diag. cbn [Z.abs Z.eqb]. rewrite !andb_false_r. cbn [only].
        destruct (Z.eqb_spec (w * b + a') (w * b + a + w + 1)); [lia|]. rewrite andb_false_r. cbn [only].
        destruct (Z.ltb_spec 0 a); cbn [andb only]; [|ring]. destruct (Z.eqb_spec (w * b + a') (w * b + a + w - 1)); [lia|]. rewrite andb_false_r. cbn [only]. ring.
      + subst b'. rewrite Z.mul_add_distr_l, Z.mul_1_r. replace (b - (b + 1)) with (-1) by ring. cbn [Z.abs Z.eqb]. rewrite andb_true_r.
        destruct (Z.ltb_spec b (h - 1)); [|lia]. rewrite !andb_true_r.
        destruct (Z.ltb_spec (w * b + a) (w * b + w + a')); [|lia]. cbn [andb].
        destruct (Z.eqb_spec (Z.abs (a - a')) 1), (Z.ltb_spec a (w - 1)), (Z.ltb_spec 0 a), (Z.eqb_spec (w * b + w + a') (w * b + a + w + 1)), (Z.eqb_spec (w * b + w + a') (w * b + a + w - 1)); cbn [andb only]; try ring; exfalso; lia.
      + assert (w * b + 2 * w <= w * b') by nia. destruct (Z.eqb_spec (Z.abs (b - b')) 1); [lia|]. rewrite !andb_false_r. cbn [only].
        destruct (Z.ltb_spec a (w - 1)); cbn [andb only].
        * destruct (Z.eqb_spec (w * b' + a') (w * b + a + w + 1)); [lia|]. destruct (Z.eqb_spec (w * b' + a') (w * b + a + w - 1)); [lia|]. rewrite !andb_false_r. cbn [only]. ring.
        * destruct (Z.eqb_spec (w * b' + a') (w * b + a + w - 1)); [lia|]. rewrite !andb_false_r. cbn [only]. ring.
    - rewrite sum_sites_add. f_equal.
      + destruct (Z.ltb_spec (i mod w) (w - 1)), (Z.ltb_spec (i / w) (h - 1)); cbn [andb only]; [apply (sum_site _ _ (fun _ => k)); nia | apply sum_sites_zero; reflexivity ..].
      + destruct (Z.ltb_spec 0 (i mod w)), (Z.ltb_spec (i / w) (h - 1)); cbn [andb only]; [apply (sum_site _ _ (fun _ => k)); nia | apply sum_sites_zero; reflexivity ..]. }
  rewrite (sum_sites_ext _ _ _ N), sum_sites_add. clear N.
  assert (R : forall g, sum_sites w (fun a => only (g a) k) = (qz (w - 1) * k)%Qc ->
    sum_sites (w * h) (fun i => only (g (i mod w) && (i / w <? h - 1)) k) = (qz ((w - 1) * (h - 1)) * k)%Qc).
  { intros g G. rewrite sum_rows by lia. rewrite (sum_sites_ext _ _ (fun b => only (b <? h - 1) (qz (w - 1) * k))%Qc).
    - rewrite sum_but_last by lia. rewrite qz_mul. ring.
    - intros b Hb. rewrite <- G. destruct (b <? h - 1) eqn:Q; cbn [only].
      + apply sum_sites_ext. intros a Ha. pose proof (point_of w a b Ha) as P. injection P as P1 P2. now rewrite P1, P2, Q, andb_true_r.
      + apply sum_sites_zero. intros a Ha. pose proof (point_of w a b Ha) as P. injection P as P1 P2. now rewrite P2, Q, andb_false_r. }
  rewrite (R (fun a => a <? w - 1)) by now apply sum_but_last. rewrite (R (fun a => 0 <? a)).
  - unfold grid_diagonals. replace (2 * ((w - 1) * (h - 1))) with ((w - 1) * (h - 1) + (w - 1) * (h - 1)) by ring. rewrite qz_add. ring.
  - rewrite (sum_sites_ext _ _ (fun a => only (negb (0 =? a)) k)); [apply sum_not; lia|]. intros a Ha. destruct (Z.ltb_spec 0 a), (Z.eqb_spec 0 a); cbn [negb]; try reflexivity; lia.
Qed.

(** ** orthogonal rows *)
Lemma sum_delta : forall N i (f : nat -> Qc), (i < N)%nat -> sumN N (fun j => if Nat.eqb i j then f j else 0%Qc) = f i.
Proof. intros N i f H. unfold sumN. now apply qsum_delta. Qed.
Lemma other_side : forall N (v : nat -> nat -> Qc) (q : nat -> Qc), (forall k, (k < N)%nat -> q k <> 0%Qc) ->
  (forall k l, (k < N)%nat -> (l < N)%nat -> sumN N (fun i => v k i * v l i)%Qc = if Nat.eqb k l then q k else 0%Qc) ->
  forall i j, (i < N)%nat -> (j < N)%nat -> sumN N (fun k => v k i * (v k j / q k))%Qc = if Nat.eqb i j then 1%Qc else 0%Qc.
Proof.
  intros N v q Q O i j Hi Hj. set (r := fun i => ((if Nat.eqb i j then 1 else 0) - sumN N (fun k => v k i * (v k j / q k)))%Qc).
  assert (R : forall l, (l < N)%nat -> sumN N (fun i => v l i * r i)%Qc = 0%Qc).
  { intros l Hl. rewrite (sum_ext N _ (fun i => (if Nat.eqb j i then v l i else 0) + (- (1)) * sumN N (fun k => (v l i * v k i) * (v k j / q k)))%Qc).
    - rewrite sum_add, sum_delta, sum_scale by assumption. unfold sumN. rewrite qsum_exchange.
      rewrite (qsum_ext _ _ (fun k => if Nat.eqb l k then q l * (v k j / q k) else 0)%Qc).
      + rewrite (qsum_delta N l (fun k => q l * (v k j / q k))%Qc) by assumption. field. now apply Q.
      + intros k Hk. apply in_seq in Hk. transitivity ((v k j / q k) * sumN N (fun i => v l i * v k i))%Qc.
        * unfold sumN. rewrite <- qsum_scale. apply qsum_ext. intros; ring.
        * rewrite O by lia. destruct (Nat.eqb l k); ring.
    - intros a Ha. unfold r. rewrite Nat.eqb_sym. replace (sumN N (fun k => v l a * v k a * (v k j / q k))%Qc) with (v l a * sumN N (fun k => v k a * (v k j / q k)))%Qc.
      + destruct (Nat.eqb j a); ring.
      + rewrite <- sum_scale. apply sum_ext. intros; ring. }
  assert (Z0 : r i = 0%Qc).
  { destruct (nullspace (S N) (map (fun i k => if Nat.eqb k N then r i else v k i) (seq 0 N))) as (c & (k0 & Hk0 & NK) & Z0); [rewrite map_length, seq_length; lia|].
    assert (E : forall i, (i < N)%nat -> (sumN N (fun k => v k i * c k) + r i * c N = 0)%Qc).
    { intros a Ha. specialize (Z0 _ (in_map _ _ a (proj2 (in_seq N 0 a) ltac:(lia)))). cbv beta in Z0. rewrite seq_S, qsum_app, qsum_one in Z0. cbn [Nat.add] in Z0. rewrite Nat.eqb_refl in Z0.
      refine (eq_trans _ Z0). f_equal. apply qsum_ext. intros k Hk. apply in_seq in Hk. destruct (Nat.eqb_spec k N); [lia | reflexivity]. }
    assert (C : forall l, (l < N)%nat -> c l = 0%Qc).
    { intros l Hl. assert (X : (q l * c l = 0)%Qc).
      { transitivity (sumN N (fun i => v l i * (sumN N (fun k => v k i * c k) + r i * c N)))%Qc.
        - rewrite (sum_ext N _ (fun i => sumN N (fun k => (v l i * v k i) * c k) + c N * (v l i * r i))%Qc).
          + rewrite sum_add, sum_scale, R by assumption. unfold sumN. rewrite qsum_exchange.
            rewrite (qsum_ext _ _ (fun k => if Nat.eqb l k then q l * c k else 0)%Qc).
            * rewrite (qsum_delta N l (fun k => q l * c k)%Qc) by assumption. ring.
            * intros k Hk. apply in_seq in Hk. transitivity (c k * sumN N (fun i => v l i * v k i))%Qc.
              -- unfold sumN. rewrite <- qsum_scale. apply qsum_ext. intros; ring.
              -- rewrite O by lia. destruct (Nat.eqb l k); ring.
          + intros a Ha. rewrite Qcmult_plus_distr_r, <- sum_scale. f_equal; [apply sum_ext; intros; ring | ring].
        - unfold sumN at 1. apply qsum_zero. intros a Ha. apply in_seq in Ha. rewrite E by lia. ring. }
      destruct (Qcmult_integral _ _ X) as [Y|Y]; [exfalso; now apply (Q l Hl) | exact Y]. }
    assert (CN : c N <> 0%Qc) by (destruct (Nat.eq_dec k0 N) as [->|D]; [assumption | exfalso; apply NK, C; lia]).
    specialize (E i Hi). unfold sumN in E. rewrite qsum_zero in E.
    - rewrite Qcplus_0_l in E. destruct (Qcmult_integral _ _ E); [assumption | contradiction].
    - intros k Hk. apply in_seq in Hk. rewrite C by lia. ring. }
  unfold r in Z0. revert Z0. generalize (sumN N (fun k => v k i * (v k j / q k))%Qc) (if Nat.eqb i j then 1%Qc else 0%Qc). intros x y Z0.
  replace x with (y - (y - x))%Qc by ring. rewrite Z0. ring.
Qed.

(** the sum of the values of a complete set of orthogonal eigenvectors is the sum of the diagonal *)
Lemma sum_of_values : forall N (a v : nat -> nat -> Qc) (e q : nat -> Qc), (forall k, (k < N)%nat -> q k <> 0%Qc) ->
  (forall k l, (k < N)%nat -> (l < N)%nat -> sumN N (fun i => v k i * v l i)%Qc = if Nat.eqb k l then q k else 0%Qc) ->
  (forall k i, (k < N)%nat -> (i < N)%nat -> sumN N (fun j => a i j * v k j)%Qc = (e k * v k i)%Qc) ->
  sumN N (fun i => a i i) = sumN N e.
Proof.
  intros N a v e q Q O H. pose proof (other_side N v q Q O) as C.
  transitivity (sumN N (fun i => sumN N (fun j => a i j * sumN N (fun k => v k i * (v k j / q k))))%Qc).
  - apply sum_ext. intros i Hi. rewrite (sum_ext N _ (fun j => if Nat.eqb i j then a i j else 0%Qc)); [symmetry; now apply (sum_delta N i (a i))|].
    intros j Hj. rewrite C by assumption. destruct (Nat.eqb i j); ring.
  - transitivity (sumN N (fun i => sumN N (fun k => (e k / q k) * (v k i * v k i)))%Qc).
    + apply sum_ext. intros i Hi. rewrite (sum_ext N _ (fun j => sumN N (fun k => (v k i / q k) * (a i j * v k j)))%Qc).
      * unfold sumN. rewrite qsum_exchange. apply qsum_ext. intros k Hk. apply in_seq in Hk. rewrite qsum_scale. fold (sumN N (fun j => a i j * v k j)%Qc). rewrite H by lia. unfold Qcdiv. ring.
      * intros j Hj. rewrite <- sum_scale. apply sum_ext. intros. unfold Qcdiv. ring.
    + unfold sumN. rewrite qsum_exchange. apply qsum_ext. intros k Hk. apply in_seq in Hk. rewrite qsum_scale. fold (sumN N (fun i => v k i * v k i)%Qc). rewrite O, Nat.eqb_refl by lia. field. apply Q. lia.
Qed.
