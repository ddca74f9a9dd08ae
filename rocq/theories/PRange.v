(** Rows of the extended t-J operator (for C100): sums of sizes of elements. *)
From Coq Require Import ZArith List Bool QArith Qcanon Lia.
From Verif Require Import PyBase PyFacts Runtimes Lattice Base Interact Ham Spec SpecOps SpecTJ SpinDefs Geometry HamSpec SignDefs EnergyDefs RangeDefs.
From Verif Require Import PSpin PQc PBasis PSites PHam POps FGeo FSites FInter FHam PSecSum PBound PDavIter PDav FDav FSpinVal PSign PSignOp PPerron FSign FMotion PEnergy FEnergy Examples.
Import ListNotations.
Open Scope Z_scope.

(** ** sizes *)
Lemma qsum_le : forall A (f g : A -> Qc) l, (forall x, In x l -> (f x <= g x)%Qc) -> (qsum f l <= qsum g l)%Qc.
Proof.
  intros A f g. induction l as [|x l IH]; intros H; [apply Qcle_refl|]. rewrite !qsum_cons.
  apply Qcplus_le_compat; [apply H; now left | apply IH; intros; apply H; now right].
Qed.
Lemma magnitude_le : forall b x, within b x <-> (SignDefs.magnitude x <= b)%Qc.
Proof.
  intros b x. unfold within. destruct (magnitude_cases x) as [[P ->]|[P ->]]; split; intros H; try (destruct H as [H1 H2]); try split; try assumption; qc.
Qed.
Lemma magnitude_add : forall x y, (SignDefs.magnitude (x + y) <= SignDefs.magnitude x + SignDefs.magnitude y)%Qc.
Proof.
  intros x y. destruct (magnitude_cases x) as [[P ->]|[P ->]], (magnitude_cases y) as [[Q ->]|[Q ->]], (magnitude_cases (x + y)) as [[R ->]|[R ->]]; apply Qcle_minus_iff; qc.
Qed.
Lemma magnitude_unique : forall x m, (0 <= m)%Qc -> x = m \/ x = (- m)%Qc -> SignDefs.magnitude x = m.
Proof.
  intros x m P H. destruct (magnitude_cases x) as [[Q ->]|[Q ->]]; destruct H as [->| ->]; try reflexivity; try ring; apply Qcle_antisym; qc.
Qed.
Lemma magnitude_product : forall y z, SignDefs.magnitude (y * z) = (SignDefs.magnitude y * SignDefs.magnitude z)%Qc.
Proof.
  intros y z. apply magnitude_unique; [apply Qcmult_nonneg; apply magnitude_nonneg|].
  destruct (magnitude_cases y) as [[P ->]|[P ->]], (magnitude_cases z) as [[Q ->]|[Q ->]]; [left | right | right | left]; ring.
Qed.
Lemma magnitude_sum : forall A (f : A -> Qc) l, (SignDefs.magnitude (qsum f l) <= qsum (fun x => SignDefs.magnitude (f x)) l)%Qc.
Proof.
  intros A f. induction l as [|x l IH]; [apply Qcle_refl|]. rewrite !qsum_cons. eapply Qcle_trans; [apply magnitude_add|]. apply Qcplus_le_compat; [apply Qcle_refl | exact IH].
Qed.
Lemma magnitude_only : forall b x k, (SignDefs.magnitude x <= k)%Qc -> (SignDefs.magnitude (only b x) <= only b k)%Qc.
Proof. intros [] x k H; [exact H | apply Qcle_refl]. Qed.
Lemma only_le : forall b x y, (x <= y)%Qc -> (only b x <= only b y)%Qc.
Proof. intros [] x y H; [exact H | apply Qcle_refl]. Qed.
Lemma only_nonneg : forall b x, (0 <= x)%Qc -> (0 <= only b x)%Qc.
Proof. intros [] x H; [exact H | apply Qcle_refl]. Qed.
Lemma only_weak : forall a b x, (a = true -> b = true) -> (0 <= x)%Qc -> (only a x <= only b x)%Qc.
Proof. intros [] [] x H P; try apply Qcle_refl; try exact P. discriminate (H eq_refl). Qed.
Lemma sites_le : forall n f g, (forall x, 0 <= x < n -> (f x <= g x)%Qc) -> (sum_sites n f <= sum_sites n g)%Qc.
Proof. intros n f g H. apply qsum_le. intros x I. apply H. now apply in_sites. Qed.

(** ** symmetric matrices with bounded rows *)
Section Rows.
Variables (N : nat) (a : nat -> nat -> Qc) (b : Qc).
Hypothesis sym : forall i j, (i < N)%nat -> (j < N)%nat -> a i j = a j i.
Hypothesis rows : forall i, (i < N)%nat -> (sumN N (fun j => SignDefs.magnitude (a i j)) <= b)%Qc.

Lemma product_le : forall x u v, (SignDefs.magnitude (u * (x * v)) + SignDefs.magnitude (u * (x * v)) <= SignDefs.magnitude x * (u * u) + SignDefs.magnitude x * (v * v))%Qc.
Proof.
  intros x u v. rewrite <- (magnitude_square u), <- (magnitude_square v). rewrite !magnitude_product.
  set (p := SignDefs.magnitude u). set (q := SignDefs.magnitude v). set (y := SignDefs.magnitude x).
  apply Qcle_minus_iff. replace (y * (p * p) + y * (q * q) + - (p * (y * q) + p * (y * q)))%Qc with (y * ((p - q) * (p - q)))%Qc by ring.
  apply Qcmult_nonneg; [apply magnitude_nonneg | apply square_nonneg].
Qed.

Lemma rows_bound : forall u, within (b * size_of N u) (mean_of N a u).
Proof.
  intros u. apply magnitude_le.
  set (M := fun i j => SignDefs.magnitude (u i * (a i j * u j))).
  set (P := fun i j => (SignDefs.magnitude (a i j) * (u i * u i))%Qc).
  assert (Q1 : (sumN N (fun i => sumN N (fun j => P i j)) <= b * size_of N u)%Qc).
  { unfold size_of. rewrite <- sum_scale. apply sum_le. intros i Hi. unfold P. rewrite (sum_ext N _ (fun j => (u i * u i) * SignDefs.magnitude (a i j))%Qc) by (intros; ring).
    rewrite sum_scale, Qcmult_comm. apply Qcmult_le_compat_r; [now apply rows | apply square_nonneg]. }
  assert (Q2 : sumN N (fun i => sumN N (fun j => P j i)) = sumN N (fun i => sumN N (fun j => P i j))) by (symmetry; unfold sumN; apply qsum_exchange).
  assert (Q3 : (SignDefs.magnitude (mean_of N a u) <= sumN N (fun i => sumN N (fun j => M i j)))%Qc).
  { unfold mean_of, act. eapply Qcle_trans; [apply magnitude_sum|]. apply sum_le. intros i Hi. rewrite <- sum_scale. apply magnitude_sum. }
  assert (Q4 : (sumN N (fun i => sumN N (fun j => M i j)) + sumN N (fun i => sumN N (fun j => M i j)) <= sumN N (fun i => sumN N (fun j => P i j)) + sumN N (fun i => sumN N (fun j => P j i)))%Qc).
  { rewrite <- !sum_add. apply sum_le. intros i Hi. rewrite <- !sum_add. apply sum_le. intros j Hj. unfold M, P. rewrite (sym j i) by assumption. apply product_le. }
  rewrite Q2 in Q4. revert Q1 Q3 Q4. generalize (sumN N (fun i => sumN N (fun j => P i j))) (sumN N (fun i => sumN N (fun j => M i j))) (SignDefs.magnitude (mean_of N a u)) (b * size_of N u)%Qc.
  intros x y z t Q1 Q3 Q4. qc.
Qed.
End Rows.

(** ** counting *)
Lemma at_most_one : forall A (P : A -> bool) l k, (0 <= k)%Qc -> NoDup l -> (forall x y, In x l -> In y l -> P x = true -> P y = true -> x = y) -> (qsum (fun x => only (P x) k) l <= k)%Qc.
Proof.
  intros A P l k K. induction l as [|x l IH]; intros ND U; [exact K|]. rewrite qsum_cons. inversion ND as [|? ? NI ND']; subst. destruct (P x) eqn:Q; cbn [only].
  - rewrite (qsum_zero _ _ l); [rewrite Qcplus_0_r; apply Qcle_refl|]. intros y Iy. destruct (P y) eqn:R; [|reflexivity]. exfalso. apply NI. replace x with y; [assumption|].
    apply U; try assumption; [now right | now left].
  - rewrite Qcplus_0_l. apply IH; [assumption|]. intros y z Iy Iz. apply U; now right.
Qed.

Definition samepoint (p q : Z * Z) : bool := (fst p =? fst q) && (snd p =? snd q).
Lemma samepoint_eq : forall p q, samepoint p q = true <-> p = q.
Proof. intros [a b] [c d]. unfold samepoint. cbn [fst snd]. rewrite andb_true_iff, !Z.eqb_eq. split; [intros [-> ->]; reflexivity | intros H; injection H; auto]. Qed.
Lemma near_le : forall n w (P : Z -> bool) D k, (0 <= k)%Qc -> (forall y, 0 <= y < n -> P y = true -> In (point w y) D) -> (sum_sites n (fun y => only (P y) k) <= qz (zlen D) * k)%Qc.
Proof.
  intros n w P D k K H.
  apply Qcle_trans with (sum_sites n (fun y => qsum (fun p => only (samepoint (point w y) p) k) D)).
  - apply sites_le. intros y Hy. destruct (P y) eqn:Q; cbn [only]; [|apply qsum_nonneg; intros; now apply only_nonneg]. specialize (H y Hy Q). clear - H K. induction D as [|p D IH]; [destruct H|].
    rewrite qsum_cons. destruct H as [->|H].
    + rewrite (proj2 (samepoint_eq _ _) eq_refl). cbn [only]. rewrite <- (Qcplus_0_r k) at 1. apply Qcplus_le_compat; [apply Qcle_refl|]. apply qsum_nonneg. intros; now apply only_nonneg.
    + rewrite <- (Qcplus_0_l k) at 1. apply Qcplus_le_compat; [now apply only_nonneg | exact (IH H)].
  - unfold sum_sites. rewrite qsum_exchange, <- qsum_const. apply qsum_le. intros p _. apply at_most_one; [exact K | apply PSpin.sites_NoDup|].
    intros x y _ _ Px Py. apply samepoint_eq in Px, Py. apply (point_inj w). congruence.
Qed.
Definition around (p : Z * Z) : list (Z * Z) := [(fst p + 1, snd p); (fst p - 1, snd p); (fst p, snd p + 1); (fst p, snd p - 1)].
Definition corners (p : Z * Z) : list (Z * Z) := [(fst p + 1, snd p + 1); (fst p + 1, snd p - 1); (fst p - 1, snd p + 1); (fst p - 1, snd p - 1)].
Definition beyond (p : Z * Z) : list (Z * Z) := [(fst p + 2, snd p); (fst p - 2, snd p); (fst p, snd p + 2); (fst p, snd p - 2)].
Lemma bond_around : forall p q, bondb p q = true -> In q (around p).
Proof.
  intros [a b] [c d] H. unfold bondb in H. cbn [fst snd] in H. apply Z.eqb_eq in H. unfold around. cbn [fst snd In].
  assert (C : (c = a + 1 /\ d = b) \/ (c = a - 1 /\ d = b) \/ (c = a /\ d = b + 1) \/ (c = a /\ d = b - 1)) by lia.
  destruct C as [[-> ->]|[[-> ->]|[[-> ->]|[-> ->]]]]; auto.
Qed.
Lemma two_around : forall p q r, bondb p q = true -> bondb q r = true -> r = p \/ In r (corners p ++ beyond p).
Proof.
  intros [a b] q r H H'. apply bond_around in H, H'. unfold corners, beyond. unfold around in H. cbn [fst snd In app] in *.
  assert (E : forall c d e f : Z, c = e -> d = f -> (c, d) = (e, f)) by congruence.
  destruct H as [<-|[<-|[<-|[<-|[]]]]]; unfold around in H'; cbn [fst snd In] in H'; destruct H' as [<-|[<-|[<-|[<-|[]]]]].
  - do 5 right. left. apply E; lia.
  - left. apply E; lia.
  - right. left. apply E; lia.
  - do 2 right. left. apply E; lia.
  - left. apply E; lia.
  - do 6 right. left. apply E; lia.
  - do 3 right. left. apply E; lia.
  - do 4 right. left. apply E; lia.
  - right. left. apply E; lia.
  - do 3 right. left. apply E; lia.
  - do 7 right. left. apply E; lia.
  - left. apply E; lia.
  - do 2 right. left. apply E; lia.
  - do 4 right. left. apply E; lia.
  - left. apply E; lia.
  - do 8 right. left. apply E; lia.
Qed.
Lemma onward : forall p q, bondb p q = true -> exists D, length D = 3%nat /\ forall r, bondb q r = true -> r <> p -> In r D.
Proof.
  intros p q H. apply bond_around in H. destruct p as [a b]. unfold around in H. cbn [fst snd In] in H.
  destruct H as [<-|[<-|[<-|[<-|[]]]]].
  - exists [(a + 1 + 1, b); (a + 1, b + 1); (a + 1, b - 1)]. split; [reflexivity|]. intros [e f] R N. unfold bondb in R. cbn [fst snd] in R. apply Z.eqb_eq in R. cbn [In].
    assert (C : (e = a + 1 + 1 /\ f = b) \/ (e = a + 1 /\ f = b + 1) \/ (e = a + 1 /\ f = b - 1)) by (assert (e <> a \/ f <> b) by (destruct (Z.eq_dec e a), (Z.eq_dec f b); subst; auto); lia).
    destruct C as [[-> ->]|[[-> ->]|[-> ->]]]; auto.
  - exists [(a - 1 - 1, b); (a - 1, b + 1); (a - 1, b - 1)]. split; [reflexivity|]. intros [e f] R N. unfold bondb in R. cbn [fst snd] in R. apply Z.eqb_eq in R. cbn [In].
    assert (C : (e = a - 1 - 1 /\ f = b) \/ (e = a - 1 /\ f = b + 1) \/ (e = a - 1 /\ f = b - 1)) by (assert (e <> a \/ f <> b) by (destruct (Z.eq_dec e a), (Z.eq_dec f b); subst; auto); lia).
    destruct C as [[-> ->]|[[-> ->]|[-> ->]]]; auto.
  - exists [(a, b + 1 + 1); (a + 1, b + 1); (a - 1, b + 1)]. split; [reflexivity|]. intros [e f] R N. unfold bondb in R. cbn [fst snd] in R. apply Z.eqb_eq in R. cbn [In].
    assert (C : (e = a /\ f = b + 1 + 1) \/ (e = a + 1 /\ f = b + 1) \/ (e = a - 1 /\ f = b + 1)) by (assert (e <> a \/ f <> b) by (destruct (Z.eq_dec e a), (Z.eq_dec f b); subst; auto); lia).
    destruct C as [[-> ->]|[[-> ->]|[-> ->]]]; auto.
  - exists [(a, b - 1 - 1); (a + 1, b - 1); (a - 1, b - 1)]. split; [reflexivity|]. intros [e f] R N. unfold bondb in R. cbn [fst snd] in R. apply Z.eqb_eq in R. cbn [In].
    assert (C : (e = a /\ f = b - 1 - 1) \/ (e = a + 1 /\ f = b - 1) \/ (e = a - 1 /\ f = b - 1)) by (assert (e <> a \/ f <> b) by (destruct (Z.eq_dec e a), (Z.eq_dec f b); subst; auto); lia).
    destruct C as [[-> ->]|[[-> ->]|[-> ->]]]; auto.
Qed.
(** the later sites next to a site, on rows of [w] sites *)
Lemma later : forall w n x y, 0 < w -> 0 <= x -> x < y -> y < n -> bondb (point w x) (point w y) = true \/ diagb (point w x) (point w y) = true ->
  In (point w y) (let p := point w x in [(fst p + 1, snd p); (fst p, snd p + 1); (fst p + 1, snd p + 1); (fst p - 1, snd p + 1)]).
Proof.
  intros w n x y Hw Hx L _ H. cbv zeta. unfold point. cbn [fst snd In].
  assert (Dx : x = w * (x / w) + x mod w) by (apply Z.div_mod; lia). assert (Dy : y = w * (y / w) + y mod w) by (apply Z.div_mod; lia).
  pose proof (Z.mod_pos_bound x w Hw). pose proof (Z.mod_pos_bound y w Hw).
  unfold bondb, diagb, point in H. cbn [fst snd] in H. rewrite andb_true_iff, !Z.eqb_eq in H.
  set (a := x mod w) in *. set (b := x / w) in *. set (c := y mod w) in *. set (d := y / w) in *. clearbody a b c d.
  assert (G : b <= d) by nia. assert (G2 : d = b -> a < c) by (intros ->; lia).
  assert (C : (c = a + 1 /\ d = b) \/ (c = a /\ d = b + 1) \/ (c = a + 1 /\ d = b + 1) \/ (c = a - 1 /\ d = b + 1)) by lia.
  destruct C as [[-> ->]|[[-> ->]|[[-> ->]|[-> ->]]]]; auto.
Qed.

(** ** rows of the operator *)
Section Row.
Variables (c : configuration) (w : Z) (r : list Z) (HF : filled c w r).
Let n := nsites c.
Let L := between n (point w) r r.

Lemma images_le : forall u k, (0 <= k)%Qc -> (qsum (fun d => only (sameb n (state_of c d) u) k) (dl c) <= k)%Qc.
Proof.
  intros u k K. pose proof HF as (RM & HR & Hh & Hb & Ha). apply at_most_one; [exact K | apply dets_NoDup|].
  assert (C : forall d, In d (dl c) -> d = canon n (state_of c d)).
  { intros d Hd. apply in_dets in Hd; [|eapply n_nonneg, row_major_drawn; eassumption]. destruct Hd as (s & Sc & ->). apply canon_same. intros y Hy.
    rewrite !Z2Nat.id in Sc by assumption. symmetry. apply (state_of_describes c _ s); [now apply canon_describes | assumption]. }
  intros d d' Id Id' Q Q'. rewrite (C d Id), (C d' Id'). apply canon_same. apply sameb_iff in Q, Q'. intros y Hy. rewrite (Q y Hy). symmetry. exact (Q' y Hy).
Qed.
Lemma image_le : forall u k, (0 <= k)%Qc -> (qsum (fun d => only (sameb n u (state_of c d)) k) (dl c) <= k)%Qc.
Proof. intros u k K. erewrite qsum_ext; [exact (images_le u k K)|]. intros d _. cbv beta. now rewrite sameb_comm. Qed.

(** two sites *)
Lemma pair_row : forall (cond : Z -> Z -> bool) (img : Z -> Z -> occupation) val k, (0 <= k)%Qc -> (forall x y, (SignDefs.magnitude (val x y) <= k)%Qc) ->
  (qsum (fun d => SignDefs.magnitude (sum_sites n (fun x => sum_sites n (fun y => only (cond x y && sameb n (state_of c d) (img x y)) (val x y))))) (dl c)
   <= sum_sites n (fun x => sum_sites n (fun y => only (cond x y) k)))%Qc.
Proof.
  intros cond img val k K V.
  apply Qcle_trans with (qsum (fun d => sum_sites n (fun x => sum_sites n (fun y => only (cond x y && sameb n (state_of c d) (img x y)) k))) (dl c)).
  - apply qsum_le. intros d _. eapply Qcle_trans; [apply magnitude_sum|]. apply sites_le. intros x _. eapply Qcle_trans; [apply magnitude_sum|]. apply sites_le. intros y _. now apply magnitude_only.
  - unfold sum_sites. rewrite qsum_exchange. apply qsum_le. intros x _. rewrite qsum_exchange. apply qsum_le. intros y _.
    destruct (cond x y); cbn [andb only]; [now apply images_le | rewrite qsum_zero by reflexivity; apply Qcle_refl].
Qed.
(** one state, seen from itself *)
Lemma diagonal_row : forall s x k, (SignDefs.magnitude x <= k)%Qc -> (qsum (fun d => SignDefs.magnitude (only (sameb n s (state_of c d)) x)) (dl c) <= k)%Qc.
Proof.
  intros s x k K. assert (K0 : (0 <= k)%Qc) by (eapply Qcle_trans; [apply magnitude_nonneg | exact K]).
  eapply Qcle_trans; [|exact (image_le s k K0)]. apply qsum_le. intros d _. now apply magnitude_only.
Qed.

Lemma holes_sum : forall d s q, describes n (nholes c) (nbeta c) d s -> sum_sites n (fun x => only (holeb (s x)) q) = (qz (nholes c) * q)%Qc.
Proof.
  intros d s q (hs & bs & us & _ & Lh & _ & Nh & _ & _ & Ih & _). unfold sum_sites. rewrite <- (qsum_filter _ (fun _ => q)).
  rewrite (qsum_perm _ _ _ hs).
  - rewrite qsum_const. unfold zlen. now rewrite Lh.
  - apply Permutation.NoDup_Permutation; [apply NoDup_filter, PSpin.sites_NoDup | exact Nh|]. intros x. rewrite filter_In, in_sites, Ih. destruct (s x); cbn [holeb]; split; intros [A B]; split; auto; discriminate.
Qed.
Lemma holes_le : forall d s f q, describes n (nholes c) (nbeta c) d s -> (forall x, 0 <= x < n -> s x = Hole -> (f x <= q)%Qc) -> (forall x, 0 <= x < n -> s x <> Hole -> f x = 0%Qc) ->
  (sum_sites n f <= qz (nholes c) * q)%Qc.
Proof.
  intros d s f q D H H0. rewrite <- (holes_sum d s q D). apply sites_le. intros x Hx. destruct (s x) eqn:Q; cbn [holeb only]; [now apply H| |]; rewrite H0 by (try assumption; congruence); apply Qcle_refl.
Qed.
Lemma qz_times : forall a b (k : Qc), (qz a * (qz b * k) = qz (b * a) * k)%Qc.
Proof. intros a b k. rewrite Qcmult_assoc. f_equal. apply Qc_eq_this. rewrite this_mul, !this_qz. unfold Qeq. cbn. lia. Qed.

Variables (z : sizes) (K : interactions) (HK : couplings_within z K) (d0 : list Z) (s : occupation) (HD : describes n (nholes c) (nbeta c) d0 s).

Lemma size_nonneg : forall b x, within b x -> (0 <= b)%Qc.
Proof. intros b x H. apply magnitude_le in H. eapply Qcle_trans; [apply magnitude_nonneg | exact H]. Qed.

Lemma four_le : forall x k, (0 <= k)%Qc -> (sum_sites n (fun y => only (bonded L x y) k) <= qz 4 * k)%Qc.
Proof. intros x k K0. apply (near_le n w _ (around (point w x))); [exact K0|]. intros y _ B. now apply bond_around. Qed.

Lemma row_hop : (qsum (fun d => SignDefs.magnitude (op_hop L K s (state_of c d))) (dl c) <= qz (4 * nholes c) * z_t z)%Qc.
Proof.
  destruct HK as (H1 & _). pose proof (size_nonneg _ _ H1) as P. apply magnitude_le in H1.
  eapply Qcle_trans; [exact (pair_row (fun x y => lat_from L x && lat_to L y && bonded L x y && holeb (s x) && negb (holeb (s y))) (fun x y => swap_state x y s) (fun _ _ => i_t K) (z_t z) P (fun _ _ => H1))|].
  rewrite <- (qz_times (nholes c) 4). apply (holes_le d0 s _ _ HD).
  - intros x Hx _. eapply Qcle_trans; [|apply (four_le x _ P)]. apply sites_le. intros y _. apply only_weak; [|exact P]. rewrite !andb_true_iff. tauto.
  - intros x Hx N. apply sum_sites_zero. intros y Hy. destruct (s x); [congruence| |]; cbn [holeb]; now rewrite andb_false_r.
Qed.
Lemma row_next : (qsum (fun d => SignDefs.magnitude (op_next_hop L K s (state_of c d))) (dl c) <= qz (8 * nholes c) * z_tN z)%Qc.
Proof.
  destruct HK as (_ & _ & _ & _ & _ & _ & H1 & H2 & _). pose proof (size_nonneg _ _ H1) as P. apply magnitude_le in H1, H2.
  eapply Qcle_trans; [apply (pair_row (fun x y => lat_from L x && lat_to L y && two_bonds L x y && holeb (s x) && negb (holeb (s y))) (fun x y => swap_state x y s) _ (z_tN z) P)|].
  { intros x y. now destruct (lineb2 _ _). }
  rewrite <- (qz_times (nholes c) 8). apply (holes_le d0 s _ _ HD).
  - intros x Hx Q. apply (near_le n w _ (corners (point w x) ++ beyond (point w x)) _ P). intros y _ B. rewrite !andb_true_iff in B. destruct B as ((((_ & _) & B) & _) & N).
    unfold two_bonds in B. apply existsb_exists in B. destruct B as (m & _ & B). apply andb_prop in B. destruct B as [B1 B2].
    destruct (two_around _ _ _ B1 B2) as [E|I]; [|exact I]. apply point_inj in E. subst y. rewrite Q in N. discriminate.
  - intros x Hx N. apply sum_sites_zero. intros y Hy. destruct (s x); [congruence| |]; cbn [holeb]; now rewrite andb_false_r.
Qed.

Variable (S : switches).
Let h := nsites c / w.
Let bonds := grid_bonds w h.

Lemma exchange_le : forall k, (SignDefs.magnitude (half * exchange K k) <= half * z_J z)%Qc.
Proof.
  intros k. destruct HK as (_ & H1 & H2 & H3 & _). apply magnitude_le in H1, H2, H3. rewrite magnitude_product. replace (SignDefs.magnitude half) with half by reflexivity.
  rewrite !(Qcmult_comm half). apply Qcmult_le_compat_r; [now destruct k | discriminate].
Qed.
Lemma half_nonneg : (0 <= half * z_J z)%Qc.
Proof. destruct HK as (_ & H1 & _). apply Qcmult_nonneg; [discriminate | exact (size_nonneg _ _ H1)]. Qed.
Lemma bonds_le : (sum_sites n (fun x => sum_sites n (fun y => only (spin_bond L s x y) (half * z_J z))) <= qz bonds * (half * z_J z))%Qc.
Proof.
  destruct (shape c w r HF) as (Hw & Hh & HN). fold h in Hh, HN. fold n in HN. unfold bonds. rewrite <- (count_bonds w h) by assumption. rewrite <- HN.
  apply sites_le. intros x _. apply sites_le. intros y _. apply only_weak; [|apply half_nonneg]. unfold spin_bond. rewrite !andb_true_iff. tauto.
Qed.
Lemma row_flip : (qsum (fun d => SignDefs.magnitude (op_flip L K s (state_of c d))) (dl c) <= qz bonds * (half * z_J z))%Qc.
Proof.
  eapply Qcle_trans; [|exact bonds_le]. apply (pair_row (fun x y => spin_bond L s x y) (fun x y => swap_state x y s) _ _ half_nonneg). intros x y. apply exchange_le.
Qed.
Lemma magnitude_opp : forall x, SignDefs.magnitude (- x) = SignDefs.magnitude x.
Proof. intros x. apply magnitude_unique; [apply magnitude_nonneg|]. destruct (magnitude_cases x) as [[_ ->]|[_ ->]]; [right; reflexivity | left; reflexivity]. Qed.
Lemma row_static : (qsum (fun d => SignDefs.magnitude (only (sameb n s (state_of c d)) (op_static L K s))) (dl c) <= qz bonds * (half * z_J z))%Qc.
Proof.
  apply diagonal_row. eapply Qcle_trans; [|exact bonds_le]. unfold op_static. eapply Qcle_trans; [apply magnitude_sum|]. apply sites_le. intros x _. eapply Qcle_trans; [apply magnitude_sum|]. apply sites_le. intros y _.
  apply magnitude_only. rewrite magnitude_opp. apply exchange_le.
Qed.
Lemma row_repulsion : (qsum (fun d => SignDefs.magnitude (only (sameb n s (state_of c d)) (op_repulsion L K s))) (dl c) <= qz (4 * nholes c) * z_V z)%Qc.
Proof.
  destruct (shape c w r HF) as (Hw & _ & _).
  destruct HK as (_ & _ & _ & _ & _ & _ & _ & _ & H1 & H2). pose proof (size_nonneg _ _ H1) as P. apply magnitude_le in H1, H2.
  apply diagonal_row. unfold op_repulsion.
  apply Qcle_trans with (sum_sites n (fun x => sum_sites n (fun y => only (holeb (s x) && ((x <? y) && (bonded L x y || diagb (lat_pos L x) (lat_pos L y)))) (z_V z)))).
  - eapply Qcle_trans; [apply magnitude_sum|]. apply sites_le. intros x _. eapply Qcle_trans; [apply magnitude_sum|]. apply sites_le. intros y _.
    destruct (x <? y), (lat_from L x), (lat_from L y), (holeb (s x)), (holeb (s y)); cbn [andb only]; try apply Qcle_refl; try (now apply only_nonneg).
    unfold bonded, bondb, diagb. set (p := lat_pos L x). set (q := lat_pos L y).
    destruct (Z.eqb_spec (Z.abs (fst p - fst q) + Z.abs (snd p - snd q)) 1) as [B|B]; cbn [only orb].
    + assert (D : (Z.abs (fst p - fst q) =? 1) && (Z.abs (snd p - snd q) =? 1) = false).
      { destruct (Z.eqb_spec (Z.abs (fst p - fst q)) 1), (Z.eqb_spec (Z.abs (snd p - snd q)) 1); try reflexivity. lia. }
      rewrite D. cbn [only]. rewrite Qcplus_0_r. exact H1.
    + rewrite Qcplus_0_l. now apply magnitude_only.
  - rewrite <- (qz_times (nholes c) 4). apply (holes_le d0 s _ _ HD).
    + intros x Hx _. apply (near_le n w _ (let p := point w x in [(fst p + 1, snd p); (fst p, snd p + 1); (fst p + 1, snd p + 1); (fst p - 1, snd p + 1)]) _ P).
      intros y Hy B. rewrite !andb_true_iff, orb_true_iff, Z.ltb_lt in B. apply (later w n); try tauto; lia.
    + intros x Hx N. apply sum_sites_zero. intros y Hy. now destruct (s x).
Qed.
Lemma row_singlet : (qsum (fun d => SignDefs.magnitude (op_singlet L K s (state_of c d))) (dl c) <= qz (24 * nholes c) * z_SD z)%Qc.
Proof.
  destruct HK as (_ & _ & _ & _ & H1 & H2 & _). pose proof (size_nonneg _ _ H1) as P. apply magnitude_le in H1, H2.
  set (cond := fun x m e => lat_from L x && lat_to L m && lat_to L e && bonded L x m && bonded L m e && holeb (s x) && oppositeb (s m) (s e)).
  apply Qcle_trans with (sum_sites n (fun x => sum_sites n (fun m => sum_sites n (fun e => only (cond x m e) (qz 2 * z_SD z)%Qc)))).
  - apply Qcle_trans with (qsum (fun d => sum_sites n (fun x => sum_sites n (fun m => sum_sites n (fun e =>
      only (cond x m e) (only (sameb n (state_of c d) (shift_state x m e s)) (z_SD z) + only (sameb n (state_of c d) (swap_state x e s)) (z_SD z))%Qc)))) (dl c)).
    + apply qsum_le. intros d _. unfold op_singlet. eapply Qcle_trans; [apply magnitude_sum|]. apply sites_le. intros x _. eapply Qcle_trans; [apply magnitude_sum|]. apply sites_le. intros m _.
      eapply Qcle_trans; [apply magnitude_sum|]. apply sites_le. intros e _. fold (cond x m e). apply magnitude_only. rewrite magnitude_product.
      set (A := sameb (lat_size L) (state_of c d) (shift_state x m e s)). set (B := sameb (lat_size L) (state_of c d) (swap_state x e s)).
      apply Qcle_trans with (z_SD z * (only A 1 + only B 1))%Qc.
      * apply Qcle_trans with (z_SD z * SignDefs.magnitude (only A 1 - only B 1))%Qc.
        -- apply Qcmult_le_compat_r; [now destruct (lineb2 _ _) | apply magnitude_nonneg].
        -- rewrite (Qcmult_comm (z_SD z) (SignDefs.magnitude _)), (Qcmult_comm (z_SD z) (only A 1 + only B 1)%Qc).
           apply Qcmult_le_compat_r; [|exact P]. destruct A, B; cbn [only]; vm_compute; discriminate.
      * rewrite Qcmult_plus_distr_r. unfold A, B. cbn [lat_size L between]. apply Qcplus_le_compat; destruct (sameb n _ _); cbn [only]; rewrite ?Qcmult_1_r, ?Qcmult_0_r; apply Qcle_refl.
    + unfold sum_sites. rewrite qsum_exchange. apply qsum_le. intros x _. rewrite qsum_exchange. apply qsum_le. intros m _. rewrite qsum_exchange. apply qsum_le. intros e _.
      destruct (cond x m e); cbn [only]; [|rewrite qsum_zero by reflexivity; apply Qcle_refl]. rewrite qsum_add.
      replace (qz 2 * z_SD z)%Qc with (z_SD z + z_SD z)%Qc by (replace (qz 2) with (1 + 1)%Qc by (apply Qc_is_canon; reflexivity); ring).
      apply Qcplus_le_compat; now apply images_le.
  - assert (P2 : (0 <= qz 2 * z_SD z)%Qc) by (apply Qcmult_nonneg; [discriminate | exact P]). set (k := (qz 2 * z_SD z)%Qc) in *.
    replace (qz (24 * nholes c) * z_SD z)%Qc with (qz (nholes c) * (qz 4 * (qz 3 * k)))%Qc by (unfold k; rewrite !qz_times; f_equal; f_equal; lia).
    assert (P3 : (0 <= qz 3 * k)%Qc) by (apply Qcmult_nonneg; [discriminate | exact P2]).
    apply (holes_le d0 s _ _ HD).
    + intros x Hx Q. eapply Qcle_trans; [|apply (four_le x _ P3)]. apply sites_le. intros m Hm. destruct (bonded L x m) eqn:B; cbn [only].
      * destruct (onward (point w x) (point w m) B) as (D & LD & HD3). replace 3 with (zlen D) by (unfold zlen; now rewrite LD).
        apply (near_le n w _ D _ P2). intros e He C. unfold cond in C. rewrite !andb_true_iff in C. destruct C as (((_ & C) & _) & O). apply HD3; [exact C|].
        intros E. apply point_inj in E. subst e. rewrite Q in O. destruct (s m); discriminate.
      * replace (sum_sites n (fun e => only (cond x m e) k)) with 0%Qc; [apply Qcle_refl|]. symmetry. apply sum_sites_zero. intros e _. unfold cond. rewrite B. now rewrite !andb_false_r.
    + intros x Hx N. apply sum_sites_zero. intros m _. apply sum_sites_zero. intros e _. unfold cond. destruct (s x); [congruence| |]; cbn [holeb]; now rewrite andb_false_r.
Qed.

Lemma switch_row : forall (b : bool) (f : list Z -> Qc) k, (qsum (fun d => SignDefs.magnitude (f d)) (dl c) <= k)%Qc -> (qsum (fun d => SignDefs.magnitude (only b (f d))) (dl c) <= only b k)%Qc.
Proof. intros [] f k H; cbn [only]; [exact H|]. rewrite qsum_zero by reflexivity. apply Qcle_refl. Qed.
Lemma row_all : (qsum (fun d => SignDefs.magnitude (tj_element L K S s (state_of c d))) (dl c) <= energy_bound z S (nholes c) bonds)%Qc.
Proof.
  unfold tj_element, energy_bound. cbn [lat_size L between].
  eapply Qcle_trans; [apply qsum_le; intros d _; apply magnitude_add|]. rewrite qsum_add. apply Qcplus_le_compat; [|apply (switch_row (s_bV S) (fun d => only (sameb n s (state_of c d)) (op_repulsion L K s))), row_repulsion].
  eapply Qcle_trans; [apply qsum_le; intros d _; apply magnitude_add|]. rewrite qsum_add. apply Qcplus_le_compat; [|apply (switch_row (s_btN S) (fun d => op_next_hop L K s (state_of c d))), row_next].
  eapply Qcle_trans; [apply qsum_le; intros d _; apply magnitude_add|]. rewrite qsum_add. apply Qcplus_le_compat; [|apply (switch_row (s_bSD S) (fun d => op_singlet L K s (state_of c d))), row_singlet].
  eapply Qcle_trans; [apply qsum_le; intros d _; apply magnitude_add|]. rewrite qsum_add. apply Qcplus_le_compat; [|apply (switch_row (s_bij S) (fun d => op_flip L K s (state_of c d))), row_flip].
  eapply Qcle_trans; [apply qsum_le; intros d _; apply magnitude_add|]. rewrite qsum_add. apply Qcplus_le_compat; [|apply (switch_row (s_bz S) (fun d => only (sameb n s (state_of c d)) (op_static L K s))), row_static].
  apply (switch_row (s_bt S) (fun d => op_hop L K s (state_of c d))), row_hop.
Qed.
End Row.
