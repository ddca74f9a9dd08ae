(** Couplings that are never rounded (for C117). *)
From Coq Require Import ZArith List Bool Lia Permutation QArith Qcanon Lqa.
From Verif Require Import PyBase PyFacts Lattice Base Interact Ham Round Spec SpecOps SpecTJ SpinDefs Geometry HamSpec SignDefs EnergyDefs RangeDefs RoundDefs GridDefs.
From Verif Require Import PSpin PQc PBasis PSites PRep PMat PGeo PInter PHam POps FGeo FSites FInter FHam PSecSum PBound PDavIter PDav FDav FSpinVal PSign PSignOp PPerron FSign FMotion PEnergy FEnergy PRange FRange PRound PRound2 FRound.
Import ListNotations.
Open Scope Z_scope.

Lemma qz_mul : forall a b, qz (a * b) = (qz a * qz b)%Qc.
Proof. intros a b. apply Qc_eq_this. rewrite this_mul, !this_qz, inject_Z_mult. reflexivity. Qed.
Lemma qz_neg : forall a, qz (- a) = (- qz a)%Qc.
Proof. intros a. apply Qc_eq_this. rewrite this_opp, !this_qz, inject_Z_opp. reflexivity. Qed.
Section Grid.
Variable g : Qc.
Lemma mult_0 : multiple g 0%Qc.
Proof. exists 0. change (qz 0) with 0%Qc. ring. Qed.
Lemma mult_add : forall x y, multiple g x -> multiple g y -> multiple g (x + y)%Qc.
Proof. intros x y (a & ->) (b & ->). exists (a + b). rewrite qz_add. ring. Qed.
Lemma mult_opp : forall x, multiple g x -> multiple g (- x)%Qc.
Proof. intros x (a & ->). exists (- a). rewrite qz_neg. ring. Qed.
Lemma mult_scale : forall k x, multiple g x -> multiple g (qz k * x)%Qc.
Proof. intros k x (a & ->). exists (k * a). rewrite qz_mul. ring. Qed.
Lemma mult_half : forall x, multiple (qz 2 * g) x -> multiple g (x / qz 2)%Qc.
Proof. intros x (a & ->). exists a. field. discriminate. Qed.
Lemma mult_twice : forall x, multiple (qz 2 * g) x -> multiple g x.
Proof. intros x (a & ->). exists (a * 2). rewrite qz_mul. ring. Qed.

Lemma factor_cases : forall s0 s1, -1 <= s0 <= 1 -> -1 <= s1 <= 1 -> s0 * s1 <> 0 -> (qfrac (s0 * s1) 4 - qfrac 1 4)%Qc = 0%Qc \/ (qfrac (s0 * s1) 4 - qfrac 1 4)%Qc = (- (1 / qz 2))%Qc.
Proof.
  intros s0 s1 H0 H1 N. assert (C : s0 * s1 = 1 \/ s0 * s1 = -1) by nia. destruct C as [-> | ->]; [left | right]; apply Qc_is_canon; vm_compute; reflexivity.
Qed.
Lemma mult_class : forall K k, on_grid g K -> multiple (qz 2 * g) (class_coupling K k).
Proof. intros K k (H1 & H2 & H3 & _). destruct k; assumption. Qed.
Lemma mult_product : forall K k s0 s1, on_grid g K -> -1 <= s0 <= 1 -> -1 <= s1 <= 1 -> s0 * s1 <> 0 -> multiple g (class_coupling K k * (qfrac (s0 * s1) 4 - qfrac 1 4))%Qc.
Proof.
  intros K k s0 s1 HK H0 H1 N. destruct (factor_cases s0 s1 H0 H1 N) as [-> | ->].
  - rewrite Qcmult_0_r. apply mult_0.
  - replace (class_coupling K k * - (1 / qz 2))%Qc with (- (class_coupling K k / qz 2))%Qc by (field; discriminate). apply mult_opp, mult_half, mult_class, HK.
Qed.

Variables (F : floats) (T : Qc).
Hypothesis HX : forall x, multiple g x -> (magnitude x <= T)%Qc -> fl F x = x.

(** sums whose sizes stay below [T] *)
Lemma sum_grid : forall (l : list (Qc * Qc)) a sa, multiple g a -> (magnitude a <= sa)%Qc -> (forall x s, In (x, s) l -> multiple g x /\ (magnitude x <= s)%Qc) -> (sa + total (map snd l) <= T)%Qc ->
  fold_left (fun a y => fl F (a + y)%Qc) (map fst l) a = (a + total (map fst l))%Qc.
Proof.
  induction l as [|[x s] l IH]; intros a sa Ma Ha H HT; cbn [map fst snd fold_left] in *.
  - unfold total. rewrite qsum_nil. ring.
  - unfold total in *. rewrite qsum_cons in *. destruct (H x s (or_introl eq_refl)) as [Mx Hx].
    assert (N : (0 <= qsum (fun x => x) (map snd l))%Qc).
    { clear - H. induction l as [|[y t] l IH]; [cbn [map]; rewrite qsum_nil; apply Qcle_refl|]. cbn [map snd]. rewrite qsum_cons. replace 0%Qc with (0 + 0)%Qc by ring. apply Qcplus_le_compat.
      - eapply Qcle_trans; [apply magnitude_nonneg | apply (H y t); right; now left].
      - apply IH. intros x0 s0 [I|I]; apply H; [now left | right; now right]. }
    assert (A : (magnitude (a + x) <= sa + s)%Qc) by (eapply Qcle_trans; [apply magnitude_add | now apply Qcplus_le_compat]).
    rewrite HX; [|now apply mult_add | clear - A N HT; qc].
    rewrite (IH (a + x)%Qc (sa + s)%Qc); [ring | now apply mult_add | exact A | intros; apply H; now right | clear - HT; qc].
Qed.
Lemma add_all_grid : forall (l : list (Qc * Qc)), (forall x s, In (x, s) l -> multiple g x /\ (magnitude x <= s)%Qc) -> (total (map snd l) <= T)%Qc -> (forall q, Permutation q (add_order F q)) ->
  add_all F (add_order F (map fst l)) = total (map fst l).
Proof.
  intros l H HT HO. destruct (sum_by_perm _ l fst _ (HO _)) as (q & P & E). rewrite <- E. rewrite (total_perm _ _ (Permutation_map fst P)). rewrite (total_perm _ _ (Permutation_map snd P)) in HT.
  assert (HQ : forall x s, In (x, s) q -> multiple g x /\ (magnitude x <= s)%Qc) by (intros x s I; apply H; eapply Permutation_in; [apply Permutation_sym, P | exact I]).
  destruct q as [|[x s] q]; [reflexivity|]. cbn [map fst snd add_all] in *. unfold total in *. rewrite qsum_cons in *. destruct (HQ x s (or_introl eq_refl)). apply (sum_grid q x s); try assumption. intros; apply HQ; now right.
Qed.

Section Static.
Variables (E : runtime) (c : configuration) (K : interactions) (d : list Z).
Hypothesis HK : on_grid g K.
Lemma static_grid : forall x, compute_static_spin_interaction E c K d = Ok x ->
  exists y, compute_static_spin_interaction E c (positive_couplings K) d = Ok y /\ multiple g x /\ (magnitude x <= - y)%Qc /\ ((- y <= T)%Qc -> compute_static_spin_interaction_fl F E c K d = Ok x).
Proof.
  intros x. unfold compute_static_spin_interaction, compute_static_spin_interaction_fl. destruct (build_bond_list E (bond_matrix c) (sites_restriction c)) as [bl|]; [|discriminate]. cbn [bind].
  match goal with |- foldM ?f _ _ = _ -> exists y, foldM ?h _ _ = _ /\ _ /\ _ /\ (_ -> foldM ?k _ _ = _) => set (ex := f); set (ro := k); set (po := h) end.
  assert (G : forall y0 a, multiple g a -> (magnitude a <= - y0)%Qc -> foldM ex a bl = Ok x ->
    exists y, foldM po y0 bl = Ok y /\ (- y0 <= - y)%Qc /\ multiple g x /\ (magnitude x <= - y)%Qc /\ ((- y <= T)%Qc -> foldM ro a bl = Ok x)).
  2: { intros Q. destruct (G (qz 0) (qz 0)) as (y & A1 & _ & A2 & A3 & A4); [apply mult_0 | vm_compute; discriminate | exact Q|]. eauto. }
  induction bl as [|[b0 b1] bl IH]; intros y0 a Ma N Q.
  - cbn [foldM] in *. injection Q as <-. exists y0. split; [reflexivity|]. split; [apply Qcle_refl|]. auto.
  - cbn [foldM] in *. unfold ex at 1 in Q. unfold ro at 1. unfold po at 1. cbv beta iota in *.
    destruct (get_spin_site c d b0) as [s0|] eqn:S0; [|discriminate]. cbn [bind] in *. destruct (get_spin_site c d b1) as [s1|] eqn:S1; [|discriminate]. cbn [bind] in *.
    destruct (s0 * s1 =? 0) eqn:Z0; cbn [negb] in *.
    + cbn [bind] in *. now apply IH.
    + apply Z.eqb_neq in Z0. destruct (static_class E c d (Z.min b0 b1) (Z.max b0 b1)) as [kk|]; [|discriminate]. cbn [bind] in *.
      pose proof (spin_site_range _ _ _ _ S0) as R0. pose proof (spin_site_range _ _ _ _ S1) as R1. pose proof (mult_product K kk s0 s1 HK R0 R1 Z0) as Mp.
      set (f := (qfrac (s0 * s1) 4 - qfrac 1 4)%Qc) in *. rewrite class_positive.
      assert (OP : (- (magnitude (class_coupling K kk) * f))%Qc = magnitude (class_coupling K kk * f)) by (apply opp_product, factor_le; assumption).
      assert (NN : (0 <= magnitude (class_coupling K kk * f))%Qc) by apply magnitude_nonneg. assert (Na : (0 <= magnitude a)%Qc) by apply magnitude_nonneg.
      assert (Y1 : (- (y0 + magnitude (class_coupling K kk) * f))%Qc = (- y0 + magnitude (class_coupling K kk * f))%Qc) by (rewrite <- OP; ring).
      assert (A : (magnitude (a + class_coupling K kk * f) <= - (y0 + magnitude (class_coupling K kk) * f))%Qc).
      { rewrite Y1. eapply Qcle_trans; [apply magnitude_add|]. apply Qcplus_le_compat; [exact N | apply Qcle_refl]. }
      destruct (IH (y0 + magnitude (class_coupling K kk) * f)%Qc (a + class_coupling K kk * f)%Qc (mult_add _ _ Ma Mp) A Q) as (y & B1 & B2 & B3 & B4 & B5). rewrite Y1 in B2.
      exists y. split; [exact B1|]. split; [clear - B2 NN; qc|]. split; [exact B3|]. split; [exact B4|]. intros HT.
      rewrite (HX (class_coupling K kk * f)%Qc Mp) by (clear - B2 N Na HT; qc). rewrite HX; [exact (B5 HT) | now apply mult_add|]. rewrite Y1 in A. clear - A B2 HT; qc.
Qed.
Lemma repulsion_grid : forall x, compute_hole_repulsion E c K d = Ok x ->
  exists y, compute_hole_repulsion E c (positive_couplings K) d = Ok y /\ multiple g x /\ (magnitude x <= y)%Qc /\ ((y <= T)%Qc -> compute_hole_repulsion_fl F E c K d = Ok x).
Proof.
  intros x. unfold compute_hole_repulsion, compute_hole_repulsion_fl. destruct (1 <? nholes c).
  - destruct (get_indexes_of E c d 0 0) as [hs|]; [|discriminate]. cbn [bind]. destruct (foldM _ ([], []) _) as [[p q]|]; [|discriminate]. cbn [bind]. intros [= <-].
    assert (P : forall n v, 0 <= n -> (qz n * magnitude v)%Qc = magnitude (qz n * v)).
    { intros n v Hn. rewrite magnitude_product. f_equal. symmetry. apply magnitude_unique; [|now left]. rewrite Qcle_this, this_qz, this_0. unfold Qle. cbn. lia. }
    destruct HK as (_ & _ & _ & _ & _ & _ & _ & _ & V1 & V2).
    pose proof (mult_scale (zlen p) _ V1) as M1. pose proof (mult_scale (zlen q) _ V2) as M2.
    eexists. split; [reflexivity|]. unfold positive_couplings. cbn [i_VNN i_VNNNper]. rewrite !P by apply zlen_nonneg.
    pose proof (magnitude_nonneg (qz (zlen p) * i_VNN K)%Qc). pose proof (magnitude_nonneg (qz (zlen q) * i_VNNNper K)%Qc). pose proof (magnitude_add (qz (zlen p) * i_VNN K)%Qc (qz (zlen q) * i_VNNNper K)%Qc) as A.
    split; [now apply mult_add|]. split; [exact A|]. intros HT.
    rewrite (HX _ M1) by (eapply Qcle_trans; [|exact HT]; qc). rewrite (HX _ M2) by (eapply Qcle_trans; [|exact HT]; qc). rewrite HX; [reflexivity | now apply mult_add | eapply Qcle_trans; [exact A | exact HT]].
  - intros [= <-]. exists (qz 0). split; [reflexivity|]. split; [apply mult_0|]. split; [vm_compute; discriminate | reflexivity].
Qed.
End Static.
End Grid.
