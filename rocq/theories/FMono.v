(** Final lemmas for C120: order of the rounded diagonals. *)
From Coq Require Import ZArith List Bool Lia Permutation QArith Qcanon Lqa.
From Verif Require Import PyBase PyFacts Runtimes Lattice Base Interact Ham Round Spec SpecOps SpecTJ SpinDefs Geometry HamSpec SignDefs EnergyDefs RangeDefs RoundDefs GridDefs OneDefs MonoDefs Examples.
From Verif Require Import PSpin PQc PBasis PSites PRep PMat PGeo PInter PHam POps PRange FGeo FSites FInter FHam PRound PRound2 PBinary FRound FRound2 PRoundSym FRoundSym PRoundDiag FRoundMove PPerron FDav PGrid FOne.
Import ListNotations.
Open Scope Z_scope.

Lemma C120_binary_pf : forall p o, 2 <= p -> monotone (mkFloats (binary p) o).
Proof.
  intros p o Hp x y L. cbn [fl]. destruct (C111_nearest_pf p x Hp) as [Bx Nx]. destruct (C111_nearest_pf p y Hp) as [By Ny].
  destruct (Qclt_le_dec (binary p y) (binary p x)) as [G|G]; [|exact G]. destruct (Nx _ By) as [N1 _]. destruct (Ny _ Bx) as [N2 _].
  destruct (Qc_eq_dec x y) as [->|N]; [apply Qcle_refl|]. exfalso. apply Qcle_lt_or_eq in L. destruct L as [L|L]; [|contradiction].
  set (a := binary p y) in *. set (b := binary p x) in *. clearbody a b. clear - G N1 N2 L.
  pose proof (le_magnitude (b - x)) as M1. pose proof (le_magnitude (y - a)) as M2. replace (SignDefs.magnitude (y - a)) with (SignDefs.magnitude (a - y)) in M2 by (rewrite <- magnitude_opp; f_equal; ring).
  destruct (PPerron.magnitude_cases (a - x)) as [[C1 D1]|[C1 D1]], (PPerron.magnitude_cases (b - y)) as [[C2 D2]|[C2 D2]]; rewrite D1 in N1; rewrite D2 in N2; qc.
Qed.

Section Mono.
Variables (F : floats) (K K' : interactions).
Hypothesis HM : monotone F.
Hypothesis HK : raises K K'.
Lemma class_raised : forall k, (class_coupling K' k <= class_coupling K k)%Qc.
Proof. destruct HK as (H1 & H2 & H3 & _). now intros []. Qed.
Lemma C120_static_core : forall E c d x x', compute_static_spin_interaction_fl F E c K d = Ok x -> compute_static_spin_interaction_fl F E c K' d = Ok x' -> (x <= x')%Qc.
Proof.
  intros E c d x x'. unfold compute_static_spin_interaction_fl. destruct (build_bond_list E (bond_matrix c) (sites_restriction c)) as [bl|]; [|discriminate]. cbn [bind].
  match goal with |- foldM ?f _ _ = _ -> foldM ?k _ _ = _ -> _ => set (ex := f); set (ro := k) end.
  assert (G : forall a a', (a <= a')%Qc -> foldM ex a bl = Ok x -> foldM ro a' bl = Ok x' -> (x <= x')%Qc); [|apply G, Qcle_refl].
  induction bl as [|[b0 b1] bl IH]; intros a a' L Q Q'.
  - cbn [foldM] in *. injection Q as <-. now injection Q' as <-.
  - cbn [foldM] in *. unfold ex at 1 in Q. unfold ro at 1 in Q'. cbv beta iota in *.
    destruct (get_spin_site c d b0) as [s0|] eqn:S0; [|discriminate]. cbn [bind] in *. destruct (get_spin_site c d b1) as [s1|] eqn:S1; [|discriminate]. cbn [bind] in *.
    destruct (s0 * s1 =? 0) eqn:Z0; cbn [negb] in *; [cbn [bind] in *; now apply (IH a a')|]. apply Z.eqb_neq in Z0.
    destruct (static_class E c d (Z.min b0 b1) (Z.max b0 b1)) as [kk|]; [|discriminate]. cbn [bind] in *.
    eapply IH; [|exact Q | exact Q']. apply HM, Qcplus_le_compat; [exact L|]. apply HM. pose proof (class_raised kk) as CR.
    destruct (factor_cases s0 s1 (spin_site_range _ _ _ _ S0) (spin_site_range _ _ _ _ S1) Z0) as [-> | ->]; [rewrite !Qcmult_0_r; apply Qcle_refl|].
    replace (class_coupling K kk * - (1 / qz 2))%Qc with (- (class_coupling K kk * (1 / qz 2)))%Qc by ring. replace (class_coupling K' kk * - (1 / qz 2))%Qc with (- (class_coupling K' kk * (1 / qz 2)))%Qc by ring.
    apply Qcopp_le_compat. apply (proj1 (PBinary.mul_le _ _ _ (eq_refl : (0 < 1 / qz 2)%Qc)) CR).
Qed.
Lemma C120_repulsion_core : forall E c d x x', compute_hole_repulsion_fl F E c K d = Ok x -> compute_hole_repulsion_fl F E c K' d = Ok x' -> (x <= x')%Qc.
Proof.
  intros E c d x x'. unfold compute_hole_repulsion_fl. destruct (1 <? nholes c).
  - destruct (get_indexes_of E c d 0 0) as [hs|]; [|discriminate]. cbn [bind]. destruct (foldM _ ([], []) _) as [[p q]|]; [|discriminate]. cbn [bind]. intros [= <-] [= <-]. destruct HK as (_ & _ & _ & H1 & H2).
    assert (N : forall A (l : list A) a b, (a <= b)%Qc -> (qz (zlen l) * a <= qz (zlen l) * b)%Qc).
    { intros A l a b L. rewrite !(Qcmult_comm (qz _)). apply Qcmult_le_compat_r; [exact L|]. apply (proj2 (PBinary.qz_le 0 _)), zlen_nonneg. }
    apply HM, Qcplus_le_compat; apply HM, N; assumption.
  - intros [= <-] [= <-]. apply Qcle_refl.
Qed.
End Mono.
Lemma C120_static_pf : forall F E c K K' d x x', monotone F -> raises K K' -> compute_static_spin_interaction_fl F E c K d = Ok x -> compute_static_spin_interaction_fl F E c K' d = Ok x' -> (x <= x')%Qc.
Proof. intros F E c K K' d x x' HM HK. now apply C120_static_core. Qed.
Lemma C120_repulsion_pf : forall F E c K K' d x x', monotone F -> raises K K' -> compute_hole_repulsion_fl F E c K d = Ok x -> compute_hole_repulsion_fl F E c K' d = Ok x' -> (x <= x')%Qc.
Proof. intros F E c K K' d x x' HM HK. now apply C120_repulsion_core. Qed.
Lemma add_pair : forall F x y, (forall q, Permutation q (add_order F q)) -> add_all F (add_order F [x; y]) = fl F (x + y)%Qc.
Proof.
  intros F x y HO. pose proof (HO [x; y]) as P. apply Permutation_length_2_inv in P. destruct P as [-> | ->]; cbn [add_all fold_left]; [reflexivity | now rewrite Qcplus_comm].
Qed.
Lemma add_one : forall F x, (forall q, Permutation q (add_order F q)) -> add_all F (add_order F [x]) = x.
Proof. intros F x HO. now rewrite (Permutation_length_1_inv (HO [x])). Qed.
Lemma add_none : forall F, (forall q, Permutation q (add_order F q)) -> add_all F (add_order F []) = 0%Qc.
Proof. intros F HO. now rewrite (Permutation_nil (HO [])). Qed.

Lemma C120_diagonal_pf : forall F E c w r K K' S arg arg' l l' m m' i, (forall q, Permutation q (add_order F q)) -> monotone F -> raises K K' -> set_iter_ok E -> filled c w r ->
  assembled_fl F E c K S arg l m -> assembled_fl F E c K' S arg' l' m' -> (csr_at m i i <= csr_at m' i i)%Qc.
Proof.
  intros F E c w r K K' S arg arg' l l' m m' i HO HM HK HE HC HA HA'.
  destruct (fl_entries _ _ _ _ _ _ _ _ _ _ HO HE HC HA) as (es & B & El & D & R & _). destruct (fl_entries _ _ _ _ _ _ _ _ _ _ HO HE HC HA') as (es' & B' & El' & D' & R' & _).
  destruct (Z_le_dec 0 i), (Z_lt_dec i (zlen (dl c))); try (rewrite (csr_zero c m D R), (csr_zero c m' D' R') by tauto; apply Qcle_refl).
  destruct (pick _ (dl c) i) as (d & Hd); [lia|]. rewrite <- (Z2Nat.id i) by assumption.
  destruct (fl_diagonal _ _ _ _ _ _ _ _ _ _ _ _ HO HE HC HA ltac:(rewrite El; exact Hd)) as (a & b & A & Bb & ->). destruct (fl_diagonal _ _ _ _ _ _ _ _ _ _ _ _ HO HE HC HA' ltac:(rewrite El'; exact Hd)) as (a' & b' & A' & Bb' & ->).
  destruct (s_bz S), (s_bV S).
  - destruct A as (x & A & ->), A' as (x' & A' & ->), Bb as (y & Bb & ->), Bb' as (y' & Bb' & ->). cbn [app]. rewrite !add_pair by assumption. apply HM, Qcplus_le_compat; [eapply C120_static_pf | eapply C120_repulsion_pf]; eassumption.
  - destruct A as (x & A & ->), A' as (x' & A' & ->). subst b b'. cbn [app]. rewrite !add_one by assumption. eapply C120_static_pf; eassumption.
  - destruct Bb as (y & Bb & ->), Bb' as (y' & Bb' & ->). subst a a'. cbn [app]. rewrite !add_one by assumption. eapply C120_repulsion_pf; eassumption.
  - subst a a' b b'. cbn [app]. apply Qcle_refl.
Qed.
(** signs *)
Lemma C120_attractive_pf : forall F E c K d x, monotone F -> fl F 0%Qc = 0%Qc -> (0 <= i_J K)%Qc -> (0 <= i_Jhpar K)%Qc -> (0 <= i_Jhper K)%Qc -> compute_static_spin_interaction_fl F E c K d = Ok x -> (x <= 0)%Qc.
Proof.
  intros F E c K d x HM HS H1 H2 H3. unfold compute_static_spin_interaction_fl. destruct (build_bond_list E (bond_matrix c) (sites_restriction c)) as [bl|]; [|discriminate]. cbn [bind].
  match goal with |- foldM ?f _ _ = _ -> _ => set (ex := f) end.
  assert (G : forall a, (a <= 0)%Qc -> foldM ex a bl = Ok x -> (x <= 0)%Qc); [|apply G, Qcle_refl].
  induction bl as [|[b0 b1] bl IH]; intros a L Q; cbn [foldM] in Q; [now injection Q as <-|]. unfold ex at 1 in Q. cbv beta iota in Q.
  destruct (get_spin_site c d b0) as [s0|] eqn:S0; [|discriminate]. cbn [bind] in Q. destruct (get_spin_site c d b1) as [s1|] eqn:S1; [|discriminate]. cbn [bind] in Q.
  destruct (s0 * s1 =? 0) eqn:Z0; cbn [negb] in Q; [cbn [bind] in Q; now apply (IH a)|]. apply Z.eqb_neq in Z0.
  destruct (static_class E c d (Z.min b0 b1) (Z.max b0 b1)) as [kk|]; [|discriminate]. cbn [bind] in Q. eapply IH; [|exact Q]. rewrite <- HS. apply HM.
  replace 0%Qc with (0 + 0)%Qc by ring. apply Qcplus_le_compat; [exact L|]. rewrite <- HS. apply HM.
  destruct (factor_cases s0 s1 (spin_site_range _ _ _ _ S0) (spin_site_range _ _ _ _ S1) Z0) as [-> | ->]; [rewrite Qcmult_0_r; apply Qcle_refl|].
  replace (class_coupling K kk * - (1 / qz 2))%Qc with (- (class_coupling K kk * (1 / qz 2)))%Qc by ring. change 0%Qc with (- 0)%Qc. apply Qcopp_le_compat, Qcmult_nonneg; [destruct kk; assumption | vm_compute; discriminate].
Qed.
Lemma C120_repulsive_pf : forall F E c K d x, monotone F -> fl F 0%Qc = 0%Qc -> (0 <= i_VNN K)%Qc -> (0 <= i_VNNNper K)%Qc -> compute_hole_repulsion_fl F E c K d = Ok x -> (0 <= x)%Qc.
Proof.
  intros F E c K d x HM HS H1 H2. unfold compute_hole_repulsion_fl. destruct (1 <? nholes c); [|intros [= <-]; apply Qcle_refl].
  destruct (get_indexes_of E c d 0 0) as [hs|]; [|discriminate]. cbn [bind]. destruct (foldM _ ([], []) _) as [[p q]|]; [|discriminate]. cbn [bind]. intros [= <-].
  assert (N : forall A (l : list A) b, (0 <= b)%Qc -> (0 <= fl F (qz (zlen l) * b))%Qc).
  { intros A l b L. rewrite <- HS at 1. apply HM, Qcmult_nonneg; [|exact L]. apply (proj2 (PBinary.qz_le 0 _)), zlen_nonneg. }
  rewrite <- HS at 1. apply HM. replace 0%Qc with (0 + 0)%Qc by ring. apply Qcplus_le_compat; now apply N.
Qed.
