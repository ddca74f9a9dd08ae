(** Final lemmas for C116: how far the motions and the order of the sets change the rounded Hamiltonian. *)
From Coq Require Import ZArith List Bool Lia Permutation QArith Qcanon Lqa.
From Verif Require Import PyBase PyFacts Runtimes Lattice Base Interact Ham Round Spec SpecOps SpecTJ SpinDefs Geometry HamSpec SignDefs EnergyDefs RangeDefs RoundDefs MotionDefs TestDefs Examples.
From Verif Require Import PSpin PQc PBasis PSites PRot PRep PMat PGeo PInter PHam POps PRange PWave FGeo FSites FInter FHam FMotion PRound PRound2 PBinary FRound FRound2 PRoundSym FRoundSym PRoundMove PRoundDiag FRoundMove PPerron FDav.
Import ListNotations.
Open Scope Z_scope.

Lemma element_near : forall u F E c w r K S arg l m m0 z i j, rounds u F -> set_iter_ok E -> filled c w r -> assembled_fl F E c K S arg l m -> assembled E c K S arg l m0 ->
  couplings_within z K -> (i < length l)%nat -> (j < length l)%nat ->
  (SignDefs.magnitude (csr_at m (Z.of_nat i) (Z.of_nat j) - csr_at m0 (Z.of_nat i) (Z.of_nat j))
   <= growth u (roundings (nholes c) (grid_bonds w (nsites c / w))) * energy_bound z S (nholes c) (grid_bonds w (nsites c / w)))%Qc.
Proof.
  intros u F E c w r K S arg l m m0 z i j HU HE HF HA HA0 HK Li Lj.
  destruct (fl_core _ _ _ _ _ _ _ _ _ _ _ HU HE HF HA) as (El & Dm & _).
  assert (X : 0 <= Z.of_nat i < csr_dim m) by (rewrite Dm, <- El; unfold zlen; lia).
  assert (Y : 0 <= Z.of_nat j < csr_dim m) by (rewrite Dm, <- El; unfold zlen; lia).
  eapply Qcle_trans; [|exact (C111_rows_pf u F E c w r K S arg arg l l m m0 z (Z.of_nat i) HU HE HF HA HA0 HK X)].
  rewrite <- (sum_delta (csr_dim m) (Z.of_nat j) (SignDefs.magnitude _) Y). apply sites_le. intros x Hx. unfold only. destruct (Z.eqb_spec x (Z.of_nat j)) as [->|_]; [apply Qcle_refl|].
  apply PPerron.magnitude_nonneg.
Qed.
Lemma both_near : forall a b x g, (SignDefs.magnitude (a - x) <= g)%Qc -> (SignDefs.magnitude (b - x) <= g)%Qc -> (SignDefs.magnitude (a - b) <= qz 2 * g)%Qc.
Proof.
  intros a b x g H1 H2. replace (a - b)%Qc with ((a - x) + - (b - x))%Qc by ring. eapply Qcle_trans; [apply magnitude_add|]. rewrite magnitude_opp.
  replace (qz 2 * g)%Qc with (g + g)%Qc by (replace (qz 2) with (1 + 1)%Qc by (apply Qc_is_canon; reflexivity); ring). now apply Qcplus_le_compat.
Qed.
Lemma at_length : forall (l : list (list Z)) i d, nth_error l i = Some d -> (i < length l)%nat.
Proof. intros l i d H. apply nth_error_Some. congruence. Qed.

Lemma C116_motions_pf : forall u F E c w K S arg l m z f i i' d d' s s', rounds u F -> set_iter_ok E -> filled_whole c w -> assembled_fl F E c K S arg l m -> couplings_within z K ->
  motion (nsites c) (point w) f -> nth_error l i = Some d -> nth_error l i' = Some d' ->
  describes (nsites c) (nholes c) (nbeta c) d s -> describes (nsites c) (nholes c) (nbeta c) d' s' -> carried (nsites c) f s s' ->
  (SignDefs.magnitude (csr_at m (Z.of_nat i') (Z.of_nat i') - csr_at m (Z.of_nat i) (Z.of_nat i))
   <= qz 2 * (growth u (roundings (nholes c) (grid_bonds w (nsites c / w))) * energy_bound z S (nholes c) (grid_bonds w (nsites c / w))))%Qc.
Proof.
  intros u F E c w K S arg l m z f i i' d d' s s' HU HE HF HA HK HM Hi Hi' D D' C.
  destruct (exact_beside F E c w _ K S arg l m HE HF HA) as (m0 & HA0).
  pose proof (C97_elements_pf E c w K S arg l m0 f i i i' i' d d d' d' s s s' s' HE HF HA0 HM Hi Hi Hi' Hi' D D D' D' C C) as X.
  apply (both_near _ _ (csr_at m0 (Z.of_nat i) (Z.of_nat i))); [rewrite <- X|]; apply (element_near u F E c w (zrange 0 (nsites c)) K S arg l m m0 z); try assumption; eapply at_length; eassumption.
Qed.
Lemma turned_near : forall u F E c w K S arg l m z k i d, rounds u F -> set_iter_ok E -> filled_whole c w -> assembled_fl F E c K S arg l m -> couplings_within z K ->
  nth_error l i = Some d -> (exists s, describes (nsites c) (nholes c) (nbeta c) (rotate_determinant k c d) s) ->
  (forall m0, assembled E c K S arg l m0 -> exists i' j', get_index_in_basis c (rotate_determinant k c d) = Ok i' /\ get_index_in_basis c (rotate_determinant k c d) = Ok j' /\
    csr_at m0 i' j' = csr_at m0 (Z.of_nat i) (Z.of_nat i)) ->
  exists i', get_index_in_basis c (rotate_determinant k c d) = Ok i' /\
    (SignDefs.magnitude (csr_at m i' i' - csr_at m (Z.of_nat i) (Z.of_nat i))
     <= qz 2 * (growth u (roundings (nholes c) (grid_bonds w (nsites c / w))) * energy_bound z S (nholes c) (grid_bonds w (nsites c / w))))%Qc.
Proof.
  intros u F E c w K S arg l m z k i d HU HE HF HA HK Hi (s & D) X.
  destruct (exact_beside F E c w _ K S arg l m HE HF HA) as (m0 & HA0). destruct (X m0 HA0) as (i' & j' & I1 & J1 & V). rewrite I1 in J1. injection J1 as <-.
  destruct (index_of_state _ _ _ _ _ _ _ _ _ _ _ HE HF HA0 D) as (a & d' & A1 & A2 & A3).
  assert (Q : i' = Z.of_nat a) by congruence. subst i'.
  exists (Z.of_nat a). split; [assumption|].
  apply (both_near _ _ (csr_at m0 (Z.of_nat i) (Z.of_nat i))); [rewrite <- V|]; apply (element_near u F E c w (zrange 0 (nsites c)) K S arg l m m0 z); try assumption; eapply at_length; eassumption.
Qed.
Lemma C116_rotations_pf : forall u F E c K S arg l m z k i d, rounds u F -> set_iter_ok E ->
  sized c -> nbh c = nbv c -> filled_whole c (nbh c * nblocs_side c) -> assembled_fl F E c K S arg l m -> couplings_within z K -> nth_error l i = Some d ->
  let w := nbh c * nblocs_side c in
  exists i', get_index_in_basis c (rotate_determinant k c d) = Ok i' /\
    (SignDefs.magnitude (csr_at m i' i' - csr_at m (Z.of_nat i) (Z.of_nat i))
     <= qz 2 * (growth u (roundings (nholes c) (grid_bonds w (nsites c / w))) * energy_bound z S (nholes c) (grid_bonds w (nsites c / w))))%Qc.
Proof.
  intros u F E c K S arg l m z k i d HU HE HZ SQ HF HA HK Hi w. apply (turned_near u F E c w K S arg l); try assumption.
  - destruct (fl_core _ _ _ _ _ _ _ _ _ _ _ HU HE HF HA) as (El & _). pose proof (sized_n c HZ) as N0. pose proof HZ as (H1 & H2 & H3 & _).
    assert (D : describes (nsites c) (nholes c) (nbeta c) d (state_of c d)) by (eapply dl_describes; [exact HF|rewrite <- El; exact Hi]).
    assert (N1 : nsites c = nbh c * nbv c * nblocs_side c ^ 2) by (rewrite N0, Z.pow_2_r; ring).
    destruct (C12_rotation_square_pf k c d (state_of c d) SQ) as (t & T & _); try assumption; try lia. exists t; exact T.
  - intros m0 HA0. now apply (C31_rotations_pf E c K S arg l m0 k i i d d).
Qed.
Lemma C116_half_turn_pf : forall u F E c K S arg l m z k i d, rounds u F -> set_iter_ok E ->
  sized c -> k mod 4 = 2 -> filled_whole c (nbh c * nblocs_side c) -> assembled_fl F E c K S arg l m -> couplings_within z K -> nth_error l i = Some d ->
  let w := nbh c * nblocs_side c in
  exists i', get_index_in_basis c (rotate_determinant k c d) = Ok i' /\
    (SignDefs.magnitude (csr_at m i' i' - csr_at m (Z.of_nat i) (Z.of_nat i))
     <= qz 2 * (growth u (roundings (nholes c) (grid_bonds w (nsites c / w))) * energy_bound z S (nholes c) (grid_bonds w (nsites c / w))))%Qc.
Proof.
  intros u F E c K S arg l m z k i d HU HE HZ SQ HF HA HK Hi w. apply (turned_near u F E c w K S arg l); try assumption.
  - destruct (fl_core _ _ _ _ _ _ _ _ _ _ _ HU HE HF HA) as (El & _). pose proof (sized_n c HZ) as N0. pose proof HZ as (H1 & H2 & H3 & _).
    assert (D : describes (nsites c) (nholes c) (nbeta c) d (state_of c d)) by (eapply dl_describes; [exact HF|rewrite <- El; exact Hi]).
    assert (N1 : nsites c = nbh c * nbv c * nblocs_side c ^ 2) by (rewrite N0, Z.pow_2_r; ring).
    destruct (C12_half_turn_pf k c d (state_of c d) SQ) as (t & T & _); try assumption; try lia. exists t; exact T.
  - intros m0 HA0. now apply (C31_half_turn_pf E c K S arg l m0 k i i d d).
Qed.
Lemma C116_orders_pf : forall u F E1 E2 c w r K S arg1 arg2 l1 l2 m1 m2 z i j, rounds u F -> set_iter_ok E1 -> set_iter_ok E2 -> filled c w r ->
  assembled_fl F E1 c K S arg1 l1 m1 -> assembled_fl F E2 c K S arg2 l2 m2 -> couplings_within z K -> (i < length l1)%nat -> (j < length l1)%nat ->
  (SignDefs.magnitude (csr_at m1 (Z.of_nat i) (Z.of_nat j) - csr_at m2 (Z.of_nat i) (Z.of_nat j))
   <= qz 2 * (growth u (roundings (nholes c) (grid_bonds w (nsites c / w))) * energy_bound z S (nholes c) (grid_bonds w (nsites c / w))))%Qc.
Proof.
  intros u F E1 E2 c w r K S arg1 arg2 l1 l2 m1 m2 z i j HU HE1 HE2 HF HA1 HA2 HK Li Lj.
  destruct (exact_beside _ _ _ _ _ _ _ _ _ _ HE1 HF HA1) as (n1 & B1). destruct (exact_beside _ _ _ _ _ _ _ _ _ _ HE2 HF HA2) as (n2 & B2).
  assert (El : l2 = l1) by (destruct HA1 as [A1 _], HA2 as [A2 _]; rewrite A1 in A2; now injection A2). subst l2.
  assert (X : csr_at n2 (Z.of_nat i) (Z.of_nat j) = csr_at n1 (Z.of_nat i) (Z.of_nat j)).
  { destruct (fl_core _ _ _ _ _ _ _ _ _ _ _ HU HE1 HF HA1) as (El & _).
    destruct (nth_error l1 i) as [d|] eqn:Hi; [|apply nth_error_None in Hi; lia]. destruct (nth_error l1 j) as [e|] eqn:Hj; [|apply nth_error_None in Hj; lia].
    assert (D : describes (nsites c) (nholes c) (nbeta c) d (state_of c d)) by (eapply dl_describes; [exact HF|rewrite <- El; exact Hi]).
    assert (De : describes (nsites c) (nholes c) (nbeta c) e (state_of c e)) by (eapply dl_describes; [exact HF|rewrite <- El; exact Hj]).
    rewrite (C29_elements_pf E2 c w r K S arg2 l1 n2 i j d e _ _ HE2 HF B2 Hi Hj D De). symmetry. now apply (C29_elements_pf E1 c w r K S arg1 l1 n1 i j d e _ _ HE1 HF B1 Hi Hj). }
  apply (both_near _ _ (csr_at n1 (Z.of_nat i) (Z.of_nat j))); [|rewrite <- X].
  - now apply (element_near u F E1 c w r K S arg1 l1 m1 n1 z i j).
  - now apply (element_near u F E2 c w r K S arg2 l1 m2 n2 z i j).
Qed.

(** ** the assertion *)
Lemma nearest_zero : forall a b, 0 <= a -> 2 * a < b -> nearest_even a b = 0.
Proof.
  intros a b Ha Hb. unfold nearest_even. rewrite Z.div_small, Z.mod_small by lia. destruct (Z.ltb_spec (2 * a) b); [reflexivity | lia].
Qed.
Lemma small_rounds : forall x, (0 <= x)%Qc -> (qz 2 * x < 1)%Qc -> nearest_even (Qnum (this x)) (Zpos (Qden (this x))) = 0.
Proof.
  intros x H1 H2. apply nearest_zero.
  - unfold Qcle, Qle in H1. cbn in H1. lia.
  - unfold Qclt, Qcmult in H2. cbn [this Q2Qc] in H2. rewrite Qred_correct in H2. change (this (qz 2)) with (2 # 1)%Q in H2. change (this 1%Qc) with 1%Q in H2.
    destruct x as [[a b] Hx]. cbn [this Qnum Qden] in *. unfold Qlt, Qmult in H2. cbn [Qnum Qden] in H2. change (Qred 1) with 1%Q in H2. cbn [Qnum Qden] in H2. lia.
Qed.
Lemma close_almost : forall u F n a b g, rounds u F -> (u <= 1)%Qc -> 0 <= n -> (SignDefs.magnitude (b - a) <= qz 2 * g)%Qc -> (qz 8 * g * qz (10 ^ n) < 1)%Qc -> almost_equal F n a b = true.
Proof.
  intros u F n a b g (U0 & HF & _) U1 Hn H G. unfold almost_equal. apply orb_true_iff. right. apply Z.eqb_eq.
  assert (P : (0 <= qz (10 ^ n))%Qc) by (change 0%Qc with (qz 0); apply (proj2 (PBinary.qz_le 0 (10 ^ n))); apply Z.pow_nonneg; lia).
  assert (M : (SignDefs.magnitude (fl F (a - b)) <= qz 4 * g)%Qc).
  { replace (fl F (a - b)) with ((fl F (a - b) - (a - b)) + - (b - a))%Qc by ring. eapply Qcle_trans; [apply magnitude_add|]. rewrite magnitude_opp.
    replace (qz 4 * g)%Qc with (1 * (qz 2 * g) + qz 2 * g)%Qc by (replace (qz 4) with (qz 2 + qz 2)%Qc by (apply Qc_is_canon; reflexivity); ring).
    apply Qcplus_le_compat; [|assumption]. eapply Qcle_trans; [apply HF|]. replace (a - b)%Qc with (- (b - a))%Qc by ring. rewrite magnitude_opp.
    eapply Qcle_trans; [apply Qcmult_le_compat_r; [exact U1 | apply PPerron.magnitude_nonneg]|]. rewrite !Qcmult_1_l. exact H. }
  apply small_rounds; [apply Qcmult_nonneg; [apply PPerron.magnitude_nonneg | exact P]|]. eapply Qcle_lt_trans; [|exact G].
  replace (qz 8 * g * qz (10 ^ n))%Qc with (qz 2 * ((qz 4 * g) * qz (10 ^ n)))%Qc by (replace (qz 8) with (qz 2 * qz 4)%Qc by (apply Qc_is_canon; reflexivity); ring).
  rewrite !(Qcmult_comm (qz 2)). clear - M P. apply Qcmult_le_compat_r; [|discriminate]. now apply Qcmult_le_compat_r.
Qed.
Lemma C116_test_pf : forall u F E c K S arg l m z rot i d, rounds u F -> (u <= 1)%Qc -> set_iter_ok E ->
  sized c -> nbh c = nbv c -> filled_whole c (nbh c * nblocs_side c) -> assembled_fl F E c K S arg l m -> couplings_within z K ->
  let w := nbh c * nblocs_side c in
  (qz 8 * (growth u (roundings (nholes c) (grid_bonds w (nsites c / w))) * energy_bound z S (nholes c) (grid_bonds w (nsites c / w))) * qz (10 ^ 5) < 1)%Qc ->
  nth_error l i = Some d -> rotation_asserted F c m (Z.of_nat i) d rot.
Proof.
  intros u F E c K S arg l m z rot i d HU U1 HE HZ SQ HF HA HK w G Hi.
  destruct (C116_rotations_pf u F E c K S arg l m z rot i d HU HE HZ SQ HF HA HK Hi) as (i' & I & M). exists i'. split; [exact I|].
  eapply (close_almost u F 5); try eassumption. lia.
Qed.
