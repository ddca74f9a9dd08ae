(** Final lemmas for C118: with a single exchange coupling the rounded diagonal is kept exactly. *)
From Coq Require Import ZArith List Bool Lia Permutation QArith Qcanon Lqa.
From Verif Require Import PyBase PyFacts Runtimes Lattice Base Interact Ham Round Spec SpecOps SpecTJ SpinDefs Geometry HamSpec SignDefs EnergyDefs RangeDefs RoundDefs MotionDefs GridDefs OneDefs Examples.
From Verif Require Import PSpin PQc PBasis PSites PRot PRep PMat PGeo PInter PHam POps PRange PWave FGeo FSites FInter FHam FMotion PEnergy FEnergy PRound PRound2 PBinary FRound FRound2 PRoundSym FRoundSym PRoundMove PRoundDiag FRoundMove PPerron FDav PGrid FGrid PSecSum.
Import ListNotations.
Open Scope Z_scope.

Definition ones : interactions := mkInter 0 1 1 1 0 0 0 0 0 0.
Definition only_near : interactions := mkInter 0 0 0 0 0 0 0 0 1 0.
Definition only_across : interactions := mkInter 0 0 0 0 0 0 0 0 0 1.
Definition step (F : floats) (K : interactions) (a : Qc) : Qc := fl F (a + fl F (i_J K * - (1 / qz 2)))%Qc.

Lemma class_ones : forall k, class_coupling ones k = 1%Qc.
Proof. now intros []. Qed.
Lemma class_single : forall K k, single_exchange K -> class_coupling K k = i_J K.
Proof. intros K k [H1 H2]. destruct k; cbn [class_coupling]; congruence. Qed.

Section Count.
Variables (F : floats) (K : interactions) (E : runtime) (c : configuration) (d : list Z).
Hypothesis HS : settles F.
Hypothesis HK : single_exchange K.
Lemma iter_settled : forall n, fl F (Nat.iter n (step F K) (qz 0)) = Nat.iter n (step F K) (qz 0).
Proof. intros [|n]; [exact (proj1 HS)|]. cbn [Nat.iter nat_rect]. apply (proj2 HS). Qed.
Lemma static_count : forall x, compute_static_spin_interaction E c ones d = Ok x ->
  exists n, x = (qz (Z.of_nat n) * - (1 / qz 2))%Qc /\ compute_static_spin_interaction_fl F E c K d = Ok (Nat.iter n (step F K) (qz 0)).
Proof.
  intros x. unfold compute_static_spin_interaction, compute_static_spin_interaction_fl. destruct (build_bond_list E (bond_matrix c) (sites_restriction c)) as [bl|]; [|discriminate]. cbn [bind].
  match goal with |- foldM ?f _ _ = _ -> exists n, _ /\ foldM ?k _ _ = _ => set (ex := f); set (ro := k) end.
  assert (G : forall n0, foldM ex (qz (Z.of_nat n0) * - (1 / qz 2))%Qc bl = Ok x ->
    exists n, x = (qz (Z.of_nat n) * - (1 / qz 2))%Qc /\ foldM ro (Nat.iter n0 (step F K) (qz 0)) bl = Ok (Nat.iter n (step F K) (qz 0))).
  2: { intros Q. apply (G 0%nat). cbn [Z.of_nat]. replace (qz 0 * - (1 / qz 2))%Qc with (qz 0) by (apply Qc_is_canon; reflexivity). exact Q. }
  induction bl as [|[b0 b1] bl IH]; intros n0 Q.
  - cbn [foldM] in *. injection Q as <-. now exists n0.
  - cbn [foldM] in *. unfold ex at 1 in Q. unfold ro at 1. cbv beta iota in *.
    destruct (get_spin_site c d b0) as [s0|] eqn:S0; [|discriminate]. cbn [bind] in *. destruct (get_spin_site c d b1) as [s1|] eqn:S1; [|discriminate]. cbn [bind] in *.
    destruct (s0 * s1 =? 0) eqn:Z0; cbn [negb] in *.
    + cbn [bind] in *. now apply IH.
    + apply Z.eqb_neq in Z0. destruct (static_class E c d (Z.min b0 b1) (Z.max b0 b1)) as [kk|]; [|discriminate]. cbn [bind] in *.
      pose proof (spin_site_range _ _ _ _ S0) as R0. pose proof (spin_site_range _ _ _ _ S1) as R1. rewrite class_ones, (class_single K kk HK) in *.
      destruct (factor_cases s0 s1 R0 R1 Z0) as [Ef | Ef]; rewrite Ef in *.
      * rewrite Qcmult_0_r, (proj1 HS), Qcplus_0_r, iter_settled in *. now apply IH.
      * apply (IH (S n0)). rewrite Nat2Z.inj_succ, <- Z.add_1_r, qz_add. rewrite <- Q. f_equal. change (qz 1) with 1%Qc. ring.
Qed.
End Count.
Lemma repulsion_count : forall E c d K0 x0, compute_hole_repulsion E c K0 d = Ok x0 -> exists a b,
  (forall K, compute_hole_repulsion E c K d = Ok (qz a * i_VNN K + qz b * i_VNNNper K)%Qc) /\
  (forall F K, settles F -> compute_hole_repulsion_fl F E c K d = Ok (fl F (fl F (qz a * i_VNN K) + fl F (qz b * i_VNNNper K)))%Qc).
Proof.
  intros E c d K0 x0. unfold compute_hole_repulsion, compute_hole_repulsion_fl. destruct (1 <? nholes c).
  - destruct (get_indexes_of E c d 0 0) as [hs|]; [|discriminate]. cbn [bind]. destruct (foldM _ ([], []) _) as [[p q]|]; [|discriminate]. cbn [bind]. intros _. exists (zlen p), (zlen q). auto.
  - intros _. exists 0, 0. change (qz 0) with 0%Qc. split; [intros K; f_equal; ring|]. intros F K [H0 _]. rewrite !Qcmult_0_l, H0, Qcplus_0_r, H0. reflexivity.
Qed.

Lemma diagonal_parts : forall L s s', (forall K S, tj_element L K S s s = tj_element L K S s' s') -> forall K, op_static L K s = op_static L K s' /\ op_repulsion L K s = op_repulsion L K s'.
Proof.
  intros L s s' H K. split.
  - specialize (H K (mkSwitches false true false false false false)). unfold tj_element in H. cbn [s_bt s_bz s_bij s_bSD s_btN s_bV only] in H. rewrite !same_refl in H. cbn [only] in H. now rewrite !Qcplus_0_r, !Qcplus_0_l in H.
  - specialize (H K (mkSwitches false false false false false true)). unfold tj_element in H. cbn [s_bt s_bz s_bij s_bSD s_btN s_bV only] in H. rewrite !same_refl in H. cbn [only] in H. now rewrite !Qcplus_0_l in H.
Qed.
Lemma minus_half : forall m n, (qz (Z.of_nat m) * - (1 / qz 2))%Qc = (qz (Z.of_nat n) * - (1 / qz 2))%Qc -> m = n.
Proof.
  intros m n H. apply Nat2Z.inj, qz_inj. replace (qz (Z.of_nat m)) with ((qz (Z.of_nat m) * - (1 / qz 2)) * - qz 2)%Qc by (field; discriminate). rewrite H. field. discriminate.
Qed.

Lemma diagonal_kept : forall F E E' c w r K S arg arg' l l' m m' i i' d d', (forall q, Permutation q (add_order F q)) -> settles F -> single_exchange K -> set_iter_ok E -> set_iter_ok E' -> filled c w r ->
  assembled_fl F E c K S arg l m -> assembled_fl F E' c K S arg' l' m' -> nth_error l i = Some d -> nth_error l' i' = Some d' ->
  (forall K S, tj_element (between (nsites c) (point w) r r) K S (state_of c d) (state_of c d) = tj_element (between (nsites c) (point w) r r) K S (state_of c d') (state_of c d')) ->
  csr_at m' (Z.of_nat i') (Z.of_nat i') = csr_at m (Z.of_nat i) (Z.of_nat i).
Proof.
  intros F E E' c w r K S arg arg' l l' m m' i i' d d' HO HS HK HE HE' HC HA HA' Hi Hi' H. pose proof HC as (RM & HR & Hh & Hb & Ha). pose proof (row_major_drawn c w RM) as HD. set (L := between (nsites c) (point w) r r) in *.
  assert (Hf : forall x, 0 <= x < nsites c -> (lat_from L x = true <-> In x r)) by exact (HLf c w r).
  assert (Ht : forall x, 0 <= x < nsites c -> (lat_to L x = true <-> In x r)) by exact (HLt c w r).
  assert (St : forall E d K, set_iter_ok E -> In d (dl c) -> compute_static_spin_interaction E c K d = Ok (op_static L K (state_of c d))).
  { intros E0 d0 K0 HE0 Hd. apply (static_ok E0 c (point w) r r d0 (state_of c d0) HE0 HD HR (in_dl c (point w) HD Hh Hb d0 Hd) L eq_refl (fun _ _ => eq_refl) Hf Ht). apply (row_major_straight E0 c w RM). }
  assert (Rp : forall E d K, set_iter_ok E -> In d (dl c) -> compute_hole_repulsion E c K d = Ok (op_repulsion L K (state_of c d))).
  { intros E0 d0 K0 HE0 Hd. apply (repulsion_ok E0 c (point w) r r d0 (state_of c d0) HE0 HD HR); try assumption; try reflexivity.
    all: first [apply (in_dl c (point w) HD Hh Hb d0 Hd) | apply (row_major_straight E0 c w RM) | apply (row_major_middle c w RM) | idtac].
    auto. }
  destruct (fl_entries _ _ _ _ _ _ _ _ _ _ HO HE HC HA) as (_ & _ & El & _). destruct (fl_entries _ _ _ _ _ _ _ _ _ _ HO HE' HC HA') as (_ & _ & El' & _).
  assert (Id : In d (dl c)) by (rewrite <- El; eapply nth_error_In, Hi). assert (Id' : In d' (dl c)) by (rewrite <- El'; eapply nth_error_In, Hi').
  destruct (fl_diagonal _ _ _ _ _ _ _ _ _ _ _ _ HO HE HC HA Hi) as (a & b & A & B & ->). destruct (fl_diagonal _ _ _ _ _ _ _ _ _ _ _ _ HO HE' HC HA' Hi') as (a' & b' & A' & B' & ->).
  pose proof (diagonal_parts L _ _ H) as P.
  assert (Ea : compute_static_spin_interaction_fl F E' c K d' = compute_static_spin_interaction_fl F E c K d).
  { destruct (static_count F K E c d HS HK _ (St E d ones HE Id)) as (n & N1 & ->). destruct (static_count F K E' c d' HS HK _ (St E' d' ones HE' Id')) as (n' & N1' & ->).
    rewrite (proj1 (P ones)), N1' in N1. now rewrite (minus_half _ _ N1). }
  assert (Eb : compute_hole_repulsion_fl F E' c K d' = compute_hole_repulsion_fl F E c K d).
  { destruct (repulsion_count E c d K _ (Rp E d K HE Id)) as (p & q & R1 & R2). destruct (repulsion_count E' c d' K _ (Rp E' d' K HE' Id')) as (p' & q' & R1' & R2').
    assert (Q : forall K, (qz p * i_VNN K + qz q * i_VNNNper K)%Qc = (qz p' * i_VNN K + qz q' * i_VNNNper K)%Qc).
    { intros K0. pose proof (R1 K0) as X. pose proof (R1' K0) as Y. rewrite (Rp E d K0 HE Id) in X. rewrite (Rp E' d' K0 HE' Id') in Y. injection X as X. injection Y as Y. rewrite <- X, <- Y. apply P. }
    pose proof (Q only_near) as Q1. pose proof (Q only_across) as Q2. cbn [i_VNN i_VNNNper only_near only_across] in Q1, Q2. rewrite !Qcmult_1_r, !Qcmult_0_r, !Qcplus_0_r in Q1. rewrite !Qcmult_1_r, !Qcmult_0_r, !Qcplus_0_l in Q2.
    rewrite (R2 F K HS), (R2' F K HS), Q1, Q2. reflexivity. }
  assert (Xa : a' = a) by (destruct (s_bz S); [destruct A as (x & A1 & ->); destruct A' as (x' & A1' & ->); rewrite Ea, A1 in A1'; now injection A1' as -> | congruence]).
  assert (Xb : b' = b) by (destruct (s_bV S); [destruct B as (x & B1 & ->); destruct B' as (x' & B1' & ->); rewrite Eb, B1 in B1'; now injection B1' as -> | congruence]).
  now rewrite Xa, Xb.
Qed.

Lemma C118_binary_pf : forall p o, 2 <= p -> settles (mkFloats (binary p) o).
Proof.
  intros p o Hp. split; cbn [fl]; [apply binary_0|]. intros x. destruct (C111_nearest_pf p x Hp) as (B & _). destruct (C111_nearest_pf p (binary p x) Hp) as (_ & N).
  destruct (N _ B) as [M _]. set (y := binary p (binary p x)) in *. set (v := binary p x) in *. replace (v - v)%Qc with 0%Qc in M by ring. change (SignDefs.magnitude 0) with 0%Qc in M.
  pose proof (PPerron.magnitude_nonneg (y - v)) as M1. assert (Z : SignDefs.magnitude (y - v) = 0%Qc) by (apply Qcle_antisym; assumption).
  destruct (PPerron.magnitude_cases (y - v)) as [[_ C]|[_ C]]; rewrite C in Z; [|apply (f_equal Qcopp) in Z; rewrite Qcopp_involutive in Z; change (- 0)%Qc with 0%Qc in Z]; replace y with ((y - v) + v)%Qc by ring; rewrite Z; ring.
Qed.
Lemma C118_orders_pf : forall F E E' c w r K S arg arg' l l' m m' i j, (forall q, Permutation q (add_order F q)) -> settles F -> single_exchange K -> set_iter_ok E -> set_iter_ok E' -> filled c w r ->
  assembled_fl F E c K S arg l m -> assembled_fl F E' c K S arg' l' m' -> csr_at m i j = csr_at m' i j.
Proof.
  intros F E E' c w r K S arg arg' l l' m m' i j HO HS HK HE HE' HC HA HA'. destruct (Z.eq_dec i j) as [<-|N]; [|now apply (C114_order_pf F E E' c w r K S arg arg' l l' m m' i j)].
  destruct (fl_entries _ _ _ _ _ _ _ _ _ _ HO HE HC HA) as (es & _ & El & D & R & _). destruct (fl_entries _ _ _ _ _ _ _ _ _ _ HO HE' HC HA') as (es' & _ & El' & D' & R' & _).
  destruct (Z_le_dec 0 i), (Z_lt_dec i (zlen (dl c))); try (rewrite (csr_zero c m D R), (csr_zero c m' D' R') by tauto; reflexivity).
  destruct (pick _ (dl c) i) as (d & Hd); [lia|]. rewrite <- (Z2Nat.id i) by assumption.
  apply (diagonal_kept F E' E c w r K S arg' arg l' l m' m (Z.to_nat i) (Z.to_nat i) d d); try assumption; try (rewrite El || rewrite El'; exact Hd). reflexivity.
Qed.
Lemma dl_unique : forall c w r i j d e, filled c w r -> nth_error (dl c) i = Some d -> nth_error (dl c) j = Some e -> same_state (nsites c) (state_of c d) (state_of c e) -> i = j.
Proof.
  intros c w r i j d e HF Qd Qe SB. assert (d = e).
  { destruct (shape c w r HF) as (Hw & Hh & HN). assert (Hn : 0 <= nsites c) by nia. pose proof (proj2 (proj2 HF)) as (H0 & B0 & _).
    destruct (in_slist_st (nsites c) (nholes c) (nbeta c) Hn ltac:(lia) ltac:(lia) d (nth_error_In _ _ Qd)) as [_ <-].
    destruct (in_slist_st (nsites c) (nholes c) (nbeta c) Hn ltac:(lia) ltac:(lia) e (nth_error_In _ _ Qe)) as [_ <-].
    apply canon_same. exact SB. }
  subst e. assert (ND : NoDup (dl c)) by apply dets_NoDup. rewrite NoDup_nth_error in ND. apply ND; [apply nth_error_Some; congruence | congruence].
Qed.
Lemma C118_motions_pf : forall F E c w K S arg l m f i j i' j' d e d' e' s t s' t', (forall q, Permutation q (add_order F q)) -> settles F -> single_exchange K -> set_iter_ok E -> filled_whole c w -> assembled_fl F E c K S arg l m ->
  motion (nsites c) (point w) f ->
  nth_error l i = Some d -> nth_error l j = Some e -> nth_error l i' = Some d' -> nth_error l j' = Some e' ->
  describes (nsites c) (nholes c) (nbeta c) d s -> describes (nsites c) (nholes c) (nbeta c) e t ->
  describes (nsites c) (nholes c) (nbeta c) d' s' -> describes (nsites c) (nholes c) (nbeta c) e' t' ->
  carried (nsites c) f s s' -> carried (nsites c) f t t' ->
  csr_at m (Z.of_nat i') (Z.of_nat j') = csr_at m (Z.of_nat i) (Z.of_nat j).
Proof.
  intros F E c w K S arg l m f i j i' j' d e d' e' s t s' t' HO HS HK HE HF HA HM Hi Hj Hi' Hj' Ds Dt Ds' Dt' Cs Ct.
  destruct (Nat.eq_dec i j) as [<-|N]; [|now apply (C115_motions_pf F E c w K S arg l m f i j i' j' d e d' e' s t s' t')].
  destruct (exact_beside F E c w _ K S arg l m HE HF HA) as (m0 & HA0). destruct (core _ _ _ _ _ _ _ _ _ HE HF HA0) as (El & _).
  assert (Q : j' = i').
  { rewrite Hi in Hj. injection Hj as <-. pose proof (describes_unique _ _ _ _ _ _ Ds Dt) as Z. pose proof (motion_bij _ w f HM) as B.
    assert (W : same_state (nsites c) s' t').
    { intros x Hx. destruct (B x Hx) as (B1 & B2 & B3 & B4). rewrite <- B4, (Cs _ B2), (Ct _ B2). apply Z, B2. }
    apply (dl_unique c w _ j' i' e' d' HF); [rewrite <- El; assumption | rewrite <- El; assumption|]. pose proof (dl_describes c w _ i' d' HF ltac:(rewrite <- El; exact Hi')) as D1. pose proof (dl_describes c w _ j' e' HF ltac:(rewrite <- El; exact Hj')) as D2.
    intros x Hx. rewrite <- (describes_unique _ _ _ _ _ _ Ds' D1 x Hx), <- (describes_unique _ _ _ _ _ _ Dt' D2 x Hx). symmetry. now apply W. }
  subst j'. apply (diagonal_kept F E E c w (zrange 0 (nsites c)) K S arg arg l l m m i i' d d'); try assumption.
  pose proof (dl_describes c w _ i d HF ltac:(rewrite <- El; exact Hi)) as D1. pose proof (dl_describes c w _ i' d' HF ltac:(rewrite <- El; exact Hi')) as D1'.
  pose proof (describes_unique _ _ _ _ _ _ Ds D1) as Z1. pose proof (describes_unique _ _ _ _ _ _ Ds' D1') as Z2.
  assert (C : carried (nsites c) f (state_of c d) (state_of c d')) by (intros x Hx; rewrite <- (Z2 (f x)) by (now apply HM); rewrite <- (Z1 x Hx); now apply Cs).
  intros K0 S0. symmetry. exact (motion_tj (nsites c) w f K0 S0 _ _ _ _ HM C C).
Qed.
(** elements of determinants moved by the program *)
Lemma moved_one : forall F E c w K S arg l m f g q (mv : list Z -> list Z), (forall q, Permutation q (add_order F q)) -> settles F -> single_exchange K -> set_iter_ok E -> filled_whole c w -> assembled_fl F E c K S arg l m ->
  site_bij (nsites c) f g -> keeps q -> (forall x, 0 <= x < nsites c -> point w (f x) = q (point w x)) ->
  (forall d s, describes (nsites c) (nholes c) (nbeta c) d s ->
     exists s', describes (nsites c) (nholes c) (nbeta c) (mv d) s' /\ forall x, 0 <= x < nsites c -> s' (f x) = s x) ->
  forall i j d e, nth_error l i = Some d -> nth_error l j = Some e ->
  exists i' j', get_index_in_basis c (mv d) = Ok i' /\ get_index_in_basis c (mv e) = Ok j' /\
    csr_at m i' j' = csr_at m (Z.of_nat i) (Z.of_nat j).
Proof.
  intros F E c w K S arg l m f g q mv HO HS HK HE HF HA B Q P MV i j d e Hd He.
  destruct (exact_beside F E c w _ K S arg l m HE HF HA) as (m0 & HA0).
  destruct (core _ _ _ _ _ _ _ _ _ HE HF HA0) as (El & _).
  assert (Dd : describes (nsites c) (nholes c) (nbeta c) d (state_of c d)) by (eapply dl_describes; [exact HF|rewrite <- El; exact Hd]).
  assert (De : describes (nsites c) (nholes c) (nbeta c) e (state_of c e)) by (eapply dl_describes; [exact HF|rewrite <- El; exact He]).
  destruct (MV _ _ Dd) as (s' & Ds & Hs). destruct (MV _ _ De) as (t' & Dt & Ht).
  destruct (index_of_state _ _ _ _ _ _ _ _ _ _ _ HE HF HA0 Ds) as (i' & d' & I1 & I2 & I3).
  destruct (index_of_state _ _ _ _ _ _ _ _ _ _ _ HE HF HA0 Dt) as (j' & e' & J1 & J2 & J3).
  exists (Z.of_nat i'), (Z.of_nat j'). split; [assumption|]. split; [assumption|].
  apply (C118_motions_pf F E c w K S arg l m f i j i' j' d e d' e' (state_of c d) (state_of c e) s' t'); try assumption.
  split; [intros x Hx; now apply B|]. destruct Q as [Q|Q]; [left|right]; intros x y Hx Hy; rewrite !P by assumption; apply Q.
Qed.
Lemma C118_rotations_pf : forall F E c K S arg l m k i j d e, (forall q, Permutation q (add_order F q)) -> settles F -> single_exchange K -> set_iter_ok E ->
  sized c -> nbh c = nbv c -> filled_whole c (nbh c * nblocs_side c) -> assembled_fl F E c K S arg l m ->
  nth_error l i = Some d -> nth_error l j = Some e ->
  exists i' j', get_index_in_basis c (rotate_determinant k c d) = Ok i' /\ get_index_in_basis c (rotate_determinant k c e) = Ok j' /\
    csr_at m i' j' = csr_at m (Z.of_nat i) (Z.of_nat j).
Proof.
  intros F E c K S arg l m k i j d e HO HS HK HE HZ SQ HF HA Hd He.
  assert (Hc : square c).
  { pose proof (sized_n c HZ) as N0. destruct HZ as (H1 & H2 & H3 & _). constructor; [assumption|lia|lia|]. rewrite N0, Z.pow_2_r. ring. }
  pose proof (square_side c Hc) as W. pose proof (square_n c Hc) as NN.
  apply (moved_one F E c (side c) K S arg l m (rot (side c) k) (rot (side c) (- k)) (turns (Z.to_nat (k mod 4)) (side c)) (rotate_determinant k c) HO HS HK HE HF HA).
  - rewrite NN. now apply rot_bij.
  - apply keeps_turns.
  - rewrite NN. apply (on_sites (side c) W). intros a b Ha Hb. rewrite rot_site, (point_site (side c) W a b) by assumption.
    destruct (turns_bound (side c) (Z.to_nat (k mod 4)) a b Ha Hb). destruct (turns (Z.to_nat (k mod 4)) (side c) (a, b)) as [a' b'].
    now apply point_site.
  - intros d0 s0 D0. exists (fun x => s0 (rot (side c) (- k) x)). split; [now apply rotate_describes|].
    intros x Hx. f_equal. rewrite rot_add by lia. rewrite Z.add_opp_diag_l. apply rot_0.
  - assumption.
  - assumption.
Qed.
Lemma C118_half_turn_pf : forall F E c K S arg l m k i j d e, (forall q, Permutation q (add_order F q)) -> settles F -> single_exchange K -> set_iter_ok E ->
  sized c -> k mod 4 = 2 -> filled_whole c (nbh c * nblocs_side c) -> assembled_fl F E c K S arg l m ->
  nth_error l i = Some d -> nth_error l j = Some e ->
  exists i' j', get_index_in_basis c (rotate_determinant k c d) = Ok i' /\ get_index_in_basis c (rotate_determinant k c e) = Ok j' /\
    csr_at m i' j' = csr_at m (Z.of_nat i) (Z.of_nat j).
Proof.
  intros F E c K S arg l m k i j d e HO HS HK HE HZ Kk HF HA Hd He. pose proof (sized_n c HZ) as N. pose proof HZ as (H1 & H2 & H3 & _).
  set (w := nbh c * nblocs_side c) in *. set (h := nbv c * nblocs_side c) in *.
  assert (Hw : 0 < w) by (unfold w; nia). assert (Hh : 0 < h) by (unfold h; nia).
  apply (moved_one F E c w K S arg l m (fun x => nsites c - 1 - x) (fun x => nsites c - 1 - x)
     (fun p => (w - 1 - fst p, h - 1 - snd p)) (rotate_determinant k c) HO HS HK HE HF HA).
  - intros x Hx. lia.
  - apply keeps_half.
  - intros x Hx. unfold point. cbn [fst snd]. rewrite N in *. clearbody w h. clear - Hx Hw Hh.
    assert (X : x = w * (x / w) + x mod w) by (apply Z.div_mod; lia). pose proof (Z.mod_pos_bound x w Hw).
    set (a := x mod w) in *. set (b := x / w) in *. f_equal.
    + symmetry. apply Z.mod_unique with (q := h - 1 - b); lia.
    + symmetry. apply Z.div_unique with (r := w - 1 - a); lia.
  - intros d0 s0 D0. exists (fun x => s0 (nsites c - 1 - x)).
    assert (Pn : 0 < nsites c) by (rewrite N; nia).
    assert (Nn : nsites c = nbh c * nbv c * nblocs_side c ^ 2) by (rewrite N, Z.pow_2_r; unfold w, h; ring).
    rewrite (half_describes k c d0 s0 Kk Pn Nn D0). split.
    + apply canon_describes. apply (bij_sector _ _ _ s0 (fun x => nsites c - 1 - x)); [|eapply describes_sector; exact D0]. intros x Hx. lia.
    + intros x Hx. f_equal. lia.
  - assumption.
  - assumption.
Qed.
