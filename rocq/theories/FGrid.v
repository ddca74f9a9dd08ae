(** Final lemmas for C117: couplings that are never rounded. *)
From Coq Require Import ZArith List Bool Lia Permutation QArith Qcanon Lqa.
From Verif Require Import PyBase PyFacts Lattice Base Interact Ham Round Spec SpecOps SpecTJ SpinDefs Geometry HamSpec SignDefs EnergyDefs RangeDefs RoundDefs GridDefs.
From Verif Require Import PSpin PQc PBasis PSites PRep PMat PGeo PInter PHam POps FGeo FSites FInter FHam PSecSum PBound PDavIter PDav FDav FSpinVal PSign PSignOp PPerron FSign FMotion PEnergy FEnergy PRange FRange PRound PRound2 FRound PBinary FRound2 PGrid FRoundMove.
Import ListNotations.
Open Scope Z_scope.

Lemma C117_representable_pf : forall p e x, 2 <= p -> multiple (power2 e) x -> (SignDefs.magnitude x < power2 (p + e))%Qc -> binary p x = x.
Proof.
  intros p e x Hp (k & ->) H. destruct (C111_nearest_pf p (qz k * power2 e)%Qc Hp) as (_ & N).
  assert (B : has_bits p (qz k * power2 e)%Qc).
  { exists k, e. split; [|reflexivity]. rewrite magnitude_power, magnitude_qz, power_add in H. rewrite (power_nat p) in H by lia.
    destruct (Z_lt_le_dec (Z.abs k) (2 ^ p)) as [L|L]; [exact L|]. exfalso. apply (proj2 (PBinary.qz_le _ _)) in L. apply (proj1 (PBinary.mul_le _ _ _ (power_pos e))) in L. exact (Qclt_not_le _ _ H L). }
  destruct (N _ B) as [M _]. set (y := binary p _) in *. set (x := (qz k * power2 e)%Qc) in *. replace (x - x)%Qc with 0%Qc in M by ring. change (SignDefs.magnitude 0) with 0%Qc in M.
  pose proof (PPerron.magnitude_nonneg (y - x)) as M1. assert (Z : SignDefs.magnitude (y - x) = 0%Qc) by (apply Qcle_antisym; assumption).
  destruct (PPerron.magnitude_cases (y - x)) as [[_ C]|[_ C]]; rewrite C in Z; [|apply (f_equal Qcopp) in Z; rewrite Qcopp_involutive in Z; change (- 0)%Qc with 0%Qc in Z]; replace y with ((y - x) + x)%Qc by ring; rewrite Z; ring.
Qed.

Lemma all_bound : forall z K S h b, couplings_within z K -> 0 <= h -> 0 <= b -> (energy_bound z S h b <= energy_bound z (mkSwitches true true true true true true) h b)%Qc.
Proof.
  intros z K S h b HK Hh Hb. unfold energy_bound. cbn [s_bt s_bz s_bij s_bSD s_btN s_bV].
  assert (N0 : forall k, 0 <= k -> (0 <= qz k)%Qc) by (intros k Hk; now apply (proj2 (PBinary.qz_le 0 k))).
  assert (W : forall q x, within q x -> (0 <= q)%Qc) by (intros q x [W1 W2]; clear - W1 W2; qc).
  destruct HK as (K1 & K2 & _ & _ & K5 & _ & K7 & _ & K9 & _). apply W in K1, K2, K5, K7, K9.
  assert (O : forall t x, (0 <= x)%Qc -> (only t x <= only true x)%Qc) by (intros [] x Hx; [apply Qcle_refl | exact Hx]).
  assert (H0 : (0 <= half)%Qc) by (vm_compute; discriminate).
  repeat apply Qcplus_le_compat; apply O; repeat apply Qcmult_nonneg; try assumption; apply N0; lia.
Qed.
Section Core.
Variables (F : floats) (E : runtime) (c : configuration) (w : Z) (r : list Z) (K : interactions) (z : sizes) (g : Qc).
Let bonds := grid_bonds w (nsites c / w).
Let T := largest_number z (nholes c) bonds.
Hypothesis HO : forall q, Permutation q (add_order F q).
Hypothesis HE : set_iter_ok E.
Hypothesis HC : filled c w r.
Hypothesis HK : couplings_within z K.
Hypothesis HG : on_grid g K.
Hypothesis HX : forall x, multiple g x -> (SignDefs.magnitude x <= T)%Qc -> fl F x = x.

Lemma bonds_nonneg : 0 <= bonds.
Proof. destruct (shape c w r HC) as (Hw & Hh0 & _). unfold bonds, grid_bonds. nia. Qed.
Lemma below : forall S x, (x <= energy_bound z S (nholes c) bonds)%Qc -> (x <= T)%Qc.
Proof.
  intros S x H. pose proof (all_bound z K S (nholes c) bonds HK (proj1 (proj2 (proj2 HC))) bonds_nonneg) as A. unfold T, largest_number.
  assert (Zj : (0 <= z_J z)%Qc) by (destruct HK as (_ & [W1 W2] & _); clear - W1 W2; qc). clear - H A Zj. qc.
Qed.
Lemma big_nonneg : (z_J z <= T)%Qc.
Proof.
  unfold T, largest_number. assert (A : (0 <= energy_bound z (mkSwitches true true true true true true) (nholes c) bonds)%Qc); [|clear - A; qc].
  pose proof (all_bound z K (mkSwitches false false false false false false) (nholes c) bonds HK (proj1 (proj2 (proj2 HC))) bonds_nonneg) as A. exact A.
Qed.
Definition gridded (x y s : Qc) : Prop := x = y /\ multiple g x /\ (SignDefs.magnitude x <= s)%Qc.

Lemma entries_grid : forall S h0, entries_of E (mkBasis c (dl c)) K S = Ok h0 ->
  exists h'', entries_fl F E (mkBasis c (dl c)) K S = Ok h0 /\ lock gridded h0 h0 h'' /\
    (forall i j d d', 0 <= i -> 0 <= j -> nth_error (dl c) (Z.to_nat i) = Some d -> nth_error (dl c) (Z.to_nat j) = Some d' ->
      total (at_place h'' i j) = tj_size (between (nsites c) (point w) r r) K S (state_of c d) (state_of c d')).
Proof.
  intros S h0 Q0. pose proof HC as (RM & HR & Hh & Hb & Ha). pose proof (row_major_drawn c w RM) as HD. set (L := between (nsites c) (point w) r r). set (P := positive_couplings K).
  assert (Hf : forall x, 0 <= x < nsites c -> (lat_from L x = true <-> In x r)) by exact (HLf c w r).
  assert (Ht : forall x, 0 <= x < nsites c -> (lat_to L x = true <-> In x r)) by exact (HLt c w r).
  assert (St : forall d, In d (dl c) -> compute_static_spin_interaction E c P d = Ok (op_static L P (state_of c d))).
  { intros d Hd. apply (static_ok E c (point w) r r d (state_of c d) HE HD HR (in_dl c (point w) HD Hh Hb d Hd) L eq_refl (fun _ _ => eq_refl) Hf Ht). apply (row_major_straight E c w RM). }
  assert (Rp : forall d, In d (dl c) -> compute_hole_repulsion E c P d = Ok (op_repulsion L P (state_of c d))).
  { intros d Hd. apply (repulsion_ok E c (point w) r r d (state_of c d) HE HD HR); try assumption; try reflexivity.
    all: first [apply (in_dl c (point w) HD Hh Hb d Hd) | apply (row_major_straight E c w RM) | apply (row_major_middle c w RM) | idtac].
    auto. }
  pose proof (positive_within z K HK) as HP.
  assert (Sb : forall d, In d (dl c) -> (- op_static L P (state_of c d) <= T)%Qc).
  { intros d Hd. destruct (In_nth_error _ _ Hd) as (k & Nk). pose proof (static_le c w r HC z P HP d (state_of c d) (dl_describes c w r k d HC Nk) Hd) as A. rewrite <- magnitude_opp in A.
    apply (below (mkSwitches false true false false false false)). unfold energy_bound. cbn [s_bt s_bz s_bij s_bSD s_btN s_bV only]. rewrite !Qcplus_0_r, !Qcplus_0_l. eapply Qcle_trans; [apply le_magnitude | exact A]. }
  assert (Vb : forall d, In d (dl c) -> (op_repulsion L P (state_of c d) <= T)%Qc).
  { intros d Hd. destruct (In_nth_error _ _ Hd) as (k & Nk). pose proof (repulsion_le c w r HC z P HP d (state_of c d) (dl_describes c w r k d HC Nk) Hd) as A.
    apply (below (mkSwitches false false false false false true)). unfold energy_bound. cbn [s_bt s_bz s_bij s_bSD s_btN s_bV only]. rewrite !Qcplus_0_l. eapply Qcle_trans; [apply le_magnitude | exact A]. }
  pose (fs := fun d => x <- compute_static_spin_interaction E c P d ;; Ok (- x)%Qc).
  assert (LK : locked gridded (entries_fl F E (mkBasis c (dl c)) K S) (entries_of E (mkBasis c (dl c)) K S) (build_mirror E P fs (compute_hole_repulsion E c P) (mkBasis c (dl c)) S)).
  { assert (NS : forall x, multiple g x -> gridded x x (SignDefs.magnitude x)) by (intros x Mx; split; [reflexivity|]; split; [exact Mx | apply Qcle_refl]).
    assert (NO : forall x, multiple g x -> gridded (- x) (- x) (SignDefs.magnitude x)) by (intros x Mx; rewrite <- (magnitude_opp x); apply NS; now apply mult_opp).
    assert (NH : forall x, multiple (qz 2 * g) x -> within (z_J z) x -> gridded (fl F (x / qz 2)%Qc) (x / qz 2)%Qc (SignDefs.magnitude x / qz 2)%Qc).
    { intros x Mx Wx. rewrite half_magnitude. pose proof (mult_half g x Mx) as Mh. rewrite HX; [now apply NS | exact Mh|].
      eapply Qcle_trans; [|exact big_nonneg]. apply magnitude_le in Wx. rewrite <- half_magnitude. pose proof (PPerron.magnitude_nonneg x). replace (SignDefs.magnitude x / qz 2)%Qc with (half * SignDefs.magnitude x)%Qc by (apply Qc_eq_this; unfold Qcdiv; rewrite !this_mul; change (this (/ qz 2)%Qc) with (1#2)%Q; rewrite this_half; ring).
      eapply Qcle_trans; [|exact Wx]. clear - H. rewrite Qcle_this in *. rewrite this_mul, this_half. rewrite this_0 in H. lra. }
    destruct HG as (G1 & G2 & G3 & G4 & G5 & G6 & G7 & G8 & G9 & G10). destruct HK as (K1 & K2 & K3 & K4 & _).
    apply locked_build.
    - now apply NS.
    - now apply NS.
    - now apply NS.
    - now apply NH.
    - now apply NH.
    - now apply NH.
    - split; [now apply NS | now apply NO].
    - split; [now apply NS | now apply NO].
    - intros d x Hd Hx. destruct (static_grid g F T HX E c K d HG x Hx) as (y & A1 & A2 & A3 & A4). fold P in A1. rewrite (St d Hd) in A1. injection A1 as <-. exists x, (- op_static L P (state_of c d))%Qc.
      split; [apply A4, Sb, Hd|]. split; [unfold fs; now rewrite (St d Hd)|]. split; [reflexivity|]. split; assumption.
    - intros d x Hd Hx. destruct (repulsion_grid g F T HX E c K d HG x Hx) as (y & A1 & A2 & A3 & A4). fold P in A1. rewrite (Rp d Hd) in A1. injection A1 as <-. exists x, (op_repulsion L P (state_of c d)).
      split; [apply A4, Vb, Hd|]. split; [exact (Rp d Hd)|]. split; [reflexivity|]. split; assumption. }
  destruct (LK h0 Q0) as (h & h'' & B1 & B2 & L1).
  assert (EQ : h = h0) by (clear - L1; induction L1 as [|x y s i j a b c [-> _] _ IH]; [reflexivity | now rewrite IH]). subst h.
  destruct (mirror_ok E c w r P HE HC fs (compute_hole_repulsion E c P) (fun s => (- op_static L P s)%Qc) (op_repulsion L P) S) as (e3 & B5 & R3 & M3).
  { intros d Hd. unfold fs. now rewrite (St d Hd). }
  { exact Rp. }
  rewrite B2 in B5. injection B5 as <-. exists h''. split; [exact B1|]. split; [exact L1|].
  intros i j d d' Hi Hj Nd Nd'. unfold L. rewrite size_mirror. fold P. fold L. rewrite <- (M3 i j d d' Hi Hj Nd Nd'). symmetry. apply total_at.
Qed.
End Core.
Lemma C117_exact_pf : forall F E c w r K S arg arg0 l l0 m m0 z g, (forall q, Permutation q (add_order F q)) -> set_iter_ok E -> filled c w r -> couplings_within z K -> on_grid g K ->
  (forall x, multiple g x -> (SignDefs.magnitude x <= largest_number z (nholes c) (grid_bonds w (nsites c / w)))%Qc -> fl F x = x) ->
  assembled_fl F E c K S arg l m -> assembled E c K S arg0 l0 m0 -> forall i j, csr_at m i j = csr_at m0 i j.
Proof.
  intros F E c w r K S arg arg0 l l0 m m0 z g HO HE HC HK HG HX [A1 A2] [B1 B2]. rewrite A1 in B1. injection B1 as <-.
  destruct (built E c w r K S arg0 HE HC) as (es & E1 & E2 & R0 & M0). rewrite A1 in E1. injection E1 as ->.
  rewrite B2 in E2. injection E2 as ->. rewrite build_split in B2. rewrite build_fl_split in A2.
  destruct (entries_of E (mkBasis c (dl c)) K S) as [h0|] eqn:Q0; [|discriminate]. cbn [bind] in B2. unfold coo_to_csr in B2. destruct (forallb _ h0) eqn:C0 in B2; [|discriminate]. injection B2 as N1 ->.
  destruct (entries_grid F E c w r K z g HE HC HK HG HX S es Q0) as (h'' & B1 & L1 & M). rewrite B1 in A2. cbn [bind] in A2. unfold coo_to_csr_fl in A2. rewrite C0 in A2. injection A2 as <-. rewrite N1.
  intros i j. rewrite !csr_at_coo. cbn [csr_entries].
  assert (D : (0 <= i < zlen (dl c) /\ 0 <= j < zlen (dl c)) \/ ~ (0 <= i < zlen (dl c) /\ 0 <= j < zlen (dl c))) by lia. destruct D as [[Bi Bj]|D].
  - rewrite (at_summed F _ es i j HO Bi Bj), total_at. destruct (lock_places _ _ _ _ i j L1) as (tl & T1 & _ & T3 & T4).
    destruct (nth_error (dl c) (Z.to_nat i)) as [d|] eqn:Ni; [|apply nth_error_None in Ni; unfold zlen in *; lia]. destruct (nth_error (dl c) (Z.to_nat j)) as [d'|] eqn:Nj; [|apply nth_error_None in Nj; unfold zlen in *; lia].
    assert (X1 : at_place es i j = map fst (map (fun p : Qc * Qc * Qc => (fst (fst p), snd p)) tl)) by (rewrite map_map; exact T1).
    assert (X2 : at_place h'' i j = map snd (map (fun p : Qc * Qc * Qc => (fst (fst p), snd p)) tl)) by (rewrite map_map; exact T3).
    rewrite X1. apply (add_all_grid g F _ HX); [|rewrite <- X2|exact HO].
    + intros x s I. apply in_map_iff in I. destruct I as ([[a b] t] & [= <- <-] & I). destruct (T4 a b t I) as (_ & Y). exact Y.
    + rewrite (M i j d d' (proj1 Bi) (proj1 Bj) Ni Nj). eapply (below c w r K z HC HK S). eapply Qcle_trans; [apply le_magnitude|].
      eapply Qcle_trans; [|exact (row_size c w r z K S d HC HK (nth_error_In _ _ Ni))].
      apply (one_of_sum _ (fun e => tj_size (between (nsites c) (point w) r r) K S (state_of c d) (state_of c e)) (dl c) d'). eapply nth_error_In, Nj.
  - rewrite (out_of_range es (zlen (dl c)) i j) by (exact D || exact R0). apply (out_of_range _ (zlen (dl c))); [|exact D]. intros x a b H. unfold sum_duplicates in H. apply in_flat_map in H. destruct H as (i' & Hi1 & H). apply in_flat_map in H. destruct H as (j' & Hj1 & H).
    apply in_zrange in Hi1, Hj1. destruct (at_place es i' j'); [contradiction|]. destruct H as [[= _ <- <-]|[]]. lia.
Qed.
Lemma C117_binary_pf : forall p e o E c w r K S arg arg0 l l0 m m0 z, 2 <= p -> (forall q, Permutation q (o q)) -> set_iter_ok E -> filled c w r -> couplings_within z K -> on_grid (power2 e) K ->
  (largest_number z (nholes c) (grid_bonds w (nsites c / w)) < power2 (p + e))%Qc ->
  assembled_fl (mkFloats (binary p) o) E c K S arg l m -> assembled E c K S arg0 l0 m0 -> forall i j, csr_at m i j = csr_at m0 i j.
Proof.
  intros p e o E c w r K S arg arg0 l l0 m m0 z Hp HO HE HC HK HG HT HA HA0. apply (C117_exact_pf (mkFloats (binary p) o) E c w r K S arg arg0 l l0 m m0 z (power2 e)); try assumption.
  intros x Mx Hx. cbn [fl]. apply (C117_representable_pf p e); try assumption. eapply Qcle_lt_trans; eassumption.
Qed.
Lemma C117_orders_pf : forall p e o1 o2 E1 E2 c w r K S arg1 arg2 l1 l2 m1 m2 z, 2 <= p -> (forall q, Permutation q (o1 q)) -> (forall q, Permutation q (o2 q)) -> set_iter_ok E1 -> set_iter_ok E2 -> filled c w r ->
  couplings_within z K -> on_grid (power2 e) K -> (largest_number z (nholes c) (grid_bonds w (nsites c / w)) < power2 (p + e))%Qc ->
  assembled_fl (mkFloats (binary p) o1) E1 c K S arg1 l1 m1 -> assembled_fl (mkFloats (binary p) o2) E2 c K S arg2 l2 m2 ->
  forall i j, (i < length l1)%nat -> (j < length l1)%nat -> csr_at m1 (Z.of_nat i) (Z.of_nat j) = csr_at m2 (Z.of_nat i) (Z.of_nat j).
Proof.
  intros p e o1 o2 E1 E2 c w r K S arg1 arg2 l1 l2 m1 m2 z Hp HO1 HO2 HE1 HE2 HC HK HG HT HA1 HA2 i j Li Lj.
  destruct (exact_beside _ _ _ _ _ _ _ _ _ _ HE1 HC HA1) as (n1 & B1). destruct (exact_beside _ _ _ _ _ _ _ _ _ _ HE2 HC HA2) as (n2 & B2).
  rewrite (C117_binary_pf p e o1 E1 c w r K S arg1 arg1 l1 l1 m1 n1 z), (C117_binary_pf p e o2 E2 c w r K S arg2 arg2 l2 l2 m2 n2 z) by assumption.
  destruct (core _ _ _ _ _ _ _ _ _ HE1 HC B1) as (L1 & _ & _ & M1). destruct (core _ _ _ _ _ _ _ _ _ HE2 HC B2) as (L2 & _ & _ & M2). subst l1 l2.
  destruct (nth_error (dl c) i) as [d|] eqn:Hi; [|apply nth_error_None in Hi; lia]. destruct (nth_error (dl c) j) as [d'|] eqn:Hj; [|apply nth_error_None in Hj; lia].
  pose proof (dl_describes _ _ _ _ _ HC Hi) as D. pose proof (dl_describes _ _ _ _ _ HC Hj) as D'. rewrite (M1 i j d d' _ _ Hi Hj D D'). symmetry. apply (M2 i j d d' _ _ Hi Hj D D').
Qed.
Lemma C117_rotations_pf : forall p e o E c K S arg l m z k i j d d', 2 <= p -> (forall q, Permutation q (o q)) -> set_iter_ok E ->
  sized c -> nbh c = nbv c -> filled_whole c (nbh c * nblocs_side c) -> couplings_within z K -> on_grid (power2 e) K ->
  (largest_number z (nholes c) (grid_bonds (nbh c * nblocs_side c) (nsites c / (nbh c * nblocs_side c))) < power2 (p + e))%Qc ->
  assembled_fl (mkFloats (binary p) o) E c K S arg l m -> nth_error l i = Some d -> nth_error l j = Some d' ->
  exists i' j', get_index_in_basis c (rotate_determinant k c d) = Ok i' /\ get_index_in_basis c (rotate_determinant k c d') = Ok j' /\
    csr_at m i' j' = csr_at m (Z.of_nat i) (Z.of_nat j).
Proof.
  intros p e o E c K S arg l m z k i j d d' Hp HO HE HZ SQ HF HK HG HT HA Hi Hj.
  destruct (exact_beside _ _ _ _ _ _ _ _ _ _ HE HF HA) as (m0 & HA0). destruct (C31_rotations_pf E c K S arg l m0 k i j d d' HE HZ SQ HF HA0 Hi Hj) as (i' & j' & I & J & V).
  exists i', j'. split; [exact I|]. split; [exact J|]. rewrite !(C117_binary_pf p e o E c _ _ K S arg arg l l m m0 z Hp HO HE HF HK HG HT HA HA0). exact V.
Qed.
