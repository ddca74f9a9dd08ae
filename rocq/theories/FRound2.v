(** Final lemmas for C111, rational amplitudes. *)
From Coq Require Import ZArith List Bool Lia Permutation QArith Qcanon Lqa.
From Verif Require Import PyBase PyFacts Lattice Base Interact Ham Round Spec SpecOps SpecTJ SpinDefs Geometry HamSpec SignDefs EnergyDefs RangeDefs RoundDefs.
From Verif Require Import PSpin PQc PBasis PSites PRep PMat PGeo PInter PHam POps FGeo FSites FInter FHam PSecSum PBound PDavIter PDav FDav FSpinVal PSign PSignOp PPerron FSign FMotion PEnergy FEnergy PRange FRange PRound PRound2 FRound.
Import ListNotations.
Open Scope Z_scope.

(** ** the sizes of the elements depend on the sites only and are symmetric *)
Lemma crossings_ext : forall L n K s s' t t', lat_size L = n -> same_state n s s' -> same_state n t t' -> op_crossings L K s' t' = op_crossings L K s t.
Proof.
  intros L n K s s' t t' HS Hs Ht. unfold op_crossings. rewrite HS. cbv zeta. apply sum_sites_ext. intros h Hh. apply sum_sites_ext. intros m Hm. apply sum_sites_ext. intros e He.
  assert (Rs : rel n (fun x => x) (fun p => p) s s') by (intros x Hx; symmetry; now apply Hs).
  assert (W : same_state n (swap_state h e s) (swap_state h e s')) by (intros x Hx; symmetry; exact (rel_swap n (fun x => x) (fun x => x) (fun p => p) (id_bij n) s s' h e Rs Hh He x Hx)).
  assert (V : same_state n (shift_state h m e s) (shift_state h m e s')) by (intros x Hx; symmetry; exact (rel_shift n (fun x => x) (fun x => x) (fun p => p) (id_bij n) s s' h m e Rs Hh Hm He x Hx)).
  rewrite (sameb_ext n _ _ _ _ Ht W), (sameb_ext n _ _ _ _ Ht V), !Hs by assumption. reflexivity.
Qed.
Lemma size_parts : forall L K S s t, tj_size L K S s t =
  (tj_element L (positive_couplings K) (mkSwitches (s_bt S) false (s_bij S) false (s_btN S) (s_bV S)) s t
   - tj_element L (positive_couplings K) (mkSwitches false (s_bz S) false false false false) s t + only (s_bSD S) (op_crossings L (positive_couplings K) s t))%Qc.
Proof. intros. unfold tj_size, tj_element. cbv zeta. destruct S as [[] [] [] [] [] []]; cbn [only s_bt s_bz s_bij s_bSD s_btN s_bV]; destruct (sameb (lat_size L) s t); cbn [only]; ring. Qed.
Lemma size_ext : forall n p r K S s s' t t', same_state n s s' -> same_state n t t' -> tj_size (between n p r r) K S s' t' = tj_size (between n p r r) K S s t.
Proof.
  intros n p r K S s s' t t' Hs Ht. rewrite !size_parts. rewrite (crossings_ext (between n p r r) n _ s s' t t' eq_refl Hs Ht).
  rewrite !(tj_ext (between n p r r) (between n p r r) n _ _ s s' t t'); try reflexivity; assumption.
Qed.
Lemma size_sym : forall n p r K S s t, tj_size (between n p r r) K S s t = tj_size (between n p r r) K S t s.
Proof.
  intros n p r K S s t. rewrite !size_parts. rewrite (crossings_sym (between n p r r) n eq_refl (fun _ _ => eq_refl)).
  rewrite !(tj_sym (between n p r r) n eq_refl (fun _ _ => eq_refl) _ _ s t). reflexivity.
Qed.

(** ** what the assembly gives *)
Lemma fl_core : forall u F E c w r K S arg l m, rounds u F -> set_iter_ok E -> filled c w r -> assembled_fl F E c K S arg l m ->
  l = dl c /\ csr_dim m = zlen (dl c) /\ in_range c (csr_entries m) /\
  forall i j d e s t, nth_error l i = Some d -> nth_error l j = Some e ->
    describes (nsites c) (nholes c) (nbeta c) d s -> describes (nsites c) (nholes c) (nbeta c) e t ->
    near (growth u (roundings (nholes c) (grid_bonds w (nsites c / w)))) (csr_at m (Z.of_nat i) (Z.of_nat j)) (tj_element (between (nsites c) (point w) r r) K S s t)
      (tj_size (between (nsites c) (point w) r r) K S s t).
Proof.
  intros u F E c w r K S arg l m HU HE HF [A B]. destruct (rounded_core u F E c w r K S arg HU HE HF) as (m' & E1 & E2 & D & R & M).
  rewrite A in E1. injection E1 as ->. rewrite B in E2. injection E2 as <-.
  split; [reflexivity|]. split; [exact D|]. split; [exact R|].
  intros i j d e s t Hi Hj D1 D2. specialize (M (Z.of_nat i) (Z.of_nat j) d e ltac:(lia) ltac:(lia)). rewrite !Nat2Z.id in M. specialize (M Hi Hj).
  assert (S1 : same_state (nsites c) s (state_of c d)) by (intros x Hx; symmetry; exact (state_of_describes c d s D1 x Hx)).
  assert (S2 : same_state (nsites c) t (state_of c e)) by (intros x Hx; symmetry; exact (state_of_describes c e t D2 x Hx)).
  rewrite (size_ext _ _ _ _ _ _ _ _ _ S1 S2) in M.
  rewrite (tj_ext (between (nsites c) (point w) r r) (between (nsites c) (point w) r r) (nsites c) K S s (state_of c d) t (state_of c e)) in M; try reflexivity; assumption.
Qed.

Lemma C111_works_pf : forall u F E c w r K S arg, rounds u F -> set_iter_ok E -> filled c w r ->
  exists l m m0, assembled_fl F E c K S arg l m /\ assembled E c K S arg l m0 /\ csr_dim m = zlen l /\ csr_dim m0 = zlen l.
Proof.
  intros u F E c w r K S arg HU HE HF. destruct (rounded_core u F E c w r K S arg HU HE HF) as (m & E1 & E2 & D & _). destruct (built E c w r K S arg HE HF) as (es & _ & E3 & _).
  exists (dl c), m. eexists. split; [split; assumption|]. split; [split; eassumption|]. split; [exact D | reflexivity].
Qed.

Lemma C111_elements_pf : forall u F E c w r K S arg l m i j d e s t, rounds u F -> set_iter_ok E -> filled c w r -> assembled_fl F E c K S arg l m ->
  nth_error l i = Some d -> nth_error l j = Some e ->
  describes (nsites c) (nholes c) (nbeta c) d s -> describes (nsites c) (nholes c) (nbeta c) e t ->
  (magnitude (csr_at m (Z.of_nat i) (Z.of_nat j) - tj_element (between (nsites c) (point w) r r) K S s t)
   <= growth u (roundings (nholes c) (grid_bonds w (nsites c / w))) * tj_size (between (nsites c) (point w) r r) K S s t)%Qc.
Proof.
  intros u F E c w r K S arg l m i j d e s t HU HE HF HA Hi Hj Ds Dt. destruct (fl_core _ _ _ _ _ _ _ _ _ _ _ HU HE HF HA) as (_ & _ & _ & M). apply (M i j d e s t Hi Hj Ds Dt).
Qed.

(** ** rows *)
Lemma positive_within : forall z K, couplings_within z K -> couplings_within z (positive_couplings K).
Proof.
  intros z K H. unfold couplings_within in *.
  assert (G : forall b x, within b x -> within b (magnitude x)).
  { intros b x [H1 H2]. assert (Hm : (magnitude x <= b)%Qc) by (unfold magnitude; destruct (Qclt_le_dec x 0); qc). split; [|exact Hm]. pose proof (magnitude_nonneg x). qc. }
  destruct H as (? & ? & ? & ? & ? & ? & ? & ? & ? & ?). repeat split; apply G; assumption.
Qed.
Lemma row_size : forall c w r z K S d, filled c w r -> couplings_within z K -> In d (dl c) -> 
  (qsum (fun e => magnitude (tj_size (between (nsites c) (point w) r r) K S (state_of c d) (state_of c e))) (dl c) <= energy_bound z S (nholes c) (grid_bonds w (nsites c / w)))%Qc.
Proof.
  intros c w r z K S d HF HK Hd. pose proof (positive_within z K HK) as HP. destruct (In_nth_error _ _ Hd) as (i & Ni). pose proof (dl_describes c w r i d HF Ni) as Dd.
  rewrite (qsum_ext _ _ (fun e => magnitude (mirror_element c w r (positive_couplings K) (fun s => (- op_static (between (nsites c) (point w) r r) (positive_couplings K) s)%Qc)
    (op_repulsion (between (nsites c) (point w) r r) (positive_couplings K)) S (state_of c d) (state_of c e)))) by (intros; now rewrite size_mirror).
  eapply Qcle_trans; [apply (row_mirror c w r HF z _ HP d (state_of c d) Dd _ _ S (qz (grid_bonds w (nsites c / w)) * (half * z_J z)) (qz (4 * nholes c) * z_V z))|].
  - rewrite magnitude_opp. exact (static_le c w r HF z _ HP d (state_of c d) Dd Hd).
  - exact (repulsion_le c w r HF z _ HP d (state_of c d) Dd Hd).
  - apply Qcle_refl.
Qed.
Lemma growth_nonneg : forall u F k, rounds u F -> (0 <= growth u k)%Qc.
Proof. intros u F k HU. exact (eps_nonneg u F HU (Z.to_nat k)). Qed.

Section Pair.
Variables (u : Qc) (F : floats) (E : runtime) (c : configuration) (w : Z) (r : list Z) (K : interactions) (S : switches) (arg arg0 : restriction) (l l0 : list (list Z)) (m m0 : csr) (z : sizes).
Hypothesis HU : rounds u F.
Hypothesis HE : set_iter_ok E.
Hypothesis HF : filled c w r.
Hypothesis HA : assembled_fl F E c K S arg l m.
Hypothesis HA0 : assembled E c K S arg0 l0 m0.
Hypothesis HK : couplings_within z K.
Let G := growth u (roundings (nholes c) (grid_bonds w (nsites c / w))).
Let B := energy_bound z S (nholes c) (grid_bonds w (nsites c / w)).
Let L := between (nsites c) (point w) r r.
Definition size_at (i j : nat) : Qc :=
  match nth_error (dl c) i, nth_error (dl c) j with Some d, Some e => tj_size L K S (state_of c d) (state_of c e) | _, _ => 0%Qc end.

Lemma size_at_sym : forall i j, size_at i j = size_at j i.
Proof. intros i j. unfold size_at. destruct (nth_error (dl c) i), (nth_error (dl c) j); try reflexivity. apply size_sym. Qed.
Lemma det_at : forall i, (i < length (dl c))%nat -> exists d, nth_error (dl c) i = Some d.
Proof. intros i Hi. destruct (nth_error (dl c) i) eqn:Q; [eauto|]. apply nth_error_None in Q. lia. Qed.
Lemma near_at : forall i j, (i < length (dl c))%nat -> (j < length (dl c))%nat -> near G (csr_at m (Z.of_nat i) (Z.of_nat j)) (csr_at m0 (Z.of_nat i) (Z.of_nat j)) (size_at i j).
Proof.
  intros i j Hi Hj. destruct (det_at i Hi) as (d & Qd), (det_at j Hj) as (e & Qe). destruct (fl_core _ _ _ _ _ _ _ _ _ _ _ HU HE HF HA) as (El & _ & _ & M). destruct (core _ _ _ _ _ _ _ _ _ HE HF HA0) as (El0 & _ & _ & M0).
  pose proof (dl_describes _ _ _ _ _ HF Qd) as Dd. pose proof (dl_describes _ _ _ _ _ HF Qe) as De. unfold size_at. rewrite Qd, Qe.
  rewrite (M0 i j d e _ _ ltac:(now rewrite El0) ltac:(now rewrite El0) Dd De). apply (M i j d e _ _ ltac:(now rewrite El) ltac:(now rewrite El) Dd De).
Qed.
Lemma rows_size : forall i, (i < length (dl c))%nat -> (sumN (length (dl c)) (fun j => magnitude (size_at i j)) <= B)%Qc.
Proof.
  intros i Hi. destruct (det_at i Hi) as (d & Qd). eapply Qcle_trans; [|exact (row_size c w r z K S d HF HK (nth_error_In _ _ Qd))]. apply Qcle_of_eq. unfold sumN. apply over_list.
  intros j e He. unfold size_at. rewrite Qd, He. reflexivity.
Qed.
Lemma dims : csr_dim m = zlen (dl c) /\ csr_dim m0 = zlen (dl c) /\ l = dl c /\ l0 = dl c.
Proof. destruct (fl_core _ _ _ _ _ _ _ _ _ _ _ HU HE HF HA) as (El & D & _). destruct (core _ _ _ _ _ _ _ _ _ HE HF HA0) as (El0 & D0 & _). auto. Qed.
Lemma pair_rows : forall i, 0 <= i < csr_dim m -> (sum_sites (csr_dim m) (fun j => magnitude (csr_at m i j - csr_at m0 i j)) <= G * B)%Qc.
Proof.
  intros i Hi. destruct dims as (D & _). rewrite D in *. unfold zlen in *. rewrite <- (Z2Nat.id i) in * by lia. set (k := Z.to_nat i) in *. assert (Hk : (k < length (dl c))%nat) by lia.
  unfold sum_sites, sites.
  eapply Qcle_trans with (sumN (length (dl c)) (fun j => G * magnitude (size_at k j)))%Qc.
  2: { rewrite sum_scale, !(Qcmult_comm G). apply Qcmult_le_compat_r; [now apply rows_size | exact (growth_nonneg u F _ HU)]. }
  eapply Qcle_trans with (sumN (length (dl c)) (fun j => magnitude (csr_at m (Z.of_nat k) (Z.of_nat j) - csr_at m0 (Z.of_nat k) (Z.of_nat j)))).
  - apply Qcle_of_eq. unfold sumN. rewrite Nat2Z.id, qsum_map. reflexivity.
  - apply sum_le. intros j Hj. destruct (near_at k j Hk Hj) as [N1 _]. eapply Qcle_trans; [exact N1|]. rewrite !(Qcmult_comm G). apply Qcmult_le_compat_r; [apply le_magnitude | exact (growth_nonneg u F _ HU)].
Qed.
End Pair.

Lemma mean_abs : forall N (a b : nat -> nat -> Qc) v, (forall i j, (i < N)%nat -> (j < N)%nat -> (magnitude (a i j) <= b i j)%Qc) ->
  (magnitude (mean_of N a v) <= mean_of N b (fun k => magnitude (v k)))%Qc.
Proof.
  intros N a b v H. unfold mean_of, act. eapply Qcle_trans; [apply magnitude_sum|]. apply sum_le. intros i Hi. rewrite magnitude_product. rewrite !(Qcmult_comm (magnitude (v i))). apply Qcmult_le_compat_r; [|apply magnitude_nonneg].
  eapply Qcle_trans; [apply magnitude_sum|]. apply sum_le. intros j Hj. rewrite magnitude_product. apply Qcmult_le_compat_r; [now apply H | apply magnitude_nonneg].
Qed.
Lemma pair_mean : forall u F E c w r K S arg arg0 l l0 m m0 z v, rounds u F -> set_iter_ok E -> filled c w r -> assembled_fl F E c K S arg l m -> assembled E c K S arg0 l0 m0 ->
  couplings_within z K -> zlen v = csr_dim m ->
  (magnitude (csr_mean m v - csr_mean m0 v) <= growth u (roundings (nholes c) (grid_bonds w (nsites c / w))) * energy_bound z S (nholes c) (grid_bonds w (nsites c / w)) * inner v v)%Qc.
Proof.
  intros u F E c w r K S arg arg0 l l0 m m0 z v HU HE HF HA HA0 HK Lv. destruct (dims u F E c w r K S arg arg0 l l0 m m0 HU HE HF HA HA0) as (D & D0 & El & El0).
  assert (LN : length v = length (dl c)) by (rewrite D in Lv; unfold zlen in Lv; lia).
  rewrite (mean_is c w (dl c) m v LN), (mean_is c w (dl c) m0 v LN), (size_is (dl c) v LN).
  set (N := length (dl c)) in *. set (G := growth u _). set (B := energy_bound _ _ _ _). set (x := fun k => nth k v 0%Qc).
  replace (mean_of N (fun i j => csr_at m (Z.of_nat i) (Z.of_nat j)) x - mean_of N (fun i j => csr_at m0 (Z.of_nat i) (Z.of_nat j)) x)%Qc
    with (mean_of N (fun i j => csr_at m (Z.of_nat i) (Z.of_nat j) - csr_at m0 (Z.of_nat i) (Z.of_nat j))%Qc x).
  2: { unfold mean_of, act. unfold Qcminus at 2. replace (- sumN N (fun i => x i * sumN N (fun j => csr_at m0 (Z.of_nat i) (Z.of_nat j) * x j)))%Qc with (sumN N (fun i => - (1) * (x i * sumN N (fun j => csr_at m0 (Z.of_nat i) (Z.of_nat j) * x j))))%Qc by (rewrite sum_scale; ring).
       rewrite <- sum_add. apply sum_ext. intros i Hi. transitivity (x i * (sumN N (fun j => csr_at m (Z.of_nat i) (Z.of_nat j) * x j) + - (1) * sumN N (fun j => csr_at m0 (Z.of_nat i) (Z.of_nat j) * x j)))%Qc; [|ring]. f_equal.
       rewrite <- sum_scale, <- sum_add. apply sum_ext. intros j Hj. ring. }
  eapply Qcle_trans; [apply (mean_abs N _ (fun i j => G * magnitude (size_at c w r K S i j))%Qc)|].
  { intros i j Hi Hj. destruct (near_at u F E c w r K S arg arg0 l l0 m m0 HU HE HF HA HA0 i j Hi Hj) as [N1 _]. eapply Qcle_trans; [exact N1|]. rewrite !(Qcmult_comm G). apply Qcmult_le_compat_r; [apply le_magnitude | exact (growth_nonneg u F _ HU)]. }
  destruct (rows_bound N (fun i j => G * magnitude (size_at c w r K S i j))%Qc (G * B)%Qc) with (u := fun k => magnitude (x k)) as [_ H].
  - intros i j _ _. now rewrite (size_at_sym c w r K S i j).
  - intros i Hi. rewrite (sum_ext N _ (fun j => G * magnitude (size_at c w r K S i j))%Qc).
    + rewrite sum_scale, !(Qcmult_comm G). apply Qcmult_le_compat_r; [|exact (growth_nonneg u F _ HU)]. now apply (rows_size c w r K S z HF HK).
    + intros j Hj. apply magnitude_unique; [|now left]. apply Qcmult_nonneg; [exact (growth_nonneg u F _ HU) | apply magnitude_nonneg].
  - eapply Qcle_trans; [exact H|]. apply Qcle_of_eq. f_equal. unfold size_of. apply sum_ext. intros i Hi. apply magnitude_square.
Qed.

Lemma C111_rows_pf : forall u F E c w r K S arg arg0 l l0 m m0 z i, rounds u F -> set_iter_ok E -> filled c w r -> assembled_fl F E c K S arg l m -> assembled E c K S arg0 l0 m0 ->
  couplings_within z K -> 0 <= i < csr_dim m ->
  (sum_sites (csr_dim m) (fun j => magnitude (csr_at m i j - csr_at m0 i j))
   <= growth u (roundings (nholes c) (grid_bonds w (nsites c / w))) * energy_bound z S (nholes c) (grid_bonds w (nsites c / w)))%Qc.
Proof. intros u F E c w r K S arg arg0 l l0 m m0 z i HU HE HF HA HA0 HK. now apply (pair_rows u F E c w r K S arg arg0 l l0 m m0 z). Qed.
Lemma C111_means_pf : forall u F E c w r K S arg arg0 l l0 m m0 z v, rounds u F -> set_iter_ok E -> filled c w r -> assembled_fl F E c K S arg l m -> assembled E c K S arg0 l0 m0 ->
  couplings_within z K -> zlen v = csr_dim m ->
  within (growth u (roundings (nholes c) (grid_bonds w (nsites c / w))) * energy_bound z S (nholes c) (grid_bonds w (nsites c / w)) * inner v v) (csr_mean m v - csr_mean m0 v).
Proof. intros. apply magnitude_le. eapply pair_mean; eassumption. Qed.
Lemma C111_symmetric_pf : forall u F E c w r K S arg l m i j d e s t, rounds u F -> set_iter_ok E -> filled c w r -> assembled_fl F E c K S arg l m ->
  nth_error l i = Some d -> nth_error l j = Some e ->
  describes (nsites c) (nholes c) (nbeta c) d s -> describes (nsites c) (nholes c) (nbeta c) e t ->
  (magnitude (csr_at m (Z.of_nat i) (Z.of_nat j) - csr_at m (Z.of_nat j) (Z.of_nat i))
   <= qz 2 * growth u (roundings (nholes c) (grid_bonds w (nsites c / w))) * tj_size (between (nsites c) (point w) r r) K S s t)%Qc.
Proof.
  intros u F E c w r K S arg l m i j d e s t HU HE HF HA Hi Hj Ds De. destruct (fl_core _ _ _ _ _ _ _ _ _ _ _ HU HE HF HA) as (_ & _ & _ & M).
  destruct (M i j d e s t Hi Hj Ds De) as [N1 _]. destruct (M j i e d t s Hj Hi De Ds) as [N2 _].
  rewrite (size_sym _ _ _ _ _ t s), (tj_sym (between (nsites c) (point w) r r) (nsites c) eq_refl (fun _ _ => eq_refl) _ _ t s) in N2. set (G := growth _ _) in *. set (T := tj_size _ _ _ _ _) in *. set (x := tj_element _ _ _ _ _) in *.
  set (a := csr_at m (Z.of_nat i) (Z.of_nat j)) in *. set (b := csr_at m (Z.of_nat j) (Z.of_nat i)) in *.
  replace (a - b)%Qc with ((a - x) + - (b - x))%Qc by ring. eapply Qcle_trans; [apply magnitude_add|]. rewrite magnitude_opp.
  replace (qz 2 * G * T)%Qc with (G * T + G * T)%Qc by (replace (qz 2) with (1 + 1)%Qc by (apply Qc_is_canon; reflexivity); ring). now apply Qcplus_le_compat.
Qed.

(** ** without roundings *)
Lemma foldM_ext : forall A B (f g : B -> A -> res B) l b, (forall b a, f b a = g b a) -> foldM f b l = foldM g b l.
Proof. intros A B f g l. induction l as [|a l IH]; intros b H; [reflexivity|]. cbn [foldM]. rewrite H. destruct (g b a); cbn [bind]; auto. Qed.
Lemma static_exact : forall F E c K d, exact_floats F -> compute_static_spin_interaction_fl F E c K d = compute_static_spin_interaction E c K d.
Proof.
  intros F E c K d [HX _]. unfold compute_static_spin_interaction_fl, compute_static_spin_interaction. destruct (build_bond_list E (bond_matrix c) (sites_restriction c)) as [bl|]; [|reflexivity]. cbn [bind]. apply foldM_ext.
  intros b [x y]. destruct (get_spin_site c d x); [|reflexivity]. cbn [bind]. destruct (get_spin_site c d y); [|reflexivity]. cbn [bind]. destruct (negb _); [|reflexivity]. destruct (static_class _ _ _ _ _); [|reflexivity]. cbn [bind]. now rewrite !HX.
Qed.
Lemma repulsion_exact : forall F E c K d, exact_floats F -> compute_hole_repulsion_fl F E c K d = compute_hole_repulsion E c K d.
Proof.
  intros F E c K d [HX _]. unfold compute_hole_repulsion_fl, compute_hole_repulsion. destruct (1 <? nholes c); [|reflexivity]. destruct (get_indexes_of E c d 0 0); [|reflexivity]. cbn [bind]. destruct (foldM _ _ _) as [[p q]|]; [|reflexivity]. cbn [bind]. now rewrite !HX.
Qed.
Lemma add_all_exact : forall F l, exact_floats F -> add_all F l = total l.
Proof.
  intros F l [HX _]. destruct l as [|x l]; [reflexivity|]. cbn [add_all]. unfold total. rewrite qsum_cons. revert x. induction l as [|y l IH]; intros x; cbn [fold_left].
  - rewrite qsum_nil. ring.
  - rewrite IH, HX, qsum_cons. ring.
Qed.
Lemma C111_exact_pf : forall F E c K l S arg m0, exact_floats F -> build_hamiltonian E c K (mkBasis c l) S arg = Ok m0 ->
  exists m, build_hamiltonian_fl F E c K (mkBasis c l) S arg = Ok m /\ csr_dim m = csr_dim m0 /\ forall i j, csr_at m i j = csr_at m0 i j.
Proof.
  intros F E c K l S arg m0 HX. rewrite build_split, build_fl_split. destruct (entries_of E (mkBasis c l) K S) as [h0|] eqn:Q0; [|discriminate]. cbn [bind]. unfold coo_to_csr. set (n := compute_dimension _ _ _).
  destruct (forallb _ h0) eqn:C0; [|discriminate]. intros [= <-].
  assert (LK : locked (fun x y _ => x = y) (entries_fl F E (mkBasis c l) K S) (entries_of E (mkBasis c l) K S) (build_mirror E K (compute_static_spin_interaction E c K) (compute_hole_repulsion E c K) (mkBasis c l) S)).
  { apply locked_build; try reflexivity; try apply HX; try (split; reflexivity).
    - intros d x _ Hx. exists x, x. rewrite (static_exact F E c K d HX). auto.
    - intros d x _ Hx. exists x, x. rewrite (repulsion_exact F E c K d HX). auto. }
  destruct (LK h0 Q0) as (h & h'' & B1 & _ & L1). rewrite B1. cbn [bind]. unfold coo_to_csr_fl. rewrite (lock_range _ _ _ _ n L1), C0. eexists. split; [reflexivity|]. split; [reflexivity|].
  intros i j. rewrite !csr_at_coo. cbn [csr_entries].
  assert (SP : at_place h i j = at_place h0 i j).
  { destruct (lock_places _ _ _ _ i j L1) as (tl & T1 & T2 & _ & T4). rewrite T1, T2. apply map_ext_in. intros [[x y] s] I. exact (T4 x y s I). }
  assert (IN : forall a b, ~ (0 <= a < n /\ 0 <= b < n) -> at_place h0 a b = []).
  { intros a b N. unfold at_place. rewrite forallb_forall in C0. destruct (filter _ h0) as [|[[x r] k] t] eqn:Q; [reflexivity|]. exfalso. apply N.
    assert (I : In (x, r, k) (filter (fun p => let '(_, r, c) := p in (r =? a) && (c =? b)) h0)) by (rewrite Q; now left). apply filter_In in I. destruct I as [I1 I2]. apply andb_true_iff in I2. rewrite !Z.eqb_eq in I2. destruct I2 as [-> ->].
    specialize (C0 _ I1). cbv beta iota in C0. rewrite !andb_true_iff, !Z.leb_le, !Z.ltb_lt in C0. tauto. }
  destruct (Z_lt_le_dec i 0) as [Hi|Hi]; [|destruct (Z_lt_le_dec i n) as [Hi'|Hi']; [destruct (Z_lt_le_dec j 0) as [Hj|Hj]; [|destruct (Z_lt_le_dec j n) as [Hj'|Hj']]|]].
  3: { rewrite (at_summed F n h i j (proj2 HX)) by lia. rewrite (add_all_exact F _ HX), <- (total_perm _ _ (proj2 HX _)), SP. symmetry. apply total_at. }
  all: rewrite (total_at h0), IN by lia; apply (out_of_range _ n); [|lia]; intros x a b H; unfold sum_duplicates in H; apply in_flat_map in H; destruct H as (i' & Hi1 & H); apply in_flat_map in H; destruct H as (j' & Hj1 & H);
       apply in_zrange in Hi1, Hj1; destruct (at_place h i' j'); [contradiction|]; destruct H as [[= _ <- <-]|[]]; lia.
Qed.

(** ** the energy of one determinant *)
Lemma C111_energy_pf : forall u F E c w r K d s, rounds u F -> set_iter_ok E -> filled c w r -> describes (nsites c) (nholes c) (nbeta c) d s ->
  let L := between (nsites c) (point w) r r in let P := positive_couplings K in
  exists x x', compute_energy E c K d = Ok x /\ compute_energy_fl F E c K d = Ok x' /\
    (magnitude (x' - x) <= growth u (grid_bonds w (nsites c / w) + 3) * (op_repulsion L P s - op_static L P s))%Qc.
Proof.
  intros u F E c w r K d s HU HE HC Dd L P. pose proof HC as (RM & HR & Hh & Hb & Ha). pose proof (row_major_drawn c w RM) as HD.
  destruct (bonds_listed E c w r HE HC) as (bl & Bl & Nbl). set (g := grid_bonds w (nsites c / w)) in *.
  assert (Hf : forall x, 0 <= x < nsites c -> (lat_from L x = true <-> In x r)) by exact (HLf c w r).
  assert (Ht : forall x, 0 <= x < nsites c -> (lat_to L x = true <-> In x r)) by exact (HLt c w r).
  assert (St : forall K, compute_static_spin_interaction E c K d = Ok (op_static L K s)).
  { intros K'. apply (static_ok E c (point w) r r d s HE HD HR Dd L eq_refl (fun _ _ => eq_refl) Hf Ht). apply (row_major_straight E c w RM). }
  assert (Rp : forall K, compute_hole_repulsion E c K d = Ok (op_repulsion L K s)).
  { intros K'. apply (repulsion_ok E c (point w) r r d s HE HD HR); try assumption; try reflexivity.
    all: first [apply (row_major_straight E c w RM) | apply (row_major_middle c w RM) | idtac]. auto. }
  destruct (static_near u F E c K d HU bl _ Bl (St K)) as (x' & y & A1 & A2 & A3). fold P in A2. rewrite St in A2. injection A2 as <-.
  destruct (repulsion_near u F E c K d HU _ (Rp K)) as (v' & y' & B1 & B2 & B3). fold P in B2. rewrite Rp in B2. injection B2 as <-.
  unfold compute_energy, compute_energy_fl. rewrite St, Rp, A1, B1. cbn [bind]. eexists. eexists. split; [reflexivity|]. split; [reflexivity|].
  clearbody g. pose proof (zlen_nonneg _ bl) as Z0. unfold zlen in Nbl, Z0. assert (Nl : (length bl <= Z.to_nat g)%nat) by lia.
  assert (X : near (eps u (Datatypes.S (2 + Z.to_nat g))) (fl F (x' + v')%Qc) (op_static L K s + op_repulsion L K s)%Qc (- op_static L P s + op_repulsion L P s)%Qc).
  { apply (near_fl u F HU). apply near_add; [eapply near_weak; [|exact A3] | eapply near_weak; [|exact B3]]; apply (eps_le u F HU); lia. }
  destruct X as [X _]. eapply Qcle_trans; [exact X|]. apply Qcle_of_eq. unfold growth, eps. replace (Z.to_nat (g + 3)) with (Datatypes.S (2 + Z.to_nat g)) by lia. ring.
Qed.
