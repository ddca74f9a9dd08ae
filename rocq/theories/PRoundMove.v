(** The rounded Hamiltonian and relabellings of the sites and of the spins. *)
From Coq Require Import ZArith List Bool Lia Permutation QArith Qcanon Lqa.
From Verif Require Import PyBase PyFacts Lattice Base Interact Ham Round Spec SpecOps SpecTJ SpinDefs Geometry HamSpec SignDefs EnergyDefs RangeDefs RoundDefs.
From Verif Require Import PSpin PQc PBasis PSites PRep PMat PGeo PInter PHam POps FGeo FSites FInter FHam PSecSum PBound PDavIter PDav FDav FSpinVal PSign PSignOp PPerron FSign FMotion PEnergy FEnergy PRange FRange PRound PRound2 FRound FRound2 PRoundSym FRoundSym FDrawn PRot.
Import ListNotations.
Open Scope Z_scope.

(** places of two runs, the sectors being different *)
Lemma places_same2 : forall E E' c c' w r S es es' i j i' j' d e d' e', set_iter_ok E -> set_iter_ok E' -> filled c w r -> filled c' w r ->
  build_with E codes (mkBasis c (dl c)) S = Ok es -> build_with E' codes (mkBasis c' (dl c')) S = Ok es' -> i <> j -> i' <> j' -> 0 <= i -> 0 <= j -> 0 <= i' -> 0 <= j' ->
  nth_error (dl c) (Z.to_nat i) = Some d -> nth_error (dl c) (Z.to_nat j) = Some e -> nth_error (dl c') (Z.to_nat i') = Some d' -> nth_error (dl c') (Z.to_nat j') = Some e' ->
  (forall M, mirror_element c w r M (fun _ => 0%Qc) (fun _ => 0%Qc) S (state_of c d) (state_of c e) = mirror_element c' w r M (fun _ => 0%Qc) (fun _ => 0%Qc) S (state_of c' d') (state_of c' e')) ->
  (forall K, tj_element (between (nsites c) (point w) r r) K S (state_of c d) (state_of c e) = tj_element (between (nsites c') (point w) r r) K S (state_of c' d') (state_of c' e')) ->
  at_place es i j = at_place es' i' j'.
Proof.
  intros E E' c c' w r S es es' i j i' j' d e d' e' HE HE' HC HC' B B' N N' Hi Hj Hi' Hj' Nd Ne Nd' Ne' M X.
  rewrite (place_spread E c w r S es HE HC B i j d e Hi Hj N Nd Ne), (place_spread E' c' w r S es' HE' HC' B' i' j' d' e' Hi' Hj' N' Nd' Ne').
  destruct (same_counts E c (at_place es i j) (at_place es' i' j')) as (C1 & C2 & C3 & C4 & C9 & C10 & P1 & P2 & D1 & D2).
  - intros I. rewrite (mirror_total E c w r S es HE HC B i j d e Hi Hj N Nd Ne), (mirror_total E' c' w r S es' HE' HC' B' i' j' d' e' Hi' Hj' N' Nd' Ne'). apply M.
  - intros K. rewrite (exact_total E c w r S es HE HC B i j d e Hi Hj N Nd Ne). change (decode (exact_values E c K)) with (decode (exact_values E' c' K)). rewrite (exact_total E' c' w r S es' HE' HC' B' i' j' d' e' Hi' Hj' N' Nd' Ne'). apply X.
  - apply spread_ext. intros k Hk. assert (K : k = 1 \/ k = 2 \/ k = 3 \/ k = 4 \/ k = 5 \/ k = 6 \/ k = 7 \/ k = 8 \/ k = 9 \/ k = 10) by lia.
    repeat (destruct K as [->|K]; [lia|]). subst k. lia.
Qed.

(** the elements of two rounded Hamiltonians *)
Lemma fl_same : forall F E E' c c' w r K S arg arg' l l' m m' i j i' j' d e d' e', (forall q, Permutation q (add_order F q)) -> set_iter_ok E -> set_iter_ok E' -> filled c w r -> filled c' w r ->
  assembled_fl F E c K S arg l m -> assembled_fl F E' c' K S arg' l' m' -> i <> j -> i' <> j' ->
  nth_error l i = Some d -> nth_error l j = Some e -> nth_error l' i' = Some d' -> nth_error l' j' = Some e' ->
  (forall M, mirror_element c w r M (fun _ => 0%Qc) (fun _ => 0%Qc) S (state_of c d) (state_of c e) = mirror_element c' w r M (fun _ => 0%Qc) (fun _ => 0%Qc) S (state_of c' d') (state_of c' e')) ->
  (forall K, tj_element (between (nsites c) (point w) r r) K S (state_of c d) (state_of c e) = tj_element (between (nsites c') (point w) r r) K S (state_of c' d') (state_of c' e')) ->
  csr_at m' (Z.of_nat i') (Z.of_nat j') = csr_at m (Z.of_nat i) (Z.of_nat j).
Proof.
  intros F E E' c c' w r K S arg arg' l l' m m' i j i' j' d e d' e' HO HE HE' HC HC' HA HA' N N' Nd Ne Nd' Ne' M X.
  destruct (fl_entries _ _ _ _ _ _ _ _ _ _ HO HE HC HA) as (es & B & -> & _ & _ & H). destruct (fl_entries _ _ _ _ _ _ _ _ _ _ HO HE' HC' HA') as (es' & B' & -> & _ & _ & H').
  assert (Li : (i < length (dl c))%nat) by (apply nth_error_Some; congruence). assert (Lj : (j < length (dl c))%nat) by (apply nth_error_Some; congruence).
  assert (Li' : (i' < length (dl c'))%nat) by (apply nth_error_Some; congruence). assert (Lj' : (j' < length (dl c'))%nat) by (apply nth_error_Some; congruence).
  rewrite H, H' by (unfold zlen; lia). change (decode (rounded_values F E' c' K)) with (decode (rounded_values F E c K)). do 3 f_equal.
  rewrite <- (Nat2Z.id i) in Nd. rewrite <- (Nat2Z.id j) in Ne. rewrite <- (Nat2Z.id i') in Nd'. rewrite <- (Nat2Z.id j') in Ne'.
  symmetry. apply (places_same2 E E' c c' w r S es es' (Z.of_nat i) (Z.of_nat j) (Z.of_nat i') (Z.of_nat j') d e d' e'); try assumption; lia.
Qed.

Section Moved.
Variables (n w : Z) (r : list Z) (f g : Z -> Z) (ph : particle -> particle).
Let L := between n (point w) r r.
Hypothesis B : site_bij n f g.
Hypothesis Hbond : forall x y, 0 <= x < n -> 0 <= y < n -> bonded L (f x) (f y) = bonded L x y.
Hypothesis Hline : forall x y, 0 <= x < n -> 0 <= y < n -> lineb2 (lat_pos L (f x)) (lat_pos L (f y)) = lineb2 (lat_pos L x) (lat_pos L y).
Hypothesis Hline3 : forall x y z, 0 <= x < n -> 0 <= y < n -> 0 <= z < n ->
  lineb3 (lat_pos L (f x)) (lat_pos L (f y)) (lat_pos L (f z)) = lineb3 (lat_pos L x) (lat_pos L y) (lat_pos L z).
Hypothesis Hdiag : forall x y, 0 <= x < n -> 0 <= y < n -> diagb (lat_pos L (f x)) (lat_pos L (f y)) = diagb (lat_pos L x) (lat_pos L y).
Hypothesis Hfrom : forall x, 0 <= x < n -> lat_from L (f x) = lat_from L x.
Hypothesis ph_hole : forall p, holeb (ph p) = holeb p.
Hypothesis ph_opp : forall p q, oppositeb (ph p) (ph q) = oppositeb p q.
Hypothesis ph_same : forall p q, samep (ph p) (ph q) = samep p q.

Lemma rel_crossings : forall K s s' t t', rel n f ph s s' -> rel n f ph t t' -> op_crossings L K s' t' = op_crossings L K s t.
Proof.
  intros K s s' t t' R R'. unfold op_crossings. change (lat_size L) with n.
  rewrite <- (sum_reindex n f g _ B). apply sum_sites_ext. intros h Hh.
  rewrite <- (sum_reindex n f g _ B). apply sum_sites_ext. intros m Hm.
  rewrite <- (sum_reindex n f g _ B). apply sum_sites_ext. intros e He.
  rewrite !Hbond, Hline, Hfrom by assumption. change (lat_to L) with (lat_from L). rewrite !Hfrom, !R, ph_hole, ph_opp by assumption.
  rewrite (rel_same n f g ph B ph_same t t' (swap_state h e s) (swap_state (f h) (f e) s')); [|assumption|now apply (rel_swap n f g ph B)].
  rewrite (rel_same n f g ph B ph_same t t' (shift_state h m e s) (shift_state (f h) (f m) (f e) s')); [reflexivity|assumption|now apply (rel_shift n f g ph B)].
Qed.
Lemma rel_mirror : forall c c' M S s s' t t', nsites c = n -> nsites c' = n -> rel n f ph s s' -> rel n f ph t t' ->
  mirror_element c w r M (fun _ => 0%Qc) (fun _ => 0%Qc) S s t = mirror_element c' w r M (fun _ => 0%Qc) (fun _ => 0%Qc) S s' t'.
Proof.
  intros c c' M S s s' t t' N N' R R'. unfold mirror_element. rewrite N, N'. fold L. rewrite !only_zero.
  rewrite (rel_crossings M s s' t t' R R').
  rewrite (rel_hop L L n f g ph) with (s := s) (t := t) (s' := s') (t' := t') by (assumption || reflexivity).
  rewrite (rel_next L L n f g ph) with (s := s) (t := t) (s' := s') (t' := t') by (assumption || reflexivity).
  rewrite (rel_flip L L n f g ph) with (s := s) (t := t) (s' := s') (t' := t') by (assumption || reflexivity). reflexivity.
Qed.

(** the elements of determinants carried by [f] and [ph] *)
Lemma rel_fl : forall F E E' c c' K S arg arg' l l' m m' i j i' j' d e d' e' s t s' t', (forall q, Permutation q (add_order F q)) -> set_iter_ok E -> set_iter_ok E' -> filled c w r -> filled c' w r ->
  nsites c = n -> nsites c' = n ->
  assembled_fl F E c K S arg l m -> assembled_fl F E' c' K S arg' l' m' -> i <> j ->
  nth_error l i = Some d -> nth_error l j = Some e -> nth_error l' i' = Some d' -> nth_error l' j' = Some e' ->
  describes n (nholes c) (nbeta c) d s -> describes n (nholes c) (nbeta c) e t -> describes n (nholes c') (nbeta c') d' s' -> describes n (nholes c') (nbeta c') e' t' ->
  rel n f ph s s' -> rel n f ph t t' ->
  csr_at m' (Z.of_nat i') (Z.of_nat j') = csr_at m (Z.of_nat i) (Z.of_nat j).
Proof.
  intros F E E' c c' K S arg arg' l l' m m' i j i' j' d e d' e' s t s' t' HO HE HE' HC HC' N N' HA HA' NE Nd Ne Nd' Ne' Ds Dt Ds' Dt' Rs Rt.
  destruct (fl_entries _ _ _ _ _ _ _ _ _ _ HO HE HC HA) as (_ & _ & El & _). destruct (fl_entries _ _ _ _ _ _ _ _ _ _ HO HE' HC' HA') as (_ & _ & El' & _). subst l l'.
  assert (Sd : same_state n (state_of c d) s) by (rewrite <- N in *; exact (describes_unique _ _ _ _ _ _ (dl_describes _ _ _ _ _ HC Nd) Ds)).
  assert (Se : same_state n (state_of c e) t) by (rewrite <- N in *; exact (describes_unique _ _ _ _ _ _ (dl_describes _ _ _ _ _ HC Ne) Dt)).
  assert (Sd' : same_state n (state_of c' d') s') by (rewrite <- N' in *; exact (describes_unique _ _ _ _ _ _ (dl_describes _ _ _ _ _ HC' Nd') Ds')).
  assert (Se' : same_state n (state_of c' e') t') by (rewrite <- N' in *; exact (describes_unique _ _ _ _ _ _ (dl_describes _ _ _ _ _ HC' Ne') Dt')).
  assert (R1 : rel n f ph (state_of c d) (state_of c' d')) by (intros x Hx; rewrite Sd' by (now apply B); rewrite Rs by assumption; f_equal; symmetry; now apply Sd).
  assert (R2 : rel n f ph (state_of c e) (state_of c' e')) by (intros x Hx; rewrite Se' by (now apply B); rewrite Rt by assumption; f_equal; symmetry; now apply Se).
  apply (fl_same F E E' c c' w r K S arg arg' (dl c) (dl c') m m' i j i' j' d e d' e'); try assumption.
  - intros Q. apply NE. subst j'. rewrite Nd' in Ne'. injection Ne' as <-.
    apply (gdl_distinct c i j d e (state_of c d) (state_of c e)); try assumption; try apply HC.
    + rewrite N. destruct (Z_le_gt_dec 0 n); [assumption|]. exfalso. pose proof (n_nonneg c (point w) (row_major_drawn c w (proj1 HC))). lia.
    + exact (dl_describes _ _ _ _ _ HC Nd).
    + exact (dl_describes _ _ _ _ _ HC Ne).
    + rewrite N. apply sameb_iff. rewrite <- (rel_same n f g ph B ph_same _ _ _ _ R1 R2). apply sameb_iff. intros x Hx. reflexivity.
  - intros M. now apply rel_mirror.
  - intros K'. rewrite N, N'. fold L. symmetry. apply (rel_tj L L n f g ph); try assumption; reflexivity.
Qed.
End Moved.
