(** Signs and the t-J operator. *)
From Coq Require Import ZArith List Bool QArith Qcanon Lia.
From Verif Require Import PyBase Interact Spec SpecOps SpecTJ SignDefs PSpin PQc PSecSum FDav PSign.
Import ListNotations.
Open Scope Z_scope.

Lemma sameb_same : forall n s t, sameb n s t = true -> same_state n s t.
Proof.
  intros n s t H x Hx. unfold sameb in H. rewrite forallb_forall in H. specialize (H x (proj2 (in_sites n x) Hx)). unfold samep in H.
  now destruct (particle_eq_dec (s x) (t x)).
Qed.

Section Op.
Variable L : lattice.
Notation n := (lat_size L).
Notation hs := (hole_sign (lat_size L) (lat_pos L)).
Notation ds := (down_sign (lat_size L) (lat_pos L)).

Lemma bonded_distinct : forall x y, bonded L x y = true -> x <> y.
Proof. intros x y H ->. unfold bonded, bondb in H. apply Z.eqb_eq in H. lia. Qed.
Lemma two_black : forall x y, two_bonds L x y = true -> black (lat_pos L y) = black (lat_pos L x).
Proof.
  intros x y H. unfold two_bonds in H. apply existsb_exists in H. destruct H as (m & _ & H). apply andb_prop in H. destruct H as [H1 H2].
  rewrite (bond_black _ _ H2), (bond_black _ _ H1). apply negb_involutive.
Qed.

Lemma sum_term : forall (f g : Z -> Qc) k, (forall x, 0 <= x < n -> f x = (k * g x)%Qc) -> sum_sites n f = (k * sum_sites n g)%Qc.
Proof. intros f g k H. unfold sum_sites. rewrite <- qsum_scale. apply qsum_ext. intros x I. apply H, in_sites, I. Qed.

Lemma tj_opposite : forall K S s t, tj_element L (opposite_t K) S s t = (hs s * hs t * tj_element L K S s t)%Qc.
Proof.
  intros K S s t. unfold tj_element.
  assert (E1 : op_hop L (opposite_t K) s t = (hs s * hs t * op_hop L K s t)%Qc).
  { unfold op_hop. apply sum_term. intros h Hh. apply sum_term. intros e He.
    destruct (lat_from L h && lat_to L e && bonded L h e && holeb (s h) && negb (holeb (s e)) && sameb n t (swap_state h e s)) eqn:Q; [|cbn [only]; ring].
    cbn [only]. rewrite !andb_true_iff in Q. destruct Q as [[[[[_ _] Bd] H1] H2] St]. apply negb_true_iff in H2.
    rewrite (hole_same _ _ _ _ (sameb_same _ _ _ St)), (hole_swap _ _ s h e Hh He (bonded_distinct _ _ Bd) H1 H2), (bond_black _ _ Bd), minus_other. cbn [opposite_t i_t]. ring. }
  assert (E2 : op_next_hop L (opposite_t K) s t = (hs s * hs t * op_next_hop L K s t)%Qc).
  { unfold op_next_hop. apply sum_term. intros h Hh. apply sum_term. intros e He.
    destruct (lat_from L h && lat_to L e && two_bonds L h e && holeb (s h) && negb (holeb (s e)) && sameb n t (swap_state h e s)) eqn:Q; [|cbn [only]; ring].
    cbn [only]. rewrite !andb_true_iff in Q. destruct Q as [[[[[_ _] Bd] H1] H2] St]. apply negb_true_iff in H2.
    rewrite (hole_same _ _ _ _ (sameb_same _ _ _ St)), (hole_swap _ _ s h e Hh He ltac:(congruence) H1 H2), (two_black _ _ Bd), minus_twice. cbn [opposite_t i_tNNN i_tnNNN]. ring. }
  assert (E3 : op_flip L (opposite_t K) s t = (hs s * hs t * op_flip L K s t)%Qc).
  { unfold op_flip. apply sum_term. intros i Hi. apply sum_term. intros j Hj.
    destruct (spin_bond L s i j && sameb n t (swap_state i j s)) eqn:Q; [|cbn [only]; ring].
    cbn [only]. apply andb_prop in Q. destruct Q as [B St]. unfold spin_bond in B. rewrite !andb_true_iff in B. destruct B as [_ O].
    rewrite (hole_same _ _ _ _ (sameb_same _ _ _ St)), hole_swap_spins; [|assumption|assumption|destruct (s i), (s j); try discriminate O; reflexivity].
    rewrite Qcmult_1_l. f_equal. }
  assert (E4 : op_singlet L (opposite_t K) s t = (hs s * hs t * op_singlet L K s t)%Qc).
  { unfold op_singlet. apply sum_term. intros h Hh. apply sum_term. intros m Hm. apply sum_term. intros e He.
    destruct (lat_from L h && lat_to L m && lat_to L e && bonded L h m && bonded L m e && holeb (s h) && oppositeb (s m) (s e)) eqn:Q; [|cbn [only]; ring].
    cbn [only]. rewrite !andb_true_iff in Q. destruct Q as [[[[_ B1] B2] H1] O].
    assert (Bl : black (lat_pos L e) = black (lat_pos L h)) by (rewrite (bond_black _ _ B2), (bond_black _ _ B1); apply negb_involutive).
    assert (Hm0 : holeb (s m) = false /\ holeb (s e) = false) by (destruct (s m), (s e); try discriminate O; auto). destruct Hm0 as [Hm0 He0].
    assert (Nhe : h <> e) by congruence. pose proof (bonded_distinct _ _ B1) as N1. pose proof (bonded_distinct _ _ B2) as N2.
    assert (T1 : only (sameb n t (shift_state h m e s)) 1%Qc = (hs s * hs t * only (sameb n t (shift_state h m e s)) 1)%Qc).
    { destruct (sameb n t (shift_state h m e s)) eqn:St; cbn [only]; [|ring].
      rewrite (hole_same _ _ _ _ (sameb_same _ _ _ St)), hole_shift by assumption. rewrite Bl, minus_twice. ring. }
    assert (T2 : only (sameb n t (swap_state h e s)) 1%Qc = (hs s * hs t * only (sameb n t (swap_state h e s)) 1)%Qc).
    { destruct (sameb n t (swap_state h e s)) eqn:St; cbn [only]; [|ring].
      rewrite (hole_same _ _ _ _ (sameb_same _ _ _ St)), hole_swap by assumption. rewrite Bl, minus_twice. ring. }
    rewrite T1, T2 at 1. cbn [opposite_t i_hSDpar i_hSDper]. ring. }
  assert (E5 : forall x, only (sameb n s t) x = (hs s * hs t * only (sameb n s t) x)%Qc).
  { intros x. destruct (sameb n s t) eqn:St; cbn [only]; [|ring]. rewrite <- (hole_same _ _ _ _ (sameb_same _ _ _ St)). unfold hole_sign. rewrite sign_square. ring. }
  rewrite E1, E2, E3, E4. rewrite (E5 (op_static L (opposite_t K) s)), (E5 (op_repulsion L (opposite_t K) s)).
  change (op_static L (opposite_t K) s) with (op_static L K s). change (op_repulsion L (opposite_t K) s) with (op_repulsion L K s).
  destruct (s_bt S), (s_bz S), (s_bij S), (s_bSD S), (s_btN S), (s_bV S); cbn [only]; ring.
Qed.

Lemma away : forall s, (forall x, 0 <= x < n -> s x <> Hole) -> forall i j, bond_doping L s i j = Away.
Proof.
  intros s H i j. unfold bond_doping. assert (Z0 : forall z, In z (sites n) -> hole_near L s i j z = false).
  { intros z Iz. apply in_sites in Iz. unfold hole_near. specialize (H z Iz). destruct (s z); [congruence| |]; cbn [holeb]; now rewrite andb_false_r. }
  assert (X : forall g, existsb (fun z => hole_near L s i j z && g z) (sites n) = false).
  { intros g. apply not_true_iff_false. rewrite existsb_exists. intros (z & Iz & Q). rewrite (Z0 z Iz) in Q. discriminate Q. }
  rewrite X. destruct (existsb (hole_near L s i j) (sites n)) eqn:Y; [|reflexivity]. apply existsb_exists in Y. destruct Y as (z & Iz & Q). rewrite (Z0 z Iz) in Q. discriminate Q.
Qed.
(** an exchange across a bond *)
Lemma flip_positive : forall K s t i j, (0 < i_J K)%Qc -> (forall x, 0 <= x < n -> s x <> Hole) -> 0 <= i < n -> 0 <= j < n ->
  spin_bond L s i j = true -> same_state n t (swap_state i j s) -> (0 < op_flip L K s t)%Qc.
Proof.
  intros K s t i j HJ H Hi Hj B St. assert (JN : (0 <= half * i_J K)%Qc) by (rewrite <- (Qcmult_0_l (i_J K)); apply Qcmult_le_compat_r; [discriminate | now apply Qclt_le_weak]).
  assert (T : forall i j, (0 <= only (spin_bond L s i j && sameb n t (swap_state i j s)) (half * exchange K (bond_doping L s i j)))%Qc).
  { intros i' j'. destruct (_ && _); cbn [only]; [|apply Qcle_refl]. rewrite away by assumption. exact JN. }
  assert (P : (0 <= op_flip L K s t)%Qc) by (unfold op_flip, sum_sites; apply qsum_nonneg; intros i' _; apply qsum_nonneg; intros j' _; apply T).
  apply Qcle_lt_or_eq in P. destruct P as [P|P]; [exact P|]. exfalso.
  assert (Q : only (spin_bond L s i j && sameb n t (swap_state i j s)) (half * exchange K (bond_doping L s i j))%Qc = 0%Qc).
  { assert (Q1 : sum_sites n (fun j => only (spin_bond L s i j && sameb n t (swap_state i j s)) (half * exchange K (bond_doping L s i j))%Qc) = 0%Qc).
    { apply (qsum_nonneg_zero _ (fun i => sum_sites n (fun j => only (spin_bond L s i j && sameb n t (swap_state i j s)) (half * exchange K (bond_doping L s i j))%Qc)) (sites n));
        [intros; apply qsum_nonneg; intros; apply T | unfold op_flip, sum_sites in P; unfold sum_sites; rewrite <- P; apply Qcle_refl | now apply in_sites]. }
    apply (qsum_nonneg_zero _ (fun j => only (spin_bond L s i j && sameb n t (swap_state i j s)) (half * exchange K (bond_doping L s i j))%Qc) (sites n));
      [intros; apply T | unfold sum_sites in Q1; rewrite Q1; apply Qcle_refl | now apply in_sites]. }
  rewrite B, (proj2 (sameb_iff _ _ _) St) in Q. cbn [andb only] in Q. rewrite away in Q by assumption. cbn [exchange] in Q. apply Qcmult_integral in Q.
  destruct Q as [Q|Q]; [discriminate Q | rewrite Q in HJ; now apply Qclt_not_eq in HJ].
Qed.

(** without holes or without moves of holes, the exchange has one sign *)
Lemma tj_marshall : forall K S s t, (0 <= i_J K)%Qc ->
  (forall x, 0 <= x < n -> s x <> Hole) \/ (s_bt S = false /\ s_bSD S = false /\ s_btN S = false /\ (0 <= i_Jhpar K)%Qc /\ (0 <= i_Jhper K)%Qc) -> ~ same_state n s t ->
  (tj_element L K S s t = only (s_bij S) (op_flip L K s t) /\ ds s * ds t * tj_element L K S s t = - tj_element L K S s t /\ 0 <= op_flip L K s t)%Qc.
Proof.
  intros K S s t HJ HS N.
  assert (Z1 : only (s_bt S) (op_hop L K s t) = 0%Qc).
  { destruct HS as [HS|(-> & _)]; [|reflexivity]. destruct (s_bt S); [|reflexivity]. cbn [only]. unfold op_hop, sum_sites. apply qsum_zero. intros h Hh. apply qsum_zero. intros e He.
    apply in_sites in Hh. specialize (HS h Hh). destruct (s h) eqn:Q; [congruence| |]; cbn [holeb]; now rewrite !andb_false_r. }
  assert (Z2 : only (s_bSD S) (op_singlet L K s t) = 0%Qc).
  { destruct HS as [HS|(_ & -> & _)]; [|reflexivity]. destruct (s_bSD S); [|reflexivity]. cbn [only]. unfold op_singlet, sum_sites. apply qsum_zero. intros h Hh. apply qsum_zero. intros m _. apply qsum_zero. intros e He.
    apply in_sites in Hh. specialize (HS h Hh). destruct (s h) eqn:Q; [congruence| |]; cbn [holeb]; now rewrite !andb_false_r. }
  assert (Z3 : only (s_btN S) (op_next_hop L K s t) = 0%Qc).
  { destruct HS as [HS|(_ & _ & -> & _)]; [|reflexivity]. destruct (s_btN S); [|reflexivity]. cbn [only]. unfold op_next_hop, sum_sites. apply qsum_zero. intros h Hh. apply qsum_zero. intros e He.
    apply in_sites in Hh. specialize (HS h Hh). destruct (s h) eqn:Q; [congruence| |]; cbn [holeb]; now rewrite !andb_false_r. }
  assert (Z4 : forall x, only (sameb n s t) x = 0%Qc) by (intros x; destruct (sameb n s t) eqn:Q; [exfalso; apply N; now apply sameb_same | reflexivity]).
  assert (F : (ds s * ds t * op_flip L K s t)%Qc = (- op_flip L K s t)%Qc).
  { symmetry. replace (- op_flip L K s t)%Qc with (- (1) * op_flip L K s t)%Qc by ring. unfold op_flip. symmetry.
    rewrite <- (sum_term (fun i => sum_sites n (fun j => - only (spin_bond L s i j && sameb n t (swap_state i j s)) (half * exchange K (bond_doping L s i j))))%Qc _ (ds s * ds t)%Qc).
    - apply sum_term. intros i Hi. apply sum_term. intros j Hj. ring.
    - intros i Hi. apply sum_term. intros j Hj. destruct (spin_bond L s i j && sameb n t (swap_state i j s)) eqn:Q; [|cbn [only]; ring]. cbn [only].
      apply andb_prop in Q. destruct Q as [B St]. unfold spin_bond in B. rewrite !andb_true_iff in B. destruct B as [[_ Bd] O].
      rewrite (down_same _ _ _ _ (sameb_same _ _ _ St)), down_swap by (try assumption; apply bonded_distinct, Bd). rewrite (bond_black _ _ Bd), minus_other. ring. }
  assert (P : (0 <= op_flip L K s t)%Qc).
  { unfold op_flip, sum_sites. apply qsum_nonneg. intros i _. apply qsum_nonneg. intros j _. destruct (_ && _); cbn [only]; [|apply Qcle_refl].
    rewrite <- (Qcmult_0_l (exchange K (bond_doping L s i j))). apply Qcmult_le_compat_r; [discriminate|]. destruct HS as [HS|(_ & _ & _ & HJ1 & HJ2)]; [rewrite (away s HS); assumption | now destruct (bond_doping L s i j)]. }
  assert (X : tj_element L K S s t = only (s_bij S) (op_flip L K s t)) by (unfold tj_element; rewrite Z1, Z2, Z3, !Z4; destruct (s_bij S), (s_bz S), (s_bV S); cbn [only]; ring).
  split; [exact X|]. split; [|exact P]. rewrite X. destruct (s_bij S); cbn [only]; [exact F | ring].
Qed.

Lemma only_nonpos : forall b x, (b = true -> x <= 0)%Qc -> (only b x <= 0)%Qc.
Proof. intros [] x H; cbn [only]; [now apply H | apply Qcle_refl]. Qed.
Lemma sum_nonpos : forall f, (forall x, 0 <= x < n -> (f x <= 0)%Qc) -> (sum_sites n f <= 0)%Qc.
Proof.
  intros f H. assert (G : (0 <= sum_sites n (fun x => - f x))%Qc) by (apply qsum_nonneg; intros x Hx; apply in_sites in Hx; specialize (H x Hx); qc).
  rewrite (sum_term (fun x => - f x)%Qc f (- (1))%Qc) in G by (intros; ring). revert G. generalize (sum_sites n f). intros a G. qc.
Qed.

Lemma tj_nonpos : forall K S s t, unfrustrated K S -> (i_t K <= 0)%Qc -> ~ same_state n s t -> (tj_element L K S s t <= 0)%Qc.
Proof.
  intros K S s t (U1 & U2 & U3) HT N.
  assert (Z4 : forall x, only (sameb n s t) x = 0%Qc) by (intros x; destruct (sameb n s t) eqn:Q; [exfalso; apply N; now apply sameb_same | reflexivity]).
  assert (A1 : (only (s_bt S) (op_hop L K s t) <= 0)%Qc).
  { apply only_nonpos. intros _. apply sum_nonpos. intros h _. apply sum_nonpos. intros e _. now apply only_nonpos. }
  assert (A2 : (only (s_bij S) (op_flip L K s t) <= 0)%Qc).
  { apply only_nonpos. intros B. destruct (U2 B) as (J1 & J2 & J3). apply sum_nonpos. intros i _. apply sum_nonpos. intros j _. apply only_nonpos. intros _.
    assert (X : (exchange K (bond_doping L s i j) <= 0)%Qc) by (now destruct (bond_doping L s i j)).
    rewrite Qcmult_comm. rewrite <- (Qcmult_0_l half). apply Qcmult_le_compat_r; [assumption | discriminate]. }
  assert (A3 : (only (s_btN S) (op_next_hop L K s t) <= 0)%Qc).
  { apply only_nonpos. intros B. destruct (U3 B) as (J1 & J2). apply sum_nonpos. intros h _. apply sum_nonpos. intros e _. apply only_nonpos. intros _. now destruct (lineb2 _ _). }
  unfold tj_element. rewrite U1, !Z4. revert A1 A2 A3. generalize (only (s_bt S) (op_hop L K s t)) (only (s_bij S) (op_flip L K s t)) (only (s_btN S) (op_next_hop L K s t)). intros a b d A1 A2 A3.
  destruct (s_bz S), (s_bV S); cbn [only]; qc.
Qed.
Lemma tj_hop : forall K S s t, unfrustrated K S -> ~ same_state n s t -> (hop_sign K n (lat_pos L) s * hop_sign K n (lat_pos L) t * tj_element L K S s t <= 0)%Qc.
Proof.
  intros K S s t U N. unfold hop_sign. destruct (Qclt_le_dec 0 (i_t K)) as [T|T].
  - fold hs. rewrite <- tj_opposite. apply tj_nonpos; [exact U | | assumption]. cbn [opposite_t i_t]. apply Qclt_le_weak in T. revert T. generalize (i_t K). intros a T. qc.
  - pose proof (tj_nonpos K S s t U T N) as G. revert G. generalize (tj_element L K S s t). intros a G. qc.
Qed.
Lemma sum_negative : forall f x, (forall y, 0 <= y < n -> (f y <= 0)%Qc) -> 0 <= x < n -> (f x < 0)%Qc -> (sum_sites n f < 0)%Qc.
Proof.
  intros f x H Hx Fx. pose proof (sum_nonpos f H) as LE. destruct (Qclt_le_dec (sum_sites n f) 0) as [|GE]; [assumption|]. exfalso.
  assert (Z0 : (- f x)%Qc = 0%Qc).
  { apply (qsum_nonneg_zero _ (fun y => - f y)%Qc (sites n)); [intros y Hy; apply in_sites in Hy; specialize (H y Hy); revert H; generalize (f y); intros a H; qc | | now apply in_sites].
    rewrite qsum_opp. change (qsum f (sites n)) with (sum_sites n f). revert GE. generalize (sum_sites n f). intros a GE. qc. }
  revert Fx Z0. generalize (f x). intros a Fx Z0. assert (a = 0%Qc) as -> by (transitivity (- - a)%Qc; [ring | rewrite Z0; ring]). now apply Qclt_not_eq in Fx.
Qed.
(** two different neighbours are exchanged with a negative element *)
Lemma tj_negative : forall K S s t x y, unfrustrated K S -> (i_t K <= 0)%Qc -> ~ same_state n s t ->
  (forall z, 0 <= z < n -> lat_from L z = true /\ lat_to L z = true) -> 0 <= x < n -> 0 <= y < n -> bonded L x y = true -> s x <> s y -> same_state n t (swap_state x y s) ->
  (holeb (s x) || holeb (s y) = true -> s_bt S = true /\ (i_t K < 0)%Qc) ->
  (oppositeb (s x) (s y) = true -> s_bij S = true /\ (i_J K < 0)%Qc /\ (i_Jhpar K < 0)%Qc /\ (i_Jhper K < 0)%Qc) ->
  (tj_element L K S s t < 0)%Qc.
Proof.
  intros K S s t x y U HT N FT Hx Hy B D M HH HO. pose proof U as (U1 & U2 & U3).
  assert (BS : bonded L y x = true) by (unfold bonded, bondb in *; rewrite <- B; f_equal; lia).
  assert (MS : same_state n t (swap_state y x s)).
  { intros z Hz. rewrite (M z Hz). unfold swap_state. destruct (Z.eqb_spec z x) as [->|]; [now destruct (Z.eqb_spec x y) as [->|]|]. destruct (z =? y); reflexivity. }
  assert (Z4 : forall q, only (sameb n s t) q = 0%Qc) by (intros q; destruct (sameb n s t) eqn:Q; [exfalso; apply N; now apply sameb_same | reflexivity]).
  assert (T1 : forall h e, (only (lat_from L h && lat_to L e && bonded L h e && holeb (s h) && negb (holeb (s e)) && sameb n t (swap_state h e s)) (i_t K) <= 0)%Qc) by (intros; now apply only_nonpos).
  assert (T2 : s_bij S = true -> forall i j, (only (spin_bond L s i j && sameb n t (swap_state i j s)) (half * exchange K (bond_doping L s i j)) <= 0)%Qc).
  { intros Bj i j. destruct (U2 Bj) as (J1 & J2 & J3). apply only_nonpos. intros _. assert (X : (exchange K (bond_doping L s i j) <= 0)%Qc) by (now destruct (bond_doping L s i j)).
    rewrite Qcmult_comm. rewrite <- (Qcmult_0_l half). apply Qcmult_le_compat_r; [assumption | discriminate]. }
  assert (A1 : (only (s_bt S) (op_hop L K s t) <= 0)%Qc) by (apply only_nonpos; intros _; apply sum_nonpos; intros h _; apply sum_nonpos; intros e _; apply T1).
  assert (A2 : (only (s_bij S) (op_flip L K s t) <= 0)%Qc) by (apply only_nonpos; intros Bj; apply sum_nonpos; intros i _; apply sum_nonpos; intros j _; now apply T2).
  assert (A3 : (only (s_btN S) (op_next_hop L K s t) <= 0)%Qc).
  { apply only_nonpos. intros Bj. destruct (U3 Bj) as (J1 & J2). apply sum_nonpos. intros h _. apply sum_nonpos. intros e _. apply only_nonpos. intros _. now destruct (lineb2 _ _). }
  assert (HOP : forall h e, 0 <= h < n -> 0 <= e < n -> bonded L h e = true -> holeb (s h) = true -> holeb (s e) = false -> same_state n t (swap_state h e s) -> s_bt S = true -> (i_t K < 0)%Qc -> (only (s_bt S) (op_hop L K s t) < 0)%Qc).
  { intros h e Hh He Bd Q1 Q2 Mt Bt Ht. rewrite Bt. cbn [only]. apply (sum_negative _ h); [intros; apply sum_nonpos; intros; apply T1 | assumption|]. apply (sum_negative _ e); [intros; apply T1 | assumption|].
    rewrite (proj1 (FT h Hh)), (proj2 (FT e He)), Bd, Q1, Q2, (proj2 (sameb_iff _ _ _) Mt). exact Ht. }
  assert (FLIP : forall i j, 0 <= i < n -> 0 <= j < n -> i < j -> bonded L i j = true -> oppositeb (s i) (s j) = true -> same_state n t (swap_state i j s) ->
     s_bij S = true /\ (i_J K < 0)%Qc /\ (i_Jhpar K < 0)%Qc /\ (i_Jhper K < 0)%Qc -> (only (s_bij S) (op_flip L K s t) < 0)%Qc).
  { intros i j Hi Hj Lt Bd Op Mt (Bj & J1 & J2 & J3). specialize (T2 Bj). rewrite Bj. cbn [only]. apply (sum_negative _ i); [intros; apply sum_nonpos; intros; apply T2 | assumption|]. apply (sum_negative _ j); [intros; apply T2 | assumption|].
    unfold spin_bond. rewrite (proj2 (Z.ltb_lt _ _) Lt), (proj1 (FT i Hi)), (proj2 (FT j Hj)), Bd, Op, (proj2 (sameb_iff _ _ _) Mt). cbn [andb only].
    assert (X : (exchange K (bond_doping L s i j) < 0)%Qc) by (now destruct (bond_doping L s i j)). rewrite Qcmult_comm, <- (Qcmult_0_l half). apply Qcmult_lt_compat_r; [reflexivity | exact X]. }
  assert (R : (only (s_bt S) (op_hop L K s t) < 0)%Qc \/ (only (s_bij S) (op_flip L K s t) < 0)%Qc).
  { destruct (holeb (s x)) eqn:Qx; [left; destruct (HH eq_refl) as [Bt Ht]; apply (HOP x y); try assumption; destruct (s x), (s y); try discriminate Qx; try reflexivity; now elim D|].
    destruct (holeb (s y)) eqn:Qy; [left; destruct (HH eq_refl) as [Bt Ht]; now apply (HOP y x)|]. right.
    assert (O : oppositeb (s x) (s y) = true /\ oppositeb (s y) (s x) = true) by (destruct (s x), (s y); try discriminate Qx; try discriminate Qy; try (now elim D); auto).
    specialize (HO (proj1 O)). destruct (Z.lt_trichotomy x y) as [G|[G|G]]; [now apply (FLIP x y) | subst y; now elim D | now apply (FLIP y x)]. }
  unfold tj_element. rewrite U1, !Z4. revert A1 A2 A3 R. generalize (only (s_bt S) (op_hop L K s t)) (only (s_bij S) (op_flip L K s t)) (only (s_btN S) (op_next_hop L K s t)). intros a b d A1 A2 A3 R.
  destruct (s_bz S), (s_bV S); cbn [only]; destruct R; qc.
Qed.
(** the same with the signs of the holes *)
Lemma tj_hop_negative : forall K S s t x y, unfrustrated K S -> ~ same_state n s t ->
  (forall z, 0 <= z < n -> lat_from L z = true /\ lat_to L z = true) -> 0 <= x < n -> 0 <= y < n -> bonded L x y = true -> s x <> s y -> same_state n t (swap_state x y s) ->
  (holeb (s x) || holeb (s y) = true -> s_bt S = true /\ i_t K <> 0%Qc) ->
  (oppositeb (s x) (s y) = true -> s_bij S = true /\ (i_J K < 0)%Qc /\ (i_Jhpar K < 0)%Qc /\ (i_Jhper K < 0)%Qc) ->
  (hop_sign K n (lat_pos L) s * hop_sign K n (lat_pos L) t * tj_element L K S s t < 0)%Qc.
Proof.
  intros K S s t x y U N FT Hx Hy B D M HH HO. unfold hop_sign. destruct (Qclt_le_dec 0 (i_t K)) as [T|T].
  - fold hs. rewrite <- tj_opposite. apply (tj_negative (opposite_t K) S s t x y); try assumption; [cbn [opposite_t i_t]; apply Qclt_le_weak in T; revert T; generalize (i_t K); intros a T; qc|].
    intros Q. split; [now apply HH|]. cbn [opposite_t i_t]. revert T. generalize (i_t K). intros a T. qc.
  - replace (1 * 1 * tj_element L K S s t)%Qc with (tj_element L K S s t) by ring. apply (tj_negative K S s t x y); try assumption.
    intros Q. destruct (HH Q) as [Q1 Q2]. split; [assumption|]. apply Qcle_lt_or_eq in T. destruct T as [T|T]; [assumption | contradiction].
Qed.
End Op.
