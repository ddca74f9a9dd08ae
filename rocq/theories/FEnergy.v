(** Final lemmas for C98: range of the energies of the exchanges. *)
From Coq Require Import ZArith List Bool QArith Qcanon Lia.
From Verif Require Import PyBase PyFacts Runtimes Lattice Base Interact Ham Spec SpecOps SpecTJ SpinDefs Geometry HamSpec SignDefs EnergyDefs.
From Verif Require Import PSpin PQc PBasis PSites PHam POps FGeo FBasis FSites FInter FHam PSecSum PBound PDavIter PDav FDav FSpinVal PSign PSignOp PPerron FSign FMotion PEnergy Examples.
Import ListNotations.
Open Scope Z_scope.

Lemma Qcle_of_eq : forall x y : Qc, x = y -> (x <= y)%Qc.
Proof. intros x y ->. apply Qcle_refl. Qed.

Section Op.
Variable L : lattice.
Let n := lat_size L.
Lemma tj_exchanges : forall K S s t, (forall x, 0 <= x < n -> s x <> Hole) \/ (s_bt S = false /\ s_bSD S = false /\ s_btN S = false /\ s_bV S = false) ->
  tj_element L K S s t = (only (s_bz S) (only (sameb n s t) (op_static L K s)) + only (s_bij S) (op_flip L K s t))%Qc.
Proof.
  intros K S s t HS.
  assert (Z1 : only (s_bt S) (op_hop L K s t) = 0%Qc).
  { destruct HS as [HS|(-> & _)]; [|reflexivity]. destruct (s_bt S); [|reflexivity]. cbn [only]. unfold op_hop, sum_sites. apply qsum_zero. intros h Hh. apply qsum_zero. intros e He.
    apply in_sites in Hh. specialize (HS h Hh). destruct (s h) eqn:Q; [congruence| |]; cbn [holeb]; now rewrite !andb_false_r. }
  assert (Z2 : only (s_bSD S) (op_singlet L K s t) = 0%Qc).
  { destruct HS as [HS|(_ & -> & _)]; [|reflexivity]. destruct (s_bSD S); [|reflexivity]. cbn [only]. unfold op_singlet, sum_sites. apply qsum_zero. intros h Hh. apply qsum_zero. intros m _. apply qsum_zero. intros e He.
    apply in_sites in Hh. specialize (HS h Hh). destruct (s h) eqn:Q; [congruence| |]; cbn [holeb]; now rewrite !andb_false_r. }
  assert (Z3 : only (s_btN S) (op_next_hop L K s t) = 0%Qc).
  { destruct HS as [HS|(_ & _ & -> & _)]; [|reflexivity]. destruct (s_btN S); [|reflexivity]. cbn [only]. unfold op_next_hop, sum_sites. apply qsum_zero. intros h Hh. apply qsum_zero. intros e He.
    apply in_sites in Hh. specialize (HS h Hh). destruct (s h) eqn:Q; [congruence| |]; cbn [holeb]; now rewrite !andb_false_r. }
  assert (Z4 : only (s_bV S) (only (sameb n s t) (op_repulsion L K s)) = 0%Qc).
  { destruct HS as [HS|(_ & _ & _ & ->)]; [|reflexivity]. destruct (s_bV S); [|reflexivity]. cbn [only]. replace (op_repulsion L K s) with 0%Qc; [now destruct (sameb n s t)|].
    symmetry. unfold op_repulsion, sum_sites. apply qsum_zero. intros h Hh. apply qsum_zero. intros e He.
    apply in_sites in Hh. specialize (HS h Hh). destruct (s h) eqn:Q; [congruence| |]; cbn [holeb]; now rewrite !andb_false_r. }
  fold n in Z4. unfold tj_element. fold n. rewrite Z1, Z2, Z3, Z4. ring.
Qed.

Lemma flip_same : forall K s, op_flip L K s s = 0%Qc.
Proof.
  intros K s. unfold op_flip, sum_sites. apply qsum_zero. intros i Hi. apply qsum_zero. intros j Hj. apply in_sites in Hi. destruct (spin_bond L s i j && sameb (lat_size L) s (swap_state i j s)) eqn:Q; [|reflexivity]. exfalso.
  apply andb_prop in Q. destruct Q as [B Q]. apply sameb_same in Q. specialize (Q i Hi). unfold swap_state in Q. rewrite Z.eqb_refl in Q.
  unfold spin_bond in B. rewrite !andb_true_iff in B. destruct B as [_ O]. rewrite <- Q in O. destruct (s i); discriminate O.
Qed.
Lemma same_refl : forall s, sameb n s s = true.
Proof. intros s. unfold sameb. apply forallb_forall. intros x _. unfold samep. destruct (particle_eq_dec (s x) (s x)); congruence. Qed.

Lemma static_low : forall K s Jm, (0 <= Jm)%Qc -> (forall i j, (exchange K (bond_doping L s i j) <= Jm)%Qc) ->
  (sum_sites n (fun i => sum_sites n (fun j => only ((i <? j) && bonded L i j) (- (half * Jm)))) <= op_static L K s)%Qc.
Proof.
  intros K s Jm H0 HJ. unfold op_static. fold n.
  assert (M : forall f g, (forall x, 0 <= x < n -> (f x <= g x)%Qc) -> (sum_sites n f <= sum_sites n g)%Qc).
  { intros f g H. unfold sum_sites. assert (G : forall x, In x (sites n) -> (f x <= g x)%Qc) by (intros x I; apply H, in_sites, I). clear H.
    induction (sites n) as [|x l IH]; [apply Qcle_refl|]. rewrite !qsum_cons. apply Qcplus_le_compat; [apply G; now left | apply IH; intros; apply G; now right]. }
  apply M. intros i _. apply M. intros j _. specialize (HJ i j). unfold spin_bond.
  assert (P : (0 <= half * Jm)%Qc) by (apply Qcmult_nonneg; [discriminate | assumption]).
  assert (Q : (half * exchange K (bond_doping L s i j) <= half * Jm)%Qc) by (rewrite !(Qcmult_comm half); apply Qcmult_le_compat_r; [assumption | discriminate]).
  revert P Q. generalize (half * Jm)%Qc (half * exchange K (bond_doping L s i j))%Qc. intros x y P Q.
  destruct (i <? j), (bonded L i j), (lat_from L i), (lat_to L j), (oppositeb (s i) (s j)); cbn [andb only]; try apply Qcle_refl; qc.
Qed.
End Op.

Lemma shape : forall c w r, filled c w r -> 0 < w /\ 0 < nsites c / w /\ nsites c = w * (nsites c / w).
Proof.
  intros c w r ((x & v & s & Hx & Hv & Hs & Hw & HC & HN & _) & _). pose proof (rect_n c x v s Hx Hv Hs HC HN) as Q. assert (0 < w) by nia. split; [assumption|].
  assert (X : nsites c = v * s * w) by (rewrite Q, Hw; ring). rewrite X, Z.div_mul by lia. split; [nia | ring].
Qed.

(** ** the matrix *)
Section Matrix.
Variables (E : runtime) (c : configuration) (w : Z) (r : list Z) (K : interactions) (S : switches) (arg : restriction) (l : list (list Z)) (m : csr) (Jm : Qc).
Hypotheses (HE : set_iter_ok E) (HF : filled c w r) (HA : assembled E c K S arg l m) (HX : exchanges_only c K S Jm).
Let N := length l.
Let a (i j : nat) : Qc := csr_at m (Z.of_nat i) (Z.of_nat j).
Let S0 := mkSwitches false true true false false false.

Lemma dim_length : csr_dim m = Z.of_nat N.
Proof. destruct (core _ _ _ _ _ _ _ _ _ HE HF HA) as (El & D & _). unfold N. rewrite D, El. reflexivity. Qed.
Lemma len_of : forall v : list Qc, zlen v = csr_dim m -> length v = N.
Proof. intros v H. rewrite dim_length in H. unfold zlen in H. lia. Qed.
Lemma state_at : forall i, (i < N)%nat -> exists d, nth_error l i = Some d /\ describes (nsites c) (nholes c) (nbeta c) d (state_of c d).
Proof.
  intros i Hi. destruct (nth_error l i) as [d|] eqn:Q; [|apply nth_error_None in Q; unfold N in Hi; lia]. exists d. split; [reflexivity|].
  destruct (core _ _ _ _ _ _ _ _ _ HE HF HA) as (El & _). rewrite El in Q. exact (dl_describes _ _ _ _ _ HF Q).
Qed.
Lemma case_of : forall d s, describes (nsites c) (nholes c) (nbeta c) d s ->
  (forall x, 0 <= x < nsites c -> s x <> Hole) \/ (s_bt S = false /\ s_bSD S = false /\ s_btN S = false /\ s_bV S = false).
Proof. intros d s D. destruct HX as (_ & _ & _ & _ & [H|H]); [left; eapply no_holes; eassumption | right; tauto]. Qed.
Lemma a_sym : forall i j, (i < N)%nat -> (j < N)%nat -> a i j = a j i.
Proof. intros i j _ _. unfold a. exact (C30_symmetric_pf E c w r K S arg l m (Z.of_nat i) (Z.of_nat j) HE HF HA). Qed.
Lemma a_off : forall i j, (i < N)%nat -> (j < N)%nat -> i <> j -> (0 <= a i j)%Qc.
Proof.
  intros i j Hi Hj D. destruct (state_at i Hi) as (d & Qd & Dd). destruct (state_at j Hj) as (e & Qe & De). destruct HX as (_ & _ & J1 & _ & HS).
  refine (proj1 (C89_elements_pf E c w r K S arg l m i j d e _ _ HE HF HA _ J1 D Qd Qe Dd De)). destruct HS as [HS|HS]; [left; assumption | right; tauto].
Qed.
Lemma a_rows : forall i, (i < N)%nat -> sumN N (fun j => a i j) = 0%Qc.
Proof.
  intros i Hi. destruct (built E c w r K S0 arg HE HF) as (es & B1 & B2 & _).
  destruct (core _ _ _ _ _ _ _ _ _ HE HF HA) as (El & D & R & M).
  assert (HA0 : assembled E c K S0 arg l (mkCsr (zlen (dl c)) es)) by (rewrite El; split; assumption). set (m0 := mkCsr (zlen (dl c)) es) in *.
  destruct (core _ _ _ _ _ _ _ _ _ HE HF HA0) as (_ & D0 & _ & M0).
  pose proof (C33_row_sums_pf E c w r K arg l m0 (Z.of_nat i) HE HF HA0) as G. rewrite D0, <- D, dim_length in G. specialize (G ltac:(lia)).
  rewrite <- G. unfold sum_sites, sites, sumN. rewrite Nat2Z.id, qsum_map. apply qsum_ext. intros j Hj. apply in_seq in Hj. unfold a.
  destruct (state_at i Hi) as (d & Qd & Dd). destruct (state_at j ltac:(lia)) as (e & Qe & De).
  rewrite (M i j d e _ _ Qd Qe Dd De), (M0 i j d e _ _ Qd Qe Dd De). rewrite !tj_exchanges; [| now right; repeat split | exact (case_of _ _ Dd)].
  destruct HX as (-> & -> & _). reflexivity.
Qed.

Let h := nsites c / w.
Lemma a_low : forall i, (i < N)%nat -> (- (half * Jm * qz (grid_bonds w h)) <= a i i)%Qc.
Proof.
  intros i Hi. destruct (shape c w r HF) as (Hw & Hh & HN). fold h in Hh, HN. destruct (state_at i Hi) as (d & Qd & Dd). unfold a. destruct (core _ _ _ _ _ _ _ _ _ HE HF HA) as (_ & _ & _ & M).
  rewrite (M i i d d _ _ Qd Qd Dd Dd), tj_exchanges by exact (case_of _ _ Dd). rewrite flip_same, same_refl. destruct HX as (-> & -> & J1 & J2 & HS). cbn [only]. rewrite Qcplus_0_r.
  eapply Qcle_trans; [|apply (static_low _ _ _ Jm); [eapply Qcle_trans; eassumption|]].
  - cbn [lat_size between]. unfold bonded. cbn [lat_pos between]. rewrite HN, count_bonds by assumption. apply Qcle_of_eq. ring.
  - intros x y. destruct HS as [HS|(_ & _ & _ & _ & P1 & P2 & P3 & P4)].
    + rewrite away; [exact J2|]. cbn [lat_size between]. eapply no_holes; eassumption.
    + now destruct (bond_doping _ _ x y).
Qed.
Lemma mean_is : forall v, length v = N -> csr_mean m v = mean_of N a (fun k => nth k v 0%Qc).
Proof. intros v Lv. unfold csr_mean, inner, mean_of, act, sumN. rewrite Lv. apply qsum_ext. intros i Hi. apply in_seq in Hi. rewrite times_at by lia. now rewrite Lv. Qed.
Lemma size_is : forall v, length v = N -> inner v v = size_of N (fun k => nth k v 0%Qc).
Proof. intros v Lv. unfold inner, size_of, sumN. now rewrite Lv. Qed.

Lemma range_mean : forall u, zlen u = csr_dim m -> (- (Jm * qz (grid_bonds w h)) * inner u u <= csr_mean m u)%Qc /\ (csr_mean m u <= 0)%Qc.
Proof.
  intros u Lu. apply len_of in Lu. rewrite (mean_is u Lu), (size_is u Lu). split; [|exact (form_above N a a_sym a_rows a_off _)].
  eapply Qcle_trans; [|exact (form_below N a a_sym a_rows a_off _ _ a_low)]. apply Qcle_of_eq. f_equal.
  replace (Jm * qz (grid_bonds w h))%Qc with ((half + half) * (Jm * qz (grid_bonds w h)))%Qc; [ring|]. replace (half + half)%Qc with 1%Qc by (apply Qc_is_canon; reflexivity). ring.
Qed.
Lemma top_state : 0 < csr_dim m -> eigenvector m 0 (map (fun _ => 1%Qc) l).
Proof.
  intros P. rewrite dim_length in P. assert (Z0 : zlen (map (fun _ => 1%Qc) l) = csr_dim m) by (rewrite dim_length; unfold zlen; now rewrite map_length).
  split; [exact Z0|]. split.
  - apply (eigen_stationary m 0 _ Z0). rewrite map_length. fold N. intros i Hi. rewrite Qcmult_0_l. refine (eq_trans _ (a_rows i Hi)). unfold sumN, a. apply qsum_ext. intros j Hj. apply in_seq in Hj.
    rewrite (nth_indep _ 0%Qc 1%Qc) by (rewrite map_length; fold N; lia). rewrite (map_nth (fun _ => 1%Qc) l []). ring.
  - exists 1%Qc. split; [|discriminate]. unfold N in P. destruct l; [cbn in P; lia | now left].
Qed.
End Matrix.

Lemma inner_positive : forall m e v, eigenvector m e v -> (0 < inner v v)%Qc.
Proof.
  intros m e v (_ & _ & x & Ix & Nx). apply In_nth with (d := 0%Qc) in Ix. destruct Ix as (k & Hk & <-).
  destruct (Qclt_le_dec 0 (inner v v)) as [|G]; [assumption|]. exfalso. apply Nx.
  assert (P : forall i, In i (seq 0 (length v)) -> (0 <= nth i v 0 * nth i v 0)%Qc) by (intros; apply square_nonneg).
  pose proof (qsum_nonneg_zero _ (fun i => nth i v 0 * nth i v 0)%Qc (seq 0 (length v)) P G k ltac:(apply in_seq; lia)) as Q. cbv beta in Q.
  apply Qcmult_integral in Q. tauto.
Qed.
Lemma mean_eigen : forall m e v, eigenvector m e v -> csr_mean m v = (e * inner v v)%Qc.
Proof.
  intros m e v (Lv & Ev & _). unfold csr_mean. rewrite Ev. unfold inner. rewrite <- qsum_scale. apply qsum_ext. intros i Hi. apply in_seq in Hi.
  rewrite (nth_indep (map (fun x => (e * x)%Qc) v) 0%Qc (e * 0)%Qc) by (rewrite map_length; lia). rewrite (map_nth (fun x => (e * x)%Qc)). ring.
Qed.
Lemma div_le : forall x y z : Qc, (0 < z)%Qc -> (x * z <= y * z)%Qc -> (x <= y)%Qc.
Proof. intros x y z P Q. now apply (Qcmult_lt_0_le_reg_r x y z). Qed.

Lemma C98_range_pf : forall E c w r K S arg l m Jm, set_iter_ok E -> filled c w r -> assembled E c K S arg l m -> exchanges_only c K S Jm ->
  (forall u, zlen u = csr_dim m -> (- (Jm * qz (grid_bonds w (nsites c / w))) * inner u u <= csr_mean m u)%Qc /\ (csr_mean m u <= 0)%Qc) /\
  (forall e v, eigenvector m e v -> (- (Jm * qz (grid_bonds w (nsites c / w))) <= e)%Qc /\ (e <= 0)%Qc).
Proof.
  intros E c w r K S arg l m Jm HE HF HA HX. pose proof (range_mean E c w r K S arg l m Jm HE HF HA HX) as G. split; [exact G|].
  intros e v V. destruct (G v (proj1 V)) as [G1 G2]. rewrite (mean_eigen _ _ _ V) in G1, G2. pose proof (inner_positive _ _ _ V) as P.
  split; [exact (div_le _ _ _ P G1)|]. apply (div_le _ _ _ P). now rewrite Qcmult_0_l.
Qed.
Lemma C98_top_pf : forall E c w r K S arg l m Jm, set_iter_ok E -> filled c w r -> assembled E c K S arg l m -> exchanges_only c K S Jm -> 0 < csr_dim m ->
  eigenvector m 0 (map (fun _ => 1%Qc) l).
Proof. intros. eapply top_state; eassumption. Qed.

(** ** the chess board *)
Lemma black_pair : forall w k, 0 < w -> 0 <= k -> black (point w (2 * k + 1)) = negb (black (point w (2 * k))).
Proof.
  intros w k Hw Hk. unfold black, point. cbn [fst snd]. destruct (Z.even w) eqn:P.
  - apply Z.even_spec in P. destruct P as (q & ->). pose proof (Z.div_mod (2 * k) (2 * q) ltac:(lia)) as D. pose proof (Z.mod_pos_bound (2 * k) (2 * q) ltac:(lia)) as B.
    set (y := 2 * k / (2 * q)) in *. set (x := (2 * k) mod (2 * q)) in *. assert (X : exists z, x = 2 * z) by (exists (k - q * y); lia). destruct X as (z & X).
    assert (D1 : (2 * k + 1) / (2 * q) = y) by (symmetry; apply (Z.div_unique _ _ _ (x + 1)); lia). assert (M1 : (2 * k + 1) mod (2 * q) = x + 1) by (symmetry; apply (Z.mod_unique _ _ y); lia).
    rewrite D1, M1. replace (x + 1 + y) with (1 + (x + y)) by ring. rewrite Z.odd_add. reflexivity.
  - assert (O : forall x, Z.odd (x mod w + x / w) = Z.odd x).
    { intros x. pose proof (Z.div_mod x w ltac:(lia)) as D. set (y := x / w) in *. set (z := x mod w) in *. rewrite D, !Z.odd_add, Z.odd_mul. rewrite <- (Z.negb_even w), P. cbn [negb andb]. now destruct (Z.odd z), (Z.odd y). }
    rewrite !O. rewrite !Z.odd_add, !Z.odd_mul. reflexivity.
Qed.
Lemma black_last : forall w h, 0 < w -> 0 < h -> Z.odd (w * h) = true -> black (point w (w * h - 1)) = false.
Proof.
  intros w h Hw Hh O. rewrite Z.odd_mul in O. apply andb_prop in O. destruct O as [O1 O2]. replace (w * h - 1) with (w * (h - 1) + (w - 1)) by ring. rewrite point_of by lia.
  unfold black. cbn [fst snd]. replace (w - 1 + (h - 1)) with (w + h - 2) by ring. rewrite Z.odd_sub, Z.odd_add, O1, O2. reflexivity.
Qed.
(** the state with [p] on the black squares and [q] elsewhere *)
Definition board (w : Z) (p q : particle) : occupation := fun x => if black (point w x) then p else q.
Lemma count_pairs : forall w p q, 0 < w -> p <> q -> forall k, count_below (2 * k) (board w p q) p = Z.of_nat k.
Proof.
  intros w p q Hw D. induction k as [|k IH]; [reflexivity|]. replace (2 * Datatypes.S k)%nat with (Datatypes.S (Datatypes.S (2 * k))) by lia. cbn [count_below]. rewrite IH.
  unfold board. replace (Z.of_nat (2 * k)) with (2 * Z.of_nat k) by lia. replace (Z.of_nat (Datatypes.S (2 * k))) with (2 * Z.of_nat k + 1) by lia. rewrite (black_pair w _ Hw) by lia.
  destruct (black (point w (2 * Z.of_nat k))); cbn [negb]; destruct (particle_eq_dec p p), (particle_eq_dec q p); try congruence; lia.
Qed.
Lemma count_black : forall w h p q, 0 < w -> 0 < h -> p <> q -> count_below (Z.to_nat (w * h)) (board w p q) p = w * h / 2.
Proof.
  intros w h p q Hw Hh D. assert (P : 0 <= w * h) by nia. pose proof (black_last w h Hw Hh) as B. set (n := w * h) in *. destruct (Z.odd n) eqn:O.
  - specialize (B eq_refl). apply Z.odd_spec in O. destruct O as (k & O). rewrite O in *. replace (Z.to_nat (2 * k + 1)) with (Datatypes.S (2 * Z.to_nat k)) by lia. cbn [count_below]. rewrite (count_pairs w p q Hw D).
    unfold board. replace (Z.of_nat (2 * Z.to_nat k)) with (2 * k + 1 - 1) by lia. rewrite B. destruct (particle_eq_dec q p); [congruence|]. replace (2 * k + 1) with (1 + k * 2) by ring. rewrite Z.div_add by lia. change (1 / 2) with 0. lia.
  - assert (E0 : Z.even n = true) by (rewrite <- Z.negb_odd, O; reflexivity). apply Z.even_spec in E0. destruct E0 as (k & E0). rewrite E0 in *. replace (Z.to_nat (2 * k)) with (2 * Z.to_nat k)%nat by lia. rewrite (count_pairs w p q Hw D).
    replace (2 * k) with (k * 2) by ring. rewrite Z.div_mul by lia. lia.
Qed.
Lemma count_other : forall w p q, p <> q -> forall k, count_below k (board w p q) q = Z.of_nat k - count_below k (board w p q) p.
Proof.
  intros w p q D. induction k as [|k IH]; [reflexivity|]. cbn [count_below]. rewrite IH. unfold board. destruct (black _); destruct (particle_eq_dec p p), (particle_eq_dec q q), (particle_eq_dec p q), (particle_eq_dec q p); try congruence; lia.
Qed.
Lemma count_none : forall w p q o, p <> o -> q <> o -> forall k, count_below k (board w p q) o = 0.
Proof. intros w p q o D1 D2. induction k as [|k IH]; [reflexivity|]. cbn [count_below]. rewrite IH. unfold board. destruct (black _); [destruct (particle_eq_dec p o) | destruct (particle_eq_dec q o)]; congruence || lia. Qed.

Lemma board_bond : forall w p q i j, bondb (point w i) (point w j) = true -> oppositeb p q = true -> oppositeb (board w p q i) (board w p q j) = true.
Proof.
  intros w p q i j B O. pose proof (bond_black _ _ B) as X. unfold board. destruct (black (point w i)), (black (point w j)); try discriminate X; destruct p, q; try discriminate O; reflexivity.
Qed.

Lemma unit_mean : forall m N k, (k < N)%nat -> csr_mean m (unit_vect N k) = csr_at m (Z.of_nat k) (Z.of_nat k).
Proof.
  intros m N k Hk. assert (LU : length (unit_vect N k) = N) by (unfold unit_vect; now rewrite map_length, seq_length).
  assert (NU : forall i, (i < N)%nat -> nth i (unit_vect N k) 0%Qc = if Nat.eqb i k then 1%Qc else 0%Qc) by (intros i Hi; unfold unit_vect; now rewrite (nth_map_seq (fun i => if Nat.eqb i k then 1%Qc else 0%Qc))).
  assert (P : forall f : nat -> Qc, qsum (fun i => (if Nat.eqb i k then 1 else 0) * f i)%Qc (seq 0 N) = f k).
  { intros f. assert (I : In k (seq 0 N)) by (apply in_seq; lia). pose proof (seq_NoDup N 0) as ND. clear - I ND. induction (seq 0 N) as [|x l IH]; [destruct I|].
    rewrite qsum_cons. inversion ND as [|? ? NI ND']; subst. destruct (Nat.eqb_spec x k) as [->|D].
    - rewrite (qsum_zero _ _ l); [ring|]. intros y Iy. destruct (Nat.eqb_spec y k) as [->|]; [contradiction | ring].
    - destruct I as [I|I]; [congruence|]. rewrite IH by assumption. ring. }
  unfold csr_mean, inner. rewrite LU. rewrite <- (P (fun i => csr_at m (Z.of_nat i) (Z.of_nat k))). apply qsum_ext. intros i Hi. apply in_seq in Hi. rewrite NU by lia. f_equal.
  rewrite times_at, LU by (rewrite LU; lia). rewrite <- (P (fun j => csr_at m (Z.of_nat i) (Z.of_nat j))). apply qsum_ext. intros j Hj. apply in_seq in Hj. rewrite NU by lia. ring.
Qed.
Lemma unit_inner : forall N k, (k < N)%nat -> inner (unit_vect N k) (unit_vect N k) = 1%Qc.
Proof.
  intros N k Hk. assert (LU : length (unit_vect N k) = N) by (unfold unit_vect; now rewrite map_length, seq_length).
  unfold inner. rewrite LU. assert (I : In k (seq 0 N)) by (apply in_seq; lia).
  rewrite (qsum_ext _ _ (fun i => if Nat.eqb i k then 1 else 0)%Qc).
  - pose proof (seq_NoDup N 0) as ND. clear - I ND. induction (seq 0 N) as [|x l IH]; [destruct I|].
    rewrite qsum_cons. inversion ND as [|? ? NI ND']; subst. destruct (Nat.eqb_spec x k) as [->|D].
    + rewrite (qsum_zero _ _ l); [ring|]. intros y Iy. destruct (Nat.eqb_spec y k) as [->|]; [contradiction | reflexivity].
    + destruct I as [I|I]; [congruence|]. rewrite IH by assumption. ring.
  - intros i Hi. apply in_seq in Hi. unfold unit_vect. rewrite (nth_map_seq (fun i => if Nat.eqb i k then 1%Qc else 0%Qc)) by lia. destruct (Nat.eqb i k); ring.
Qed.

Lemma board_energy : forall c w K p q, 0 < w -> 0 < nsites c / w -> nsites c = w * (nsites c / w) -> oppositeb p q = true ->
  op_static (between (nsites c) (point w) (zrange 0 (nsites c)) (zrange 0 (nsites c))) K (board w p q) = (- (half * i_J K * qz (grid_bonds w (nsites c / w))))%Qc.
Proof.
  intros c w K p q Hw Hh HN O. set (n := nsites c) in *. set (h := n / w) in *. unfold op_static. cbn [lat_size between].
  transitivity (qz (grid_bonds w h) * (- (half * i_J K)))%Qc; [|ring]. rewrite <- (count_bonds w h) by assumption. rewrite <- HN. apply sum_sites_ext. intros i Hi. apply sum_sites_ext. intros j Hj.
  rewrite away by (cbn [lat_size between]; intros x _; unfold board; destruct (black (point w x)); destruct p, q; discriminate). cbn [exchange].
  unfold spin_bond, bonded. cbn [lat_pos lat_from lat_to between].
  assert (IN : forall x, 0 <= x < n -> existsb (Z.eqb x) (zrange 0 n) = true) by (intros x Hx; apply existsb_exists; exists x; split; [apply in_zrange; lia | apply Z.eqb_refl]).
  rewrite (IN i Hi), (IN j Hj). destruct (bondb (point w i) (point w j)) eqn:B; [rewrite (board_bond _ _ _ _ _ B O)|]; destruct (i <? j); reflexivity.
Qed.

Lemma C98_neel_pf : forall E c w K S arg l m e, set_iter_ok E -> filled_whole c w -> assembled E c K S arg l m -> nholes c = 0 ->
  nbeta c = nsites c / 2 \/ nbeta c = nsites c - nsites c / 2 -> s_bz S = true -> lowest m e ->
  (e <= - (half * i_J K * qz (grid_bonds w (nsites c / w))))%Qc.
Proof.
  intros E c w K S arg l m e HE HF HA H0 HB HZ LO. destruct (shape c w _ HF) as (Hw & Hh & HN). set (h := nsites c / w) in *. pose proof HF as (RM & _ & Hh0 & Hb & _).
  assert (P : exists s, (s = board w Down Up \/ s = board w Up Down) /\ sector (nsites c) (nholes c) (nbeta c) s).
  { assert (NN : Z.of_nat (Z.to_nat (nsites c)) = nsites c) by (rewrite Z2Nat.id; [reflexivity | rewrite HN; nia]).
    destruct HB as [HB|HB]; [exists (board w Down Up); split; [now left|] | exists (board w Up Down); split; [now right|]]; (split; [rewrite H0; apply count_none; discriminate|]); rewrite HB.
    - rewrite HN at 1 2. apply count_black; [assumption | assumption | discriminate].
    - rewrite count_other by discriminate. rewrite NN. f_equal. rewrite HN at 1 2. apply count_black; [assumption | assumption | discriminate]. }
  destruct P as (s & Hs & Sec). apply sector_iff in Sec. pose proof (canon_describes _ _ _ _ Sec) as Ds.
  destruct (core _ _ _ _ _ _ _ _ _ HE HF HA) as (El & D & R & M).
  assert (I : In (canon (nsites c) s) l). { rewrite El. unfold dl. apply in_dets; [rewrite HN; nia|]. exists s. rewrite !Z2Nat.id by lia. split; [exact Sec | reflexivity]. }
  apply In_nth_error in I. destruct I as (k & Hk). assert (Kl : (k < length l)%nat) by (apply nth_error_Some; congruence).
  pose proof (LO (unit_vect (length l) k)) as G. rewrite unit_mean, unit_inner in G by assumption.
  rewrite (M k k _ _ s s Hk Hk Ds Ds) in G. rewrite tj_exchanges, flip_same, same_refl, HZ in G by (left; cbn [lat_size between]; eapply no_holes; eassumption).
  cbn [only] in G. assert (X : op_static (between (nsites c) (point w) (zrange 0 (nsites c)) (zrange 0 (nsites c))) K s = (- (half * i_J K * qz (grid_bonds w h)))%Qc).
  { destruct Hs as [-> | ->]; apply board_energy; try assumption; reflexivity. }
  rewrite X in G. specialize (G ltac:(unfold zlen, unit_vect; rewrite map_length, seq_length, D, El; reflexivity)).
  replace (e * 1)%Qc with e in G by ring. replace (only (s_bij S) 0) with 0%Qc in G by (now destruct (s_bij S)). now rewrite Qcplus_0_r in G.
Qed.
