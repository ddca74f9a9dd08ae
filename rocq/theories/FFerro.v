(** Final lemmas for C94-C95: signs that certify a lowest state, unfrustrated couplings. *)
From Coq Require Import ZArith List Bool QArith Qcanon Lia.
From Verif Require Import PyBase PyFacts Runtimes Lattice Base Interact Ham Spin Spec SpecOps SpecTJ SpecSpin SpinDefs Geometry HamSpec SignDefs.
From Verif Require Import PSpin PQc PBasis PSites PHam FGeo FSites FInter FHam PWave PTJSpin PVec PSecSum PSpinOp PBound PAct PDavIter FSpin FSpinVal FMulti FProj FDav PSign PSignOp PPerron FSign PSinglet FSinglet Examples.
Import ListNotations.
Open Scope Z_scope.

Section Certificate.
Variable N : nat.
Variable a : nat -> nat -> Qc.
Hypothesis sym : forall i j, (i < N)%nat -> (j < N)%nat -> a i j = a j i.
Variables (e : Qc) (v : nat -> Qc).
Hypothesis full : forall i, (i < N)%nat -> v i <> 0%Qc.
Hypothesis off : forall i j, (i < N)%nat -> (j < N)%nat -> i <> j -> (v i * v j * a i j <= 0)%Qc.
Hypothesis stat : stationary N a e v.

Lemma certified : forall u, (e * size_of N u <= mean_of N a u)%Qc.
Proof.
  intros u. set (q := fun i => (u i / v i)%Qc).
  assert (U : forall i, (i < N)%nat -> u i = (q i * v i)%Qc) by (intros i Hi; unfold q; field; now apply full).
  set (D := sumN N (fun i => sumN N (fun j => (- (v i * v j * a i j)) * ((q i - q j) * (q i - q j)))%Qc)).
  assert (D0 : (0 <= D)%Qc).
  { apply qsum_nonneg. intros i Hi. apply qsum_nonneg. intros j Hj. apply in_seq in Hi, Hj. destruct (Nat.eq_dec i j) as [->|NE].
    - replace (- (v j * v j * a j j) * ((q j - q j) * (q j - q j)))%Qc with 0%Qc by ring. apply Qcle_refl.
    - apply Qcmult_nonneg; [|apply square_nonneg]. specialize (off i j ltac:(lia) ltac:(lia) NE). revert off. generalize (v i * v j * a i j)%Qc. intros x X. qc. }
  set (X := sumN N (fun i => sumN N (fun j => (v i * v j * a i j) * (q i * q j))%Qc)).
  set (Y := sumN N (fun i => sumN N (fun j => (v i * v j * a i j) * (q i * q i))%Qc)).
  set (Y' := sumN N (fun i => sumN N (fun j => (v i * v j * a i j) * (q j * q j))%Qc)).
  assert (EX : X = mean_of N a u).
  { unfold X, mean_of, act. apply sum_ext. intros i Hi. rewrite <- sum_scale. apply sum_ext. intros j Hj. rewrite (U i Hi), (U j Hj). ring. }
  assert (EY : Y = (e * size_of N u)%Qc).
  { unfold Y, size_of. rewrite <- sum_scale. apply sum_ext. intros i Hi. transitivity (q i * q i * v i * act N a v i)%Qc.
    - unfold act. rewrite <- sum_scale. apply sum_ext. intros j Hj. ring.
    - rewrite (stat i Hi), (U i Hi). ring. }
  assert (EY' : Y' = Y).
  { unfold Y', Y, sumN. rewrite qsum_exchange. apply qsum_ext. intros i Hi. apply qsum_ext. intros j Hj. apply in_seq in Hi, Hj. rewrite (sym j i) by lia. ring. }
  assert (ED : D = (X + X - Y - Y')%Qc).
  { unfold D, X, Y, Y'. transitivity (sumN N (fun i => sumN N (fun j => (v i * v j * a i j) * (q i * q j))%Qc + (sumN N (fun j => (v i * v j * a i j) * (q i * q j))%Qc + (- (1)) * (sumN N (fun j => (v i * v j * a i j) * (q i * q i))%Qc + sumN N (fun j => (v i * v j * a i j) * (q j * q j))%Qc)))%Qc).
    - apply sum_ext. intros i Hi. rewrite <- !sum_add, <- sum_scale, <- !sum_add. apply sum_ext. intros j Hj. ring.
    - rewrite sum_add, sum_add, sum_scale, sum_add. ring. }
  rewrite EY' in ED. rewrite <- EX, <- EY. rewrite ED in D0. revert D0. generalize X Y. clear. intros X Y D0.
  destruct (Qclt_le_dec X Y) as [Lt|Le]; [|exact Le]. exfalso. qc.
Qed.
End Certificate.

Lemma certified_csr : forall E c w r K S arg l m e v f, set_iter_ok E -> filled c w r -> assembled E c K S arg l m ->
  (forall s, (f s * f s)%Qc = 1%Qc) ->
  (forall i j d d' s t, i <> j -> nth_error l i = Some d -> nth_error l j = Some d' -> describes (nsites c) (nholes c) (nbeta c) d s -> describes (nsites c) (nholes c) (nbeta c) d' t ->
     (f s * f t * csr_at m (Z.of_nat i) (Z.of_nat j) <= 0)%Qc) ->
  eigenvector m e v -> follows c l f v -> lowest m e.
Proof.
  intros E c w r K S arg l m e v f HE HF HA F1 OFF (Lv & Ev & _) FO u Lu.
  destruct (core _ _ _ _ _ _ _ _ _ HE HF HA) as (El & Dm & _). assert (Dl : csr_dim m = zlen l) by (now rewrite El).
  assert (LV : length v = length l) by (rewrite Dl in Lv; unfold zlen in Lv; lia). assert (LU : length u = length l) by (rewrite Dl in Lu; unfold zlen in Lu; lia).
  assert (PS : forall k, (k < length l)%nat -> exists d s, nth_error l k = Some d /\ describes (nsites c) (nholes c) (nbeta c) d s /\ (0 < f s * nth k v 0)%Qc).
  { intros k Hk. destruct (nth_error l k) as [d|] eqn:Q; [|apply nth_error_None in Q; lia]. exists d, (state_of c d). split; [reflexivity|].
    assert (Ds : describes (nsites c) (nholes c) (nbeta c) d (state_of c d)) by (rewrite El in Q; exact (dl_describes _ _ _ _ _ HF Q)). split; [exact Ds | exact (FO k d _ Q Ds)]. }
  pose proof (certified (length l) (fun i j => csr_at m (Z.of_nat i) (Z.of_nat j))) as CE.
  specialize (CE (fun i j _ _ => C30_symmetric_pf E c w r K S arg l m (Z.of_nat i) (Z.of_nat j) HE HF HA) e (fun k => nth k v 0%Qc)).
  assert (A1 : forall i, (i < length l)%nat -> nth i v 0%Qc <> 0%Qc).
  { intros i Hi Q. destruct (PS i Hi) as (d & s & _ & _ & P). rewrite Q in P. replace (f s * 0)%Qc with 0%Qc in P by ring. now apply Qclt_not_eq in P. }
  assert (A2 : forall i j, (i < length l)%nat -> (j < length l)%nat -> i <> j -> (nth i v 0 * nth j v 0 * csr_at m (Z.of_nat i) (Z.of_nat j) <= 0)%Qc).
  { intros i j Hi Hj NE. destruct (PS i Hi) as (d & s & Qd & Ds & P1). destruct (PS j Hj) as (d' & t & Qd' & Dt & P2). specialize (OFF i j d d' s t NE Qd Qd' Ds Dt).
    assert (PP : (0 <= (f s * nth i v 0) * (f t * nth j v 0))%Qc) by (apply Qcmult_nonneg; now apply Qclt_le_weak).
    replace (nth i v 0 * nth j v 0 * csr_at m (Z.of_nat i) (Z.of_nat j))%Qc with ((f s * f t * csr_at m (Z.of_nat i) (Z.of_nat j)) * ((f s * nth i v 0) * (f t * nth j v 0)))%Qc.
    - pose proof (Qcmult_le_compat_r _ _ _ OFF PP) as G. rewrite Qcmult_0_l in G. exact G.
    - transitivity ((f s * f s) * (f t * f t) * (nth i v 0 * nth j v 0 * csr_at m (Z.of_nat i) (Z.of_nat j)))%Qc; [ring | rewrite !F1; ring]. }
  assert (A3 : stationary (length l) (fun i j => csr_at m (Z.of_nat i) (Z.of_nat j)) e (fun k => nth k v 0%Qc)).
  { pose proof (proj1 (eigen_stationary m e v Lv) Ev) as G. rewrite LV in G. exact G. }
  specialize (CE A1 A2 A3 (fun k => nth k u 0%Qc)).
  replace (inner u u) with (size_of (length l) (fun k => nth k u 0%Qc)); [replace (csr_mean m u) with (mean_of (length l) (fun i j => csr_at m (Z.of_nat i) (Z.of_nat j)) (fun k => nth k u 0%Qc)); [exact CE|]|].
  - unfold csr_mean, inner, mean_of, act, sumN. rewrite LU. apply qsum_ext. intros i Hi. apply in_seq in Hi. rewrite times_at by lia. now rewrite LU.
  - unfold inner, size_of, sumN. now rewrite LU.
Qed.

Lemma C94_certificate_pf : forall E c w r K S arg l m e v, set_iter_ok E -> filled c w r -> assembled E c K S arg l m ->
  nholes c = 0 \/ (s_bt S = false /\ s_bSD S = false /\ s_btN S = false /\ (0 <= i_Jhpar K)%Qc /\ (0 <= i_Jhper K)%Qc) -> (0 <= i_J K)%Qc ->
  eigenvector m e v -> follows c l (down_sign (nsites c) (point w)) v -> lowest m e.
Proof.
  intros E c w r K S arg l m e v HE HF HA HS J1 EV FO. apply (certified_csr E c w r K S arg l m e v (down_sign (nsites c) (point w)) HE HF HA); try assumption; [intros; apply sign_square|].
  intros i j d d' s t NE Hi Hj Ds Dt. destruct (C89_elements_pf E c w r K S arg l m i j d d' s t HE HF HA HS J1 NE Hi Hj Ds Dt) as [P ->]. revert P. generalize (csr_at m (Z.of_nat i) (Z.of_nat j)). intros x P. qc.
Qed.

Lemma C94_characterised_pf : forall E c w K S arg l m e v, set_iter_ok E -> filled_whole c w -> assembled E c K S arg l m ->
  nholes c = 0 -> s_bij S = true -> (0 < i_J K)%Qc -> eigenvector m e v ->
  (lowest m e <-> follows c l (down_sign (nsites c) (point w)) v \/ follows c l (down_sign (nsites c) (point w)) (map (fun x => - x)%Qc v)).
Proof.
  intros E c w K S arg l m e v HE HF HA H0 HB HJ EV. assert (J1 : (0 <= i_J K)%Qc) by now apply Qclt_le_weak.
  assert (NM : forall k, nth k (map (fun x => - x)%Qc v) 0%Qc = (- nth k v 0)%Qc) by (intros k; replace 0%Qc with (- 0)%Qc at 1 by ring; apply map_nth).
  split.
  - intros LOW. destruct (C90_unique_pf E c w K S arg l m e HE HF HA H0 HB HJ LOW v EV) as [[P|P] _]; [left; exact P | right]. intros k d s Hk Ds. specialize (P k d s Hk Ds). rewrite NM.
    replace (down_sign (nsites c) (point w) s * - nth k v 0)%Qc with (- (down_sign (nsites c) (point w) s * nth k v 0))%Qc by ring. revert P. generalize (down_sign (nsites c) (point w) s * nth k v 0)%Qc. intros x P. qc.
  - intros [FO|FO]; [exact (C94_certificate_pf E c w _ K S arg l m e v HE HF HA (or_introl H0) J1 EV FO)|].
    apply (C94_certificate_pf E c w _ K S arg l m e (map (fun x => - x)%Qc v) HE HF HA (or_introl H0) J1); [|exact FO].
    destruct EV as (Lv & Ev & x & Ix & Nx). split; [now rewrite zlen_map|]. split.
    + apply (eigen_stationary m e (map (fun x => - x)%Qc v)); [now rewrite zlen_map|]. rewrite map_length. pose proof (proj1 (eigen_stationary m e v Lv) Ev) as G. intros i Hi. specialize (G i Hi). rewrite NM.
      transitivity (- (1) * (e * nth i v 0))%Qc; [|ring]. rewrite <- G, <- qsum_scale. apply qsum_ext. intros j _. rewrite NM. ring.
    + exists (- x)%Qc. split; [apply in_map_iff; now exists x|]. intros Q. apply Nx. transitivity (- (- x))%Qc; [ring | rewrite Q; ring].
Qed.

Lemma hop_square : forall K n p s, (hop_sign K n p s * hop_sign K n p s)%Qc = 1%Qc.
Proof. intros K n p s. unfold hop_sign. destruct (Qclt_le_dec 0 (i_t K)); [apply sign_square | ring]. Qed.
(** the sign looks at the holes only *)
Lemma hop_holes : forall K n p s t, (forall x, 0 <= x < n -> holeb (s x) = holeb (t x)) -> hop_sign K n p s = hop_sign K n p t.
Proof. intros K n p s t H. unfold hop_sign. destruct (Qclt_le_dec 0 (i_t K)); [|reflexivity]. apply sign_ext. intros x Hx. now rewrite (H x Hx). Qed.

Lemma C95_elements_pf : forall E c w r K S arg l m i j d d' s t, set_iter_ok E -> filled c w r -> assembled E c K S arg l m -> unfrustrated K S ->
  i <> j -> nth_error l i = Some d -> nth_error l j = Some d' ->
  describes (nsites c) (nholes c) (nbeta c) d s -> describes (nsites c) (nholes c) (nbeta c) d' t ->
  (hop_sign K (nsites c) (point w) s * hop_sign K (nsites c) (point w) t * csr_at m (Z.of_nat i) (Z.of_nat j) <= 0)%Qc.
Proof.
  intros E c w r K S arg l m i j d d' s t HE HF HA U N Hi Hj Ds Dt.
  rewrite (C29_elements_pf E c w r K S arg l m i j d d' s t HE HF HA Hi Hj Ds Dt).
  destruct (core _ _ _ _ _ _ _ _ _ HE HF HA) as (El & _). rewrite El in Hi, Hj.
  apply (tj_hop (between (nsites c) (point w) r r)); [assumption|]. intros Q. apply N. exact (dl_distinct _ _ _ _ _ _ _ _ _ HF Hi Hj Ds Dt Q).
Qed.

Lemma C95_lowest_pf : forall E c w r K S arg l m e v, set_iter_ok E -> filled c w r -> assembled E c K S arg l m -> unfrustrated K S ->
  eigenvector m e v -> follows c l (hop_sign K (nsites c) (point w)) v -> lowest m e.
Proof.
  intros E c w r K S arg l m e v HE HF HA U EV FO. apply (certified_csr E c w r K S arg l m e v (hop_sign K (nsites c) (point w)) HE HF HA); try assumption; [intros; apply hop_square|].
  intros i j d d' s t NE Hi Hj Ds Dt. now apply (C95_elements_pf E c w r K S arg l m i j d d' s t).
Qed.

Section Positive.
Variables (n h : Z) (L : lattice) (K : interactions) (S : switches) (p : Z -> Z * Z).
Hypothesis Hn : 0 <= n.
Hypothesis Hh : 0 <= h.
Hypothesis HS : lat_size L = n.
Hypothesis HQ : s_bz S = s_bij S.
Hypothesis FT : forall x, 0 <= x < lat_size L -> lat_from L x = lat_to L x.
Notation f := (hop_sign K n p).
Definition positive (b : Z) (psi : wave) : Prop := forall s, in_sector n h b s -> (0 < f s * psi s)%Qc.
Definition ground (e : Qc) (b : Z) : Prop := exists psi, on_lattice n psi /\ solves n h L K S b psi e /\ positive b psi.
Definition tall (x e : Qc) (b : Z) : Prop := exists psi, on_lattice n psi /\ solves n h L K S b psi e /\ positive b psi /\ forall s, in_sector n h b s -> spins n x psi s = 0%Qc.

Lemma has_down : forall b t, 0 <= b -> in_sector n h (b + 1) t -> exists i, 0 <= i < n /\ t i = Down.
Proof.
  intros b t Hb [_ D]. destruct (sites_of n t Down) as [|i q] eqn:Q; [unfold zlen in D; cbn [length] in D; lia|]. exists i.
  apply (in_sites_of n t Down i). rewrite Q. now left.
Qed.
Lemma positive_lowered : forall b psi, 0 <= b -> positive b psi -> positive (b + 1) (S_minus n psi).
Proof.
  intros b psi Hb H t Ht. destruct (has_down b t Hb Ht) as (i & Hi & Q).
  assert (T : forall x, 0 <= x < n -> t x = Down -> (0 < f t * psi (put x Up t))%Qc).
  { intros x Hx Qx. rewrite (hop_holes K n p t (put x Up t)); [apply H; replace b with (b + 1 - 1) by lia; now apply put_up_sector|].
    intros y Hy. unfold put. destruct (Z.eqb_spec y x) as [->|]; [now rewrite Qx | reflexivity]. }
  assert (G : (f t * S_minus n psi t)%Qc = qsum (fun x => only (samep (t x) Down) (f t * psi (put x Up t)))%Qc (sites n)).
  { unfold S_minus, sum_sites. rewrite <- qsum_scale. apply qsum_ext. intros x _. destruct (samep (t x) Down); cbn [only]; ring. }
  assert (GE : forall x, In x (sites n) -> (0 <= only (samep (t x) Down) (f t * psi (put x Up t)))%Qc).
  { intros x Ix. apply in_sites in Ix. destruct (samep (t x) Down) eqn:Qx; cbn [only]; [|apply Qcle_refl]. apply Qclt_le_weak, T; [assumption | now apply samep_iff]. }
  rewrite G. destruct (Qclt_le_dec 0 (qsum (fun x => only (samep (t x) Down) (f t * psi (put x Up t)))%Qc (sites n))) as [|Le]; [assumption|]. exfalso.
  pose proof (qsum_nonneg_zero _ _ _ GE Le i (proj2 (in_sites n i) Hi)) as Z0. cbv beta in Z0. rewrite (proj2 (samep_iff _ _) Q) in Z0. cbn [only] in Z0.
  specialize (T i Hi Q). rewrite Z0 in T. now apply Qclt_not_eq in T.
Qed.
Lemma positive_flipped : forall b psi, positive b psi -> positive (n - h - b) (fun t => psi (flip_state t)).
Proof.
  intros b psi H t Ht. rewrite (hop_holes K n p t (flip_state t)) by (intros x _; unfold flip_state; now destruct (t x)). apply H.
  replace b with (n - h - (n - h - b)) by lia. now apply flip_in.
Qed.

Lemma all_reached : forall (G : Z -> Prop) b b', 0 <= b <= n - h -> 0 <= b' <= n - h ->
  (forall k, 0 <= k -> k < n - h -> G k -> G (k + 1)) -> (forall k, 0 <= k -> 0 <= n - h - k -> G k -> G (n - h - k)) -> G b -> G b'.
Proof.
  intros G b b' B B' UP FL Gb.
  assert (I : forall b k, 0 <= b -> G b -> b + Z.of_nat k <= n - h -> G (b + Z.of_nat k)).
  { intros b0 k B0 G0. induction k as [|k IH]; intros Hk; [now rewrite Z.add_0_r|]. rewrite Nat2Z.inj_succ, <- Z.add_1_r, Z.add_assoc. apply UP; [lia | lia | apply IH; lia]. }
  assert (UPS : forall b b', 0 <= b -> b <= b' <= n - h -> G b -> G b').
  { intros b0 b1 B0 B1 G0. specialize (I b0 (Z.to_nat (b1 - b0)) B0 G0 ltac:(lia)). now replace (b0 + Z.of_nat (Z.to_nat (b1 - b0))) with b1 in I by lia. }
  destruct (Z.le_ge_cases b b') as [C|C]; [apply (UPS b); (lia || assumption)|].
  replace b' with (n - h - (n - h - b')) by lia. apply FL; [lia | lia|]. apply (UPS (n - h - b)); [lia | lia|]. apply FL; (lia || assumption).
Qed.

Lemma ground_all : forall e b b', 0 <= b <= n - h -> 0 <= b' <= n - h -> ground e b -> ground e b'.
Proof.
  intros e b b' B B'. apply all_reached; try assumption.
  - intros k Hk Hk' (psi & O & He & Hp). exists (S_minus n psi). split; [now apply (ladder_on n Down Up)|]. split; [intros t Ht; now apply (lowered_tj n h L K S HS HQ k) | now apply positive_lowered].
  - intros k Hk Hk' (psi & O & He & Hp). exists (fun t => psi (flip_state t)). split; [now apply flipped_on|]. split; [intros t Ht; now apply (flipped_tj n h L K S Hn Hh HS FT k) | now apply positive_flipped].
Qed.
Lemma tall_all : forall x e b b', 0 <= b <= n - h -> 0 <= b' <= n - h -> tall x e b -> tall x e b'.
Proof.
  intros x e b b' B B'. apply all_reached; try assumption.
  - intros k Hk Hk' (psi & O & He & Hp & Hx). exists (S_minus n psi). split; [now apply (ladder_on n Down Up)|]. split; [intros t Ht; now apply (lowered_tj n h L K S HS HQ k)|]. split; [now apply positive_lowered|].
    intros t Ht. rewrite spins_lowered by assumption. rewrite (in_sector_on n h k (spins n x psi) (fun _ => 0%Qc)) by assumption. unfold S_minus, sum_sites. apply qsum_zero. intros i _. now destruct (samep _ _).
  - intros k Hk Hk' (psi & O & He & Hp & Hx). exists (fun t => psi (flip_state t)). split; [now apply flipped_on|]. split; [intros t Ht; now apply (flipped_tj n h L K S Hn Hh HS FT k)|]. split; [now apply positive_flipped|].
    intros t Ht. rewrite spins_flipped by assumption. apply Hx. replace k with (n - h - (n - h - k)) by lia. now apply flip_in.
Qed.
(** without downs the spin is as large as it can be *)
Lemma top_spin : forall psi s, on_lattice n psi -> in_sector n h 0 s -> let j := (half * qz (n - h))%Qc in spins n (j * (j + 1))%Qc psi s = 0%Qc.
Proof.
  intros psi s O Hs j. unfold spins. rewrite C37_ladder_form_pf by assumption. pose proof (num_of n h 0 Hn s Hs) as [U D].
  assert (Z1 : total_z n s = j).
  { rewrite total_num, U, D. unfold j. replace (n - h - 0) with (n - h) by lia. replace (qz 0) with 0%Qc by reflexivity. ring. }
  assert (Z2 : S_minus n (S_plus n psi) s = 0%Qc).
  { unfold S_minus, sum_sites. apply qsum_zero. intros i Ii. destruct (samep (s i) Down) eqn:Q; [|reflexivity]. exfalso. apply samep_iff in Q. destruct Hs as [_ Hd].
    assert (I : In i (sites_of n s Down)) by (apply in_sites_of; split; [now apply in_sites | assumption]). destruct (sites_of n s Down); [destruct I | unfold zlen in Hd; cbn [length] in Hd; lia]. }
  rewrite Z1, Z2. ring.
Qed.
Lemma tall_ground : forall e b b', 0 <= b <= n - h -> 0 <= b' <= n - h -> ground e b -> let j := (half * qz (n - h))%Qc in tall (j * (j + 1))%Qc e b'.
Proof.
  intros e b b' B B' G j. apply (tall_all _ e 0); [lia | assumption|]. apply (ground_all e b 0) in G; [|assumption | lia]. destruct G as (psi & O & He & Hp).
  exists psi. split; [assumption|]. split; [assumption|]. split; [assumption|]. intros s Hs. now apply top_spin.
Qed.
End Positive.

Lemma C95_sectors_pf : forall E c c' w K S arg arg' l l' m m' e v, set_iter_ok E -> filled_whole c w -> filled_whole c' w -> proper c -> proper c' ->
  holes_in_order E c -> nsites c' = nsites c -> nholes c' = nholes c -> s_bz S = s_bij S -> unfrustrated K S ->
  assembled E c K S arg l m -> assembled E c' K S arg' l' m' -> eigenvector m e v -> follows c l (hop_sign K (nsites c) (point w)) v ->
  let j := (half * qz (nsites c - nholes c))%Qc in
  exists v', eigenvector m' e v' /\ follows c' l' (hop_sign K (nsites c') (point w)) v' /\ compute_S2 E c' v' = Ok (map (fun y => (j * (j + 1) * y)%Qc) v') /\ lowest m' e.
Proof.
  intros E c c' w K S arg arg' l l' m m' e v HE HF HF' P P' HO Hn Hh HQ U HA HA' EV FO j. pose proof EV as (Lv & Ev & NZ).
  assert (HO' : holes_in_order E c') by (unfold holes_in_order in *; rewrite Hn, Hh; exact HO).
  set (L := between (nsites c) (point w) (zrange 0 (nsites c)) (zrange 0 (nsites c))).
  pose proof P as (A1 & A2 & A3 & A4 & _). pose proof P' as (B1 & B2 & B3 & B4 & _). pose proof (proper_n c P) as N0.
  pose proof (basis_is c l P (proj1 HA)) as El. pose proof (basis_is c' l' P' (proj1 HA')) as El'.
  assert (G : ground (nsites c) (nholes c) L K S (point w) e (nbeta c)).
  { exists (wave_of c v). split; [apply wave_on|]. split; [now apply (solves_vector E c w K S arg l m)|]. intros s Hs.
    pose proof (nth_dets (nsites c) (Z.to_nat (nholes c)) (Z.to_nat (nbeta c)) s N0) as N. rewrite !Z2Nat.id in N by assumption. specialize (N Hs). rewrite <- El in N.
    exact (FO _ _ s N (canon_describes _ _ _ _ Hs)). }
  apply (tall_ground (nsites c) (nholes c) L K S (point w) N0 A1 eq_refl HQ (fun _ _ => eq_refl) e (nbeta c) (nbeta c') ltac:(lia) ltac:(lia)) in G. fold j in G.
  destruct G as (psi & O & He & Hp & Hx). rewrite <- Hn, <- Hh in *. unfold L in He. rewrite <- Hn in He.
  assert (NZ' : exists s, in_sector (nsites c') (nholes c') (nbeta c') s /\ psi s <> 0%Qc).
  { assert (D : 0 < nb_conf c') by (rewrite (proper_conf c' P'), !comb_binom' by lia; apply Z.mul_pos_pos; apply binom_pos; lia). destruct (ix_onto c' P' 0 ltac:(lia)) as (s & Hs & _). exists s. split; [assumption|]. intros Q. specialize (Hp s Hs). rewrite Q in Hp.
    replace (hop_sign K (nsites c') (point w) s * 0)%Qc with 0%Qc in Hp by ring. now apply Qclt_not_eq in Hp. }
  destruct (vector_solves E c' w K S arg' l' m' HE HF' P' HA' e psi O He NZ') as (v' & EV' & Lv' & V'). exists v'.
  assert (FO' : follows c' l' (hop_sign K (nsites c') (point w)) v').
  { destruct (proj2 (amplitudes_iff c' P' v' psi O) (conj Lv' V')) as [La Am]. rewrite <- El' in La, Am. intros k d s Hk Ds. rewrite (nth_error_nth _ _ _ (Am k d s Hk Ds)). apply Hp.
    now apply describes_sector in Ds. }
  split; [assumption|]. split; [assumption|]. split.
  - apply (S2_of_wave E c' HE P' HO' v' psi); try assumption. intros s Hs. apply (spins_zero c'). now apply Hx.
  - exact (C95_lowest_pf E c' w _ K S arg' l' m' e v' HE HF' HA' U EV' FO').
Qed.

(** for the examples *)
Definition positiveb (x : Qc) : bool := if Qclt_le_dec 0 x then true else false.
Lemma follows_by : forall c f l v, 0 <= nholes c -> 0 <= nbeta c -> (forall s t, same_state (nsites c) s t -> f s = f t) ->
  forallb (fun k => positiveb (f (stt (nholes c) (nbeta c) (nth k l [])) * nth k v 0)%Qc) (seq 0 (length l)) = true -> follows c l f v.
Proof.
  intros c f l v H0 B0 F Q k d s Hk Ds. rewrite forallb_forall in Q. specialize (Q k). rewrite (nth_error_nth _ _ _ Hk) in Q.
  rewrite (F (stt (nholes c) (nbeta c) d) s) in Q by now apply stt_describes. unfold positiveb in Q.
  assert (I : In k (seq 0 (length l))) by (apply in_seq; split; [lia | apply nth_error_Some; congruence]). specialize (Q I). destruct (Qclt_le_dec 0 _); [assumption | discriminate].
Qed.
Lemma hop_same : forall K n p s t, same_state n s t -> hop_sign K n p s = hop_sign K n p t.
Proof. intros K n p s t H. apply hop_holes. intros x Hx. now rewrite (H x Hx). Qed.

Lemma C95_frustrated_refuted_pf : exists E c w K S arg l m e v, set_iter_ok E /\ filled_whole c w /\ proper c /\ assembled E c K S arg l m /\
  s_bSD S = false /\ s_btN S = false /\ s_bij S = true /\ (0 < i_J K)%Qc /\
  eigenvector m e v /\ follows c l (hop_sign K (nsites c) (point w)) v /\ ~ lowest m e.
Proof.
  set (c := ex_rect 2 1 1 0 1). set (S := mkSwitches true true true false false true). set (l := [[0; 1]; [1; 0]]).
  exists cpython, c, 2, ex_couplings, S, (RList []), l, (get (mkCsr 0 []) (build_hamiltonian cpython c ex_couplings (mkBasis c l) S (RList []))), 0%Qc, [1%Qc; 1%Qc].
  destruct (pair_ok 1 ltac:(lia)) as (F1 & P1 & _).
  split; [exact cpython_ok|]. split; [exact F1|]. split; [exact P1|]. split; [split; vm_compute; reflexivity|]. split; [reflexivity|]. split; [reflexivity|]. split; [reflexivity|]. split; [reflexivity|].
  split; [split; [vm_compute; reflexivity|]; split; [vm_compute; reflexivity|]; exists 1%Qc; split; [left; reflexivity | discriminate]|].
  split; [apply follows_by; [vm_compute; discriminate | vm_compute; discriminate | intros s t; apply hop_same | vm_compute; reflexivity]|].
  intros Q. specialize (Q [1%Qc; (- (1))%Qc]). assert (N : zlen [1%Qc; (- (1))%Qc] = csr_dim (get (mkCsr 0 []) (build_hamiltonian cpython c ex_couplings (mkBasis c l) S (RList [])))) by (vm_compute; reflexivity).
  specialize (Q N). vm_compute in Q. now apply Q.
Qed.

(** one hole and three spins on four sites in a ring, t = 1, ferromagnetic *)
Definition ferro_couplings : interactions := mkInter (qz 1) (- qz 2)%Qc (- qz 1)%Qc (- qz 3)%Qc 0%Qc 0%Qc (- qz 1)%Qc (- qz 2)%Qc (qz 5) (qz 7).
Definition ferro_switches : switches := mkSwitches true true true false true true.
Definition ferro_conf (b : Z) : configuration := ex_rect 1 1 2 1 b.
Definition ferro_basis (b : Z) : list (list Z) := get [] (bs <- construct_basis (ferro_conf b) ;; Ok (determinants bs)).
Definition ferro_ham (b : Z) : csr := get (mkCsr 0 []) (bs <- construct_basis (ferro_conf b) ;; build_hamiltonian cpython (ferro_conf b) ferro_couplings bs ferro_switches (RList [])).
Definition ferro_state : list Qc := map qz [1; -1; -1; 1].
Lemma ferro_ok : forall b, 0 <= b <= 1 -> filled_whole (ferro_conf b) 2 /\ proper (ferro_conf b) /\ assembled cpython (ferro_conf b) ferro_couplings ferro_switches (RList []) (ferro_basis b) (ferro_ham b).
Proof.
  intros b Hb. assert (b = 0 \/ b = 1) as [->| ->] by lia.
  all: split; [split; [exists 1, 1, 2; vm_compute; repeat (split; [congruence|]); reflexivity|]; split; [reflexivity|]; vm_compute; intuition congruence|].
  all: split; [unfold proper; vm_compute; intuition congruence | split; vm_compute; reflexivity].
Qed.
Lemma ferro_unfrustrated : unfrustrated ferro_couplings ferro_switches.
Proof. split; [reflexivity|]. split; intros _; repeat split; vm_compute; discriminate. Qed.
Lemma ferro_follows : follows (ferro_conf 0) (ferro_basis 0) (hop_sign ferro_couplings (nsites (ferro_conf 0)) (point 2)) ferro_state.
Proof. apply follows_by; [vm_compute; discriminate | vm_compute; discriminate | intros s t; apply hop_same | vm_compute; reflexivity]. Qed.
Lemma ferro_eigen : eigenvector (ferro_ham 0) (- qz 3) ferro_state.
Proof. split; [vm_compute; reflexivity|]. split; [vm_compute; reflexivity|]. exists (qz 1). split; [left; reflexivity | discriminate]. Qed.
Lemma ring_follows : follows ring_conf ring_basis (down_sign (nsites ring_conf) (point 2)) (map (fun x => - x)%Qc ring_state).
Proof. apply follows_by; [vm_compute; discriminate | vm_compute; discriminate | intros s t; apply down_same | vm_compute; reflexivity]. Qed.
Lemma ring_opposite : eigenvector ring_ham (- qz 6) (map (fun x => - x)%Qc ring_state).
Proof. split; [vm_compute; reflexivity|]. split; [vm_compute; reflexivity|]. exists (- qz 1)%Qc. split; [left; reflexivity | discriminate]. Qed.
