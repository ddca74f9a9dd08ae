(** Energies of different numbers of downs, over the real numbers. *)
From Coq Require Import ZArith List Bool Lia QArith Qcanon Reals Qreals Lra Lqa Psatz.
From Verif Require Import PyBase PyFacts Lattice Base Interact Ham Spin Spec SpecOps SpecTJ SpecSpin SpinDefs Geometry HamSpec EnergyDefs DrawnDefs SignDefs RealSum RealDefs
  PSpin PQc PBasis PSites PHam FGeo FSites FInter FHam PWave PTJSpin PVec PSecSum PSpinOp PBound PAct PDavIter FSpin FSpinVal FMulti FProj PSign PSignOp PPerron PSinglet FSign FSinglet FFerro FTop PCarry PReal PReal2 PRealQ FReal FReal3 FReal5 FReal6.
Import ListNotations.
Open Scope R_scope.

Lemma go_lin : forall c c' l l' T x u y v i, go c c' l l' T (fun j => x * u j + y * v j) i = x * go c c' l l' T u i + y * go c c' l l' T v i.
Proof. intros. unfold go. rewrite <- !rsum_scale, <- rsum_add. apply rsum_ext. intros. ring. Qed.
Lemma go_ext : forall c c' l l' T u v i, (forall j, (j < length l)%nat -> u j = v j) -> go c c' l l' T u i = go c c' l l' T v i.
Proof. intros. unfold go. apply rsum_ext. intros j Hj. now rewrite H. Qed.
Lemma go_scale : forall c c' l l' T x u i, go c c' l l' T (fun j => x * u j) i = x * go c c' l l' T u i.
Proof. intros. unfold go. rewrite <- rsum_scale. apply rsum_ext. intros. ring. Qed.
Lemma go_sum : forall c c' l l' T k f (v : nat -> nat -> R) i, go c c' l l' T (fun j => rsum k (fun q => f q * v q j)) i = rsum k (fun q => f q * go c c' l l' T (v q) i).
Proof.
  intros. unfold go. rewrite (rsum_ext (length l) _ (fun j => rsum k (fun q => f q * (real (xq c c' l l' T i j) * v q j)))) by (intros; rewrite <- rsum_scale; apply rsum_ext; intros; ring).
  rewrite rsum_exchange. apply rsum_ext. intros. now rewrite rsum_scale.
Qed.

Lemma rsum_pad : forall a n f, (a <= n)%nat -> (forall j, (a <= j)%nat -> (j < n)%nat -> f j = 0) -> rsum n f = rsum a f.
Proof.
  intros a n f H. replace n with (a + (n - a))%nat by lia. generalize (n - a)%nat. intros q. induction q as [|q IH]; intros Z; [now rewrite Nat.add_0_r|].
  rewrite Nat.add_succ_r. cbn [rsum]. rewrite IH, Z by (intros; try apply Z; lia). ring.
Qed.

Section Pair.
Variables (E : runtime) (c c' : configuration) (w : Z) (K : interactions) (S : switches) (arg arg' : restriction) (l l' : list (list Z)) (m m' : csr).
Hypothesis HE : set_iter_ok E.
Hypothesis HF : filled_whole c w.
Hypothesis HF' : filled_whole c' w.
Hypothesis P : proper c.
Hypothesis P' : proper c'.
Hypothesis Hn : nsites c' = nsites c.
Hypothesis Hh : nholes c' = nholes c.
Hypothesis HA : assembled E c K S arg l m.
Hypothesis HA' : assembled E c' K S arg' l' m'.
Local Notation LL := (between (nsites c) (point w) (zrange 0 (nsites c)) (zrange 0 (nsites c))).
Let M : mirrored m /\ dimension m = length l := mirrored_filled E c w _ K S arg l m HE HF HA.
Let M' : mirrored m' /\ dimension m' = length l' := mirrored_filled E c' w _ K S arg' l' m' HE HF' HA'.
Variable T : wave -> wave.
Hypothesis CT : carries (nsites c) (nholes c) LL K S (point w) (nbeta c) (nbeta c') T.
Local Notation Go := (go c c' l l' T).

Lemma go_state : forall e v, energy_state m e v -> forall i, (i < length l')%nat -> actR (length l') (element m') (Go v) i = e * Go v i.
Proof.
  intros e v (_ & V) i Hi. rewrite (go_times E c c' w K S arg arg' l l' m m' HE HF HF' P P' Hn Hh HA HA' T CT) by assumption. rewrite <- go_scale. apply go_ext. intros j Hj. rewrite (proj2 M) in V. now apply V.
Qed.
Lemma go_energy : forall e v, energy_state m e v -> (exists i, (i < length l')%nat /\ Go v i <> 0) -> energy_state m' e (Go v).
Proof. intros e v V NZ. split; [rewrite (proj2 M'); exact NZ|]. rewrite (proj2 M'). exact (go_state e v V). Qed.

Hypothesis KT : keeps_size (nsites c) (nholes c) (nbeta c) (nbeta c') T.
Lemma go_injective : forall v, (forall i, (i < length l')%nat -> Go v i = 0) -> forall j, (j < length l)%nat -> v j = 0.
Proof.
  intros v Z. destruct (go_size E c c' w K S arg arg' l l' m m' P P' Hn Hh HA HA' T CT KT) as (d & D & H). apply dot_zero. specialize (H v).
  assert (Q : dot (length l') (Go v) (Go v) = 0) by (apply rsum_zero; intros i Hi; rewrite Z by assumption; ring). pose proof (dot_nonneg (length l) v). Lra.nra.
Qed.
Lemma go_nonzero : forall v, (exists j, (j < length l)%nat /\ v j <> 0) -> exists i, (i < length l')%nat /\ Go v i <> 0.
Proof.
  intros v (j & Hj & NZ). assert (DE : forall k, (exists i, (i < k)%nat /\ Go v i <> 0) \/ forall i, (i < k)%nat -> Go v i = 0).
  { induction k as [|k [(i & Hi & IH)|IH]]; [right; intros; lia | left; exists i; split; [lia | assumption]|]. destruct (Req_dec (Go v k) 0) as [Q|Q]; [right|left; exists k; split; [lia | assumption]].
    intros i Hi. destruct (Nat.eq_dec i k) as [->|]; [assumption | apply IH; lia]. }
  destruct (DE (length l')) as [X|X]; [exact X|]. now destruct NZ; apply (go_injective v X).
Qed.
Lemma go_dimension : (length l <= length l')%nat.
Proof.
  destruct (le_lt_dec (length l) (length l')) as [|Q]; [assumption|]. exfalso.
  destruct (underdetermined (length l') (fun i j => real (xq c c' l l' T i j))) as (x & (i0 & Hi0 & N0) & Hx).
  set (v := fun j => if Nat.ltb j (Datatypes.S (length l')) then x j else 0).
  assert (Z : forall i, (i < length l')%nat -> Go v i = 0).
  { intros i Hi. rewrite <- (Hx i Hi). unfold go, dot. rewrite (rsum_pad (Datatypes.S (length l')) (length l)) by (exact Q || (intros j Hj _; unfold v; destruct (Nat.ltb_spec j (Datatypes.S (length l'))); [lia | ring])).
    apply rsum_ext. intros j Hj. unfold v. destruct (Nat.ltb_spec j (Datatypes.S (length l'))); [reflexivity | lia]. }
  pose proof (go_injective v Z i0 ltac:(lia)) as X. unfold v in X. destruct (Nat.ltb_spec i0 (Datatypes.S (length l'))); [contradiction | lia].
Qed.
Lemma go_ranks : forall e v e' v', all_states m e v -> all_states m' e' v' -> forall k, (k < length l)%nat -> e' k <= e k.
Proof.
  intros e v e' v' A A' k Hk. pose proof go_dimension as DM. destruct (Rle_lt_dec (e' k) (e k)) as [|Q]; [assumption|]. exfalso.
  destruct (states_parts m e v A) as (O & V & I). destruct (states_parts m' e' v' A') as (O' & V' & I'). destruct M as (MM & D). destruct M' as (MM' & D'). rewrite D in O, V, I. rewrite D' in O', V', I'.
  destruct (underdetermined k (fun i j => dot (length l') (v' i) (Go (v j)))) as (x & (i0 & Hi0 & N0) & Hx).
  set (u := fun i => rsum (Datatypes.S k) (fun j => x j * v j i)).
  assert (SY : forall i j, (i < length l')%nat -> (j < length l')%nat -> element m' i j = element m' j i) by (rewrite <- D'; now apply element_sym).
  assert (OR : forall i j, (k <= i)%nat -> (i < length l')%nat -> (j <= k)%nat -> dot (length l') (v' i) (Go (v j)) = 0).
  { intros i j Hi Hi' Hj. pose proof (swap_sides (length l') (element m') SY (v' i) (Go (v j))) as W.
    rewrite (dot_ext _ (v' i) (v' i) (actR _ _ (Go (v j))) (fun q => e j * Go (v j) q)) in W; [|reflexivity | intros q Hq; apply go_state; [|exact Hq]; destruct A as (A & _); apply A; lia].
    rewrite (dot_ext _ (Go (v j)) (Go (v j)) (actR _ _ (v' i)) (fun q => e' i * v' i q)) in W; [|reflexivity | intros q Hq; now apply V'].
    rewrite !dot_scale, (dot_sym _ (Go (v j)) (v' i)) in W. pose proof (I j k Hj ltac:(lia)). pose proof (I' k i Hi Hi'). assert (Y : (e' i - e j) * dot (length l') (v' i) (Go (v j)) = 0) by Lra.lra.
    apply Rmult_integral in Y. destruct Y as [Y|Y]; [Lra.lra | exact Y]. }
  assert (DZ : forall i, (i < length l')%nat -> dot (length l') (v' i) (Go u) = 0).
  { intros i Hi. transitivity (rsum (Datatypes.S k) (fun j => x j * dot (length l') (v' i) (Go (v j)))).
    - rewrite <- dot_sum. apply dot_ext; [reflexivity|]. intros q _. apply go_sum.
    - destruct (le_lt_dec k i) as [L|L]; [apply rsum_zero; intros j Hj; rewrite OR by lia; ring|]. rewrite <- (Hx i L). unfold dot at 2. apply rsum_ext. intros. ring. }
  assert (Z : forall j, (j < length l)%nat -> u j = 0).
  { apply go_injective. intros i Hi. rewrite (complete (length l') v' (Go u) i O' Hi). apply rsum_zero. intros j Hj. rewrite DZ by assumption. ring. }
  assert (X : dot (length l) (v i0) u = 0) by (apply rsum_zero; intros j Hj; rewrite Z by assumption; ring).
  unfold u in X. rewrite dot_sum, (rsum_single _ _ i0 Hi0) in X.
  - rewrite (O i0 i0) in X by lia. rewrite Nat.eqb_refl in X. Lra.lra.
  - intros j Hj NE. rewrite (O i0 j) by lia. destruct (Nat.eqb_spec i0 j); [lia | ring].
Qed.
End Pair.

(** ** mean spins *)
Section Mean.
Variables (E : runtime) (c : configuration) (l : list (list Z)).
Hypothesis HE : set_iter_ok E.
Hypothesis P : proper c.
Hypothesis HO : holes_in_order E c.
Hypothesis HB : construct_basis c = Ok (mkBasis c l).
Local Notation n := (length l).
Local Notation sp := (spin_element E c n).
Lemma mean_rational : forall v, length v = n -> let a := (half * qz (Z.abs (nalpha c - nbeta c)))%Qc in let b := (half * qz (nalpha c + nbeta c))%Qc in
  real (a * (a + 1))%Qc * dot n (reals v) (reals v) <= form n sp (reals v) <= real (b * (b + 1))%Qc * dot n (reals v) (reals v).
Proof.
  intros v Lv a b. assert (D : {exists x, In x v /\ x <> 0%Qc} + {forall i, (i < n)%nat -> reals v i = 0}).
  { destruct (Forall_Exists_dec (fun x => x = 0%Qc) (fun x => Qc_eq_dec x 0%Qc) v) as [A|A].
    - right. intros i Hi. unfold reals. rewrite Forall_forall in A. rewrite (A (nth i v 0%Qc)); [apply real_0 | apply nth_In; lia].
    - left. rewrite Exists_exists in A. exact A. }
  destruct D as [NZ|Z].
  - destruct (C38_value_pf E c l v HE P HO HB Lv NZ) as (v' & x & Q1 & Q2 & _ & Q3). destruct (C38_bounds_pf E c l v x HE P HO HB Lv NZ Q2) as [B1 B2]. cbv zeta in B1, B2. fold a in B1. fold b in B2. apply real_le in B1, B2.
    assert (L' : length v' = n).
    { destruct (S2_ok E c HE P HO v (len_conf c l P HB v Lv)) as (u & Q & L & _). rewrite Q1 in Q. injection Q as <-. congruence. }
    assert (F : form n sp (reals v) = real x * dot n (reals v) (reals v)).
    { rewrite <- (inner_real n), <- real_mul, Q3, (inner_real n) by assumption. apply dot_ext; [reflexivity|]. intros i Hi. symmetry. now apply (spin_acts E c l HE P HO HB v v'). }
    rewrite F. pose proof (dot_nonneg n (reals v)). split; apply Rmult_le_compat_r; assumption.
  - assert (Q1 : dot n (reals v) (reals v) = 0) by (apply rsum_zero; intros i Hi; rewrite Z by assumption; ring).
    assert (Q2 : form n sp (reals v) = 0) by (apply rsum_zero; intros i Hi; rewrite Z by assumption; ring). rewrite Q1, Q2. Lra.lra.
Qed.
Lemma shifted_form : forall x y u, form n (fun i j => x * sp i j + y * (if Nat.eqb i j then 1 else 0)) u = x * form n sp u + y * dot n u u.
Proof.
  intros x y u. unfold form. rewrite <- dot_lin. apply dot_ext; [reflexivity|]. intros i Hi. unfold actR. rewrite <- rsum_scale.
  replace (y * u i) with (rsum n (fun j => y * (if Nat.eqb i j then 1 else 0) * u j)).
  - rewrite <- rsum_add. apply rsum_ext. intros. ring.
  - rewrite (rsum_single n _ i Hi); [rewrite Nat.eqb_refl; ring|]. intros j _ NE. destruct (Nat.eqb_spec i j); [congruence | ring].
Qed.
Lemma half_real : forall z, real (half * qz z)%Qc = IZR z / 2.
Proof. intros z. rewrite real_mul, real_qz. replace (real half) with (/ 2) by (unfold real, half, Q2R; cbn; Lra.lra). field. Qed.
Lemma mean_spin : forall v, let a := IZR (Z.abs (nalpha c - nbeta c)) / 2 in let b := IZR (nalpha c + nbeta c) / 2 in
  a * (a + 1) * dot n v v <= form n sp v <= b * (b + 1) * dot n v v.
Proof.
  intros v a b. assert (QA : real (half * qz (Z.abs (nalpha c - nbeta c)) * (half * qz (Z.abs (nalpha c - nbeta c)) + 1))%Qc = a * (a + 1)) by (rewrite real_mul, real_add, real_1, half_real; reflexivity).
  assert (QB : real (half * qz (nalpha c + nbeta c) * (half * qz (nalpha c + nbeta c) + 1))%Qc = b * (b + 1)) by (rewrite real_mul, real_add, real_1, half_real; reflexivity).
  assert (SY : forall x y i j, (i < n)%nat -> (j < n)%nat -> x * sp i j + y * (if Nat.eqb i j then 1 else 0) = x * sp j i + y * (if Nat.eqb j i then 1 else 0)).
  { intros x y i j Hi Hj. rewrite (Nat.eqb_sym i j), (spin_sym E c l HE P HO HB i j) by assumption. reflexivity. }
  split.
  - assert (Q : 0 <= form n (fun i j => 1 * sp i j + - (a * (a + 1)) * (if Nat.eqb i j then 1 else 0)) v); [|rewrite shifted_form in Q; Lra.lra]. apply dense; [apply SY|]. intros u Lu.
    change (fun i => real (nth i u 0%Qc)) with (reals u). rewrite shifted_form. pose proof (proj1 (mean_rational u Lu)) as X. rewrite QA in X. Lra.lra.
  - assert (Q : 0 <= form n (fun i j => (-1) * sp i j + b * (b + 1) * (if Nat.eqb i j then 1 else 0)) v); [|rewrite shifted_form in Q; Lra.lra]. apply dense; [apply SY|]. intros u Lu.
    change (fun i => real (nth i u 0%Qc)) with (reals u). rewrite shifted_form. pose proof (proj2 (mean_rational u Lu)) as X. rewrite QB in X. Lra.lra.
Qed.
End Mean.

Lemma C109_mean_pf : forall E c l v, set_iter_ok E -> proper c -> holes_in_order E c -> construct_basis c = Ok (mkBasis c l) ->
  let n := length l in let a := IZR (Z.abs (nalpha c - nbeta c)) / 2 in let b := IZR (nalpha c + nbeta c) / 2 in let size := rsum n (fun i => v i * v i) in
  a * (a + 1) * size <= rsum n (fun i => v i * rsum n (fun k => spin_element E c n i k * v k)) <= b * (b + 1) * size.
Proof. intros E c l v HE P HO HB n a b size. exact (mean_spin E c l HE P HO HB v). Qed.

Lemma C109_levels_pf : forall E c c' w K S arg arg' l l' m m' e v, set_iter_ok E -> filled_whole c w -> filled_whole c' w -> proper c -> proper c' ->
  nsites c' = nsites c -> nholes c' = nholes c -> (Z.min (nalpha c) (nbeta c) <= Z.min (nalpha c') (nbeta c'))%Z -> s_bz S = s_bij S ->
  assembled E c K S arg l m -> assembled E c' K S arg' l' m' -> energy_state m e v ->
  exists v', energy_state m' e v' /\
    forall x, holes_in_order E c -> (forall i, (i < dimension m)%nat -> rsum (dimension m) (fun k => spin_element E c (dimension m) i k * v k) = x * v i) ->
    forall i, (i < dimension m')%nat -> rsum (dimension m') (fun k => spin_element E c' (dimension m') i k * v' k) = x * v' i.
Proof.
  intros E c c' w K S arg arg' l l' m m' e v HE HF HF' P P' Hn Hh Hm HQ HA HA' V. pose proof P as (A1 & A2 & A3 & A4 & _). pose proof P' as (B1 & B2 & B3 & B4 & _). pose proof (proper_n c P) as N0.
  destruct (carry_up (nsites c) (nholes c) (between (nsites c) (point w) (zrange 0 (nsites c)) (zrange 0 (nsites c))) K S (point w) N0 A1 eq_refl HQ (fun _ _ => eq_refl) (nalpha c) (nbeta c) (nalpha c') (nbeta c')) as (T & CT & KT); try assumption; try lia.
  destruct (mirrored_filled E c w _ K S arg l m HE HF HA) as (_ & D). destruct (mirrored_filled E c' w _ K S arg' l' m' HE HF' HA') as (_ & D').
  exists (go c c' l l' T v). split.
  - apply (go_energy E c c' w K S arg arg' l l' m m'); try assumption. apply (go_nonzero E c c' w K S arg arg' l l' m m'); try assumption. destruct V as (NZ & _). now rewrite D in NZ.
  - intros x HO X i Hi. rewrite D in X. rewrite D' in *. pose proof (go_spin E c c' w K S arg arg' l l' m m' HE P P' Hn Hh HA HA' T CT HO v i Hi) as Q. unfold actR at 1 in Q. rewrite Q, <- go_scale. apply go_ext. exact X.
Qed.
Lemma C109_ranks_pf : forall E c c' w K S arg arg' l l' m m' e v e' v', set_iter_ok E -> filled_whole c w -> filled_whole c' w -> proper c -> proper c' ->
  nsites c' = nsites c -> nholes c' = nholes c -> (Z.min (nalpha c) (nbeta c) <= Z.min (nalpha c') (nbeta c'))%Z -> s_bz S = s_bij S ->
  assembled E c K S arg l m -> assembled E c' K S arg' l' m' -> all_states m e v -> all_states m' e' v' ->
  (dimension m <= dimension m')%nat /\ forall k, (k < dimension m)%nat -> e' k <= e k.
Proof.
  intros E c c' w K S arg arg' l l' m m' e v e' v' HE HF HF' P P' Hn Hh Hm HQ HA HA' A A'. pose proof P as (A1 & A2 & A3 & A4 & _). pose proof P' as (B1 & B2 & B3 & B4 & _). pose proof (proper_n c P) as N0.
  destruct (carry_up (nsites c) (nholes c) (between (nsites c) (point w) (zrange 0 (nsites c)) (zrange 0 (nsites c))) K S (point w) N0 A1 eq_refl HQ (fun _ _ => eq_refl) (nalpha c) (nbeta c) (nalpha c') (nbeta c')) as (T & CT & KT); try assumption; try lia.
  destruct (mirrored_filled E c w _ K S arg l m HE HF HA) as (_ & D). destruct (mirrored_filled E c' w _ K S arg' l' m' HE HF' HA') as (_ & D'). rewrite D, D'. split.
  - exact (go_dimension E c c' w K S arg arg' l l' m m' HE HF HF' P P' Hn Hh HA HA' T CT KT).
  - exact (go_ranks E c c' w K S arg arg' l l' m m' HE HF HF' P P' Hn Hh HA HA' T CT KT e v e' v' A A').
Qed.
Lemma C109_order_pf : forall E c c' w K S arg arg' l l' m m' e e' v, set_iter_ok E -> filled_whole c w -> filled_whole c' w -> proper c -> proper c' ->
  nsites c' = nsites c -> nholes c = 0%Z -> nholes c' = 0%Z -> (Z.min (nalpha c) (nbeta c) < Z.min (nalpha c') (nbeta c'))%Z ->
  s_bij S = true -> s_bz S = true -> (0 < i_J K)%Qc ->
  assembled E c K S arg l m -> assembled E c' K S arg' l' m' -> ground_energy m' e' -> energy_state m e v -> e' < e.
Proof.
  intros E c c' w K S arg arg' l l' m m' e e' v HE HF HF' P P' Hn H0 H0' Hm HB HZ HJ HA HA' G V. assert (HQ : s_bz S = s_bij S) by congruence. assert (Hh : nholes c' = nholes c) by lia.
  pose proof P as (A1 & A2 & A3 & A4 & _). pose proof P' as (B1 & B2 & B3 & B4 & _). pose proof (proper_n c P) as N0. assert (HO : holes_in_order E c) by (left; lia).
  destruct (carry_up (nsites c) (nholes c) (between (nsites c) (point w) (zrange 0 (nsites c)) (zrange 0 (nsites c))) K S (point w) N0 A1 eq_refl HQ (fun _ _ => eq_refl) (nalpha c) (nbeta c) (nalpha c') (nbeta c')) as (T & CT & KT); try assumption; try lia.
  destruct (mirrored_filled E c w _ K S arg l m HE HF HA) as (_ & D). destruct (mirrored_filled E c' w _ K S arg' l' m' HE HF' HA') as (_ & D').
  assert (V' : energy_state m' e (go c c' l l' T v)).
  { apply (go_energy E c c' w K S arg arg' l l' m m'); try assumption. apply (go_nonzero E c c' w K S arg arg' l l' m m'); try assumption. destruct V as (NZ & _). now rewrite D in NZ. }
  destruct (proj2 G e _ V') as [L|L]; [exact L|]. exfalso. subst e'.
  pose proof (C108_spin_pf E c' w K S arg' l' m' e _ HE HF' P' HA' H0' HB HZ HJ G V') as X. cbv zeta in X. rewrite D' in X. set (j := IZR (Z.abs (nalpha c' - nbeta c')) / 2) in X.
  assert (Y : forall k, (k < length l)%nat -> actR (length l) (spin_element E c (length l)) v k = j * (j + 1) * v k).
  { assert (Z : forall k, (k < length l)%nat -> 1 * actR (length l) (spin_element E c (length l)) v k + - (j * (j + 1)) * v k = 0); [|intros k Hk; specialize (Z k Hk); Lra.lra].
    apply (go_injective E c c' w K S arg arg' l l' m m' P P' Hn Hh HA HA' T CT KT). intros i Hi. rewrite go_lin.
    rewrite <- (go_spin E c c' w K S arg arg' l l' m m' HE P P' Hn Hh HA HA' T CT HO) by assumption. unfold actR. rewrite (X i Hi). ring. }
  pose proof (proj1 (mean_spin E c l HE P HO (proj1 HA) v)) as Z. cbv zeta in Z. set (a := IZR (Z.abs (nalpha c - nbeta c)) / 2) in Z.
  assert (F : form (length l) (spin_element E c (length l)) v = j * (j + 1) * dot (length l) v v) by (rewrite <- dot_scale; apply dot_ext; [reflexivity | exact Y]). rewrite F in Z.
  pose proof (state_size m e v V) as PS. rewrite D in PS. apply Rmult_le_reg_r in Z; [|exact PS].
  assert (J0 : 0 <= j) by (unfold j; apply IZR_le with (m := Z.abs (nalpha c' - nbeta c')) in B1 || idtac; pose proof (IZR_le 0 (Z.abs (nalpha c' - nbeta c')) ltac:(lia)); Lra.lra).
  assert (JA : j < a) by (unfold j, a; pose proof (IZR_lt (Z.abs (nalpha c' - nbeta c')) (Z.abs (nalpha c - nbeta c)) ltac:(lia)); Lra.lra). Lra.nra.
Qed.
Lemma C109_ferro_pf : forall E c c' w K S arg arg' l l' m m' e, set_iter_ok E -> filled_whole c w -> filled_whole c' w -> proper c -> proper c' ->
  nsites c' = nsites c -> nholes c' = nholes c -> ferromagnetic K S -> nholes c = 0%Z \/ (s_bt S = true /\ i_t K <> 0%Qc) -> s_bz S = true ->
  assembled E c K S arg l m -> assembled E c' K S arg' l' m' -> ground_energy m e -> ground_energy m' e.
Proof.
  intros E c c' w K S arg arg' l l' m m' e HE HF HF' P P' Hn Hh FE HT HZ HA HA' G. assert (HQ : s_bz S = s_bij S) by (destruct FE as (_ & FB & _); congruence).
  pose proof P as (A1 & A2 & A3 & A4 & _). pose proof P' as (B1 & B2 & B3 & B4 & _). pose proof (proper_n c P) as N0.
  destruct (carry_all (nsites c) (nholes c) (between (nsites c) (point w) (zrange 0 (nsites c)) (zrange 0 (nsites c))) K S (point w) N0 A1 eq_refl HQ (fun _ _ => eq_refl) (nbeta c) (nbeta c')) as (T & CT); try lia.
  destruct (mirrored_filled E c w _ K S arg l m HE HF HA) as (_ & D). destruct (mirrored_filled E c' w _ K S arg' l' m' HE HF' HA') as (_ & D').
  assert (Hl : (0 < length l)%nat) by (destruct G as ((v & (i & Hi & _) & _) & _); lia).
  assert (Hl' : (0 < length l')%nat).
  { destruct (sector_row c' l' P' (proj1 HA') (row c' l' 0)) as (i & Hi & _); [|lia].
    assert (X : (0 < nb_conf c')%Z) by (rewrite (proper_conf c' P'), !comb_binom' by lia; apply Z.mul_pos_pos; apply binom_pos; lia).
    assert (Y : length (repeat 0%Qc (length l')) = length l') by apply repeat_length. apply (conf_length c' l' P' (proj1 HA')) in Y. unfold zlen in Y. rewrite repeat_length in Y. apply (row_ok c' l' P' (proj1 HA')). lia. }
  destruct (C106_ferro_pf E c w K S arg l m HE HF HA Hl FE HT) as (e0 & v & G0 & V & FO & _). rewrite <- (ground_unique m e e0 G G0) in *. clear e0 G0.
  rewrite <- Hh in HT. destruct (C106_ferro_pf E c' w K S arg' l' m' HE HF' HA' Hl' FE HT) as (e1 & v1 & G1 & _ & _ & _ & U).
  pose proof (go_positive E c c' w K S arg arg' l l' m m' P P' Hn Hh HA HA' T CT v FO) as FO'.
  assert (V' : energy_state m' e (go c c' l l' T v)).
  { apply (go_energy E c c' w K S arg arg' l l' m m'); try assumption. exists 0%nat. split; [assumption|]. destruct (describes_row c' l' P' (proj1 HA') 0 Hl') as (d & Qd & Dd). pose proof (FO' _ _ _ Qd Dd) as X. intros Z. rewrite Z, Rmult_0_r in X. Lra.lra. }
  rewrite (U e _ V' FO'). exact G1.
Qed.
Lemma C109_full_spin_pf : forall E c w K S arg l m e v, set_iter_ok E -> filled_whole c w -> proper c -> holes_in_order E c -> assembled E c K S arg l m ->
  ferromagnetic K S -> nholes c = 0%Z \/ (s_bt S = true /\ i_t K <> 0%Qc) -> s_bz S = true -> ground_energy m e -> energy_state m e v ->
  let j := IZR (nsites c - nholes c) / 2 in
  forall i, (i < dimension m)%nat -> rsum (dimension m) (fun k => spin_element E c (dimension m) i k * v k) = j * (j + 1) * v i.
Proof.
  intros E c w K S arg l m e v HE HF P HO HA FE HT HZ G V j. assert (HQ : s_bz S = s_bij S) by (destruct FE as (_ & FB & _); congruence).
  pose proof P as (A1 & A2 & A3 & A4 & _). pose proof (proper_n c P) as N0. set (LL := between (nsites c) (point w) (zrange 0 (nsites c)) (zrange 0 (nsites c))).
  destruct (carry_all (nsites c) (nholes c) LL K S (point w) N0 A1 eq_refl HQ (fun _ _ => eq_refl) (nbeta c) 0%Z) as (T1 & C1); try lia.
  destruct (carry_all (nsites c) (nholes c) LL K S (point w) N0 A1 eq_refl HQ (fun _ _ => eq_refl) 0%Z (nbeta c)) as (T2 & C2); try lia.
  set (T := fun psi => T2 (T1 psi)). assert (CT : carries (nsites c) (nholes c) LL K S (point w) (nbeta c) (nbeta c) T) by exact (carry_step (nsites c) (nholes c) LL K S (point w) (nbeta c) 0%Z (nbeta c) T1 T2 C1 C2).
  destruct (mirrored_filled E c w _ K S arg l m HE HF HA) as (_ & D). assert (Hl : (0 < length l)%nat) by (destruct G as ((u & (i & Hi & _) & _) & _); lia).
  destruct (C106_ferro_pf E c w K S arg l m HE HF HA Hl FE HT) as (e0 & v0 & G0 & V0 & FO & U & _). rewrite <- (ground_unique m e e0 G G0) in *. clear e0 G0.
  pose proof (go_positive E c c w K S arg arg l l m m P P eq_refl eq_refl HA HA T CT v0 FO) as FO'.
  destruct (describes_row c l P (proj1 HA) 0 Hl) as (d & Qd & Dd). pose proof (FO' _ _ _ Qd Dd) as X0.
  assert (V' : energy_state m e (go c c l l T v0)).
  { apply (go_energy E c c w K S arg arg l l m m); try assumption; try reflexivity. exists 0%nat. split; [assumption|]. intros Z. rewrite Z, Rmult_0_r in X0. Lra.lra. }
  set (jq := (half * qz (nsites c - nholes c))%Qc).
  assert (SP : forall u i, (i < length l)%nat -> actR (length l) (spin_element E c (length l)) (go c c l l T u) i = j * (j + 1) * go c c l l T u i).
  { assert (RJ : real (jq * (jq + 1))%Qc = j * (j + 1)) by (unfold jq; rewrite real_mul, real_add, real_1, half_real; reflexivity).
    assert (CO : forall k i, (i < length l)%nat -> actR (length l) (spin_element E c (length l)) (fun q => real (xq c c l l T q k)) i = j * (j + 1) * real (xq c c l l T i k)).
    { intros k i Hi. set (u := unit_column (length l) k). pose proof (gone_length c c l T u) as Lg.
      assert (S2 : compute_S2 E c (gone c c l T u) = Ok (map (fun y => (jq * (jq + 1) * y)%Qc) (gone c c l T u))).
      { apply (S2_of_wave E c HE P HO _ (T (wave_of c u))).
        - now apply (conf_length c l P (proj1 HA)).
        - destruct CT as (CT & _). apply CT, wave_on.
        - intros t Ht. apply (gone_wave E c c w K S arg l m P eq_refl eq_refl HA T CT u t Ht).
        - intros t Ht. destruct C1 as (C11 & _). destruct C2 as (_ & C22 & C23 & _ & C25 & _). unfold T. rewrite C25 by (assumption || apply C11, wave_on).
          rewrite (C23 _ (fun s => (jq * (jq + 1) * T1 (wave_of c u) s + 0 * T1 (wave_of c u) s)%Qc)); [rewrite C22 by assumption; ring | | assumption].
          intros s Hs. pose proof (top_spin (nsites c) (nholes c) N0 (T1 (wave_of c u)) s (C11 _ (wave_on c u)) Hs) as TS. cbv zeta in TS. fold jq in TS. unfold spins in TS.
          transitivity (S_squared (nsites c) (T1 (wave_of c u)) s - jq * (jq + 1) * T1 (wave_of c u) s + jq * (jq + 1) * T1 (wave_of c u) s)%Qc; [ring | rewrite TS; ring]. }
      pose proof (spin_acts E c l HE P HO (proj1 HA) _ _ Lg S2 i Hi) as A. unfold reals at 1 in A. rewrite (nth_indep _ 0%Qc (jq * (jq + 1) * 0)%Qc), (map_nth (fun y => (jq * (jq + 1) * y)%Qc)) in A by (rewrite map_length, Lg; exact Hi). rewrite real_mul, RJ in A.
      transitivity (actR (length l) (spin_element E c (length l)) (reals (gone c c l T u)) i); [apply actR_ext; intros q Hq; unfold u; now rewrite go_unit|].
      rewrite <- A. f_equal. rewrite gone_nth by exact Hi. reflexivity. }
    intros u i Hi. unfold go at 2. rewrite <- rsum_scale. transitivity (rsum (length l) (fun k => u k * actR (length l) (spin_element E c (length l)) (fun q => real (xq c c l l T q k)) i)).
    - unfold actR, go. rewrite (rsum_ext (length l) _ (fun q => rsum (length l) (fun k => spin_element E c (length l) i q * (real (xq c c l l T q k) * u k)))) by (intros; now rewrite rsum_scale). rewrite rsum_exchange. apply rsum_ext. intros k _. rewrite <- rsum_scale. apply rsum_ext. intros. ring.
    - apply rsum_ext. intros k _. rewrite CO by assumption. ring. }
  destruct (U _ V') as (x & Hx). destruct (U _ V) as (y & Hy). rewrite D in *.
  assert (NX : x <> 0) by (intros Z; pose proof (Hx 0%nat Hl) as Q; rewrite Z, Rmult_0_l in Q; rewrite Q, Rmult_0_r in X0; Lra.lra).
  intros i Hi. change (rsum (length l) (fun k => spin_element E c (length l) i k * v k)) with (actR (length l) (spin_element E c (length l)) v i).
  assert (HV : forall q, (q < length l)%nat -> v q = y / x * go c c l l T v0 q) by (intros q Hq; rewrite (Hx q Hq), (Hy q Hq); field; exact NX).
  rewrite (actR_ext _ _ v (fun q => y / x * go c c l l T v0 q + 0 * 0) i) by (intros q Hq; rewrite (HV q Hq); ring). rewrite (actR_lin _ _ (y / x) (go c c l l T v0) 0 (fun _ => 0)), SP, (HV i Hi) by assumption. ring.
Qed.

