(** Final lemmas for C112: the spin of a vector, computed with rounded operations. *)
From Coq Require Import ZArith List Bool Lia Permutation QArith Qcanon Lqa.
From Verif Require Import PyBase PyFacts Runtimes Lattice Base Interact Ham Spin Round RoundSpin Spec SpecOps SpecTJ SpecSpin SpinDefs SignDefs RangeDefs RoundDefs
  PBasis PSites PRot PInter PSpin POps PHam FBasis FSites FInter PWave PVec PSecSum PSpinOp PBound PQc FSpin FSpinVal PPerron FDav PRange PRound PRoundSpin Examples.
Import ListNotations.
Open Scope Z_scope.

Lemma combine_seq : forall A (f : Qc * Qc -> A) a b, length a = length b -> map f (combine a b) = map (fun k => f (nth k a 0%Qc, nth k b 0%Qc)) (seq 0 (length a)).
Proof.
  intros A f a. induction a as [|x a IH]; intros [|y b] L; try discriminate; [reflexivity|]. cbn [combine map length seq]. f_equal. rewrite IH by (now injection L). rewrite <- seq_shift, map_map. reflexivity.
Qed.
Lemma vat_nth : forall a k, vat a (Z.of_nat k) = nth k a 0%Qc.
Proof. intros a k. unfold vat. now rewrite Nat2Z.id. Qed.
Lemma nth_magnitude : forall v k, nth k (map magnitude v) 0%Qc = magnitude (nth k v 0%Qc).
Proof. intros v k. rewrite <- !vat_nth. apply vat_magnitude. lia. Qed.
Lemma inner_magnitude : forall v, inner (map magnitude v) (map magnitude v) = inner v v.
Proof. intros v. unfold inner. rewrite map_length. apply qsum_ext. intros k _. rewrite nth_magnitude. apply magnitude_square. Qed.

Lemma dot_near : forall u F k v a' a w, rounds u F -> length a = length v -> vnear u (fun _ => k) a' a w ->
  near (eps u (S k + length v)) (vdot_fl F v a') (inner v a) (inner (map magnitude v) w).
Proof.
  intros u F k v a' a w HF L (L1 & L2 & N). unfold vdot_fl. rewrite combine_seq by congruence. cbn [fst snd].
  pose proof (add_all_error u F (S k) (map (fun i => (fl F (nth i v 0 * nth i a' 0)%Qc, (nth i v 0 * nth i a 0)%Qc, (magnitude (nth i v 0) * nth i w 0)%Qc)) (seq 0 (length v))) HF) as A.
  rewrite !map_map, map_length, seq_length in A. cbn [fst snd] in A. unfold total in A. rewrite !qsum_map in A.
  unfold inner. rewrite map_length. rewrite (qsum_ext _ (fun i => (nth i (map magnitude v) 0 * nth i w 0)%Qc) (fun i => (magnitude (nth i v 0) * nth i w 0)%Qc)) by (intros i _; now rewrite nth_magnitude).
  apply A. intros x y s I. apply in_map_iff in I. destruct I as (i & [= <- <- <-] & _). apply (near_fl u F HF). specialize (N (Z.of_nat i) ltac:(lia)). rewrite !vat_nth in N. destruct N as [N1 N2]. clear A.
  set (x := nth i v 0%Qc) in *. set (y' := nth i a' 0%Qc) in *. set (y := nth i a 0%Qc) in *. set (s := nth i w 0%Qc) in *. split.
  - replace (x * y' - x * y)%Qc with (x * (y' - y))%Qc by ring. rewrite magnitude_product.
    replace (eps u k * (magnitude x * s))%Qc with ((eps u k * s) * magnitude x)%Qc by ring. rewrite Qcmult_comm. apply Qcmult_le_compat_r; [exact N1 | apply magnitude_nonneg].
  - rewrite magnitude_product, !(Qcmult_comm (magnitude x)). apply Qcmult_le_compat_r; [exact N2 | apply magnitude_nonneg].
Qed.

Lemma len_conf : forall c l (v : list Qc), proper c -> construct_basis c = Ok (mkBasis c l) -> length v = length l -> zlen v = nb_conf c.
Proof. intros c l v P HB Lv. rewrite (basis_is c l P HB) in Lv. unfold zlen. rewrite Lv. now apply proper_length. Qed.

Lemma C112_elements_pf : forall u F E c l v psi, rounds u F -> set_iter_ok E -> proper c -> holes_in_order E c -> construct_basis c = Ok (mkBasis c l) ->
  on_lattice (nsites c) psi -> amplitudes c l v psi ->
  exists v', compute_S2_fl F E c v = Ok v' /\ length v' = length v /\
    forall k d s, nth_error l k = Some d -> describes (nsites c) (nholes c) (nbeta c) d s ->
      (magnitude (nth k v' 0 - S_squared (nsites c) psi s) <= growth u (2 + nsites c * (nsites c - 1) / 2) * S_squared (nsites c) (fun t => magnitude (psi t)) s)%Qc.
Proof.
  intros u F E c l v psi HF HE P HO HB OL AM. pose proof (len_conf c l v P HB (proj1 AM)) as Lz.
  destruct (S2_near u F E c HF HE P HO v Lz) as (a' & a & w & E1 & E2 & E3 & La & (L1 & L2 & N)).
  destruct (C37_squared_pf E c l v psi HE P HO HB OL AM) as (b & Q1 & (Lb & B)). rewrite E2 in Q1. injection Q1 as <-.
  assert (OM : on_lattice (nsites c) (fun t => magnitude (psi t))) by (intros s t H; f_equal; now apply OL).
  assert (AM' : amplitudes c l (map magnitude v) (fun t => magnitude (psi t))).
  { destruct AM as [AL AM]. split; [now rewrite map_length|]. intros k d s H1 H2. rewrite nth_error_map, (AM k d s H1 H2). reflexivity. }
  destruct (C37_squared_pf E c l (map magnitude v) _ HE P HO HB OM AM') as (x & Q2 & (Lx & X)). rewrite E3 in Q2. injection Q2 as <-.
  exists a'. split; [exact E1|]. split; [congruence|]. intros k d s H1 H2. pose proof (N (Z.of_nat k) ltac:(lia)) as [N1 _]. rewrite !vat_nth in N1.
  rewrite (nth_error_nth _ _ _ (B k d s H1 H2)), (nth_error_nth _ _ _ (X k d s H1 H2)) in N1. exact N1.
Qed.

Lemma upper : forall E c l v w, set_iter_ok E -> proper c -> holes_in_order E c -> construct_basis c = Ok (mkBasis c l) -> length v = length l -> compute_S2 E c v = Ok w ->
  let j := (half * qz (nalpha c + nbeta c))%Qc in (inner v w <= j * (j + 1) * inner v v)%Qc.
Proof.
  intros E c l v w HE P HO HB Lv Ew j.
  assert (D : (exists x, In x v /\ x <> 0%Qc) \/ forall x, In x v -> x = 0%Qc).
  { clear. induction v as [|y v IH]; [right; intros x []|]. destruct (Qc_eq_dec y 0) as [->|Ny]; [|left; exists y; split; [now left | assumption]].
    destruct IH as [(x & Hx & Nx)|IH]; [left; exists x; split; [now right | assumption] | right; intros x [<-|Hx]; [reflexivity | now apply IH]]. }
  destruct D as [NZ|Z].
  - destruct (C38_value_pf E c l v HE P HO HB Lv NZ) as (v1 & x & E1 & E2 & N & Q). rewrite Ew in E1. injection E1 as <-.
    destruct (C38_bounds_pf E c l v x HE P HO HB Lv NZ E2) as [_ U]. rewrite <- Q. apply Qcmult_le_compat_r; [exact U | apply inner_nonneg].
  - rewrite (proj2 (inner_zero v) Z), Qcmult_0_r. replace (inner v w) with 0%Qc; [apply Qcle_refl|]. symmetry. apply qsum_zero. intros k Hk. apply in_seq in Hk. rewrite (Z (nth k v 0%Qc)) by (apply nth_In; lia). ring.
Qed.

Lemma C112_mean_pf : forall u F E c l v, rounds u F -> set_iter_ok E -> proper c -> holes_in_order E c -> construct_basis c = Ok (mkBasis c l) -> length v = length l ->
  exists a' a, compute_S2_fl F E c v = Ok a' /\ compute_S2 E c v = Ok a /\
    let j := (half * qz (nalpha c + nbeta c))%Qc in
    (magnitude (vdot_fl F v a' - inner v a) <= growth u (3 + nsites c * (nsites c - 1) / 2 + zlen l) * (j * (j + 1)) * inner v v)%Qc.
Proof.
  intros u F E c l v HF HE P HO HB Lv. pose proof (len_conf c l v P HB Lv) as Lz.
  destruct (S2_near u F E c HF HE P HO v Lz) as (a' & a & w & E1 & E2 & E3 & La & N). exists a', a. split; [exact E1|]. split; [exact E2|].
  destruct (dot_near u F _ v a' a w HF La N) as [D _]. cbv zeta.
  assert (Lm : length (map magnitude v) = length l) by now rewrite map_length.
  pose proof (upper E c l (map magnitude v) w HE P HO HB Lm E3) as U. cbv zeta in U. rewrite inner_magnitude in U.
  assert (G : growth u (3 + nsites c * (nsites c - 1) / 2 + zlen l) = eps u (S (Z.to_nat (2 + nsites c * (nsites c - 1) / 2)) + length v)).
  { unfold growth, eps. f_equal. f_equal. pose proof (proper_n c P). assert (0 <= nsites c * (nsites c - 1) / 2) by (apply Z.div_pos; nia). unfold zlen. lia. }
  rewrite G. eapply Qcle_trans; [exact D|]. set (J := (half * qz (nalpha c + nbeta c))%Qc) in *. set (g := eps u _).
  replace (g * (J * (J + 1)) * inner v v)%Qc with ((J * (J + 1) * inner v v) * g)%Qc by ring. rewrite (Qcmult_comm g). apply Qcmult_le_compat_r; [exact U | apply (eps_nonneg u F HF)].
Qed.

(** the quotient of nearby numbers *)
Lemma quotient_near : forall u F d g x I N M J, rounds u F -> (0 < I)%Qc -> (0 <= x)%Qc -> (x <= J)%Qc -> (0 <= d)%Qc -> (magnitude (M - I) <= d * I)%Qc -> (magnitude (N - x * I) <= g * J * I)%Qc ->
  (u + d + u * d < 1)%Qc -> (magnitude (fl F (N / fl F M) - x) * (1 - (u + d + u * d)) <= J * (u * (1 + g) + g + (u + d + u * d)))%Qc.
Proof.
  intros u F d g x I N M J HF HI Hx HJ Hd HM HN Hlt. pose proof HF as (HU & R & _). set (d' := (u + d + u * d)%Qc) in *. set (D := fl F M).
  assert (SM : (magnitude M <= (1 + d) * I)%Qc). { pose proof (magnitude_add (M - I) I) as A. replace (M - I + I)%Qc with M in A by ring. rewrite (magnitude_unique I I) in A by (try (now left); now apply Qclt_le_weak). qc. }
  assert (DD : (magnitude (D - I) <= d' * I)%Qc).
  { pose proof (magnitude_add (D - M) (M - I)) as A. replace (D - M + (M - I))%Qc with (D - I)%Qc in A by ring. pose proof (R M) as R1. fold D in R1.
    assert (u * magnitude M <= u * ((1 + d) * I))%Qc by (rewrite !(Qcmult_comm u); now apply Qcmult_le_compat_r). unfold d'. qc. }
  assert (LD : ((1 - d') * I <= D)%Qc). { destruct (proj2 (magnitude_le (d' * I) (D - I)) DD) as [A _]. qc. }
  assert (PD : (0 < D)%Qc). { eapply Qclt_le_trans; [|exact LD]. rewrite <- (Qcmult_0_l I). apply Qcmult_lt_compat_r; [exact HI | qc]. }
  assert (ND : D <> 0%Qc) by (intros Q; rewrite Q in PD; exact (Qclt_not_le _ _ PD (Qcle_refl _))).
  set (q := (N / D)%Qc). assert (Eq : (q * D = N)%Qc) by (unfold q; field; exact ND).
  set (e := (1 - d')%Qc) in *. assert (Pe : (0 <= e)%Qc) by (unfold e; qc).
  assert (Sz : forall y b, (magnitude (y * D) <= b * I)%Qc -> (magnitude y * e <= b)%Qc).
  { intros y b Hy. rewrite magnitude_product, (magnitude_unique D D) in Hy by (try (now left); now apply Qclt_le_weak).
    apply Qcnot_lt_le. intros L. apply (Qclt_not_le (b * I) (magnitude y * e * I)); [now apply Qcmult_lt_compat_r|].
    eapply Qcle_trans; [|exact Hy]. rewrite <- Qcmult_assoc, !(Qcmult_comm (magnitude y)). apply Qcmult_le_compat_r; [exact LD | apply magnitude_nonneg]. }
  assert (PJ : (0 <= J)%Qc) by exact (Qcle_trans _ _ _ Hx HJ).
  assert (B1 : (magnitude (q - x) * e <= J * (g + d'))%Qc).
  { apply Sz. replace ((q - x) * D)%Qc with ((N - x * I) + x * (I - D))%Qc by (rewrite <- Eq; ring). eapply Qcle_trans; [apply magnitude_add|]. rewrite magnitude_product, (magnitude_unique x x) by (try (now left); assumption).
    assert (X : (magnitude (I - D) <= d' * I)%Qc) by (replace (I - D)%Qc with (- (D - I))%Qc by ring; now rewrite magnitude_opp).
    assert (Y : (x * magnitude (I - D) <= J * (d' * I))%Qc).
    { eapply Qcle_trans; [apply Qcmult_le_compat_r; [exact HJ | apply magnitude_nonneg]|]. rewrite !(Qcmult_comm J). now apply Qcmult_le_compat_r. }
    qc. }
  assert (B2 : (magnitude q * e <= J * (1 + g))%Qc).
  { apply Sz. rewrite Eq. pose proof (magnitude_add (N - x * I) (x * I)) as A. replace (N - x * I + x * I)%Qc with N in A by ring.
    assert (PI : (0 <= x * I)%Qc) by (apply Qcmult_nonneg; [assumption | now apply Qclt_le_weak]). rewrite (magnitude_unique (x * I) (x * I) PI) in A by now left.
    assert (x * I <= J * I)%Qc by (apply Qcmult_le_compat_r; [assumption | now apply Qclt_le_weak]). qc. }
  pose proof (magnitude_add (fl F q - q) (q - x)) as A. replace (fl F q - q + (q - x))%Qc with (fl F q - x)%Qc in A by ring. pose proof (R q) as R1.
  assert (B3 : (u * (magnitude q * e) <= u * (J * (1 + g)))%Qc) by (rewrite !(Qcmult_comm u); now apply Qcmult_le_compat_r).
  assert (B4 : (magnitude (fl F q - x) * e <= (u * magnitude q + magnitude (q - x)) * e)%Qc) by (apply Qcmult_le_compat_r; [qc | assumption]).
  qc.
Qed.

Lemma C112_value_pf : forall u F d norm E c l v, rounds u F -> norm_within d norm v -> (0 <= d)%Qc -> (u + d + u * d < 1)%Qc -> set_iter_ok E -> proper c -> holes_in_order E c -> construct_basis c = Ok (mkBasis c l) ->
  length v = length l -> (exists x, In x v /\ x <> 0%Qc) ->
  exists y x, compute_S2_exp_val_fl F norm E c v = Ok y /\ compute_S2_exp_val E c v = Ok x /\
    let j := (half * qz (nalpha c + nbeta c))%Qc in let g := growth u (3 + nsites c * (nsites c - 1) / 2 + zlen l) in let d' := (u + d + u * d)%Qc in
    (magnitude (y - x) * (1 - d') <= j * (j + 1) * (u * (1 + g) + g + d'))%Qc.
Proof.
  intros u F d norm E c l v HF HN Hd Hlt HE P HO HB Lv NZ.
  destruct (C112_mean_pf u F E c l v HF HE P HO HB Lv) as (a' & a & E1 & E2 & B). cbv zeta in B.
  destruct (C38_value_pf E c l v HE P HO HB Lv NZ) as (v1 & x & E3 & E4 & N & Q). rewrite E2 in E3. injection E3 as <-.
  destruct (C38_bounds_pf E c l v x HE P HO HB Lv NZ E4) as [LB UB]. cbv zeta in LB, UB.
  assert (Pos : (0 < inner v v)%Qc). { destruct (Qclt_le_dec 0 (inner v v)) as [L|L]; [assumption|]. exfalso. apply N. apply Qcle_antisym; [assumption | apply inner_nonneg]. }
  assert (PX : (0 <= x)%Qc).
  { eapply Qcle_trans; [|exact LB]. assert (M0 : (0 <= half * qz (Z.abs (nalpha c - nbeta c)))%Qc). { apply Qcmult_nonneg; [unfold Qcle; vm_compute; discriminate | change 0%Qc with (qz 0); apply qz_le; lia]. }
    apply Qcmult_nonneg; [exact M0 | qc]. }
  exists (fl F (vdot_fl F v a' / fl F (norm v * norm v)))%Qc, x. split; [|split; [exact E4|]].
  - unfold compute_S2_exp_val_fl. rewrite E1. cbn [bind]. destruct (Qc_eq_dec (norm v) 0) as [Z|_]; [|reflexivity]. exfalso. pose proof HN as H. unfold norm_within in H. rewrite Z in H.
    replace (0 * 0 - inner v v)%Qc with (- inner v v)%Qc in H by ring. rewrite magnitude_opp, (magnitude_unique _ _ (Qclt_le_weak _ _ Pos)) in H by now left.
    assert (D1 : (d < 1)%Qc). { pose proof HF as (HU & _). pose proof (Qcmult_nonneg _ _ HU Hd). qc. }
    apply (Qclt_not_le (d * inner v v) (1 * inner v v)); [now apply Qcmult_lt_compat_r | now rewrite Qcmult_1_l].
  - cbv zeta. apply quotient_near with (I := inner v v); try assumption; now rewrite Q.
Qed.

Lemma C112_spin_pf : forall u F d norm E c l v roots y a b t rho s k, rounds u F -> norm_within d norm v -> (0 <= d)%Qc -> (u + d + u * d < 1)%Qc -> set_iter_ok E -> proper c -> holes_in_order E c ->
  construct_basis c = Ok (mkBasis c l) -> length v = length l -> (exists x, In x v /\ x <> 0%Qc) ->
  compute_S2_exp_val E c v = Ok (s * (s + 1))%Qc -> 0 <= k -> s = (half * qz k)%Qc ->
  compute_S2_exp_val_fl F norm E c v = Ok y -> roots y = (a, b) -> (0 <= a /\ t = a \/ a < 0 /\ t = b)%Qc -> (0 <= t)%Qc -> (magnitude (t * (t + 1) - y) <= rho)%Qc ->
  let j := (half * qz (nalpha c + nbeta c))%Qc in let g := growth u (3 + nsites c * (nsites c - 1) / 2 + zlen l) in let d' := (u + d + u * d)%Qc in
  (rho + j * (j + 1) * (u * (1 + g) + g + d') / (1 - d') < (s + 1) / qz 4)%Qc ->
  compute_spin_number_fl F norm E roots c v = Ok (Some s).
Proof.
  intros u F d norm E c l v roots y a b t rho s k HF HN Hd Hlt HE P HO HB Lv NZ Ex Hk Es Ey R Ht T0 Hr j g d' HL.
  destruct (C112_value_pf u F d norm E c l v HF HN Hd Hlt HE P HO HB Lv NZ) as (y1 & x & E1 & E2 & B). rewrite Ey in E1. injection E1 as <-. rewrite Ex in E2. injection E2 as <-.
  cbv zeta in B. fold j g d' in B. set (X := (j * (j + 1) * (u * (1 + g) + g + d'))%Qc) in *.
  assert (PD : (0 < 1 - d')%Qc) by (unfold d'; qc). set (e := (1 - d')%Qc) in *.
  assert (NE : e <> 0%Qc) by (intros Q; rewrite Q in PD; exact (Qclt_not_le _ _ PD (Qcle_refl _))).
  assert (B' : (magnitude (y - s * (s + 1)) <= X / e)%Qc).
  { apply Qcnot_lt_le. intros L. apply (Qclt_not_le (X / e * e) (magnitude (y - s * (s + 1)) * e)); [now apply Qcmult_lt_compat_r|]. replace (X / e * e)%Qc with X by (field; exact NE). exact B. }
  assert (S0 : (0 <= s)%Qc) by (rewrite Es; apply Qcmult_nonneg; [unfold Qcle; vm_compute; discriminate | change 0%Qc with (qz 0); apply qz_le; lia]).
  pose proof (magnitude_add (t * (t + 1) - y) (y - s * (s + 1))) as A. replace (t * (t + 1) - y + (y - s * (s + 1)))%Qc with ((t - s) * (t + s + 1))%Qc in A by ring.
  rewrite magnitude_product, (magnitude_unique (t + s + 1) (t + s + 1)) in A by (try (now left); clear - S0 T0; qc).
  assert (A2 : (magnitude (t - s) * (s + 1) <= magnitude (t - s) * (t + s + 1))%Qc) by (rewrite !(Qcmult_comm (magnitude (t - s))); apply Qcmult_le_compat_r; [clear - T0; qc | apply magnitude_nonneg]).
  assert (A3 : (magnitude (t - s) < qfrac 1 4)%Qc).
  { apply Qcnot_le_lt. intros L. assert (L2 : (qfrac 1 4 * (s + 1) <= magnitude (t - s) * (s + 1))%Qc) by (apply Qcmult_le_compat_r; [exact L | clear - S0; qc]).
    replace ((s + 1) / qz 4)%Qc with (qfrac 1 4 * (s + 1))%Qc in HL by (unfold Qcdiv; rewrite Qcmult_comm; f_equal; apply Qc_is_canon; reflexivity).
    clear - HL L2 A A2 B' Hr. set (m := magnitude (t - s)) in *. set (m1 := magnitude _) in *. set (m2 := magnitude _) in *. set (z := (X / e)%Qc) in *. clearbody m m1 m2 z. qc. }
  assert (T1 : (s - qfrac 1 4 < t)%Qc /\ (t < s + qfrac 1 4)%Qc).
  { destruct (magnitude_cases (t - s)) as [[M1 M2]|[M1 M2]]; rewrite M2 in A3; clear - A3 M1; split; qc. }
  destruct T1 as [T1 T2].
  assert (G : (qz (round0 (qz 2 * t)) / qz 2)%Qc = s).
  { rewrite half_is. rewrite (round_near (qz 2 * t) k); [now symmetry | |]; rewrite Es in *; clear - T1 T2; qc; change (inject_Z 2) with 2%Q in *; lra. }
  unfold compute_spin_number_fl. rewrite Ey, R. destruct Ht as [[H ->]|[H ->]]; destruct (Qclt_le_dec a 0) as [L|L].
  - exfalso. exact (Qclt_not_le _ _ L H).
  - now rewrite G.
  - now rewrite G.
  - exfalso. exact (Qclt_not_le _ _ H L).
Qed.

Lemma C112_exact_pf : forall F E c l v, exact_floats F -> set_iter_ok E -> proper c -> holes_in_order E c -> construct_basis c = Ok (mkBasis c l) -> length v = length l ->
  compute_S2_fl F E c v = compute_S2 E c v.
Proof.
  intros F E c l v [HX HP] HE P HO HB Lv. assert (HF : rounds 0 F).
  { split; [apply Qcle_refl|]. split; [|exact HP]. intros x. rewrite HX. replace (x - x)%Qc with 0%Qc by ring. rewrite Qcmult_0_l. apply Qcle_refl. }
  destruct (S2_near 0 F E c HF HE P HO v (len_conf c l v P HB Lv)) as (a' & a & w & E1 & E2 & _ & La & (L1 & _ & N)). rewrite E1, E2. f_equal.
  apply (nth_ext _ _ 0%Qc 0%Qc L1). intros k _. destruct (N (Z.of_nat k) ltac:(lia)) as [H _]. rewrite !vat_nth in H.
  assert (Z : forall m, eps 0 m = 0%Qc) by (intros m; unfold eps; induction m as [|m IH]; cbn [Qcpower]; [ring|]; transitivity ((1 + 0) ^ m - 1)%Qc; [ring | exact IH]).
  rewrite Z, Qcmult_0_l in H. set (x := nth k a' 0%Qc) in *. set (y := nth k a 0%Qc) in *. pose proof (proj2 (magnitude_le 0 (x - y)) H) as [H1 H2]. apply Qcle_antisym; clear - H1 H2; qc.
Qed.

(** ** a singlet with a negative value *)
Definition singlet_conf : configuration := ex_rect 4 1 1 0 2.
Definition singlet_basis : list (list Z) := match construct_basis singlet_conf with Ok b => determinants b | Err _ => [] end.
Definition singlet : list Qc := map qz [4503599627370490; 4503599627370493; -9007199254740983; -9007199254740983; 4503599627370493; 4503599627370490].
Definition singlet_norm (_ : list Qc) : Qc := qz 15600926743107910.
Definition singlet_value : Qc := Q2Qc (-6004799503160667 # 81129638414606681695789005144064).
Definition near_roots (x : Qc) : Qc * Qc := (x, (- (1) - x)%Qc).
Lemma ok_q : forall r x, match r with Ok y => Qeq_bool (this y) (this x) | Err _ => false end = true -> r = Ok x.
Proof. intros [y|e] x H; [|discriminate]. f_equal. apply Qc_is_canon. now apply Qeq_bool_iff. Qed.
Lemma ok_some_q : forall r x, match r with Ok (Some y) => Qeq_bool (this y) (this x) | _ => false end = true -> r = Ok (Some x).
Proof. intros [[y|]|e] x H; try discriminate. do 2 f_equal. apply Qc_is_canon. now apply Qeq_bool_iff. Qed.
Lemma C112_singlet_refuted_pf : exists E c l v norm roots y a b, set_iter_ok E /\ proper c /\ holes_in_order E c /\ construct_basis c = Ok (mkBasis c l) /\ length v = length l /\
  (forall x, In x v -> has_bits 53 x) /\ norm_within (1 / qz (2 ^ 52)) norm v /\ compute_S2_exp_val E c v = Ok 0%Qc /\
  compute_S2_exp_val_fl binary64 norm E c v = Ok y /\ (y < 0)%Qc /\ roots y = (a, b) /\ (a + b = - (1))%Qc /\ (magnitude (a * b + y) <= y * y)%Qc /\
  compute_spin_number_fl binary64 norm E roots c v = Ok (Some (- (1))%Qc) /\ compute_spin_multiplicity (Some (- (1))%Qc) = None.
Proof.
  assert (Y : compute_S2_exp_val_fl binary64 singlet_norm cpython singlet_conf singlet = Ok singlet_value) by (apply ok_q; vm_compute; reflexivity).
  exists cpython, singlet_conf, singlet_basis, singlet, singlet_norm, near_roots, singlet_value, singlet_value, (- (1) - singlet_value)%Qc.
  split; [exact cpython_ok|]. split; [vm_compute; intuition congruence|]. split; [left; vm_compute; discriminate|]. split; [vm_compute; reflexivity|]. split; [vm_compute; reflexivity|].
  split; [|split; [vm_compute; discriminate|]].
  { intros x I. apply in_map_iff in I. destruct I as (z & <- & I). exists z, 0. split; [cbn in I; repeat destruct I as [<-|I]; [..|contradiction]; vm_compute; reflexivity|]. unfold power2. cbn. symmetry. apply Qcmult_1_r. }
  split; [apply ok_q; vm_compute; reflexivity|]. split; [exact Y|]. split; [vm_compute; reflexivity|]. split; [reflexivity|].
  split; [generalize singlet_value; intros; ring|]. split; [vm_compute; discriminate|]. split; [|vm_compute; reflexivity].
  unfold compute_spin_number_fl. rewrite Y. apply ok_some_q. vm_compute. reflexivity.
Qed.

(** ** failures *)
Definition alike (r s : res (list Qc)) : Prop := match r, s with Ok a, Ok b => length a = length b | Err e, Err e' => e = e' | _, _ => False end.
Lemma foldM_alike : forall A (f g : list Qc -> A -> res (list Qc)) l, (forall a b x, length a = length b -> alike (f a x) (g b x)) -> forall a b, length a = length b -> alike (foldM f a l) (foldM g b l).
Proof.
  intros A f g l H. induction l as [|x l IH]; intros a b L; cbn [foldM]; [exact L|]. pose proof (H a b x L) as HX. unfold alike in HX. destruct (f a x), (g b x); cbn [bind]; try contradiction; [now apply IH | now subst].
Qed.
Lemma plus_at_alike : forall F a b i x, length a = length b -> alike (vplus_at_fl F a i x) (vplus_at b i x).
Proof.
  intros F a b i x L. unfold vplus_at_fl, vplus_at, py_get, py_set, zlen. rewrite L. cbv zeta. set (j := py_norm _ i). destruct (Z.ltb_spec j 0); cbn [bind orb]; [reflexivity|].
  destruct (nth_error a (Z.to_nat j)) eqn:Qa, (nth_error b (Z.to_nat j)) eqn:Qb; cbn [bind].
  - destruct (_ <=? _); cbn; [reflexivity|]. rewrite !set_nth_length. exact L.
  - exfalso. apply nth_error_None in Qb. assert (nth_error a (Z.to_nat j) <> None) as N by congruence. apply nth_error_Some in N. lia.
  - exfalso. apply nth_error_None in Qa. assert (nth_error b (Z.to_nat j) <> None) as N by congruence. apply nth_error_Some in N. lia.
  - reflexivity.
Qed.
Lemma spm_alike : forall F E c v i j, alike (compute_S_plus_S_minus_fl F E c v i j) (compute_S_plus_S_minus E c v i j).
Proof.
  intros F E c v i j. unfold compute_S_plus_S_minus_fl, compute_S_plus_S_minus. apply foldM_alike; [|reflexivity]. intros a b k L.
  destruct (get_hash_basis _ _ _ k) as [d|]; cbn [bind]; [|reflexivity]. destruct (compute_S_plus_S_minus_det E c d i j) as [o|]; cbn [bind]; [|reflexivity].
  destruct o as [[|x l]|]; try exact L. destruct (compute_hash_table c (x :: l)) as [z|]; cbn [bind]; [|reflexivity]. destruct (py_get v k) as [y|]; cbn [bind]; [|reflexivity]. now apply plus_at_alike.
Qed.
Lemma S2_alike : forall F E c v, alike (compute_S2_fl F E c v) (compute_S2 E c v).
Proof.
  intros F E c v. unfold compute_S2_fl, compute_S2. apply foldM_alike; [|unfold vscale_fl, vscale; now rewrite !map_length]. intros a b i L. apply foldM_alike; [|exact L]. clear a b L. intros a b j L.
  pose proof (spm_alike F E c v i j) as A1. pose proof (spm_alike F E c v j i) as A2. unfold alike in A1, A2. destruct (compute_S_plus_S_minus_fl F E c v i j), (compute_S_plus_S_minus E c v i j); try contradiction; cbn [bind]; [|now subst].
  destruct (compute_S_plus_S_minus_fl F E c v j i), (compute_S_plus_S_minus E c v j i); try contradiction; cbn [bind]; [|now subst]. cbn [alike]. unfold vadd_fl, vadd. rewrite !map_length, !combine_length, !map_length, !combine_length. lia.
Qed.

Lemma C112_failures_pf : forall F norm E roots c v,
  (forall e, compute_S2_fl F E c v = Err e <-> compute_S2 E c v = Err e) /\
  (norm v = 0%Qc -> compute_S2_exp_val_fl F norm E c v = Ok 0%Qc) /\
  (norm v <> 0%Qc -> compute_S2 E c v = Err IndexError -> compute_spin_number_fl F norm E roots c v = Ok None).
Proof.
  intros F norm E roots c v. pose proof (S2_alike F E c v) as A. unfold alike in A.
  assert (X : forall e, compute_S2_fl F E c v = Err e <-> compute_S2 E c v = Err e).
  { intros e. destruct (compute_S2_fl F E c v), (compute_S2 E c v); try contradiction; split; intros Q; try discriminate; congruence. }
  split; [exact X|]. split.
  - intros N. unfold compute_S2_exp_val_fl. rewrite N. reflexivity.
  - intros N H. apply X in H. unfold compute_spin_number_fl, compute_S2_exp_val_fl. rewrite H. cbn [bind]. destruct (Qc_eq_dec (norm v) 0); [contradiction | reflexivity].
Qed.
