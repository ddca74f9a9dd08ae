(** Final lemmas for C113: probabilities computed with rounded operations. *)
From Coq Require Import ZArith List Bool Lia QArith Qcanon Lqa.
From Verif Require Import PyBase PyFacts Runtimes Lattice Base Interact Ham Spin Prob Round RoundProb Spec SpecOps SpecTJ SpecSpin SpinDefs ProbDefs Geometry SignDefs RangeDefs RoundDefs
  PBasis PSites PSpin PRep POps PHam FBasis FSites PWave PVec PBound PQc PProb FProb PPerron FDav PRange PRound PRoundSpin FRoundSpin PBinary Examples.
Import ListNotations.
Open Scope Z_scope.

Section Sums.
Variables (u : Qc) (F : floats).
Hypothesis HF : rounds u F.
Lemma foldM_near : forall A (f : Qc -> A -> res Qc) (z g : A -> Qc) l, (forall x a, In x l -> f a x = Ok (fl F (a + z x))%Qc) ->
  forall k a y, (forall x, In x l -> near (eps u k) (z x) (g x) (g x)) -> near (eps u k) a y y ->
  exists q, foldM f a l = Ok q /\ near (eps u (k + length l)) q (y + qsum g l)%Qc (y + qsum g l)%Qc.
Proof.
  intros A f z g l. induction l as [|x l IH]; intros H k a y N Na; cbn [foldM length].
  - exists a. split; [reflexivity|]. rewrite qsum_nil, Nat.add_0_r, Qcplus_0_r. exact Na.
  - rewrite H by now left. cbn [bind]. destruct (IH (fun y b I => H y b (or_intror I)) (S k) (fl F (a + z x))%Qc (y + g x)%Qc) as (q & E & Q).
    + intros y' I. eapply near_weak; [apply (eps_step u F HF) | apply N; now right].
    + apply (near_fl u F HF). apply near_add; [exact Na | apply N; now left].
    + exists q. split; [exact E|]. rewrite qsum_cons, Qcplus_assoc, Nat.add_succ_r. exact Q.
Qed.
Lemma site_near : forall c l st v p x, listed (nsites c) (nholes c) (nbeta c) l st -> length v = length l -> 0 <= x < nsites c ->
  exists q, proba_site_fl F (mkBasis c l) v (spin_code p) x = Ok q /\ near (eps u (1 + length l)) q (weight st v p x) (weight st v p x).
Proof.
  intros c l st v p x D L Hx. unfold proba_site_fl. cbn [b_conf determinants].
  set (z := fun q : Z * det => only (samep (st (Z.to_nat (fst q)) x) p) (fl F (vat v (fst q) * vat v (fst q)))%Qc).
  set (g := fun q : Z * det => only (samep (st (Z.to_nat (fst q)) x) p) (vat v (fst q) * vat v (fst q))%Qc).
  assert (W : weight st v p x = qsum g (enumerate l)).
  { unfold weight. rewrite L. symmetry. apply qsum_enumerate. intros k d Hk. unfold g, vat. cbn [fst]. now rewrite Nat2Z.id. }
  destruct (foldM_near _ (fun acc p0 => x0 <- py_get v (fst p0) ;; s <- get_spin_site c (snd p0) x ;; Ok (fl F (acc + fl F (qabs x0 * qabs x0) * (if s =? spin_code p then 1 else 0)))%Qc) z g (enumerate l)) with (k := 1%nat) (a := 0%Qc) (y := 0%Qc) as (q & E & Q).
  - intros [k d] a Hk. apply in_enumerate in Hk. destruct Hk as [Hk Nk]. cbn [fst snd].
    pose proof (nth_error_Some l (Z.to_nat k)) as B. rewrite Nk in B. assert (B' : (Z.to_nat k < length l)%nat) by (apply B; congruence).
    rewrite vat_get by (unfold zlen; lia). cbn [bind]. pose proof (D _ _ Nk) as Dk.
    rewrite (spin_site_ok c d (st (Z.to_nat k)) x Dk Hx). cbn [bind]. rewrite spin_code_samep, qabs_square. unfold z. cbn [fst].
    destruct (samep _ _); cbn [only]; do 3 f_equal; ring.
  - intros [k d] _. unfold z, g. cbn [fst]. destruct (samep _ _); cbn [only]; [|apply (near_self u F HF), Qcle_refl]. apply (near_fl u F HF 0%nat). apply (near_self u F HF).
    rewrite (magnitude_unique _ _ (square_nonneg _)) by (now left). apply Qcle_refl.
  - apply (near_self u F HF). apply Qcle_refl.
  - exists q. split; [exact E|]. rewrite Qcplus_0_l, <- W in Q. rewrite enumerate_nth, combine_length, map_length, seq_length, Nat.min_id in Q. exact Q.
Qed.
End Sums.

Lemma divide_error : forall e x b, (0 < e)%Qc -> (x * e <= b)%Qc -> (x <= b / e)%Qc.
Proof.
  intros e x b He H. assert (NE : e <> 0%Qc) by (intros Q; rewrite Q in He; exact (Qclt_not_le _ _ He (Qcle_refl _))).
  apply Qcnot_lt_le. intros L. apply (Qclt_not_le (b / e * e) (x * e)); [now apply Qcmult_lt_compat_r|]. replace (b / e * e)%Qc with b by (field; exact NE). exact H.
Qed.
Section Quot.
Variables (u : Qc) (F : floats) (d : Qc) (norm : list Qc -> Qc) (v : list Qc).
Hypothesis HF : rounds u F.
Hypothesis HN : norm_within d norm v.
Hypothesis Hd : (0 <= d)%Qc.
Hypothesis Hlt : (u + d + u * d < 1)%Qc.
Hypothesis NZ : inner v v <> 0%Qc.
Lemma inner_strict : (0 < inner v v)%Qc.
Proof. destruct (Qclt_le_dec 0 (inner v v)) as [L|L]; [assumption|]. exfalso. apply NZ. apply Qcle_antisym; [assumption | apply PProb.inner_nonneg]. Qed.
(** the divisor is not 0 *)
Lemma divisor : fl F (norm v * norm v)%Qc <> 0%Qc.
Proof.
  intros Q. pose proof inner_strict as P. pose proof HF as (HU & R & _). pose proof (R (norm v * norm v)%Qc) as R1. rewrite Q in R1. pose proof HN as H. unfold norm_within in H.
  assert (S0 : (0 <= norm v * norm v)%Qc) by apply square_nonneg. set (M := (norm v * norm v)%Qc) in *. replace (0 - M)%Qc with (- M)%Qc in R1 by ring. rewrite magnitude_opp, (magnitude_unique M M S0) in R1 by now left.
  pose proof (proj2 (magnitude_le _ _) H) as [H1 H2]. set (I := inner v v) in *.
  assert (A : (M <= (1 + d) * I)%Qc) by (clear - H2; qc). assert (B : ((1 - d) * I <= M)%Qc) by (clear - H1; qc).
  assert (C : (u * M <= u * ((1 + d) * I))%Qc) by (rewrite !(Qcmult_comm u); apply Qcmult_le_compat_r; assumption).
  assert (X : ((u + d + u * d) * I < 1 * I)%Qc) by (now apply Qcmult_lt_compat_r). clear - R1 B C X. qc.
Qed.
Lemma quotient_relative : forall g x N, (0 <= x)%Qc -> (magnitude (N - x * inner v v) <= g * x * inner v v)%Qc ->
  exists y, fdiv_fl F N (fl F (norm v * norm v))%Qc = Ok y /\ (magnitude (y - x) <= quotient_error u d g * x)%Qc.
Proof.
  intros g x N Hx H. exists (fl F (N / fl F (norm v * norm v)))%Qc. split.
  - unfold fdiv_fl. pose proof divisor as D. apply qeqb_neq in D. now rewrite D.
  - unfold quotient_error. set (d' := (u + d + u * d)%Qc) in *. set (e := (1 - d')%Qc). assert (He : (0 < e)%Qc) by (unfold e; clear - Hlt; qc).
    replace ((u * (1 + g) + g + d') / e * x)%Qc with (x * (u * (1 + g) + g + d') / e)%Qc by (unfold Qcdiv; ring). apply divide_error; [exact He|].
    apply quotient_near with (I := inner v v); try assumption; [apply inner_strict | apply Qcle_refl].
Qed.
End Quot.

Definition got (r : res Qc) : Qc := match r with Ok x => x | Err _ => 0%Qc end.
Lemma C113_weights_pf : forall u F d norm c l st v p, rounds u F -> norm_within d norm v -> (0 <= d)%Qc -> (u + d + u * d < 1)%Qc ->
  listed (nsites c) (nholes c) (nbeta c) l st -> length v = length l -> inner v v <> 0%Qc ->
  exists pr, get_probability_spin_lattice_fl F norm (mkBasis c l) v (spin_code p) false = Ok pr /\ length pr = Z.to_nat (nsites c) /\
    forall x, 0 <= x < nsites c -> let exact := (weight st v p x / inner v v)%Qc in
      (magnitude (nth (Z.to_nat x) pr 0 - exact) <= quotient_error u d (growth u (1 + zlen l)) * exact)%Qc.
Proof.
  intros u F d norm c l st v p HF HN Hd Hlt D L NZ.
  set (g := fun x => got (q <- proba_site_fl F (mkBasis c l) v (spin_code p) x ;; fdiv_fl F q (fl F (norm v * norm v))%Qc)).
  assert (G : forall x, 0 <= x < nsites c -> (q <- proba_site_fl F (mkBasis c l) v (spin_code p) x ;; fdiv_fl F q (fl F (norm v * norm v))%Qc) = Ok (g x) /\
    (magnitude (g x - weight st v p x / inner v v) <= quotient_error u d (growth u (1 + zlen l)) * (weight st v p x / inner v v))%Qc).
  { intros x Hx. destruct (site_near u F HF c l st v p x D L Hx) as (q & E & [N1 _]).
    assert (X : (weight st v p x / inner v v * inner v v = weight st v p x)%Qc) by (field; exact NZ).
    assert (GE : growth u (1 + zlen l) = eps u (1 + length l)) by (unfold growth, eps, zlen; do 2 f_equal; lia).
    destruct (quotient_relative u F d norm v HF HN Hd Hlt NZ (growth u (1 + zlen l)) (weight st v p x / inner v v)%Qc q) as (y & E2 & B).
    - apply div_nonneg; [apply weight_nonneg | now apply inner_strict].
    - rewrite X. rewrite <- Qcmult_assoc, X, GE. exact N1.
    - unfold g. rewrite E. cbn [bind]. rewrite E2. cbn [got]. split; [reflexivity | exact B]. }
  exists (map g (zrange 0 (nsites c))). split; [|split].
  - unfold get_probability_spin_lattice_fl. rewrite bad_code. cbn [b_conf]. apply mapM_ok. intros x Hx. apply in_zrange in Hx. exact (proj1 (G x Hx)).
  - rewrite map_length, zrange_length. f_equal. lia.
  - intros x Hx. cbv zeta. assert (Q : nth_error (map g (zrange 0 (nsites c))) (Z.to_nat x) = Some (g x)) by (rewrite nth_error_map, zrange_nth by assumption; reflexivity).
    rewrite (nth_error_nth _ _ _ Q). exact (proj2 (G x Hx)).
Qed.

(** the error is small enough that nothing becomes negative *)
Lemma C113_probabilities_pf : forall u F d norm c l st v, rounds u F -> norm_within d norm v -> (0 <= d)%Qc -> (u + d + u * d < 1)%Qc ->
  listed (nsites c) (nholes c) (nbeta c) l st -> length v = length l -> inner v v <> 0%Qc ->
  exists down hole up, get_spins_probabilitites_lattice_fl F norm (mkBasis c l) v false = Ok [(-1, down); (0, hole); (1, up)] /\
    let e := quotient_error u d (growth u (1 + zlen l)) in
    forall x, 0 <= x < nsites c -> let at_site pr := nth (Z.to_nat x) pr 0%Qc in
      (magnitude (at_site down + at_site hole + at_site up - 1) <= e)%Qc /\
      (forall p pr, In (p, pr) [(Down, down); (Hole, hole); (Up, up)] -> (weight st v p x = 0%Qc -> at_site pr = 0%Qc) /\ ((e <= 1)%Qc -> (0 <= at_site pr)%Qc)).
Proof.
  intros u F d norm c l st v HF HN Hd Hlt D L NZ.
  destruct (C113_weights_pf u F d norm c l st v Down HF HN Hd Hlt D L NZ) as (down & E1 & _ & B1).
  destruct (C113_weights_pf u F d norm c l st v Hole HF HN Hd Hlt D L NZ) as (hole & E2 & _ & B2).
  destruct (C113_weights_pf u F d norm c l st v Up HF HN Hd Hlt D L NZ) as (up & E3 & _ & B3).
  exists down, hole, up. split.
  { unfold get_spins_probabilitites_lattice_fl. cbn [mapM]. change (spin_code Down) with (-1) in E1. change (spin_code Hole) with 0 in E2. change (spin_code Up) with 1 in E3.
    rewrite E1, E2, E3. reflexivity. }
  intros e x Hx at_site. specialize (B1 x Hx). specialize (B2 x Hx). specialize (B3 x Hx). cbv zeta in B1, B2, B3. fold e in B1, B2, B3. fold (at_site down) in B1. fold (at_site hole) in B2. fold (at_site up) in B3.
  pose proof (inner_strict v NZ) as PI.
  assert (P : forall p, (0 <= weight st v p x / inner v v)%Qc) by (intros p; apply div_nonneg; [apply weight_nonneg | exact PI]).
  split.
  - assert (W : (weight st v Hole x / inner v v + weight st v Down x / inner v v + weight st v Up x / inner v v = 1)%Qc).
    { transitivity ((weight st v Hole x + weight st v Down x + weight st v Up x) / inner v v)%Qc; [unfold Qcdiv; ring|]. rewrite weight_sum. field. exact NZ. }
    set (a := (weight st v Hole x / inner v v)%Qc) in *. set (b := (weight st v Down x / inner v v)%Qc) in *. set (q := (weight st v Up x / inner v v)%Qc) in *.
    replace (at_site down + at_site hole + at_site up - 1)%Qc with ((at_site down - b) + (at_site hole - a) + (at_site up - q))%Qc by (rewrite <- W; ring).
    eapply Qcle_trans; [apply magnitude_add|]. pose proof (magnitude_add (at_site down - b) (at_site hole - a)) as A.
    assert (S : (e * b + e * a + e * q = e)%Qc) by (transitivity (e * (a + b + q))%Qc; [ring | rewrite W; ring]). apply Qcle_trans with (e * b + e * a + e * q)%Qc; [|rewrite S; apply Qcle_refl]. clear - A B1 B2 B3.
    set (m1 := magnitude (at_site down - b + (at_site hole - a))) in *. set (m2 := magnitude (at_site down - b)) in *. set (m3 := magnitude (at_site hole - a)) in *. set (m4 := magnitude (at_site up - q)) in *. clearbody m1 m2 m3 m4. qc.
  - assert (K : forall y w, (0 <= w)%Qc -> (magnitude (y - w) <= e * w)%Qc -> (w = 0%Qc -> y = 0%Qc) /\ ((e <= 1)%Qc -> (0 <= y)%Qc)).
    { clear. intros y w Hw H. split.
      - intros ->. rewrite Qcmult_0_r in H. pose proof (proj2 (magnitude_le _ _) H) as [H1 H2]. apply Qcle_antisym; clear - H1 H2; qc.
      - intros He. pose proof (proj2 (magnitude_le _ _) H) as [H1 _]. assert (e * w <= 1 * w)%Qc by (now apply Qcmult_le_compat_r). clear - H1 H0. qc. }
    assert (Z : forall p, weight st v p x = 0%Qc -> (weight st v p x / inner v v)%Qc = 0%Qc) by (intros p ->; unfold Qcdiv; ring).
    intros p pr [[= <- <-]|[[= <- <-]|[[= <- <-]|[]]]]; [destruct (K _ _ (P Down) B1) as [K1 K2] | destruct (K _ _ (P Hole) B2) as [K1 K2] | destruct (K _ _ (P Up) B3) as [K1 K2]]; (split; [intros Q; now apply K1, Z | exact K2]).
Qed.

Lemma C113_rectangle_pf : forall u F d norm c l st v p, rounds u F -> norm_within d norm v -> (0 <= d)%Qc -> (u + d + u * d < 1)%Qc ->
  listed (nsites c) (nholes c) (nbeta c) l st -> length v = length l -> inner v v <> 0%Qc ->
  lattice_type c = Periodic -> 0 <= nbh c * nblocs_side c -> 0 <= nbv c * nblocs_side c -> nsites c = (nbh c * nblocs_side c) * (nbv c * nblocs_side c) ->
  exists rows, get_probability_spin_rectangular_lattice_fl F norm (mkBasis c l) v (spin_code p) = Ok rows /\ length rows = Z.to_nat (nbv c * nblocs_side c) /\
    (forall r, In r rows -> length r = Z.to_nat (nbh c * nblocs_side c)) /\
    forall x y, 0 <= x < nbh c * nblocs_side c -> 0 <= y < nbv c * nblocs_side c ->
      let exact := (weight st v p (site (nbh c * nblocs_side c) (x, y)) / inner v v / inner v v)%Qc in
      (magnitude (nth (Z.to_nat x) (nth (Z.to_nat (nbv c * nblocs_side c - 1 - y)) rows []) 0 - exact) <= quotient_error u d (quotient_error u d (growth u (1 + zlen l))) * exact)%Qc.
Proof.
  intros u F d norm c l st v p HF HN Hd Hlt D L NZ T Hw Hh Hn. destruct (C113_weights_pf u F d norm c l st v p HF HN Hd Hlt D L NZ) as (pr & E & Lp & B).
  set (w := nbh c * nblocs_side c) in *. set (h := nbv c * nblocs_side c) in *. set (e := quotient_error u d (growth u (1 + zlen l))) in *.
  set (g := fun r x => got (fdiv_fl F (nth (Z.to_nat ((h - 1 - r) * w + x)) pr 0%Qc) (fl F (norm v * norm v))%Qc)).
  assert (PI := inner_strict v NZ).
  assert (G : forall r x, 0 <= r < h -> 0 <= x < w -> fdiv_fl F (nth (Z.to_nat ((h - 1 - r) * w + x)) pr 0%Qc) (fl F (norm v * norm v))%Qc = Ok (g r x) /\
    let q := (weight st v p ((h - 1 - r) * w + x) / inner v v / inner v v)%Qc in (magnitude (g r x - q) <= quotient_error u d e * q)%Qc).
  { intros r x Hr Hx. assert (Hs : 0 <= (h - 1 - r) * w + x < nsites c) by (clearbody w h; nia). specialize (B _ Hs). cbv zeta in B.
    set (q0 := (weight st v p ((h - 1 - r) * w + x) / inner v v)%Qc) in *. assert (Q0 : (0 <= q0)%Qc) by (apply div_nonneg; [apply weight_nonneg | exact PI]).
    assert (X : (q0 / inner v v * inner v v = q0)%Qc) by (field; exact NZ).
    destruct (quotient_relative u F d norm v HF HN Hd Hlt NZ e (q0 / inner v v)%Qc (nth (Z.to_nat ((h - 1 - r) * w + x)) pr 0%Qc)) as (y & E2 & B2).
    - now apply div_nonneg.
    - rewrite <- Qcmult_assoc, X. exact B.
    - unfold g. rewrite E2. cbn [got]. split; [reflexivity | exact B2]. }
  exists (map (fun r => map (g r) (zrange 0 w)) (zrange 0 h)). split; [|split; [|split]].
  - unfold get_probability_spin_rectangular_lattice_fl. rewrite bad_code. cbn [b_conf]. rewrite T.
    replace (nblocs_side c * nbv c) with h by (unfold h; ring). replace (nblocs_side c * nbh c) with w by (unfold w; ring).
    apply mapM_ok. intros r Hr. apply in_zrange in Hr. apply mapM_ok. intros x Hx. apply in_zrange in Hx. rewrite E. cbn [bind].
    replace ((h - 1 - r) * nblocs_side c * nbh c + x) with ((h - 1 - r) * w + x) by (unfold w; ring).
    rewrite (py_get_nth _ pr _ (nth (Z.to_nat ((h - 1 - r) * w + x)) pr 0%Qc)).
    + cbn [bind]. exact (proj1 (G r x Hr Hx)).
    + clearbody w h. nia.
    + apply nth_error_nth'. rewrite Lp. clear - Hx Hr Hn. clearbody w h. nia.
  - rewrite map_length, zrange_length. f_equal. lia.
  - intros r Hr. apply in_map_iff in Hr. destruct Hr as (q & <- & _). rewrite map_length, zrange_length. f_equal. lia.
  - intros x y Hx Hy. cbv zeta.
    assert (Q1 : nth_error (map (fun r => map (g r) (zrange 0 w)) (zrange 0 h)) (Z.to_nat (h - 1 - y)) = Some (map (g (h - 1 - y)) (zrange 0 w))) by (rewrite nth_error_map, zrange_nth by lia; reflexivity).
    rewrite (nth_error_nth _ _ _ Q1).
    assert (Q2 : nth_error (map (g (h - 1 - y)) (zrange 0 w)) (Z.to_nat x) = Some (g (h - 1 - y) x)) by (rewrite nth_error_map, zrange_nth by lia; reflexivity).
    rewrite (nth_error_nth _ _ _ Q2). destruct (G (h - 1 - y) x ltac:(lia) Hx) as [_ B2]. cbv zeta in B2. replace ((h - 1 - (h - 1 - y)) * w + x) with (site w (x, y)) in B2 by (unfold site; cbn [fst snd]; ring). exact B2.
Qed.

Lemma C113_exact_pf : forall F norm c l st v p, exact_floats F -> (norm v * norm v = inner v v)%Qc -> listed (nsites c) (nholes c) (nbeta c) l st -> length v = length l -> inner v v <> 0%Qc ->
  get_probability_spin_lattice_fl F norm (mkBasis c l) v (spin_code p) false = get_probability_spin_lattice (mkBasis c l) v (spin_code p) false.
Proof.
  intros F norm c l st v p [HX HP] HN D L NZ. assert (HF : rounds 0 F).
  { split; [apply Qcle_refl|]. split; [|exact HP]. intros x. rewrite HX. replace (x - x)%Qc with 0%Qc by ring. rewrite Qcmult_0_l. apply Qcle_refl. }
  assert (HN' : norm_within 0 norm v) by (unfold norm_within; rewrite HN; replace (inner v v - inner v v)%Qc with 0%Qc by ring; rewrite Qcmult_0_l; apply Qcle_refl).
  destruct (C113_weights_pf 0 F 0 norm c l st v p HF HN' (Qcle_refl _) ltac:(reflexivity) D L NZ) as (pr & E & Lp & B).
  destruct (C42_weights_pf c l st v p D L NZ) as (pr' & E' & Lp' & B'). rewrite E, E'. f_equal. apply (nth_ext _ _ 0%Qc 0%Qc); [congruence|]. intros k Hk. rewrite Lp in Hk.
  assert (Hx : 0 <= Z.of_nat k < nsites c) by lia. specialize (B _ Hx). specialize (B' _ Hx). cbv zeta in B. rewrite Nat2Z.id in *. rewrite (nth_error_nth _ _ _ B').
  assert (Z : quotient_error 0 0 (growth 0 (1 + zlen l)) = 0%Qc).
  { assert (Z : growth 0 (1 + zlen l) = 0%Qc) by (unfold growth; generalize (Z.to_nat (1 + zlen l)); intros m; induction m as [|m IH]; cbn [Qcpower]; [ring|]; transitivity ((1 + 0) ^ m - 1)%Qc; [ring | exact IH]).
    rewrite Z. reflexivity. }
  rewrite Z, Qcmult_0_l in B. set (a := nth k pr 0%Qc) in *. set (b := (weight st v p (Z.of_nat k) / inner v v)%Qc) in *. pose proof (proj2 (magnitude_le 0 (a - b)) B) as [H1 H2]. apply Qcle_antisym; clear - H1 H2; qc.
Qed.

Lemma C113_failures_pf : forall F norm b v spin r,
  (spin <> -1 -> spin <> 0 -> spin <> 1 -> get_probability_spin_lattice_fl F norm b v spin r = Err ValueError /\ get_probability_spin_rectangular_lattice_fl F norm b v spin = Err ValueError) /\
  (lattice_type (b_conf b) <> Periodic -> get_probability_spin_rectangular_lattice_fl F norm b v spin = Err ValueError) /\
  get_probability_spin_lattice_fl F norm b v spin true = get_probability_spin_lattice_fl F norm b v (- spin) false.
Proof.
  intros F norm b v spin r. unfold get_probability_spin_lattice_fl, get_probability_spin_rectangular_lattice_fl, bad_spin. split; [|split].
  - intros H1 H2 H3. assert (M : mem spin [-1; 0; 1] = false) by (unfold mem; cbn [existsb]; rewrite !orb_false_iff, !Z.eqb_neq; intuition congruence). rewrite M. split; reflexivity.
  - intros H. destruct (negb _); [reflexivity|]. destruct (lattice_type (b_conf b)); congruence.
  - assert (M : mem (- spin) [-1; 0; 1] = mem spin [-1; 0; 1]).
    { apply eq_true_iff_eq. rewrite !mem_In. cbn. lia. }
    rewrite M. reflexivity.
Qed.

Lemma C113_zero_vector_pf : forall u F norm c l st v p, rounds u F -> norm v = 0%Qc -> listed (nsites c) (nholes c) (nbeta c) l st -> length v = length l -> 0 < nsites c ->
  get_probability_spin_lattice_fl F norm (mkBasis c l) v (spin_code p) false = Err ZeroDivisionError.
Proof.
  intros u F norm c l st v p HF HN D L Hs. unfold get_probability_spin_lattice_fl. rewrite bad_code. cbn [b_conf]. rewrite HN.
  assert (Z : fl F (0 * 0)%Qc = 0%Qc).
  { destruct HF as (_ & R & _). specialize (R (0 * 0)%Qc). replace (0 * 0)%Qc with 0%Qc in * by ring. change (magnitude 0) with 0%Qc in R. rewrite Qcmult_0_r in R. pose proof (proj2 (magnitude_le _ _) R) as [H1 H2]. apply Qcle_antisym; clear - H1 H2; qc. }
  rewrite Z, zrange_cons by lia. cbn [mapM]. destruct (site_near u F HF c l st v p 0 D L ltac:(lia)) as (q & E & _). rewrite E. reflexivity.
Qed.

(** ** two equal amplitudes whose probabilities exceed one half *)
Definition pair_conf : configuration := ex_rect 2 1 1 0 1.
Definition pair_basis : list (list Z) := match construct_basis pair_conf with Ok b => determinants b | Err _ => [] end.
Definition pair_vector : list Qc := repeat (binary 53 (qfrac 9 10)) 2.
Definition pair_norm (_ : list Qc) : Qc := Q2Qc (5732146505273195 # 4503599627370496).
Definition above_half : Qc := Q2Qc (4503599627370497 # 9007199254740992).
Lemma ok_list_q : forall r l, match r with Ok y => (length y =? length l)%nat && forallb (fun q => Qeq_bool (this (fst q)) (this (snd q))) (combine y l) | Err _ => false end = true -> r = Ok l.
Proof.
  intros [y|e] l H; [|discriminate]. f_equal. apply andb_true_iff in H. destruct H as [L H]. apply Nat.eqb_eq in L. revert y L H.
  induction l as [|a l IH]; intros [|b y] L H; try discriminate; [reflexivity|]. cbn in H. apply andb_true_iff in H. destruct H as [H1 H2]. f_equal; [|apply IH; [now inversion L | exact H2]].
  apply Qc_is_canon. now apply Qeq_bool_iff.
Qed.
Lemma pair_values : get_probability_spin_lattice_fl binary64 pair_norm (mkBasis pair_conf pair_basis) pair_vector (-1) false = Ok [above_half; above_half] /\
  get_probability_spin_lattice_fl binary64 pair_norm (mkBasis pair_conf pair_basis) pair_vector 0 false = Ok [0%Qc; 0%Qc] /\
  get_probability_spin_lattice_fl binary64 pair_norm (mkBasis pair_conf pair_basis) pair_vector 1 false = Ok [above_half; above_half].
Proof. split; [|split]; apply ok_list_q; vm_compute; reflexivity. Qed.
Lemma C113_total_refuted_pf : exists c l v norm p, proper c /\ construct_basis c = Ok (mkBasis c l) /\ length v = length l /\
  (forall x, In x v -> has_bits 53 x) /\ norm_within (1 / qz (2 ^ 52)) norm v /\
  get_spins_probabilitites_lattice_fl binary64 norm (mkBasis c l) v false = Ok [(-1, [p; p]); (0, [0%Qc; 0%Qc]); (1, [p; p])] /\ (1 < p + 0 + p)%Qc.
Proof.
  exists pair_conf, pair_basis, pair_vector, pair_norm, above_half. split; [vm_compute; intuition congruence|]. split; [vm_compute; reflexivity|]. split; [reflexivity|].
  split; [|split; [vm_compute; discriminate|]].
  { intros x I. apply repeat_spec in I. subst x. exists 8106479329266893, (-53). split; [vm_compute; reflexivity|]. apply Qc_is_canon. vm_compute. reflexivity. }
  split; [|vm_compute; reflexivity]. destruct pair_values as (E1 & E2 & E3). unfold get_spins_probabilitites_lattice_fl. cbn [mapM]. rewrite E1, E2, E3. reflexivity.
Qed.
Definition pair_states (k : nat) : occupation := fun x => if Z.of_nat k =? x then Down else Up.
Lemma pair_listed : listed (nsites pair_conf) (nholes pair_conf) (nbeta pair_conf) pair_basis pair_states.
Proof.
  assert (B : pair_basis = [[0; 1]; [1; 0]]) by (vm_compute; reflexivity). rewrite B.
  intros [|[|k]] d Hd; cbn in Hd; [| |destruct k; discriminate Hd]; injection Hd as <-; apply describesb_ok; vm_compute; reflexivity.
Qed.
