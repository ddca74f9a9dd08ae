(** Pairs of neighbouring spins of total spin zero, beside spins that all point the same way. *)
From Coq Require Import ZArith List Bool QArith Qcanon Lia Permutation.
From Verif Require Import PyBase PyFacts Interact Spec SpecOps SpecTJ SpecSpin SignDefs PBasis PSpin PSign PQc PWave.
Import ListNotations.
Open Scope Z_scope.

Definition partner (x : Z) : Z := if Z.even x then x + 1 else x - 1.
Lemma partner_even : forall x, Z.even (partner x) = negb (Z.even x).
Proof. intros x. unfold partner. destruct (Z.even x) eqn:Q; [rewrite Z.even_add, Q | rewrite Z.even_sub, Q]; reflexivity. Qed.
Lemma partner_twice : forall x, partner (partner x) = x.
Proof. intros x. unfold partner at 1. rewrite partner_even. unfold partner. destruct (Z.even x); cbn [negb]; lia. Qed.
Lemma partner_range : forall b x, 0 <= x < 2 * b -> 0 <= partner x < 2 * b.
Proof.
  intros b x H. unfold partner. destruct (Z.even x) eqn:Q.
  - apply Z.even_spec in Q. destruct Q as (k & ->). lia.
  - assert (O : Z.odd x = true) by (rewrite <- Z.negb_even, Q; reflexivity). apply Z.odd_spec in O. destruct O as (k & ->). lia.
Qed.
Lemma partner_neq : forall x, partner x <> x.
Proof. intros x. unfold partner. destruct (Z.even x); lia. Qed.

Section Pairs.
Variables n b : Z.
Variable p : Z -> Z * Z.
Variables q q' : particle.
Hypothesis Hb : 0 <= 2 * b <= n.
Hypothesis Hq : (q = Up /\ q' = Down) \/ (q = Down /\ q' = Up).
Hypothesis colours : forall x, 0 <= x < 2 * b -> black (p (partner x)) = negb (black (p x)).
Notation ds := (down_sign n p).

Definition fits (s : occupation) (x : Z) : bool := if x <? 2 * b then oppositeb (s x) (s (partner x)) else samep (s x) q.
Definition goodb (s : occupation) : bool := forallb (fits s) (sites n).
Definition phi : wave := fun s => only (goodb s) (ds s).

Lemma opp_sym : forall x y, oppositeb x y = oppositeb y x.
Proof. now intros [] []. Qed.
Lemma good_at : forall s x, goodb s = true -> 0 <= x < n -> fits s x = true.
Proof. intros s x H Hx. unfold goodb in H. rewrite forallb_forall in H. apply H, in_sites, Hx. Qed.
Lemma forallb_eq : forall f g, (forall x, In x (sites n) -> f x = g x) -> forallb f (sites n) = forallb g (sites n).
Proof. intros f g H. induction (sites n) as [|a l IH]; [reflexivity|]. cbn [forallb]. rewrite (H a), IH by (intros; try apply H; cbn; auto). reflexivity. Qed.

Lemma good_same : forall s t, same_state n s t -> goodb s = goodb t.
Proof.
  intros s t H. apply forallb_eq. intros x Ix. apply in_sites in Ix. unfold fits. destruct (Z.ltb_spec x (2 * b)); [|now rewrite H].
  rewrite H by assumption. rewrite H; [reflexivity|]. pose proof (partner_range b x ltac:(lia)). lia.
Qed.
Lemma phi_on : on_lattice n phi.
Proof. intros s t H. unfold phi. rewrite (good_same s t H). f_equal. now apply down_same. Qed.

Lemma good_swap : forall s i, 0 <= i < 2 * b -> goodb (swap_state i (partner i) s) = goodb s.
Proof.
  intros s i Hi. pose proof (partner_range b i Hi) as Hj. pose proof (partner_neq i) as N. pose proof (partner_twice i) as T. set (j := partner i) in *.
  apply forallb_eq. intros x Ix. unfold fits. destruct (Z.ltb_spec x (2 * b)) as [G|G]; [|unfold swap_state; destruct (Z.eqb_spec x i); [lia|]; destruct (Z.eqb_spec x j); [lia | reflexivity]].
  destruct (Z.eq_dec x i) as [->|Ni].
  { fold j. unfold swap_state. rewrite Z.eqb_refl. rewrite (proj2 (Z.eqb_neq _ _) N), Z.eqb_refl. apply opp_sym. }
  destruct (Z.eq_dec x j) as [->|Nj].
  { rewrite T. unfold swap_state. rewrite Z.eqb_refl. rewrite (proj2 (Z.eqb_neq _ _) N), Z.eqb_refl. apply opp_sym. }
  assert (partner x <> i) by (intros Q; apply Nj; unfold j; rewrite <- Q; symmetry; apply partner_twice).
  assert (partner x <> j) by (intros Q; apply Ni; rewrite <- T, <- Q; symmetry; apply partner_twice).
  unfold swap_state. now rewrite !(proj2 (Z.eqb_neq _ _)) by assumption.
Qed.
Lemma phi_swap : forall s i, 0 <= i < 2 * b -> phi (swap_state i (partner i) s) = (- phi s)%Qc.
Proof.
  intros s i Hi. pose proof (partner_range b i Hi) as Hj. unfold phi. rewrite good_swap by assumption. destruct (goodb s) eqn:G; cbn [only]; [|ring].
  pose proof (good_at s i G ltac:(lia)) as F. unfold fits in F. rewrite (proj2 (Z.ltb_lt _ _)) in F by lia.
  pose proof (down_swap n p s i (partner i) ltac:(lia) ltac:(lia) (fun H => partner_neq i (eq_sym H)) F) as D. rewrite (colours i Hi), minus_other in D.
  transitivity ((ds s * ds s) * ds (swap_state i (partner i) s))%Qc; [unfold down_sign at 2 3; rewrite sign_square; ring|].
  transitivity (ds s * (ds s * ds (swap_state i (partner i) s)))%Qc; [ring | rewrite D; ring].
Qed.
Lemma pair_zero : forall t i, 0 <= i < 2 * b -> t (partner i) <> q -> phi (put i q' t) = 0%Qc.
Proof.
  intros t i Hi N. unfold phi. destruct (goodb _) eqn:G; [|reflexivity]. exfalso. apply good_at with (x := i) in G; [|lia]. unfold fits in G.
  rewrite (proj2 (Z.ltb_lt _ _)) in G by lia. unfold put in G. rewrite Z.eqb_refl, (proj2 (Z.eqb_neq _ _) (partner_neq i)) in G.
  destruct Hq as [[-> ->]|[-> ->]]; destruct (t (partner i)); try discriminate G; congruence.
Qed.

Lemma phi_sum : forall t, sum_sites n (fun i => only (samep (t i) q) (phi (put i q' t))) = 0%Qc.
Proof.
  intros t. set (F := fun i => only (samep (t i) q) (phi (put i q' t))). set (sg := fun x => if x <? 2 * b then partner x else x).
  assert (Z0 : forall i, 0 <= i < n -> 2 * b <= i -> F i = 0%Qc).
  { intros i Hi G. unfold F, phi. destruct (goodb _) eqn:Q; [|now destruct (samep _ _)]. exfalso. apply good_at with (x := i) in Q; [|assumption]. unfold fits in Q.
    rewrite (proj2 (Z.ltb_ge _ _) G) in Q. unfold put in Q. rewrite Z.eqb_refl in Q. destruct Hq as [[-> ->]|[-> ->]]; discriminate Q. }
  assert (O : forall i, 0 <= i < n -> F (sg i) = (- F i)%Qc).
  { intros i Hi. unfold sg. destruct (Z.ltb_spec i (2 * b)) as [G|G]; [|rewrite Z0 by assumption; ring].
    assert (Hi' : 0 <= i < 2 * b) by lia. pose proof (partner_range b i Hi') as Hj. unfold F.
    destruct (samep (t i) q) eqn:Qi, (samep (t (partner i)) q) eqn:Qj; cbn [only].
    - apply samep_iff in Qi, Qj. rewrite <- (phi_swap _ i) by assumption. apply phi_on. intros x Hx. unfold put, swap_state.
      destruct (Z.eqb_spec x i) as [->|]; [rewrite (proj2 (Z.eqb_neq _ _) (partner_neq i)), (proj2 (Z.eqb_neq i (partner i)) (fun H => partner_neq i (eq_sym H))); congruence|].
      destruct (Z.eqb_spec x (partner i)) as [->|]; [now rewrite Z.eqb_refl | reflexivity].
    - rewrite (pair_zero t i Hi'); [ring|]. intros Q. apply samep_iff in Q. congruence.
    - rewrite (pair_zero t (partner i) Hj); [ring|]. rewrite partner_twice. intros Q. apply samep_iff in Q. congruence.
    - ring. }
  assert (P : Permutation (map sg (sites n)) (sites n)).
  { assert (R : forall x, 0 <= x < n -> 0 <= sg x < n) by (intros x Hx; unfold sg; destruct (Z.ltb_spec x (2 * b)); [pose proof (partner_range b x ltac:(lia)); lia | assumption]).
    assert (T : forall x, 0 <= x < n -> sg (sg x) = x).
    { intros x Hx. unfold sg at 2. destruct (Z.ltb_spec x (2 * b)) as [G|G]; unfold sg; [|now rewrite (proj2 (Z.ltb_ge _ _) G)].
      pose proof (partner_range b x ltac:(lia)). rewrite (proj2 (Z.ltb_lt _ _)) by lia. apply partner_twice. }
    apply NoDup_Permutation.
    - apply NoDup_map_inv with (f := sg). rewrite map_map. rewrite (map_ext_in _ (fun x => x)) by (intros x Ix; apply T, in_sites, Ix). rewrite map_id. apply sites_NoDup.
    - apply sites_NoDup.
    - intros x. rewrite in_map_iff, in_sites. split; [intros (y & <- & Iy); apply R, in_sites, Iy|]. intros Hx. exists (sg x). split; [now apply T | apply in_sites, R, Hx]. }
  assert (Q : sum_sites n F = (- sum_sites n F)%Qc).
  { unfold sum_sites at 1. rewrite <- (qsum_perm _ F _ _ P), qsum_map. unfold sum_sites. rewrite <- qsum_opp. apply qsum_ext. intros x Ix. apply O, in_sites, Ix. }
  assert (W : ((1 + 1) * sum_sites n F)%Qc = 0%Qc) by (transitivity (sum_sites n F + sum_sites n F)%Qc; [ring | rewrite Q at 1; ring]).
  apply Qcmult_integral in W. destruct W as [W|W]; [discriminate W | exact W].
Qed.

(** one of the states *)
Definition neel : occupation := fun x => if x <? 2 * b then (if Z.even x then Up else Down) else q.
Lemma neel_good : goodb neel = true.
Proof.
  unfold goodb. apply forallb_forall. intros x Ix. apply in_sites in Ix. unfold fits, neel. destruct (Z.ltb_spec x (2 * b)) as [G|G].
  - pose proof (partner_range b x ltac:(lia)). rewrite (proj2 (Z.ltb_lt _ _)) by lia. rewrite partner_even. now destruct (Z.even x).
  - destruct Hq as [[-> _]|[-> _]]; reflexivity.
Qed.
Lemma neel_sector : in_sector n 0 (match q with Down => n - b | _ => b end) neel.
Proof.
  split.
  - assert (Q : sites_of n neel Hole = []).
    { destruct (sites_of n neel Hole) as [|a l] eqn:Q; [reflexivity|]. assert (I : In a (sites_of n neel Hole)) by (rewrite Q; now left). apply in_sites_of in I.
      destruct I as [_ I]. unfold neel in I. destruct (a <? 2 * b), (Z.even a), Hq as [[-> _]|[-> _]]; discriminate I. }
    now rewrite Q.
  - set (odds := map (fun k => 2 * k + 1) (zrange 0 b)).
    assert (NO : NoDup odds) by (apply FinFun.Injective_map_NoDup; [intros x y H; lia | apply zrange_NoDup]).
    assert (IO : forall x, In x odds <-> 0 <= x < 2 * b /\ Z.even x = false).
    { intros x. unfold odds. rewrite in_map_iff. split.
      - intros (k & <- & I). apply in_zrange in I. split; [lia|]. rewrite Z.even_add, Z.even_mul. reflexivity.
      - intros [Hx Ev]. assert (O : Z.odd x = true) by (rewrite <- Z.negb_even, Ev; reflexivity). apply Z.odd_spec in O. destruct O as (k & ->). exists k. split; [reflexivity | apply in_zrange; lia]. }
    assert (LO : zlen odds = b) by (unfold odds, zlen; rewrite map_length; change (zlen (zrange 0 b) = b); rewrite zlen_zrange; lia).
    destruct Hq as [[Q _]|[Q _]]; rewrite Q.
    + rewrite <- LO at 1. unfold zlen. f_equal. apply Permutation_length, NoDup_Permutation; [apply sites_of_NoDup | exact NO|].
      intros x. rewrite IO, in_sites_of. unfold neel. rewrite Q. destruct (Z.ltb_spec x (2 * b)); [destruct (Z.even x) eqn:E | split; [intros [? H']; discriminate H' | intros [? _]; lia]]; split; intros [? H']; try discriminate H'; split; auto; lia.
    + assert (LA : zlen (odds ++ zrange (2 * b) n) = n - b) by (rewrite zlen_app, LO, zlen_zrange; lia).
      rewrite <- LA at 1. unfold zlen. f_equal. apply Permutation_length, NoDup_Permutation; [apply sites_of_NoDup | |].
      * apply NoDup_app'; [exact NO | apply zrange_NoDup|]. intros x I1 I2. apply IO in I1. apply in_zrange in I2. lia.
      * intros x. rewrite in_app_iff, IO, in_sites_of, in_zrange. unfold neel. rewrite Q. destruct (Z.ltb_spec x (2 * b)); [destruct (Z.even x) eqn:E|].
        -- split; [intros [_ H']; discriminate H' | intros [[_ H']|H']; [discriminate H' | lia]].
        -- split; [intros [? _]; left; split; [lia | reflexivity] | intros [[? _]|?]; split; (lia || reflexivity)].
        -- split; [intros [? _]; right; lia | intros [[? _]|?]; split; (lia || reflexivity)].
Qed.
End Pairs.

(** consecutive sites have opposite colours *)
Lemma point_colours : forall w b x, 1 <= w -> 0 <= x < 2 * b -> black (point w (partner x)) = negb (black (point w x)).
Proof.
  intros w b x Hw Hx. assert (G : forall k, 0 <= k -> black (point w (2 * k + 1)) = negb (black (point w (2 * k)))).
  { intros k Hk. unfold black, point. cbn [fst snd]. destruct (Z.even w) eqn:E.
    - apply Z.even_spec in E. destruct E as (v & ->). pose proof (Z.div_mod (2 * k) (2 * v) ltac:(lia)) as D. pose proof (Z.mod_pos_bound (2 * k) (2 * v) ltac:(lia)) as M.
      set (r := (2 * k) mod (2 * v)) in *. set (y := 2 * k / (2 * v)) in *.
      rewrite <- (Z.mod_unique_pos (2 * k + 1) (2 * v) y (r + 1)) by lia. rewrite <- (Z.div_unique_pos (2 * k + 1) (2 * v) y (r + 1)) by lia.
      replace (r + 1 + y) with (Z.succ (r + y)) by lia. rewrite Z.odd_succ, <- Z.negb_odd. reflexivity.
    - assert (O : Z.odd w = true) by (rewrite <- Z.negb_even, E; reflexivity).
      assert (C : forall z, Z.odd (z mod w + z / w) = Z.odd z).
      { intros z. pose proof (Z.div_mod z w ltac:(lia)) as D. rewrite D at 3. rewrite !Z.odd_add, Z.odd_mul, O. cbn [andb]. apply xorb_comm. }
      rewrite !C. replace (2 * k + 1) with (Z.succ (2 * k)) by lia. rewrite Z.odd_succ, <- Z.negb_odd. reflexivity. }
  unfold partner. destruct (Z.even x) eqn:Q.
  - apply Z.even_spec in Q. destruct Q as (k & ->). apply G. lia.
  - assert (O : Z.odd x = true) by (rewrite <- Z.negb_even, Q; reflexivity). apply Z.odd_spec in O. destruct O as (k & ->).
    replace (2 * k + 1 - 1) with (2 * k) by lia. rewrite G by lia. now rewrite negb_involutive.
Qed.
