(** Final lemmas for C111, real amplitudes. *)
From Coq Require Import ZArith List Bool Lia Permutation QArith Qcanon Reals Qreals Lra.
From Verif Require Import PyBase PyFacts Lattice Base Interact Ham Spin Round Spec SpecOps SpecTJ SpinDefs Geometry HamSpec SignDefs EnergyDefs RangeDefs RoundDefs RealSum RealDefs DrawnDefs.
From Verif Require Import PSpin PQc PHam FHam PPerron PRange FRange PReal PRealQ FReal PRound PRound2 FRound FRound2.
Import ListNotations.
Open Scope R_scope.

Section Schur.
Variables (n : nat) (A A' b : nat -> nat -> R) (d : R).
Hypothesis Hb : forall i j, (i < n)%nat -> (j < n)%nat -> b i j = b j i.
Hypothesis Hr : forall i, (i < n)%nat -> rsum n (fun j => b i j) <= d.
Hypothesis HA : forall i j, (i < n)%nat -> (j < n)%nat -> Rabs (A' i j - A i j) <= b i j.

Lemma b_nonneg : forall i j, (i < n)%nat -> (j < n)%nat -> 0 <= b i j.
Proof. intros i j Hi Hj. eapply Rle_trans; [apply Rabs_pos | now apply HA]. Qed.
Lemma weighted : forall i u, (i < n)%nat -> rsum n (fun j => b i j * u j) * rsum n (fun j => b i j * u j) <= rsum n (fun j => b i j) * rsum n (fun j => b i j * (u j * u j)).
Proof.
  intros i u Hi. assert (G : forall k, (k <= n)%nat -> 0 <= rsum k (fun j => b i j) /\ 0 <= rsum k (fun j => b i j * (u j * u j)) /\
    rsum k (fun j => b i j * u j) * rsum k (fun j => b i j * u j) <= rsum k (fun j => b i j) * rsum k (fun j => b i j * (u j * u j))); [|now apply (G n)].
  induction k as [|k IH]; intros Hk; [cbn; lra|]. destruct (IH ltac:(lia)) as (P & Q & R). cbn [rsum].
  pose proof (b_nonneg i k Hi ltac:(lia)) as Bk. set (B := rsum k (fun j => b i j)) in *. set (X := rsum k (fun j => b i j * u j)) in *. set (Y := rsum k (fun j => b i j * (u j * u j))) in *. set (y := u k). set (c := b i k) in *.
  assert (Sy : 0 <= y * y) by apply Rle_0_sqr. pose proof (Rmult_le_pos _ _ Bk Sy) as Sc. split; [lra|]. split; [lra|].
  assert (T : 2 * (X * y) <= B * (y * y) + Y).
  { destruct (Rle_lt_or_eq_dec 0 B P) as [PB|ZB].
    - assert (B * (2 * (X * y)) <= B * (B * (y * y) + Y)) by (pose proof (Rle_0_sqr (B * y - X)) as Z; unfold Rsqr in Z; lra). apply Rmult_le_reg_l with B; assumption.
    - rewrite <- ZB in *. assert (X = 0) by nra. nra. }
  pose proof (Rmult_le_compat_l c _ _ Bk T). lra.
Qed.
Lemma moved : forall u, dot n (fun i => actR n A' u i - actR n A u i) (fun i => actR n A' u i - actR n A u i) <= d * d * dot n u u.
Proof.
  intros u. unfold dot. destruct (Nat.eq_dec n 0) as [->|Nn]; [cbn; lra|].
  assert (Pd : 0 <= d). { eapply Rle_trans; [apply (rsum_nonneg n (fun j => b 0 j)); intros j Hj; apply b_nonneg; lia | apply Hr; lia]. }
  apply Rle_trans with (rsum n (fun i => d * rsum n (fun j => b i j * (u j * u j)))).
  - apply rsum_le. intros i Hi. unfold actR. rewrite <- rsum_sub. set (x := rsum n _). assert (X : Rabs x <= rsum n (fun j => b i j * Rabs (u j))).
    { unfold x. eapply Rle_trans; [apply rsum_abs|]. apply rsum_le. intros j Hj. replace (A' i j * u j - A i j * u j) with ((A' i j - A i j) * u j) by ring. rewrite Rabs_mult. apply Rmult_le_compat_r; [apply Rabs_pos | now apply HA]. }
    pose proof (weighted i (fun j => Rabs (u j)) Hi) as W. cbv beta in W. assert (Sq : forall y, Rabs y * Rabs y = y * y) by (intros y; rewrite <- Rabs_mult; apply Rabs_pos_eq; apply Rle_0_sqr).
    rewrite (rsum_ext n (fun j => b i j * (Rabs (u j) * Rabs (u j))) (fun j => b i j * (u j * u j))) in W by (intros; now rewrite Sq).
    rewrite <- (Sq x). pose proof (Rabs_pos x). assert (0 <= rsum n (fun j => b i j * (u j * u j))) by (apply rsum_nonneg; intros j Hj; apply Rmult_le_pos; [now apply b_nonneg | apply Rle_0_sqr]).
    pose proof (Hr i Hi). nra.
  - rewrite rsum_scale, rsum_exchange. rewrite Rmult_assoc. apply Rmult_le_compat_l; [exact Pd|]. rewrite <- rsum_scale. apply rsum_le. intros j Hj.
    rewrite (rsum_ext n _ (fun i => (u j * u j) * b j i)) by (intros i Hi; rewrite (Hb i j Hi Hj); ring). rewrite rsum_scale, Rmult_comm. apply Rmult_le_compat_r; [apply Rle_0_sqr | now apply Hr].
Qed.
Lemma moved_form : forall u, form n A' u <= form n A u + d * dot n u u.
Proof.
  intros u. assert (X : form n A' u - form n A u <= d * dot n u u); [|lra]. unfold form, dot. rewrite <- rsum_sub.
  assert (T : forall i, (i < n)%nat -> u i * actR n A' u i - u i * actR n A u i <= rsum n (fun j => / 2 * (b i j * (u i * u i)) + / 2 * (b i j * (u j * u j)))).
  { intros i Hi. rewrite <- Rmult_minus_distr_l. unfold actR. rewrite <- rsum_sub, <- rsum_scale. apply rsum_le. intros j Hj. replace (u i * (A' i j * u j - A i j * u j)) with ((A' i j - A i j) * (u i * u j)) by ring.
    eapply Rle_trans; [apply Rle_abs|]. rewrite Rabs_mult, Rabs_mult. pose proof (HA i j Hi Hj) as H1. pose proof (Rabs_pos (A' i j - A i j)) as H0. pose proof (b_nonneg i j Hi Hj) as H2.
    assert (Sq : forall y, y * y = Rabs y * Rabs y) by (intros y; rewrite <- Rabs_mult; symmetry; apply Rabs_pos_eq; apply Rle_0_sqr). rewrite (Sq (u i)), (Sq (u j)).
    pose proof (Rabs_pos (u i)) as H3. pose proof (Rabs_pos (u j)) as H4. set (p := Rabs (u i)) in *. set (q := Rabs (u j)) in *. pose proof (Rle_0_sqr (p - q)) as H5. unfold Rsqr in H5.
    apply Rle_trans with (b i j * (p * q)); [apply Rmult_le_compat_r; [nra | exact H1]|]. nra. }
  eapply Rle_trans; [apply rsum_le; exact T|].
  rewrite (rsum_ext n _ (fun i => rsum n (fun j => / 2 * (b i j * (u i * u i))) + rsum n (fun j => / 2 * (b i j * (u j * u j))))) by (intros; apply rsum_add). rewrite rsum_add.
  assert (Q1 : rsum n (fun i => rsum n (fun j => / 2 * (b i j * (u i * u i)))) <= / 2 * (d * rsum n (fun i => u i * u i))).
  { rewrite <- rsum_scale, <- rsum_scale. apply rsum_le. intros i Hi. rewrite rsum_scale. apply Rmult_le_compat_l; [lra|]. rewrite (rsum_ext n _ (fun j => (u i * u i) * b i j)) by (intros; ring). rewrite rsum_scale, Rmult_comm.
    apply Rmult_le_compat_r; [apply Rle_0_sqr | now apply Hr]. }
  assert (Q2 : rsum n (fun i => rsum n (fun j => / 2 * (b i j * (u j * u j)))) = rsum n (fun i => rsum n (fun j => / 2 * (b i j * (u i * u i))))).
  { rewrite rsum_exchange. apply rsum_ext. intros j Hj. apply rsum_ext. intros i Hi. now rewrite (Hb i j Hi Hj). }
  rewrite Q2. lra.
Qed.
End Schur.

Lemma real_magnitude : forall x, real (magnitude x) = Rabs (real x).
Proof.
  intros x. destruct (magnitude_cases x) as [[H ->]|[H ->]].
  - apply real_le in H. rewrite real_0 in H. now rewrite Rabs_pos_eq.
  - apply real_lt in H. rewrite real_0 in H. rewrite real_opp, Rabs_left by exact H. reflexivity.
Qed.

Section States.
Variables (u : Qc) (F : floats) (E : runtime) (c : configuration) (w : Z) (r : list Z) (K : interactions) (S : switches) (arg arg0 : restriction) (l l0 : list (list Z)) (m m0 : csr) (z : sizes).
Hypothesis HU : rounds u F.
Hypothesis HE : set_iter_ok E.
Hypothesis HF : filled c w r.
Hypothesis HA : assembled_fl F E c K S arg l m.
Hypothesis HA0 : assembled E c K S arg0 l0 m0.
Hypothesis HK : couplings_within z K.
Let G := growth u (roundings (nholes c) (grid_bonds w (nsites c / w))).
Let B := energy_bound z S (nholes c) (grid_bonds w (nsites c / w)).
Let b (i j : nat) : R := real (G * magnitude (size_at c w r K S i j)).

Lemma dims_nat : dimension m = length (dl c) /\ dimension m0 = length (dl c).
Proof. destruct (dims u F E c w r K S arg arg0 l l0 m m0 HU HE HF HA HA0) as (D & D0 & _). unfold dimension. rewrite D, D0. unfold zlen. rewrite Nat2Z.id. auto. Qed.
Lemma b_sym : forall i j, b i j = b j i.
Proof. intros i j. unfold b. now rewrite (size_at_sym c w r K S i j). Qed.
Lemma b_rows : forall i, (i < length (dl c))%nat -> rsum (length (dl c)) (fun j => b i j) <= real (G * B).
Proof.
  intros i Hi. unfold b. rewrite (rsum_ext _ _ (fun j => real G * real (magnitude (size_at c w r K S i j)))) by (intros; apply real_mul). rewrite rsum_scale, real_mul. apply Rmult_le_compat_l.
  - rewrite <- real_0. apply real_le. exact (growth_nonneg u F _ HU).
  - rewrite <- real_sum. apply real_le. exact (rows_size c w r K S z HF HK i Hi).
Qed.
Lemma b_near : forall i j, (i < length (dl c))%nat -> (j < length (dl c))%nat -> Rabs (element m i j - element m0 i j) <= b i j.
Proof.
  intros i j Hi Hj. destruct (near_at u F E c w r K S arg arg0 l l0 m m0 HU HE HF HA HA0 i j Hi Hj) as [N _]. unfold element, b. rewrite <- real_sub, <- real_magnitude. apply real_le. eapply Qcle_trans; [exact N|].
  rewrite !(Qcmult_comm _ (size_at _ _ _ _ _ _ _)), !(Qcmult_comm _ (magnitude (size_at _ _ _ _ _ _ _))). apply Qcmult_le_compat_r; [apply le_magnitude | exact (growth_nonneg u F _ HU)].
Qed.
Lemma m0_mirrored : mirrored m0.
Proof. apply (mirrored_filled E c w r K S arg0 l0 m0 HE HF HA0). Qed.

Lemma rounded_state : forall e v x y, all_states m0 e v -> energy_state m x y -> exists k, (k < dimension m0)%nat /\ Rabs (e k - x) <= real (G * B).
Proof.
  intros e v x y HS (Ny & Ey). destruct dims_nat as [D D0]. destruct (states_parts m0 e v HS) as (O & V & I). rewrite D0 in O, V, I |- *. rewrite D in Ny, Ey.
  pose proof (moved (length (dl c)) (element m0) (element m) b (real (G * B)) (fun i j _ _ => b_sym i j) b_rows b_near y) as H.
  apply (near_level (length (dl c)) (element m0)) with (v := v) (u := y); try assumption.
  - intros i j Hi Hj. apply (element_sym m0 m0_mirrored); now rewrite D0.
  - destruct Ny as (i & Hi & _). eapply Rle_trans; [apply (rsum_nonneg (length (dl c)) (fun j => b i j)); intros j Hj; eapply Rle_trans; [apply Rabs_pos | now apply (b_near i j)] | now apply b_rows].
  - eapply Rle_trans; [|exact H]. apply Req_le. apply rsum_ext. intros i Hi.
    pose proof (Ey i Hi) as Q. change (actR (length (dl c)) (element m) y i = x * y i) in Q. rewrite Q. ring.
Qed.

Lemma rounded_levels : forall m1 e v e1 v1 k, lower_triangle m m1 -> all_states m0 e v -> all_states m1 e1 v1 -> (k < dimension m0)%nat -> Rabs (e1 k - e k) <= real (G * B).
Proof.
  intros m1 e v e1 v1 k [D1 T] HS HS1 Hk. destruct dims_nat as [D D0]. pose proof m0_mirrored as M0.
  assert (D2 : dimension m1 = dimension m0) by (unfold dimension in *; rewrite D1; congruence).
  assert (M1 : mirrored m1).
  { split; [rewrite D1; destruct (dims u F E c w r K S arg arg0 l l0 m m0 HU HE HF HA HA0) as (-> & _); unfold zlen; lia|]. intros i j. destruct (Z.le_ge_cases j i) as [Q|Q]; destruct (T _ _ Q) as [T1 T2]; congruence. }
  assert (N1 : forall i j, (i < dimension m0)%nat -> (j < dimension m0)%nat -> Rabs (element m1 i j - element m0 i j) <= b i j).
  { intros i j Hi Hj. rewrite D0 in Hi, Hj. destruct (Nat.le_ge_cases j i) as [Q|Q].
    - unfold element at 1. destruct (T (Z.of_nat i) (Z.of_nat j) ltac:(lia)) as [-> _]. now apply b_near.
    - unfold element at 1. destruct (T (Z.of_nat j) (Z.of_nat i) ltac:(lia)) as [_ ->]. rewrite b_sym. replace (element m0 i j) with (element m0 j i) by (apply (element_sym m0 M0); now rewrite D0). now apply b_near. }
  assert (N2 : forall i j, (i < dimension m0)%nat -> (j < dimension m0)%nat -> Rabs (element m0 i j - element m1 i j) <= b i j) by (intros i j Hi Hj; rewrite Rabs_minus_sym; now apply N1).
  assert (R : forall i, (i < dimension m0)%nat -> rsum (dimension m0) (fun j => b i j) <= real (G * B)) by (rewrite D0; exact b_rows).
  pose proof (states_compare m0 m1 e v e1 v1 (real (G * B)) M0 M1 D2 HS HS1 (fun y => moved_form _ _ _ b _ (fun i j _ _ => b_sym i j) R N1 y) k Hk).
  assert (C2 : forall y, form (dimension m1) (element m0) y <= form (dimension m1) (element m1) y + real (G * B) * dot (dimension m1) y y) by (rewrite D2; exact (fun y => moved_form _ _ _ b _ (fun i j _ _ => b_sym i j) R N2 y)).
  pose proof (states_compare m1 m0 e1 v1 e v (real (G * B)) M1 M0 (eq_sym D2) HS1 HS C2 k ltac:(now rewrite D2)).
  apply Rabs_le. lra.
Qed.
End States.

Lemma C111_energies_pf : forall u F E c w r K S arg arg0 l l0 m m0 z e v x y, rounds u F -> set_iter_ok E -> filled c w r -> assembled_fl F E c K S arg l m -> assembled E c K S arg0 l0 m0 ->
  couplings_within z K -> all_states m0 e v -> energy_state m x y ->
  exists k, (k < dimension m0)%nat /\ Rabs (e k - x) <= real (growth u (roundings (nholes c) (grid_bonds w (nsites c / w))) * energy_bound z S (nholes c) (grid_bonds w (nsites c / w))).
Proof. intros u F E c w r K S arg arg0 l l0 m m0 z e v x y HU HE HF HA HA0 HK. exact (rounded_state u F E c w r K S arg arg0 l l0 m m0 z HU HE HF HA HA0 HK e v x y). Qed.
Lemma C111_levels_pf : forall u F E c w r K S arg arg0 l l0 m m0 m1 z e v e1 v1 k, rounds u F -> set_iter_ok E -> filled c w r -> assembled_fl F E c K S arg l m -> assembled E c K S arg0 l0 m0 ->
  couplings_within z K -> lower_triangle m m1 -> all_states m0 e v -> all_states m1 e1 v1 -> (k < dimension m0)%nat ->
  Rabs (e1 k - e k) <= real (growth u (roundings (nholes c) (grid_bonds w (nsites c / w))) * energy_bound z S (nholes c) (grid_bonds w (nsites c / w))).
Proof. intros u F E c w r K S arg arg0 l l0 m m0 m1 z e v e1 v1 k HU HE HF HA HA0 HK. exact (rounded_levels u F E c w r K S arg arg0 l l0 m m0 z HU HE HF HA HA0 HK m1 e v e1 v1 k). Qed.

(** ** the matrix read by eigh *)
Definition mirror_entry (p : Qc * Z * Z) : coo := let '(x, i, j) := p in if (j <? i)%Z then [(x, i, j); (x, j, i)] else if (i =? j)%Z then [(x, i, i)] else [].
Lemma triangle_exists : forall m, exists m1, lower_triangle m m1.
Proof.
  intros m. exists (mkCsr (csr_dim m) (flat_map mirror_entry (csr_entries m))). split; [reflexivity|]. intros i j H.
  assert (G : forall e, coo_at (mirror_entry e) i j = coo_at [e] i j /\ coo_at (mirror_entry e) j i = coo_at [e] i j).
  { intros [[x a] b]. unfold mirror_entry, coo_at. destruct (Z.ltb_spec b a); [|destruct (Z.eqb_spec a b)]; rewrite ?qsum_cons; change (@qsum (Qc * Z * Z)) with (@qsum (Qc * Z * Z));
    repeat match goal with |- context [qsum _ (@nil (Qc * Z * Z))] => change (qsum _ (@nil (Qc * Z * Z))) with 0%Qc end; rewrite ?qsum_nil;
    split; destruct (Z.eqb_spec a i), (Z.eqb_spec b j), (Z.eqb_spec b i), (Z.eqb_spec a j); try (exfalso; lia); subst; rewrite ?Z.eqb_refl; cbn [andb only]; try ring;
    repeat match goal with |- context [Z.eqb ?x ?y] => destruct (Z.eqb_spec x y); try (exfalso; lia) end; cbn [andb only]; try ring. }
  rewrite !csr_at_coo. cbn [csr_entries]. induction (csr_entries m) as [|e es IH]; [split; reflexivity|].
  destruct (G e) as [G1 G2]. destruct IH as [I1 I2]. cbn [flat_map]. change (e :: es) with ([e] ++ es). rewrite !coo_at_app, G1, G2, I1, I2. split; reflexivity.
Qed.
Lemma triangle_states : forall m m1, (0 <= csr_dim m)%Z -> lower_triangle m m1 -> exists e v, all_states m1 e v.
Proof.
  intros m m1 Hd [D T]. apply states_exist. split; [now rewrite D|]. intros i j. destruct (Z.le_ge_cases j i) as [Q|Q]; destruct (T _ _ Q) as [T1 T2]; congruence.
Qed.
Lemma C111_triangle_pf : forall m, (0 <= csr_dim m)%Z -> exists m1 e v, lower_triangle m m1 /\ all_states m1 e v.
Proof. intros m Hd. destruct (triangle_exists m) as (m1 & T). destruct (triangle_states m m1 Hd T) as (e & v & A). exists m1, e, v. auto. Qed.
