(** Final lemmas for C81 (with spins) and C91-C93: spin and parity of the lowest state without holes, order of the levels. *)
From Coq Require Import ZArith List Bool QArith Qcanon Lia Relations.
From Verif Require Import PyBase PyFacts Lattice Base Interact Ham Spin Spec SpecOps SpecTJ SpecSpin SpinDefs Geometry HamSpec SignDefs.
From Verif Require Import PSpin PQc PBasis PSites PHam FGeo FSites FInter FHam PWave PTJSpin PVec PSecSum PSpinOp PBound PAct FSpin FSpinVal FMulti FProj FDav PSign PSinglet FSign.
Import ListNotations.
Open Scope Z_scope.

Lemma squared_minus : forall n psi t, on_lattice n psi ->
  S_squared n psi t = (S_plus n (S_minus n psi) t + total_z n t * (total_z n t - 1) * psi t)%Qc.
Proof.
  intros n psi t O. pose proof (C37_ladder_form_pf n psi t O) as Q. unfold S_squared, S_z in *. set (A := S_plus n (S_minus n psi) t) in *. set (B := S_minus n (S_plus n psi) t) in *. set (z := total_z n t) in *.
  assert (R : A = (B + (z + z) * psi t)%Qc).
  { transitivity ((half + half) * (A + B) + (z * z * psi t) + (z * z * psi t) - (B + z * z * psi t + z * z * psi t))%Qc; [rewrite half_half; ring|].
    transitivity ((half * (A + B) + z * (z * psi t)) + (half * (A + B) + z * (z * psi t)) - (B + z * z * psi t + z * z * psi t))%Qc; [ring|]. rewrite Q. ring. }
  rewrite Q, R. ring.
Qed.
Lemma squared_scale : forall n x psi t, S_squared n (fun s => (x * psi s)%Qc) t = (x * S_squared n psi t)%Qc.
Proof.
  intros n x psi t. unfold S_squared.
  assert (E1 : S_plus n (S_minus n (fun s => (x * psi s)%Qc)) t = (x * S_plus n (S_minus n psi) t)%Qc).
  { transitivity (ladder n Up Down (fun s => x * S_minus n psi s)%Qc t); [|apply ladder_scale]. unfold S_plus, ladder. apply sum_sites_ext. intros i Hi. f_equal. apply (ladder_scale n Down Up). }
  assert (E2 : S_minus n (S_plus n (fun s => (x * psi s)%Qc)) t = (x * S_minus n (S_plus n psi) t)%Qc).
  { transitivity (ladder n Down Up (fun s => x * S_plus n psi s)%Qc t); [|apply ladder_scale]. unfold S_minus, ladder. apply sum_sites_ext. intros i Hi. f_equal. apply (ladder_scale n Up Down). }
  rewrite E1, E2. unfold S_z. ring.
Qed.

Section Spin.
Variables (E : runtime) (c : configuration).
Hypothesis HE : set_iter_ok E.
Hypothesis P : proper c.
Hypothesis HO : holes_in_order E c.
(** a vector whose wave function is an eigenfunction *)
Lemma S2_of_wave : forall v psi x, zlen v = nb_conf c -> on_lattice (nsites c) psi ->
  (forall s, in_sector (nsites c) (nholes c) (nbeta c) s -> wave_of c v s = psi s) ->
  (forall s, in_sector (nsites c) (nholes c) (nbeta c) s -> S_squared (nsites c) psi s = (x * psi s)%Qc) ->
  compute_S2 E c v = Ok (map (fun y => (x * y)%Qc) v).
Proof.
  intros v psi x Lv O V H. destruct (S2_ok E c HE P HO v Lv) as (u & -> & Lu & Vu). f_equal. change (u = vscale x v).
  apply vat_ext; [now rewrite vscale_length|]. intros k Hk. unfold zlen in Hk, Lv. destruct (ix_onto c P k ltac:(lia)) as (s & Hs & <- & _).
  rewrite vat_scale. change (wave_of c u s = (x * wave_of c v s)%Qc). rewrite Vu, V by assumption. rewrite <- H by assumption.
  apply squared_sector; try assumption. apply wave_on.
Qed.
Lemma S2_scaled : forall v u x, zlen v = nb_conf c -> compute_S2 E c v = Ok u -> compute_S2 E c (map (fun y => (x * y)%Qc) v) = Ok (map (fun y => (x * y)%Qc) u).
Proof.
  intros v u x Lv Hu. destruct (S2_ok E c HE P HO v Lv) as (u' & Q & Lu & Vu). rewrite Hu in Q. injection Q as <-.
  destruct (S2_ok E c HE P HO (vscale x v)) as (u2 & Q2 & Lu2 & Vu2); [unfold zlen in *; now rewrite vscale_length|]. change (map (fun y => (x * y)%Qc) v) with (vscale x v). rewrite Q2. f_equal.
  change (u2 = vscale x u). rewrite vscale_length in Lu2. apply vat_ext; [rewrite vscale_length; congruence|]. intros k Hk. unfold zlen in Hk, Lv. destruct (ix_onto c P k ltac:(lia)) as (s & Hs & <- & _).
  rewrite vat_scale. change (wave_of c u2 s = (x * wave_of c u s)%Qc). rewrite Vu, Vu2 by assumption. rewrite <- squared_scale.
  apply squared_sector; try assumption; [apply wave_on | intros s1 s2 Q; now rewrite (wave_on c v s1 s2 Q)|]. intros t Ht. unfold wave_of. apply vat_scale.
Qed.
End Spin.

Lemma inner_scale_r : forall x u v, inner u (map (fun y => (x * y)%Qc) v) = (x * inner u v)%Qc.
Proof.
  intros x u v. unfold inner. rewrite <- qsum_scale. apply qsum_ext. intros k _. change (map (fun y => (x * y)%Qc) v) with (vscale x v).
  pose proof (vat_scale x v (Z.of_nat k)) as Q. unfold vat in Q. rewrite Nat2Z.id in Q. rewrite Q. ring.
Qed.

(** the pairs have the spin of the spins left over *)
Lemma pairs_spin : forall c w, filled_whole c w -> proper c -> nholes c = 0 -> exists psi, on_lattice (nsites c) psi /\
  (let j := (half * qz (Z.abs (nalpha c - nbeta c)))%Qc in forall s, in_sector (nsites c) (nholes c) (nbeta c) s -> S_squared (nsites c) psi s = (j * (j + 1) * psi s)%Qc) /\
  (forall s, psi s = 0%Qc \/ psi s = down_sign (nsites c) (point w) s) /\
  exists s, in_sector (nsites c) (nholes c) (nbeta c) s /\ psi s = down_sign (nsites c) (point w) s.
Proof.
  intros c w HF P H0. pose proof HF as (RM & _). destruct (rows_of c w RM) as (h & Hh & Hw & HN). pose proof P as (A1 & A2 & A3 & A4 & _).
  set (b := Z.min (nalpha c) (nbeta c)). set (n := nsites c) in *.
  assert (Hb : 0 <= 2 * b <= n) by lia. assert (CO : forall x, 0 <= x < 2 * b -> black (point w (partner x)) = negb (black (point w x))) by (intros x Hx; now apply (point_colours w b)).
  destruct (Z.le_gt_cases (nbeta c) (nalpha c)) as [G|G].
  - set (f := phi n b (point w) Up). assert (Of : on_lattice n f) by (apply phi_on; assumption). exists f. split; [exact Of|]. split; [|split].
    + intros j s Hs. rewrite C37_ladder_form_pf by assumption. unfold j. rewrite Z.abs_eq by lia. unfold n. rewrite total_sector by assumption.
      replace (S_minus (nsites c) (S_plus (nsites c) f) s) with 0%Qc; [ring|]. symmetry. unfold S_minus. unfold sum_sites. apply qsum_zero. intros i _.
      destruct (samep (s i) Down); [|reflexivity]. cbn [only]. apply (phi_sum n b (point w) Up Down Hb (or_introl (conj eq_refl eq_refl)) CO).
    + intros s. unfold f, phi. destruct (goodb n b Up s); [now right | now left].
    + exists (neel b Up). split; [|unfold f, phi; now rewrite (neel_good n b Up Down (or_introl (conj eq_refl eq_refl)))].
      pose proof (neel_sector n b Up Down Hb (or_introl (conj eq_refl eq_refl))) as NS. cbv beta iota in NS. rewrite H0. replace (nbeta c) with b by lia. exact NS.
  - set (f := phi n b (point w) Down). assert (Of : on_lattice n f) by (apply phi_on; assumption). exists f. split; [exact Of|]. split; [|split].
    + intros j s Hs. rewrite squared_minus by assumption. unfold j. replace (Z.abs (nalpha c - nbeta c)) with (nbeta c - nalpha c) by lia. unfold n. rewrite total_sector by assumption.
      replace (S_plus (nsites c) (S_minus (nsites c) f) s) with 0%Qc; [rewrite !qz_sub; ring|].
      symmetry. unfold S_plus, sum_sites. apply qsum_zero. intros i _.
      destruct (samep (s i) Up); [|reflexivity]. cbn [only]. apply (phi_sum n b (point w) Down Up Hb (or_intror (conj eq_refl eq_refl)) CO).
    + intros s. unfold f, phi. destruct (goodb n b Down s); [now right | now left].
    + exists (neel b Down). split; [|unfold f, phi; now rewrite (neel_good n b Down Up (or_intror (conj eq_refl eq_refl)))].
      pose proof (neel_sector n b Down Up Hb (or_intror (conj eq_refl eq_refl))) as NS. cbv beta iota in NS. rewrite H0. replace (nbeta c) with (n - b) by (unfold n; lia). exact NS.
Qed.

(** ** C91 *)
Lemma C91_spin_pf : forall E c w K S arg l m e v, set_iter_ok E -> filled_whole c w -> proper c -> assembled E c K S arg l m ->
  nholes c = 0 -> s_bij S = true -> s_bz S = true -> (0 < i_J K)%Qc -> (forall u, zlen u = csr_dim m -> (e * inner u u <= csr_mean m u)%Qc) ->
  eigenvector m e v ->
  let j := (half * qz (Z.abs (nalpha c - nbeta c)))%Qc in
  compute_S2 E c v = Ok (map (fun x => (j * (j + 1) * x)%Qc) v) /\ compute_S2_exp_val E c v = Ok (j * (j + 1))%Qc.
Proof.
  intros E c w K S arg l m e v HE HF P HA H0 HB HZ HJ LOW EV j. pose proof EV as (Lv & Ev & NZ). assert (HO : holes_in_order E c) by (left; lia).
  destruct (C90_unique_pf E c w K S arg l m e HE HF HA H0 HB HJ LOW v EV) as [SG UN].
  rewrite (dim_is E c w K S arg l m HE HF P HA) in Lv. pose proof (proj1 HA) as HC. pose proof (basis_is c l P HC) as El.
  assert (LL : length v = length l) by (apply Nat2Z.inj; change (zlen v = zlen l); rewrite Lv, El; symmetry; apply (proper_length c P)).
  destruct (C36_conserved_pf E c w K S arg l m v HE HF P HO (eq_trans HZ (eq_sym HB)) HA LL) as (v1 & Q1 & Q2).
  rewrite Ev in Q2. rewrite (S2_scaled E c HE P HO v v1 e Lv Q1) in Q2. injection Q2 as Q2.
  assert (L1 : length v1 = length v) by (destruct (S2_ok E c HE P HO v Lv) as (u & Q & Lu & _); rewrite Q1 in Q; injection Q as <-; exact Lu).
  assert (X : exists x, v1 = map (fun y => (x * y)%Qc) v).
  { destruct (existsb (fun y => if Qc_eq_dec y 0 then false else true) v1) eqn:Q.
    - apply existsb_exists in Q. destruct Q as (y & Iy & Ny). apply UN. split; [rewrite (dim_is E c w K S arg l m HE HF P HA); unfold zlen in *; congruence|].
      split; [now symmetry|]. exists y. split; [assumption|]. destruct (Qc_eq_dec y 0); [discriminate Ny | assumption].
    - exists 0%Qc. apply nth_ext with (d := 0%Qc) (d' := (0 * 0)%Qc); [now rewrite map_length|]. intros k Hk. rewrite (map_nth (fun y => (0 * y)%Qc)). rewrite Qcmult_0_l.
      destruct (Qc_eq_dec (nth k v1 0%Qc) 0%Qc) as [Z0|Z0]; [exact Z0|]. exfalso. rewrite <- not_true_iff_false, existsb_exists in Q. apply Q. exists (nth k v1 0%Qc). split; [now apply nth_In|].
      destruct (Qc_eq_dec (nth k v1 0%Qc) 0%Qc); [contradiction | reflexivity]. }
  destruct X as (x & X).
  destruct (pairs_spin c w HF P H0) as (psi & Op & Sp & Vp & s0 & Hs0 & P0). fold j in Sp.
  destruct (vector_exists c psi P Op) as (f & Af). change (slist (nsites c) (nholes c) (nbeta c)) with (dets (nsites c) (Z.to_nat (nholes c)) (Z.to_nat (nbeta c))) in Af. rewrite <- El in Af.
  pose proof Af as Af'. rewrite El in Af'. apply (amplitudes_iff c P f psi Op) in Af'. destruct Af' as [Lf Vf]. destruct Af as [LLf Af].
  pose proof (S2_of_wave E c HE P HO f psi (j * (j + 1))%Qc Lf Op Vf Sp) as Qf.
  pose proof (C38_symmetric_pf E c l f v _ _ HE P HO HC LLf LL Qf Q1) as SY. rewrite X, !inner_scale_r in SY. rewrite (inner_sym v f) in SY by congruence.
  assert (OV : inner f v <> 0%Qc).
  { pose proof (nth_dets (nsites c) (Z.to_nat (nholes c)) (Z.to_nat (nbeta c)) s0 (proper_n c P)) as N. pose proof P as (A1 & A2 & _). rewrite !Z2Nat.id in N by assumption. specialize (N Hs0). rewrite <- El in N.
    set (k0 := Z.to_nat _) in N. pose proof (canon_describes _ _ _ _ Hs0) as D0.
    assert (K0 : (k0 < length f)%nat) by (rewrite LLf; apply nth_error_Some; congruence).
    assert (TERM : forall k, (k < length f)%nat -> exists d s, nth_error l k = Some d /\ describes (nsites c) (nholes c) (nbeta c) d s /\ nth k f 0%Qc = psi s).
    { intros k Hk. destruct (nth_error l k) as [d|] eqn:Q; [|apply nth_error_None in Q; lia]. pose proof Q as Q'. rewrite El in Q'.
      pose proof (dl_describes c w _ _ _ HF Q') as D. exists d, (state_of c d). split; [reflexivity|]. split; [exact D|]. apply nth_error_nth. now apply (Af k d). }
    assert (MAIN : forall g : Qc, (forall k d s, nth_error l k = Some d -> describes (nsites c) (nholes c) (nbeta c) d s -> (0 < g * (down_sign (nsites c) (point w) s * nth k v 0))%Qc) -> inner f v <> 0%Qc).
    { intros g Hg Z0. assert (T : forall k, In k (seq 0 (length f)) -> (0 <= g * (nth k f 0 * nth k v 0))%Qc).
      { intros k Ik. apply in_seq in Ik. destruct (TERM k ltac:(lia)) as (d & s & N1 & D1 & ->). destruct (Vp s) as [-> | ->]; [replace (g * (0 * nth k v 0))%Qc with 0%Qc by ring; apply Qcle_refl|].
        apply Qclt_le_weak. exact (Hg k d s N1 D1). }
      assert (Z1 : (g * (nth k0 f 0 * nth k0 v 0))%Qc = 0%Qc).
      { apply (qsum_nonneg_zero _ (fun k => (g * (nth k f 0 * nth k v 0))%Qc) (seq 0 (length f)) T); [rewrite qsum_scale; unfold inner in Z0; rewrite Z0; replace (g * 0)%Qc with 0%Qc by ring; apply Qcle_refl | apply in_seq; lia]. }
      specialize (Hg k0 _ s0 N D0). rewrite <- P0 in Hg. assert (F0 : nth k0 f 0%Qc = psi s0) by (apply nth_error_nth; now apply (Af k0 (canon (nsites c) s0))).
      rewrite <- F0, Z1 in Hg. now apply Qclt_not_eq in Hg. }
    destruct SG as [SG|SG]; [apply (MAIN 1%Qc) | apply (MAIN (- (1))%Qc)]; intros k d s N1 D1; specialize (SG k d s N1 D1); [now rewrite Qcmult_1_l|].
    revert SG. generalize (down_sign (nsites c) (point w) s * nth k v 0)%Qc. intros y Hy. qc. }
  assert (XJ : x = (j * (j + 1))%Qc).
  { assert (Q : ((x - j * (j + 1)) * inner f v)%Qc = 0%Qc) by (transitivity (x * inner f v - j * (j + 1) * inner f v)%Qc; [ring | rewrite SY; ring]).
    apply Qcmult_integral in Q. destruct Q as [Q|Q]; [|contradiction]. transitivity (x - j * (j + 1) + j * (j + 1))%Qc; [ring | rewrite Q; ring]. }
  rewrite XJ in X. split; [now rewrite Q1, X|].
  destruct (C38_value_pf E c l v HE P HO HC LL NZ) as (v2 & y & R1 & R2 & R3 & R4). rewrite R2. f_equal. rewrite Q1 in R1. injection R1 as <-. rewrite X, inner_scale_r in R4.
  assert (Q : ((y - j * (j + 1)) * inner v v)%Qc = 0%Qc) by (transitivity (y * inner v v - j * (j + 1) * inner v v)%Qc; [ring | rewrite R4; ring]).
  apply Qcmult_integral in Q. destruct Q as [Q|Q]; [|contradiction]. transitivity (y - j * (j + 1) + j * (j + 1))%Qc; [ring | rewrite Q; ring].
Qed.

(** ** C92 *)
Lemma put_total : forall n i t, 0 <= i < n -> t i = Down -> total_z n (put i Up t) = (total_z n t + 1)%Qc.
Proof.
  intros n i t Hi Q. unfold total_z, sum_sites. apply in_sites in Hi. pose proof (sites_NoDup n) as ND. induction (sites n) as [|a l IH]; [destruct Hi|].
  inversion ND as [|? ? NI ND']; subst. rewrite !qsum_cons. destruct (Z.eq_dec a i) as [->|N].
  - rewrite (qsum_ext _ (fun i0 => spin_of (put i Up t i0)) (fun i0 => spin_of (t i0)) l) by (intros x Ix; unfold put; destruct (Z.eqb_spec x i) as [->|]; [contradiction | reflexivity]).
    unfold put at 1. rewrite Z.eqb_refl, Q. cbn [spin_of]. transitivity (half + half + (- half + qsum (fun i0 => spin_of (t i0)) l))%Qc; [ring | rewrite half_half; ring].
  - rewrite IH; [|destruct Hi; [congruence | assumption] | assumption]. unfold put at 1. rewrite (proj2 (Z.eqb_neq _ _) N). ring.
Qed.
Lemma squared_lowered : forall n psi t, on_lattice n psi -> S_squared n (S_minus n psi) t = S_minus n (S_squared n psi) t.
Proof.
  intros n psi t O. rewrite C37_ladder_form_pf by now apply (ladder_on n Down Up). unfold S_minus at 1 3 4. unfold sum_sites. rewrite <- qsum_scale, <- qsum_add.
  apply qsum_ext. intros i Ii. apply in_sites in Ii. destruct (samep (t i) Down) eqn:Q; cbn [only]; [|ring]. apply samep_iff in Q.
  rewrite squared_minus by assumption. rewrite put_total by assumption. ring.
Qed.
Lemma flipped_ladder : forall n psi t, on_lattice n psi ->
  S_plus n (fun t => psi (flip_state t)) t = S_minus n psi (flip_state t) /\ S_minus n (fun t => psi (flip_state t)) t = S_plus n psi (flip_state t).
Proof.
  intros n psi t O. split; unfold S_plus, S_minus; apply sum_sites_ext; intros i Hi; unfold flip_state at 2; destruct (t i) eqn:Q; cbn [samep only flip_particle]; try reflexivity;
    apply O; intros x Hx; unfold flip_state, put; destruct (x =? i); reflexivity.
Qed.
Lemma flipped_total : forall n t, total_z n (flip_state t) = (- total_z n t)%Qc.
Proof. intros n t. unfold total_z, sum_sites. rewrite <- qsum_opp. apply qsum_ext. intros i _. unfold flip_state. destruct (t i); cbn [flip_particle spin_of]; ring. Qed.
Lemma flipped_squared : forall n psi t, on_lattice n psi -> S_squared n (fun t => psi (flip_state t)) t = S_squared n psi (flip_state t).
Proof.
  intros n psi t O. rewrite C37_ladder_form_pf by now apply flipped_on. rewrite squared_minus by assumption. rewrite flipped_total.
  replace (S_minus n (S_plus n (fun t => psi (flip_state t))) t) with (S_plus n (S_minus n psi) (flip_state t)); [ring|].
  rewrite <- (proj2 (flipped_ladder n (S_minus n psi) t (ladder_on n Down Up psi O))). unfold S_minus at 1 3. apply sum_sites_ext. intros i _. f_equal. symmetry.
  apply (proj1 (flipped_ladder n psi _ O)).
Qed.

(** from one number of downs to another *)
Lemma sectors_reached : forall (G : Z -> Prop) n h a b a' b', 0 <= b -> 0 <= a -> 0 <= b' -> 0 <= a' -> a = n - h - b -> a' = n - h - b' -> Z.min a b <= Z.min a' b' ->
  (forall k, 0 <= k -> k < n - h - k -> G k -> G (k + 1)) -> (forall k, 0 <= k -> 0 <= n - h - k -> G k -> G (n - h - k)) -> G b -> G b'.
Proof.
  intros G n h a b a' b' B A B' A' Ea Ea' Hm UP FL Gb. set (b0 := Z.min a b) in *. set (b1 := Z.min a' b') in *.
  assert (E1 : G b0) by (unfold b0; destruct (Z.min_spec a b) as [[_ ->]|[_ ->]]; [rewrite Ea; apply FL; [assumption | lia | exact Gb] | exact Gb]).
  assert (I : forall k, b0 + Z.of_nat k <= b1 -> G (b0 + Z.of_nat k)).
  { induction k as [|k IH]; intros Hk; [now rewrite Z.add_0_r|]. rewrite Nat2Z.inj_succ, <- Z.add_1_r, Z.add_assoc. apply UP; [lia | lia | apply IH; lia]. }
  specialize (I (Z.to_nat (b1 - b0)) ltac:(lia)). rewrite Z2Nat.id in I by lia. replace (b0 + (b1 - b0)) with b1 in I by lia.
  subst b1. destruct (Z.min_spec a' b') as [[_ Q]|[_ Q]]; rewrite Q in I; [|exact I]. replace b' with (n - h - a') by lia. apply FL; [assumption | lia | exact I].
Qed.

Section Levels.
Variables (n h : Z) (L : lattice) (K : interactions) (S : switches).
Hypothesis Hn : 0 <= n.
Hypothesis Hh : 0 <= h.
Hypothesis HS : lat_size L = n.
Hypothesis HQ : s_bz S = s_bij S.
Hypothesis FT : forall x, 0 <= x < lat_size L -> lat_from L x = lat_to L x.
Definition solves (b : Z) (psi : wave) (e : Qc) : Prop := forall s, in_sector n h b s -> w_tj L n K S psi s = (e * psi s)%Qc.
Notation some b psi := (exists s, in_sector n h b s /\ psi s <> 0%Qc).

Definition spins (x : Qc) (psi : wave) : wave := fun s => (S_squared n psi s - x * psi s)%Qc.
Lemma squared_on_n : forall psi, on_lattice n psi -> on_lattice n (S_squared n psi).
Proof. intros psi O s t H. rewrite !(C37_ladder_form_pf n psi _ O). rewrite (O s t H).
  rewrite (ladder_on n Down Up _ (ladder_on n Up Down psi O) s t H : S_minus n (S_plus n psi) s = S_minus n (S_plus n psi) t).
  replace (total_z n t) with (total_z n s); [reflexivity|]. unfold total_z. apply sum_sites_ext. intros i Hi. now rewrite (H i Hi).
Qed.
Lemma spins_on : forall x psi, on_lattice n psi -> on_lattice n (spins x psi).
Proof. intros x psi O s t H. unfold spins. rewrite (O s t H). now rewrite (squared_on_n psi O s t H). Qed.
Lemma spins_lowered : forall x psi t, on_lattice n psi -> spins x (S_minus n psi) t = S_minus n (spins x psi) t.
Proof.
  intros x psi t O. unfold spins. rewrite squared_lowered by assumption. unfold S_minus. unfold sum_sites.
  transitivity (qsum (fun i => only (samep (t i) Down) (S_squared n psi (put i Up t))) (sites n) + - x * qsum (fun i => only (samep (t i) Down) (psi (put i Up t))) (sites n))%Qc; [ring|].
  rewrite <- qsum_scale, <- qsum_add. apply qsum_ext. intros i _. destruct (samep (t i) Down); cbn [only]; ring.
Qed.
Lemma spins_flipped : forall x psi t, on_lattice n psi -> spins x (fun t => psi (flip_state t)) t = spins x psi (flip_state t).
Proof. intros x psi t O. unfold spins. now rewrite flipped_squared. Qed.

(** states of energy [e] and spin [x], and states of energy [e] which do not have the spin [x] *)
Definition level (x e : Qc) (b : Z) : Prop := exists psi, on_lattice n psi /\ solves b psi e /\ (forall s, in_sector n h b s -> spins x psi s = 0%Qc) /\ some b psi.
Definition other_level (x e : Qc) (b : Z) : Prop := exists psi, on_lattice n psi /\ solves b psi e /\ some b (spins x psi) /\ some b psi.

Lemma some_flipped : forall b psi, on_lattice n psi -> some b psi -> exists s, in_sector n h (n - h - b) s /\ psi (flip_state s) <> 0%Qc.
Proof. intros b psi O (s & Hs & N). exists (flip_state s). split; [now apply flip_in|]. intros Q. apply N. rewrite <- Q. apply O. intros x _. symmetry. apply flip_twice. Qed.

Lemma level_lowered : forall x e b, 0 <= b -> b < n - h - b -> level x e b -> level x e (b + 1).
Proof.
  intros x e b Hb Hab (psi & O & He & Hx & s & Hs & N). exists (S_minus n psi). split; [now apply (ladder_on n Down Up)|]. split; [intros t Ht; now apply (lowered_tj n h L K S HS HQ b)|]. split.
  - intros t Ht. rewrite spins_lowered by assumption. rewrite (in_sector_on n h b (spins x psi) (fun _ => 0%Qc)) by assumption. unfold S_minus, sum_sites. apply qsum_zero. intros i _. now destruct (samep _ _).
  - now apply (lowered_some n h Hn Hh b psi s).
Qed.
Lemma level_flipped : forall x e b, 0 <= b -> 0 <= n - h - b -> level x e b -> level x e (n - h - b).
Proof.
  intros x e b Hb Ha (psi & O & He & Hx & N). exists (fun t => psi (flip_state t)). split; [now apply flipped_on|]. split; [intros t Ht; now apply (flipped_tj n h L K S Hn Hh HS FT b)|]. split.
  - intros t Ht. rewrite spins_flipped by assumption. apply Hx. replace b with (n - h - (n - h - b)) by lia. now apply flip_in.
  - now apply some_flipped.
Qed.
Lemma other_lowered : forall x e b, 0 <= b -> b < n - h - b -> other_level x e b -> other_level x e (b + 1).
Proof.
  intros x e b Hb Hab (psi & O & He & (s1 & Hs1 & N1) & s & Hs & N). exists (S_minus n psi). split; [now apply (ladder_on n Down Up)|]. split; [intros t Ht; now apply (lowered_tj n h L K S HS HQ b)|]. split.
  - destruct (lowered_some n h Hn Hh b (spins x psi) s1 Hb Hab (spins_on x psi O) Hs1 N1) as (t & Ht & Nt). exists t. split; [assumption|]. now rewrite spins_lowered.
  - now apply (lowered_some n h Hn Hh b psi s).
Qed.
Lemma other_flipped : forall x e b, 0 <= b -> 0 <= n - h - b -> other_level x e b -> other_level x e (n - h - b).
Proof.
  intros x e b Hb Ha (psi & O & He & N1 & N). exists (fun t => psi (flip_state t)). split; [now apply flipped_on|]. split; [intros t Ht; now apply (flipped_tj n h L K S Hn Hh HS FT b)|]. split.
  - destruct (some_flipped b (spins x psi) (spins_on x psi O) N1) as (t & Ht & Nt). exists t. split; [assumption|]. now rewrite spins_flipped.
  - now apply some_flipped.
Qed.
End Levels.

Section LevelVectors.
Variables (E : runtime) (c : configuration) (w : Z) (K : interactions) (S : switches) (arg : restriction) (l : list (list Z)) (m : csr).
Hypothesis HE : set_iter_ok E.
Hypothesis HF : filled_whole c w.
Hypothesis P : proper c.
Hypothesis HO : holes_in_order E c.
Hypothesis HA : assembled E c K S arg l m.
Local Notation LL := (between (nsites c) (point w) (zrange 0 (nsites c)) (zrange 0 (nsites c))).

Lemma solves_vector : forall e v, zlen v = csr_dim m -> times m v = map (fun x => (e * x)%Qc) v -> solves (nsites c) (nholes c) LL K S (nbeta c) (wave_of c v) e.
Proof.
  intros e v Lv Ev s Hs. rewrite (dim_is E c w K S arg l m HE HF P HA) in Lv.
  rewrite <- (times_wave E c w K S arg l m HE HF P HA v (wave_of c v) s Lv (wave_on c v)) by (auto || reflexivity).
  rewrite Ev. unfold wave_of. change (map (fun x => (e * x)%Qc) v) with (vscale e v). apply vat_scale.
Qed.
Lemma some_vector : forall v, zlen v = csr_dim m -> (exists x, In x v /\ x <> 0%Qc) -> exists s, in_sector (nsites c) (nholes c) (nbeta c) s /\ wave_of c v s <> 0%Qc.
Proof.
  intros v Lv (x & Ix & Nx). rewrite (dim_is E c w K S arg l m HE HF P HA) in Lv.
  apply (In_nth _ _ 0%Qc) in Ix. destruct Ix as (k & Hk & <-). unfold zlen in Lv. destruct (ix_onto c P (Z.of_nat k) ltac:(lia)) as (s & Hs & Is & _).
  exists s. split; [assumption|]. unfold wave_of. rewrite Is. unfold vat. rewrite Nat2Z.id. exact Nx.
Qed.
Lemma vector_solves : forall e psi, on_lattice (nsites c) psi -> solves (nsites c) (nholes c) LL K S (nbeta c) psi e -> (exists s, in_sector (nsites c) (nholes c) (nbeta c) s /\ psi s <> 0%Qc) ->
  exists v, eigenvector m e v /\ zlen v = nb_conf c /\ forall s, in_sector (nsites c) (nholes c) (nbeta c) s -> wave_of c v s = psi s.
Proof.
  intros e psi O He (s0 & Hs0 & N0). destruct (vector_exists c psi P O) as (v & A). exists v.
  apply (amplitudes_iff c P v psi O) in A. destruct A as [Lv V]. split; [|split; assumption]. split; [now rewrite (dim_is E c w K S arg l m HE HF P HA)|]. split.
  - change (map (fun x => (e * x)%Qc) v) with (vscale e v). apply vat_ext; [now rewrite times_length, vscale_length|].
    intros k Hk. assert (Hk' : 0 <= k < nb_conf c) by (rewrite <- Lv; unfold zlen in *; now rewrite times_length in Hk).
    destruct (ix_onto c P k Hk') as (s & Hs & <- & _). rewrite vat_scale. change (wave_of c (times m v) s = (e * wave_of c v s)%Qc).
    rewrite (times_wave E c w K S arg l m HE HF P HA v psi s Lv O V Hs), V by assumption. now apply He.
  - exists (wave_of c v s0). split; [|now rewrite V]. unfold wave_of, vat. apply nth_In. pose proof (ix_range c P s0 Hs0). unfold zlen in Lv. lia.
Qed.
(** [S^2] on the vector is [x] when it is [x] on the wave function *)
Lemma spins_vector : forall x v, zlen v = nb_conf c -> compute_S2 E c v = Ok (map (fun y => (x * y)%Qc) v) -> forall s, in_sector (nsites c) (nholes c) (nbeta c) s -> spins (nsites c) x (wave_of c v) s = 0%Qc.
Proof.
  intros x v Lv Q s Hs. destruct (S2_ok E c HE P HO v Lv) as (u & Q' & Lu & Vu). rewrite Q in Q'. injection Q' as <-. unfold spins. rewrite <- Vu by assumption.
  unfold wave_of. change (map (fun y => (x * y)%Qc) v) with (vscale x v). rewrite vat_scale. ring.
Qed.
Lemma spins_zero : forall x psi s, spins (nsites c) x psi s = 0%Qc <-> S_squared (nsites c) psi s = (x * psi s)%Qc.
Proof. intros x psi s. unfold spins. split; intros Q; [transitivity (S_squared (nsites c) psi s - x * psi s + x * psi s)%Qc; [ring | rewrite Q; ring] | rewrite Q; ring]. Qed.
End LevelVectors.

Lemma C81_levels_pf : forall E c c' w K S arg arg' l l' m m' e v x, set_iter_ok E -> filled_whole c w -> filled_whole c' w -> proper c -> proper c' ->
  holes_in_order E c -> nsites c' = nsites c -> nholes c' = nholes c -> Z.min (nalpha c) (nbeta c) <= Z.min (nalpha c') (nbeta c') -> s_bz S = s_bij S ->
  assembled E c K S arg l m -> assembled E c' K S arg' l' m' -> eigenvector m e v -> compute_S2 E c v = Ok (map (fun y => (x * y)%Qc) v) ->
  exists v', eigenvector m' e v' /\ compute_S2 E c' v' = Ok (map (fun y => (x * y)%Qc) v').
Proof.
  intros E c c' w K S arg arg' l l' m m' e v x HE HF HF' P P' HO Hn Hh Hm HQ HA HA' (Lv & Ev & NZ) Q.
  assert (HO' : holes_in_order E c') by (unfold holes_in_order in *; rewrite Hn, Hh; exact HO).
  set (L := between (nsites c) (point w) (zrange 0 (nsites c)) (zrange 0 (nsites c))).
  pose proof P as (A1 & A2 & A3 & A4 & _). pose proof P' as (B1 & B2 & B3 & B4 & _). pose proof (proper_n c P) as N0.
  assert (G : level (nsites c) (nholes c) L K S x e (nbeta c)).
  { exists (wave_of c v). split; [apply wave_on|]. split; [now apply (solves_vector E c w K S arg l m)|]. split; [|now apply (some_vector E c w K S arg l m)].
    apply (spins_vector E c HE P HO); [|assumption]. now rewrite (dim_is E c w K S arg l m HE HF P HA) in Lv. }
  apply (sectors_reached (level (nsites c) (nholes c) L K S x e) (nsites c) (nholes c) (nalpha c) (nbeta c) (nalpha c') (nbeta c')) in G; try lia.
  - destruct G as (psi & O & He & Hx & N). rewrite <- Hn, <- Hh in *. unfold L in He. rewrite <- Hn in He.
    destruct (vector_solves E c' w K S arg' l' m' HE HF' P' HA' e psi O He N) as (v' & EV' & Lv' & V'). exists v'. split; [assumption|].
    apply (S2_of_wave E c' HE P' HO' v' psi); try assumption. intros s Hs. apply (spins_zero c'). now apply Hx.
  - intros k Hk Hk'. apply level_lowered; (assumption || reflexivity).
  - intros k Hk Hk'. apply level_flipped; (assumption || reflexivity).
Qed.

Lemma eigen_mean : forall m e v, times m v = map (fun x => (e * x)%Qc) v -> csr_mean m v = (e * inner v v)%Qc.
Proof. intros m e v Ev. unfold csr_mean. rewrite Ev. apply inner_scale_r. Qed.

Lemma C92_order_pf : forall E c c' w K S arg arg' l l' m m' e e' v, set_iter_ok E -> filled_whole c w -> filled_whole c' w -> proper c -> proper c' ->
  nsites c' = nsites c -> nholes c = 0 -> nholes c' = 0 -> Z.min (nalpha c) (nbeta c) < Z.min (nalpha c') (nbeta c') ->
  s_bij S = true -> s_bz S = true -> (0 < i_J K)%Qc ->
  assembled E c K S arg l m -> assembled E c' K S arg' l' m' -> (forall u, zlen u = csr_dim m' -> (e' * inner u u <= csr_mean m' u)%Qc) ->
  eigenvector m e v -> (e' < e)%Qc.
Proof.
  intros E c c' w K S arg arg' l l' m m' e e' v HE HF HF' P P' Hn H0 H0' Hm HB HZ HJ HA HA' LOW EV.
  assert (HO : holes_in_order E c) by (left; lia). assert (HO' : holes_in_order E c') by (left; lia). pose proof EV as (Lv & Ev & NZ).
  assert (HQ : s_bz S = s_bij S) by congruence.
  set (L := between (nsites c) (point w) (zrange 0 (nsites c)) (zrange 0 (nsites c))).
  pose proof P as (A1 & A2 & A3 & A4 & _). pose proof P' as (B1 & B2 & B3 & B4 & _). pose proof (proper_n c P) as N0.
  set (j := (half * qz (Z.abs (nalpha c' - nbeta c')))%Qc).
  assert (Lv' : zlen v = nb_conf c) by (now rewrite (dim_is E c w K S arg l m HE HF P HA) in Lv).
  assert (LL : length v = length l) by (apply Nat2Z.inj; change (zlen v = zlen l); rewrite Lv', (basis_is c l P (proj1 HA)); symmetry; apply (proper_length c P)).
  assert (G : other_level (nsites c) (nholes c) L K S (j * (j + 1)) e (nbeta c)).
  { exists (wave_of c v). split; [apply wave_on|]. split; [now apply (solves_vector E c w K S arg l m)|]. split; [|now apply (some_vector E c w K S arg l m)].
    destruct (S2_ok E c HE P HO v Lv') as (u & Qu & Lu & Vu).
    destruct (existsb (fun k => if Qc_eq_dec (nth k u 0 - j * (j + 1) * nth k v 0)%Qc 0%Qc then false else true) (seq 0 (length v))) eqn:X.
    - apply existsb_exists in X. destruct X as (k & Ik & Nk). apply in_seq in Ik. unfold zlen in Lv'. destruct (ix_onto c P (Z.of_nat k) ltac:(lia)) as (s & Hs & Is & _).
      exists s. split; [assumption|]. unfold spins. rewrite <- Vu by assumption. unfold wave_of. rewrite Is. unfold vat. rewrite Nat2Z.id. destruct (Qc_eq_dec _ _); [discriminate Nk | assumption].
    - exfalso. assert (U : u = map (fun y => (j * (j + 1) * y)%Qc) v).
      { apply nth_ext with (d := 0%Qc) (d' := (j * (j + 1) * 0)%Qc); [now rewrite map_length|]. intros k Hk. rewrite (map_nth (fun y => (j * (j + 1) * y)%Qc)).
        rewrite <- not_true_iff_false, existsb_exists in X. destruct (Qc_eq_dec (nth k u 0 - j * (j + 1) * nth k v 0)%Qc 0%Qc) as [Z0|Z0].
        - transitivity (nth k u 0 - j * (j + 1) * nth k v 0 + j * (j + 1) * nth k v 0)%Qc; [ring | rewrite Z0; ring].
        - exfalso. apply X. exists k. split; [apply in_seq; lia|]. destruct (Qc_eq_dec _ _); [contradiction | reflexivity]. }
      destruct (C38_value_pf E c l v HE P HO (proj1 HA) LL NZ) as (v2 & y & R1 & R2 & R3 & R4). rewrite Qu in R1. injection R1 as <-. rewrite U, inner_scale_r in R4.
      assert (Y : y = (j * (j + 1))%Qc).
      { assert (Q : ((y - j * (j + 1)) * inner v v)%Qc = 0%Qc) by (transitivity (y * inner v v - j * (j + 1) * inner v v)%Qc; [ring | rewrite R4; ring]).
        apply Qcmult_integral in Q. destruct Q as [Q|Q]; [|contradiction]. transitivity (y - j * (j + 1) + j * (j + 1))%Qc; [ring | rewrite Q; ring]. }
      destruct (C38_bounds_pf E c l v y HE P HO (proj1 HA) LL NZ R2) as [LB _]. rewrite Y in LB.
      set (J := (half * qz (Z.abs (nalpha c - nbeta c)))%Qc) in LB.
      assert (H1 : (0 <= j)%Qc) by (unfold j; rewrite <- (Qcmult_0_l (qz (Z.abs (nalpha c' - nbeta c')))); apply Qcmult_le_compat_r; [discriminate | apply Qcle_this; rewrite this_qz; change (this 0%Qc) with (inject_Z 0); rewrite <- Zle_Qle; lia]).
      assert (H2 : (j < J)%Qc).
      { unfold j, J. rewrite !(Qcmult_comm half). apply Qcmult_lt_compat_r; [reflexivity|]. apply qz_lt. lia. }
      assert (H3 : (0 < (J - j) * (J + j + 1))%Qc).
      { rewrite <- (Qcmult_0_l (J + j + 1)%Qc). apply Qcmult_lt_compat_r; qc. }
      apply (Qclt_not_le _ _ H3). replace ((J - j) * (J + j + 1))%Qc with (J * (J + 1) - j * (j + 1))%Qc by ring. revert LB. generalize (J * (J + 1))%Qc (j * (j + 1))%Qc. intros a b Hab. qc. }
  apply (sectors_reached (other_level (nsites c) (nholes c) L K S (j * (j + 1)) e) (nsites c) (nholes c) (nalpha c) (nbeta c) (nalpha c') (nbeta c')) in G; try lia.
  - destruct G as (psi & O & He & N1 & N). assert (Hh : nholes c' = nholes c) by congruence. rewrite <- Hn, <- Hh in *. unfold L in He. rewrite <- Hn in He.
    destruct (vector_solves E c' w K S arg' l' m' HE HF' P' HA' e psi O He N) as (v' & EV' & Lv2 & V').
    pose proof EV' as (Lw & Ew & NZ'). pose proof (LOW v' Lw) as LE. rewrite (eigen_mean _ _ _ Ew) in LE.
    assert (IP : (0 < inner v' v')%Qc).
    { pose proof (inner_nonneg v') as I0. apply Qcle_lt_or_eq in I0. destruct I0 as [I0|I0]; [exact I0|]. exfalso. destruct NZ' as (y & Iy & Ny). apply Ny. apply (proj1 (inner_zero v')); [now symmetry | assumption]. }
    destruct (Qclt_le_dec e' e) as [Lt|Ge]; [exact Lt|]. exfalso. assert (EE : e' = e).
    { apply Qcle_antisym; [|assumption]. destruct (Qclt_le_dec e e') as [Lt|]; [|assumption]. exfalso. apply (Qclt_not_le _ _ (Qcmult_lt_compat_r _ _ _ IP Lt)). exact LE. }
    subst e'. destruct (C91_spin_pf E c' w K S arg' l' m' e v' HE HF' P' HA' H0' HB HZ HJ LOW EV') as [S2 _]. fold j in S2.
    destruct N1 as (s & Hs & Ns). apply Ns. rewrite <- (spins_vector E c' HE P' HO' _ v' Lv2 S2 s Hs). unfold spins. rewrite V' by assumption. f_equal.
    symmetry. apply squared_sector; try assumption. apply wave_on.
  - intros k Hk Hk'. apply other_lowered; (assumption || reflexivity).
  - intros k Hk Hk'. apply other_flipped; (assumption || reflexivity).
Qed.

(** ** C93 *)
Lemma sites_two : forall k, 0 <= k -> sites (2 * (k + 1)) = sites (2 * k) ++ [2 * k; 2 * k + 1].
Proof.
  intros k Hk. unfold sites. replace (Z.to_nat (2 * (k + 1))) with (Z.to_nat (2 * k) + 2)%nat by lia. rewrite seq_app, map_app. f_equal.
  cbn [seq map]. repeat f_equal; lia.
Qed.
Lemma sign_pairs : forall f k, 0 <= k -> (forall x, 0 <= x < k -> f (2 * x + 1) = negb (f (2 * x))) -> sign_of (2 * k) f = minus (Z.odd k).
Proof.
  intros f k Hk. revert f. pattern k. apply natlike_ind; [reflexivity| |assumption]. clear k Hk. intros k Hk IH f H. rewrite <- Z.add_1_r in *.
  unfold sign_of. rewrite sites_two, fold_right_app by assumption. cbn [fold_right]. rewrite (H k) by lia.
  replace (if f (2 * k) then (- (if negb (f (2 * k)%Z) then - (1) else 1))%Qc else if negb (f (2 * k)) then (- (1))%Qc else 1%Qc) with (- (1))%Qc by (destruct (f (2 * k)); reflexivity).
  assert (G : forall l a, fold_right (fun x a => if f x then (- a)%Qc else a) a l = (a * fold_right (fun x a => if f x then (- a)%Qc else a) 1%Qc l)%Qc).
  { induction l as [|x l IHl]; intros a; cbn [fold_right]; [ring|]. rewrite IHl. destruct (f x); ring. }
  rewrite G. change (fold_right (fun x a => if f x then (- a)%Qc else a) 1%Qc (sites (2 * k))) with (sign_of (2 * k) f). rewrite IH by (intros x Hx; apply H; lia).
  rewrite Z.odd_add. destruct (Z.odd k); cbn; ring.
Qed.

Lemma C93_reversed_pf : forall E c w K S arg l m e v, set_iter_ok E -> filled_whole c w -> proper c -> assembled E c K S arg l m ->
  nholes c = 0 -> nalpha c = nbeta c -> s_bij S = true -> (0 < i_J K)%Qc -> (forall u, zlen u = csr_dim m -> (e * inner u u <= csr_mean m u)%Qc) ->
  eigenvector m e v ->
  reverse_spins_vect 0%Qc E (mkBasis c l) v = Ok (map (fun x => if Z.odd (nbeta c) then (- x)%Qc else x) v).
Proof.
  intros E c w K S arg l m e v HE HF P HA H0 Hab HB HJ LOW EV. pose proof EV as (Lv & Ev & NZ).
  destruct (C90_unique_pf E c w K S arg l m e HE HF HA H0 HB HJ LOW v EV) as [SG UN].
  rewrite (dim_is E c w K S arg l m HE HF P HA) in Lv. pose proof (basis_is c l P (proj1 HA)) as El. pose proof P as (A1 & A2 & A3 & A4 & A5 & A6).
  pose proof HF as (RM & _). destruct (rows_of c w RM) as (hh & Hhh & Hw & HN). pose proof (proper_n c P) as N0.
  pose proof (row_major_drawn c w RM) as (P0 & P1 & _).
  assert (Hc : conf_ok c).
  { destruct RM as (h & vv & ss & Hh & Hv & Hs & _ & HC & HR & _). constructor; try assumption. rewrite (rect_n c h vv ss Hh Hv Hs HC HR). nia. }
  assert (ZL : zlen v = comb (nsites c) (nholes c) * comb (nsites c - nholes c) (nbeta c)).
  { rewrite Lv, <- (proper_length c P). unfold zlen. rewrite dets_length by assumption. now rewrite !Z2Nat.id by assumption. }
  destruct (reverse_vect_ok Qc 0%Qc E c v HE Hc A6 A1 A2 A3 ZL) as (u & Eu & Lu & _ & Vu). rewrite El, Eu. f_equal. clear Eu.
  assert (FI : forall s, in_sector (nsites c) (nholes c) (nbeta c) s -> in_sector (nsites c) (nholes c) (nbeta c) (flip_state s)).
  { intros s Hs. replace (nbeta c) with (nsites c - nholes c - nbeta c) by lia. now apply flip_in. }
  assert (WU : forall s, in_sector (nsites c) (nholes c) (nbeta c) s -> wave_of c u s = wave_of c v (flip_state s)).
  { intros s Hs. specialize (Vu (flip_state s) (FI s Hs)). rewrite Hab in Vu.
    rewrite (state_index_same _ _ _ (flip_state (flip_state s)) s) in Vu by (intros x _; apply flip_twice). unfold wave_of, vat.
    rewrite <- !nth_default_eq. unfold nth_default. now rewrite Vu. }
  pose proof (wave_on c v) as Ov. set (psi := wave_of c v) in *.
  set (L := between (nsites c) (point w) (zrange 0 (nsites c)) (zrange 0 (nsites c))).
  assert (SO : solves (nsites c) (nholes c) L K S (nbeta c) (fun t => psi (flip_state t)) e).
  { intros t Ht. apply (flipped_tj (nsites c) (nholes c) L K S N0 A1 eq_refl (fun x _ => eq_refl) (nbeta c) psi e A2); [lia | exact Ov| |].
    - apply (solves_vector E c w K S arg l m); try assumption; now rewrite (dim_is E c w K S arg l m HE HF P HA).
    - replace (nsites c - nholes c - nbeta c) with (nbeta c) by lia. exact Ht. }
  assert (SM : exists s, in_sector (nsites c) (nholes c) (nbeta c) s /\ psi s <> 0%Qc) by (apply (some_vector E c w K S arg l m); try assumption; now rewrite (dim_is E c w K S arg l m HE HF P HA)).
  assert (SM' : exists s, in_sector (nsites c) (nholes c) (nbeta c) s /\ psi (flip_state s) <> 0%Qc).
  { destruct (some_flipped (nsites c) (nholes c) N0 (nbeta c) psi Ov SM) as (s & Hs & Ns). exists s. split; [|assumption]. replace (nbeta c) with (nsites c - nholes c - nbeta c) by lia. exact Hs. }
  destruct (vector_solves E c w K S arg l m HE HF P HA e (fun t => psi (flip_state t)) (flipped_on _ _ Ov) SO SM') as (v' & EV' & Lv' & V').
  assert (UV : u = v').
  { apply vat_ext; [unfold zlen in *; lia|]. intros k Hk. unfold zlen in *. destruct (ix_onto c P k ltac:(lia)) as (s & Hs & <- & _).
    change (wave_of c u s = wave_of c v' s). now rewrite WU, V'. }
  destruct (UN v' EV') as (x & X). subst v'.
  assert (PX : forall s, in_sector (nsites c) (nholes c) (nbeta c) s -> psi (flip_state s) = (x * psi s)%Qc).
  { intros s Hs. rewrite <- WU by assumption. rewrite X. unfold wave_of. change (map (fun y => (x * y)%Qc) v) with (vscale x v). apply vat_scale. }
  destruct SM as (s0 & Hs0 & Ns0).
  set (ds := down_sign (nsites c) (point w)).
  assert (SIG : forall s, in_sector (nsites c) (nholes c) (nbeta c) s -> exists k, nth_error l k = Some (canon (nsites c) s) /\ nth k v 0%Qc = psi s).
  { intros s Hs. exists (Z.to_nat (state_index (nsites c) (nholes c) (nbeta c) s)). split; [|reflexivity].
    pose proof (nth_dets (nsites c) (Z.to_nat (nholes c)) (Z.to_nat (nbeta c)) s N0) as N. rewrite !Z2Nat.id in N by assumption. rewrite El. now apply N. }
  assert (X2 : (x * x)%Qc = 1%Qc).
  { pose proof (PX (flip_state s0) (FI s0 Hs0)) as Q. rewrite (PX s0 Hs0) in Q. rewrite (Ov (flip_state (flip_state s0)) s0) in Q by (intros y _; apply flip_twice).
    assert (Q' : ((x * x - 1) * psi s0)%Qc = 0%Qc) by (transitivity (x * (x * psi s0) - psi s0)%Qc; [ring | rewrite <- Q; ring]).
    apply Qcmult_integral in Q'. destruct Q' as [Q'|Q']; [|contradiction]. transitivity (x * x - 1 + 1)%Qc; [ring | rewrite Q'; ring]. }
  assert (XS : x = (ds s0 * ds (flip_state s0))%Qc).
  { destruct (SIG s0 Hs0) as (k & Nk & Vk). destruct (SIG _ (FI s0 Hs0)) as (k' & Nk' & Vk'). pose proof (canon_describes _ _ _ _ Hs0) as D. pose proof (canon_describes _ _ _ _ (FI s0 Hs0)) as D'.
    assert (POS : exists g : Qc, (0 < g * (ds s0 * psi s0))%Qc /\ (0 < g * (ds (flip_state s0) * (x * psi s0)))%Qc).
    { destruct SG as [SG|SG]; pose proof (SG k _ _ Nk D) as G1; pose proof (SG k' _ _ Nk' D') as G2; rewrite Vk in G1; rewrite Vk', (PX s0 Hs0) in G2; fold ds in G1, G2.
      - exists 1%Qc. rewrite !Qcmult_1_l. auto.
      - exists (- (1))%Qc. revert G1 G2. generalize (ds s0 * psi s0)%Qc (ds (flip_state s0) * (x * psi s0))%Qc. intros a b G1 G2. split; qc. }
    destruct POS as (g & G1 & G2). set (A := (ds s0 * ds (flip_state s0))%Qc).
    assert (D1 : (ds s0 * ds s0)%Qc = 1%Qc) by apply sign_square. assert (D2 : (ds (flip_state s0) * ds (flip_state s0))%Qc = 1%Qc) by apply sign_square.
    assert (A2' : (A * A)%Qc = 1%Qc) by (unfold A; transitivity ((ds s0 * ds s0) * (ds (flip_state s0) * ds (flip_state s0)))%Qc; [ring | rewrite D1, D2; ring]).
    assert (G3 : (g * (ds (flip_state s0) * (x * psi s0)) = (x * A) * (g * (ds s0 * psi s0)))%Qc).
    { unfold A. transitivity ((ds s0 * ds s0) * (g * (ds (flip_state s0) * (x * psi s0))))%Qc; [rewrite D1; ring | ring]. }
    assert (XA : (x * A)%Qc = 1%Qc \/ (x * A)%Qc = (- (1))%Qc).
    { assert (Q' : ((x * A - 1) * (x * A + 1))%Qc = 0%Qc) by (transitivity ((x * x) * (A * A) - 1)%Qc; [ring | rewrite X2, A2'; ring]).
      apply Qcmult_integral in Q'; destruct Q' as [Q'|Q']; [left; transitivity (x * A - 1 + 1)%Qc; [ring | rewrite Q'; ring] | right; transitivity (x * A + 1 - 1)%Qc; [ring | rewrite Q'; ring]]. }
    destruct XA as [XA|XA].
    - transitivity (x * (A * A))%Qc; [rewrite A2'; ring|]. transitivity (x * A * A)%Qc; [ring | rewrite XA; ring].
    - exfalso. rewrite G3, XA in G2. revert G1 G2. generalize (g * (ds s0 * psi s0))%Qc. intros a G1 G2. apply (Qclt_not_le _ _ G1). apply Qclt_le_weak. revert G2. clear. intros G2. qc. }
  assert (SGN : x = minus (Z.odd (nbeta c))).
  { rewrite XS. unfold ds, down_sign. rewrite sign_mul. rewrite <- (sign_pairs (fun y => black (point w y)) (nbeta c) A2).
    - replace (2 * nbeta c) with (nsites c) by lia. apply sign_ext. intros y Hy. pose proof (canon_describes _ _ _ _ Hs0) as D. pose proof (no_holes c _ _ D H0 y Hy) as NH.
      unfold flip_state. destruct (s0 y); [congruence| |]; cbn [flip_particle downb andb xorb]; now destruct (black (point w y)).
    - intros y Hy. pose proof (point_colours w (nbeta c) (2 * y) Hw ltac:(lia)) as Q. unfold partner in Q. rewrite Z.even_mul in Q. exact Q. }
  rewrite X, SGN. apply map_ext. intros y. destruct (Z.odd (nbeta c)); cbn [minus]; ring.
Qed.
