(** The spin operators of the program. *)
From Coq Require Import ZArith List Bool Lia Permutation Sorted QArith Qcanon.
From Verif Require Import PyBase PyFacts Lattice Base Interact Spin Spec SpecOps SpecTJ SpecSpin SpinDefs
  PBasis PSites PRot PInter PSpin POps PHam FBasis FSites PWave PVec.
Import ListNotations.
Open Scope Z_scope.

Lemma NoDup_snoc : forall A (l : list A) x, NoDup l -> ~ In x l -> NoDup (l ++ [x]).
Proof. intros A l x ND N. apply (Permutation_NoDup (l := x :: l)); [apply Permutation_cons_append | now constructor]. Qed.

Lemma filter_NoDup : forall A (f : A -> bool) l, NoDup l -> NoDup (filter f l).
Proof. intros. now apply NoDup_filter. Qed.

(** holes are listed in increasing order *)
Lemma holes_sorted : forall E c d s l, set_iter_ok E -> proper c -> holes_in_order E c -> conf_describes c d s ->
  get_indexes_of E c d 0 0 = Ok l -> l = sites_of (nsites c) s Hole.
Proof.
  intros E c d s l HE P HO D El.
  destruct (indexes_unrestricted E c d s Hole 0 HE (proper_unrestricted c P) D) as (l' & El' & ND & I & Len).
  change (spin_code Hole) with 0 in El'. rewrite El in El'. injection El' as <-.
  apply sorted_perm_eq.
  - destruct HO as [HO|HO].
    + assert (Hl : zlen l <= 1).
      { rewrite Len. destruct (describes_sector _ _ _ _ _ D) as [-> _]. exact HO. }
      destruct l as [|x [|y l]]; [constructor | repeat constructor | unfold zlen in Hl; cbn [length] in Hl; lia].
    + apply sorted_lt_le. unfold get_indexes_of in El. rewrite (proper_unrestricted c P) in El. cbn [bind Z.eqb] in El. injection El as <-.
      unfold py_set_and. destruct (HE (py_slice d 0 (nholes c))) as [_ S1]. destruct (HE (zrange 0 (nsites c))) as [_ S2].
      destruct (_ <=? _); apply HO; intros x Hx; apply filter_In in Hx; destruct Hx as [Hx1 Hx2].
      * apply S2 in Hx1. now apply in_zrange in Hx1.
      * apply mem_In in Hx2. apply S2 in Hx2. now apply in_zrange in Hx2.
  - apply sorted_lt_le. apply sites_of_sorted.
  - apply NoDup_Permutation; [assumption | apply sites_of_NoDup|]. intros x. rewrite I, in_sites_of. reflexivity.
Qed.

Lemma sorted_is : forall n s p l, NoDup l -> (forall x, In x l <-> 0 <= x < n /\ s x = p) -> zsort l = sites_of n s p.
Proof.
  intros n s p l ND I. apply sorted_perm_eq; [apply zsort_sorted | apply sorted_lt_le, sites_of_sorted|].
  eapply Permutation_trans; [apply zsort_perm|]. apply NoDup_Permutation; [assumption | apply sites_of_NoDup|].
  intros x. rewrite I, in_sites_of. reflexivity.
Qed.

Lemma sites_swap_hole : forall n s i j, 0 <= i < n -> 0 <= j < n -> s i <> Hole -> s j <> Hole ->
  sites_of n (swap_state i j s) Hole = sites_of n s Hole.
Proof.
  intros n s i j Hi Hj Ni Nj. apply sorted_perm_eq; try (apply sorted_lt_le, sites_of_sorted).
  apply NoDup_Permutation; try apply sites_of_NoDup. intros x. rewrite !in_sites_of. unfold swap_state.
  destruct (Z.eqb_spec x i); [subst; intuition congruence|]. destruct (Z.eqb_spec x j); [subst; intuition congruence|]. reflexivity.
Qed.

Lemma spm_det_ok : forall E c s i j, set_iter_ok E -> proper c -> holes_in_order E c ->
  in_sector (nsites c) (nholes c) (nbeta c) s -> 0 <= i < nsites c -> 0 <= j < nsites c ->
  compute_S_plus_S_minus_det E c (canon (nsites c) s) i j =
  Ok (if samep (s i) Down && samep (s j) Up then Some (canon (nsites c) (swap_state i j s)) else None).
Proof.
  intros E c s i j HE P HO Hs Hi Hj. pose proof (canon_describes _ _ _ _ Hs) as D. pose proof (proper_unrestricted c P) as U.
  destruct (indexes_unrestricted E c _ s Up 0 HE U D) as (la & Ea & Na & Ia & _).
  destruct (indexes_unrestricted E c _ s Down 0 HE U D) as (lb & Eb & Nb & Ib & _).
  destruct (indexes_unrestricted E c _ s Hole 0 HE U D) as (lh & Eh & Nh & Ih & _).
  cbn [spin_code] in *. unfold compute_S_plus_S_minus_det. rewrite Ea, Eb. cbn [bind].
  assert (Mb : mem i lb = samep (s i) Down).
  { apply eq_true_iff_eq. rewrite mem_In, Ib, samep_iff. tauto. }
  assert (Ma : mem j la = samep (s j) Up).
  { apply eq_true_iff_eq. rewrite mem_In, Ia, samep_iff. tauto. }
  rewrite Mb, Ma. destruct (samep (s i) Down) eqn:Q1; cbn [andb]; [|reflexivity]. destruct (samep (s j) Up) eqn:Q2; [|reflexivity].
  apply samep_iff in Q1, Q2.
  rewrite (py_remove_spec la j Na) by (apply Ia; auto). cbn [bind]. rewrite (py_remove_spec lb i Nb) by (apply Ib; auto). cbn [bind].
  rewrite Eh. cbn [bind]. rewrite (holes_sorted E c _ s lh HE P HO D Eh). f_equal. f_equal. unfold canon.
  rewrite sites_swap_hole by (assumption || congruence). f_equal. f_equal.
  - apply sorted_is.
    + apply NoDup_snoc; [apply filter_NoDup, Nb |].
      intros Hx. apply filter_In in Hx. destruct Hx as [Hx _]. apply Ib in Hx. destruct Hx. congruence.
    + intros x. rewrite in_app_iff, filter_In, negb_true_iff, Z.eqb_neq, Ib. cbn [In]. unfold swap_state.
      destruct (Z.eqb_spec x i) as [->|]; [intuition congruence|]. destruct (Z.eqb_spec x j) as [->|]; intuition congruence.
  - apply sorted_is.
    + apply NoDup_snoc; [apply filter_NoDup, Na |].
      intros Hx. apply filter_In in Hx. destruct Hx as [Hx _]. apply Ia in Hx. destruct Hx. congruence.
    + intros x. rewrite in_app_iff, filter_In, negb_true_iff, Z.eqb_neq, Ia. cbn [In]. unfold swap_state.
      destruct (Z.eqb_spec x i) as [->|]; [intuition congruence|]. destruct (Z.eqb_spec x j) as [->|]; intuition congruence.
Qed.

Section Op.
Variables (E : runtime) (c : configuration).
Hypothesis HE : set_iter_ok E.
Hypothesis P : proper c.
Hypothesis HO : holes_in_order E c.
Local Notation n := (nsites c).
Local Notation sec := (in_sector (nsites c) (nholes c) (nbeta c)).
Local Notation ix := (state_index (nsites c) (nholes c) (nbeta c)).

Lemma swap_sector : forall s i j, sec s -> 0 <= i < n -> 0 <= j < n -> sec (swap_state i j s).
Proof.
  intros s i j Hs Hi Hj. eapply describes_sector. apply (swap_describes _ _ _ (canon n s)); try assumption. now apply canon_describes.
Qed.

Lemma nonempty_canon : forall s, sec s -> 0 < n -> exists x l, canon n s = x :: l.
Proof.
  intros s Hs Hn. destruct (canon n s) as [|x l] eqn:Q; [|eauto]. exfalso.
  pose proof (describes_In _ _ _ _ _ 0 (canon_describes _ _ _ _ Hs)) as I.  rewrite Q in I. destruct I as [_ I]. apply I. lia.
Qed.

(** one pair of sites *)
Lemma spm_ok : forall v i j, zlen v = nb_conf c -> 0 <= i < n -> 0 <= j < n ->
  exists u, compute_S_plus_S_minus E c v i j = Ok u /\ length u = length v /\
    forall t, sec t -> wave_of c u t = only (samep (t i) Up && samep (t j) Down) (wave_of c v (swap_state i j t)).
Proof.
  intros v i j Lv Hi Hj. assert (Pn : 0 < n) by lia.
  assert (DS : forall k, 0 <= k < nb_conf c -> exists s, sec s /\ ix s = k /\
    get_hash_basis (nholes c) (nalpha c) (nbeta c) k = Ok (canon n s)).
  { intros k Hk. destruct (ix_onto c P k Hk) as (s & A & B & C & _). eauto. }
  set (dest := fun k => match get_hash_basis (nholes c) (nalpha c) (nbeta c) k with
     | Ok d => let s := state_of c d in if samep (s i) Down && samep (s j) Up then Some (ix (swap_state i j s)) else None | Err _ => None end).
  assert (DE : forall s, sec s -> dest (ix s) = if samep (s i) Down && samep (s j) Up then Some (ix (swap_state i j s)) else None).
  { intros s Hs. destruct (DS (ix s)) as (s' & Hs' & Q & G); [now apply ix_range|]. unfold dest. rewrite G.
    pose proof (state_of_describes c (canon n s') s' (canon_describes _ _ _ _ Hs')) as S1.
    pose proof (state_index_inj _ _ _ _ _ (proper_n c P) Hs' Hs Q) as S2.
    assert (S3 : same_state n (state_of c (canon n s')) s) by (intros x Hx; rewrite (S1 x Hx); now apply S2).
    cbv zeta. rewrite (S3 i Hi), (S3 j Hj). destruct (_ && _); [|reflexivity]. f_equal. apply state_index_same.
    intros x Hx. unfold swap_state. destruct (x =? i); [now apply S3|]. destruct (x =? j); now apply S3. }
  destruct (plus_fold dest (vat v) (zrange 0 (nb_conf c)) (vzeros v)) as (u & Eu & Lu & Vu).
  { intros k i' Hk Q. apply in_zrange in Hk. destruct (DS k Hk) as (s & Hs & <- & _). rewrite (DE s Hs) in Q.
    destruct (_ && _); [|discriminate]. injection Q as <-. unfold zlen. rewrite vzeros_length. change (0 <= ix (swap_state i j s) < zlen v). rewrite Lv.
    apply (ix_range c P). now apply swap_sector. }
  exists u. split; [|split].
  - unfold compute_S_plus_S_minus. rewrite <- Eu. apply foldM_ext. intros acc k Hk. apply in_zrange in Hk.
    destruct (DS k Hk) as (s & Hs & Q & G). rewrite G. cbn [bind]. pose proof (spm_det_ok E c s i j HE P HO Hs Hi Hj) as SD. rewrite SD. cbn [bind].
    rewrite <- Q, (DE s Hs). destruct (_ && _); [|reflexivity].
    destruct (nonempty_canon _ (swap_sector s i j Hs Hi Hj) Pn) as (x & l & Q'). change (nsites c) with n. rewrite Q'. rewrite <- Q'.
    rewrite (index_of_canon c _ (swap_sector s i j Hs Hi Hj)). cbn [bind]. rewrite vat_get; [reflexivity|]. rewrite Q. now rewrite Lv.
  - now rewrite Lu, vzeros_length.
  - intros t Ht. unfold wave_of. rewrite Vu by apply state_index_nonneg. rewrite vat_zeros.
    transitivity (qsum (fun k => only (match dest k with Some i' => i' =? ix t | None => false end) (vat v k)) (zrange 0 (nb_conf c))); [ring|].
    pose proof (swap_sector t i j Ht Hi Hj) as Hu.
    destruct (samep (t i) Up && samep (t j) Down) eqn:Q; cbn [only].
    + apply andb_true_iff in Q. destruct Q as [Q1 Q2]. apply samep_iff in Q1, Q2.
      assert (Nij : i <> j) by (intros ->; congruence).
      rewrite (sum_one c P _ (swap_state i j t) Hu).
      * change (state_index (nsites c) (nholes c) (nbeta c)) with ix. rewrite (DE _ Hu).
        assert (A1 : swap_state i j t i = Down) by (unfold swap_state; rewrite Z.eqb_refl; assumption).
        assert (A2 : swap_state i j t j = Up) by (unfold swap_state; destruct (Z.eqb_spec j i); [congruence|]; rewrite Z.eqb_refl; assumption).
        rewrite A1, A2. cbn [samep]. replace (samep Down Down && samep Up Up) with true by reflexivity.
        assert (ix (swap_state i j (swap_state i j t)) =? ix t = true) as ->; [|reflexivity].
        apply Z.eqb_eq. apply state_index_same. intros x Hx. unfold swap_state. rewrite !Z.eqb_refl.
        destruct (Z.eqb_spec x i), (Z.eqb_spec x j), (Z.eqb_spec j i); subst; congruence.
      * intros s Hs N. change (state_index (nsites c) (nholes c) (nbeta c)) with ix. rewrite (DE _ Hs).
        destruct (_ && _) eqn:Q; [|reflexivity]. apply andb_true_iff in Q. destruct Q as [Q3 Q4]. apply samep_iff in Q3, Q4.
        destruct (Z.eqb_spec (ix (swap_state i j s)) (ix t)) as [Q|]; [|reflexivity]. exfalso. apply N.
        apply (state_index_inj _ _ _ _ _ (proper_n c P) (swap_sector s i j Hs Hi Hj) Ht) in Q. intros x Hx.
        unfold swap_state. pose proof (Q x Hx) as Qx. unfold swap_state in Qx.
        destruct (Z.eqb_spec x i); [subst; congruence|]. destruct (Z.eqb_spec x j); [subst; congruence | assumption].
    + apply (sum_none c P). intros s Hs. change (state_index (nsites c) (nholes c) (nbeta c)) with ix. rewrite (DE _ Hs).
      destruct (samep (s i) Down && samep (s j) Up) eqn:Q'; [|reflexivity]. destruct (Z.eqb_spec (ix (swap_state i j s)) (ix t)) as [R|]; [|reflexivity]. exfalso.
      apply (state_index_inj _ _ _ _ _ (proper_n c P) (swap_sector s i j Hs Hi Hj) Ht) in R.
      apply andb_true_iff in Q'. destruct Q' as [Q3 Q4]. apply samep_iff in Q3, Q4.
      assert (T1 : t i = Up) by (rewrite <- (R i Hi); unfold swap_state; rewrite Z.eqb_refl; assumption).
      assert (T2 : t j = Down). { rewrite <- (R j Hj). unfold swap_state. destruct (Z.eqb_spec j i); [congruence|]. rewrite Z.eqb_refl. assumption. }
      rewrite T1, T2 in Q. discriminate.
Qed.

Definition spm (v : list Qc) (i j : Z) : list Qc := match compute_S_plus_S_minus E c v i j with Ok u => u | Err _ => [] end.

Lemma spm_eq : forall v i j, zlen v = nb_conf c -> 0 <= i < n -> 0 <= j < n ->
  compute_S_plus_S_minus E c v i j = Ok (spm v i j) /\ length (spm v i j) = length v /\
    forall t, sec t -> wave_of c (spm v i j) t = only (samep (t i) Up && samep (t j) Down) (wave_of c v (swap_state i j t)).
Proof. intros v i j Lv Hi Hj. destruct (spm_ok v i j Lv Hi Hj) as (u & Eu & R). unfold spm. rewrite Eu. auto. Qed.

Lemma wave_add : forall u v t, length u = length v -> wave_of c (vadd u v) t = (wave_of c u t + wave_of c v t)%Qc.
Proof. intros. unfold wave_of. now apply vat_add. Qed.

Lemma inner_ok : forall v i l acc, zlen v = nb_conf c -> 0 <= i < n -> (forall j, In j l -> 0 <= j < n) -> length acc = length v ->
  exists u, foldM (fun a j => x <- compute_S_plus_S_minus E c v i j ;; y <- compute_S_plus_S_minus E c v j i ;; Ok (vadd a (vadd x y))) acc l = Ok u /\
    length u = length v /\
    forall t, wave_of c u t = (wave_of c acc t + qsum (fun j => wave_of c (spm v i j) t + wave_of c (spm v j i) t)%Qc l)%Qc.
Proof.
  intros v i l. induction l as [|j l IH]; intros acc Lv Hi Hl La; cbn [foldM].
  - exists acc. split; [reflexivity|]. split; [assumption|]. intros t. rewrite qsum_nil. ring.
  - assert (Hj : 0 <= j < n) by (apply Hl; now left).
    destruct (spm_eq v i j Lv Hi Hj) as (E1 & L1 & _). destruct (spm_eq v j i Lv Hj Hi) as (E2 & L2 & _). rewrite E1, E2. cbn [bind].
    assert (LA : length (vadd (spm v i j) (spm v j i)) = length v) by (rewrite vadd_length; congruence).
    destruct (IH (vadd acc (vadd (spm v i j) (spm v j i))) Lv Hi) as (u & Eu & Lu & Vu).
    { intros j' Hj'. apply Hl. now right. }
    { rewrite vadd_length; congruence. }
    exists u. split; [exact Eu|]. split; [exact Lu|]. intros t. rewrite Vu, qsum_cons, !wave_add by congruence. ring.
Qed.

Lemma outer_ok : forall v l acc, zlen v = nb_conf c -> (forall i, In i l -> 0 <= i < n) -> length acc = length v ->
  exists u, foldM (fun a i => foldM (fun a j => x <- compute_S_plus_S_minus E c v i j ;; y <- compute_S_plus_S_minus E c v j i ;; Ok (vadd a (vadd x y))) a (zrange (i + 1) n)) acc l = Ok u /\
    length u = length v /\
    forall t, wave_of c u t = (wave_of c acc t + qsum (fun i => qsum (fun j => wave_of c (spm v i j) t + wave_of c (spm v j i) t)%Qc (zrange (i + 1) n)) l)%Qc.
Proof.
  intros v l. induction l as [|i l IH]; intros acc Lv Hl La; cbn [foldM].
  - exists acc. split; [reflexivity|]. split; [assumption|]. intros t. rewrite qsum_nil. ring.
  - assert (Hi : 0 <= i < n) by (apply Hl; now left).
    destruct (inner_ok v i (zrange (i + 1) n) acc Lv Hi) as (a & Ea & La' & Va); [intros j Hj; apply in_zrange in Hj; lia | assumption|].
    rewrite Ea. cbn [bind]. destruct (IH a Lv) as (u & Eu & Lu & Vu); [intros i' Hi'; apply Hl; now right | assumption|].
    exists u. split; [exact Eu|]. split; [exact Lu|]. intros t. rewrite Vu, Va, qsum_cons. ring.
Qed.

Lemma zrange_sum : forall a m f, 0 <= a -> qsum f (zrange a m) = sum_sites m (fun j => only (a <=? j) (f j)).
Proof.
  intros a m f Ha. unfold sum_sites. rewrite <- qsum_filter. apply qsum_perm. apply NoDup_Permutation.
  - apply zrange_NoDup.
  - apply NoDup_filter, sites_NoDup.
  - intros x. rewrite filter_In, in_zrange, in_sites, Z.leb_le. lia.
Qed.

Lemma num_sites : forall m t p, num m t p = qz (zlen (sites_of m t p)).
Proof.
  intros m t p. unfold num, sum_sites. rewrite sites_zrange, <- qsum_filter. unfold sites_of.
  rewrite (filter_ext (fun x => is_p (t x) p) (fun x => samep (t x) p)) by (intros x; destruct (t x), p; reflexivity).
  induction (filter (fun x => samep (t x) p) (zrange 0 m)) as [|x l IH]; [reflexivity|].
  rewrite qsum_cons, IH, zlen_cons, qz_add. rewrite Qcplus_comm. reflexivity.
Qed.

Lemma num_up : forall t, sec t -> num n t Up = qz (nalpha c).
Proof.
  intros t [H1 H2]. rewrite num_sites. f_equal. pose proof (sites_partition n t (proper_n c P)) as S. destruct P as (_ & _ & _ & A & _).
  lia.
Qed.
Lemma num_down : forall t, sec t -> num n t Down = qz (nbeta c).
Proof. intros t [H1 H2]. rewrite num_sites. f_equal. assumption. Qed.

Lemma s2_const : forall a b : Qc, (qfrac 3 4 * (a + b) + (a * (a - 1) / qz 2 + b * (b - 1) / qz 2 - a * b) / qz 2 =
  half * (a + b) + (half * (a - b)) * (half * (a - b)))%Qc.
Proof.
  intros a b. unfold Qcdiv. replace (/ qz 2)%Qc with half by (apply Qc_is_canon; reflexivity).
  replace (qfrac 3 4) with (half * half * (1 + 1 + 1))%Qc by (apply Qc_is_canon; reflexivity).
  transitivity (half * (a + b) + half * (a - b) * (half * (a - b)) + (a + b + a * b) * half * (half + half - 1))%Qc; [ring|].
  rewrite half_half. ring.
Qed.

Lemma S2_ok : forall v, zlen v = nb_conf c ->
  exists u, compute_S2 E c v = Ok u /\ length u = length v /\
    forall t, sec t -> wave_of c u t = S_squared n (wave_of c v) t.
Proof.
  intros v Lv. unfold compute_S2.
  destruct (outer_ok v (zrange 0 (n - 1)) (vscale (s2_constant c) v) Lv) as (u & Eu & Lu & Vu).
  { intros i Hi. apply in_zrange in Hi. lia. }
  { apply vscale_length. }
  exists u. split; [exact Eu|]. split; [exact Lu|]. intros t Ht. rewrite Vu.
  rewrite squared_form by apply wave_on. rewrite num_up, num_down by assumption.
  f_equal.
  - unfold wave_of. rewrite vat_scale. f_equal. unfold s2_constant. apply s2_const.
  - unfold flips.
    transitivity (sum_sites n (fun i => sum_sites n (fun j => only (i <? j) (wave_of c (spm v i j) t + wave_of c (spm v j i) t)%Qc))).
    + rewrite zrange_sum by lia. destruct (Z_le_dec n 0) as [N0|N0].
      { unfold sum_sites, sites. replace (Z.to_nat (n - 1)) with 0%nat by lia. replace (Z.to_nat n) with 0%nat by lia. reflexivity. }
      replace n with (n - 1 + 1) at 2 by lia. unfold sum_sites. rewrite (sites_zrange (n - 1 + 1)), zrange_snoc, <- sites_zrange, qsum_app, qsum_one by lia.
      transitivity (qsum (fun x => only (0 <=? x) (qsum (fun j => wave_of c (spm v x j) t + wave_of c (spm v j x) t)%Qc (zrange (x + 1) n))) (sites (n - 1)) + 0)%Qc; [ring|].
      f_equal.
      * apply qsum_ext. intros i Hi. apply in_sites in Hi. destruct (Z.leb_spec 0 i); [|lia]. cbn [only]. rewrite zrange_sum by lia.
        unfold sum_sites. replace (n - 1 + 1) with n by lia. apply qsum_ext. intros j _. f_equal. destruct (Z.leb_spec (i + 1) j), (Z.ltb_spec i j); lia || reflexivity.
      * symmetry. apply qsum_zero. intros j Hj. apply in_sites in Hj. destruct (Z.ltb_spec (n - 1) j); [lia | reflexivity].
    + rewrite <- (sum_pairs_split n (fun i j => only (samep (t i) Up && samep (t j) Down) (wave_of c v (swap_state i j t)))).
      * apply sum_sites_ext. intros i Hi. apply sum_sites_ext. intros j Hj. destruct (i <? j); [|reflexivity]. cbn [only].
        destruct (spm_eq v i j Lv Hi Hj) as (_ & _ & V1). destruct (spm_eq v j i Lv Hj Hi) as (_ & _ & V2). rewrite V1, V2 by assumption. reflexivity.
      * intros i Hi. destruct (t i); reflexivity.
Qed.
End Op.
