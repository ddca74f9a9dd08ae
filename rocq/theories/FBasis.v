(** Final lemmas for C01-C07. *)
From Coq Require Import ZArith List Bool Lia Permutation Sorted Factorial.
From Verif Require Import PyBase PyFacts Lattice Base Spec PHash PBasis PRank.
Import ListNotations.
Open Scope Z_scope.

Lemma count_below_zlen : forall (k : nat) s p, count_below k s p = zlen (sites_of (Z.of_nat k) s p).
Proof.
  induction k; intros s p; [reflexivity|]. cbn [count_below]. rewrite IHk.
  unfold sites_of. rewrite Nat2Z.inj_succ. replace (Z.succ (Z.of_nat k)) with (Z.of_nat k + 1) by lia.
  rewrite zrange_snoc by lia. rewrite filter_app, zlen_app. f_equal. simpl filter.
  destruct (particle_eq_dec (s (Z.of_nat k)) p) as [e|e].
  - apply is_p_eq in e. rewrite e. reflexivity.
  - apply is_p_neq in e. rewrite e. reflexivity.
Qed.

Lemma sector_iff : forall n h b s, sector n h b s <-> in_sector n h b s.
Proof.
  intros. unfold sector, in_sector. rewrite !count_below_zlen.
  destruct (Z_le_dec 0 n).
  - rewrite Z2Nat.id by assumption. tauto.
  - unfold sites_of. rewrite (zrange_nil 0 n) by lia. rewrite (zrange_nil 0 (Z.of_nat (Z.to_nat n))) by lia. tauto.
Qed.

Lemma sector_described : forall n h b s, sector n h b s <-> exists d, describes n h b d s.
Proof.
  intros. rewrite sector_iff. split.
  - intros H. exists (canon n s). now apply canon_describes.
  - intros (d & H). eapply describes_sector; eauto.
Qed.

Lemma C01_basis_enumerates_pf : forall c,
  0 <= nholes c -> 0 <= nbeta c -> nholes c + nbeta c <= nsites c ->
  exists l, construct_basis c = Ok (mkBasis c l) /\
    NoDup l /\
    (forall d, In d l <-> increasing_groups (nholes c) (nbeta c) d /\
                          exists s, describes (nsites c) (nholes c) (nbeta c) d s) /\
    (forall s, sector (nsites c) (nholes c) (nbeta c) s ->
       exists! i, exists d, nth_error l i = Some d /\ describes (nsites c) (nholes c) (nbeta c) d s) /\
    (forall d s, In d l -> describes (nsites c) (nholes c) (nbeta c) d s ->
       sector (nsites c) (nholes c) (nbeta c) s).
Proof.
  intros c Hh Hb Hn. rewrite construct_basis_ok by assumption. eexists. split; [reflexivity|].
  pose proof (in_dets (nsites c) (Z.to_nat (nholes c)) (Z.to_nat (nbeta c))) as I.
  rewrite !Z2Nat.id in I by assumption.
  pose proof (dets_NoDup (nsites c) (Z.to_nat (nholes c)) (Z.to_nat (nbeta c))) as ND.
  split; [exact ND|]. split; [split|split].
  - intros H. apply I in H as (s & Hs & ->); [|lia]. split; [now apply canon_increasing|].
    exists s. now apply canon_describes.
  - intros [Hi (s & Hs)]. apply I; [lia|]. exists s. split; [eapply describes_sector; eauto|].
    eapply increasing_canon; eauto.
  - intros s Hs. apply sector_iff in Hs.
    pose proof (nth_dets (nsites c) (Z.to_nat (nholes c)) (Z.to_nat (nbeta c)) s ltac:(lia)) as N.
    rewrite !Z2Nat.id in N by assumption. specialize (N Hs). eexists. split.
    + exists (canon (nsites c) s). split; [exact N|]. now apply canon_describes.
    + intros j (d & Hd & Hds).
      assert (d = canon (nsites c) s).
      { eapply increasing_canon; eauto. apply nth_error_In in Hd. apply I in Hd as (t & Ht & ->); [|lia].
        now apply canon_increasing. }
      subst d. rewrite NoDup_nth_error in ND. apply ND; [|congruence].
      apply nth_error_Some. congruence.
  - intros d s _ H. apply sector_described. eauto.
Qed.

Lemma binom_fact : forall n k, (k <= n)%nat ->
  binom n k * Z.of_nat (fact k * fact (n - k)) = Z.of_nat (fact n).
Proof.
  induction n; intros k Hk.
  - replace k with 0%nat by lia. reflexivity.
  - destruct k as [|k].
    + rewrite binom_0, Nat.sub_0_r. simpl (fact 0). lia.
    + rewrite binom_S. replace (S n - S k)%nat with (n - k)%nat by lia.
      assert (Fk : fact (S k) = (S k * fact k)%nat) by reflexivity.
      assert (Fn : fact (S n) = (S n * fact n)%nat) by reflexivity.
      pose proof (IHn k ltac:(lia)) as H1.
      destruct (Nat.eq_dec k n).
      * subst k. rewrite (binom_gt n (S n)) by lia. rewrite binom_diag, Nat.sub_diag.
        rewrite Nat.mul_1_r. lia.
      * pose proof (IHn (S k) ltac:(lia)) as H2.
        assert (Fr : fact (n - k) = ((n - k) * fact (n - S k))%nat).
        { replace (n - k)%nat with (S (n - S k)) by lia. reflexivity. }
        rewrite Z.mul_add_distr_r.
        replace (binom n k * Z.of_nat (fact (S k) * fact (n - k)))
          with (Z.of_nat (S k) * (binom n k * Z.of_nat (fact k * fact (n - k)))) by (rewrite Fk; lia).
        replace (binom n (S k) * Z.of_nat (fact (S k) * fact (n - k)))
          with (Z.of_nat (n - k) * (binom n (S k) * Z.of_nat (fact (S k) * fact (n - S k)))) by (rewrite Fr; lia).
        rewrite H1, H2, Fn, Nat2Z.inj_mul. rewrite <- Z.mul_add_distr_r. f_equal. lia.
Qed.

(** the binomial coefficient through factorials *)
Lemma C02_comb_factorial_pf : forall n k,
  (0 <= k <= n -> comb n k * Z.of_nat (fact (Z.to_nat k) * fact (Z.to_nat (n - k))) = Z.of_nat (fact (Z.to_nat n)))
  /\ (k < 0 \/ n < k -> comb n k = 0).
Proof.
  intros n k. split.
  - intros H. rewrite comb_binom' by lia. pose proof (binom_fact (Z.to_nat n) (Z.to_nat k) ltac:(lia)) as F.
    replace (Z.to_nat n - Z.to_nat k)%nat with (Z.to_nat (n - k)) in F by lia. exact F.
  - intros H. unfold comb. destruct (Z.ltb_spec n k), (Z.ltb_spec k 0); simpl; rewrite ?orb_true_r; try reflexivity; lia.
Qed.

Lemma C02_basis_size_pf : forall bm h b r lt x y z c,
  0 <= mrows bm -> make_configuration bm h b r lt x y z = Ok c ->
  nsites c = mrows bm /\
  nb_conf c = comb (mrows bm) h * comb (mrows bm - h) (mrows bm - h - b) /\
  (h < 0 -> construct_basis c = Err ValueError) /\
  (0 <= h <= mrows bm -> b < 0 -> construct_basis c = Err ValueError) /\
  (0 <= h -> 0 <= b -> exists l, construct_basis c = Ok (mkBasis c l) /\ Z.of_nat (length l) = nb_conf c) /\
  (0 <= h -> 0 <= b -> mrows bm < h + b -> construct_basis c = Ok (mkBasis c []) /\ nb_conf c = 0).
Proof.
  intros bm h b r lt x y z c Hn M. unfold make_configuration in M.
  destruct (mrows bm =? 0) eqn:E0; [discriminate|].
  apply bind_ok_inv in M as (r' & Hr & M). inversion M; clear M. subst c. cbn [nsites nb_conf nholes nbeta].
  assert (D : compute_dimension (mrows bm) (mrows bm - h - b) b = comb (mrows bm) h * comb (mrows bm - h) (mrows bm - h - b)).
  { unfold compute_dimension. replace (mrows bm - (mrows bm - h - b) - b) with h by lia. reflexivity. }
  split; [reflexivity|]. split; [exact D|].
  assert (Dsym : comb (mrows bm - h) (mrows bm - h - b) = comb (mrows bm - h) b).
  { rewrite (comb_sym (mrows bm - h) b). reflexivity. }
  assert (Len : 0 <= h -> 0 <= b -> Z.of_nat (length (dets (mrows bm) (Z.to_nat h) (Z.to_nat b)))
          = compute_dimension (mrows bm) (mrows bm - h - b) b).
  { intros. rewrite dets_length, !Z2Nat.id, D, Dsym by assumption. reflexivity. }
  repeat split.
  - intros Hh. unfold construct_basis. cbn [nholes]. destruct (Z.ltb_spec h 0); [reflexivity | lia].
  - intros Hh Hb. unfold construct_basis, py_combinations. cbn [nholes nbeta nsites].
    destruct (Z.ltb_spec h 0); [lia|]. cbn [bind].
    assert (Hne : exists hs L, combs (Z.to_nat h) (zrange 0 (mrows bm)) = hs :: L).
    { pose proof (combs_length _ (zrange 0 (mrows bm)) (Z.to_nat h)) as L.
      rewrite zrange_length in L. pose proof (binom_pos (Z.to_nat (mrows bm - 0)) (Z.to_nat h) ltac:(lia)).
      destruct (combs (Z.to_nat h) (zrange 0 (mrows bm))); [simpl in L; lia | eauto]. }
    destruct Hne as (hs & L & EL).
    assert (Hin : In hs (combs (Z.to_nat h) (zrange 0 (mrows bm)))) by (rewrite EL; now left).
    apply in_combs in Hin as [Sh _]. rewrite EL. unfold concatM. cbn [mapM].
    rewrite remove_all_spec.
    + cbn [bind]. destruct (Z.ltb_spec b 0); [reflexivity | lia].
    + apply zrange_NoDup.
    + eapply sublist_NoDup; [exact Sh | apply zrange_NoDup].
    + apply sublist_incl. exact Sh.
  - intros Hh Hb. eexists. split; [apply construct_basis_ok; assumption|]. now apply Len.
  - assert (Z0 : compute_dimension (mrows bm) (mrows bm - h - b) b = 0).
    { rewrite D, Dsym. rewrite (comb_gt (mrows bm - h) b) by lia. lia. }
    rewrite construct_basis_ok by assumption. cbn [nsites nholes nbeta].
    specialize (Len H H0). rewrite Z0 in Len.
    destruct (dets (mrows bm) (Z.to_nat h) (Z.to_nat b)); [reflexivity | simpl in Len; lia].
  - rewrite D, Dsym. rewrite (comb_gt (mrows bm - h) b) by lia. lia.
Qed.

Lemma C03_index_inverts_pf : forall c l i d s d',
  0 <= nsites c -> 0 <= nholes c -> 0 <= nbeta c ->
  construct_basis c = Ok (mkBasis c l) -> nth_error l i = Some d ->
  describes (nsites c) (nholes c) (nbeta c) d s ->
  describes (nsites c) (nholes c) (nbeta c) d' s ->
  get_index_in_basis c d' = Ok (Z.of_nat i).
Proof.
  intros c l i d s d' Hn Hh Hb HB Hi Hd Hd'.
  rewrite construct_basis_ok in HB by assumption. inversion HB; subst l; clear HB.
  rewrite (index_describes _ _ _ Hd'). f_equal.
  pose proof (describes_sector _ _ _ _ _ Hd) as Sec.
  pose proof (nth_dets (nsites c) (Z.to_nat (nholes c)) (Z.to_nat (nbeta c)) s Hn) as N.
  rewrite !Z2Nat.id in N by assumption. specialize (N Sec).
  assert (d = canon (nsites c) s).
  { eapply increasing_canon; eauto. apply nth_error_In in Hi.
    apply in_dets in Hi as (t & Ht & ->); [|assumption]. rewrite !Z2Nat.id in Ht by assumption.
    now apply canon_increasing. }
  subst d. pose proof (dets_NoDup (nsites c) (Z.to_nat (nholes c)) (Z.to_nat (nbeta c))) as ND.
  rewrite NoDup_nth_error in ND.
  assert (Z.to_nat (state_index (nsites c) (nholes c) (nbeta c) s) = i).
  { apply ND; [|congruence]. apply nth_error_Some. congruence. }
  pose proof (state_index_nonneg (nsites c) (nholes c) (nbeta c) s). lia.
Qed.

Lemma C04_hash_basis_pf : forall c l i,
  0 <= nholes c -> 0 <= nbeta c -> 0 <= nalpha c -> nalpha c = nsites c - nholes c - nbeta c ->
  construct_basis c = Ok (mkBasis c l) -> (i < length l)%nat ->
  exists d, nth_error l i = Some d /\
    get_hash_basis (nholes c) (nalpha c) (nbeta c) (Z.of_nat i) = Ok d.
Proof.
  intros c l i Hh Hb Ha En HB Hi.
  rewrite construct_basis_ok in HB by assumption. inversion HB; subst l; clear HB.
  assert (N : nholes c + nalpha c + nbeta c = nsites c) by lia.
  destruct (hash_basis_ok (nholes c) (nalpha c) (nbeta c) (Z.of_nat i) Hh Ha Hb) as (d & E & X).
  - apply inj_lt in Hi. rewrite dets_length, !Z2Nat.id in Hi by lia. rewrite N.
    replace (nalpha c + nbeta c) with (nsites c - nholes c) by lia. lia.
  - exists d. rewrite N, Nat2Z.id in X. auto.
Qed.

Lemma C04_hash_basis_past_end_pf : forall c l i,
  1 <= nholes c -> 0 <= nbeta c -> 0 <= nalpha c -> nalpha c = nsites c - nholes c - nbeta c ->
  construct_basis c = Ok (mkBasis c l) -> Z.of_nat (length l) <= i ->
  get_hash_basis (nholes c) (nalpha c) (nbeta c) i = Err IndexError.
Proof.
  intros c l i Hh Hb Ha En HB Hi.
  rewrite construct_basis_ok in HB by lia. inversion HB; subst l; clear HB.
  rewrite dets_length, !Z2Nat.id in Hi by lia.
  apply hash_basis_err; try lia.
  replace (nholes c + nalpha c + nbeta c) with (nsites c) by lia.
  replace (nalpha c + nbeta c) with (nsites c - nholes c) by lia. lia.
Qed.

Lemma C05_target_hash_pf : forall n k i,
  (1 <= k <= n -> comb n k <= i -> get_target_hash n k i = Err IndexError) /\
  (get_target_hash n 0 i = Ok []) /\
  (0 <= k <= n -> 0 <= i < comb n k ->
     exists s, get_target_hash n k i = Ok s /\ nth_error (combs (Z.to_nat k) (zrange 0 n)) (Z.to_nat i) = Some s).
Proof.
  intros n k i. split; [apply target_hash_err|]. split; [apply target_hash_zero|].
  intros Hk Hi. destruct (target_hash_ok n k i Hk Hi) as (s & E & S & L & R).
  exists s. split; [assumption|]. apply rk_nth in S. rewrite R in S.
  replace (length s) with (Z.to_nat k) in S by (unfold zlen in L; lia). exact S.
Qed.

Lemma C06_index_bijective_monotone_pf : forall c d1 s1 d2 s2,
  0 <= nsites c -> nb_conf c = compute_dimension (nsites c) (nalpha c) (nbeta c) ->
  nalpha c = nsites c - nholes c - nbeta c ->
  describes (nsites c) (nholes c) (nbeta c) d1 s1 ->
  describes (nsites c) (nholes c) (nbeta c) d2 s2 ->
  exists i1 i2, get_index_in_basis c d1 = Ok i1 /\ get_index_in_basis c d2 = Ok i2 /\
    0 <= i1 < nb_conf c /\ 0 <= i2 < nb_conf c /\
    (i1 = i2 <-> same_state (nsites c) s1 s2) /\
    (increasing_groups (nholes c) (nbeta c) d1 -> increasing_groups (nholes c) (nbeta c) d2 ->
     (i1 < i2 <-> lex_lt d1 d2)).
Proof.
  intros c d1 s1 d2 s2 Hn Hd Ha H1 H2.
  pose proof (describes_sector _ _ _ _ _ H1) as S1. pose proof (describes_sector _ _ _ _ _ H2) as S2.
  rewrite (index_describes _ _ _ H1), (index_describes _ _ _ H2).
  do 2 eexists. split; [reflexivity|]. split; [reflexivity|].
  assert (D : nb_conf c = comb (nsites c) (nholes c) * comb (nsites c - nholes c) (nbeta c)).
  { rewrite Hd. unfold compute_dimension. rewrite Ha.
    replace (nsites c - (nsites c - nholes c - nbeta c) - nbeta c) with (nholes c) by lia.
    f_equal. rewrite (comb_sym _ (nbeta c)). reflexivity. }
  rewrite D. repeat split; auto using state_index_nonneg, state_index_bound.
  - intros E. eapply state_index_inj; eauto.
  - apply state_index_same.
  - rewrite state_index_lex by assumption.
    rewrite <- (increasing_canon _ _ _ _ _ H1 H), <- (increasing_canon _ _ _ _ _ H2 H0). tauto.
  - rewrite state_index_lex by assumption.
    rewrite <- (increasing_canon _ _ _ _ _ H1 H), <- (increasing_canon _ _ _ _ _ H2 H0). tauto.
Qed.

Lemma C07_reorder_pf : forall c d s,
  describes (nsites c) (nholes c) (nbeta c) d s ->
  describes (nsites c) (nholes c) (nbeta c) (reorder_basis_element c d) s /\
  increasing_groups (nholes c) (nbeta c) (reorder_basis_element c d) /\
  reorder_basis_element c (reorder_basis_element c d) = reorder_basis_element c d /\
  (forall d', describes (nsites c) (nholes c) (nbeta c) d' s ->
     reorder_basis_element c d' = reorder_basis_element c d) /\
  (increasing_groups (nholes c) (nbeta c) d -> reorder_basis_element c d = d).
Proof.
  intros c d s H. pose proof (describes_sector _ _ _ _ _ H) as S.
  rewrite (reorder_describes _ _ _ H). pose proof (canon_describes _ _ _ _ S) as C.
  repeat split; auto.
  - now apply canon_increasing.
  - now apply reorder_describes.
  - intros d' H'. now apply reorder_describes.
  - intros I. symmetry. eapply increasing_canon; eauto.
Qed.
