(** Final lemmas for C88-C90: signs of the amplitudes. *)
From Coq Require Import ZArith List Bool QArith Qcanon Lia Relations.
From Verif Require Import PyBase PyFacts Lattice Base Interact Ham Spec SpecOps SpecTJ SpinDefs Geometry HamSpec SignDefs.
From Verif Require Import PSpin PQc PBasis PHam FSites FInter FHam PSecSum PDavIter PAct FGeo PBound Examples Runtimes PSign PSignOp PPerron PConn.
Import ListNotations.
Open Scope Z_scope.

(** ** C88 *)
Lemma C88_elements_pf : forall E c w r K S arg arg' l l' m m' i j d e s t, set_iter_ok E -> filled c w r ->
  assembled E c K S arg l m -> assembled E c (opposite_t K) S arg' l' m' ->
  nth_error l i = Some d -> nth_error l j = Some e ->
  describes (nsites c) (nholes c) (nbeta c) d s -> describes (nsites c) (nholes c) (nbeta c) e t ->
  csr_at m' (Z.of_nat i) (Z.of_nat j) = (hole_sign (nsites c) (point w) s * hole_sign (nsites c) (point w) t * csr_at m (Z.of_nat i) (Z.of_nat j))%Qc.
Proof.
  intros E c w r K S arg arg' l l' m m' i j d e s t HE HF HA HA' Hd He Ds De.
  assert (l' = l) as -> by (destruct HA as [A _], HA' as [A' _]; rewrite A in A'; now injection A').
  rewrite (C29_elements_pf E c w r _ S arg' l m' i j d e s t HE HF HA' Hd He Ds De), (C29_elements_pf E c w r K S arg l m i j d e s t HE HF HA Hd He Ds De).
  exact (tj_opposite (between (nsites c) (point w) r r) K S s t).
Qed.

(** ** vectors *)
Lemma times_at : forall m v i, (i < length v)%nat -> nth i (times m v) 0%Qc = qsum (fun j => csr_at m (Z.of_nat i) (Z.of_nat j) * nth j v 0)%Qc (seq 0 (length v)).
Proof. intros m v i H. unfold times. apply (nth_map_seq (fun i => qsum (fun j => csr_at m (Z.of_nat i) (Z.of_nat j) * nth j v 0)%Qc (seq 0 (length v)))). assumption. Qed.
Lemma times_len : forall m v, length (times m v) = length v.
Proof. intros. unfold times. now rewrite map_length, seq_length. Qed.

Lemma eigen_stationary : forall m e v, zlen v = csr_dim m ->
  (times m v = map (fun x => (e * x)%Qc) v <-> forall i, (i < length v)%nat -> qsum (fun j => csr_at m (Z.of_nat i) (Z.of_nat j) * nth j v 0)%Qc (seq 0 (length v)) = (e * nth i v 0)%Qc).
Proof.
  intros m e v L. assert (M : forall i, (i < length v)%nat -> nth i (map (fun x => (e * x)%Qc) v) 0%Qc = (e * nth i v 0)%Qc).
  { intros i Hi. rewrite (nth_indep _ 0%Qc (e * 0)%Qc) by (now rewrite map_length). apply (map_nth (fun x => (e * x)%Qc)). }
  split.
  - intros H i Hi. rewrite <- times_at by assumption. rewrite H. now apply M.
  - intros H. apply nth_ext with (d := 0%Qc) (d' := 0%Qc); [now rewrite times_len, map_length|]. intros i Hi. rewrite times_len in Hi. rewrite times_at, M by assumption. now apply H.
Qed.

(** the sign of each determinant *)
Definition sign_at (f : occupation -> Qc) (c : configuration) (l : list (list Z)) (k : nat) : Qc := f (state_of c (nth k l [])).
Lemma signed_at : forall E c w r K S arg l m f v v', set_iter_ok E -> filled c w r -> assembled E c K S arg l m ->
  (forall s t, same_state (nsites c) s t -> f s = f t) ->
  (signed c l f v v' <-> length v = length l /\ length v' = length l /\ forall k, (k < length l)%nat -> nth k v' 0%Qc = (sign_at f c l k * nth k v 0)%Qc).
Proof.
  intros E c w r K S arg l m f v v' HE HF HA Hf. destruct (core _ _ _ _ _ _ _ _ _ HE HF HA) as (-> & _). split; intros (L1 & L2 & H); (split; [assumption|]; split; [assumption|]).
  - intros k Hk. destruct (nth_error (dl c) k) as [d|] eqn:Q; [|apply nth_error_None in Q; lia]. rewrite (H k d (state_of c d) Q (dl_describes _ _ _ _ _ HF Q)).
    unfold sign_at. now rewrite (nth_error_nth _ _ _ Q).
  - intros k d s Q D. rewrite H by (apply nth_error_Some; congruence). f_equal. unfold sign_at. rewrite (nth_error_nth _ _ _ Q). apply Hf.
    apply (describes_unique _ _ _ _ _ _ (dl_describes _ _ _ _ _ HF Q) D).
Qed.

Lemma C88_energies_pf : forall E c w r K S arg arg' l l' m m' e v, set_iter_ok E -> filled c w r ->
  assembled E c K S arg l m -> assembled E c (opposite_t K) S arg' l' m' -> eigenvector m e v ->
  exists v', signed c l (hole_sign (nsites c) (point w)) v v' /\ eigenvector m' e v'.
Proof.
  intros E c w r K S arg arg' l l' m m' e v HE HF HA HA' (Lv & Ev & Nv).
  destruct (core _ _ _ _ _ _ _ _ _ HE HF HA) as (El & Dm & _). destruct (core _ _ _ _ _ _ _ _ _ HE HF HA') as (El' & Dm' & _).
  set (f := hole_sign (nsites c) (point w)). assert (Hf : forall s t, same_state (nsites c) s t -> f s = f t) by (intros; now apply hole_same).
  assert (LL : length v = length l) by (rewrite Dm, <- El in Lv; unfold zlen in Lv; lia).
  set (v' := map (fun k => sign_at f c l k * nth k v 0)%Qc (seq 0 (length l))). assert (LV : length v' = length l) by (unfold v'; now rewrite map_length, seq_length).
  assert (NV : forall k, (k < length l)%nat -> nth k v' 0%Qc = (sign_at f c l k * nth k v 0)%Qc) by (intros k Hk; unfold v'; now rewrite nth_map_seq).
  assert (SQ : forall k, (sign_at f c l k * sign_at f c l k)%Qc = 1%Qc) by (intros; apply sign_square).
  assert (SG : signed c l f v v') by (apply (signed_at E c w r K S arg l m f v v' HE HF HA Hf); auto).
  exists v'. split; [exact SG|]. split; [rewrite Dm', <- El; unfold zlen; now rewrite LV|]. split.
  - apply eigen_stationary; [rewrite Dm', <- El; unfold zlen; now rewrite LV|]. intros i Hi. rewrite LV in *.
    rewrite (qsum_ext _ _ (fun j => sign_at f c l i * (csr_at m (Z.of_nat i) (Z.of_nat j) * nth j v 0))%Qc).
    + rewrite qsum_scale. rewrite <- LL. rewrite (proj1 (eigen_stationary m e v Lv) Ev i) by lia. rewrite NV by assumption. ring.
    + intros j Hj. apply in_seq in Hj. destruct (nth_error l i) as [d|] eqn:Qi; [|apply nth_error_None in Qi; lia]. destruct (nth_error l j) as [d'|] eqn:Qj; [|apply nth_error_None in Qj; lia].
      rewrite El in Qi, Qj. rewrite (C88_elements_pf E c w r K S arg arg' l l' m m' i j d d' (state_of c d) (state_of c d') HE HF HA HA');
        [|rewrite El; assumption|rewrite El; assumption|exact (dl_describes _ _ _ _ _ HF Qi)|exact (dl_describes _ _ _ _ _ HF Qj)].
      rewrite NV by lia. fold f. rewrite <- El in Qi, Qj.
      replace (f (state_of c d)) with (sign_at f c l i) by (unfold sign_at; now rewrite (nth_error_nth _ _ _ Qi)).
      replace (f (state_of c d')) with (sign_at f c l j) by (unfold sign_at; now rewrite (nth_error_nth _ _ _ Qj)).
      transitivity (sign_at f c l i * (sign_at f c l j * sign_at f c l j) * (csr_at m (Z.of_nat i) (Z.of_nat j) * nth j v 0))%Qc; [ring | rewrite SQ; ring].
  - destruct Nv as (x & Ix & Nx). apply (In_nth _ _ 0%Qc) in Ix. destruct Ix as (k & Hk & <-). exists (nth k v' 0%Qc). split; [apply nth_In; lia|].
    rewrite NV by lia. intros Q. apply Nx. transitivity (sign_at f c l k * (sign_at f c l k * nth k v 0))%Qc; [rewrite Qcmult_assoc, SQ; ring | rewrite Q; ring].
Qed.

(** ** C89 *)
Lemma no_holes : forall c d s, describes (nsites c) (nholes c) (nbeta c) d s -> nholes c = 0 -> forall x, 0 <= x < nsites c -> s x <> Hole.
Proof.
  intros c d s (hs & bs & us & _ & Lh & _ & _ & _ & _ & Ih & _) H0 x Hx Q. assert (I : In x hs) by (apply Ih; auto). destruct hs; [destruct I | cbn in Lh; lia].
Qed.

Lemma dl_canon : forall c w r i d s, filled c w r -> nth_error (dl c) i = Some d -> describes (nsites c) (nholes c) (nbeta c) d s -> d = canon (nsites c) s.
Proof.
  intros c w r i d s (RM & HR & Hh & Hb & Ha) H D. pose proof (row_major_drawn c w RM) as (P0 & _). apply nth_error_In in H. unfold dl in H. apply in_dets in H; [|exact P0].
  destruct H as (t & St & ->). rewrite !Z2Nat.id in St by assumption. pose proof (describes_unique _ _ _ _ _ _ (canon_describes _ _ _ _ St) D) as Q.
  unfold canon. now rewrite !(sites_of_same _ _ _ _ Q).
Qed.
Lemma dl_distinct : forall c w r i j d e s t, filled c w r -> nth_error (dl c) i = Some d -> nth_error (dl c) j = Some e ->
  describes (nsites c) (nholes c) (nbeta c) d s -> describes (nsites c) (nholes c) (nbeta c) e t -> same_state (nsites c) s t -> i = j.
Proof.
  intros c w r i j d e s t HF Hi Hj Ds De Q. rewrite (dl_canon _ _ _ _ _ _ HF Hi Ds) in Hi. rewrite (dl_canon _ _ _ _ _ _ HF Hj De) in Hj.
  unfold canon in Hi. rewrite !(sites_of_same _ _ _ _ Q) in Hi. fold (canon (nsites c) t) in Hi.
  pose proof (dets_NoDup (nsites c) (Z.to_nat (nholes c)) (Z.to_nat (nbeta c))) as ND. fold (dl c) in ND. rewrite NoDup_nth_error in ND. apply ND; [apply nth_error_Some; congruence | congruence].
Qed.

Lemma C89_elements_pf : forall E c w r K S arg l m i j d e s t, set_iter_ok E -> filled c w r -> assembled E c K S arg l m ->
  nholes c = 0 \/ (s_bt S = false /\ s_bSD S = false /\ s_btN S = false /\ (0 <= i_Jhpar K)%Qc /\ (0 <= i_Jhper K)%Qc) -> (0 <= i_J K)%Qc ->
  i <> j -> nth_error l i = Some d -> nth_error l j = Some e ->
  describes (nsites c) (nholes c) (nbeta c) d s -> describes (nsites c) (nholes c) (nbeta c) e t ->
  (0 <= csr_at m (Z.of_nat i) (Z.of_nat j) /\ down_sign (nsites c) (point w) s * down_sign (nsites c) (point w) t * csr_at m (Z.of_nat i) (Z.of_nat j) = - csr_at m (Z.of_nat i) (Z.of_nat j))%Qc.
Proof.
  intros E c w r K S arg l m i j d e s t HE HF HA HS J1 N Hi Hj Ds De.
  rewrite (C29_elements_pf E c w r K S arg l m i j d e s t HE HF HA Hi Hj Ds De).
  destruct (core _ _ _ _ _ _ _ _ _ HE HF HA) as (El & _). rewrite El in Hi, Hj.
  assert (ND : ~ same_state (nsites c) s t) by (intros Q; apply N; exact (dl_distinct _ _ _ _ _ _ _ _ _ HF Hi Hj Ds De Q)).
  set (L := between (nsites c) (point w) r r).
  destruct (tj_marshall L K S s t J1) as (X & M & P); [destruct HS as [H0|HS]; [left; exact (no_holes c d s Ds H0) | now right] | exact ND|].
  change (lat_size L) with (nsites c) in M. change (lat_pos L) with (point w) in M.
  split; [|exact M]. rewrite X. destruct (s_bij S); [exact P | apply Qcle_refl].
Qed.

Section Marshall.
Variables (E : runtime) (c : configuration) (w : Z) (r : list Z) (K : interactions) (S : switches) (arg : restriction) (l : list (list Z)) (m : csr).
Hypothesis HE : set_iter_ok E.
Hypothesis HF : filled c w r.
Hypothesis HA : assembled E c K S arg l m.
Hypothesis HS : nholes c = 0 \/ (s_bt S = false /\ s_bSD S = false /\ s_btN S = false /\ (0 <= i_Jhpar K)%Qc /\ (0 <= i_Jhper K)%Qc).
Hypothesis J1 : (0 <= i_J K)%Qc.
Let f := down_sign (nsites c) (point w).
Let sg := sign_at f c l.
Let N := length l.
Let a := fun i j => (sg i * sg j * csr_at m (Z.of_nat i) (Z.of_nat j))%Qc.

Lemma sg_square : forall k, (sg k * sg k)%Qc = 1%Qc.
Proof. intros. apply sign_square. Qed.
Lemma a_sym : forall i j, (i < N)%nat -> (j < N)%nat -> a i j = a j i.
Proof. intros i j _ _. unfold a. rewrite (C30_symmetric_pf E c w r K S arg l m (Z.of_nat i) (Z.of_nat j) HE HF HA). ring. Qed.
Lemma pick_state : forall k, (k < N)%nat -> exists d, nth_error l k = Some d /\ describes (nsites c) (nholes c) (nbeta c) d (state_of c d) /\ sg k = f (state_of c d).
Proof.
  intros k Hk. destruct (nth_error l k) as [d|] eqn:Q; [|apply nth_error_None in Q; unfold N in Hk; lia]. exists d. split; [reflexivity|].
  destruct (core _ _ _ _ _ _ _ _ _ HE HF HA) as (El & _). split; [rewrite El in Q; exact (dl_describes _ _ _ _ _ HF Q)|]. unfold sg, sign_at. now rewrite (nth_error_nth _ _ _ Q).
Qed.
Lemma a_value : forall i j, (i < N)%nat -> (j < N)%nat -> i <> j -> a i j = (- csr_at m (Z.of_nat i) (Z.of_nat j))%Qc /\ (0 <= csr_at m (Z.of_nat i) (Z.of_nat j))%Qc.
Proof.
  intros i j Hi Hj D. destruct (pick_state i Hi) as (d & Qd & Dd & Ed). destruct (pick_state j Hj) as (e & Qe & De & Ee).
  destruct (C89_elements_pf E c w r K S arg l m i j d e _ _ HE HF HA HS J1 D Qd Qe Dd De) as [P M]. split; [|exact P]. unfold a. rewrite Ed, Ee. exact M.
Qed.
Lemma a_off : forall i j, (i < N)%nat -> (j < N)%nat -> i <> j -> (a i j <= 0)%Qc.
Proof. intros i j Hi Hj D. destruct (a_value i j Hi Hj D) as [-> P]. qc. Qed.

Lemma csr_mean_of : forall v, length v = N -> csr_mean m v = mean_of N a (fun k => sg k * nth k v 0)%Qc.
Proof.
  intros v L. unfold csr_mean, inner, mean_of, act, sumN. rewrite L. apply qsum_ext. intros i Hi. apply in_seq in Hi. rewrite times_at by lia. rewrite L.
  rewrite <- !qsum_scale. apply qsum_ext. intros j _. unfold a.
  transitivity ((sg i * sg i) * (sg j * sg j) * (nth i v 0 * (csr_at m (Z.of_nat i) (Z.of_nat j) * nth j v 0)))%Qc; [rewrite !sg_square; ring | ring].
Qed.
Lemma inner_of : forall v, length v = N -> inner v v = size_of N (fun k => sg k * nth k v 0)%Qc.
Proof.
  intros v L. unfold inner, size_of, sumN. rewrite L. apply qsum_ext. intros i _. transitivity ((sg i * sg i) * (nth i v 0 * nth i v 0))%Qc; [rewrite sg_square; ring | ring].
Qed.
Lemma eigen_of : forall e v, length v = N -> zlen v = csr_dim m -> (times m v = map (fun x => (e * x)%Qc) v <-> stationary N a e (fun k => sg k * nth k v 0)%Qc).
Proof.
  intros e v L Lm. rewrite (eigen_stationary m e v Lm). rewrite L.
  assert (X : forall i, (i < N)%nat -> act N a (fun k => sg k * nth k v 0)%Qc i = (sg i * qsum (fun j => csr_at m (Z.of_nat i) (Z.of_nat j) * nth j v 0)%Qc (seq 0 N))%Qc).
  { intros i Hi. unfold act, sumN. rewrite <- qsum_scale. apply qsum_ext. intros j _. unfold a.
    transitivity ((sg j * sg j) * (sg i * (csr_at m (Z.of_nat i) (Z.of_nat j) * nth j v 0)))%Qc; [ring | rewrite sg_square; ring]. }
  split; intros H i Hi.
  - rewrite X by assumption. rewrite (H i Hi). ring.
  - specialize (H i Hi). rewrite X in H by assumption. apply (f_equal (fun x => sg i * x)%Qc) in H. rewrite Qcmult_assoc, sg_square, Qcmult_1_l in H. rewrite H.
    transitivity ((sg i * sg i) * (e * nth i v 0))%Qc; [ring | rewrite sg_square; ring].
Qed.
End Marshall.

Lemma C89_mean_pf : forall E c w r K S arg l m v v', set_iter_ok E -> filled c w r -> assembled E c K S arg l m ->
  nholes c = 0 \/ (s_bt S = false /\ s_bSD S = false /\ s_btN S = false /\ (0 <= i_Jhpar K)%Qc /\ (0 <= i_Jhper K)%Qc) -> (0 <= i_J K)%Qc ->
  signed c l (down_sign (nsites c) (point w)) (map magnitude v) v' ->
  inner v' v' = inner v v /\ (csr_mean m v' <= csr_mean m v)%Qc.
Proof.
  intros E c w r K S arg l m v v' HE HF HA HS J1 SG.
  apply (signed_at E c w r K S arg l m _ _ _ HE HF HA (fun s t H => down_same _ _ s t H)) in SG. destruct SG as (L1 & L2 & SG). rewrite map_length in L1.
  set (sg := sign_at (down_sign (nsites c) (point w)) c l) in *.
  assert (SQ : forall k, (sg k * sg k)%Qc = 1%Qc) by (intros; apply sign_square).
  assert (NM : forall k, (k < length l)%nat -> (sg k * nth k v' 0)%Qc = magnitude (sg k * nth k v 0)%Qc).
  { intros k Hk. rewrite SG by assumption. rewrite (nth_indep _ 0%Qc (magnitude 0%Qc)) by (rewrite map_length; lia). rewrite (map_nth magnitude). rewrite Qcmult_assoc, SQ, Qcmult_1_l.
    destruct (sign_cases (nsites c) (fun x => downb (state_of c (nth k l []) x) && black (point w x))) as [Q|Q].
    - replace (sg k) with 1%Qc by (symmetry; exact Q). now rewrite Qcmult_1_l.
    - replace (sg k) with (- (1))%Qc by (symmetry; exact Q). unfold magnitude. destruct (Qclt_le_dec (nth k v 0%Qc) 0%Qc) as [A|A], (Qclt_le_dec (- (1) * nth k v 0)%Qc 0%Qc) as [B|B]; try ring.
      + exfalso. replace (- (1) * nth k v 0)%Qc with (- nth k v 0)%Qc in B by ring. qc.
      + replace (- (1) * nth k v 0)%Qc with (- nth k v 0)%Qc in B |- * by ring. apply Qcle_antisym; qc. }
  rewrite (inner_of c w l v' L2), (inner_of c w l v L1), (csr_mean_of c w l m v' L2), (csr_mean_of c w l m v L1). fold sg. split.
  - transitivity (size_of (length l) (fun k => magnitude (sg k * nth k v 0)%Qc)); [|apply size_magnitude]. apply sum_ext. intros i Hi. now rewrite NM.
  - eapply Qcle_trans; [|apply (mean_magnitude _ _ (a_off E c w r K S arg l m HE HF HA HS J1) (fun k => sg k * nth k v 0)%Qc)].
    match goal with |- (?x <= ?y)%Qc => replace x with y; [apply Qcle_refl|] end.
    unfold mean_of, act. apply sum_ext. intros i Hi. cbv beta. rewrite (NM i Hi). f_equal. apply sum_ext. intros j Hj. now rewrite (NM j Hj).
Qed.

(** ** C90 *)
Lemma rows_of : forall c w, row_major c w -> exists h, 0 <= h /\ 1 <= w /\ nsites c = h * w.
Proof.
  intros c w (h & v & s & Hh & Hv & Hs & -> & HC & HN & _). exists (v * s). split; [nia|]. split; [nia|]. rewrite (rect_n c h v s Hh Hv Hs HC HN). ring.
Qed.

Lemma indices_linked : forall E c w K S arg l m, set_iter_ok E -> filled_whole c w -> assembled E c K S arg l m -> nholes c = 0 -> s_bij S = true -> (0 < i_J K)%Qc ->
  forall i j, (i < length l)%nat -> (j < length l)%nat ->
  clos_refl_trans nat (linked (length l) (fun i j => sign_at (down_sign (nsites c) (point w)) c l i * sign_at (down_sign (nsites c) (point w)) c l j * csr_at m (Z.of_nat i) (Z.of_nat j))%Qc) i j.
Proof.
  intros E c w K S arg l m HE HF HA H0 HB HJ. pose proof HF as (RM & _ & _ & Hb & _). destruct (rows_of c w RM) as (h & Hh & Hw & HN).
  destruct (core _ _ _ _ _ _ _ _ _ HE HF HA) as (El & _). assert (J1 : (0 <= i_J K)%Qc) by now apply Qclt_le_weak.
  set (a := fun i j => (_ * csr_at m (Z.of_nat i) (Z.of_nat j))%Qc).
  assert (R : forall s t, reach w h s t -> forall i j d e, nth_error l i = Some d -> nth_error l j = Some e ->
     describes (nsites c) (nholes c) (nbeta c) d s -> describes (nsites c) (nholes c) (nbeta c) e t -> clos_refl_trans nat (linked (length l) a) i j).
  { intros s t Q. apply clos_rt_rt1n_iff in Q. induction Q as [s|s u t M Q IH]; intros i j d e Hi Hj Ds De.
    - rewrite El in Hi, Hj. rewrite (dl_distinct c w _ i j d e s s HF Hi Hj Ds De (fun x _ => eq_refl)). apply rt_refl.
    - unfold move in M. cbv zeta in M. rewrite <- HN in M. destruct M as [M|(x & y & Hx & Hy & B & M)].
      + apply (IH i j d e Hi Hj); [exact (PBasis.describes_same _ _ _ _ _ _ M Ds) | exact De].
      + pose proof (describes_sector _ _ _ _ _ Ds) as Ss.
        assert (Su : in_sector (nsites c) (nholes c) (nbeta c) u).
        { eapply describes_sector. apply (PBasis.describes_same _ _ _ _ (swap_state x y s) u); [intros z Hz; symmetry; now apply M|]. apply canon_describes. apply PAct.swap_in; assumption. }
        assert (K1 : exists k, nth_error l k = Some (canon (nsites c) u)).
        { rewrite El. unfold dl. eexists. rewrite <- (Z2Nat.id (nholes c)), <- (Z2Nat.id (nbeta c)) in Su by lia. apply (nth_dets (nsites c) (Z.to_nat (nholes c)) (Z.to_nat (nbeta c)) u); [rewrite HN; nia | exact Su]. }
        destruct K1 as (k & Hk). pose proof (canon_describes _ _ _ _ Su) as Du.
        apply (rt_trans _ _ _ k); [|exact (IH k j _ _ Hk Hj Du De)].
        destruct (Nat.eq_dec i k) as [->|D]; [apply rt_refl|]. apply rt_step.
        assert (Bi : (i < length l)%nat) by (apply nth_error_Some; congruence). assert (Bk : (k < length l)%nat) by (apply nth_error_Some; congruence).
        split; [assumption|]. split; [assumption|]. split; [assumption|].
        destruct (a_value E c w _ K S arg l m HE HF HA (or_introl H0) J1 i k Bi Bk D) as [Q1 _]. unfold a. rewrite Q1. clear Q1.
        rewrite (C29_elements_pf E c w _ K S arg l m i k d _ s u HE HF HA Hi Hk Ds Du).
        set (L := between (nsites c) (point w) (zrange 0 (nsites c)) (zrange 0 (nsites c))) in *.
        assert (ND : ~ same_state (nsites c) s u) by (intros Q1; apply D; rewrite El in Hi, Hk; exact (dl_distinct _ _ _ _ _ _ _ _ _ HF Hi Hk Ds Du Q1)).
        destruct (tj_marshall L K S s u J1 (or_introl (no_holes c d s Ds H0)) ND) as (X & _). rewrite X, HB. cbn [only].
        pose proof (flip_positive L K s u x y HJ (no_holes c d s Ds H0) Hx Hy B M). qc. }
  intros i j Hi Hj. destruct (nth_error l i) as [d|] eqn:Qi; [|apply nth_error_None in Qi; lia]. destruct (nth_error l j) as [e|] eqn:Qj; [|apply nth_error_None in Qj; lia].
  pose proof Qi as Qi'. pose proof Qj as Qj'. rewrite El in Qi', Qj'. pose proof (dl_describes _ _ _ _ _ HF Qi') as Di. pose proof (dl_describes _ _ _ _ _ HF Qj') as Dj.
  apply (R (state_of c d) (state_of c e)) with (d := d) (e := e); try assumption.
  apply (reach_sector w h Hw Hh _ _ (nbeta c)); rewrite <- HN, <- H0; eapply describes_sector; eassumption.
Qed.

Lemma C90_unique_pf : forall E c w K S arg l m e, set_iter_ok E -> filled_whole c w -> assembled E c K S arg l m ->
  nholes c = 0 -> s_bij S = true -> (0 < i_J K)%Qc -> (forall u, zlen u = csr_dim m -> (e * inner u u <= csr_mean m u)%Qc) ->
  forall v, eigenvector m e v ->
  ((forall k d s, nth_error l k = Some d -> describes (nsites c) (nholes c) (nbeta c) d s -> (0 < down_sign (nsites c) (point w) s * nth k v 0)%Qc) \/
   (forall k d s, nth_error l k = Some d -> describes (nsites c) (nholes c) (nbeta c) d s -> (down_sign (nsites c) (point w) s * nth k v 0 < 0)%Qc)) /\
  forall v', eigenvector m e v' -> exists x, v' = map (fun y => (x * y)%Qc) v.
Proof.
  intros E c w K S arg l m e HE HF HA H0 HB HJ LOW v (Lv & Ev & Nv). assert (J1 : (0 <= i_J K)%Qc) by now apply Qclt_le_weak.
  destruct (core _ _ _ _ _ _ _ _ _ HE HF HA) as (El & Dm & _). assert (Dl : csr_dim m = zlen l) by (now rewrite El).
  set (f := down_sign (nsites c) (point w)). set (sg := sign_at f c l). set (a := fun i j => (sg i * sg j * csr_at m (Z.of_nat i) (Z.of_nat j))%Qc).
  assert (SQ : forall k, (sg k * sg k)%Qc = 1%Qc) by (intros; apply sign_square).
  pose proof (a_sym E c w _ K S arg l m HE HF HA) as SY. pose proof (a_off E c w _ K S arg l m HE HF HA (or_introl H0) J1) as OFF.
  pose proof (indices_linked E c w K S arg l m HE HF HA H0 HB HJ) as CON.
  fold f sg in SY, OFF, CON. fold a in SY, OFF, CON.
  assert (LOW2 : forall u, (e * size_of (length l) u <= mean_of (length l) a u)%Qc).
  { intros u. set (x := map (fun k => (sg k * u k)%Qc) (seq 0 (length l))). assert (Lx : length x = length l) by (unfold x; now rewrite map_length, seq_length).
    assert (Nx : forall k, (k < length l)%nat -> (sg k * nth k x 0)%Qc = u k) by (intros k Hk; unfold x; rewrite nth_map_seq by assumption; rewrite Qcmult_assoc, SQ; ring).
    specialize (LOW x ltac:(rewrite Dl; unfold zlen; now rewrite Lx)). rewrite (inner_of c w l x Lx), (csr_mean_of c w l m x Lx) in LOW. fold f sg in LOW. fold a in LOW.
    replace (size_of (length l) u) with (size_of (length l) (fun k => sg k * nth k x 0)%Qc); [replace (mean_of (length l) a u) with (mean_of (length l) a (fun k => sg k * nth k x 0)%Qc); [exact LOW|]|].
    - unfold mean_of, act. apply sum_ext. intros i Hi. rewrite (Nx i Hi). f_equal. apply sum_ext. intros j Hj. now rewrite (Nx j Hj).
    - apply sum_ext. intros i Hi. now rewrite (Nx i Hi). }
  assert (LL : length v = length l) by (rewrite Dl in Lv; unfold zlen in Lv; lia).
  pose proof (proj1 (eigen_of c w l m e v LL Lv) Ev) as ST. fold f sg in ST. fold a in ST.
  assert (NZ : exists i, (i < length l)%nat /\ (sg i * nth i v 0)%Qc <> 0%Qc).
  { destruct Nv as (x & Ix & Nx). apply (In_nth _ _ 0%Qc) in Ix. destruct Ix as (k & Hk & <-). exists k. split; [lia|]. intros Q. apply Nx.
    transitivity (sg k * (sg k * nth k v 0))%Qc; [rewrite Qcmult_assoc, SQ; ring | rewrite Q; ring]. }
  assert (SGN : forall k d s, nth_error l k = Some d -> describes (nsites c) (nholes c) (nbeta c) d s -> (k < length l)%nat /\ f s = sg k).
  { intros k d s Hk Ds. split; [apply nth_error_Some; congruence|]. unfold sg, sign_at. rewrite (nth_error_nth _ _ _ Hk). apply down_same.
    rewrite El in Hk. apply (describes_unique _ _ _ _ _ _ Ds (dl_describes _ _ _ _ _ HF Hk)). }
  split.
  - destruct (one_sign (length l) a SY OFF e LOW2 CON _ ST NZ) as [P|P]; [left|right]; intros k d s Hk Ds; destruct (SGN k d s Hk Ds) as [B Q]; fold f; rewrite Q; now apply P.
  - intros v' (Lv' & Ev' & _). assert (LL' : length v' = length l) by (rewrite Dl in Lv'; unfold zlen in Lv'; lia).
    pose proof (proj1 (eigen_of c w l m e v' LL' Lv') Ev') as ST'. fold f sg in ST'. fold a in ST'.
    destruct (one_state (length l) a SY OFF e LOW2 CON _ _ ST' ST NZ) as (x & Hx). exists x.
    apply nth_ext with (d := 0%Qc) (d' := (x * 0)%Qc); [now rewrite map_length, LL, LL'|]. intros k Hk. rewrite (map_nth (fun y => (x * y)%Qc)).
    specialize (Hx k ltac:(lia)). transitivity (sg k * (sg k * nth k v' 0))%Qc; [rewrite Qcmult_assoc, SQ; ring|]. rewrite Hx.
    transitivity ((sg k * sg k) * (x * nth k v 0))%Qc; [ring | rewrite SQ; ring].
Qed.

(** ** Example: four sites in a ring, two downs, J = 2 *)
Definition ring_conf : configuration := ex_rect 1 1 2 0 2.
Definition ring_switches : switches := mkSwitches true true true true true true.
Definition ring_basis : list (list Z) := get [] (b <- construct_basis ring_conf ;; Ok (determinants b)).
Definition ring_ham : csr := get (mkCsr 0 []) (b <- construct_basis ring_conf ;; build_hamiltonian cpython ring_conf ex_couplings b ring_switches (RList [])).
Definition ring_state : list Qc := map qz [1; 1; -2; -2; 1; 1].
Definition ring_rows : list (list Z) :=
  [[-2; 0; 1; 1; 0; 0]; [0; -2; 1; 1; 0; 0]; [1; 1; -4; 0; 1; 1]; [1; 1; 0; -4; 1; 1]; [0; 0; 1; 1; -2; 0]; [0; 0; 1; 1; 0; -2]].

Lemma ring_ok : filled_whole ring_conf 2 /\ assembled cpython ring_conf ex_couplings ring_switches (RList []) ring_basis ring_ham.
Proof.
  split; [split; [exists 1, 1, 2; vm_compute; repeat (split; [congruence|]); reflexivity|]; split; [reflexivity|]; vm_compute; intuition congruence|].
  split; vm_compute; reflexivity.
Qed.
Lemma ring_at : forall i j, (i < 6)%nat -> (j < 6)%nat -> csr_at ring_ham (Z.of_nat i) (Z.of_nat j) = qz (nth j (nth i ring_rows []) 0).
Proof.
  assert (G : forallb (fun i => forallb (fun j => if Qc_eq_dec (csr_at ring_ham (Z.of_nat i) (Z.of_nat j)) (qz (nth j (nth i ring_rows []) 0)) then true else false) (seq 0 6)) (seq 0 6) = true) by (vm_compute; reflexivity).
  intros i j Hi Hj. rewrite forallb_forall in G. specialize (G i ltac:(apply in_seq; lia)). rewrite forallb_forall in G. specialize (G j ltac:(apply in_seq; lia)). cbv beta in G.
  destruct (Qc_eq_dec _ _) as [Q|]; [exact Q | discriminate G].
Qed.
Lemma ring_dim : csr_dim ring_ham = 6.
Proof. vm_compute. reflexivity. Qed.
Lemma ring_lowest : forall u, zlen u = csr_dim ring_ham -> (- qz 6 * inner u u <= csr_mean ring_ham u)%Qc.
Proof.
  intros u Hu. rewrite ring_dim in Hu. destruct u as [|a [|b [|c [|d [|e [|f [|g u]]]]]]]; try discriminate Hu; [|unfold zlen in Hu; cbn [length] in Hu; lia].
  unfold csr_mean. set (M := ring_ham). pose proof ring_at as A. fold M in A.
  assert (Q : (inner [a; b; c; d; e; f] (times M [a; b; c; d; e; f]) + qz 6 * inner [a; b; c; d; e; f] [a; b; c; d; e; f] =
    (a - b) * (a - b) + (a - e) * (a - e) + (a - f) * (a - f) + (b - e) * (b - e) + (b - f) * (b - f) + (e - f) * (e - f) +
    (a + b + e + f + c + d) * (a + b + e + f + c + d) + (c - d) * (c - d))%Qc).
  { unfold inner, times. cbn [length seq map nth]. repeat rewrite ?qsum_cons, ?qsum_nil. cbn [nth]. rewrite !A by lia. cbn [ring_rows nth].
    change (qz 1) with 1%Qc. change (qz 0) with 0%Qc. replace (qz (-2)) with (- (1 + 1))%Qc by (apply Qc_is_canon; reflexivity). replace (qz (-4)) with (- (1 + 1 + 1 + 1))%Qc by (apply Qc_is_canon; reflexivity).
    replace (qz 6) with (1 + 1 + 1 + 1 + 1 + 1)%Qc by (apply Qc_is_canon; reflexivity). ring. }
  assert (P : forall x : Qc, (0 <= x * x)%Qc) by exact square_nonneg.
  pose proof (P (a - b)%Qc). pose proof (P (a - e)%Qc). pose proof (P (a - f)%Qc). pose proof (P (b - e)%Qc). pose proof (P (b - f)%Qc). pose proof (P (e - f)%Qc).
  pose proof (P (a + b + e + f + c + d)%Qc). pose proof (P (c - d)%Qc).
  rewrite <- (Qcplus_0_r (- qz 6 * _)). replace (inner [a; b; c; d; e; f] (times M [a; b; c; d; e; f])) with (- qz 6 * inner [a; b; c; d; e; f] [a; b; c; d; e; f] + (inner [a; b; c; d; e; f] (times M [a; b; c; d; e; f]) + qz 6 * inner [a; b; c; d; e; f] [a; b; c; d; e; f]))%Qc by ring.
  apply Qcplus_le_compat; [apply Qcle_refl|]. rewrite Q. repeat (apply (Qcplus_le_compat 0 _ 0); [|assumption]). assumption.
Qed.
Lemma ring_eigen : eigenvector ring_ham (- qz 6) ring_state.
Proof. split; [vm_compute; reflexivity|]. split; [vm_compute; reflexivity|]. exists (qz 1). split; [left; reflexivity | discriminate]. Qed.
