(** Final lemmas for C99: the values of modified_davidson_algorithm are above the levels, rank by rank. *)
From Coq Require Import ZArith List Bool Sorted QArith Qcanon Lia.
From Verif Require Import PyBase PyFacts Lattice Base Spec SpecTJ Interact SpinDefs Prob ProbDefs Dav DavDefs VarDefs LevelDefs PSpin PQc PProb PSecSum PBound PDavIter PDav FDav FProj FVar PLevels.
Import ListNotations.
Open Scope Z_scope.

Lemma this_pair : forall x y z : Qc, (x + y = z)%Qc -> (this x + this y == this z)%Q.
Proof. intros x y z <-. now rewrite this_add. Qed.

Lemma ranked : forall (vals : list Qc) idx k i j, smallest vals idx -> nth_error idx k = Some i -> (j < length vals)%nat -> ~ In j (firstn k idx) -> (nth i vals 0 <= nth j vals 0)%Qc.
Proof.
  intros vals idx k i j (ND & B & SS & O) Hk Hj NI. destruct (in_dec Nat.eq_dec j idx) as [I|I]; [|apply O; [eapply nth_error_In; eassumption | assumption | assumption]].
  clear B O. revert k Hk NI. induction idx as [|x idx IH]; intros k Hk NI; [destruct I|]. inversion ND as [|? ? NX ND']; subst. inversion SS as [|? ? SS' F]; subst. destruct k as [|k].
  - cbn in Hk. injection Hk as ->. destruct I as [->|I]; [apply Qcle_refl|]. rewrite Forall_forall in F. now apply F.
  - cbn in Hk. cbn [firstn] in NI. destruct I as [->|I]; [exfalso; apply NI; now left|]. apply IH with (k := k); try assumption. intros Q. apply NI. now right.
Qed.
Lemma ranked_before : forall (vals : list Qc) idx k i j, smallest vals idx -> nth_error idx k = Some i -> In j (firstn (S k) idx) -> (nth j vals 0 <= nth i vals 0)%Qc.
Proof.
  intros vals idx k i j (ND & B & SS & O) Hk I. clear B O. revert k Hk I. induction idx as [|x idx IH]; intros k Hk I; [destruct k; discriminate|].
  inversion ND as [|? ? NX ND']; subst. inversion SS as [|? ? SS' F]; subst. rewrite Forall_forall in F. destruct k as [|k].
  - cbn in Hk. injection Hk as ->. cbn in I. destruct I as [->|[]]. apply Qcle_refl.
  - cbn in Hk. change (firstn (S (S k)) (x :: idx)) with (x :: firstn (S k) idx) in I. destruct I as [->|I]; [apply F; eapply nth_error_In; eassumption|]. now apply IH with (k := k).
Qed.

Lemma first_distinct : forall (l : list nat) k, NoDup l -> NoDup (firstn k l).
Proof.
  intros l. induction l as [|x l IH]; intros k ND; [destruct k; constructor|]. inversion ND as [|? ? NI ND']; subst. destruct k; cbn [firstn]; constructor; [|now apply IH].
  intros I. apply NI. rewrite <- (firstn_skipn k l). apply in_or_app. now left.
Qed.
(** what one iteration finds *)
Lemma step_found : forall N A nb tol dim_max K eps r k l, square A -> tall (length A) K -> 0 <= nb ->
  diagonalised eps (projected A K) (eigh N (projected A K)) -> r = dav_step N A nb tol dim_max K -> value_at r k l ->
  exists idx vects, smallest (fst (eigh N (projected A K))) idx /\ (exists i, nth_error idx k = Some i /\ l = nth i (fst (eigh N (projected A K))) 0%Qc) /\
    vects = map (fun i => blend (length A) K (nth i (snd (eigh N (projected A K))) [])) idx /\
    (forall v x K', r = Ok (Continue v x K') -> x = vects).
Proof.
  intros N A nb tol dim_max K eps r k l SA T Hnb (L1 & L2 & _) R (vals & vects & Ho & Hk).
  assert (LP : length (projected A K) = length K) by (unfold projected; apply map_length). rewrite LP in *.
  destruct (C47_iteration_pf N A nb tol dim_max K SA T Hnb ltac:(lia)) as (idx & S0 & Li & E). rewrite E in R. clear E.
  destruct (Z.ltb_spec (Z.of_nat (length (fst (eigh N (projected A K))))) nb) as [|G]; [destruct Ho as [Ho|(K' & Ho)]; congruence|]. cbv zeta in R.
  exists idx, (map (fun i => blend (length A) K (nth i (snd (eigh N (projected A K))) [])) idx). split; [exact S0|].
  set (vals0 := fst (eigh N (projected A K))) in *. set (ys0 := snd (eigh N (projected A K))) in *.
  assert (E : vals = map (fun i => nth i vals0 0%Qc) idx).
  { destruct (forallb _ _).
    - destruct Ho as [Ho|(K' & Ho)]; rewrite R in Ho; [|discriminate]. now injection Ho as <- _.
    - destruct (existsb _ _); [destruct Ho as [Ho|(K' & Ho)]; congruence|]. destruct Ho as [Ho|(K' & Ho)]; rewrite R in Ho; [discriminate|]. now injection Ho as <- _ _. }
  split.
  - rewrite E, nth_error_map in Hk. destruct (nth_error idx k) as [i|]; [|discriminate]. cbn in Hk. injection Hk as <-. now exists i.
  - split; [reflexivity|]. intros v x K' Q. rewrite R in Q. destruct (forallb _ _); [discriminate|]. destruct (existsb _ _); [discriminate|]. now injection Q as _ <- _.
Qed.

(** a unit of weight on the first [k + 1] values has a mean of at most the last one *)
Lemma trial : forall A K eps vals ys idx k i (T : list (list Qc)), square A -> tall (length A) K -> orthonormal K ->
  diagonalised eps (projected A K) (vals, ys) -> smallest vals idx -> nth_error idx k = Some i -> (length T <= k)%nat -> tall (length A) T ->
  exists d, let x := blend (length A) (map (blend (length A) K) ys) d in
    length d = length K /\ (0 < inner x x)%Qc /\ (forall j, ~ In j (firstn (S k) idx) -> nth j d 0%Qc = 0%Qc) /\ (forall t, In t T -> inner t x = 0%Qc) /\
    (mean A x <= (nth i vals 0 + eps) * inner x x)%Qc.
Proof.
  intros A K eps vals ys idx k i T SA TK OK (L1 & L2 & TY & OY & D) SM Hk LT TT. cbn [fst snd] in *.
  assert (LP : length (projected A K) = length K) by (unfold projected; apply map_length). rewrite LP in *.
  assert (Lk : (k < length idx)%nat) by (apply nth_error_Some; congruence).
  destruct (orthogonal_state (length K) (fun j => blend (length A) K (nth j ys [])) (firstn (S k) idx) T) as (d & Ld & P & Z0 & OT).
  - destruct SM as (ND & _). now apply first_distinct.
  - intros j I. destruct SM as (_ & B & _). rewrite <- L1. apply B. rewrite <- (firstn_skipn (S k) idx). apply in_or_app. now left.
  - rewrite firstn_length. lia.
  - exists d. cbv zeta. assert (BB : blend (length A) K (blend (length K) ys d) = blend (length A) (map (blend (length A) K) ys) d) by (apply blend_blend; assumption).
    set (x := blend (length A) (map (blend (length A) K) ys) d) in *.
    assert (SX : inner x x = inner d d).
    { rewrite <- BB. rewrite unit_blend by (try assumption; apply blend_length). apply unit_blend; [assumption | assumption | lia]. }
    split; [exact Ld|]. split; [now rewrite SX|]. split; [exact Z0|]. split.
    + intros t It. unfold tall in TT. rewrite Forall_forall in TT. unfold x. rewrite (inner_blend (length A)) by (now apply TT). rewrite map_length, L2. refine (eq_trans _ (OT t It)). apply qsum_ext. intros j Hj. apply in_seq in Hj.
      now rewrite (nth_map_in _ _ _ _ _ []) by lia.
    + rewrite SX, <- BB. rewrite <- mean_projected by (try assumption; apply blend_length). destruct (D d Ld) as [D1 _]. eapply Qcle_trans; [exact D1|].
      rewrite Qcmult_plus_distr_l. apply Qcplus_le_compat; [|apply Qcle_refl]. unfold inner. rewrite Ld. apply (weighted_le (length K) (fun k => nth k vals 0%Qc) (fun k => nth k d 0%Qc)).
      intros j Hj NZ. apply (ranked_before vals idx k i j SM Hk). destruct (in_dec Nat.eq_dec j (firstn (S k) idx)) as [I|I]; [assumption|]. exfalso. apply NZ. now apply Z0.
Qed.

Lemma step_levels : forall N A nb tol dim_max K eps es k l, square A -> symmetric A -> spectrum A es -> tall (length A) K -> orthonormal K -> 0 <= nb ->
  diagonalised eps (projected A K) (eigh N (projected A K)) -> value_at (dav_step N A nb tol dim_max K) k l -> (k < levels_below es (l + eps))%nat.
Proof.
  intros N A nb tol dim_max K eps es k l SA SY SP TK OK Hnb D V. destruct (step_found _ _ _ _ _ _ _ _ _ _ SA TK Hnb D eq_refl V) as (idx & vects & SM & (i & Hi & ->) & _).
  destruct (eigh N (projected A K)) as [vals ys] eqn:EQ. cbn [fst snd] in *. set (l := nth i vals 0%Qc) in *. unfold levels_below.
  set (P := fun p : Qc * list Qc => if Qclt_le_dec (l + eps) (fst p) then false else true). destruct (le_lt_dec (length (filter P es)) k) as [F|]; [|assumption]. exfalso.
  destruct (trial A K eps vals ys idx k i (map snd (filter P es)) SA TK OK D SM Hi) as (d & Ld & Px & _ & OT & M).
  - now rewrite map_length.
  - apply Forall_forall. intros t It. apply in_map_iff in It. destruct It as ([m e] & <- & I). apply filter_In in I. exact (proj1 (proj1 SP m e (proj1 I))).
  - set (x := blend (length A) (map (blend (length A) K) ys) d) in *. fold l in M. assert (Lx : length x = length A) by apply blend_length.
    rewrite (mean_spectrum A es x SA SY SP Lx) in M. rewrite (proj2 SP x Lx) in M, Px.
    assert (S : ((l + eps) * qsum (fun p => inner x (snd p) * inner x (snd p)) es < qsum (fun p => fst p * (inner x (snd p) * inner x (snd p))) es)%Qc).
    { apply (weighted_lt _ (fun p : Qc * list Qc => fst p) (fun p => inner x (snd p)) es (l + eps)%Qc); [|exact Px]. intros [m e] I NZ. cbn [fst snd] in *. destruct (Qclt_le_dec (l + eps) m) as [|LE]; [assumption|]. exfalso. apply NZ.
      destruct (proj1 SP m e I) as [Le _]. rewrite inner_sym by congruence. apply OT. change e with (snd (m, e)). apply in_map. apply filter_In. split; [assumption|]. unfold P. cbn [fst].
      destruct (Qclt_le_dec (l + eps) m) as [G|]; [|reflexivity]. exfalso. exact (Qclt_not_le _ _ G LE). }
    exact (Qclt_not_le _ _ S M).
Qed.

Lemma step_ranks : forall N A nb tol dim_max K vals vects K' eps k l l', square A -> tall (length A) K -> tall (length A) K' -> orthonormal K -> orthonormal K' -> 0 <= nb ->
  diagonalised eps (projected A K) (eigh N (projected A K)) -> diagonalised eps (projected A K') (eigh N (projected A K')) ->
  dav_step N A nb tol dim_max K = Ok (Continue vals vects K') -> (forall x, In x vects -> combination (length A) K' x) ->
  value_at (dav_step N A nb tol dim_max K) k l -> value_at (dav_step N A nb tol dim_max K') k l' -> (l' <= l + qz 2 * eps)%Qc.
Proof.
  intros N A nb tol dim_max K vals0 vects K' eps k l l' SA TK TK' OK OK' Hnb D D' H HC V V'.
  destruct (step_found _ _ _ _ _ _ _ _ _ _ SA TK Hnb D eq_refl V) as (idx & vx & SM & (i & Hi & ->) & Evx & Con). rewrite (Con _ _ _ H) in *. clear Con.
  destruct (step_found _ _ _ _ _ _ _ _ _ _ SA TK' Hnb D' eq_refl V') as (idx' & _ & SM' & (i' & Hi' & ->) & _).
  destruct (eigh N (projected A K)) as [vals ys] eqn:EQ. destruct (eigh N (projected A K')) as [vals' ys'] eqn:EQ'. cbn [fst snd] in *. set (l := nth i vals 0%Qc) in *.
  destruct (Qclt_le_dec (l + qz 2 * eps) (nth i' vals' 0%Qc)) as [F|]; [|assumption]. exfalso.
  assert (LP : length (projected A K) = length K) by (unfold projected; apply map_length). assert (LP' : length (projected A K') = length K') by (unfold projected; apply map_length).
  pose proof D' as (L1' & L2' & TY' & OY' & DD'). cbn [fst snd] in L1', L2', TY', OY', DD'. rewrite LP' in *. pose proof D as (L1 & L2 & TY & OY & _). cbn [fst snd] in L1, L2, TY, OY. rewrite LP in *.
  set (Z' := map (blend (length A) K') ys').
  destruct (trial A K eps vals ys idx k i (map (fun j => nth j Z' []) (firstn k idx')) SA TK OK D SM Hi) as (d & Ld & Px & ZD & OT & M).
  - rewrite map_length, firstn_length. lia.
  - apply Forall_forall. intros t It. apply in_map_iff in It. destruct It as (j & <- & I). destruct SM' as (_ & B & _).
    assert (Ij : In j idx') by (rewrite <- (firstn_skipn k idx'); apply in_or_app; now left). specialize (B j Ij). unfold Z'. rewrite (nth_map_in _ _ _ _ _ []) by lia. apply blend_length.
  - set (x := blend (length A) (map (blend (length A) K) ys) d) in *. fold l in M.
    assert (CX : combination (length A) K' x).
    { apply combine_combinations; [assumption | apply Forall_forall; intros t It; apply in_map_iff in It; destruct It as (? & <- & _); apply blend_length | rewrite map_length; lia |].
      intros j Hj NZ. rewrite map_length in Hj. rewrite (nth_map_in _ _ _ _ _ []) by assumption. apply HC. rewrite Evx. apply (in_map (fun i => blend (length A) K (nth i ys []))).
      destruct (in_dec Nat.eq_dec j (firstn (S k) idx)) as [I|I]; [|exfalso; apply NZ; now apply ZD]. rewrite <- (firstn_skipn (S k) idx). apply in_or_app. now left. }
    destruct CX as (g & Lg & Eg). destruct (ortho_complete (length K') ys' g ltac:(lia) TY' OY' Lg) as (d' & Ld' & Eg').
    assert (SG : inner x x = inner d' d') by (rewrite Eg, unit_blend, Eg', unit_blend by (assumption || lia); reflexivity).
    assert (EX : x = blend (length A) Z' d') by (rewrite Eg, Eg'; apply blend_blend; assumption).
    assert (TZ : tall (length A) Z') by (apply Forall_forall; intros t It; apply in_map_iff in It; destruct It as (? & <- & _); apply blend_length).
    assert (CO : forall j, (j < length K')%nat -> inner (nth j Z' []) x = nth j d' 0%Qc).
    { intros j Hj. rewrite Eg, Eg'. unfold Z'. rewrite (nth_map_in _ _ _ _ _ []) by lia.
      assert (Q : forall u v, length u = length K' -> length v = length K' -> inner (blend (length A) K' u) (blend (length A) K' v) = inner u v).
      { intros u v Lu Lv. rewrite (inner_blend (length A)) by apply blend_length. unfold inner at 2. rewrite Lu. apply qsum_ext. intros p Hp. apply in_seq in Hp.
        rewrite inner_sym by (rewrite blend_length; symmetry; unfold tall in TK'; rewrite Forall_forall in TK'; apply TK', nth_In; lia). rewrite (ortho_coeff (length A) K' u p) by (assumption || lia). ring. }
      rewrite Q; [apply ortho_coeff; [assumption | assumption | lia] | unfold tall in TY'; rewrite Forall_forall in TY'; apply TY', nth_In; lia | apply blend_length]. }
    assert (MG : mean A x = inner g (image (projected A K') g)) by (rewrite Eg; symmetry; apply mean_projected; assumption).
    destruct (DD' d' Ld') as [_ D2]. rewrite <- Eg', <- MG in D2.
    assert (S : ((l + qz 2 * eps) * inner d' d' < qsum (fun k => nth k vals' 0 * (nth k d' 0 * nth k d' 0)) (seq 0 (length K')))%Qc).
    { unfold inner. rewrite Ld'. apply (weighted_lt _ (fun k => nth k vals' 0%Qc) (fun k => nth k d' 0%Qc)).
      - intros j Hj NZ. apply in_seq in Hj. eapply Qclt_le_trans; [exact F|]. apply (ranked vals' idx' k i' j SM' Hi'); [lia|]. intros I. apply NZ. rewrite <- CO by lia. apply OT. apply (in_map (fun j => nth j Z' [])). exact I.
      - rewrite SG in Px. unfold inner in Px. now rewrite Ld' in Px. }
    rewrite SG in M. replace (qz 2) with (1 + 1)%Qc in S by (apply Qc_is_canon; reflexivity).
    replace ((l + (1 + 1) * eps) * inner d' d')%Qc with ((l + eps) * inner d' d' + eps * inner d' d')%Qc in S by ring.
    revert M D2 S. generalize (mean A x) ((l + eps) * inner d' d')%Qc (eps * inner d' d')%Qc (qsum (fun k => nth k vals' 0 * (nth k d' 0 * nth k d' 0)) (seq 0 (length K')))%Qc. intros a b e q M D2 S. qc.
Qed.

Lemma C99_levels_pf : forall N A nb guess stp tol dim_max eps found vals vects es,
  let dm := if dim_max =? 0 then Z.of_nat (length A) else dim_max in
  let K0 := dav_first N A (Z.min nb dm) guess in
  qr_shape N -> square A -> symmetric A -> spectrum A es -> tall (length A) K0 -> 1 <= nb -> 1 <= dm -> well_diagonalised N A (Z.min nb dm) tol dm K0 eps ->
  modified_davidson_algorithm N A nb guess stp tol dim_max = Ok (found, vals, vects) ->
  forall k l, nth_error vals k = Some l -> (k < levels_below es (l + eps))%nat.
Proof.
  intros N A nb guess stp tol dim_max eps found vals vects es dm K0 HQ SA SY SP T Hnb Hdm HW H k l Hk. assert (Hn0 : 0 <= Z.min nb dm) by lia.
  destruct (C47_budget_pf _ _ _ _ _ _ _ _ _ _ H) as (i & K & S0 & F1 & F2). fold dm in S0, F1, F2. fold K0 in S0.
  pose proof (search_tall _ _ _ _ _ _ _ _ HQ SA T Hn0 S0) as TK. destruct (HW _ _ S0) as (O & AC & _).
  apply (step_levels N A (Z.min nb dm) tol dm K eps es k l SA SY SP TK O Hn0 AC). exists vals, vects. split; [|exact Hk]. destruct found; [left; apply F1; reflexivity | right; apply F2; reflexivity].
Qed.

Lemma C99_monotone_pf : forall N A nb tol dim_max K0 eps, qr_shape N -> square A -> tall (length A) K0 -> 1 <= nb ->
  well_diagonalised N A nb tol dim_max K0 eps ->
  forall i j K K' k l l', search_space N A nb tol dim_max K0 i K -> search_space N A nb tol dim_max K0 (i + j) K' ->
  value_at (dav_step N A nb tol dim_max K) k l -> value_at (dav_step N A nb tol dim_max K') k l' ->
  (l' <= l + qz (2 * Z.of_nat j) * eps)%Qc.
Proof.
  intros N A nb tol dim_max K0 eps HQ SA T Hnb HW i j. assert (Hn : 0 <= nb) by lia. induction j as [|j IH]; intros K K' k l l' S0 S' Hl Hl'.
  - rewrite Nat.add_0_r in S'. rewrite <- (search_fun _ _ _ _ _ _ _ _ S0 _ S') in Hl'. destruct Hl as (v & x & E & H), Hl' as (v' & x' & E' & H').
    assert (v = v') as <- by (destruct E as [E|(K1 & E)], E' as [E'|(K2 & E')]; rewrite E in E'; try discriminate; now injection E').
    rewrite H in H'. injection H' as <-. replace (l + qz (2 * Z.of_nat 0) * eps)%Qc with l; [apply Qcle_refl|]. change (qz (2 * Z.of_nat 0)) with 0%Qc. ring.
  - rewrite Nat.add_succ_r in S'. inversion S' as [|i' K1 v1 x1 K2 S1 E1]; subst.
    destruct (HW _ _ S1) as (O1 & A1 & C1). destruct (HW _ _ S') as (O2 & A2 & _).
    pose proof (search_tall _ _ _ _ _ _ _ _ HQ SA T Hn S1) as T1. pose proof (search_tall _ _ _ _ _ _ _ _ HQ SA T Hn S') as T2.
    assert (H1 : exists l1, value_at (dav_step N A nb tol dim_max K1) k l1).
    { destruct (dav_step_inv _ _ _ _ _ _ _ SA T1 Hn E1) as (vs & ys & Lv & _ & _ & Q). cbv zeta in Q.
      assert (Lv1 : length v1 = Z.to_nat nb) by (destruct Q as [[Q _]|Q]; [discriminate | destruct Q as (? & _ & _ & Q); injection Q as -> _ _; exact Lv]).
      destruct Hl' as (v' & x' & E' & N'). assert (Hk : (k < Z.to_nat nb)%nat).
      { assert (E2 : exists o, dav_step N A nb tol dim_max K' = Ok o) by (destruct E' as [->|(K3 & ->)]; eauto). destruct E2 as (o & E2).
        destruct (dav_step_inv _ _ _ _ _ _ _ SA T2 Hn E2) as (vs' & ys2 & Lv' & _ & _ & Q'). cbv zeta in Q'. assert (v' = vs') as ->.
        { rewrite E2 in E'. destruct Q' as [[-> _]|Q']; [destruct E' as [E'|(K3 & E')]; [now injection E' | discriminate]|]. destruct Q' as (K4 & _ & _ & ->). destruct E' as [E'|(K3 & E')]; [discriminate | now injection E']. }
        rewrite <- Lv'. apply nth_error_Some. congruence. }
      destruct (nth_error v1 k) as [l1|] eqn:Q1; [|apply nth_error_None in Q1; lia]. exists l1, v1, x1. split; [right; now exists K' | assumption]. }
    destruct H1 as (l1 & H1). specialize (IH _ _ _ _ _ S0 S1 Hl H1).
    pose proof (step_ranks _ _ _ _ _ _ _ _ _ _ _ _ _ SA T1 T2 O1 O2 Hn A1 A2 E1 (C1 _ _ _ E1) H1 Hl') as St.
    eapply Qcle_trans; [exact St|]. replace (l + qz (2 * Z.of_nat (S j)) * eps)%Qc with ((l + qz (2 * Z.of_nat j) * eps) + qz 2 * eps)%Qc.
    + apply Qcplus_le_compat; [exact IH | apply Qcle_refl].
    + replace (2 * Z.of_nat (S j)) with (2 * Z.of_nat j + 2) by lia. rewrite qz_add. ring.
Qed.

(** the diagonal of a diagonal matrix diagonalises it *)
Lemma diagonal_diagonalised : forall R, square R -> (forall i j, (i < length R)%nat -> (j < length R)%nat -> i <> j -> nth j (nth i R []) 0%Qc = 0%Qc) ->
  diagonalised 0 R (eigh ex_numerics R).
Proof.
  intros R SR D. cbn [ex_numerics eigh]. assert (LD : length (mat_diagonal R) = length R) by apply mat_diagonal_length.
  assert (ND : forall k, (k < length R)%nat -> nth k (mat_diagonal R) 0%Qc = nth k (nth k R []) 0%Qc) by (intros k Hk; rewrite mat_diagonal_seq, nth_map_seq by assumption; reflexivity).
  assert (M : forall y, length y = length R -> inner y (image R y) = qsum (fun k => nth k (mat_diagonal R) 0 * (nth k y 0 * nth k y 0))%Qc (seq 0 (length R))).
  { intros y Ly. unfold inner at 1. rewrite Ly. apply qsum_ext. intros k Hk. apply in_seq in Hk. rewrite image_nth by lia. unfold inner. rewrite (row_length R k SR) by lia.
    rewrite (qsum_ext _ _ (fun j => if Nat.eqb k j then nth j (nth k R []) 0 * nth j y 0 else 0)%Qc).
    - rewrite qsum_delta by lia. rewrite ND by lia. ring.
    - intros j Hj. apply in_seq in Hj. destruct (Nat.eqb_spec k j) as [|Q]; [reflexivity|]. rewrite D by lia. ring. }
  unfold diagonalised. cbn [fst snd]. assert (LI : length (identity_cols (length R) (length R)) = length R) by (unfold identity_cols; now rewrite map_length, seq_length).
  split; [assumption|]. split; [exact LI|]. split.
  { apply Forall_forall. intros t It. apply In_nth with (d := []) in It. destruct It as (k & Hk & <-). rewrite LI in Hk. rewrite identity_nth by assumption. apply unit_length. }
  split; [intros i j Hi Hj; rewrite LI in Hi, Hj; rewrite !identity_nth by assumption; now rewrite unit_inner by assumption|].
  intros c Lc. cbv zeta. assert (B : blend (length R) (identity_cols (length R) (length R)) c = c).
  { apply (nth_ext _ _ 0%Qc 0%Qc); [now rewrite blend_length|]. intros i Hi. rewrite blend_length in Hi. rewrite blend_nth by assumption. rewrite LI.
    rewrite (qsum_ext _ _ (fun k => if Nat.eqb i k then nth k c 0 else 0)%Qc); [now apply (qsum_delta _ _ (fun k => nth k c 0%Qc))|].
    intros k Hk. apply in_seq in Hk. rewrite identity_nth, unit_nth by lia. destruct (Nat.eqb i k); ring. }
  rewrite B, M by assumption. rewrite Qcmult_0_l, Qcplus_0_r. split; apply Qcle_refl.
Qed.
Lemma ex_well_diagonalised : well_diagonalised ex_numerics ex_A4 2 ex_tol 4 ex_K4 0.
Proof.
  assert (R : forall i K, search_space ex_numerics ex_A4 2 ex_tol 4 ex_K4 i K -> (i = 0%nat /\ K = ex_K4) \/ (i = 1%nat /\ K = identity_cols 4 4)).
  { intros i K S0. induction S0 as [|i K v x K' S0 IH E]; [now left|]. destruct IH as [[-> ->]|[-> ->]].
    - pose proof ex_step0 as Q. rewrite E in Q. cbn [ex_second] in Q. apply andb_prop in Q. destruct Q as [Q _]. apply andb_prop in Q. destruct Q as [_ Q]. apply sameqm_eq in Q. right. split; [reflexivity | exact Q].
    - pose proof ex_step1 as Q. rewrite E in Q. discriminate Q. }
  intros i K S0. destruct (ex_well_behaved i K S0) as (O & _ & C). split; [exact O|]. split; [|exact C]. clear O C. destruct (R i K S0) as [[-> ->]|[-> ->]].
  - rewrite ex_projected. apply diagonal_diagonalised; [repeat constructor|]. cbn [length]. intros [|[|i]] [|[|j]] Hi Hj Hn; try lia; apply Qc_is_canon; vm_compute; reflexivity.
  - assert (P : projected ex_A4 (identity_cols 4 4) = ex_A4) by (apply sameqm_eq; vm_compute; reflexivity). rewrite P.
    apply diagonal_diagonalised; [repeat constructor|]. change (length ex_A4) with 4%nat. intros [|[|[|[|i]]]] [|[|[|[|j]]]] Hi Hj Hn; try lia; apply Qc_is_canon; vm_compute; reflexivity.
Qed.
Lemma ex_second_value : value_at (dav_step ex_numerics ex_A4 2 ex_tol 4 ex_K4) 1 (qz 33) /\ value_at (dav_step ex_numerics ex_A4 2 ex_tol 4 (identity_cols 4 4)) 1 (qz 1).
Proof.
  split.
  - pose proof ex_step0 as Q. destruct (dav_step ex_numerics ex_A4 2 ex_tol 4 ex_K4) as [[v x|v x K]|]; try discriminate Q. cbn [ex_second] in Q. apply andb_prop in Q. destruct Q as [Q _]. apply andb_prop in Q. destruct Q as [Q _]. apply sameql_eq in Q.
    exists v, x. split; [right; now exists K | now rewrite Q].
  - pose proof ex_step1 as Q. destruct (dav_step ex_numerics ex_A4 2 ex_tol 4 (identity_cols 4 4)) as [[v x|v x K]|]; try discriminate Q. cbn [ex_found] in Q. apply andb_prop in Q. destruct Q as [Q _]. apply sameql_eq in Q.
    exists v, x. split; [now left | now rewrite Q].
Qed.
