(** The entries added for one perturbator. *)
From Coq Require Import ZArith List Bool QArith Qcanon Lia Permutation.
From Verif Require Import PyBase PyFacts Lattice Base Interact Ham Spin Prob Dav Files Emb Spec SpecOps SpecTJ HamSpec DynDefs.
From Verif Require Import PBasis PSites PSpin PProb PHam PEmbPerm PEmbCount.
Import ListNotations.
Open Scope Z_scope.

Lemma kept_is : forall thr x, (if qleb thr (qabs x) then x else 0%Qc) = kept_above thr x.
Proof.
  intros thr x. unfold kept_above.
  assert (A : qabs x = if Qclt_le_dec x 0 then (- x)%Qc else x).
  { unfold qabs, qleb. destruct (Qclt_le_dec x 0) as [H|H].
    - destruct (Qle_bool _ _) eqn:Q; [|reflexivity]. apply Qle_bool_iff in Q. exfalso. exact (Qlt_not_le _ _ H Q).
    - apply Qle_bool_iff in H. change (this 0%Qc) with (this 0%Qc) in H. now rewrite H. }
  rewrite <- A. unfold qleb. destruct (Qclt_le_dec (qabs x) thr) as [H|H].
  - destruct (Qle_bool _ _) eqn:Q; [|reflexivity]. apply Qle_bool_iff in Q. exfalso. exact (Qlt_not_le _ _ H Q).
  - apply Qle_bool_iff in H. now rewrite H.
Qed.

Lemma kept_zero : forall thr, kept_above thr 0 = 0%Qc.
Proof. intros thr. unfold kept_above. destruct (Qclt_le_dec _ thr); reflexivity. Qed.

Lemma parts_describe : forall N h b d sA sB, 0 <= N -> describes (2 * N) (2 * h) (2 * b) d (join_states N sA sB) -> in_sector N h b sA -> in_sector N h b sB ->
  describes N h b (filter (fun x => x <? N) d) sA /\ describes N h b (map (fun x => x - N) (filter (fun x => N <=? x) d)) sB.
Proof.
  intros N h b d sA sB HN (hs & bs & us & -> & Lh & Lb & Nh & Nb & Nu & Ih & Ib & Iu) [A1 B1] [A2 B2].
  assert (G1 : forall l p, NoDup l -> (forall x, In x l <-> 0 <= x < 2 * N /\ join_states N sA sB x = p) ->
    NoDup (filter (fun x => x <? N) l) /\ (forall x, In x (filter (fun x => x <? N) l) <-> 0 <= x < N /\ sA x = p)).
  { intros l p ND I. split; [now apply NoDup_filter|]. intros x. rewrite filter_In, I. unfold join_states.
    destruct (Z.ltb_spec x N); intuition (try lia; try congruence). }
  assert (G2 : forall l p, NoDup l -> (forall x, In x l <-> 0 <= x < 2 * N /\ join_states N sA sB x = p) ->
    NoDup (map (fun x => x - N) (filter (fun x => N <=? x) l)) /\
    (forall x, In x (map (fun x => x - N) (filter (fun x => N <=? x) l)) <-> 0 <= x < N /\ sB x = p)).
  { intros l p ND I. split; [apply NoDup_map_on; [intros; lia | now apply NoDup_filter]|].
    intros x. rewrite in_map_iff. split.
    - intros (y & <- & Hy). apply filter_In in Hy. destruct Hy as [Hy Q]. apply I in Hy. unfold join_states in Hy.
      apply Z.leb_le in Q. destruct (Z.ltb_spec y N); [lia|]. intuition lia.
    - intros [Hx Q]. exists (x + N). split; [lia|]. apply filter_In. split; [|apply Z.leb_le; lia].
      apply I. unfold join_states. destruct (Z.ltb_spec (x + N) N); [lia|]. replace (x + N - N) with x by lia. split; [lia|assumption]. }
  assert (GL : forall n s l p k, zlen (sites_of n s p) = k -> NoDup l -> (forall x, In x l <-> 0 <= x < n /\ s x = p) ->
    Z.of_nat (length l) = k).
  { intros n s l p k <- ND I. unfold zlen. f_equal. now apply Permutation_length, group_perm. }
  split.
  - destruct (G1 _ _ Nh Ih), (G1 _ _ Nb Ib), (G1 _ _ Nu Iu).
    rewrite !filter_app. do 3 eexists. split; [reflexivity|].
    split; [eapply (GL N sA _ Hole); eassumption|]. split; [eapply (GL N sA _ Down); eassumption|]. repeat (split; [assumption|]). assumption.
  - destruct (G2 _ _ Nh Ih), (G2 _ _ Nb Ib), (G2 _ _ Nu Iu).
    rewrite !filter_app, !map_app. do 3 eexists. split; [reflexivity|].
    split; [eapply (GL N sB _ Hole); eassumption|]. split; [eapply (GL N sB _ Down); eassumption|]. repeat (split; [assumption|]). assumption.
Qed.

(** both orders of the pairs *)
Lemma pairs_sum : forall (l : list (list Z * Qc)) (F : list Z * Qc -> list Z * Qc -> Qc), NoDup (map fst l) ->
  qsum (fun q => (F (fst q) (snd q) + F (snd q) (fst q))%Qc) (pairs_of l) = qsum (fun a => qsum (fun b => only (negb (zlist_eqb (fst a) (fst b))) (F a b)) l) l.
Proof.
  intros l F. induction l as [|x l IH]; intros ND; [reflexivity|]. cbn [map] in ND. inversion ND as [|? ? NI ND']; subst. cbn [pairs_of].
  rewrite qsum_app, qsum_map, IH by assumption. cbn [fst snd]. rewrite qsum_cons, qsum_cons.
  assert (R : zlist_eqb (fst x) (fst x) = true) by now apply zlist_eqb_eq. rewrite R. cbn [negb only].
  assert (Dx : forall y, In y l -> zlist_eqb (fst x) (fst y) = false /\ zlist_eqb (fst y) (fst x) = false).
  { intros y Hy. split; apply not_true_iff_false; rewrite zlist_eqb_eq; intros Q; apply NI; [rewrite Q | rewrite <- Q]; now apply in_map. }
  rewrite (qsum_ext _ (fun b => only (negb (zlist_eqb (fst x) (fst b))) (F x b)) (fun b => F x b)) by (intros y Hy; now rewrite (proj1 (Dx y Hy))).
  rewrite (qsum_ext _ (fun a => qsum (fun b => only (negb (zlist_eqb (fst a) (fst b))) (F a b)) (x :: l))
                     (fun a => (F a x + qsum (fun b => only (negb (zlist_eqb (fst a) (fst b))) (F a b)) l)%Qc)).
  2:{ intros y Hy. rewrite qsum_cons. now rewrite (proj2 (Dx y Hy)). }
  rewrite !qsum_add. change (fun b => F x b) with (F x). ring.
Qed.

Lemma pairs_in_ : forall A (l : list A) a b, In (a, b) (pairs_of l) -> In a l /\ In b l.
Proof.
  intros A l. induction l as [|x l IH]; intros a b H; [destruct H|]. cbn [pairs_of] in H. apply in_app_iff in H. destruct H as [H|H].
  - apply in_map_iff in H. destruct H as (y & Q & Hy). injection Q as <- <-. split; [now left | now right].
  - destruct (IH a b H). split; now right.
Qed.

Section Add.
Variables (c : configuration) (single : bool) (thr energy e : Qc) (gs : vect) (dim : Z) (st : nat -> occupation).
Variables (J : occupation -> occupation -> Qc) (l : list (list Z * Qc)).
Variables (rots : list Z) (ixr : Z -> occupation -> Z) (stR : Z -> Z -> occupation).
Let N := nsites c.
Let sec := in_sector N (nholes c) (nbeta c).
Let ix := state_index N (nholes c) (nbeta c).
Let D := (qz 2 * energy - e)%Qc.
Let det2 := determinant_of (2 * N) (2 * nholes c) (2 * nbeta c).
Hypothesis HN : 0 <= N.
Hypothesis HD : D <> 0%Qc.
Hypothesis Hrots : rots = if single then [0] else zrange 0 4.
Hypothesis Hdim : dim = zlen gs.
Hypothesis R1 : forall d s rt, In rt rots -> describes N (nholes c) (nbeta c) d s -> (if single then get_index_in_basis c d else rotated_index c d rt) = Ok (ixr rt s).
Hypothesis R2 : forall rt s, In rt rots -> sec s -> 0 <= ixr rt s < dim.
Hypothesis R3 : forall rt s i, In rt rots -> sec s -> 0 <= i < dim -> (ixr rt s = i <-> same_state N s (stR rt i)).
Hypothesis R4 : forall rt i, In rt rots -> 0 <= i < dim -> sec (stR rt i).
Hypothesis T1 : forall s, sec s -> 0 <= ix s < dim.
Hypothesis T2 : forall k, 0 <= k < dim -> sec (st (Z.to_nat k)).
Hypothesis T3 : forall s k, sec s -> 0 <= k < dim -> (ix s = k <-> same_state N s (st (Z.to_nat k))).
Hypothesis L1 : NoDup (map fst l).
Hypothesis L2 : forall k x, In (k, x) l -> exists sA sB, sec sA /\ sec sB /\ det2 k (join_states N sA sB).
Hypothesis L3 : forall k x sA sB, In (k, x) l -> sec sA -> det2 k (join_states N sA sB) -> x = J sA sB.
Hypothesis L4 : forall sA sB, sec sA -> sec sB -> (forall k x, In (k, x) l -> ~ det2 k (join_states N sA sB)) -> J sA sB = 0%Qc.

Let gat (k : Z) : Qc := nth (Z.to_nat k) gs 0%Qc.
Let part_A (d : list Z) := filter (fun site => site <? N) d.
Let part_B (d : list Z) := map (fun site => site - N) (filter (fun site => N <=? site) d).
Let iB (d : list Z) : Z := match get_index_in_basis c (part_B d) with Ok k => k | Err _ => 0 end.
Let iA (rt : Z) (d : list Z) : Z := match (if single then get_index_in_basis c (part_A d) else rotated_index c (part_A d) rt) with Ok k => k | Err _ => 0 end.
Let coupling (a b : list Z * Qc) : Qc := (gat (iB (fst a)) * gat (iB (fst b)) * (snd a * snd b) / D)%Qc.

Lemma iB_ok : forall d sA sB, sec sA -> sec sB -> det2 d (join_states N sA sB) -> get_index_in_basis c (part_B d) = Ok (iB d) /\ iB d = ix sB.
Proof.
  intros d sA sB SA SB [Dd _]. destruct (parts_describe _ _ _ _ _ _ HN Dd SA SB) as [_ PB]. unfold iB.
  assert (Q : get_index_in_basis c (part_B d) = Ok (ix sB)) by (apply index_describes; exact PB). rewrite Q. split; reflexivity.
Qed.

Lemma iA_ok : forall rt d sA sB, In rt rots -> sec sA -> sec sB -> det2 d (join_states N sA sB) ->
  (if single then get_index_in_basis c (part_A d) else rotated_index c (part_A d) rt) = Ok (iA rt d) /\ iA rt d = ixr rt sA.
Proof.
  intros rt d sA sB Hr SA SB [Dd _]. destruct (parts_describe _ _ _ _ _ _ HN Dd SA SB) as [PA _]. unfold iA.
  rewrite (R1 (part_A d) sA rt Hr PA). split; reflexivity.
Qed.

Lemma gs_get : forall k, 0 <= k < dim -> py_get gs k = Ok (gat k).
Proof.
  intros k Hk. apply py_get_nth; [lia|]. unfold gat. apply nth_error_nth'. rewrite Hdim in Hk. unfold zlen in Hk. lia.
Qed.

Let entries (rt : Z) (q : (list Z * Qc) * (list Z * Qc)) : coo :=
  let x := coupling (fst q) (snd q) in
  if qleb thr (qabs x) then [(x, iA rt (fst (fst q)), iA rt (fst (snd q))); (x, iA rt (fst (snd q)), iA rt (fst (fst q)))] else [].

Lemma add_both_ok : forall ham x i j, 0 <= i < dim -> 0 <= j < dim ->
  add_both dim ham x thr i j = Ok (ham ++ (if qleb thr (qabs x) then [(x, i, j); (x, j, i)] else [])).
Proof.
  intros ham x i j Hi Hj. unfold add_both. destruct (qleb thr (qabs x)); [|now rewrite app_nil_r].
  unfold add_coo, add_ham_coo. destruct (Z.leb_spec 0 i); [|lia]. destruct (Z.ltb_spec i dim); [|lia]. destruct (Z.leb_spec 0 j); [|lia]. destruct (Z.ltb_spec j dim); [|lia].
  cbn [andb bind]. now rewrite <- app_assoc.
Qed.

Lemma add_coupling_ok : forall ham q, In q (pairs_of l) -> add_coupling c single thr energy e gs dim ham q = Ok (ham ++ flat_map (fun rt => entries rt q) rots).
Proof.
  intros ham [[d1 c1] [d2 c2]] Hq. apply pairs_in_ in Hq. destruct Hq as [Q1 Q2].
  destruct (L2 _ _ Q1) as (sA1 & sB1 & SA1 & SB1 & D1). destruct (L2 _ _ Q2) as (sA2 & sB2 & SA2 & SB2 & D2).
  unfold add_coupling. fold N. cbv zeta.
  change (map (fun z => z - N) (filter (fun y => N <=? y) d1)) with (part_B d1). change (map (fun z => z - N) (filter (fun y => N <=? y) d2)) with (part_B d2).
  destruct (iB_ok d1 sA1 sB1 SA1 SB1 D1) as [E1 F1]. destruct (iB_ok d2 sA2 sB2 SA2 SB2 D2) as [E2 F2]. rewrite E1, E2. cbn [bind].
  assert (B1 : 0 <= iB d1 < dim) by (rewrite F1; now apply T1). assert (B2 : 0 <= iB d2 < dim) by (rewrite F2; now apply T1).
  rewrite (gs_get _ B1), (gs_get _ B2). cbn [bind]. fold D. unfold fdiv. destruct (qeqb D 0) eqn:QD; [apply qeqb_eq in QD; contradiction|]. cbn [bind].
  change (gat (iB d1) * gat (iB d2) * (c1 * c2) / D)%Qc with (coupling (d1, c1) (d2, c2)).
  change (filter (fun site => site <? N) d1) with (part_A d1). change (filter (fun site => site <? N) d2) with (part_A d2).
  assert (A1 : forall rt, In rt rots -> (if single then get_index_in_basis c (part_A d1) else rotated_index c (part_A d1) rt) = Ok (iA rt d1) /\ 0 <= iA rt d1 < dim).
  { intros rt Hr. destruct (iA_ok rt d1 sA1 sB1 Hr SA1 SB1 D1) as [G1 G2]. split; [assumption|]. rewrite G2. now apply R2. }
  assert (A2 : forall rt, In rt rots -> (if single then get_index_in_basis c (part_A d2) else rotated_index c (part_A d2) rt) = Ok (iA rt d2) /\ 0 <= iA rt d2 < dim).
  { intros rt Hr. destruct (iA_ok rt d2 sA2 sB2 Hr SA2 SB2 D2) as [G1 G2]. split; [assumption|]. rewrite G2. now apply R2. }
  assert (step : forall ham rt, In rt rots -> (k1 <- (if single then get_index_in_basis c (part_A d1) else rotated_index c (part_A d1) rt) ;;
             k2 <- (if single then get_index_in_basis c (part_A d2) else rotated_index c (part_A d2) rt) ;;
             add_both dim ham (coupling (d1, c1) (d2, c2)) thr k1 k2) = Ok (ham ++ entries rt ((d1, c1), (d2, c2)))).
  { intros h0 rt Hr. destruct (A1 rt Hr) as [G1 G2]. destruct (A2 rt Hr) as [G3 G4]. rewrite G1. cbn [bind]. rewrite G3. cbn [bind]. now apply add_both_ok. }
  rewrite Hrots. destruct single.
  - cbn [flat_map]. rewrite app_nil_r. apply step. rewrite Hrots. now left.
  - apply foldM_rows. intros b rt Hr. apply step. now rewrite Hrots.
Qed.

Let F (rt i j : Z) (a b : list Z * Qc) : Qc := only (iA rt (fst a) =? i) (only (iA rt (fst b) =? j) (kept_above thr (coupling a b))).

Lemma entries_at : forall rt q i j, coo_at (entries rt q) i j = (F rt i j (fst q) (snd q) + F rt i j (snd q) (fst q))%Qc.
Proof.
  intros rt [a b] i j. unfold entries, F. cbn [fst snd]. assert (Sy : coupling b a = coupling a b) by (unfold coupling; f_equal; ring). rewrite Sy, <- kept_is.
  unfold coo_at. destruct (qleb thr (qabs (coupling a b))).
  - rewrite !qsum_cons, qsum_nil. destruct (iA rt (fst a) =? i), (iA rt (fst b) =? j), (iA rt (fst b) =? i), (iA rt (fst a) =? j); cbn [andb only]; ring.
  - rewrite qsum_nil. destruct (iA rt (fst a) =? i), (iA rt (fst b) =? j), (iA rt (fst b) =? i), (iA rt (fst a) =? j); cbn [andb only]; ring.
Qed.

(** a sum over the dictionary is a sum over the states of the second block *)
Lemma dict_sum : forall rt i (G : Z -> Qc -> Qc), In rt rots -> 0 <= i < dim -> (forall k, G k 0%Qc = 0%Qc) ->
  qsum (fun a => only (iA rt (fst a) =? i) (G (iB (fst a)) (snd a))) l = qsum (fun k => G k (J (stR rt i) (st (Z.to_nat k)))) (zrange 0 dim).
Proof.
  intros rt i G Hr Hi G0.
  assert (X : forall a, In a l -> only (iA rt (fst a) =? i) (G (iB (fst a)) (snd a)) = qsum (fun k => only ((iA rt (fst a) =? i) && (iB (fst a) =? k)) (G k (snd a))) (zrange 0 dim)).
  { intros [d x] Ha. cbn [fst snd]. destruct (L2 _ _ Ha) as (sA & sB & SA & SB & Dd). destruct (iB_ok d sA sB SA SB Dd) as [_ EB].
    rewrite (qsum_single _ _ _ (iB d)); [now rewrite Z.eqb_refl, andb_true_r | apply zrange_NoDup | apply in_zrange; rewrite EB; now apply T1|].
    intros k _ Nk. destruct (Z.eqb_spec (iB d) k); [congruence | now rewrite andb_false_r]. }
  rewrite (qsum_ext _ _ _ _ X). rewrite qsum_exchange. apply qsum_ext. intros k Hk. apply in_zrange in Hk.
  set (si := stR rt i). set (sk := st (Z.to_nat k)). pose proof (R4 rt i Hr Hi) as Si. fold si in Si. pose proof (T2 k Hk) as Sk. fold sk in Sk.
  assert (Y : forall d x, In (d, x) l -> ((iA rt d =? i) && (iB d =? k) = true <-> det2 d (join_states N si sk))).
  { intros d x Ha. destruct (L2 _ _ Ha) as (sA & sB & SA & SB & Dd). destruct (iB_ok d sA sB SA SB Dd) as [_ EB]. destruct (iA_ok rt d sA sB Hr SA SB Dd) as [_ EA].
    rewrite andb_true_iff, !Z.eqb_eq, EA, EB, (R3 rt sA i Hr SA Hi), (T3 sB k SB Hk). fold si sk. split.
    - intros [Q1 Q2]. split; [|apply Dd]. destruct Dd as [Dd _]. eapply describes_same; [|exact Dd]. intros z Hz. unfold join_states. destruct (Z.ltb_spec z N); [apply Q1 | apply Q2]; lia.
    - intros [Dd' _]. destruct Dd as [Dd _]. pose proof (describes_unique _ _ _ _ _ _ Dd Dd') as Q. split; intros z Hz.
      + specialize (Q z ltac:(lia)). unfold join_states in Q. destruct (Z.ltb_spec z N); [assumption | lia].
      + specialize (Q (z + N) ltac:(lia)). unfold join_states in Q. destruct (Z.ltb_spec (z + N) N); [lia|]. now replace (z + N - N) with z in Q by lia. }
  destruct (in_dec (list_eq_dec Z.eq_dec) (canon (2 * N) (join_states N si sk)) (map fst l)) as [K|K].
  - apply in_map_iff in K. destruct K as ([d x] & Q & Ha). cbn [fst] in Q.
    assert (Dd : det2 d (join_states N si sk)).
    { rewrite Q. assert (S2 : in_sector (2 * N) (2 * nholes c) (2 * nbeta c) (join_states N si sk)).
      { apply sector_cnt. rewrite !cnt_join by assumption. destruct Si as [A1 A2], Sk as [A3 A4]. unfold cnt. lia. }
      split; [now apply canon_describes | now apply canon_increasing]. }
    rewrite (qsum_single _ _ _ (d, x)).
    + cbn [fst snd]. rewrite (proj2 (Y d x Ha) Dd). cbn [only]. f_equal. exact (L3 d x si sk Ha Si Dd).
    + clear - L1. induction l as [|y m IH]; [constructor|]. cbn [map] in L1. inversion L1; subst. constructor; [|auto]. intros X. apply H1. now apply in_map.
    + assumption.
    + intros [d' x'] Ha' Ne. cbn [fst snd]. destruct (_ && _) eqn:Q'; [|reflexivity]. exfalso. apply (Y d' x' Ha') in Q'. apply Ne.
      assert (d' = d) by (destruct Dd as [U1 U2], Q' as [V1 V2]; rewrite (increasing_canon _ _ _ _ _ V1 V2); symmetry; exact (increasing_canon _ _ _ _ _ U1 U2)).
      subst d'. f_equal. rewrite (L3 d x si sk Ha Si Dd). exact (L3 d x' si sk Ha' Si Dd).
  - assert (Z0 : J si sk = 0%Qc).
    { apply L4; [assumption | assumption|]. intros d x Ha [U1 U2]. apply K. rewrite <- (increasing_canon _ _ _ _ _ U1 U2). apply in_map_iff. exists (d, x). auto. }
    rewrite Z0, G0. apply qsum_zero. intros [d x] Ha. cbn [fst snd]. destruct (_ && _) eqn:Q; [|reflexivity]. exfalso. apply (Y d x Ha) in Q. apply K.
    destruct Q as [U1 U2]. rewrite <- (increasing_canon _ _ _ _ _ U1 U2). apply in_map_iff. exists (d, x). auto.
Qed.

Lemma keys_differ : forall rt i j d1 x1 d2 x2, In rt rots -> 0 <= i < dim -> 0 <= j < dim -> In (d1, x1) l -> In (d2, x2) l -> iA rt d1 = i -> iA rt d2 = j ->
  zlist_eqb d1 d2 = sameb N (stR rt i) (stR rt j) && (iB d1 =? iB d2).
Proof.
  intros rt i j d1 x1 d2 x2 Hr Hi Hj Q1 Q2 E1 E2.
  destruct (L2 _ _ Q1) as (sA1 & sB1 & SA1 & SB1 & D1). destruct (L2 _ _ Q2) as (sA2 & sB2 & SA2 & SB2 & D2).
  destruct (iB_ok d1 sA1 sB1 SA1 SB1 D1) as [_ F1]. destruct (iB_ok d2 sA2 sB2 SA2 SB2 D2) as [_ F2].
  destruct (iA_ok rt d1 sA1 sB1 Hr SA1 SB1 D1) as [_ G1]. destruct (iA_ok rt d2 sA2 sB2 Hr SA2 SB2 D2) as [_ G2].
  rewrite G1 in E1. rewrite G2 in E2. apply (R3 rt sA1 i Hr SA1 Hi) in E1. apply (R3 rt sA2 j Hr SA2 Hj) in E2.
  apply eq_true_iff_eq. rewrite zlist_eqb_eq, andb_true_iff, sameb_iff, Z.eqb_eq, F1, F2. split.
  - intros <-. destruct D1 as [D1 _], D2 as [D2 _]. pose proof (describes_unique _ _ _ _ _ _ D1 D2) as Q. split.
    + intros z Hz. rewrite <- (E1 z Hz), <- (E2 z Hz). specialize (Q z ltac:(lia)). unfold join_states in Q. destruct (Z.ltb_spec z N); [assumption | lia].
    + apply state_index_same. intros z Hz. specialize (Q (z + N) ltac:(lia)). unfold join_states in Q. destruct (Z.ltb_spec (z + N) N); [lia|]. now replace (z + N - N) with z in Q by lia.
  - intros [Sij EB]. apply state_index_inj in EB; try assumption. destruct D1 as [D1 O1], D2 as [D2 O2].
    rewrite (increasing_canon _ _ _ _ _ D1 O1), (increasing_canon _ _ _ _ _ D2 O2). apply canon_same. intros z Hz. unfold join_states. destruct (Z.ltb_spec z N).
    + rewrite (E1 z), (E2 z) by lia. apply Sij. lia.
    + apply EB. lia.
Qed.

Definition mediated_J (si sj : occupation) : Qc :=
  qsum (fun k1 => qsum (fun k2 => only (negb (sameb N si sj && Nat.eqb k1 k2))
         (kept_above thr (nth k1 gs 0 * nth k2 gs 0 * (J si (st k1) * J sj (st k2)) / D)%Qc)) (seq 0 (length gs))) (seq 0 (length gs)).

Lemma range_nat : forall (f : Z -> Qc), qsum f (zrange 0 dim) = qsum (fun k => f (Z.of_nat k)) (seq 0 (length gs)).
Proof.
  intros f. rewrite Hdim. unfold zrange. rewrite qsum_map. replace (Z.to_nat (zlen gs - 0)) with (length gs) by (unfold zlen; lia). apply qsum_ext. intros k _. f_equal.
Qed.

Lemma all_pairs : forall ham, exists h, foldM (add_coupling c single thr energy e gs dim) ham (pairs_of l) = Ok h /\
  forall i j, 0 <= i < dim -> 0 <= j < dim -> coo_at h i j = (coo_at ham i j + qsum (fun rt => mediated_J (stR rt i) (stR rt j)) rots)%Qc.
Proof.
  intros ham. eexists. split; [apply foldM_rows; intros b q Hq; now apply add_coupling_ok|]. intros i j Hi Hj. rewrite coo_at_app. f_equal.
  unfold coo_at. rewrite qsum_flat_map. transitivity (qsum (fun q => qsum (fun rt => coo_at (entries rt q) i j) rots) (pairs_of l)).
  { apply qsum_ext. intros q _. rewrite qsum_flat_map. reflexivity. }
  rewrite qsum_exchange. apply qsum_ext. intros rt Hr.
  rewrite (qsum_ext _ _ (fun q => (F rt i j (fst q) (snd q) + F rt i j (snd q) (fst q))%Qc)) by (intros; apply entries_at).
  rewrite (pairs_sum l (F rt i j) L1).
  set (si := stR rt i). set (sj := stR rt j).
  set (G2 := fun k1 x1 k2 x2 => only (negb (sameb N si sj && (k1 =? k2))) (kept_above thr (gat k1 * gat k2 * (x1 * x2) / D)%Qc)).
  assert (A : forall a, In a l -> qsum (fun b => only (negb (zlist_eqb (fst a) (fst b))) (F rt i j a b)) l =
     only (iA rt (fst a) =? i) (qsum (fun k2 => G2 (iB (fst a)) (snd a) k2 (J sj (st (Z.to_nat k2)))) (zrange 0 dim))).
  { intros [d1 x1] H1. cbn [fst snd]. unfold sj at 1. rewrite <- (dict_sum rt j (fun k2 x2 => G2 (iB d1) x1 k2 x2) Hr Hj).
    - unfold F. cbn [fst]. destruct (Z.eqb_spec (iA rt d1) i) as [E1|E1]; cbn [only].
      2:{ apply qsum_zero. intros b _. now destruct (negb _). }
      apply qsum_ext. intros [d2 x2] H2. cbn [fst snd]. destruct (Z.eqb_spec (iA rt d2) j) as [E2|E2]; cbn [only]; [|now destruct (negb _)].
      rewrite (keys_differ rt i j d1 x1 d2 x2 Hr Hi Hj H1 H2 E1 E2). reflexivity.
    - intros k. unfold G2. replace (gat (iB d1) * gat k * (x1 * 0) / D)%Qc with 0%Qc by (unfold Qcdiv; ring). rewrite kept_zero. now destruct (negb _). }
  rewrite (qsum_ext _ _ _ _ A). clear A.
  rewrite (dict_sum rt i (fun k1 x1 => qsum (fun k2 => G2 k1 x1 k2 (J sj (st (Z.to_nat k2)))) (zrange 0 dim)) Hr Hi).
  - unfold mediated_J. rewrite range_nat. apply qsum_ext. intros k1 _. rewrite range_nat. apply qsum_ext. intros k2 _. unfold G2, gat. rewrite !Nat2Z.id.
    fold si sj. replace (Z.of_nat k1 =? Z.of_nat k2) with (Nat.eqb k1 k2); [reflexivity|]. apply eq_true_iff_eq. rewrite Nat.eqb_eq, Z.eqb_eq. lia.
  - intros k. apply qsum_zero. intros k2 _. unfold G2. match goal with |- only _ (kept_above thr ?x) = _ => replace x with 0%Qc by (unfold Qcdiv; ring) end. rewrite kept_zero. now destruct (negb _).
Qed.
End Add.
