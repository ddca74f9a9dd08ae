(** The surroundings of a block beside another one. *)
From Coq Require Import ZArith List Bool QArith Qcanon Lia Permutation.
From Verif Require Import PyBase PyFacts Lattice Base Interact Ham Spin Prob Dav Files Emb Spec SpecTJ HamSpec SpinDefs ProbDefs Geometry EmbDefs.
From Verif Require Import PMat PRing PGeo FGeo PSpin PProb PHam PRep PWave PDav PEmb PEmbRing.
Import ListNotations.
Open Scope Z_scope.

(** straightness in a drawing that is a row by row numbering is read off the graph *)
Lemma straight_unique : forall W H n (pos : Z -> Z * Z) g, 1 <= W -> 1 <= H -> n = W * H ->
  (forall x, 0 <= x < n -> 0 <= g x < n /\ pos x = point W (g x)) -> (forall x y, 0 <= x < n -> 0 <= y < n -> g x = g y -> x = y) ->
  (forall y, 0 <= y < n -> exists x, 0 <= x < n /\ g x = y) ->
  forall a m b, path n pos a m b -> (straight (pos a) (pos m) (pos b) <-> forall m', path n pos a m' b -> m' = m).
Proof.
  intros W H n pos g HW HH -> G J S a m b (Ha & Hm & Hb & N & A1 & A2).
  destruct (G a Ha) as [Ga Pa], (G m Hm) as [Gm Pm], (G b Hb) as [Gb Pb].
  assert (PP : path (W * H) (point W) (g a) (g m) (g b)).
  { unfold path. rewrite <- Pa, <- Pm, <- Pb. repeat (split; [lia || assumption|]). split; [intros Q; apply N; now apply J|]. split; assumption. }
  pose proof (C20_graph_determined_pf W H (g a) (g m) (g b) HW HH PP) as D. rewrite <- Pa, <- Pm, <- Pb in D. rewrite D. split.
  - intros U m' (_ & Hm' & _ & _ & B1 & B2). destruct (G m' Hm') as [Gm' Pm']. apply J; try assumption. apply U.
    unfold path. rewrite <- Pa, <- Pm', <- Pb. repeat (split; [lia || assumption|]). split; [intros Q; apply N; now apply J|]. split; assumption.
  - intros U k (_ & Hk & _ & _ & B1 & B2). destruct (S k Hk) as (m' & Hm' & <-). destruct (G m' Hm') as [Gm' Pm']. f_equal. apply U.
    unfold path. rewrite <- Pm', <- Pa in B1. rewrite <- Pm', <- Pb in B2. tauto.
Qed.

Lemma inj_onto : forall n (g : Z -> Z), (forall x, 0 <= x < n -> 0 <= g x < n) -> (forall x y, 0 <= x < n -> 0 <= y < n -> g x = g y -> x = y) ->
  forall y, 0 <= y < n -> exists x, 0 <= x < n /\ g x = y.
Proof.
  intros n g G J y Hy. assert (I : In y (map g (zrange 0 n))).
  { assert (ND : NoDup (map g (zrange 0 n))).
    { apply PBasis.NoDup_map_on; [|apply zrange_NoDup]. intros a b Ha Hb. apply in_zrange in Ha, Hb. now apply J. }
    apply (NoDup_length_incl ND (l' := zrange 0 n)).
    - rewrite map_length. lia.
    - intros z Hz. apply in_map_iff in Hz. destruct Hz as (x & <- & Hx). apply in_zrange in Hx. apply in_zrange. now apply G.
    - now apply in_zrange. }
  apply in_map_iff in I. destruct I as (x & <- & Hx). apply in_zrange in Hx. eauto.
Qed.

Section Blocks.
Variables (E : runtime) (c cn : configuration).
Hypothesis HE : set_iter_ok E.
Hypothesis Hh : 1 <= nbh c.
Hypothesis Hv : 1 <= nbv c.
Hypothesis Hs : 1 <= nblocs_side c.
Hypothesis HB : build_rectangular_bond_matrix (nbh c) (nbv c) (nblocs_side c) = Ok (bond_matrix c).
Hypothesis HN : nsites c = mrows (bond_matrix c).
Hypothesis HM : nsites cn = nsites c.
Hypothesis HF : numbering_found E (nbh c) (nbv c) (nblocs_side c).
Let w := nblocs_side c * nbh c.
Let ht := nblocs_side c * nbv c.
Let N := w * ht.

Lemma block_sizes : 1 <= w /\ 1 <= ht /\ 1 <= N.
Proof. unfold N, w, ht. nia. Qed.

Lemma block_in : forall x, 0 <= x < N -> blocks_point w ht x = point w x.
Proof. intros x Hx. unfold blocks_point. fold N. destruct (Z.ltb_spec x N); [reflexivity | lia]. Qed.
Lemma block_out : forall r, 0 <= r < N -> blocks_point w ht (N + r) = beside w r.
Proof. intros r Hr. unfold blocks_point, beside. fold N. destruct (Z.ltb_spec (N + r) N); [lia|]. replace (N + r - N) with r by lia. reflexivity. Qed.
Lemma block_out' : forall y, N <= y < 2 * N -> blocks_point w ht y = beside w (y - N).
Proof. intros y Hy. rewrite <- block_out by lia. f_equal. lia. Qed.

Lemma block_pt : forall x, 0 <= x < N -> 0 <= x mod w < w /\ 0 <= x / w < ht.
Proof. intros x Hx. destruct (pt_bound (nbh c) (nbv c) (nblocs_side c) Hh Hs x Hx) as (A & B & _). split; assumption. Qed.

Lemma block_site : forall a b, 0 <= a < w -> 0 <= b < ht -> exists x, 0 <= x < N /\ point w x = (a, b) /\ beside w x = (w + a, b).
Proof.
  intros a b Ha Hb. destruct (pt_site (nbh c) (nbv c) (nblocs_side c) Hh Hv Hs a b Ha Hb) as [S1 S2]. fold w ht in S1, S2. fold N in S1.
  exists (site w (a, b)). split; [assumption|]. split; [assumption|]. unfold beside. unfold point in S2. injection S2 as -> ->. reflexivity.
Qed.

(** straightness is decided in the drawing of the two blocks *)
Lemma blocks_straight : forall cu m, build_bond_matrix_block_embedding (nbh c) (nbv c) (nblocs_side c) = Ok m ->
  bond_matrix cu = m -> nsites cu = 2 * N -> lattice_type cu = Clusters -> nbh cu = 2 * nbh c -> nbv cu = nbv c -> nblocs_side cu = nblocs_side c ->
  drawn cu (blocks_point w ht) /\ straightness_decided E cu (blocks_point w ht).
Proof.
  intros cu m EM BM NS LT H1 H2 H3. destruct block_sizes as (W1 & H1' & N1).
  destruct HF as (m0 & P & iso & EM0 & EP & Inj & Iso & Find). fold w ht in Inj, Iso, Find. fold N in Inj, Iso, Find. rewrite EM in EM0. apply ok_eq in EM0. subst m0.
  destruct (C15_blocks_pf (nbh c) (nbv c) (nblocs_side c) Hh Hv Hs) as (m1 & P1 & EM1 & EP1 & G). cbv zeta in G. fold w ht in G. fold N in G.
  rewrite EM in EM1. apply ok_eq in EM1. subst m1. rewrite EP in EP1. apply ok_eq in EP1. subst P1.
  destruct G as (R1 & R2 & R3 & R4 & BE & RB & RI & RM).
  assert (RP : forall x, 0 <= x < 2 * N -> point (2 * w) (site (2 * w) (blocks_point w ht x)) = blocks_point w ht x).
  { intros x Hx. exact (proj1 (relabel_point (nbh c) (nbv c) (nblocs_side c) Hh Hv Hs x Hx)). }
  assert (D : drawn cu (blocks_point w ht)).
  { unfold drawn. rewrite NS, BM. split; [lia|]. split; [assumption|]. split; [assumption|]. split; [|exact BE].
    intros i j Hi Hj Q. apply RI; try assumption. now rewrite Q. }
  split; [exact D|].
  assert (C1 : 1 <= nbh cu) by lia. assert (C2 : 1 <= nbv cu) by lia. assert (C3 : 1 <= nblocs_side cu) by lia.
  assert (CP : build_rectangular_bond_matrix (nbh cu) (nbv cu) (nblocs_side cu) = Ok P) by (now rewrite H1, H2, H3).
  assert (WW : nblocs_side cu * nbh cu = 2 * w) by (rewrite H1, H3; unfold w; ring).
  assert (IR : forall i, 0 <= i < 2 * N -> 0 <= iso i < 2 * N).
  { destruct Find as (k & _ & _ & _ & R). intros i Hi. now apply R. }
  assert (SD : straightness_decided E cu (fun x => point (2 * w) (iso x))).
  { rewrite <- WW. apply (clusters_straight E cu P iso C1 C2 C3 CP); rewrite ?BM, ?NS; try assumption; congruence. }
  intros a k b x y z Pt Pm. rewrite NS in Pt.
  assert (ADJ : forall i j, 0 <= i < 2 * N -> 0 <= j < 2 * N ->
     (adjacent (blocks_point w ht i) (blocks_point w ht j) <-> adjacent (point (2 * w) (iso i)) (point (2 * w) (iso j)))).
  { intros i j Hi Hj. pose proof (BE i j Hi Hj) as [B1 B2].
    destruct (rect_is (2 * nbh c) (nbv c) (nblocs_side c) ltac:(lia) Hv Hs) as (P2 & EP2 & IP). rewrite EP in EP2. apply ok_eq in EP2. subst P2.
    replace (nblocs_side c * (2 * nbh c)) with (2 * w) in IP by (unfold w; ring). fold ht in IP. replace (2 * w * ht) with (2 * N) in IP by (unfold N; ring).
    destruct IP as (_ & _ & IP). pose proof (Iso i j Hi Hj) as Q. rewrite IP in Q by now apply IR. rewrite <- (adjb_iff (point (2 * w) (iso i))).
    destruct (adjb (point (2 * w) (iso i)) (point (2 * w) (iso j))); cbn [b2z] in Q; split; try congruence; intros A.
    - destruct (adjb (blocks_point w ht i) (blocks_point w ht j)) eqn:Ad; [now apply adjb_iff|]. exfalso.
      assert (~ adjacent (blocks_point w ht i) (blocks_point w ht j)) by (rewrite <- adjb_iff; congruence). specialize (B2 H). congruence.
    - specialize (B1 A). congruence. }
  assert (PA : forall u v' t, path (2 * N) (blocks_point w ht) u v' t <-> path (2 * N) (fun x => point (2 * w) (iso x)) u v' t).
  { intros u v' t. unfold path. split; intros (Q1 & Q2 & Q3 & Q4 & Q5 & Q6); repeat (split; [assumption|]); (split; [now apply ADJ | now apply ADJ]). }
  assert (Pt' : path (nsites cu) (fun x => point (2 * w) (iso x)) a k b) by (rewrite NS; now apply PA).
  destruct (SD a k b x y z Pt' Pm) as (r & Er & Ir). exists r. split; [assumption|]. rewrite Ir.
  rewrite NS in Pt'.
  assert (S1 : straight (blocks_point w ht a) (blocks_point w ht k) (blocks_point w ht b) <-> forall m', path (2 * N) (blocks_point w ht) a m' b -> m' = k).
  { apply (straight_unique (2 * w) ht (2 * N) (blocks_point w ht) (fun x => site (2 * w) (blocks_point w ht x))); [lia | lia | unfold N; ring | | exact RI | | assumption].
    - intros i Hi. split; [now apply RB|]. symmetry. now apply RP.
    - apply inj_onto; assumption. }
  assert (S2 : straight (point (2 * w) (iso a)) (point (2 * w) (iso k)) (point (2 * w) (iso b)) <-> forall m', path (2 * N) (fun x => point (2 * w) (iso x)) a m' b -> m' = k).
  { apply (straight_unique (2 * w) ht (2 * N) (fun x => point (2 * w) (iso x)) iso); [lia | lia | unfold N; ring | | exact Inj | | assumption].
    - intros i Hi. split; [now apply IR | reflexivity].
    - apply inj_onto; assumption. }
  rewrite S1, S2. split; intros U m' Hm'; apply U; now apply PA.
Qed.

Lemma beside_adj : forall x r, 0 <= x < N -> 0 <= r < N -> (adjacent (point w x) (beside w r) <-> x mod w = w - 1 /\ r mod w = 0 /\ x / w = r / w).
Proof.
  intros x r Hx Hr. destruct (block_pt x Hx), (block_pt r Hr). unfold adjacent, point, beside. cbn [fst snd]. lia.
Qed.
Lemma beside_diag : forall x r, 0 <= x < N -> 0 <= r < N -> diagb (point w x) (beside w r) = true ->
  exists z z', 0 <= z < N /\ 0 <= z' < N /\ adjacent (point w x) (point w z) /\ adjacent (point w z) (beside w r) /\ adjacent (point w x) (beside w z').
Proof.
  intros x r Hx Hr D. apply diagb_iff in D. destruct (block_pt x Hx), (block_pt r Hr). unfold point, beside in D. cbn [fst snd] in D. destruct block_sizes as (W1 & H1' & N1).
  destruct (block_site (w - 1) (r / w)) as (z & Hz & Pz & _); [lia | lia|]. destruct (block_site 0 (x / w)) as (z' & Hz' & _ & Qz'); [lia | lia|].
  exists z, z'. split; [assumption|]. split; [assumption|]. rewrite Pz, Qz'. unfold adjacent, point, beside. cbn [fst snd]. lia.
Qed.

Lemma block_frame : exists u full, block_surroundings E c cn = Ok (u, full) /\ frame u (nsites c) (point w) (nsites c) (beside w).
Proof.
  unfold block_surroundings. destruct block_sizes as (W1 & H1' & N1). rewrite HM. rewrite (rect_n c _ _ _ Hh Hv Hs HB HN). fold w ht. fold N.
  destruct (blocks_is (nbh c) (nbv c) (nblocs_side c) Hh Hv Hs) as (bm & EB & IB). fold w ht in IB. fold N in IB. rewrite EB. cbn [bind].
  pose proof (rect_mat c (nbh c) (nbv c) (nblocs_side c) Hh Hv Hs HB) as IC. fold w ht in IC. fold N in IC.
  set (g := fun x => match get_neighbors E x bm (RList []) with Ok l => l | Err _ => [] end).
  assert (G : forall x, 0 <= x < 2 * N -> get_neighbors E x bm (RList []) = Ok (g x) /\ forall y, In y (g x) <-> 0 <= y < 2 * N /\ adjacent (blocks_point w ht x) (blocks_point w ht y)).
  { intros x Hx. destruct (mat_neighbors E bm (2 * N) (blocks_point w ht) x (RList []) HE IB Hx Logic.I) as (l & El & _ & Il).
    unfold g. rewrite El. split; [reflexivity|]. intros y. rewrite Il. cbn [allowed]. tauto. }
  set (fw := fun shift x => match fewer_neighbors E (bond_matrix c) bm shift x with Ok b => b | Err _ => false end).
  assert (F0 : forall x, 0 <= x < N -> fewer_neighbors E (bond_matrix c) bm 0 x = Ok (fw 0 x) /\ (fw 0 x = true <-> exists r, 0 <= r < N /\ adjacent (point w x) (beside w r))).
  { intros x Hx. destruct (fewer_ok E (bond_matrix c) bm N (2 * N) (point w) (blocks_point w ht) 0 x HE IC IB) as (b & Eb & Ib); try lia.
    - intros y Hy. rewrite Z.add_0_r. now apply block_in.
    - unfold fw. rewrite Eb. split; [reflexivity|]. rewrite Ib. split.
      + intros (y & Hy & Ny & A). exists (y - N). split; [lia|]. now rewrite <- block_out' by lia.
      + intros (r & Hr & A). exists (N + r). split; [lia|]. split; [lia|]. now rewrite block_out. }
  assert (FN : forall x, 0 <= x < N -> fewer_neighbors E (bond_matrix c) bm N x = Ok (fw N x) /\ (fw N x = true <-> exists y, 0 <= y < N /\ adjacent (point w y) (beside w x))).
  { intros x Hx. destruct (fewer_ok E (bond_matrix c) bm N (2 * N) (beside w) (blocks_point w ht) N x HE) as (b & Eb & Ib); try lia.
    - destruct IC as (C1 & C2 & C3). split; [assumption|]. split; [assumption|]. intros i j Hi Hj. rewrite C3 by assumption. unfold adjb, point, beside. cbn [fst snd]. f_equal. f_equal. lia.
    - exact IB.
    - intros y Hy. rewrite Z.add_comm. now apply block_out.
    - unfold fw. rewrite Eb. split; [reflexivity|]. rewrite Ib. split.
      + intros (y & Hy & Ny & A). exists y. split; [lia|]. rewrite block_in in A by lia. unfold adjacent in *. lia.
      + intros (r & Hr & A). exists r. split; [lia|]. split; [lia|]. rewrite block_in by lia. unfold adjacent in *. lia. }
  rewrite (concatM_ok _ _ _ (fun x => if fw 0 x then g x else [])).
  2:{ intros x Hx. apply in_zrange in Hx. rewrite (proj1 (F0 x Hx)). cbn [bind]. destruct (fw 0 x); [apply G; lia | reflexivity]. }
  cbn [bind].
  rewrite (concatM_ok _ _ _ (fun x => if fw N x then g (x + N) else [])).
  2:{ intros x Hx. apply in_zrange in Hx. rewrite (proj1 (FN x Hx)). cbn [bind]. destruct (fw N x); [apply G; lia | reflexivity]. }
  cbn [bind].
  set (fr := py_set_list E (flat_map (fun x => if fw 0 x then g x else []) (zrange 0 N) ++ flat_map (fun x => if fw N x then g (x + N) else []) (zrange 0 N))).
  assert (FR : forall y, In y fr -> 0 <= y < 2 * N).
  { intros y. unfold fr. rewrite (in_set_list E HE), in_app_iff, !in_flat_map. intros [(x & Hx & Hy)|(x & Hx & Hy)]; apply in_zrange in Hx.
    - destruct (fw 0 x); [|contradiction]. apply G in Hy; [tauto | lia].
    - destruct (fw N x); [|contradiction]. apply G in Hy; [tauto | lia]. }
  assert (FA : forall x r, 0 <= x < N -> 0 <= r < N -> adjacent (point w x) (beside w r) -> In x fr /\ In (N + r) fr).
  { intros x r Hx Hr A. unfold fr. rewrite !(in_set_list E HE), !in_app_iff, !in_flat_map. split.
    - right. exists r. split; [now apply in_zrange|]. assert (fw N r = true) as -> by (apply FN; eauto). apply G; [lia|]. split; [lia|].
      rewrite (Z.add_comm r N), block_out, block_in by assumption. unfold adjacent in *. lia.
    - left. exists x. split; [now apply in_zrange|]. assert (fw 0 x = true) as -> by (apply F0; eauto). apply G; [lia|]. split; [lia|].
      rewrite block_out, block_in by assumption. exact A. }
  set (fa := filter (fun x => x <? N) fr). set (fb := filter (fun x => N <=? x) fr).
  assert (IA : forall x, In x fa <-> In x fr /\ x < N) by (intros x; unfold fa; rewrite filter_In, Z.ltb_lt; tauto).
  assert (IBB : forall x, In x fb <-> In x fr /\ N <= x) by (intros x; unfold fb; rewrite filter_In, Z.leb_le; tauto).
  unfold make_configuration. replace (mrows bm) with (2 * N) by (symmetry; apply IB).
  destruct (Z.eqb_spec (2 * N) 0); [lia|]. cbn [restr_falsy bind].
  match goal with |- context [mkSur ?k _ _ _ _] => set (cu := k) end.
  eexists. eexists. split; [reflexivity|]. cbn [u_frontier_A u_bonds u_diagonals].
  split; [apply NoDup_filter, (set_list_NoDup E HE)|]. split; [intros x Hx; apply IA in Hx; destruct Hx as [Hx L]; apply FR in Hx; lia|]. split; [|split].
  - cbn [u_frontier_A u_bonds]. intros x Hx. apply IA in Hx. destruct Hx as [Hx L]. apply FR in Hx. assert (Hx' : 0 <= x < N) by lia.
    destruct (mat_neighbors E bm (2 * N) (blocks_point w ht) x (RTuple fa fb) HE IB Hx Logic.I) as (l & El & ND & Il).
    rewrite El. cbn [bind]. eexists. split; [reflexivity|]. split; [apply (set_and_NoDup E HE)|].
    intros y. rewrite (in_set_and E HE), Il, bondb_iff. cbn [allowed]. rewrite block_in by assumption. split.
    + intros (Hy & Y2 & _ & A). apply IBB in Hy. split; [lia|]. now rewrite <- block_out' by lia.
    + intros (Hy & A). assert (Y : In y fb). { apply IBB. split; [|lia]. destruct (FA x (y - N) Hx') as [_ Q]; [lia | assumption|]. now replace (N + (y - N)) with y in Q by lia. }
      split; [assumption|]. split; [lia|]. split; [assumption|]. now rewrite block_out' by lia.
  - cbn [u_frontier_A u_diagonals]. intros x Hx. apply IA in Hx. destruct Hx as [Hx L]. apply FR in Hx. assert (Hx' : 0 <= x < N) by lia.
    destruct (blocks_straight cu bm EB eq_refl eq_refl eq_refl eq_refl eq_refl eq_refl) as [CD CS].
    assert (Hxc : 0 <= x < nsites cu) by (subst cu; cbn [nsites]; lia).
    destruct (diag_ok E cu (blocks_point w ht) HE CD CS x fa fb Hxc eq_refl) as (l & El & ND & Il).
    rewrite El. cbn [bind]. eexists. split; [reflexivity|]. split; [apply (set_and_NoDup E HE)|].
    intros y. rewrite (in_set_and E HE), Il, diagb_iff. rewrite (block_in x) by assumption. split.
    + intros (Hy & _ & _ & A). apply IBB in Hy. destruct Hy as [Hy Y]. apply FR in Hy. split; [lia|]. now rewrite <- block_out' by lia.
    + intros (Hy & A). destruct (beside_diag x (y - N) Hx') as (z & z' & Hz & Hz' & A1 & A2 & A3); [lia | now apply diagb_iff|].
      assert (Y : In y fb). { apply IBB. split; [|lia]. destruct (FA z (y - N) Hz) as [_ Q]; [lia | assumption|]. now replace (N + (y - N)) with y in Q by lia. }
      split; [assumption|]. split; [assumption|]. rewrite (block_out' y) by lia. split; [|assumption].
      exists z. subst cu. cbn [nsites]. unfold path. rewrite (block_out' y) by lia. rewrite !block_in by assumption.
      split; [lia|]. split; [lia|]. split; [lia|]. split; [lia|]. split; assumption.
  - cbn [u_frontier_A]. intros x r Hx Hr NF. split; apply not_true_iff_false; intros A; apply NF, IA; (split; [|lia]).
    + apply bondb_iff in A. now apply (FA x r).
    + destruct (beside_diag x r Hx Hr A) as (z & z' & Hz & Hz' & A1 & A2 & A3). now apply (FA x z').
Qed.
End Blocks.
