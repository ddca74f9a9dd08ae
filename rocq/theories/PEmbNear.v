(** The frontier of two blocks side by side. *)
From Coq Require Import ZArith List Bool QArith Qcanon Lia Permutation.
From Verif Require Import PyBase PyFacts Lattice Base Interact Ham Spin Prob Dav Files Emb Spec SpecOps SpecTJ HamSpec SpinDefs ProbDefs Geometry EmbDefs DynDefs.
From Verif Require Import PMat PRing PGeo FGeo PSpin PProb PHam PRep PWave PDav PEmb PEmbRing PEmbBlock.
Import ListNotations.
Open Scope Z_scope.

(** the configurations made for the two blocks *)
Definition pair_conf (c cn cu : configuration) (bm : mat) (r : restriction) : Prop :=
  bond_matrix cu = bm /\ nsites cu = 2 * nsites c /\ nholes cu = nholes c + nholes cn /\ nbeta cu = nbeta c + nbeta cn /\
  sites_restriction cu = r /\ lattice_type cu = Clusters /\ nbh cu = 2 * nbh c /\ nbv cu = nbv c /\ nblocs_side cu = nblocs_side c.

Section Near.
Variables (E : runtime) (c cn : configuration).
Hypothesis HE : set_iter_ok E.
Hypothesis Hh : 1 <= nbh c.
Hypothesis Hv : 1 <= nbv c.
Hypothesis Hs : 1 <= nblocs_side c.
Hypothesis HB : build_rectangular_bond_matrix (nbh c) (nbv c) (nblocs_side c) = Ok (bond_matrix c).
Hypothesis HN : nsites c = mrows (bond_matrix c).
Hypothesis HM : nsites cn = nsites c.
Let w := nblocs_side c * nbh c.
Let ht := nblocs_side c * nbv c.
Let N := w * ht.

Lemma pair_bonded : forall x y, bonded (pair_lattice w ht) x y = true <-> adjacent (blocks_point w ht x) (blocks_point w ht y).
Proof. intros x y. unfold bonded. cbn [pair_lattice whole lat_pos]. apply bondb_iff. Qed.

Lemma pair_two : forall x y, two_bonds (pair_lattice w ht) x y = true <-> exists m, 0 <= m < 2 * N /\ adjacent (blocks_point w ht x) (blocks_point w ht m) /\ adjacent (blocks_point w ht m) (blocks_point w ht y).
Proof.
  intros x y. unfold two_bonds. rewrite existsb_exists. cbn [pair_lattice whole lat_size]. fold N. split.
  - intros (m & Hm & Q). apply in_sites in Hm. apply andb_true_iff in Q. rewrite !pair_bonded in Q. eauto.
  - intros (m & Hm & Q). exists m. rewrite in_sites, andb_true_iff, !pair_bonded. auto.
Qed.

Lemma close_iff : forall x y, 0 <= x < 2 * N -> 0 <= y < 2 * N -> x <> y ->
  (close_sites w ht x y = true <-> adjacent (blocks_point w ht x) (blocks_point w ht y) \/ exists m, path (2 * N) (blocks_point w ht) x m y).
Proof.
  intros x y Hx Hy D. unfold close_sites. rewrite orb_true_iff, pair_bonded, pair_two. unfold path. split; (intros [A|(m & A)]; [now left | right; exists m; tauto]).
Qed.

Lemma block_near : forall u full, block_surroundings E c cn = Ok (u, full) ->
  exists bm, build_bond_matrix_block_embedding (nbh c) (nbv c) (nblocs_side c) = Ok bm /\
    pair_conf c cn (u_conf u) bm (RTuple (u_frontier_A u) (u_frontier_B u)) /\
    pair_conf c cn full bm (RTuple (zrange 0 (2 * nsites c)) (zrange 0 (2 * nsites c))) /\
    (forall x, In x (u_frontier_A u) -> 0 <= x < nsites c) /\ NoDup (u_frontier_A u) /\
    (forall x, In x (u_frontier_B u) -> nsites c <= x < 2 * nsites c) /\ NoDup (u_frontier_B u) /\ u_frontier_B u <> [] /\
    (forall x y, 0 <= x < nsites c -> nsites c <= y < 2 * nsites c -> close_sites w ht x y = true -> In x (u_frontier_A u) /\ In y (u_frontier_B u)).
Proof.
  intros u full. unfold block_surroundings. destruct (block_sizes c Hh Hv Hs) as (W1 & H1' & N1). fold w ht in W1, H1', N1. fold N in N1.
  rewrite HM. rewrite (rect_n c _ _ _ Hh Hv Hs HB HN). fold w ht. fold N.
  destruct (blocks_is (nbh c) (nbv c) (nblocs_side c) Hh Hv Hs) as (bm & EB & IB). fold w ht in IB. fold N in IB. rewrite EB. cbn [bind].
  pose proof (rect_mat c (nbh c) (nbv c) (nblocs_side c) Hh Hv Hs HB) as IC. fold w ht in IC. fold N in IC.
  set (g := fun x => match get_neighbors E x bm (RList []) with Ok l => l | Err _ => [] end).
  assert (G : forall x, 0 <= x < 2 * N -> get_neighbors E x bm (RList []) = Ok (g x) /\ forall y, In y (g x) <-> 0 <= y < 2 * N /\ adjacent (blocks_point w ht x) (blocks_point w ht y)).
  { intros x Hx. destruct (mat_neighbors E bm (2 * N) (blocks_point w ht) x (RList []) HE IB Hx Logic.I) as (l & El & _ & Il).
    unfold g. rewrite El. split; [reflexivity|]. intros y. rewrite Il. cbn [allowed]. tauto. }
  assert (BI : forall x, 0 <= x < N -> blocks_point w ht x = point w x) by (intros x Hx; now apply (block_in c)).
  assert (BO : forall r, 0 <= r < N -> blocks_point w ht (N + r) = beside w r) by (intros r Hr; now apply (block_out c)).
  set (fw := fun shift x => match fewer_neighbors E (bond_matrix c) bm shift x with Ok b => b | Err _ => false end).
  assert (F0 : forall x, 0 <= x < N -> fewer_neighbors E (bond_matrix c) bm 0 x = Ok (fw 0 x) /\ (fw 0 x = true <-> exists r, 0 <= r < N /\ adjacent (blocks_point w ht x) (blocks_point w ht (N + r)))).
  { intros x Hx. destruct (fewer_ok E (bond_matrix c) bm N (2 * N) (point w) (blocks_point w ht) 0 x HE IC IB) as (b & Eb & Ib); try lia.
    - intros y Hy. rewrite Z.add_0_r. now apply BI.
    - unfold fw. rewrite Eb. split; [reflexivity|]. rewrite Ib. rewrite BI by assumption. split.
      + intros (y & Hy & Ny & A). exists (y - N). split; [lia|]. now replace (N + (y - N)) with y by lia.
      + intros (r & Hr & A). exists (N + r). split; [lia|]. split; [lia|]. assumption. }
  assert (FN : forall x, 0 <= x < N -> fewer_neighbors E (bond_matrix c) bm N x = Ok (fw N x) /\ (fw N x = true <-> exists y, 0 <= y < N /\ adjacent (blocks_point w ht y) (blocks_point w ht (N + x)))).
  { intros x Hx. destruct (fewer_ok E (bond_matrix c) bm N (2 * N) (beside w) (blocks_point w ht) N x HE) as (b & Eb & Ib); try lia.
    - destruct IC as (C1 & C2 & C3). split; [assumption|]. split; [assumption|]. intros i j Hi Hj. rewrite C3 by assumption. unfold adjb, point, beside. cbn [fst snd]. f_equal. f_equal. lia.
    - exact IB.
    - intros y Hy. rewrite Z.add_comm. now apply BO.
    - unfold fw. rewrite Eb. split; [reflexivity|]. rewrite Ib. rewrite BO by assumption. split.
      + intros (y & Hy & Ny & A). exists y. split; [lia|]. unfold adjacent in *. lia.
      + intros (r & Hr & A). exists r. split; [lia|]. split; [lia|]. unfold adjacent in *. lia. }
  rewrite (concatM_ok _ _ _ (fun x => if fw 0 x then g x else [])).
  2:{ intros x Hx. apply in_zrange in Hx. rewrite (proj1 (F0 x Hx)). cbn [bind]. destruct (fw 0 x); [apply G; lia | reflexivity]. }
  cbn [bind].
  rewrite (concatM_ok _ _ _ (fun x => if fw N x then g (x + N) else [])).
  2:{ intros x Hx. apply in_zrange in Hx. rewrite (proj1 (FN x Hx)). cbn [bind]. destruct (fw N x); [apply G; lia | reflexivity]. }
  cbn [bind].
  set (fr := py_set_list E (flat_map (fun x => if fw 0 x then g x else []) (zrange 0 N) ++ flat_map (fun x => if fw N x then g (x + N) else []) (zrange 0 N))).
  assert (FI : forall y, In y fr <-> 0 <= y < 2 * N /\ ((exists x, 0 <= x < N /\ fw 0 x = true /\ adjacent (blocks_point w ht x) (blocks_point w ht y)) \/
                                                        (exists x, 0 <= x < N /\ fw N x = true /\ adjacent (blocks_point w ht (N + x)) (blocks_point w ht y)))).
  { intros y. unfold fr. rewrite (in_set_list E HE), in_app_iff, !in_flat_map. split.
    - intros [(x & Hx & Hy)|(x & Hx & Hy)]; apply in_zrange in Hx.
      + destruct (fw 0 x) eqn:Q; [|contradiction]. apply G in Hy; [|lia]. split; [tauto|]. left. exists x. tauto.
      + destruct (fw N x) eqn:Q; [|contradiction]. apply G in Hy; [|lia]. split; [tauto|]. right. exists x. rewrite (Z.add_comm N x). tauto.
    - intros (Hy & [(x & Hx & Q & A)|(x & Hx & Q & A)]); [left | right]; exists x; (split; [now apply in_zrange|]); rewrite Q; (apply G; [lia|]); (split; [assumption|]); [assumption|].
      now rewrite (Z.add_comm x N). }
  assert (AS : forall p q, adjacent p q -> adjacent q p) by (unfold adjacent; intros; lia).
  assert (FA : forall x r, 0 <= x < N -> 0 <= r < N -> adjacent (blocks_point w ht x) (blocks_point w ht (N + r)) -> In x fr /\ In (N + r) fr).
  { intros x r Hx Hr A. rewrite !FI. split; (split; [lia|]).
    - right. exists r. split; [assumption|]. split; [|now apply AS]. apply FN; eauto.
    - left. exists x. split; [assumption|]. split; [|assumption]. apply F0; eauto. }
  set (fa := filter (fun x => x <? N) fr). set (fb := filter (fun x => N <=? x) fr).
  assert (IA : forall x, In x fa <-> In x fr /\ x < N) by (intros x; unfold fa; rewrite filter_In, Z.ltb_lt; tauto).
  assert (IBB : forall x, In x fb <-> In x fr /\ N <= x) by (intros x; unfold fb; rewrite filter_In, Z.leb_le; tauto).
  assert (NE : exists z, In z fb).
  { destruct (block_site c Hh Hv Hs (w - 1) 0) as (x & Hx & Px & _); [fold w; lia | fold ht; lia|]. destruct (block_site c Hh Hv Hs 0 0) as (r & Hr & _ & Pr); [fold w; lia | fold ht; lia|].
    fold w in Px, Pr. fold w ht in Hx, Hr. fold N in Hx, Hr. exists (N + r). apply IBB. split; [|lia]. apply (FA x r Hx Hr). rewrite BI, BO, Px, Pr by assumption. unfold adjacent. cbn [fst snd]. lia. }
  unfold make_configuration. replace (mrows bm) with (2 * N) by (symmetry; apply IB).
  destruct (Z.eqb_spec (2 * N) 0); [lia|]. cbn [restr_falsy bind].
  intros Q. injection Q as <- <-. cbn [u_conf u_frontier_A u_frontier_B].
  exists bm. split; [reflexivity|]. split; [unfold pair_conf; rewrite (rect_n c _ _ _ Hh Hv Hs HB HN); fold w ht; fold N; repeat split; reflexivity|].
  split; [unfold pair_conf; rewrite (rect_n c _ _ _ Hh Hv Hs HB HN); fold w ht; fold N; repeat split; reflexivity|].
  split; [intros x Hx; apply IA in Hx; destruct Hx as [Hx L]; apply FI in Hx; lia|]. split; [apply NoDup_filter, (set_list_NoDup E HE)|].
  split; [intros x Hx; apply IBB in Hx; destruct Hx as [Hx L]; apply FI in Hx; lia|]. split; [apply NoDup_filter, (set_list_NoDup E HE)|].
  split; [destruct NE as (z & Hz); intros Q; rewrite Q in Hz; destruct Hz|].
  intros x y Hx Hy Cl. unfold close_sites in Cl. rewrite orb_true_iff, pair_bonded, pair_two in Cl. rewrite IA, IBB.
  assert (FAy : forall x y, 0 <= x < N -> N <= y < 2 * N -> adjacent (blocks_point w ht x) (blocks_point w ht y) -> In x fr /\ In y fr).
  { intros a b Ha Hb A. destruct (FA a (b - N) Ha) as [Q1 Q2]; [lia | now replace (N + (b - N)) with b by lia|]. split; [assumption|]. now replace (N + (b - N)) with b in Q2 by lia. }
  destruct Cl as [A|(m & Hm & A1 & A2)].
  - destruct (FAy x y Hx Hy A). repeat split; try assumption; lia.
  - destruct (Z_lt_le_dec m N) as [L|L].
    + destruct (FAy m y ltac:(lia) Hy A2) as [_ Iy]. split; [|split; [assumption | lia]]. split; [|lia]. apply FI. split; [lia|]. left. exists m. split; [lia|]. split; [|now apply AS].
      apply F0; [lia|]. exists (y - N). split; [lia|]. now replace (N + (y - N)) with y by lia.
    + destruct (FAy x m Hx ltac:(lia) A1) as [Ix _]. split; [split; [assumption | lia]|]. split; [|lia]. apply FI. split; [lia|]. right. exists (m - N). split; [lia|].
      replace (N + (m - N)) with m by lia. split; [|assumption]. apply FN; [lia|]. exists x. split; [lia|]. now replace (N + (m - N)) with m by lia.
Qed.
End Near.
