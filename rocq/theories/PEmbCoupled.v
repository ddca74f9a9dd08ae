(** The determinants coupled to a perturbator of two blocks side by side. *)
From Coq Require Import ZArith List Bool QArith Qcanon Lia Permutation.
From Verif Require Import PyBase PyFacts Lattice Base Interact Ham Spin Prob Dav Files Emb Spec SpecOps SpecTJ HamSpec SpinDefs ProbDefs Geometry EmbDefs DynDefs.
From Verif Require Import PBasis PSites PMat PRing PGeo FGeo PSpin PProb PHam PRep PWave PDav PEmb PEmbRing PEmbBlock FInter PDynGen PEmbPerm PEmbCount PEmbNear.
Import ListNotations.
Open Scope Z_scope.

(** ** One exchange and the numbers of particles of the first block *)

Section Swap.
Variables (N : Z) (p : occupation).
Hypothesis HN : 0 <= N.

Lemma swap_in_in : forall h e q, 0 <= h < N -> 0 <= e < N -> cnt N (swap_state h e p) q = cnt N p q.
Proof.
  intros h e q Hh He. destruct (Z.eq_dec h e) as [->|D].
  - apply cnt_same. intros z _. unfold swap_state. destruct (Z.eqb_spec z e); [now subst | reflexivity].
  - rewrite (cnt_same N _ (put h (p e) (put e (p h) p))).
    + rewrite !cnt_put by assumption. rewrite put_other by assumption. lia.
    + intros z _. unfold swap_state, put. reflexivity.
Qed.

Lemma swap_out_out : forall h e q, N <= h -> N <= e -> cnt N (swap_state h e p) q = cnt N p q.
Proof.
  intros h e q Hh He. apply cnt_same. intros z Hz. unfold swap_state. destruct (Z.eqb_spec z h); [lia|]. destruct (Z.eqb_spec z e); [lia | reflexivity].
Qed.

Lemma swap_in_out : forall h e q, 0 <= h < N -> N <= e -> cnt N (swap_state h e p) q = cnt N p q - one (is_p (p h) q) + one (is_p (p e) q).
Proof.
  intros h e q Hh He. rewrite (cnt_same N _ (put h (p e) p)); [now apply cnt_put|].
  intros z Hz. unfold swap_state, put. destruct (Z.eqb_spec z h); [reflexivity|]. destruct (Z.eqb_spec z e); [lia | reflexivity].
Qed.

Lemma swap_out_in : forall h e q, N <= h -> 0 <= e < N -> cnt N (swap_state h e p) q = cnt N p q - one (is_p (p e) q) + one (is_p (p h) q).
Proof.
  intros h e q Hh He. rewrite (cnt_same N _ (put e (p h) p)); [now apply cnt_put|].
  intros z Hz. unfold swap_state, put. destruct (Z.eqb_spec z h); [lia | reflexivity].
Qed.

Lemma swap_total : forall h e q, 0 <= h < 2 * N -> 0 <= e < 2 * N -> cnt (2 * N) (swap_state h e p) q = cnt (2 * N) p q.
Proof.
  intros h e q Hh He. destruct (Z.eq_dec h e) as [->|D].
  - apply cnt_same. intros z _. unfold swap_state. destruct (Z.eqb_spec z e); [now subst | reflexivity].
  - rewrite (cnt_same (2 * N) _ (put h (p e) (put e (p h) p))).
    + rewrite !cnt_put by assumption. rewrite put_other by assumption. lia.
    + intros z _. unfold swap_state, put. reflexivity.
Qed.
End Swap.

Lemma adj_back : forall a b, adjacent a b -> adjacent b a.
Proof. intros a b. unfold adjacent. lia. Qed.

(** a sum with other conditions *)
Lemma only_ext : forall a b x, (a = true <-> b = true) -> only a x = only b x.
Proof. intros [] [] x H; try reflexivity; cbn [only]; [destruct H as [H _] | destruct H as [_ H]]; discriminate (H eq_refl). Qed.

Section Pair.
Variables (E : runtime) (I : interactions) (c cn : configuration) (u : surroundings) (full : configuration).
Hypothesis HE : set_iter_ok E.
Hypothesis Hh : 1 <= nbh c.
Hypothesis Hv : 1 <= nbv c.
Hypothesis Hs : 1 <= nblocs_side c.
Hypothesis HB : build_rectangular_bond_matrix (nbh c) (nbv c) (nblocs_side c) = Ok (bond_matrix c).
Hypothesis HN : nsites c = mrows (bond_matrix c).
Hypothesis HM : nsites cn = nsites c.
Hypothesis HF : numbering_found E (nbh c) (nbv c) (nblocs_side c).
Hypothesis HS : block_surroundings E c cn = Ok (u, full).
Hypothesis Ch : nholes cn = nholes c.
Hypothesis Cb : nbeta cn = nbeta c.
Let w := nblocs_side c * nbh c.
Let ht := nblocs_side c * nbv c.
Let N := w * ht.
Let cu := u_conf u.
Let L := pair_lattice w ht.

Lemma size_is : nsites c = N.
Proof. exact (rect_n c _ _ _ Hh Hv Hs HB HN). Qed.

Lemma N_pos : 1 <= N.
Proof. apply (block_sizes c Hh Hv Hs). Qed.

Lemma near : exists bm, build_bond_matrix_block_embedding (nbh c) (nbv c) (nblocs_side c) = Ok bm /\
    pair_conf c cn cu bm (RTuple (u_frontier_A u) (u_frontier_B u)) /\
    pair_conf c cn full bm (RTuple (zrange 0 (2 * N)) (zrange 0 (2 * N))) /\
    (forall x, In x (u_frontier_A u) -> 0 <= x < N) /\ NoDup (u_frontier_A u) /\
    (forall x, In x (u_frontier_B u) -> N <= x < 2 * N) /\ NoDup (u_frontier_B u) /\ u_frontier_B u <> [] /\
    (forall x y, 0 <= x < N -> N <= y < 2 * N -> close_sites w ht x y = true -> In x (u_frontier_A u) /\ In y (u_frontier_B u)).
Proof.
  destruct (block_near E c cn HE Hh Hv Hs HB HN HM u full HS) as (bm & H). exists bm. rewrite size_is in H. exact H.
Qed.

Lemma conf_straight : forall c' r bm, build_bond_matrix_block_embedding (nbh c) (nbv c) (nblocs_side c) = Ok bm -> pair_conf c cn c' bm r ->
  drawn c' (blocks_point w ht) /\ straightness_decided E c' (blocks_point w ht).
Proof.
  intros c' r bm EB (P1 & P2 & P3 & P4 & P5 & P6 & P7 & P8 & P9). apply (blocks_straight E c Hh Hv Hs HF c' bm EB P1); try assumption.
  rewrite P2, size_is. reflexivity.
Qed.

Lemma pair_middle : forall x y, 0 <= x < 2 * N -> 0 <= y < 2 * N -> diagonal (blocks_point w ht x) (blocks_point w ht y) -> exists m, path (2 * N) (blocks_point w ht) x m y.
Proof.
  intros x y Hx Hy D.
  assert (R : forall z, 0 <= z < 2 * N -> 0 <= fst (blocks_point w ht z) < 2 * w /\ 0 <= snd (blocks_point w ht z) < ht).
  { intros z Hz. destruct (Z_lt_le_dec z N) as [Q|Q].
    - assert (Hz' : 0 <= z < N) by lia. assert (B : blocks_point w ht z = point w z) by now apply (block_in c). rewrite B.
      destruct (block_pt c Hh Hs z Hz') as [B1 B2]. fold w ht in B1, B2. unfold point. cbn [fst snd]. lia.
    - assert (Hz' : 0 <= z - N < N) by lia. assert (B : blocks_point w ht z = beside w (z - N)) by (apply (block_out' c); fold w ht; fold N; lia). rewrite B.
      destruct (block_pt c Hh Hs (z - N) Hz') as [B1 B2]. fold w ht in B1, B2. unfold beside. cbn [fst snd]. lia. }
  assert (O : forall a b, 0 <= a < 2 * w -> 0 <= b < ht -> exists m, 0 <= m < 2 * N /\ blocks_point w ht m = (a, b)).
  { intros a b Ha Hb. destruct (Z_lt_le_dec a w) as [Q|Q].
    - destruct (block_site c Hh Hv Hs a b) as (m & Hm & P & _); [fold w; lia | assumption|]. fold w ht in Hm, P. fold N in Hm. exists m. split; [lia|].
      assert (B : blocks_point w ht m = point w m) by now apply (block_in c). now rewrite B.
    - destruct (block_site c Hh Hv Hs (a - w) b) as (m & Hm & _ & P); [fold w; lia | assumption|]. fold w ht in Hm, P. fold N in Hm. exists (N + m). split; [lia|].
      assert (B : blocks_point w ht (N + m) = beside w m) by now apply (block_out c). rewrite B, P. f_equal. lia. }
  destruct (R x Hx), (R y Hy). destruct (O (fst (blocks_point w ht x)) (snd (blocks_point w ht y))) as (m & Hm & P); [assumption | assumption|].
  exists m. unfold path. rewrite P. unfold diagonal in D. unfold adjacent. cbn [fst snd].
  split; [assumption|]. split; [assumption|]. split; [assumption|]. split; [intros ->; lia|]. lia.
Qed.

Lemma energy_ok : forall d p, describes (2 * N) (2 * nholes c) (2 * nbeta c) d p -> compute_energy E full I d = Ok (pair_energy w ht I p).
Proof.
  intros d p D. destruct near as (bm & EB & _ & PF & _). destruct (conf_straight full _ bm EB PF) as [FD FS].
  destruct PF as (P1 & P2 & P3 & P4 & P5 & P6 & P7 & P8 & P9). rewrite size_is in P2. rewrite Ch in P3. rewrite Cb in P4.
  assert (D' : describes (nsites full) (nholes full) (nbeta full) d p).
  { rewrite P2, P3, P4. replace (nholes c + nholes c) with (2 * nholes c) by lia. replace (nbeta c + nbeta c) with (2 * nbeta c) by lia. assumption. }
  unfold compute_energy.
  assert (LT : forall x, 0 <= x < nsites full -> (true = true <-> In x (zrange 0 (2 * N)))) by (intros x Hx; rewrite in_zrange, <- P2; tauto).
  rewrite (static_ok E full (blocks_point w ht) _ _ d p HE FD P5 D' L); try assumption; try reflexivity; [|symmetry; exact P2].
  cbn [bind].
  rewrite (repulsion_ok E full (blocks_point w ht) _ _ d p HE FD P5) with (L := L); try assumption; try reflexivity; try (rewrite P2; exact pair_middle); auto.
Qed.

(** ** The dictionary of one perturbator *)

Variables (q : particle) (p : occupation).
Hypothesis Hq : q <> Hole.
Hypothesis Ph : cnt N p Hole = nholes c - 1.
Hypothesis Pb : cnt N p Down = nbeta c + one (is_p q Down).
Let sec := in_sector N (nholes c) (nbeta c).
Let r0 (lB : list Z) := py_set_and E (u_frontier_B u) (map (fun x => x + N) lB).
Let r1 (lA : list Z) := py_set_and E (u_frontier_A u) lA.
Variables (lA lB : list Z).
Hypothesis IA : forall x, In x lA <-> 0 <= x < N /\ p x = q.
Hypothesis IB : forall x, In x lB <-> 0 <= x < N /\ after N p x = Hole.
Let LR := between (2 * N) (blocks_point w ht) (r0 lB) (r1 lA).
Let S := mkSwitches true false false true true false.

Lemma in_r0 : forall x, In x (r0 lB) <-> In x (u_frontier_B u) /\ N <= x < 2 * N /\ p x = Hole.
Proof.
  intros x. unfold r0. rewrite (in_set_and E HE), in_map_iff. split.
  - intros (F & y & <- & Hy). apply IB in Hy. destruct Hy as [Hy Q]. split; [assumption|]. split; [lia|]. unfold after in Q. now rewrite Z.add_comm.
  - intros (F & R & Q). split; [assumption|]. exists (x - N). split; [lia|]. apply IB. split; [lia|]. unfold after. now replace (N + (x - N)) with x by lia.
Qed.
Lemma in_r1 : forall x, In x (r1 lA) <-> In x (u_frontier_A u) /\ 0 <= x < N /\ p x = q.
Proof. intros x. unfold r1. rewrite (in_set_and E HE), IA. tauto. Qed.

Lemma from_iff : forall x, lat_from LR x = true <-> In x (u_frontier_B u) /\ N <= x < 2 * N /\ p x = Hole.
Proof. intros x. unfold LR. rewrite (proj1 (between_ok _ _ _ _ x)). apply in_r0. Qed.
Lemma to_iff : forall x, lat_to LR x = true <-> In x (u_frontier_A u) /\ 0 <= x < N /\ p x = q.
Proof. intros x. unfold LR. rewrite (proj2 (between_ok _ _ _ _ x)). apply in_r1. Qed.

(** where the hole and the spin are *)
Lemma jump_where : forall h e sA sB, 0 <= h < 2 * N -> 0 <= e < 2 * N -> p h = Hole -> p e <> Hole -> sec sA ->
  same_state (2 * N) (join_states N sA sB) (swap_state h e p) -> close_sites w ht h e = true ->
  lat_from LR h = true /\ lat_to LR e = true.
Proof.
  intros h e sA sB Bh Be Vh Ve [S1 S2] Q Cl. pose proof N_pos as NP. change (zlen (sites_of N sA Hole)) with (cnt N sA Hole) in S1. change (zlen (sites_of N sA Down)) with (cnt N sA Down) in S2.
  assert (QA : forall k, cnt N sA k = cnt N (swap_state h e p) k).
  { intros k. rewrite <- (cnt_same N (join_states N sA sB) sA k (join_first N sA sB)). apply cnt_same. intros x Hx. apply Q. lia. }
  pose proof (QA Hole) as QH. pose proof (QA Down) as QD.
  destruct (Z_lt_le_dec h N) as [Lh|Lh], (Z_lt_le_dec e N) as [Le|Le].
  - exfalso. rewrite swap_in_in in QH by lia. lia.
  - exfalso. rewrite swap_in_out in QH by lia. rewrite Vh in QH. cbn [is_p one] in QH. destruct (p e); cbn [is_p one] in QH; [congruence | lia | lia].
  - rewrite swap_out_in in QH, QD by lia. rewrite Vh in QH, QD. cbn [is_p one] in QH, QD.
    assert (PE : p e = q).
    { destruct (p e) eqn:X; cbn [is_p one] in QH, QD; [congruence| |]; destruct q; cbn [is_p one] in *; congruence || lia. }
    destruct near as (bm & _ & _ & _ & _ & _ & _ & _ & _ & FR).
    assert (Cl' : close_sites w ht e h = true).
    { unfold close_sites in *. rewrite orb_true_iff in Cl |- *. unfold bonded, two_bonds in *. destruct Cl as [Cl|Cl]; [left|right].
      - apply bondb_iff in Cl. apply bondb_iff. now apply adj_back.
      - apply existsb_exists in Cl. destruct Cl as (m & Hm & Cl). apply existsb_exists. exists m. split; [assumption|]. unfold bonded in *. apply andb_true_iff in Cl. destruct Cl as [C1 C2].
        apply bondb_iff in C1, C2. apply andb_true_iff. rewrite !bondb_iff. split; now apply adj_back. }
    destruct (FR e h ltac:(lia) ltac:(lia) Cl') as [F1 F2]. rewrite from_iff, to_iff. repeat split; try assumption; lia.
  - exfalso. rewrite swap_out_out in QH by lia. lia.
Qed.

Lemma restricted_jump : forall sA sB, sec sA -> tj_element LR I (dynamic S) p (join_states N sA sB) = jump w ht I p sA sB.
Proof.
  intros sA sB HA. unfold jump, tj_element. cbn [dynamic S jumps s_bt s_bz s_bij s_bSD s_btN s_bV only]. fold N. set (t := join_states N sA sB).
  assert (Z1 : op_singlet LR I p t = 0%Qc).
  { unfold op_singlet. cbn [LR between lat_size]. apply qsum_zero. intros h _. apply qsum_zero. intros m _. apply qsum_zero. intros e _.
    destruct (_ && oppositeb (p m) (p e)) eqn:Q; [|reflexivity]. exfalso. rewrite !andb_true_iff in Q. destruct Q as ((((((_ & Q1) & Q2) & _) & _) & _) & Q).
    fold LR in Q1, Q2. apply to_iff in Q1, Q2. destruct Q1 as (_ & _ & Q1), Q2 as (_ & _ & Q2). rewrite Q1, Q2 in Q. destruct q; discriminate. }
  rewrite Z1.
  assert (Z2 : op_hop LR I p t = op_hop L I p t).
  { unfold op_hop. cbn [LR L between pair_lattice whole lat_size lat_from lat_to]. fold N. apply sum_sites_ext. intros h Bh. apply sum_sites_ext. intros e Be.
    apply only_ext. fold LR. fold L. change (lat_from (between (2 * N) (blocks_point w ht) (r0 lB) (r1 lA))) with (lat_from LR).
    change (existsb (Z.eqb h) (r0 lB)) with (lat_from LR h). change (existsb (Z.eqb e) (r1 lA)) with (lat_to LR e). change (bonded LR h e) with (bonded L h e).
    rewrite !andb_true_iff, negb_true_iff. split; [tauto|]. intros (((((_ & _) & Q1) & Q2) & Q3) & Q4).
    destruct (jump_where h e sA sB Bh Be) as [J1 J2]; [now apply holeb_iff | intros X; rewrite X in Q3; discriminate | assumption | now apply sameb_iff | unfold close_sites; fold L; now rewrite Q1 | tauto]. }
  assert (Z3 : op_next_hop LR I p t = op_next_hop L I p t).
  { unfold op_next_hop. cbn [LR L between pair_lattice whole lat_size lat_from lat_to lat_pos]. fold N. apply sum_sites_ext. intros h Bh. apply sum_sites_ext. intros e Be.
    apply only_ext. fold LR. fold L.
    change (existsb (Z.eqb h) (r0 lB)) with (lat_from LR h). change (existsb (Z.eqb e) (r1 lA)) with (lat_to LR e). change (two_bonds LR h e) with (two_bonds L h e).
    rewrite !andb_true_iff, negb_true_iff. split; [tauto|]. intros (((((_ & _) & Q1) & Q2) & Q3) & Q4).
    destruct (jump_where h e sA sB Bh Be) as [J1 J2]; [now apply holeb_iff | intros X; rewrite X in Q3; discriminate | assumption | now apply sameb_iff | unfold close_sites; fold L; now rewrite Q1, orb_true_r | tauto]. }
  rewrite Z2, Z3. fold L. ring.
Qed.

Lemma dictionary : forall d, describes (2 * N) (2 * nholes c) (2 * nbeta c) d p ->
  exists l, compute_dynamic_interactions E (with_restriction cu (RTuple (r0 lB) (r1 lA))) I S d = Ok l /\ NoDup (map fst l) /\
    (forall k x, In (k, x) l -> exists sA sB, sec sA /\ sec sB /\ determinant_of (2 * N) (2 * nholes c) (2 * nbeta c) k (join_states N sA sB)) /\
    (forall k x sA sB, In (k, x) l -> sec sA -> determinant_of (2 * N) (2 * nholes c) (2 * nbeta c) k (join_states N sA sB) -> x = jump w ht I p sA sB) /\
    (forall sA sB, sec sA -> sec sB -> (forall k x, In (k, x) l -> ~ determinant_of (2 * N) (2 * nholes c) (2 * nbeta c) k (join_states N sA sB)) -> jump w ht I p sA sB = 0%Qc).
Proof.
  intros d D. pose proof N_pos as NP. destruct near as (bm & EB & PU & _ & _).
  set (c' := with_restriction cu (RTuple (r0 lB) (r1 lA))).
  assert (PU' : pair_conf c cn c' bm (RTuple (r0 lB) (r1 lA))).
  { destruct PU as (P1 & P2 & P3 & P4 & P5 & P6 & P7 & P8 & P9). unfold pair_conf, c', with_restriction. cbn. repeat (split; [assumption || reflexivity|]). assumption. }
  destruct (conf_straight c' _ bm EB PU') as [FD FS].
  destruct PU' as (P1 & P2 & P3 & P4 & P5 & P6 & P7 & P8 & P9). rewrite size_is in P2. rewrite Ch in P3. rewrite Cb in P4.
  replace (nholes c + nholes c) with (2 * nholes c) in P3 by lia. replace (nbeta c + nbeta c) with (2 * nbeta c) in P4 by lia.
  assert (D' : conf_describes c' d p) by (unfold conf_describes; now rewrite P2, P3, P4).
  assert (HX : forall e, In e (r1 lA) -> p e = Hole -> In e (r0 lB)).
  { intros e He Q. apply in_r1 in He. destruct He as (_ & _ & X). congruence. }
  destruct (dynamic_ok E c' (blocks_point w ht) (r0 lB) (r1 lA) I d p HE FD FS P5 D' HX LR) with (S := S) as (l & El & ND & KS & KV & KZ);
    [exact (eq_sym P2) | reflexivity | intros; apply between_ok | intros; apply between_ok | reflexivity |].
  rewrite P2, P3, P4 in KS, KV, KZ. exists l. split; [assumption|]. split; [assumption|].
  pose proof (describes_sector _ _ _ _ _ D) as SP. change (zlen (sites_of (2 * N) p Hole)) with (cnt (2 * N) p Hole) in SP. destruct SP as [SP1 SP2]. change (zlen (sites_of (2 * N) p Hole)) with (cnt (2 * N) p Hole) in SP1. change (zlen (sites_of (2 * N) p Down)) with (cnt (2 * N) p Down) in SP2.
  assert (RE : forall t, reached LR S p t -> sec t /\ sec (after N t)).
  { assert (SW : forall h e, lat_from LR h = true -> lat_to LR e = true -> sec (swap_state h e p) /\ sec (after N (swap_state h e p))).
    { intros h e F T. apply from_iff in F. apply to_iff in T. destruct F as (_ & Bh & Vh), T as (_ & Be & Ve).
      assert (A1 : cnt N (swap_state h e p) Hole = nholes c) by (rewrite swap_out_in by lia; rewrite Vh, Ve, Ph; destruct q; cbn [is_p one]; congruence || lia).
      assert (A2 : cnt N (swap_state h e p) Down = nbeta c) by (rewrite swap_out_in by lia; rewrite Vh, Ve, Pb; destruct q; cbn [is_p one]; congruence || lia).
      split; [split; assumption|].
      pose proof (cnt_halves N (swap_state h e p) Hole ltac:(lia)) as B1. pose proof (cnt_halves N (swap_state h e p) Down ltac:(lia)) as B2.
      rewrite swap_total in B1, B2 by lia. apply sector_cnt. split; lia. }
    intros t R. destruct R as [h e _ _ _ F T _ _ _|h e _ _ _ F T _ _ _|i j X _ _ _|h m e t _ _ _ _ F T1 T2 _ _ _ O _]; [now apply SW | now apply SW | discriminate X|].
    exfalso. apply to_iff in T1, T2. destruct T1 as (_ & _ & T1), T2 as (_ & _ & T2). destruct O as [[O1 O2]|[O1 O2]]; congruence. }
  split; [|split].
  - intros k x Hk. assert (K : In k (map fst l)) by (apply in_map_iff; exists (k, x); auto). apply KS in K. destruct K as (t & R & Dt).
    destruct (RE t R) as [SA SB]. exists t, (after N t). split; [assumption|]. split; [assumption|].
    assert (DJ : describes (2 * N) (2 * nholes c) (2 * nbeta c) k (join_states N t (after N t))).
    { destruct Dt as [Dt _]. eapply describes_same; [|exact Dt]. intros z Hz. symmetry. apply join_halves; [lia | assumption]. }
    split; [assumption | apply Dt].
  - intros k x sA sB Hk SA [DJ _]. rewrite (KV k x _ Hk DJ). now apply restricted_jump.
  - intros sA sB SA SB NK. rewrite <- (restricted_jump sA sB SA). apply KZ.
    + apply sector_cnt. rewrite !cnt_join by lia. destruct SA as [SA1 SA2], SB as [SB1 SB2]. unfold cnt. lia.
    + intros k Dk Hk. apply in_map_iff in Hk. destruct Hk as ([k' x] & Q & Hk). cbn [fst] in Q. subst k'. exact (NK k x Hk Dk).
Qed.
End Pair.
