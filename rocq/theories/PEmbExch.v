(** One exchange between the two blocks. *)
From Coq Require Import ZArith List Bool QArith Qcanon Lia Permutation.
From Verif Require Import PyBase PyFacts Lattice Base Interact Ham Spin Prob Dav Files Emb Spec SpecOps SpecTJ HamSpec SpinDefs ProbDefs Geometry EmbDefs DynDefs.
From Verif Require Import PBasis PVec PMat PRing PGeo FGeo PRot PSites PSpin PProb PHam PRep PWave PDav FSites FProb FHam PEmb PEmbRing PEmbNeel FEmb PEmbBlock PEmbPerm PEmbTurn FEmbBlock FEmbDrop FEmbDyn PEmbCount.
Import ListNotations.
Open Scope Z_scope.

Lemma cnt_flip : forall n s p, cnt n (flip_state s) (flip_particle p) = cnt n s p.
Proof.
  intros n s p. unfold cnt, sites_of, flip_state. f_equal. apply filter_ext_in'. intros x _. destruct (s x), p; reflexivity.
Qed.

(** a determinant with no hole brought to the second block is coupled to nothing *)
Lemma coupled_empty : forall E I cn pA pB u dA dB sA sB pert n, set_iter_ok E -> 0 <= n ->
  nsites pA = n -> unrestricted pA -> conf_describes pA dA sA -> nsites pB = n -> unrestricted pB -> conf_describes pB dB sB ->
  nalpha pB = n - nholes pB - nbeta pB -> nalpha cn = n - nholes cn - nbeta cn ->
  nholes (u_conf u) = nholes pA + nholes pB -> 0 <= nholes pA + nholes pB ->
  describes (2 * n) (nholes pA + nholes pB) (nbeta pA + nbeta pB) pert (join_states n sA sB) ->
  (forall x, In x (u_frontier_A u) -> x < n) -> (forall x, In x (u_frontier_B u) -> n <= x) ->
  nholes pB = nholes cn \/ nholes pB = nholes cn - 1 /\ (nbeta pB = nbeta cn \/ nbeta pB = nbeta cn + 1) ->
  coupled E I cn pA pB u dA dB pert = Ok [].
Proof.
  intros E I cn pA pB u dA dB sA sB pert n HE Hn NA UA DA NB UB DB Al Aln Hu Hh Dd FA FB Hd.
  unfold coupled. set (dn := nalpha pB + nbeta pB - nalpha cn - nbeta cn). set (dm := nalpha pB - nbeta pB - nalpha cn + nbeta cn).
  destruct Hd as [Hd|[Hd Hb]].
  - assert (D0 : dn = 0) by (unfold dn; lia). rewrite D0. change (Z.max 0 0 * dm) with (spin_code Hole). change (Z.min 0 0 * dm) with (spin_code Hole).
    destruct (indexes_unrestricted E pB dB sB Hole 0 HE UB DB) as (inB & -> & _ & IB & _). destruct (indexes_unrestricted E pA dA sA Hole 0 HE UA DA) as (inA & -> & _ & IA & _).
    cbn [bind]. change (reverse_interactions 0) with (Ok (mkSwitches false false true false false false)). cbn [bind].
    set (r0 := py_set_and E (u_frontier_B u) (map (fun site => site + nsites pA) inB)). set (r1 := py_set_and E (u_frontier_A u) inA).
    unfold compute_dynamic_interactions. cbn [s_bt s_btN s_bij s_bSD bind].
    destruct (C59_exchange_pf E (with_restriction (u_conf u) (RTuple r0 r1)) I pert r0 r1 HE eq_refl) as [Q _].
    { intros x y Hx Hy. apply in_set_and in Hx, Hy; try assumption. destruct Hx as [Hx _], Hy as [Hy _]. specialize (FA y Hy). specialize (FB x Hx). lia. }
    rewrite Q. reflexivity.
  - assert (D1 : dn = 1) by (unfold dn; lia). rewrite D1. change (Z.min 0 1 * dm) with (spin_code Hole). replace (Z.max 1 0 * dm) with dm by (change (Z.max 1 0) with 1; lia).
    assert (V : exists p, p <> Hole /\ dm = spin_code p).
    { destruct Hb as [Hb|Hb]; [exists Up | exists Down]; (split; [discriminate|]); unfold dm; cbn [spin_code]; lia. }
    destruct V as (p & Np & Vp). rewrite Vp.
    destruct (indexes_unrestricted E pB dB sB p 0 HE UB DB) as (inB & -> & _ & IB & _). destruct (indexes_unrestricted E pA dA sA Hole 0 HE UA DA) as (inA & -> & _ & IA & _).
    cbn [bind]. change (reverse_interactions 1) with (Ok (mkSwitches true false false true true false)). cbn [bind].
    set (r0 := py_set_and E (u_frontier_B u) (map (fun site => site + nsites pA) inB)). set (r1 := py_set_and E (u_frontier_A u) inA).
    destruct (C59_holes_pf E (with_restriction (u_conf u) (RTuple r0 r1)) pert r0 r1 HE eq_refl) as (Q1 & Q2 & Q3).
    { cbn [with_restriction nholes]. lia. }
    { cbn [with_restriction nholes]. rewrite Hu. intros x Hx I'. apply in_set_and in Hx; [|assumption]. destruct Hx as [_ Hx]. apply in_map_iff in Hx. destruct Hx as (z & <- & Hz).
      destruct Dd as (hs & bs & us & -> & Lh & _ & _ & _ & _ & Ih & _). rewrite <- Lh in I'. rewrite Nat2Z.id, firstn_app, Nat.sub_diag, firstn_all, firstn_O, app_nil_r in I'.
      apply Ih in I'. destruct I' as [Rz Jz]. apply IB in Hz. destruct Hz as [Bz Sz]. unfold join_states in Jz. rewrite NA in Jz. destruct (Z.ltb_spec (z + n) n); [lia|].
      replace (z + n - n) with z in Jz by lia. congruence. }
    unfold compute_dynamic_interactions. cbn [s_bt s_btN s_bij s_bSD]. rewrite Q1, Q2, Q3. reflexivity.
Qed.

Section Exch.
Variables (E : runtime) (c : configuration) (l : list (list Z)) (st : nat -> occupation) (r : bool) (nb : basis).
Hypothesis HE : set_iter_ok E.
Hypothesis HZ : sized c.
Hypothesis P : proper c.
Hypothesis HBas : construct_basis c = Ok (mkBasis c l).
Hypothesis Ls : listed (nsites c) (nholes c) (nbeta c) l st.
Hypothesis Bal : r = true -> nalpha c = nbeta c.
Hypothesis Hnb : neighbor_basis E (mkBasis c l) r = Ok nb.
Let cn := b_conf nb.
Let N := nsites c.
Let sec := in_sector N (nholes c) (nbeta c).
Let ix := state_index N (nholes c) (nbeta c).

Lemma rows_N : mrows (bond_matrix c) = N.
Proof. destruct HZ as (_ & _ & _ & _ & M & _). now rewrite <- M. Qed.

Lemma N_one : 1 <= N.
Proof. unfold N. rewrite (sized_n c HZ). destruct HZ as (H1 & H2 & H3 & _). nia. Qed.

Lemma cn_facts : nsites cn = N /\ bond_matrix cn = bond_matrix c /\ nholes cn = nholes c /\ nbeta cn = nbeta c /\ nalpha cn = N - nholes cn - nbeta cn /\
  sites_restriction cn = RTuple (zrange 0 N) (zrange 0 N).
Proof.
  pose proof (proper_n c P) as Hn. pose proof P as (P1 & P2 & P3 & P4 & _ & PR). pose proof rows_N as HM.
  pose proof (basis_perm c l P HBas) as BP.
  destruct (neighbor_whole E c l r nb N HE (proper_whole c P) HM P3 BP Hnb) as ((Wn1 & Wn2 & Wn3 & Wn4) & Mn & Hn1 & Hn2 & _). fold cn in Wn1, Wn2, Wn3, Wn4, Mn, Hn1, Hn2.
  split; [exact Wn1|]. split; [exact Mn|]. split; [exact Hn1|]. split; [rewrite Hn2; destruct r; [apply Bal; reflexivity | reflexivity]|]. split; [|exact Wn4].
  pose proof Hnb as G. clear - G P4 HM. unfold cn, N in *. destruct r; cbn [neighbor_basis] in G; [|injection G as <-; exact P4].
  unfold reverse_spins_basis in G. cbn [determinants b_conf] in G. apply bind_ok_inv in G. destruct G as (d0 & _ & G). apply bind_ok_inv in G. destruct G as ([c' d1] & H1 & G).
  apply bind_ok_inv in G. destruct G as (ds & _ & G). injection G as <-. cbn [b_conf] in *. unfold reverse_spins in H1. apply bind_ok_inv in H1. destruct H1 as (c1 & Hc & H1).
  apply bind_ok_inv in H1. destruct H1 as (? & _ & H1). apply bind_ok_inv in H1. destruct H1 as (? & _ & H1). apply bind_ok_inv in H1. destruct H1 as (? & _ & H1). injection H1 as <- _.
  unfold make_configuration in Hc. destruct (mrows (bond_matrix c) =? 0); [discriminate|]. apply bind_ok_inv in Hc. destruct Hc as (r' & _ & Hc). injection Hc as <-.
  cbn [nalpha nholes nbeta] in *. lia.
Qed.

(** ** The states of the block *)

Lemma l_size : zlen l = nb_conf c.
Proof. apply (basis_listed c l P HBas). Qed.

Lemma ix_in : forall s, sec s -> 0 <= ix s < zlen l.
Proof. intros s Hs. rewrite l_size. now apply PVec.ix_range. Qed.

Lemma st_sec : forall k, 0 <= k < zlen l -> sec (st (Z.to_nat k)) /\ ix (st (Z.to_nat k)) = k.
Proof.
  intros k Hk. unfold zlen in Hk. destruct (nth_error l (Z.to_nat k)) as [d|] eqn:Q; [|apply nth_error_None in Q; lia].
  pose proof (Ls _ _ Q) as D. split; [exact (describes_sector _ _ _ _ _ D)|]. unfold ix, N. rewrite (basis_ix c l _ d _ P HBas Q D). lia.
Qed.

Lemma st_ix : forall s k, sec s -> 0 <= k < zlen l -> (ix s = k <-> same_state N s (st (Z.to_nat k))).
Proof.
  intros s k Ss Hk. destruct (st_sec k Hk) as [Sk Ik]. split.
  - intros Q. apply (state_index_inj N (nholes c) (nbeta c)); try assumption; [exact (proper_n c P)|]. fold ix. congruence.
  - intros Q. rewrite <- Ik. now apply state_index_same.
Qed.

Lemma nb_listed : length (determinants nb) = length l /\ listed N (nholes c) (nbeta c) (determinants nb) (fun k => if r then flip_state (st k) else st k).
Proof.
  destruct (C69_neighbor_pf E c l st r HE HZ P HBas Ls) as (nb' & Q & L & _ & _ & _ & Ln). rewrite Hnb in Q. injection Q as <-. split; [assumption|].
  destruct r; [|exact Ln]. rewrite (Bal eq_refl) in Ln. exact Ln.
Qed.

Lemma nb_sound : forall d, In d (determinants nb) -> exists t, sec t /\ describes N (nholes c) (nbeta c) d t.
Proof.
  intros d Hd. destruct nb_listed as [_ Ln]. apply In_nth_error in Hd. destruct Hd as (k & Hk). pose proof (Ln _ _ Hk) as D. cbv beta in D.
  eexists. split; [eapply describes_sector; exact D | exact D].
Qed.

Lemma nb_complete : forall t, sec t -> exists d, In d (determinants nb) /\ describes N (nholes c) (nbeta c) d t.
Proof.
  intros t St. destruct nb_listed as [L Ln].
  assert (K : exists k, (k < length l)%nat /\ same_state N (if r then flip_state (st k) else st k) t).
  { destruct r eqn:R.
    - assert (Sf : sec (flip_state t)).
      { apply sector_cnt. apply sector_cnt in St. destruct St as [S1 S2]. pose proof (cnt_flip N t Hole) as F1. pose proof (cnt_flip N t Up) as F2. cbn [flip_particle] in F1, F2.
        rewrite F1, F2. split; [assumption|]. pose proof (cnt_total N t ltac:(pose proof N_one; lia)) as T. pose proof P as (_ & _ & _ & P4 & _). fold N in P4. pose proof (Bal eq_refl). unfold cnt in *. lia. }
      pose proof (ix_in _ Sf) as B. destruct (st_ix _ _ Sf B) as [Q _]. specialize (Q eq_refl). exists (Z.to_nat (ix (flip_state t))). split; [unfold zlen in B; lia|].
      intros x Hx. unfold flip_state at 1. rewrite <- (Q x Hx). unfold flip_state. now destruct (t x).
    - pose proof (ix_in _ St) as B. destruct (st_ix _ _ St B) as [Q _]. specialize (Q eq_refl). exists (Z.to_nat (ix t)). split; [unfold zlen in B; lia|]. intros x Hx. now rewrite (Q x Hx). }
  destruct K as (k & Hk & Q). rewrite <- L in Hk. destruct (nth_error (determinants nb) k) as [d|] eqn:Hd; [|apply nth_error_None in Hd; lia].
  exists d. split; [eapply nth_error_In; exact Hd|]. eapply describes_same; [exact Q|]. exact (Ln _ _ Hd).
Qed.

(** ** The two blocks after the exchange *)

Lemma made : forall h b lt x v s, make_configuration (bond_matrix c) h b (RTuple (zrange 0 N) (zrange 0 N)) lt x v s =
  Ok (mkConf (bond_matrix c) N h b (N - h - b) (compute_dimension N (N - h - b) b) (RTuple (zrange 0 N) (zrange 0 N)) lt x v s).
Proof.
  intros h b lt x v s. unfold make_configuration. rewrite rows_N. pose proof N_one. destruct (Z.eqb_spec N 0); [lia|]. reflexivity.
Qed.

Lemma exchanged : forall po pn, po <> pn -> exists pA pB,
  perturbed_A c (spin_code po) (spin_code pn) = Ok pA /\ perturbed_B c cn (spin_code po) (spin_code pn) = Ok pB /\
  (nsites pA = N /\ unrestricted pA /\ nholes pA = nholes c - one (is_p po Hole) + one (is_p pn Hole) /\ nbeta pA = nbeta c - one (is_p po Down) + one (is_p pn Down)) /\
  (nsites pB = N /\ unrestricted pB /\ nholes pB = nholes c - one (is_p pn Hole) + one (is_p po Hole) /\ nbeta pB = nbeta c - one (is_p pn Down) + one (is_p po Down) /\
   nalpha pB = N - nholes pB - nbeta pB).
Proof.
  intros po pn D. destruct cn_facts as (C1 & C2 & C3 & C4 & C5 & C6). pose proof P as (P1 & P2 & P3 & P4 & _ & PR). fold N in P4, PR.
  unfold perturbed_A, perturbed_B. rewrite PR, C6, C2. cbn [swap_restriction bind]. rewrite !made. do 2 eexists. split; [reflexivity|]. split; [reflexivity|].
  unfold unrestricted. cbn [nsites sites_restriction nholes nbeta nalpha].
  destruct po, pn; try congruence; cbn [spin_code is_p one Z.eqb Pos.eqb count_of]; unfold count_of; cbn [Z.eqb Pos.eqb]; rewrite ?C3, ?C4; repeat match goal with |- _ /\ _ => split end; reflexivity || lia.
Qed.

Lemma known_key : forall pA pB po pn, po <> pn -> perturbed_A c (spin_code po) (spin_code pn) = Ok pA -> perturbed_B c cn (spin_code po) (spin_code pn) = Ok pB ->
  forall m : memory, map fst m = map fst (empty_memory c) -> In (Emb.get_id pA, Emb.get_id pB) (map fst m).
Proof.
  intros pA pB po pn D EA EB m K. destruct cn_facts as (C1 & C2 & C3 & C4 & C5 & C6). pose proof P as (P1 & P2 & P3 & P4 & _ & PR). fold N in P4.
  assert (IC : forall p, In (spin_code p) [-1; 0; 1]) by (intros []; cbn; auto).
  destruct (C77_register_pf c cn (spin_code po) (spin_code pn) pA pB m (0, 0) (IC po) (IC pn)) as (x & Hx & _); try assumption.
  - destruct po, pn; cbn; congruence.
  - rewrite rows_N. lia.
  - rewrite C2, rows_N. lia.
  - lia.
  - clear - Hx. revert x Hx. induction m as [|[k l] m IH]; intros x Hx; [discriminate|]. cbn [remember] in Hx. destruct (key_eqb k _) eqn:Q.
    + apply key_eqb_eq in Q. left. exact Q.
    + apply bind_ok_inv in Hx. destruct Hx as (y & Hy & _). right. exact (IH y Hy).
Qed.
End Exch.
