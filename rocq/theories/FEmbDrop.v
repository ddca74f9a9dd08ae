(** Proofs of C59: which exchanges between two blocks are followed by nothing. *)
From Coq Require Import ZArith List Bool QArith Qcanon Lia Permutation.
From Verif Require Import PyBase PyFacts Lattice Base Interact Ham Spin Prob Dav Files Emb Spec SpecTJ HamSpec SpinDefs ProbDefs Geometry EmbDefs.
From Verif Require Import PBasis PVec PMat PRing PGeo FGeo PRot PSites PSpin PProb PHam PRep PWave PDav FSites FProb FHam PEmb PEmbRing PEmbNeel FEmb PEmbBlock PEmbPerm PEmbTurn.
Import ListNotations.
Open Scope Z_scope.

Lemma and_empty : forall E a b, set_iter_ok E -> (forall x, In x a -> In x b -> False) -> py_set_and E a b = [].
Proof.
  intros E a b HE H. destruct (py_set_and E a b) as [|x l] eqn:Q; [reflexivity|]. exfalso. assert (I : In x (py_set_and E a b)) by (rewrite Q; now left).
  apply in_set_and in I; [|assumption]. destruct I. eauto.
Qed.

Lemma concatM_nil : forall A B (f : A -> res (list B)) l, (forall x, In x l -> f x = Ok []) -> concatM f l = Ok [].
Proof.
  intros A B f l H. unfold concatM. assert (Q : mapM f l = Ok (map (fun _ => []) l)).
  { induction l as [|x l IH]; [reflexivity|]. cbn [mapM map]. rewrite H by now left. cbn [bind]. rewrite IH by (intros; apply H; now right). reflexivity. }
  rewrite Q. cbn [bind]. f_equal. clear. induction l; [reflexivity | exact IHl].
Qed.

Lemma C59_bonds_pf : forall E bm r0 r1, set_iter_ok E -> (forall x y, In x r0 -> In y r1 -> y < x) -> build_bond_list E bm (RTuple r0 r1) = Ok [].
Proof.
  intros E bm r0 r1 HE H. unfold build_bond_list. cbn [restr_falsy bind]. apply concatM_nil. intros x Hx. apply in_set_and in Hx; [|assumption]. destruct Hx as [_ Hx].
  rewrite and_empty; [reflexivity | assumption|]. intros y Hy I. apply in_zrange in Hy. specialize (H x y Hx I). lia.
Qed.

Lemma C59_exchange_pf : forall E c I d r0 r1, set_iter_ok E -> sites_restriction c = RTuple r0 r1 -> (forall x y, In x r0 -> In y r1 -> y < x) ->
  compute_spin_flip E c d = Ok ([], [], []) /\ compute_static_spin_interaction E c I d = Ok 0%Qc.
Proof.
  intros E c I d r0 r1 HE R H. unfold compute_spin_flip, compute_static_spin_interaction. rewrite R, (C59_bonds_pf E _ r0 r1 HE H). split; reflexivity.
Qed.

Lemma no_hole_sites : forall E c d r0 r1, set_iter_ok E -> sites_restriction c = RTuple r0 r1 -> 0 <= nholes c ->
  (forall x, In x r0 -> ~ In x (firstn (Z.to_nat (nholes c)) d)) -> get_indexes_of E c d 0 0 = Ok [].
Proof.
  intros E c d r0 r1 HE R Hh H. unfold get_indexes_of. rewrite R. cbn [Z.eqb bind]. rewrite and_empty; [reflexivity | assumption|]. intros x Hx I. apply (H x I).
  revert Hx. unfold py_slice, py_clamp. destruct (Z.ltb_spec 0 0); [lia|]. destruct (Z.ltb_spec (nholes c) 0); [lia|]. pose proof (zlen_nonneg _ d).
  rewrite (Z.min_l 0) by lia. cbn [Z.to_nat skipn]. rewrite Z.sub_0_r.
  destruct (Z.le_gt_cases (nholes c) (zlen d)); [now rewrite Z.min_l by lia|]. rewrite Z.min_r by lia. intros Hx.
  rewrite firstn_all2 in Hx by (unfold zlen; lia). now rewrite firstn_all2 by (unfold zlen in *; lia).
Qed.

Lemma C59_holes_pf : forall E c d r0 r1, set_iter_ok E -> sites_restriction c = RTuple r0 r1 -> 0 <= nholes c ->
  (forall x, In x r0 -> ~ In x (firstn (Z.to_nat (nholes c)) d)) ->
  compute_hopping_integral E c d = Ok [] /\ compute_next_hopping_integral E c d = Ok ([], []) /\ compute_singlet_displacement E c d = Ok ([], []).
Proof.
  intros E c d r0 r1 HE R Hh H. unfold compute_hopping_integral, compute_next_hopping_integral, compute_singlet_displacement.
  rewrite (no_hole_sites E c d r0 r1 HE R Hh H). cbn [bind]. destruct (0 <? nholes c); auto.
Qed.

Lemma coupled_none : forall E I cn pA pB u dA dB pert n l, set_iter_ok E -> 0 <= n ->
  whole pA n -> whole pB n -> Permutation dA (zrange 0 n) -> Permutation dB (zrange 0 n) ->
  nalpha pB = n - nholes pB - nbeta pB -> nalpha cn = n - nholes cn - nbeta cn -> 0 <= nalpha pB -> nholes pA + nbeta pA <= n ->
  extend_determinant E pA pB dA dB = Ok pert -> nholes (u_conf u) = nholes pA + nholes pB ->
  (forall x, In x (u_frontier_A u) -> x < n) -> (forall x, In x (u_frontier_B u) -> n <= x) ->
  nholes pB = nholes cn \/ nholes pB = nholes cn - 1 ->
  coupled E I cn pA pB u dA dB pert = Ok l -> l = [].
Proof.
  intros E I cn pA pB u dA dB pert n l HE Hn (NA & A1 & A2 & RA) (NB & B1 & B2 & RB) PA PB Al Aln Hal HA He Hu FA FB Hd H.
  unfold coupled in H. set (dn := nalpha pB + nbeta pB - nalpha cn - nbeta cn) in *. set (dm := nalpha pB - nbeta pB - nalpha cn + nbeta cn) in *.
  apply bind_ok_inv in H. destruct H as (inB & HB & H). apply bind_ok_inv in H. destruct H as (inA & HIA & H). apply bind_ok_inv in H. destruct H as (s & Hs & H).
  set (r0 := py_set_and E (u_frontier_B u) (map (fun site => site + nsites pA) inB)) in *. set (r1 := py_set_and E (u_frontier_A u) inA) in *.
  destruct Hd as [Hd|Hd].
  - assert (D0 : dn = 0) by (unfold dn; lia). rewrite D0 in Hs. cbn in Hs. injection Hs as <-. unfold compute_dynamic_interactions in H. cbn [s_bt s_btN s_bij s_bSD bind] in H.
    destruct (C59_exchange_pf E (with_restriction (u_conf u) (RTuple r0 r1)) I pert r0 r1 HE eq_refl) as [Q _].
    { intros x y Hx Hy. apply in_set_and in Hx, Hy; try assumption. destruct Hx as [Hx _], Hy as [Hy _]. specialize (FA y Hy). specialize (FB x Hx). lia. }
    rewrite Q in H. cbn [bind] in H. cbn in H. now injection H as <-.
  - assert (D1 : dn = 1) by (unfold dn; lia). rewrite D1 in *. cbn in Hs. injection Hs as <-.
    destruct (perm_describes n (nholes pA) (nbeta pA) dA A1 A2 HA PA) as (sA & DA). destruct (perm_describes n (nholes pB) (nbeta pB) dB B1 B2 ltac:(lia) PB) as (sB & DB).
    assert (UA : unrestricted pA) by (unfold unrestricted; now rewrite NA). assert (UB : unrestricted pB) by (unfold unrestricted; now rewrite NB).
    destruct (extend_ok E pA pB dA dB sA sB HE UA UB) as (d' & Ed & Dd); try lia; [unfold conf_describes; now rewrite NA | unfold conf_describes; now rewrite NB|].
    rewrite He in Ed. injection Ed as <-. rewrite NA, NB in Dd.
    replace (Z.max 1 0) with 1 in HB by reflexivity. rewrite Z.mul_1_l in HB.
    assert (Odd : dm <> 0) by (unfold dm; lia).
    assert (EB : forall x, In x inB -> sB x <> Hole).
    { assert (V : dm = 1 \/ dm = -1).
      { destruct (Z.eq_dec dm 1); [now left|]. destruct (Z.eq_dec dm (-1)); [now right|]. rewrite indexes_of_bad in HB by assumption. discriminate. }
      assert (DB' : conf_describes pB dB sB) by (unfold conf_describes; now rewrite NB).
      intros x Hx Q. destruct V as [V|V]; rewrite V in HB.
      - destruct (indexes_of_ok E pB dB sB Up 0 _ _ HE DB' RB) as (l' & El & _ & Il). cbn [spin_code] in El. rewrite HB in El. injection El as <-. apply Il in Hx. destruct Hx as [[_ Hx] _]. congruence.
      - destruct (indexes_of_ok E pB dB sB Down 0 _ _ HE DB' RB) as (l' & El & _ & Il). cbn [spin_code] in El. rewrite HB in El. injection El as <-. apply Il in Hx. destruct Hx as [[_ Hx] _]. congruence. }
    destruct (C59_holes_pf E (with_restriction (u_conf u) (RTuple r0 r1)) pert r0 r1 HE eq_refl) as (Q1 & Q2 & Q3).
    { cbn [with_restriction nholes]. lia. }
    { cbn [with_restriction nholes]. rewrite Hu. intros x Hx I'. apply in_set_and in Hx; [|assumption]. destruct Hx as [_ Hx]. apply in_map_iff in Hx. destruct Hx as (z & <- & Hz).
      destruct Dd as (hs & bs & us & -> & Lh & _ & _ & _ & _ & Ih & _). rewrite <- Lh in I'. rewrite Nat2Z.id, firstn_app, Nat.sub_diag, firstn_all, firstn_O, app_nil_r in I'.
      apply Ih in I'. destruct I' as [Rz Jz]. unfold join_states in Jz. rewrite NA in Jz. destruct (Z.ltb_spec (z + n) n).
      - assert (z < 0) by lia. clear - H0 HB Hz PB NB HE B1 B2. exfalso. unfold get_indexes_of in HB. destruct (dm =? 0), (dm =? -1), (dm =? 1); try discriminate;
          apply bind_ok_inv in HB; destruct HB as (r & _ & HB); injection HB as <-; apply in_set_and in Hz; try assumption; destruct Hz as [Hz _];
          assert (Iz : In z dB) by (rewrite <- (groups dB (nholes pB) (nbeta pB) B1 B2); rewrite !in_app_iff; tauto);
          apply (Permutation_in _ PB) in Iz; apply in_zrange in Iz; lia.
      - apply (EB z Hz). now replace (z + n - n) with z in Jz by lia. }
    unfold compute_dynamic_interactions in H. cbn [s_bt s_btN s_bij s_bSD] in H. rewrite Q1, Q2, Q3 in H. cbn [bind] in H. cbn in H. now injection H as <-.
Qed.

Lemma surroundings_frontiers : forall E c cn u full, block_surroundings E c cn = Ok (u, full) ->
  (forall x, In x (u_frontier_A u) -> x < nsites c) /\ (forall x, In x (u_frontier_B u) -> nsites c <= x).
Proof.
  intros E c cn u full H. unfold block_surroundings in H. apply bind_ok_inv in H. destruct H as (bm & _ & H).
  apply bind_ok_inv in H. destruct H as (fA & _ & H). apply bind_ok_inv in H. destruct H as (fB & _ & H).
  apply bind_ok_inv in H. destruct H as (cu & _ & H). apply bind_ok_inv in H. destruct H as (cf & _ & H). injection H as <- _. cbn [u_frontier_A u_frontier_B].
  split; intros x Hx; apply filter_In in Hx; destruct Hx as [_ Hx]; [now apply Z.ltb_lt | now apply Z.leb_le].
Qed.

Lemma site_up : forall c d x s, get_spin_site c d x = Ok s -> s = 1 -> nholes c + nbeta c < zlen d.
Proof.
  intros c d x s H. unfold get_spin_site in H. apply bind_ok_inv in H. destruct H as (i & Hi & H). apply index_at in Hi. destruct Hi as [_ Hi]. injection H as <-.
  destruct (Z.ltb_spec i (nholes c)); [discriminate|]. destruct (Z.ltb_spec i (nholes c + nbeta c)); [discriminate|]. intros _. lia.
Qed.

Lemma C59_dropped_pf : forall E I c l r nb u full single thr energy gs dim ham h det_A,
  set_iter_ok E -> sized c -> proper c -> construct_basis c = Ok (mkBasis c l) -> (r = true -> nalpha c = nbeta c) ->
  neighbor_basis E (mkBasis c l) r = Ok nb -> block_surroundings E c (b_conf nb) = Ok (u, full) ->
  In det_A l -> (forall x, In x (u_frontier_A u) -> get_spin_site c det_A x <> Ok 0) ->
  dynamic_part E I (mkDyn c nb u full single thr energy gs dim) ham det_A = Ok h -> h = ham.
Proof.
  intros E I c l r nb u full single thr energy gs dim ham h det_A HE HZ P B Bal Hnb Hu HA NH H.
  pose proof (proper_n c P) as Hn. pose proof P as (P1 & P2 & P3 & P4 & _ & PR).
  assert (HM : mrows (bond_matrix c) = nsites c) by (destruct HZ as (_ & _ & _ & _ & M & _); now rewrite M).
  pose proof (basis_perm c l P B) as BP. rewrite Forall_forall in BP.
  destruct (neighbor_whole E c l r nb (nsites c) HE (proper_whole c P) HM P3 (proj2 (Forall_forall _ _) BP) Hnb) as (Wn & Mn & Hn1 & Hn2 & Pn). rewrite Forall_forall in Pn.
  assert (Eb : nbeta (b_conf nb) = nbeta c) by (rewrite Hn2; destruct r; [apply Bal; reflexivity | reflexivity]).
  assert (Ea : nalpha (b_conf nb) = nsites c - nholes (b_conf nb) - nbeta (b_conf nb)).
  { clear - Hnb P4 HM Hn1 Hn2. destruct r; cbn [neighbor_basis] in Hnb; [|injection Hnb as <-; exact P4].
    unfold reverse_spins_basis in Hnb. cbn [determinants b_conf] in Hnb. apply bind_ok_inv in Hnb. destruct Hnb as (d0 & _ & Hnb). apply bind_ok_inv in Hnb. destruct Hnb as ([c' d1] & H1 & Hnb).
    apply bind_ok_inv in Hnb. destruct Hnb as (ds & _ & Hnb). injection Hnb as <-. cbn [b_conf] in *. unfold reverse_spins in H1. apply bind_ok_inv in H1. destruct H1 as (c1 & Hc & H1).
    apply bind_ok_inv in H1. destruct H1 as (? & _ & H1). apply bind_ok_inv in H1. destruct H1 as (? & _ & H1). apply bind_ok_inv in H1. destruct H1 as (? & _ & H1). injection H1 as <- _.
    unfold make_configuration in Hc. destruct (mrows (bond_matrix c) =? 0); [discriminate|]. apply bind_ok_inv in Hc. destruct Hc as (r' & _ & Hc). injection Hc as <-.
    cbn [nalpha nholes nbeta] in *. lia. }
  destruct (surroundings_inv E c (b_conf nb) u full Hu) as (_ & U1 & U2). destruct (surroundings_frontiers E c (b_conf nb) u full Hu) as (FA & FB).
  unfold dynamic_part in H. cbn [y_conf y_sur] in H. apply bind_ok_inv in H. destruct H as ([h' mem] & H & R). injection R as <-.
  set (G := fun s : coo * memory => fst s = ham). change (G (h', mem)). revert H. apply (foldM_keeps _ _ G); [reflexivity|].
  intros s site s' Hsite Hst H. apply bind_ok_inv in H. destruct H as (spin & Hs & H). revert H. apply (foldM_keeps _ _ G); [assumption|].
  clear s s' Hst h' mem. intros s new s' Hnew Hst H. apply filter_In in Hnew. destruct Hnew as [Hnew Hne]. apply negb_true_iff, Z.eqb_neq in Hne.
  unfold dynamic_exchange in H. cbn [y_conf y_neighbor y_sur] in H. destruct (Z.leb_spec (count_of (b_conf nb) new) 0) as [|Hpos]; [injection H as <-; assumption|].
  apply bind_ok_inv in H. destruct H as (pA & HpA & H). apply bind_ok_inv in H. destruct H as (pB & HpB & H). apply bind_ok_inv in H. destruct H as (dA & HdA & H).
  apply bind_ok_inv in H. destruct H as (near & _ & H). apply bind_ok_inv in H. destruct H as (far & _ & H).
  revert H. apply (foldM_keeps _ _ G); [assumption|]. clear s s' Hst. intros s det_B s' HB Hst H.
  revert H. apply (foldM_keeps _ _ G); [assumption|]. clear s s' Hst. intros [h0 mem] x s' _ Hst H. unfold G in Hst. cbn [fst] in Hst.
  unfold dynamic_site in H. cbn [y_conf y_neighbor y_sur y_full y_single y_threshold y_energy y_gs y_dim] in H. apply bind_ok_inv in H. destruct H as (sp & _ & H).
  destruct (negb (sp =? new)); [injection H as <-; assumption|].
  apply bind_ok_inv in H. destruct H as (dB & HdB & H). apply bind_ok_inv in H. destruct H as (iA & _ & H). apply bind_ok_inv in H. destruct H as (iB & _ & H).
  apply bind_ok_inv in H. destruct H as ([mem'|] & _ & H); [|injection H as <-; assumption].
  apply bind_ok_inv in H. destruct H as (pert & Hp & H). apply bind_ok_inv in H. destruct H as (e & _ & H). apply bind_ok_inv in H. destruct H as (lst & Hl & H).
  assert (L0 : lst = []).
  { pose proof (site_spin c det_A site spin Hs) as Is. destruct (site_count c det_A site spin P1 P2 Hs) as [C0 C1]. pose proof (site_up c det_A site spin Hs) as C2.
    assert (LA : zlen det_A = nsites c) by (unfold zlen; rewrite (Permutation_length (BP _ HA)), zrange_length; lia).
    assert (Ns : spin <> 0) by (intros ->; exact (NH site Hsite Hs)).
    unfold perturbed_A in HpA. rewrite PR in HpA. pose proof (make_inv _ _ _ _ _ _ _ _ _ HpA) as (_ & _ & KA1 & KA2 & _).
    assert (WA : whole pA (nsites c)).
    { apply (make_whole _ _ _ _ _ _ _ pA (nsites c) HpA HM); unfold count_of; cbn [Z.eqb Pos.eqb];
        cbn [In] in Is, Hnew; destruct Is as [<-|[<-|[<-|[]]]], Hnew as [<-|[<-|[<-|[]]]]; try lia; cbn [Z.eqb Pos.eqb]; lia. }
    unfold perturbed_B in HpB. destruct Wn as (Wn1 & Wn2 & Wn3 & Wn4). rewrite Wn4 in HpB. cbn [swap_restriction bind] in HpB. pose proof (make_inv _ _ _ _ _ _ _ _ _ HpB) as (_ & _ & KB1 & KB2 & _).
    assert (WB : whole pB (nsites c)).
    { apply (make_whole _ _ _ _ _ _ _ pB (nsites c) HpB); [now rewrite Mn| |]; unfold count_of in *; cbn [Z.eqb Pos.eqb] in *;
        cbn [In] in Is, Hnew; destruct Is as [<-|[<-|[<-|[]]]], Hnew as [<-|[<-|[<-|[]]]]; try lia; cbn [Z.eqb Pos.eqb] in *; lia. }
    assert (AB : nalpha pB = nsites c - nholes pB - nbeta pB).
    { unfold make_configuration in HpB. rewrite Mn, HM in HpB. destruct (nsites c =? 0); [discriminate|]. apply bind_ok_inv in HpB. destruct HpB as (r' & _ & HpB). injection HpB as <-.
      cbn [nalpha nholes nbeta]. lia. }
    assert (PA : Permutation dA (zrange 0 (nsites c))).
    { destruct WA as (_ & A1 & A2 & _). apply (perturb_perm E c pA (nsites c) det_A site spin new dA HE (proper_whole c P) A1 A2 (BP _ HA) Is Hnew); [congruence | assumption]. }
    assert (PB : Permutation dB (zrange 0 (nsites c))).
    { destruct WB as (_ & A1 & A2 & _). apply (perturb_perm E (b_conf nb) pB (nsites c) det_B (x - nsites c) new spin dB HE); try assumption; [split; auto | now apply Pn]. }
    apply (coupled_none E I (b_conf nb) pA pB u dA dB pert (nsites c) lst HE Hn WA WB PA PB AB Ea); try assumption; clear H;
      rewrite ?AB, ?KA1, ?KA2, ?KB1, ?KB2, ?U1; unfold count_of in *; cbn [Z.eqb Pos.eqb] in *;
      cbn [In] in Is, Hnew; destruct Is as [<-|[<-|[<-|[]]]], Hnew as [<-|[<-|[<-|[]]]]; try lia; cbn [Z.eqb Pos.eqb] in *; lia. }
  subst lst. cbn [pairs_of foldM bind] in H. injection H as <-. exact Hst.
Qed.

Lemma C59_coupled_pf : forall E I cn pA pB u dA dB sA sB pert n l, set_iter_ok E -> 0 <= n ->
  nsites pA = n -> sites_restriction pA = RTuple (zrange 0 n) (zrange 0 n) -> describes n (nholes pA) (nbeta pA) dA sA ->
  nsites pB = n -> sites_restriction pB = RTuple (zrange 0 n) (zrange 0 n) -> describes n (nholes pB) (nbeta pB) dB sB ->
  nalpha pB = n - nholes pB - nbeta pB -> nalpha cn = n - nholes cn - nbeta cn ->
  extend_determinant E pA pB dA dB = Ok pert -> nholes (u_conf u) = nholes pA + nholes pB ->
  (forall x, In x (u_frontier_A u) -> x < n) -> (forall x, In x (u_frontier_B u) -> n <= x) ->
  nholes pB = nholes cn \/ nholes pB = nholes cn - 1 ->
  coupled E I cn pA pB u dA dB pert = Ok l -> l = [].
Proof.
  intros E I cn pA pB u dA dB sA sB pert n l HE Hn NA RA DA NB RB DB Al Aln He Hu FA FB Hd H.
  assert (Pm : forall h b d s, describes n h b d s -> 0 <= h /\ 0 <= b /\ h + b <= n /\ Permutation d (zrange 0 n)).
  { intros h b d s D. assert (Q : Permutation d (zrange 0 n)).
    { apply NoDup_Permutation; [eapply describes_NoDup; exact D | apply zrange_NoDup|]. intros x. rewrite in_zrange. eapply describes_In. exact D. }
    pose proof (Permutation_length Q) as L. rewrite zrange_length in L. destruct D as (hs & bs & us & -> & Lh & Lb & _). rewrite !app_length in L. split; [lia|]. split; [lia|]. split; [lia | assumption]. }
  destruct (Pm _ _ _ _ DA) as (A1 & A2 & A3 & A4). destruct (Pm _ _ _ _ DB) as (B1 & B2 & B3 & B4).
  apply (coupled_none E I cn pA pB u dA dB pert n l HE Hn); try assumption; try (split; auto; fail); lia.
Qed.
