(** Final lemmas for C115: motions of the lattice and spin reversal of the rounded Hamiltonian. *)
From Coq Require Import ZArith List Bool Lia Permutation QArith Qcanon Lqa.
From Verif Require Import PyBase PyFacts Runtimes Lattice Base Interact Ham Round Spec SpecOps SpecTJ SpinDefs Geometry HamSpec SignDefs EnergyDefs RangeDefs RoundDefs MotionDefs Examples.
From Verif Require Import PSpin PQc PBasis PSites PRot PRep PMat PGeo PInter PHam POps FGeo FSites FInter FHam PDavIter FDav FMotion FDrawn PRound PRound2 FRound FRound2 PRoundSym FRoundSym PRoundMove PRoundDiag PVec.
Import ListNotations.
Open Scope Z_scope.

Lemma motion_fl : forall F E c w K S arg l m f g i j i' j' d e d' e' s t s' t', (forall q, Permutation q (add_order F q)) -> set_iter_ok E -> filled_whole c w -> assembled_fl F E c K S arg l m ->
  motion (nsites c) (point w) f -> site_bij (nsites c) f g -> i <> j ->
  nth_error l i = Some d -> nth_error l j = Some e -> nth_error l i' = Some d' -> nth_error l j' = Some e' ->
  describes (nsites c) (nholes c) (nbeta c) d s -> describes (nsites c) (nholes c) (nbeta c) e t ->
  describes (nsites c) (nholes c) (nbeta c) d' s' -> describes (nsites c) (nholes c) (nbeta c) e' t' ->
  carried (nsites c) f s s' -> carried (nsites c) f t t' ->
  csr_at m (Z.of_nat i') (Z.of_nat j') = csr_at m (Z.of_nat i) (Z.of_nat j).
Proof.
  intros F E c w K S arg l m f g i j i' j' d e d' e' s t s' t' HO HE HF HA [R Q] B N Hi Hj Hi' Hj' Ds Dt Ds' Dt' Cs Ct.
  apply (rel_fl (nsites c) w (zrange 0 (nsites c)) f g (fun p => p)) with (F := F) (E := E) (E' := E) (c := c) (c' := c) (K := K) (S := S) (arg := arg) (arg' := arg) (l := l) (l' := l) (d := d) (e := e) (d' := d') (e' := e') (s := s) (t := t) (s' := s') (t' := t');
    try assumption; try reflexivity; clear - Q R.
  - intros x y Hx Hy. unfold bonded. cbn [lat_pos between]. unfold bondb.
    destruct Q as [Q|Q]; destruct (Q x y Hx Hy) as [-> ->]; [reflexivity|]. f_equal. apply Z.add_comm.
  - intros x y Hx Hy. cbn [lat_pos between]. apply eq_true_iff_eq. unfold lineb2. rewrite !orb_true_iff, !Z.eqb_eq.
    destruct Q as [Q|Q]; destruct (Q x y Hx Hy); lia.
  - intros x y z Hx Hy Hz. cbn [lat_pos between]. apply eq_true_iff_eq. unfold lineb3.
    rewrite !orb_true_iff, !andb_true_iff, !Z.eqb_eq.
    destruct Q as [Q|Q]; destruct (Q x y Hx Hy), (Q y z Hy Hz); lia.
  - intros x y Hx Hy. cbn [lat_pos between]. apply eq_true_iff_eq. unfold diagb. rewrite !andb_true_iff, !Z.eqb_eq.
    destruct Q as [Q|Q]; destruct (Q x y Hx Hy); lia.
  - intros x Hx. rewrite !whole_from by (try assumption; now apply R). reflexivity.
Qed.
Lemma C115_motions_pf : forall F E c w K S arg l m f i j i' j' d e d' e' s t s' t', (forall q, Permutation q (add_order F q)) -> set_iter_ok E -> filled_whole c w -> assembled_fl F E c K S arg l m ->
  motion (nsites c) (point w) f -> i <> j ->
  nth_error l i = Some d -> nth_error l j = Some e -> nth_error l i' = Some d' -> nth_error l j' = Some e' ->
  describes (nsites c) (nholes c) (nbeta c) d s -> describes (nsites c) (nholes c) (nbeta c) e t ->
  describes (nsites c) (nholes c) (nbeta c) d' s' -> describes (nsites c) (nholes c) (nbeta c) e' t' ->
  carried (nsites c) f s s' -> carried (nsites c) f t t' ->
  csr_at m (Z.of_nat i') (Z.of_nat j') = csr_at m (Z.of_nat i) (Z.of_nat j).
Proof. intros. eapply motion_fl; try eassumption. now apply (motion_bij _ w). Qed.

Lemma exact_beside : forall F E c w r K S arg l m, set_iter_ok E -> filled c w r -> assembled_fl F E c K S arg l m -> exists m0, assembled E c K S arg l m0.
Proof.
  intros F E c w r K S arg l m HE HC [A _]. destruct (built E c w r K S arg HE HC) as (es & E1 & E2 & _). rewrite A in E1. injection E1 as ->. eexists. split; [exact A | exact E2].
Qed.
(** elements of determinants moved by the program *)
Lemma moved_fl : forall F E c w K S arg l m f g q (mv : list Z -> list Z), (forall q, Permutation q (add_order F q)) -> set_iter_ok E -> filled_whole c w -> assembled_fl F E c K S arg l m ->
  site_bij (nsites c) f g -> keeps q -> (forall x, 0 <= x < nsites c -> point w (f x) = q (point w x)) ->
  (forall d s, describes (nsites c) (nholes c) (nbeta c) d s ->
     exists s', describes (nsites c) (nholes c) (nbeta c) (mv d) s' /\ forall x, 0 <= x < nsites c -> s' (f x) = s x) ->
  forall i j d e, nth_error l i = Some d -> nth_error l j = Some e -> i <> j ->
  exists i' j', get_index_in_basis c (mv d) = Ok i' /\ get_index_in_basis c (mv e) = Ok j' /\
    csr_at m i' j' = csr_at m (Z.of_nat i) (Z.of_nat j).
Proof.
  intros F E c w K S arg l m f g q mv HO HE HF HA B Q P MV i j d e Hd He N.
  destruct (exact_beside F E c w _ K S arg l m HE HF HA) as (m0 & HA0).
  destruct (core _ _ _ _ _ _ _ _ _ HE HF HA0) as (El & _).
  assert (Dd : describes (nsites c) (nholes c) (nbeta c) d (state_of c d)) by (eapply dl_describes; [exact HF|rewrite <- El; exact Hd]).
  assert (De : describes (nsites c) (nholes c) (nbeta c) e (state_of c e)) by (eapply dl_describes; [exact HF|rewrite <- El; exact He]).
  destruct (MV _ _ Dd) as (s' & Ds & Hs). destruct (MV _ _ De) as (t' & Dt & Ht).
  destruct (index_of_state _ _ _ _ _ _ _ _ _ _ _ HE HF HA0 Ds) as (i' & d' & I1 & I2 & I3).
  destruct (index_of_state _ _ _ _ _ _ _ _ _ _ _ HE HF HA0 Dt) as (j' & e' & J1 & J2 & J3).
  exists (Z.of_nat i'), (Z.of_nat j'). split; [assumption|]. split; [assumption|].
  apply (motion_fl F E c w K S arg l m f g i j i' j' d e d' e' (state_of c d) (state_of c e) s' t'); try assumption.
  split; [intros x Hx; now apply B|]. destruct Q as [Q|Q]; [left|right]; intros x y Hx Hy; rewrite !P by assumption; apply Q.
Qed.
Lemma C115_rotations_pf : forall F E c K S arg l m k i j d e, (forall q, Permutation q (add_order F q)) -> set_iter_ok E ->
  sized c -> nbh c = nbv c -> filled_whole c (nbh c * nblocs_side c) -> assembled_fl F E c K S arg l m ->
  nth_error l i = Some d -> nth_error l j = Some e -> i <> j ->
  exists i' j', get_index_in_basis c (rotate_determinant k c d) = Ok i' /\ get_index_in_basis c (rotate_determinant k c e) = Ok j' /\
    csr_at m i' j' = csr_at m (Z.of_nat i) (Z.of_nat j).
Proof.
  intros F E c K S arg l m k i j d e HO HE HZ SQ HF HA Hd He N.
  assert (Hc : square c).
  { pose proof (sized_n c HZ) as N0. destruct HZ as (H1 & H2 & H3 & _). constructor; [assumption|lia|lia|]. rewrite N0, Z.pow_2_r. ring. }
  pose proof (square_side c Hc) as W. pose proof (square_n c Hc) as NN.
  apply (moved_fl F E c (side c) K S arg l m (rot (side c) k) (rot (side c) (- k)) (turns (Z.to_nat (k mod 4)) (side c)) (rotate_determinant k c) HO HE HF HA).
  - rewrite NN. now apply rot_bij.
  - apply keeps_turns.
  - rewrite NN. apply (on_sites (side c) W). intros a b Ha Hb. rewrite rot_site, (point_site (side c) W a b) by assumption.
    destruct (turns_bound (side c) (Z.to_nat (k mod 4)) a b Ha Hb). destruct (turns (Z.to_nat (k mod 4)) (side c) (a, b)) as [a' b'].
    now apply point_site.
  - intros d0 s0 D0. exists (fun x => s0 (rot (side c) (- k) x)). split; [now apply rotate_describes|].
    intros x Hx. f_equal. rewrite rot_add by lia. rewrite Z.add_opp_diag_l. apply rot_0.
  - assumption.
  - assumption.
  - assumption.
Qed.
Lemma C115_half_turn_pf : forall F E c K S arg l m k i j d e, (forall q, Permutation q (add_order F q)) -> set_iter_ok E ->
  sized c -> k mod 4 = 2 -> filled_whole c (nbh c * nblocs_side c) -> assembled_fl F E c K S arg l m ->
  nth_error l i = Some d -> nth_error l j = Some e -> i <> j ->
  exists i' j', get_index_in_basis c (rotate_determinant k c d) = Ok i' /\ get_index_in_basis c (rotate_determinant k c e) = Ok j' /\
    csr_at m i' j' = csr_at m (Z.of_nat i) (Z.of_nat j).
Proof.
  intros F E c K S arg l m k i j d e HO HE HZ Kk HF HA Hd He N0. pose proof (sized_n c HZ) as N. pose proof HZ as (H1 & H2 & H3 & _).
  set (w := nbh c * nblocs_side c) in *. set (h := nbv c * nblocs_side c) in *.
  assert (Hw : 0 < w) by (unfold w; nia). assert (Hh : 0 < h) by (unfold h; nia).
  apply (moved_fl F E c w K S arg l m (fun x => nsites c - 1 - x) (fun x => nsites c - 1 - x)
     (fun p => (w - 1 - fst p, h - 1 - snd p)) (rotate_determinant k c) HO HE HF HA).
  - intros x Hx. lia.
  - apply keeps_half.
  - intros x Hx. unfold point. cbn [fst snd]. rewrite N in *. clearbody w h. clear - Hx Hw Hh.
    assert (X : x = w * (x / w) + x mod w) by (apply Z.div_mod; lia). pose proof (Z.mod_pos_bound x w Hw).
    set (a := x mod w) in *. set (b := x / w) in *. f_equal.
    + symmetry. apply Z.mod_unique with (q := h - 1 - b); lia.
    + symmetry. apply Z.div_unique with (r := w - 1 - a); lia.
  - intros d0 s0 D0. exists (fun x => s0 (nsites c - 1 - x)).
    assert (Pn : 0 < nsites c) by (rewrite N; nia).
    assert (Nn : nsites c = nbh c * nbv c * nblocs_side c ^ 2) by (rewrite N, Z.pow_2_r; unfold w, h; ring).
    rewrite (half_describes k c d0 s0 Kk Pn Nn D0). split.
    + apply canon_describes. apply (bij_sector _ _ _ s0 (fun x => nsites c - 1 - x)); [|eapply describes_sector; exact D0]. intros x Hx. lia.
    + intros x Hx. f_equal. lia.
  - assumption.
  - assumption.
  - assumption.
Qed.
(** ** the diagonal *)
Lemma fl_diagonal : forall F E c w r K S arg l m i d, (forall q, Permutation q (add_order F q)) -> set_iter_ok E -> filled c w r -> assembled_fl F E c K S arg l m -> nth_error l i = Some d ->
  exists a b, (if s_bz S then exists x, compute_static_spin_interaction_fl F E c K d = Ok x /\ a = [x] else a = []) /\
    (if s_bV S then exists x, compute_hole_repulsion_fl F E c K d = Ok x /\ b = [x] else b = []) /\ csr_at m (Z.of_nat i) (Z.of_nat i) = add_all F (add_order F (a ++ b)).
Proof.
  intros F E c w r K S arg l m i d HO HE HC HA N. destruct (fl_entries _ _ _ _ _ _ _ _ _ _ HO HE HC HA) as (_ & _ & -> & _). destruct HA as [_ B].
  rewrite build_fl_split in B. destruct (entries_fl F E (mkBasis c (dl c)) K S) as [h|] eqn:Q; [|discriminate]. cbn [bind] in B. unfold coo_to_csr_fl in B. destruct (forallb _ h) in B; [|discriminate]. injection B as <-.
  rewrite rounded_with in Q. destruct (diagonal_places E c w r _ S h i d HE HC Q N) as (a & b & Ha & Hb & A). exists a, b. split; [exact Ha|]. split; [exact Hb|].
  assert (L : zlen (dl c) = compute_dimension (nsites c) (nalpha c) (nbeta c)) by (apply (dl_length c (point w)); [apply row_major_drawn, HC | apply HC ..]). rewrite <- L.
  assert (Li : (i < length (dl c))%nat) by (apply nth_error_Some; congruence).
  rewrite csr_at_coo. cbn [csr_entries]. rewrite (at_summed F _ h _ _ HO) by (unfold zlen; lia). now rewrite A.
Qed.
Lemma flip_holes : forall c s, in_sector (nsites c) (nholes c) (nbeta c) s -> py_slice (canon (nsites c) (flip_state s)) 0 (nholes c) = py_slice (canon (nsites c) s) 0 (nholes c).
Proof.
  intros c s [H _]. unfold canon. rewrite !sites_flip. cbn [flip_particle]. assert (0 <= zlen (sites_of (nsites c) s Hole)) by (unfold zlen; lia).
  rewrite !py_slice_prefix by (rewrite <- H, zlen_app; unfold zlen; lia). rewrite <- H. unfold zlen. rewrite Nat2Z.id. rewrite !firstn_app, !Nat.sub_diag, !firstn_all. reflexivity.
Qed.
Lemma flip_indexes : forall E c s, in_sector (nsites c) (nholes c) (nbeta c) s -> get_indexes_of E (flip_conf c) (canon (nsites c) (flip_state s)) 0 0 = get_indexes_of E c (canon (nsites c) s) 0 0.
Proof. intros E c s H. unfold get_indexes_of. cbn [Z.eqb flip_conf nholes sites_restriction]. now rewrite (flip_holes c s H). Qed.
Lemma flip_class_same : forall E c s x y, in_sector (nsites c) (nholes c) (nbeta c) s -> static_class E (flip_conf c) (canon (nsites c) (flip_state s)) x y = static_class E c (canon (nsites c) s) x y.
Proof. intros E c s x y H. unfold static_class. rewrite (flip_indexes E c s H). reflexivity. Qed.
Lemma flip_repulsion : forall F E c K s, in_sector (nsites c) (nholes c) (nbeta c) s -> compute_hole_repulsion_fl F E (flip_conf c) K (canon (nsites c) (flip_state s)) = compute_hole_repulsion_fl F E c K (canon (nsites c) s).
Proof. intros F E c K s H. unfold compute_hole_repulsion_fl. rewrite (flip_indexes E c s H). reflexivity. Qed.
Lemma flip_static : forall F E c w r K s, set_iter_ok E -> filled c w r -> conf_ok c -> in_sector (nsites c) (nholes c) (nbeta c) s ->
  compute_static_spin_interaction_fl F E (flip_conf c) K (canon (nsites c) (flip_state s)) = compute_static_spin_interaction_fl F E c K (canon (nsites c) s).
Proof.
  intros F E c w r K s HE HC HO H. unfold compute_static_spin_interaction_fl. cbn [flip_conf bond_matrix sites_restriction].
  destruct (bl_ok E c (point w) r r HE (row_major_drawn c w (proj1 HC)) (proj1 (proj2 HC))) as (B & _ & I). rewrite B. cbn [bind]. apply PVec.foldM_ext. intros z [x y] Ixy. apply I in Ixy. destruct Ixy as (H1 & H2 & _).
  pose proof (flip_sector c s HO H) as H'.
  rewrite (spin_site_ok c (canon (nsites c) s) s x (canon_describes _ _ _ _ H)), (spin_site_ok c (canon (nsites c) s) s y (canon_describes _ _ _ _ H)) by lia.
  rewrite (spin_site_ok (flip_conf c) (canon (nsites c) (flip_state s)) (flip_state s) x (canon_describes _ _ _ _ H')), (spin_site_ok (flip_conf c) (canon (nsites c) (flip_state s)) (flip_state s) y (canon_describes _ _ _ _ H')) by (cbn [flip_conf nsites]; lia).
  cbn [bind]. rewrite (flip_class_same E c s _ _ H). unfold flip_state. replace (spin_code (flip_particle (s x)) * spin_code (flip_particle (s y))) with (spin_code (s x) * spin_code (s y)) by (destruct (s x), (s y); reflexivity). reflexivity.
Qed.
Lemma C115_spin_reversal_pf : forall F E c c' w K S arg arg' l l' m m' rev i j d e, (forall q, Permutation q (add_order F q)) -> set_iter_ok E -> filled_whole c w -> 0 <= nalpha c ->
  assembled_fl F E c K S arg l m -> reverse_spins_basis E (mkBasis c l) = Ok (mkBasis c' rev) -> assembled_fl F E c' K S arg' l' m' ->
  nth_error rev i = Some d -> nth_error rev j = Some e ->
  exists i' j', get_index_in_basis c' d = Ok i' /\ get_index_in_basis c' e = Ok j' /\ csr_at m' i' j' = csr_at m (Z.of_nat i) (Z.of_nat j).
Proof.
  intros F E c c' w K S arg arg' l l' m m' rev i j d e HO HE HF Hal HA ER HA' Hd He. pose proof HF as (RM & HR & Hh & Hb & Ha). pose proof (row_major_drawn c w RM) as (P0 & P1 & _).
  destruct (exact_beside F E c w _ K S arg l m HE HF HA) as (m0 & HA0).
  destruct (core _ _ _ _ _ _ _ _ _ HE HF HA0) as (El & _). pose proof HA as [HB _].
  assert (Pn : 0 < nsites c).
  { destruct RM as (h & v & ss & A1 & A2 & A3 & _ & HC & HN & _). rewrite (rect_n c h v ss A1 A2 A3 HC HN). nia. }
  assert (Hc : conf_ok c) by (constructor; assumption).
  destruct (C09_reverse_spins_basis_pf E c l HE P1 Pn Ha Hh Hb Hal HR HB) as (c1 & rev1 & E1 & N1 & N2 & N3 & N4 & ND & LL & I1 & I2).
  rewrite ER in E1. injection E1 as <- <-.
  assert (Ec : c' = flip_conf c).
  { unfold reverse_spins_basis in ER. cbn [determinants b_conf] in ER. destruct (py_get l 0) as [d0|] eqn:Q; [|discriminate]. cbn [bind] in ER.
    unfold reverse_spins in ER at 1. rewrite (make_flip c _ _ Hc HR) in ER. cbn [bind] in ER.
    destruct (get_indexes_of E c d0 0 0); [|discriminate]. cbn [bind] in ER. destruct (get_indexes_of E c d0 1 0); [|discriminate]. cbn [bind] in ER.
    destruct (get_indexes_of E c d0 (-1) 0); [|discriminate]. cbn [bind] in ER.
    match type of ER with bind ?x _ = _ => destruct x end; [|discriminate]. cbn [bind] in ER. congruence. }
  assert (HF' : filled c' w (zrange 0 (nsites c))).
  { subst c'. split; [|split; [assumption|]]; [exact RM|]. cbn [flip_conf nholes nbeta nalpha nsites]. lia. }
  destruct (exact_beside F E c' w _ K S arg' l' m' HE HF' HA') as (m0' & HA0').
  assert (DR : forall i d, nth_error rev i = Some d -> exists d0, nth_error l i = Some d0 /\
     describes (nsites c) (nholes c) (nbeta c) d0 (state_of c d0) /\ describes (nsites c') (nholes c') (nbeta c') d (flip_state (state_of c d0))).
  { intros k d1 Hd1. assert (Hi : (k < length l)%nat) by (rewrite <- LL; apply nth_error_Some; congruence).
    destruct (nth_error l k) as [d0|] eqn:Q; [|apply nth_error_None in Q; lia]. exists d0. split; [reflexivity|].
    assert (Dd : describes (nsites c) (nholes c) (nbeta c) d0 (state_of c d0)) by (eapply dl_describes; [exact HF|rewrite <- El; exact Q]).
    split; [exact Dd|]. destruct (I1 k d0 _ Q Dd) as (d2 & Q1 & Q2). rewrite Hd1 in Q1. injection Q1 as <-. rewrite N1, N2, N3. exact Q2. }
  destruct (DR i d Hd) as (d0 & Q1 & Q2 & Q3). destruct (DR j e He) as (e0 & Q4 & Q5 & Q6).
  destruct (index_of_state _ _ _ _ _ _ _ _ _ _ _ HE HF' HA0' Q3) as (i' & d' & X1 & X2 & X3).
  destruct (index_of_state _ _ _ _ _ _ _ _ _ _ _ HE HF' HA0' Q6) as (j' & e' & Y1 & Y2 & Y3).
  exists (Z.of_nat i'), (Z.of_nat j'). split; [assumption|]. split; [assumption|].
  destruct (Nat.eq_dec i j) as [<-|N].
  { rewrite Hd in He. injection He as <-. rewrite Q1 in Q4. injection Q4 as <-. rewrite X1 in Y1. injection Y1 as Y1. apply Nat2Z.inj in Y1. subst j'.
    destruct (fl_diagonal F E c w _ K S arg l m i d0 HO HE HF HA Q1) as (a & b & Aa & Ab & ->). destruct (fl_diagonal F E c' w _ K S arg' l' m' i' d' HO HE HF' HA' X2) as (a' & b' & Aa' & Ab' & ->).
    pose proof (describes_sector _ _ _ _ _ Q2) as SQ. destruct (core _ _ _ _ _ _ _ _ _ HE HF' HA0') as (El' & _). subst l l'.
    rewrite (gdl_canon c i d0 (state_of c d0) ltac:(lia) Hh Hb Q1 Q2) in Aa, Ab. rewrite (gdl_canon c' i' d' _ ltac:(lia) ltac:(lia) ltac:(lia) X2 X3) in Aa', Ab'. rewrite N1 in Aa', Ab'. rewrite Ec in Aa', Ab'.
    rewrite (flip_static F E c w _ K (state_of c d0) HE HF Hc SQ) in Aa'. rewrite (flip_repulsion F E c K (state_of c d0) SQ) in Ab'.
    assert (a' = a) as ->. { destruct (s_bz S); [|congruence]. destruct Aa as (x & Fx & ->). destruct Aa' as (y & Fy & ->). congruence. }
    assert (b' = b) as ->. { destruct (s_bV S); [|congruence]. destruct Ab as (x & Fx & ->). destruct Ab' as (y & Fy & ->). congruence. }
    reflexivity. }
  apply (rel_fl (nsites c) w (zrange 0 (nsites c)) (fun x => x) (fun x => x) flip_particle) with (F := F) (E := E) (E' := E) (c := c) (c' := c') (K := K) (S := S) (arg := arg) (arg' := arg') (l := l) (l' := l')
    (d := d0) (e := e0) (d' := d') (e' := e') (s := state_of c d0) (t := state_of c e0) (s' := flip_state (state_of c d0)) (t' := flip_state (state_of c e0));
    try assumption; try reflexivity; try (rewrite <- N1; assumption).
  - apply id_bij.
  - apply flip_hole.
  - apply flip_opp.
  - apply flip_same.
  - intros x _. reflexivity.
  - intros x _. reflexivity.
Qed.
(** the diagonal is the energy of the determinant *)
Lemma C115_energy_pf : forall F E c w r K S arg l m i d, (forall q, Permutation q (add_order F q)) -> set_iter_ok E -> filled c w r -> assembled_fl F E c K S arg l m ->
  nth_error l i = Some d -> s_bz S = true -> s_bV S = true -> compute_energy_fl F E c K d = Ok (csr_at m (Z.of_nat i) (Z.of_nat i)).
Proof.
  intros F E c w r K S arg l m i d HO HE HC HA N Sz Sv. destruct (fl_diagonal F E c w r K S arg l m i d HO HE HC HA N) as (a & b & Ha & Hb & ->). rewrite Sz in Ha. rewrite Sv in Hb.
  destruct Ha as (x & Fx & ->). destruct Hb as (y & Fy & ->). unfold compute_energy_fl. rewrite Fx, Fy. cbn [bind app]. f_equal.
  destruct (Permutation_length_2_inv (HO [x; y])) as [-> | ->]; cbn [add_all fold_left]; [reflexivity|]. f_equal. apply Qcplus_comm.
Qed.
