(** Final lemmas for C08-C12. *)
From Coq Require Import ZArith List Bool Lia Permutation Sorted QArith Qcanon.
From Verif Require Import PyBase PyFacts Lattice Base Spec SpecQ PHash PBasis PSites PRot FBasis Examples.
Import ListNotations.
Open Scope Z_scope.

(** ** C08 *)

Lemma C08_lookup_pf : forall E c d s p x t r0 r1,
  set_iter_ok E -> describes (nsites c) (nholes c) (nbeta c) d s -> sites_restriction c = RTuple r0 r1 ->
  exists l, get_indexes_of E c d (spin_code p) t = Ok l /\ NoDup l /\
    (In x l <-> get_spin_site c d x = Ok (spin_code p) /\ In x (if t =? 0 then r0 else r1)) /\
    (0 <= x < nsites c -> get_spin_site c d x = Ok (spin_code (s x))) /\
    (~ 0 <= x < nsites c -> get_spin_site c d x = Err ValueError).
Proof.
  intros E c d s p x t r0 r1 HE H Hr.
  destruct (indexes_of_ok E c d s p t r0 r1 HE H Hr) as (l & El & ND & I).
  exists l. split; [assumption|]. split; [assumption|]. split; [|split].
  - rewrite I. unfold target_list. split; intros [A B]; (split; [|assumption]).
    + destruct A as [A1 A2]. rewrite (spin_site_ok c d s x H A1). now rewrite A2.
    + destruct (Z_le_dec 0 x), (Z_lt_dec x (nsites c));
        try (rewrite (spin_site_err c d s x H) in A by lia; discriminate).
      rewrite (spin_site_ok c d s x H ltac:(lia)) in A. split; [lia|].
      inversion A as [A']. destruct (s x), p; simpl in A'; congruence.
  - now apply spin_site_ok.
  - now apply (spin_site_err c d s).
Qed.

Lemma C08_groups_partition_pf : forall E c d s t,
  set_iter_ok E -> describes (nsites c) (nholes c) (nbeta c) d s ->
  sites_restriction c = RTuple (zrange 0 (nsites c)) (zrange 0 (nsites c)) ->
  exists lh lb lu, get_indexes_of E c d 0 t = Ok lh /\ get_indexes_of E c d (-1) t = Ok lb /\
    get_indexes_of E c d 1 t = Ok lu /\ NoDup (lh ++ lb ++ lu) /\
    (forall x, In x (lh ++ lb ++ lu) <-> 0 <= x < nsites c) /\
    Z.of_nat (length lh) = nholes c /\ Z.of_nat (length lb) = nbeta c.
Proof.
  intros E c d s t HE H Hu.
  destruct (indexes_unrestricted E c d s Hole t HE Hu H) as (lh & Eh & Nh & Ih & Lh).
  destruct (indexes_unrestricted E c d s Down t HE Hu H) as (lb & Eb & Nb & Ib & Lb).
  destruct (indexes_unrestricted E c d s Up t HE Hu H) as (lu & Eu & Nu & Iu & Lu).
  exists lh, lb, lu. repeat (split; [assumption|]).
  pose proof (describes_sector _ _ _ _ _ H) as [S1 S2]. unfold zlen in *.
  assert (D : describes (nsites c) (nholes c) (nbeta c) (lh ++ lb ++ lu) s).
  { exists lh, lb, lu. split; [reflexivity|]. split; [lia|]. split; [lia|]. auto 10. }
  split; [eapply describes_NoDup; eauto|].
  split; [intros x; eapply describes_In; eauto | lia].
Qed.

Lemma C08_bad_spin_pf : forall E c d k t, k <> 0 -> k <> 1 -> k <> -1 ->
  get_indexes_of E c d k t = Err ValueError.
Proof. exact indexes_of_bad. Qed.

(** ** C09 *)

Lemma C09_reverse_spins_pf : forall E c d s,
  set_iter_ok E -> mrows (bond_matrix c) = nsites c -> 0 < nsites c ->
  nalpha c = nsites c - nholes c - nbeta c ->
  sites_restriction c = RTuple (zrange 0 (nsites c)) (zrange 0 (nsites c)) ->
  describes (nsites c) (nholes c) (nbeta c) d s ->
  exists c' d', reverse_spins E c d = Ok (c', d') /\
    nsites c' = nsites c /\ nholes c' = nholes c /\ nbeta c' = nalpha c /\ nalpha c' = nbeta c /\
    describes (nsites c') (nholes c') (nbeta c') d' (flip_state s) /\
    increasing_groups (nholes c') (nbeta c') d' /\
    exists c'' d'', reverse_spins E c' d' = Ok (c'', d'') /\
      nholes c'' = nholes c /\ nbeta c'' = nbeta c /\
      describes (nsites c) (nholes c) (nbeta c) d'' s /\
      (increasing_groups (nholes c) (nbeta c) d -> d'' = d).
Proof.
  intros E c d s HE R P A Hu H. assert (Hc : conf_ok c) by (constructor; assumption).
  exists (flip_conf c), (canon (nsites c) (flip_state s)).
  pose proof (describes_sector _ _ _ _ _ H) as Sec.
  pose proof (flip_sector c s Hc Sec) as Sec'.
  pose proof (canon_describes _ _ _ _ Sec') as D'.
  split; [now apply reverse_spins_ok|]. do 4 (split; [reflexivity|]).
  split; [exact D'|]. split; [exact (canon_increasing _ _ _ _ Sec')|].
  exists (flip_conf (flip_conf c)), (canon (nsites c) (flip_state (flip_state s))).
  pose proof (reverse_spins_ok E (flip_conf c) _ _ HE (flip_conf_ok _ Hc) (flip_conf_unrestricted _ Hu) D') as RR.
  split; [exact RR|]. do 2 (split; [reflexivity|]).
  rewrite (canon_same _ _ _ (flip_state_flip (nsites c) s)).
  split; [now apply canon_describes|].
  intros I. symmetry. eapply increasing_canon; eauto.
Qed.

Lemma C09_reverse_spins_basis_pf : forall E c l,
  set_iter_ok E -> mrows (bond_matrix c) = nsites c -> 0 < nsites c ->
  nalpha c = nsites c - nholes c - nbeta c -> 0 <= nholes c -> 0 <= nbeta c -> 0 <= nalpha c ->
  sites_restriction c = RTuple (zrange 0 (nsites c)) (zrange 0 (nsites c)) ->
  construct_basis c = Ok (mkBasis c l) ->
  exists c' l', reverse_spins_basis E (mkBasis c l) = Ok (mkBasis c' l') /\
    nsites c' = nsites c /\ nholes c' = nholes c /\ nbeta c' = nalpha c /\ nalpha c' = nbeta c /\
    NoDup l' /\ length l' = length l /\
    (forall i d s, nth_error l i = Some d -> describes (nsites c) (nholes c) (nbeta c) d s ->
       exists d', nth_error l' i = Some d' /\ describes (nsites c) (nholes c) (nalpha c) d' (flip_state s)) /\
    (forall s, sector (nsites c) (nholes c) (nalpha c) s ->
       exists d', In d' l' /\ describes (nsites c) (nholes c) (nalpha c) d' s).
Proof.
  intros E c l HE R P A Hh Hb Ha Hu HB. assert (Hc : conf_ok c) by (constructor; assumption).
  rewrite construct_basis_ok in HB by assumption. inversion HB; subst l; clear HB.
  set (l := dets (nsites c) (Z.to_nat (nholes c)) (Z.to_nat (nbeta c))).
  assert (Hl : forall d, In d l -> exists s, in_sector (nsites c) (nholes c) (nbeta c) s /\ d = canon (nsites c) s).
  { intros d Hd. apply in_dets in Hd; [|lia]. now rewrite !Z2Nat.id in Hd by assumption. }
  set (f := fun d => reorder_basis_element (flip_conf c)
      (py_slice d 0 (nholes c) ++ py_slice_from d (nholes c + nbeta c) ++ py_slice d (nholes c) (nholes c + nbeta c))).
  assert (Hf : forall s, in_sector (nsites c) (nholes c) (nbeta c) s -> f (canon (nsites c) s) = canon (nsites c) (flip_state s)).
  { intros s Hs. unfold f. apply (reorder_describes (flip_conf c)). cbn [flip_conf nsites nholes nbeta].
    destruct (describes_slices _ _ _ _ _ (canon_describes _ _ _ _ Hs))
      as (hs & bs & us & Ed & X & Y & Z & Lh & Lb & Nh & Nb & Nu & Ih & Ib & Iu).
    rewrite X, Y, Z.
    assert (F : forall x p, 0 <= x < nsites c /\ flip_state s x = p <-> 0 <= x < nsites c /\ s x = flip_particle p).
    { intros x p. unfold flip_state. split; intros [B Q]; (split; [assumption|]).
      - rewrite <- Q. symmetry. apply flip_flip.
      - rewrite Q. apply flip_flip. }
    exists hs, us, bs. split; [reflexivity|]. split; [assumption|].
    split.
    { pose proof (sites_partition (nsites c) s ltac:(lia)) as SP. destruct Hs as [S1 S2].
      fold (zlen us). unfold zlen at 3 in SP.
      rewrite <- (Permutation_length (group_perm _ _ Up us Nu Iu)) in SP. fold (zlen us) in SP. lia. }
    repeat (split; [assumption|]).
    split; [intros x; rewrite F; apply Ih|]. split; [intros x; rewrite F; apply Iu | intros x; rewrite F; apply Ib]. }
  assert (Hrev : forall d, In d l -> reverse_spins E c d = Ok (flip_conf c, f d)).
  { intros d Hd. destruct (Hl d Hd) as (s & Hs & ->). rewrite Hf by assumption.
    apply reverse_spins_ok; auto. now apply canon_describes. }
  assert (Hne : exists d0 l0, l = d0 :: l0).
  { pose proof (dets_length (nsites c) (Z.to_nat (nholes c)) (Z.to_nat (nbeta c)) ltac:(lia)) as L.
    rewrite !Z2Nat.id in L by assumption. fold l in L.
    pose proof (comb_pos (nsites c) (nholes c) ltac:(lia)).
    pose proof (comb_pos (nsites c - nholes c) (nbeta c) ltac:(lia)).
    destruct l; [simpl in L; nia | eauto]. }
  exists (flip_conf c), (map f l). split; [|split; [reflexivity|split; [reflexivity|split; [reflexivity|split; [reflexivity|]]]]].
  - destruct Hne as (d0 & l0 & E0). unfold reverse_spins_basis. cbn [determinants b_conf].
    rewrite (py_get_nth _ _ 0 d0) by (try lia; rewrite E0; reflexivity). cbn [bind].
    rewrite Hrev by (rewrite E0; now left). cbn [bind].
    rewrite (mapM_ok _ _ _ f).
    + reflexivity.
    + intros d Hd. rewrite Hrev by assumption. reflexivity.
  - split; [|split; [apply map_length|split]].
    + apply NoDup_map_on; [|apply dets_NoDup].
      intros x y Hx Hy Exy. destruct (Hl x Hx) as (s & Hs & ->). destruct (Hl y Hy) as (t & Ht & ->).
      rewrite !Hf in Exy by assumption. apply canon_same. intros z Hz.
      pose proof (canon_inj _ _ _ _ _ (flip_sector c s Hc Hs) (flip_sector c t Hc Ht) Exy z Hz) as Q.
      unfold flip_state in Q. rewrite <- (flip_flip (s z)), Q. apply flip_flip.
    + intros i d s Hi Hd. exists (f d). split; [now rewrite nth_error_map, Hi|].
      pose proof (describes_sector _ _ _ _ _ Hd) as Sec.
      assert (d = canon (nsites c) s).
      { apply nth_error_In in Hi. destruct (Hl d Hi) as (t & Ht & ->).
        apply canon_same. eapply describes_unique; [apply canon_describes; exact Ht | exact Hd]. }
      subst d. rewrite Hf by assumption. apply canon_describes. now apply flip_sector.
    + intros s Hs. apply sector_iff in Hs.
      assert (Hs' : in_sector (nsites c) (nholes c) (nbeta c) (flip_state s)).
      { pose proof (flip_sector (flip_conf c) s (flip_conf_ok _ Hc)) as F. exact (F Hs). }
      exists (f (canon (nsites c) (flip_state s))). split.
      * apply in_map. unfold l. apply in_dets; [lia|]. rewrite !Z2Nat.id by assumption. eauto.
      * rewrite Hf by assumption. rewrite (canon_same _ _ _ (flip_state_flip (nsites c) s)).
        now apply canon_describes.
Qed.

(** a 2x2 lattice restricted to its first site *)
Definition ex22_restricted : configuration :=
  mkConf (bond_matrix ex22) 4 1 1 2 12 (RTuple [0] [0]) Periodic 1 1 2.

Lemma C09_restricted_refuted_pf : exists c d s,
  make_configuration (bond_matrix ex22) 1 1 (RList [0]) Periodic 1 1 2 = Ok c /\
  describes (nsites c) (nholes c) (nbeta c) d s /\
  forall E, set_iter_ok E -> exists c' d', reverse_spins E c d = Ok (c', d') /\
    forall t, ~ describes (nsites c') (nholes c') (nbeta c') d' t.
Proof.
  exists ex22_restricted, [1; 2; 0; 3], ex22_state. split; [vm_compute; reflexivity|].
  assert (D : conf_describes ex22_restricted [1; 2; 0; 3] ex22_state)
    by (apply describesb_ok; vm_compute; reflexivity).
  split; [exact D|]. intros E HE.
  unfold reverse_spins.
  destruct (indexes_of_ok E ex22_restricted _ _ Hole 0 _ _ HE D eq_refl) as (lh & Eh & Nh & Ih).
  destruct (indexes_of_ok E ex22_restricted _ _ Up 0 _ _ HE D eq_refl) as (lu & Eu & Nu & Iu).
  destruct (indexes_of_ok E ex22_restricted _ _ Down 0 _ _ HE D eq_refl) as (lb & Eb & Nb & Ib).
  simpl spin_code in *. rewrite Eh, Eu, Eb. cbn [bind].
  assert (M : make_configuration (bond_matrix ex22_restricted) (nholes ex22_restricted) (nalpha ex22_restricted)
    (sites_restriction ex22_restricted) (lattice_type ex22_restricted) (nbh ex22_restricted) (nbv ex22_restricted)
    (nblocs_side ex22_restricted) = Ok (flip_conf ex22_restricted)) by (vm_compute; reflexivity).
  rewrite M. cbn [bind]. do 2 eexists. split; [reflexivity|]. intros t Ht.
  assert (Hin : In 3 (reorder_basis_element (flip_conf ex22_restricted) (lh ++ lu ++ lb))).
  { apply (describes_In _ _ _ _ _ 3 Ht). vm_compute. split; congruence. }
  unfold reorder_basis_element in Hin. rewrite !in_app_iff, !in_zsort in Hin.
  assert (G : In 3 (lh ++ lu ++ lb)).
  { assert (S : forall (l : list Z) a b x, In x (py_slice l a b) -> In x l).
    { intros l a b x Hx. unfold py_slice in Hx. 
      rewrite <- (firstn_skipn (Z.to_nat (py_clamp (zlen l) a)) l). apply in_app_iff. right.
      rewrite <- (firstn_skipn (Z.to_nat (py_clamp (zlen l) b - py_clamp (zlen l) a)) (skipn _ l)).
      apply in_app_iff. now left. }
    destruct Hin as [Hin|[Hin|Hin]]; eapply S; exact Hin. }
  rewrite !in_app_iff, Ih, Iu, Ib in G. simpl in G. intuition congruence.
Qed.

(** ** C10 *)

Lemma flip_step : forall E c d s, set_iter_ok E -> conf_ok c -> unrestricted c -> conf_describes c d s ->
  ('(c', d') <- reverse_spins E c d ;; get_index_in_basis c' d')
  = Ok (state_index (nsites c) (nholes c) (nalpha c) (flip_state s)).
Proof.
  intros E c d s HE Hc Hu D. rewrite (reverse_spins_ok E c d s HE Hc Hu D). cbn [bind].
  rewrite (index_describes (flip_conf c) _ (flip_state s)); [reflexivity|].
  apply canon_describes. exact (flip_sector c s Hc (describes_sector _ _ _ _ _ D)).
Qed.

(** the state of a canonical determinant, as a function *)
Definition state_of (c : configuration) (d : list Z) : occupation :=
  fun x => if mem x (firstn (Z.to_nat (nholes c)) d) then Hole
           else if mem x (firstn (Z.to_nat (nbeta c)) (skipn (Z.to_nat (nholes c)) d)) then Down else Up.

Lemma state_of_describes : forall c d s, conf_describes c d s -> same_state (nsites c) (state_of c d) s.
Proof.
  intros c d s D x Hx. destruct D as (hs & bs & us & -> & Lh & Lb & Nh & Nb & Nu & Ih & Ib & Iu).
  unfold state_of. rewrite <- Lh, <- Lb, !Nat2Z.id.
  rewrite firstn_app, Nat.sub_diag, firstn_all, firstn_O, app_nil_r.
  rewrite skipn_app, Nat.sub_diag, skipn_all, skipn_O. cbn [app].
  rewrite firstn_app, Nat.sub_diag, firstn_all, firstn_O, app_nil_r.
  destruct (mem x hs) eqn:M1; [apply mem_In, Ih in M1; symmetry; apply M1|].
  destruct (mem x bs) eqn:M2; [apply mem_In, Ib in M2; symmetry; apply M2|].
  apply mem_false in M1, M2. destruct (s x) eqn:Q; [| |reflexivity]; exfalso.
  - apply M1, Ih. auto.
  - apply M2, Ib. auto.
Qed.

Lemma conf_comb : forall n h b a, a = n - h - b -> 0 <= h -> 0 <= b -> 0 <= a ->
  comb n h * comb (n - h) b = comb n h * comb (n - h) a.
Proof. intros. f_equal. replace a with (n - h - b) by lia. rewrite comb_sym by lia. reflexivity. Qed.

Lemma reverse_vect_ok : forall A (zero : A) E c v,
  set_iter_ok E -> conf_ok c -> unrestricted c -> 0 <= nholes c -> 0 <= nbeta c -> 0 <= nalpha c ->
  zlen v = comb (nsites c) (nholes c) * comb (nsites c - nholes c) (nbeta c) ->
  exists w, reverse_spins_vect zero E
      (mkBasis c (dets (nsites c) (Z.to_nat (nholes c)) (Z.to_nat (nbeta c)))) v = Ok w /\
    length w = length v /\ Permutation w v /\
    forall s, in_sector (nsites c) (nholes c) (nbeta c) s ->
      nth_error w (Z.to_nat (state_index (nsites c) (nholes c) (nalpha c) (flip_state s)))
      = nth_error v (Z.to_nat (state_index (nsites c) (nholes c) (nbeta c) s)).
Proof.
  intros A zero E c v HE Hc Hu Hh Hb Ha Lv.
  set (n := nsites c) in *. set (l := dets n (Z.to_nat (nholes c)) (Z.to_nat (nbeta c))).
  assert (Pn : 0 <= n) by (subst n; destruct Hc; lia).
  assert (Hl : forall d, In d l -> exists s, in_sector n (nholes c) (nbeta c) s /\ d = canon n s).
  { intros d Hd. apply in_dets in Hd; [|lia]. now rewrite !Z2Nat.id in Hd by assumption. }
  set (f := fun d => state_index n (nholes c) (nalpha c) (flip_state (state_of c d))).
  assert (Hf : forall s, in_sector n (nholes c) (nbeta c) s -> f (canon n s) = state_index n (nholes c) (nalpha c) (flip_state s)).
  { intros s Hs. unfold f. apply state_index_same. intros x Hx. unfold flip_state. f_equal.
    apply (state_of_describes c (canon n s) s); [now apply canon_describes | exact Hx]. }
  assert (Ll : zlen l = zlen v).
  { unfold zlen at 1, l. rewrite dets_length by lia. now rewrite !Z2Nat.id by assumption. }
  assert (Hs : forall s, in_sector n (nholes c) (nbeta c) s -> in_sector n (nholes c) (nalpha c) (flip_state s))
    by (intros s; now apply flip_sector).
  unfold reverse_spins_vect. cbn [b_conf determinants].
  destruct (scatter_ok A (list Z) v f (zlen v)
    (fun vect_flip p => let '(ind, d) := p in
           '(c', d') <- reverse_spins E c d ;;
           ind' <- get_index_in_basis c' d' ;;
           x <- py_get v ind ;;
           py_set vect_flip ind' x) eq_refl l (map (fun _ => zero) v)) as (w & Ew & Lw & Pw & Qw).
  - intros acc i d Hd. destruct (Hl d Hd) as (s & S & ->). rewrite Hf by assumption.
    pose proof (flip_step E c (canon n s) s HE Hc Hu (canon_describes _ _ _ _ S)) as FS.
    rewrite (reverse_spins_ok E c _ s HE Hc Hu (canon_describes _ _ _ _ S)) in *. cbn [bind] in *.
    rewrite FS. reflexivity.
  - assumption.
  - apply zlen_map.
  - apply NoDup_map_on; [|apply dets_NoDup].
    intros x y Hx Hy Exy. destruct (Hl x Hx) as (s & S & ->), (Hl y Hy) as (t & T & ->).
    rewrite !Hf in Exy by assumption. apply canon_same. intros z Hz.
    pose proof (state_index_inj _ _ _ _ _ Pn (Hs _ S) (Hs _ T) Exy z Hz) as Q.
    unfold flip_state in Q. rewrite <- (flip_flip (s z)), Q. apply flip_flip.
  - intros d Hd. destruct (Hl d Hd) as (s & S & ->). rewrite Hf by assumption.
    split; [apply state_index_nonneg|]. rewrite Lv.
    rewrite (conf_comb n (nholes c) (nbeta c) (nalpha c)) by (try assumption; subst n; destruct Hc; assumption).
    apply state_index_bound; auto.
  - exists w. split; [exact Ew|]. split; [unfold zlen in Lw; lia|]. split; [assumption|].
    intros s S. rewrite <- (Hf s S). apply Qw. unfold l.
    pose proof (nth_dets n (Z.to_nat (nholes c)) (Z.to_nat (nbeta c)) s Pn) as ND.
    rewrite !Z2Nat.id in ND by assumption. auto.
Qed.

Lemma C10_reverse_vect_pf : forall (A : Type) (zero : A) E c l v,
  set_iter_ok E -> mrows (bond_matrix c) = nsites c -> 0 < nsites c ->
  nalpha c = nsites c - nholes c - nbeta c -> 0 <= nholes c -> 0 <= nbeta c -> 0 <= nalpha c ->
  sites_restriction c = RTuple (zrange 0 (nsites c)) (zrange 0 (nsites c)) ->
  construct_basis c = Ok (mkBasis c l) -> length v = length l ->
  exists w c' l',
    reverse_spins_vect zero E (mkBasis c l) v = Ok w /\ length w = length v /\ Permutation w v /\
    (forall d, In d l -> exists d', reverse_spins E c d = Ok (c', d')) /\
    construct_basis c' = Ok (mkBasis c' l') /\
    (forall i d s, nth_error l i = Some d -> describes (nsites c) (nholes c) (nbeta c) d s ->
       exists j d', nth_error l' j = Some d' /\
         describes (nsites c) (nholes c) (nalpha c) d' (flip_state s) /\ nth_error w j = nth_error v i) /\
    reverse_spins_vect zero E (mkBasis c' l') w = Ok v.
Proof.
  intros A zero E c l v HE R P Al Hh Hb Ha Hu HB Lv. assert (Hc : conf_ok c) by (constructor; assumption).
  rewrite construct_basis_ok in HB by assumption. inversion HB; subst l; clear HB.
  set (l := dets (nsites c) (Z.to_nat (nholes c)) (Z.to_nat (nbeta c))) in *.
  assert (Hl : forall d, In d l -> exists s, in_sector (nsites c) (nholes c) (nbeta c) s /\ d = canon (nsites c) s).
  { intros d Hd. apply in_dets in Hd; [|lia]. now rewrite !Z2Nat.id in Hd by assumption. }
  assert (ZL : zlen v = comb (nsites c) (nholes c) * comb (nsites c - nholes c) (nbeta c)).
  { unfold zlen. rewrite Lv. unfold l. rewrite dets_length by lia. now rewrite !Z2Nat.id by assumption. }
  destruct (reverse_vect_ok A zero E c v HE Hc Hu Hh Hb Ha ZL) as (w & Ew & Lw & Pw & Qw).
  assert (ZW : zlen w = comb (nsites c) (nholes c) * comb (nsites c - nholes c) (nalpha c)).
  { rewrite <- (conf_comb _ _ (nbeta c)) by assumption. unfold zlen in *. now rewrite Lw. }
  destruct (reverse_vect_ok A zero E (flip_conf c) w HE (flip_conf_ok _ Hc) (flip_conf_unrestricted _ Hu) Hh Ha Hb ZW)
    as (v' & Ev & Lv' & _ & Qv).
  set (l' := dets (nsites c) (Z.to_nat (nholes c)) (Z.to_nat (nalpha c))).
  cbn [flip_conf nsites nholes nbeta nalpha] in Ev, Qv.
  exists w, (flip_conf c), l'. split; [exact Ew|]. split; [assumption|]. split; [assumption|].
  split; [|split; [apply (construct_basis_ok (flip_conf c)); assumption|split]].
  - intros d Hd. destruct (Hl d Hd) as (s & S & ->). eexists.
    apply reverse_spins_ok; auto. now apply canon_describes.
  - intros i d s Hi D. pose proof (describes_sector _ _ _ _ _ D) as S.
    exists (Z.to_nat (state_index (nsites c) (nholes c) (nalpha c) (flip_state s))), (canon (nsites c) (flip_state s)).
    pose proof (flip_sector c s Hc S) as S'.
    split; [|split; [now apply canon_describes|]].
    + pose proof (nth_dets (nsites c) (Z.to_nat (nholes c)) (Z.to_nat (nalpha c)) (flip_state s) ltac:(lia)) as ND.
      rewrite !Z2Nat.id in ND by assumption. auto.
    + rewrite (Qw s S).
      pose proof (nth_dets (nsites c) (Z.to_nat (nholes c)) (Z.to_nat (nbeta c)) s ltac:(lia)) as ND.
      rewrite !Z2Nat.id in ND by assumption. specialize (ND S). fold l in ND.
      assert (d = canon (nsites c) s).
      { pose proof (nth_error_In _ _ Hi) as Hd. destruct (Hl d Hd) as (t & Ht & ->).
        apply canon_same. eapply describes_unique; [apply canon_describes; exact Ht | exact D]. }
      subst d. f_equal. pose proof (dets_NoDup (nsites c) (Z.to_nat (nholes c)) (Z.to_nat (nbeta c))) as NDl. fold l in NDl.
      rewrite NoDup_nth_error in NDl. apply NDl.
      * apply nth_error_Some. congruence.
      * congruence.
  - fold l' in Ev. replace v with v'; [exact Ev|].
    apply nth_error_ext. intros i. destruct (nth_error l i) as [d|] eqn:Hi.
    + pose proof (nth_error_In _ _ Hi) as Hd. destruct (Hl d Hd) as (s & S & ->).
      pose proof (flip_sector c s Hc S) as S'.
      assert (Ei : i = Z.to_nat (state_index (nsites c) (nholes c) (nbeta c) s)).
      { pose proof (nth_dets (nsites c) (Z.to_nat (nholes c)) (Z.to_nat (nbeta c)) s ltac:(lia)) as ND.
        rewrite !Z2Nat.id in ND by assumption. specialize (ND S). fold l in ND.
        pose proof (dets_NoDup (nsites c) (Z.to_nat (nholes c)) (Z.to_nat (nbeta c))) as NDl. fold l in NDl.
        rewrite NoDup_nth_error in NDl. apply NDl.
        * apply nth_error_Some. congruence.
        * congruence. }
      rewrite Ei. rewrite <- (Qw s S), <- (Qv _ S').
      f_equal. f_equal. apply state_index_same. intros x Hx. symmetry. now apply (flip_state_flip (nsites c)).
    + apply nth_error_None in Hi.
      assert (nth_error v i = None) as -> by (apply nth_error_None; lia).
      apply nth_error_None. lia.
Qed.


Lemma C10_norm_pf : forall E c l (v : list Qc),
  set_iter_ok E -> mrows (bond_matrix c) = nsites c -> 0 < nsites c ->
  nalpha c = nsites c - nholes c - nbeta c -> 0 <= nholes c -> 0 <= nbeta c -> 0 <= nalpha c ->
  sites_restriction c = RTuple (zrange 0 (nsites c)) (zrange 0 (nsites c)) ->
  construct_basis c = Ok (mkBasis c l) -> length v = length l ->
  exists w, reverse_spins_vect 0%Qc E (mkBasis c l) v = Ok w /\ sum_squares w = sum_squares v.
Proof.
  intros E c l v H1 H2 H3 H4 H5 H6 H7 H8 H9 H10.
  destruct (C10_reverse_vect_pf Qc 0%Qc E c l v H1 H2 H3 H4 H5 H6 H7 H8 H9 H10) as (w & _ & _ & Ew & _ & P & _).
  exists w. split; [assumption|]. clear -P. unfold sum_squares. induction P; simpl; try congruence. ring.
Qed.

(** ** C11 *)

Lemma C11_extend_pf : forall E c1 c2 d1 d2 s1 s2,
  set_iter_ok E -> 0 <= nsites c1 -> 0 <= nsites c2 ->
  sites_restriction c1 = RTuple (zrange 0 (nsites c1)) (zrange 0 (nsites c1)) ->
  sites_restriction c2 = RTuple (zrange 0 (nsites c2)) (zrange 0 (nsites c2)) ->
  describes (nsites c1) (nholes c1) (nbeta c1) d1 s1 -> describes (nsites c2) (nholes c2) (nbeta c2) d2 s2 ->
  exists d, extend_determinant E c1 c2 d1 d2 = Ok d /\
    describes (nsites c1 + nsites c2) (nholes c1 + nholes c2) (nbeta c1 + nbeta c2) d (join_states (nsites c1) s1 s2) /\
    describes (nsites c1) (nholes c1) (nbeta c1) (filter (fun x => x <? nsites c1) d) s1 /\
    describes (nsites c2) (nholes c2) (nbeta c2)
      (map (fun x => x - nsites c1) (filter (fun x => nsites c1 <=? x) d)) s2.
Proof.
  intros E c1 c2 d1 d2 s1 s2 HE P1 P2 U1 U2 D1 D2.
  destruct (extend_ok E c1 c2 d1 d2 s1 s2 HE U1 U2 P1 P2 D1 D2) as (d & Ed & D).
  exists d. split; [assumption|]. split; [assumption|].
  destruct (describes_sector _ _ _ _ _ D1) as [A1 B1], (describes_sector _ _ _ _ _ D2) as [A2 B2].
  destruct D as (hs & bs & us & -> & Lh & Lb & Nh & Nb & Nu & Ih & Ib & Iu).
  set (n1 := nsites c1) in *. set (n2 := nsites c2) in *.
  assert (G1 : forall l p, NoDup l -> (forall x, In x l <-> 0 <= x < n1 + n2 /\ join_states n1 s1 s2 x = p) ->
    NoDup (filter (fun x => x <? n1) l) /\ (forall x, In x (filter (fun x => x <? n1) l) <-> 0 <= x < n1 /\ s1 x = p)).
  { intros l p ND I. split; [now apply NoDup_filter|]. intros x. rewrite filter_In, I. unfold join_states.
    destruct (Z.ltb_spec x n1); intuition (try lia; try congruence). }
  assert (G2 : forall l p, NoDup l -> (forall x, In x l <-> 0 <= x < n1 + n2 /\ join_states n1 s1 s2 x = p) ->
    NoDup (map (fun x => x - n1) (filter (fun x => n1 <=? x) l)) /\
    (forall x, In x (map (fun x => x - n1) (filter (fun x => n1 <=? x) l)) <-> 0 <= x < n2 /\ s2 x = p)).
  { intros l p ND I. split; [apply NoDup_map_on; [intros; lia | now apply NoDup_filter]|].
    intros x. rewrite in_map_iff. split.
    - intros (y & <- & Hy). apply filter_In in Hy. destruct Hy as [Hy Q]. apply I in Hy. unfold join_states in Hy.
      apply Z.leb_le in Q. destruct (Z.ltb_spec y n1); [lia|]. intuition lia.
    - intros [Hx Q]. exists (x + n1). split; [lia|]. apply filter_In. split; [|apply Z.leb_le; lia].
      apply I. unfold join_states. destruct (Z.ltb_spec (x + n1) n1); [lia|]. replace (x + n1 - n1) with x by lia. split; [lia|assumption]. }
  assert (GL : forall n s l p k, zlen (sites_of n s p) = k -> NoDup l -> (forall x, In x l <-> 0 <= x < n /\ s x = p) ->
    Z.of_nat (length l) = k).
  { intros n s l p k <- ND I. unfold zlen. f_equal. now apply Permutation_length, group_perm. }
  split.
  - destruct (G1 _ _ Nh Ih), (G1 _ _ Nb Ib), (G1 _ _ Nu Iu).
    rewrite !filter_app. do 3 eexists. split; [reflexivity|].
    split; [eapply GL; eauto|]. split; [eapply GL; eauto|]. auto 10.
  - destruct (G2 _ _ Nh Ih), (G2 _ _ Nb Ib), (G2 _ _ Nu Iu).
    rewrite !filter_app, !map_app. do 3 eexists. split; [reflexivity|].
    split; [eapply GL; eauto|]. split; [eapply GL; eauto|]. auto 10.
Qed.

(** ** C12 *)

Lemma turned_rot : forall k c s, square c -> turned (Z.to_nat (k mod 4)) (side c) s (fun x => s (rot (side c) (- k) x)).
Proof.
  intros k c s Hc x y Hx Hy. pose proof (square_side c Hc) as W.
  rewrite <- rot_site by assumption. f_equal.
  rewrite rot_add by (try assumption; apply site_bound; assumption). now rewrite Z.add_opp_diag_l.
Qed.

Lemma C12_rotation_square_pf : forall k c d s,
  nbh c = nbv c -> 0 < nbh c -> 0 < nblocs_side c -> nsites c = nbh c * nbv c * nblocs_side c ^ 2 ->
  describes (nsites c) (nholes c) (nbeta c) d s ->
  exists t, describes (nsites c) (nholes c) (nbeta c) (rotate_determinant k c d) t /\
    turned (Z.to_nat (k mod 4)) (nbh c * nblocs_side c) s t.
Proof.
  intros k c d s E H S N D. assert (Hc : square c) by (constructor; assumption).
  exists (fun x => s (rot (side c) (- k) x)). split; [now apply rotate_describes|]. now apply turned_rot.
Qed.

Lemma C12_rotation_group_pf : forall c l,
  nbh c = nbv c -> 0 < nbh c -> 0 < nblocs_side c -> nsites c = nbh c * nbv c * nblocs_side c ^ 2 ->
  0 <= nholes c -> 0 <= nbeta c -> construct_basis c = Ok (mkBasis c l) ->
  (forall d, In d l -> rotate_determinant 4 c d = d) /\
  (forall j k d, In d l -> rotate_determinant j c (rotate_determinant k c d) = rotate_determinant (j + k) c d) /\
  (forall k, Permutation (map (rotate_determinant k c) l) l).
Proof.
  intros c l E H S N Hh Hb HB. assert (Hc : square c) by (constructor; assumption).
  pose proof (square_side c Hc) as W. pose proof (square_n c Hc) as NN.
  assert (Pn : 0 <= nsites c) by nia.
  rewrite construct_basis_ok in HB by assumption. inversion HB; subst l; clear HB.
  set (l := dets (nsites c) (Z.to_nat (nholes c)) (Z.to_nat (nbeta c))) in *.
  assert (Hl : forall d, In d l <-> exists s, in_sector (nsites c) (nholes c) (nbeta c) s /\ d = canon (nsites c) s).
  { intros d. unfold l. rewrite in_dets by lia. now rewrite !Z2Nat.id by assumption. }
  assert (HS : forall k s, in_sector (nsites c) (nholes c) (nbeta c) s ->
    in_sector (nsites c) (nholes c) (nbeta c) (fun x => s (rot (side c) (- k) x))).
  { intros k s Hs. apply (bij_sector _ _ _ _ (rot (side c) k)); [|assumption]. rewrite NN. now apply rot_bij. }
  assert (H2 : forall j k d, In d l -> rotate_determinant j c (rotate_determinant k c d) = rotate_determinant (j + k) c d).
  { intros j k d Hd. apply Hl in Hd. destruct Hd as (s & Hs & ->).
    rewrite (rotate_canon k c s Hc Hs). rewrite (rotate_canon j c _ Hc (HS k s Hs)). rewrite (rotate_canon (j + k) c s Hc Hs).
    apply canon_same. intros x Hx. f_equal. rewrite rot_add by lia. f_equal. lia. }
  split; [intros; reflexivity|]. split; [exact H2|].
  intros k. apply NoDup_Permutation_bis.
  - apply NoDup_map_on; [|apply dets_NoDup].
    intros x y Hx Hy Exy. apply (f_equal (rotate_determinant (- k) c)) in Exy.
    rewrite !H2 in Exy by assumption. rewrite Z.add_opp_diag_l in Exy. exact Exy.
  - rewrite map_length. lia.
  - intros x Hx. apply in_map_iff in Hx. destruct Hx as (d & <- & Hd). apply Hl in Hd. destruct Hd as (s & Hs & ->).
    rewrite rotate_canon by assumption. apply Hl. eauto.
Qed.

Lemma C12_half_turn_pf : forall k c d s,
  k mod 4 = 2 -> 0 < nbh c -> 0 < nbv c -> 0 < nblocs_side c -> nsites c = nbh c * nbv c * nblocs_side c ^ 2 ->
  describes (nsites c) (nholes c) (nbeta c) d s ->
  exists t, describes (nsites c) (nholes c) (nbeta c) (rotate_determinant k c d) t /\
    increasing_groups (nholes c) (nbeta c) (rotate_determinant k c d) /\
    let w := nbh c * nblocs_side c in let h := nbv c * nblocs_side c in
    forall x y, 0 <= x < w -> 0 <= y < h -> t (site w (w - 1 - x, h - 1 - y)) = s (site w (x, y)).
Proof.
  intros k c d s K H1 H2 H3 N D.
  assert (P : 0 < nsites c) by (rewrite N; rewrite Z.pow_2_r; repeat apply Z.mul_pos_pos; assumption).
  exists (fun x => s (nsites c - 1 - x)). rewrite (half_describes k c d s K P N D).
  assert (Sec : in_sector (nsites c) (nholes c) (nbeta c) (fun x => s (nsites c - 1 - x))).
  { apply (bij_sector _ _ _ s (fun x => nsites c - 1 - x)); [|eapply describes_sector; exact D]. intros x Hx. lia. }
  split; [now apply canon_describes|]. split; [exact (canon_increasing _ _ _ _ Sec)|].
  cbv zeta. intros x y Hx Hy. f_equal. rewrite N, Z.pow_2_r. unfold site. simpl. ring.
Qed.

Lemma C12_non_square_refuted_pf : exists c d s,
  make_configuration (bond_matrix c) 1 1 (RList []) Periodic 2 1 1 = Ok c /\
  nsites c = nbh c * nbv c * nblocs_side c ^ 2 /\
  describes (nsites c) (nholes c) (nbeta c) d s /\
  forall k t, k mod 2 = 1 -> ~ describes (nsites c) (nholes c) (nbeta c) (rotate_determinant k c d) t.
Proof.
  exists (ex_rect 2 1 1 1 1), [0; 1], (fun x => if x =? 0 then Hole else Down).
  split; [vm_compute; reflexivity|]. split; [vm_compute; reflexivity|].
  split; [apply describesb_ok; vm_compute; reflexivity|].
  intros k t K D.
  assert (A : forall x, In x (rotate_determinant k (ex_rect 2 1 1 1 1) [0; 1]) -> 0 <= x < 2)
    by (intros x Hx; exact (proj1 (describes_In _ _ _ _ _ x D) Hx)).
  assert (N : NoDup (rotate_determinant k (ex_rect 2 1 1 1 1) [0; 1])) by (eapply describes_NoDup; exact D).
  assert (K4 : k mod 4 = 1 \/ k mod 4 = 3).
  { pose proof (Z.mod_pos_bound k 4). pose proof (Z.div_mod k 4). pose proof (Z.div_mod k 2).
    pose proof (Z.mod_pos_bound k 2). lia. }
  unfold rotate_determinant in A, N. destruct K4 as [Q|Q]; rewrite Q in A, N; vm_compute in A, N.
  - specialize (A (-2)). destruct A; [tauto|]. congruence.
  - specialize (A 2). destruct A as [_ A]; [tauto|]. discriminate A.
Qed.
