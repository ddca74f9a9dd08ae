(** Final lemmas of C56 and C71 that were added after a second round of wrong programs. *)
From Coq Require Import ZArith String List Bool Lia QArith Qcanon Permutation.
From Verif Require Import PyBase PyFacts Lattice Base Interact Ham Spin Prob Dav Files Emb Spec SpecTJ HamSpec SpinDefs Geometry FilesDefs EmbDefs PMat PRing PBasis PSites FGeo PDav PEmb PEmbRing PEmbNeel FEmb FEmbFiles.
Import ListNotations.
Open Scope Z_scope.

(** ** C56: the numbers of holes and downs of the block with its ring *)
Lemma sites_joined : forall a b s t p, 0 <= a -> 0 <= b -> zlen (sites_of (a + b) (fun x => if x <? a then s x else t (x - a)) p) = zlen (sites_of a s p) + zlen (sites_of b t p).
Proof.
  intros a b s t p Ha Hb. unfold sites_of. rewrite (zrange_app 0 a (a + b)) by lia. rewrite filter_app. unfold zlen. rewrite app_length, Nat2Z.inj_add. f_equal.
  - do 2 f_equal. apply filter_ext_in. intros x Hx. apply in_zrange in Hx. destruct (Z.ltb_spec x a); [reflexivity | lia].
  - f_equal. replace (zrange a (a + b)) with (map (fun x => x + a) (zrange 0 b)) by (rewrite zrange_shift; f_equal; lia).
    assert (G : forall l, (forall y, In y l -> 0 <= y) -> length (filter (fun x => is_p (if x <? a then s x else t (x - a)) p) (map (fun x => x + a) l)) = length (filter (fun x => is_p (t x) p) l)).
    { induction l as [|y l IH]; intros H; [reflexivity|]. cbn [map filter]. pose proof (H y (or_introl eq_refl)). destruct (Z.ltb_spec (y + a) a); [lia|]. replace (y + a - a) with y by lia.
      destruct (is_p (t y) p); cbn [length]; rewrite IH; auto using in_cons. }
    apply G. intros y Hy. apply in_zrange in Hy. lia.
Qed.
Lemma C56_surroundings_pf : forall E c u s, let w := nblocs_side c * nbh c in let ht := nblocs_side c * nbv c in
  sized c -> proper c -> neel_surroundings E c = Ok u -> in_sector (nsites c) (nholes c) (nbeta c) s ->
  nsites (u_conf u) = nsites c + 2 * (w + ht) /\ lattice_type (u_conf u) = Peripheral /\ nalpha (u_conf u) = nsites (u_conf u) - nholes (u_conf u) - nbeta (u_conf u) /\
  in_sector (nsites (u_conf u)) (nholes (u_conf u)) (nbeta (u_conf u)) (fun x => if x <? nsites c then s x else checkerboard (ring_point w ht (x - nsites c))) /\
  u_frontier_B u = zrange (nsites c) (nsites (u_conf u)).
Proof.
  intros E c u s w ht (Hh & Hv & Hs & HB & HN & _) P H [S1 S2]. unfold neel_surroundings in H.
  destruct (ringed_is (nbh c) (nbv c) (nblocs_side c) Hh Hv Hs) as (bm & EB & IB). rewrite EB in H. cbn [bind] in H.
  apply bind_ok_inv in H. destruct H as (fr & _ & H). apply bind_ok_inv in H. destruct H as (ar & _ & H). apply bind_ok_inv in H. destruct H as (cu & Hc & H). apply ok_eq in H. subst u. cbn [u_conf u_frontier_B].
  assert (N : nsites c = w * ht).
  { pose proof (rect_mat c (nbh c) (nbv c) (nblocs_side c) Hh Hv Hs HB) as IC. rewrite HN. rewrite (proj1 IC). unfold w, ht. reflexivity. }
  unfold make_configuration in Hc. rewrite (proj1 IB) in Hc. fold w ht in Hc. destruct (Z.eqb_spec (w * ht + 2 * (w + ht)) 0) as [Z0|Z0]; [discriminate|].
  apply bind_ok_inv in Hc. destruct Hc as (r' & _ & Hc). apply ok_eq in Hc. subst cu. cbn [nsites lattice_type nalpha nholes nbeta]. rewrite <- N.
  split; [reflexivity|]. split; [reflexivity|]. split; [reflexivity|]. assert (W : 1 <= w /\ 1 <= ht) by (unfold w, ht; nia). split.
  - split; rewrite (sites_joined (nsites c) (2 * (w + ht)) s (fun r => checkerboard (ring_point w ht r))) by lia.
    + pose proof (ring_no_hole (nbh c) (nbv c) (nblocs_side c)) as Q. unfold ring_state in Q. fold w ht in Q. rewrite Q, S1. cbn. lia.
    + pose proof (beta_is (nbh c) (nbv c) (nblocs_side c) Hh Hv Hs) as Q. unfold ring_state in Q. fold w ht in Q. now rewrite Q, S2.
  - f_equal. unfold w, ht. ring.
Qed.

(** ** C71: runs that succeed *)
Lemma C71_neel_works_pf : forall E N rand fs d tol mi nb dc0 gs u pR e, let c := d_conf d in
  load_data fs (embedding_name c (s_of (d_bools d))) = Ok dc0 -> first_column (e_vects (dc_eig dc0)) = Ok gs ->
  neel_surroundings E c = Ok u -> neel_start E (nbh c) (nbv c) (nblocs_side c) = Ok pR ->
  neel_loop N (d_inter d) (d_diag d) tol nb rand (mkBasis c (dc_dets dc0)) u (dc_ham dc0) (2 * (nbh c + nbv c) * nblocs_side c) (Z.to_nat mi) 0 gs pR None = Ok e ->
  e_vals (dc_eig dc0) <> [] -> e_vals e <> [] -> g_guess (d_diag d) = None ->
  exists fs', embedding_neel E N rand fs d tol mi nb = (fs', Ok (mkDC d (dc_dets dc0) (dc_ham dc0) e None)).
Proof.
  intros E N rand fs d tol mi nb dc0 gs u pR e c H1 H2 H3 H4 H5 V0 V1 G. unfold embedding_neel, embedded_neel. fold c. rewrite H1. cbn [bind]. rewrite H2. cbn [bind]. rewrite H3. cbn [bind]. rewrite H4. cbn [bind]. rewrite H5. cbn [bind].
  assert (A : forall l : list Qc, l <> [] -> exists x, py_get l 0 = Ok x) by (intros [|x l] NE; [congruence | now exists x]).
  destruct (A _ V0) as (x & ->), (A _ V1) as (y & ->). cbn [bind]. unfold save_embedded. cbn [dc_data]. rewrite G. eexists. reflexivity.
Qed.
Lemma C71_blocks_works_pf : forall E N fs d tol mi o dc0 gs energy nb u full r, let c := d_conf d in
  load_data fs (if o_neel o then peripheral_name c (s_of (d_bools d)) else embedding_name c (s_of (d_bools d))) = Ok dc0 ->
  first_column (e_vects (dc_eig dc0)) = Ok gs -> py_get (e_vals (dc_eig dc0)) 0 = Ok energy ->
  neighbor_basis E (mkBasis c (dc_dets dc0)) (o_reverse o) = Ok nb -> block_surroundings E c (b_conf nb) = Ok (u, full) ->
  block_loop E N (d_inter d) (d_diag d) o tol (mkBasis c (dc_dets dc0)) nb u full (dc_ham dc0) gs (Z.to_nat mi) gs energy None = Ok r -> g_guess (d_diag d) = None ->
  exists fs', embedding_blocks E N fs d tol mi o = (fs', Ok (option_map (fun r => mkDC d (dc_dets dc0) (fst r) (snd r) None) r)).
Proof.
  intros E N fs d tol mi o dc0 gs energy nb u full r c H1 H2 H3 H4 H5 H6 G. unfold embedding_blocks, embedded_blocks. fold c. unfold peripheral_name in H1. rewrite H1. cbn [bind]. rewrite H2. cbn [bind]. rewrite H3. cbn [bind]. rewrite H4. cbn [bind]. rewrite H5. cbn [bind fst snd].
  rewrite H6. cbn [bind]. destruct r as [[h e]|]; cbn [option_map fst snd]; [|now eexists]. unfold save_embedded. cbn [dc_data]. rewrite G. eexists. reflexivity.
Qed.
