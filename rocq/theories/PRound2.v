(** Rounded arithmetic (for C111): the diagonal terms, the matrix of sizes and the number of entries at a place. *)
From Coq Require Import ZArith List Bool Lia Permutation QArith Qcanon Lqa.
From Verif Require Import PyBase PyFacts Lattice Base Interact Ham Round Spec SpecOps SpecTJ SpinDefs Geometry HamSpec SignDefs EnergyDefs RangeDefs RoundDefs.
From Verif Require Import PSpin PQc PBasis PSites PRep PMat PGeo PInter PHam POps FGeo FSites FInter FHam PSecSum PBound PDavIter PDav FDav FSpinVal PSign PSignOp PPerron FSign FMotion PEnergy FEnergy PRange FRange PRound.
Import ListNotations.
Open Scope Z_scope.

(** ** diagonal terms *)
Lemma spin_site_range : forall c d x s, get_spin_site c d x = Ok s -> -1 <= s <= 1.
Proof.
  intros c d x s H. unfold get_spin_site in H. destruct (py_index d x) as [i|]; [|discriminate]. cbn [bind] in H. injection H as <-. destruct (i <? nholes c); [lia|]. destruct (i <? _); lia.
Qed.
Lemma factor_le : forall s0 s1, -1 <= s0 <= 1 -> -1 <= s1 <= 1 -> (qfrac (s0 * s1) 4 - qfrac 1 4 <= 0)%Qc.
Proof.
  intros s0 s1 H0 H1. rewrite Qcle_this, this_sub, this_0. unfold qfrac. cbn [this Q2Qc]. rewrite !Qred_correct. unfold Qle, Qminus, Qplus, Qopp. cbn. nia.
Qed.
Lemma class_positive : forall K k, class_coupling (positive_couplings K) k = magnitude (class_coupling K k).
Proof. intros K []; reflexivity. Qed.
Lemma opp_product : forall x f, (f <= 0)%Qc -> (- (magnitude x * f))%Qc = magnitude (x * f).
Proof.
  intros x f H. rewrite magnitude_product. assert (E : magnitude f = (- f)%Qc); [|rewrite E; ring]. apply magnitude_unique; [qc|]. right. ring.
Qed.

Section Static.
Variables (u : Qc) (F : floats) (E : runtime) (c : configuration) (K : interactions) (d : list Z).
Hypothesis HU : rounds u F.

Lemma static_near : forall bl x, build_bond_list E (bond_matrix c) (sites_restriction c) = Ok bl -> compute_static_spin_interaction E c K d = Ok x ->
  exists x' y, compute_static_spin_interaction_fl F E c K d = Ok x' /\ compute_static_spin_interaction E c (positive_couplings K) d = Ok y /\ near (eps u (1 + length bl)) x' x (- y)%Qc.
Proof.
  intros bl x B. unfold compute_static_spin_interaction, compute_static_spin_interaction_fl. rewrite B. cbn [bind]. clear B.
  match goal with |- foldM ?f _ _ = _ -> exists x' y, foldM ?g _ _ = _ /\ foldM ?h _ _ = _ /\ _ => set (ex := f); set (ro := g); set (po := h) end.
  assert (G : forall k y0 a a', (1 <= k)%nat -> near (eps u k) a' a (- y0)%Qc -> foldM ex a bl = Ok x ->
    exists x' y, foldM ro a' bl = Ok x' /\ foldM po y0 bl = Ok y /\ near (eps u (k + length bl)) x' x (- y)%Qc).
  2: { apply (G 1%nat); [lia|]. apply (near_self u F HU). vm_compute. discriminate. }
  induction bl as [|[b0 b1] bl IH]; intros k y0 a a' Hk N Q.
  - cbn [foldM length] in *. injection Q as <-. rewrite Nat.add_0_r. eauto.
  - cbn [foldM] in *. unfold ex at 1 in Q. unfold ro at 1. unfold po at 1. cbv beta iota in *.
    destruct (get_spin_site c d b0) as [s0|] eqn:S0; [|discriminate]. cbn [bind] in *. destruct (get_spin_site c d b1) as [s1|] eqn:S1; [|discriminate]. cbn [bind] in *.
    destruct (negb (s0 * s1 =? 0)).
    + destruct (static_class E c d (Z.min b0 b1) (Z.max b0 b1)) as [kk|]; [|discriminate]. cbn [bind] in *.
      set (f := (qfrac (s0 * s1) 4 - qfrac 1 4)%Qc) in *. cbn [length]. rewrite Nat.add_succ_r, <- Nat.add_succ_l. refine (IH _ _ _ _ _ _ Q); [lia|].
      rewrite class_positive. replace (- (y0 + magnitude (class_coupling K kk) * f))%Qc with (- y0 + - (magnitude (class_coupling K kk) * f))%Qc by ring.
      rewrite opp_product by (apply factor_le; eapply spin_site_range; eassumption). apply (near_fl u F HU). apply near_add; [exact N|].
      eapply near_weak; [apply (eps_le u F HU 1 k Hk)|]. apply (near_exact u F HU).
    + cbn [bind] in *. destruct (IH k y0 a a' Hk N Q) as (x' & y & E1 & E2 & E3). exists x', y. split; [exact E1|]. split; [exact E2|]. eapply near_weak; [|exact E3]. apply (eps_le u F HU). cbn [length]. lia.
Qed.

Lemma repulsion_near : forall x, compute_hole_repulsion E c K d = Ok x ->
  exists x' y, compute_hole_repulsion_fl F E c K d = Ok x' /\ compute_hole_repulsion E c (positive_couplings K) d = Ok y /\ near (eps u 2) x' x y.
Proof.
  intros x. unfold compute_hole_repulsion, compute_hole_repulsion_fl. destruct (1 <? nholes c).
  - destruct (get_indexes_of E c d 0 0) as [hs|]; [|discriminate]. cbn [bind]. destruct (foldM _ ([], []) _) as [[p q]|]; [|discriminate]. cbn [bind]. intros [= <-].
    eexists. eexists. split; [reflexivity|]. split; [reflexivity|]. apply (near_fl u F HU). unfold positive_couplings. cbn [i_VNN i_VNNNper].
    assert (P : forall n v, 0 <= n -> (qz n * magnitude v)%Qc = magnitude (qz n * v)).
    { intros n v Hn. rewrite magnitude_product. f_equal. symmetry. apply magnitude_unique; [|now left]. rewrite Qcle_this, this_qz, this_0. unfold Qle. cbn. lia. }
    rewrite !P by apply zlen_nonneg. apply near_add; apply (near_exact u F HU).
  - intros [= <-]. exists (qz 0), (qz 0). split; [reflexivity|]. split; [reflexivity|]. apply (near_self u F HU). vm_compute. discriminate.
Qed.
End Static.

(** ** the matrix of sizes *)
Section Mirror.
Variables (E : runtime) (c : configuration) (w : Z) (r : list Z) (M : interactions).
Hypothesis HE : set_iter_ok E.
Hypothesis HC : filled c w r.
Let n := nsites c.
Let L := between n (point w) r r.
Let st := state_of c.

Definition mirror_element (gs gv : occupation -> Qc) (S : switches) (s t : occupation) : Qc :=
  (only (s_bt S) (op_hop L M s t)
   + only (s_bz S) (only (sameb n s t) (gs s))
   + only (s_bij S) (op_flip L M s t)
   + only (s_bSD S) (op_crossings L M s t)
   + only (s_btN S) (op_next_hop L M s t)
   + only (s_bV S) (only (sameb n s t) (gv s)))%Qc.

Lemma HD : drawn c (point w). Proof. apply row_major_drawn, HC. Qed.
Lemma HR : sites_restriction c = RTuple r r. Proof. apply HC. Qed.
Lemma Hh : 0 <= nholes c. Proof. apply HC. Qed.
Lemma Hb : 0 <= nbeta c. Proof. apply HC. Qed.
Lemma HLf : forall x, 0 <= x < n -> (lat_from L x = true <-> In x r). Proof. intros x _. apply (between_ok n (point w) r r x). Qed.
Lemma HLt : forall x, 0 <= x < n -> (lat_to L x = true <-> In x r). Proof. intros x _. apply (between_ok n (point w) r r x). Qed.
Lemma HL : straightness_decided E c (point w). Proof. apply row_major_straight, HC. Qed.

Lemma plus_ok : forall A x k ham (f g : A -> occupation) ps, (forall p, In p ps -> in_sector n (nholes c) (nbeta c) (f p) /\ in_sector n (nholes c) (nbeta c) (g p)) ->
  plus_images c x k ham (map (fun p => (canon n (f p), canon n (g p))) ps) = Ok (ham ++ entries c k (flat_map (fun p => [(x, f p); (x, g p)]) ps)).
Proof.
  intros A x k ham f g ps H. unfold plus_images. revert ham. induction ps as [|p ps IH]; intros ham; cbn [map foldM flat_map].
  - now rewrite app_nil_r.
  - destruct (H p (or_introl eq_refl)) as [S1 S2]. unfold n. rewrite (index_canon c _ S1), (index_canon c _ S2). cbn [bind]. fold n.
    rewrite IH by (intros; apply H; now right). unfold add_ham_coo. rewrite <- !app_assoc. reflexivity.
Qed.

Lemma good_plus : good c (plus_step E c M) (op_crossings L M).
Proof.
  intros d Hd. pose proof (in_dl c (point w) HD Hh Hb d Hd) as D.
  destruct (sd_triples_ok E c (point w) r r d (st d) HE HD HR D) as (ND & I).
  set (ts := sd_triples E c d (st d)) in *.
  set (f := fun t : triple => let '(h, m, e) := t in shift_state h m e (st d)).
  set (g := fun t : triple => let '(h, m, e) := t in swap_state h e (st d)).
  set (tm := fun (x : Qc) P => flat_map (fun p => [(x, f p); (x, g p)]) (filter P ts)).
  assert (SB : forall P p, In p (filter P ts) -> in_sector n (nholes c) (nbeta c) (f p) /\ in_sector n (nholes c) (nbeta c) (g p)).
  { intros P [[h m] e] H. apply filter_In in H. destruct H as [H _]. apply I in H. destruct H as (_ & _ & _ & _ & _ & H).
    split; [now apply (sec_shift c (point w) HD Hh Hb) | apply (sec_swap c (point w) HD Hh Hb); [assumption|apply H|apply H]]. }
  assert (EI : forall P, map (sd_image c (st d)) (filter P ts) = map (fun p => (canon n (f p), canon n (g p))) (filter P ts)).
  { intros P. apply map_ext. intros [[h m] e]. reflexivity. }
  exists (tm (i_hSDpar M) (sd_line (point w)) ++ tm (i_hSDper M) (fun t => negb (sd_line (point w) t))). split; [|split].
  - intros ham k _ _. unfold plus_step. rewrite (singlet_ok E c (point w) r r d (st d) HE HD HR D HL). fold ts. cbn [bind]. rewrite !EI.
    rewrite plus_ok by apply SB. cbn [bind]. rewrite plus_ok by apply SB. rewrite !entries_app, <- !app_assoc. reflexivity.
  - intros x t H. unfold tm in H. rewrite !in_app_iff, !in_flat_map in H.
    destruct H as [(p & Hp & [[= <- <-]|[[= <- <-]|[]]])|(p & Hp & [[= <- <-]|[[= <- <-]|[]]])]; eapply SB, Hp.
  - intros t. unfold amplitude. rewrite !qsum_app. unfold tm. rewrite !qsum_flat_map.
    rewrite !qsum_filter, <- !qsum_add. unfold op_crossings. cbn [lat_size L between].
    rewrite (sum_triples n ts (fun h m e => lat_from L h && lat_to L m && lat_to L e && bonded L h m && bonded L m e && holeb (st d h) && oppositeb (st d m) (st d e))).
    + apply sum_sites_ext. intros h Hh0. apply sum_sites_ext. intros m Hm0. apply sum_sites_ext. intros e He0. fold st n.
      rewrite !qsum_cons, !qsum_nil. cbn [fst snd sd_line f g]. rewrite (lineb_lineb2 c (point w) L (fun _ _ => eq_refl)) by assumption.
      change (between n (point w) r r) with L.
      destruct (lat_from L h && lat_to L m && lat_to L e && bonded L h m && bonded L m e && holeb (st d h) && oppositeb (st d m) (st d e)); cbn [only]; [|reflexivity].
      destruct (lineb2 (lat_pos L h) (lat_pos L e)); cbn [negb only];
      destruct (sameb n t (shift_state h m e (st d))), (sameb n t (swap_state h e (st d))); cbn [only]; ring.
    + assumption.
    + intros h m e. rewrite I. fold n. split.
      * intros (H1 & H2 & H3 & H4 & H5 & H6). pose proof H6 as (Rh & Rm & Re & Ne & A1 & A2).
        repeat (split; [assumption|]).
        rewrite !andb_true_iff, holeb_iff, oppositeb_iff, HLf, !HLt, !(bonded_iff' c (point w) L (fun _ _ => eq_refl)) by assumption. auto 10.
      * intros (H1 & H2 & H3 & H4). rewrite !andb_true_iff, holeb_iff, oppositeb_iff in H4.
        destruct H4 as ((((((A & B) & C) & Fb) & G) & O) & Q).
        rewrite HLf in A by assumption. rewrite HLt in B by assumption. rewrite HLt in C by assumption.
        rewrite (bonded_iff' c (point w) L (fun _ _ => eq_refl)) in Fb by assumption. rewrite (bonded_iff' c (point w) L (fun _ _ => eq_refl)) in G by assumption.
        repeat (split; [assumption|]).
        split; [intros ->; destruct Q as [[_ Q]|[_ Q]]; congruence|]. auto.
Qed.

Lemma flips_ok : forall d s, conf_describes c d s -> flips_decided E c (point w) d s (bond_doping L s).
Proof.
  intros d s D i j Hij Hj A O. pose proof HC as (RM & HR0 & Hh0 & Hb0 & Ha). apply (rect_flip_class E c w r r); try assumption; try reflexivity.
  - intros. apply between_ok.
  - destruct O as [[-> _]|[-> _]]; discriminate.
  - destruct O as [[_ ->]|[_ ->]]; discriminate.
Qed.

Ltac step_with H := match type of H with _ = ?r => match goal with |- context [bind ?x _] => replace x with r by (symmetry; exact H) end end; cbn [bind].

Lemma mirror_ok : forall fs fv gs gv S, (forall d, In d (dl c) -> fs d = Ok (gs (st d))) -> (forall d, In d (dl c) -> fv d = Ok (gv (st d))) ->
  exists es, build_mirror E M fs fv (mkBasis c (dl c)) S = Ok es /\ matrix_of c es (mirror_element gs gv S).
Proof.
  intros fs fv gs gv S Gs Gv. unfold build_mirror. cbn [b_conf determinants].
  pose proof (fun step op => good_fold c (point w) HD Hh Hb step op) as FO.
  destruct (switched c (s_bt S) (fun h => add_hopping_integral E h (mkBasis c (dl c)) M) _ (add_hopping_ok E c (point w) r M HE HD HR Hh Hb L eq_refl (fun _ _ => eq_refl) HLf HLt) []) as (e1 & E1 & M1). step_with E1.
  destruct (switched c (s_bz S) (fun h => foldM (diagonal_step fs) h (enumerate (dl c))) _ (FO _ _ (good_diagonal c (point w) HD Hh Hb fs gs Gs)) ([] ++ e1)) as (e2 & E2 & M2). step_with E2.
  destruct (switched c (s_bij S) (fun h => foldM (flip_step E c M) h (enumerate (dl c))) _ (FO _ _ (good_flip E c (point w) r M HE HD HR Hh Hb L eq_refl (fun _ _ => eq_refl) HLf HLt (bond_doping L) flips_ok)) (([] ++ e1) ++ e2)) as (e3 & E3 & M3). step_with E3.
  destruct (switched c (s_bSD S) (fun h => foldM (plus_step E c M) h (enumerate (dl c))) _ (FO _ _ good_plus) ((([] ++ e1) ++ e2) ++ e3)) as (e4 & E4 & M4). step_with E4.
  destruct (switched c (s_btN S) (fun h => add_next_hopping_integral E h (mkBasis c (dl c)) M) _ (add_next_ok E c (point w) r M HE HD HR Hh Hb L eq_refl (fun _ _ => eq_refl) HLf HLt HL) (((([] ++ e1) ++ e2) ++ e3) ++ e4)) as (e5 & E5 & M5). step_with E5.
  destruct (switched c (s_bV S) (fun h => foldM (diagonal_step fv) h (enumerate (dl c))) _ (FO _ _ (good_diagonal c (point w) HD Hh Hb fv gv Gv)) ((((([] ++ e1) ++ e2) ++ e3) ++ e4) ++ e5)) as (e6 & E6 & M6).
  exists ((((([] ++ e1) ++ e2) ++ e3) ++ e4) ++ e5 ++ e6). split; [rewrite app_assoc; exact E6|].
  pose proof (matrix_add c _ _ _ _ (matrix_add c _ _ _ _ (matrix_add c _ _ _ _ (matrix_add c _ _ _ _ (matrix_add c _ _ _ _ M1 M2) M3) M4) M5) M6) as MM.
  cbn [app] in *. rewrite !app_assoc. exact MM.
Qed.
End Mirror.

(** ** crossings *)
Lemma crossings_sym : forall L n, lat_size L = n -> (forall x, 0 <= x < n -> lat_from L x = lat_to L x) -> forall K s t, op_crossings L K s t = op_crossings L K t s.
Proof.
  intros L n HS Hft K s t. unfold op_crossings. rewrite HS. cbv zeta. rewrite (sum_swap13 n).
  apply sum_sites_ext. intros e He. apply sum_sites_ext. intros m Hm. apply sum_sites_ext. intros h Hh.
  destruct (sd_term L n Hft s t h m e Hh Hm He) as [A C]. unfold sd_cond in A, C. rewrite (lineb2_sym (lat_pos L h)).
  revert A C.
  destruct (lat_from L h && lat_to L m && lat_to L e && bonded L h m && bonded L m e && holeb (s h) && oppositeb (s m) (s e)),
    (lat_from L e && lat_to L m && lat_to L h && bonded L e m && bonded L m h && holeb (t e) && oppositeb (t m) (t h));
    cbn [andb only]; intros A C; rewrite ?A, ?C, <- ?A, <- ?C; cbn [only]; try ring; rewrite A; cbn [only]; ring.
Qed.

Lemma one_of_sum : forall A (f : A -> Qc) l x, In x l -> (magnitude (f x) <= qsum (fun y => magnitude (f y)) l)%Qc.
Proof.
  intros A f l x. induction l as [|y l IH]; intros H; [destruct H|]. rewrite qsum_cons. assert (P : (0 <= qsum (fun y => magnitude (f y)) l)%Qc).
  { clear. induction l as [|y l IH]; [apply Qcle_refl|]. rewrite qsum_cons. pose proof (magnitude_nonneg (f y)). qc. }
  destruct H as [->|H]; [qc|]. specialize (IH H). pose proof (magnitude_nonneg (f y)). qc.
Qed.
Lemma le_magnitude : forall x, (x <= magnitude x)%Qc.
Proof. intros x. destruct (magnitude_cases x) as [[P ->]|[P ->]]; [apply Qcle_refl | qc]. Qed.

Section Rows.
Variables (c : configuration) (w : Z) (r : list Z) (HC : filled c w r).
Let n := nsites c.
Let L := between n (point w) r r.
Variables (z : sizes) (K : interactions) (HK : couplings_within z K) (d0 : list Z) (s : occupation) (HD : describes n (nholes c) (nbeta c) d0 s) (Hd0 : In d0 (dl c)).
Let bonds := grid_bonds w (nsites c / w).

Lemma row_crossings : (qsum (fun d => SignDefs.magnitude (op_crossings L K s (state_of c d))) (dl c) <= qz (24 * nholes c) * z_SD z)%Qc.
Proof.
  destruct HK as (_ & _ & _ & _ & H1 & H2 & _). pose proof (size_nonneg _ _ H1) as P. apply magnitude_le in H1, H2.
  set (cond := fun x m e => lat_from L x && lat_to L m && lat_to L e && bonded L x m && bonded L m e && holeb (s x) && oppositeb (s m) (s e)).
  apply Qcle_trans with (sum_sites n (fun x => sum_sites n (fun m => sum_sites n (fun e => only (cond x m e) (qz 2 * z_SD z)%Qc)))).
  - apply Qcle_trans with (qsum (fun d => sum_sites n (fun x => sum_sites n (fun m => sum_sites n (fun e =>
      only (cond x m e) (only (sameb n (state_of c d) (shift_state x m e s)) (z_SD z) + only (sameb n (state_of c d) (swap_state x e s)) (z_SD z))%Qc)))) (dl c)).
    + apply qsum_le. intros d _. unfold op_crossings. cbv zeta. eapply Qcle_trans; [apply magnitude_sum|]. apply sites_le. intros x _. eapply Qcle_trans; [apply magnitude_sum|]. apply sites_le. intros m _.
      eapply Qcle_trans; [apply magnitude_sum|]. apply sites_le. intros e _. fold (cond x m e). apply magnitude_only. rewrite magnitude_product.
      set (A := sameb (lat_size L) (state_of c d) (shift_state x m e s)). set (B := sameb (lat_size L) (state_of c d) (swap_state x e s)).
      apply Qcle_trans with (z_SD z * (only A 1 + only B 1))%Qc.
      * apply Qcle_trans with (z_SD z * SignDefs.magnitude (only A 1 + only B 1))%Qc.
        -- apply Qcmult_le_compat_r; [now destruct (lineb2 _ _) | apply magnitude_nonneg].
        -- rewrite (Qcmult_comm (z_SD z) (SignDefs.magnitude _)), (Qcmult_comm (z_SD z) (only A 1 + only B 1)%Qc).
           apply Qcmult_le_compat_r; [|exact P]. destruct A, B; cbn [only]; vm_compute; discriminate.
      * rewrite Qcmult_plus_distr_r. unfold A, B. cbn [lat_size L between]. apply Qcplus_le_compat; destruct (sameb n _ _); cbn [only]; rewrite ?Qcmult_1_r, ?Qcmult_0_r; apply Qcle_refl.
    + unfold sum_sites. rewrite qsum_exchange. apply qsum_le. intros x _. rewrite qsum_exchange. apply qsum_le. intros m _. rewrite qsum_exchange. apply qsum_le. intros e _.
      destruct (cond x m e); cbn [only]; [|rewrite qsum_zero by reflexivity; apply Qcle_refl]. rewrite qsum_add.
      replace (qz 2 * z_SD z)%Qc with (z_SD z + z_SD z)%Qc by (replace (qz 2) with (1 + 1)%Qc by (apply Qc_is_canon; reflexivity); ring).
      apply Qcplus_le_compat; now apply (images_le c w r HC).
  - assert (P2 : (0 <= qz 2 * z_SD z)%Qc) by (apply Qcmult_nonneg; [discriminate | exact P]). set (k := (qz 2 * z_SD z)%Qc) in *.
    replace (qz (24 * nholes c) * z_SD z)%Qc with (qz (nholes c) * (qz 4 * (qz 3 * k)))%Qc by (unfold k; rewrite !(qz_times c); apply (f_equal (fun q => qz q * z_SD z)%Qc); lia).
    assert (P3 : (0 <= qz 3 * k)%Qc) by (apply Qcmult_nonneg; [discriminate | exact P2]).
    apply (holes_le c d0 s _ _ HD).
    + intros x Hx Q. eapply Qcle_trans; [|apply (four_le c w r x _ P3)]. apply sites_le. intros m Hm. fold n L. destruct (bonded L x m) eqn:B; cbn [only].
      * destruct (onward (point w x) (point w m) B) as (D & LD & HD3). replace 3 with (zlen D) by (unfold zlen; now rewrite LD).
        apply (near_le n w _ D _ P2). intros e He C. unfold cond in C. rewrite !andb_true_iff in C. destruct C as (((_ & C) & _) & O). apply HD3; [exact C|].
        intros E. apply point_inj in E. subst e. rewrite Q in O. destruct (s m); discriminate.
      * replace (sum_sites n (fun e => only (cond x m e) k)) with 0%Qc; [apply Qcle_refl|]. symmetry. apply sum_sites_zero. intros e _. unfold cond. rewrite B. now rewrite !andb_false_r.
    + intros x Hx N. apply sum_sites_zero. intros m _. apply sum_sites_zero. intros e _. unfold cond. destruct (s x); [congruence| |]; cbn [holeb]; now rewrite andb_false_r.
Qed.

Lemma same_d0 : sameb n s (state_of c d0) = true.
Proof. apply sameb_iff. intros x Hx. symmetry. exact (state_of_describes c d0 s HD x Hx). Qed.
Lemma static_le : (magnitude (op_static L K s) <= qz bonds * (half * z_J z))%Qc.
Proof.
  eapply Qcle_trans; [|exact (row_static c w r HC z K HK s)]. pose proof (one_of_sum _ (fun d => only (sameb n s (state_of c d)) (op_static L K s)) (dl c) d0 Hd0) as H. cbv beta in H. rewrite same_d0 in H. exact H.
Qed.
Lemma repulsion_le : (magnitude (op_repulsion L K s) <= qz (4 * nholes c) * z_V z)%Qc.
Proof.
  eapply Qcle_trans; [|exact (row_repulsion c w r HC z K HK d0 s HD)]. pose proof (one_of_sum _ (fun d => only (sameb n s (state_of c d)) (op_repulsion L K s)) (dl c) d0 Hd0) as H. cbv beta in H. rewrite same_d0 in H. exact H.
Qed.
Lemma row_mirror : forall gs gv S ks kv, (magnitude (gs s) <= ks)%Qc -> (magnitude (gv s) <= kv)%Qc ->
  (qsum (fun d => magnitude (mirror_element c w r K gs gv S s (state_of c d))) (dl c) <=
   only (s_bt S) (qz (4 * nholes c) * z_t z) + only (s_bz S) ks + only (s_bij S) (qz bonds * (half * z_J z))
   + only (s_bSD S) (qz (24 * nholes c) * z_SD z) + only (s_btN S) (qz (8 * nholes c) * z_tN z) + only (s_bV S) kv)%Qc.
Proof.
  intros gs gv S ks kv Ks Kv. unfold mirror_element.
  eapply Qcle_trans; [apply qsum_le; intros d _; apply magnitude_add|]. rewrite qsum_add. apply Qcplus_le_compat; [|apply (switch_row c (s_bV S) (fun d => only (sameb n s (state_of c d)) (gv s))); now apply (diagonal_row c w r HC)].
  eapply Qcle_trans; [apply qsum_le; intros d _; apply magnitude_add|]. rewrite qsum_add. apply Qcplus_le_compat; [|apply (switch_row c (s_btN S) (fun d => op_next_hop L K s (state_of c d))), (row_next c w r HC z K HK d0 s HD)].
  eapply Qcle_trans; [apply qsum_le; intros d _; apply magnitude_add|]. rewrite qsum_add. apply Qcplus_le_compat; [|apply (switch_row c (s_bSD S) (fun d => op_crossings L K s (state_of c d))), row_crossings].
  eapply Qcle_trans; [apply qsum_le; intros d _; apply magnitude_add|]. rewrite qsum_add. apply Qcplus_le_compat; [|apply (switch_row c (s_bij S) (fun d => op_flip L K s (state_of c d))), (row_flip c w r HC z K HK s)].
  eapply Qcle_trans; [apply qsum_le; intros d _; apply magnitude_add|]. rewrite qsum_add. apply Qcplus_le_compat; [|apply (switch_row c (s_bz S) (fun d => only (sameb n s (state_of c d)) (gs s))); now apply (diagonal_row c w r HC)].
  apply (switch_row c (s_bt S) (fun d => op_hop L K s (state_of c d))), (row_hop c w r HC z K HK d0 s HD).
Qed.
End Rows.
