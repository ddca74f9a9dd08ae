(** The dressing of a block: its entries, rotated and symmetric. *)
From Coq Require Import ZArith List Bool QArith Qcanon Lia Permutation.
From Verif Require Import PyBase PyFacts Lattice Base Interact Ham Spin Prob Dav Files Emb Spec SpecTJ HamSpec SpinDefs ProbDefs Geometry EmbDefs.
From Verif Require Import PBasis PVec PMat PRing PGeo FGeo PRot PSites PSpin PProb PHam PRep PWave PDav FSites FProb FHam PEmb PEmbRing PEmbNeel FEmb PEmbBlock PEmbPerm.
Import ListNotations.
Open Scope Z_scope.

(** ** Four turns *)

Section Turn.
Variable c : configuration.
Hypothesis Hc : square c.
Let n := nsites c.
Let w := side c.
Let sec (s : occupation) : Prop := in_sector n (nholes c) (nbeta c) s.
Let ix (s : occupation) : Z := state_index n (nholes c) (nbeta c) s.
Definition spun (k : Z) (s : occupation) : occupation := fun x => s (rot (side c) (- k) x).

Lemma spun_sec : forall k s, sec s -> sec (spun k s).
Proof.
  intros k s S. apply (bij_sector n _ _ s (rot w k)); [|assumption]. unfold n. rewrite (square_n c Hc). apply rot_bij. apply (square_side c Hc).
Qed.

Lemma rot_mod : forall k x, rot w (k mod 4) x = rot w k x.
Proof. intros k x. unfold rot. now rewrite Z.mod_mod by lia. Qed.

Lemma spun_ix : forall r k s a, sec s -> sec a -> (ix (spun r s) =? ix (spun k a)) = (ix (spun (r - k) s) =? ix a).
Proof.
  intros r k s a Ss Sa. assert (N0 : 0 <= n) by (unfold n; rewrite (square_n c Hc); apply Z.square_nonneg).
  pose proof (square_side c Hc) as W. fold w in W.
  assert (NN : n = w * w) by apply (square_n c Hc).
  apply eq_true_iff_eq. rewrite !Z.eqb_eq. split; intros Q.
  - apply state_index_same. apply state_index_inj in Q; try assumption; try now apply spun_sec. intros x Hx.
    unfold spun. fold w. assert (Hx' : 0 <= rot w k x < n) by (rewrite NN in *; now apply rot_bound).
    specialize (Q (rot w k x) Hx'). unfold spun in Q. fold w in Q. rewrite !rot_add in Q by lia. replace (- k + k) with 0 in Q by lia.
    replace (- r + k) with (- (r - k)) in Q by lia. exact Q.
  - apply state_index_same. apply state_index_inj in Q; try assumption; try now apply spun_sec. intros x Hx.
    unfold spun. fold w. assert (Hx' : 0 <= rot w (- k) x < n) by (rewrite NN in *; now apply rot_bound).
    specialize (Q (rot w (- k) x) Hx'). unfold spun in Q. fold w in Q. rewrite !rot_add in Q by lia. replace (- (r - k) + - k) with (- r) in Q by lia. exact Q.
Qed.

Lemma spun_period : forall k s, ix (spun (k + 4) s) = ix (spun k s).
Proof.
  intros k s. apply state_index_same. intros x Hx. unfold spun. fold w. f_equal. rewrite <- (rot_mod (- (k + 4))), <- (rot_mod (- k)). f_equal.
  replace (- (k + 4)) with (- k + (-1) * 4) by lia. apply Z_mod_plus_full.
Qed.

Definition turned_entries (g : coo) : Prop := forall k s t, sec s -> sec t -> coo_at g (ix (spun k s)) (ix (spun k t)) = coo_at g (ix s) (ix t).

Definition orbit (x : Qc) (s t : occupation) : coo := map (fun r => (x, ix (spun r s), ix (spun r t))) (zrange 0 4).

Lemma orbit_turned : forall x s t, sec s -> sec t -> turned_entries (orbit x s t).
Proof.
  intros x s t Ss St k a b Sa Sb. unfold coo_at, orbit. rewrite !qsum_map.
  set (F := fun r => only ((ix (spun r s) =? ix a) && (ix (spun r t) =? ix b)) x).
  assert (Q : qsum (fun r => only ((ix (spun r s) =? ix (spun k a)) && (ix (spun r t) =? ix (spun k b))) x) (zrange 0 4) = qsum (fun r => F (r - k)) (zrange 0 4)).
  { apply qsum_ext. intros r _. unfold F. now rewrite !spun_ix. }
  rewrite Q. change (qsum (fun r => F (r - k)) (zrange 0 4) = qsum F (zrange 0 4)).
  assert (Pd : forall r, F (r + 4) = F r) by (intros r; unfold F; now rewrite !spun_period).
  clearbody F. clear Q.
  assert (Pn : forall r m, F (r - 4 * m) = F r).
  { intros r. apply (Z.peano_ind (fun m => F (r - 4 * m) = F r)).
    - f_equal. lia.
    - intros m IH. rewrite <- IH, <- Pd. f_equal. lia.
    - intros m IH. rewrite <- IH, <- (Pd (r - 4 * m)). f_equal. lia. }
  rewrite (Z.div_mod k 4) by lia. pose proof (Z.mod_pos_bound k 4 ltac:(lia)) as B. set (q := k / 4). set (e := k mod 4) in *. clearbody q e.
  assert (Q : qsum (fun r => F (r - (4 * q + e))) (zrange 0 4) = qsum (fun r => F (r - e)) (zrange 0 4)).
  { apply qsum_ext. intros r _. rewrite <- (Pn (r - e) q). f_equal. lia. }
  rewrite Q. change (zrange 0 4) with [0; 1; 2; 3]. rewrite !qsum_cons, !qsum_nil.
  assert (V : e = 0 \/ e = 1 \/ e = 2 \/ e = 3) by lia.
  assert (P1 : F (-1) = F 3) by exact (eq_sym (Pd (-1))). assert (P2 : F (-2) = F 2) by exact (eq_sym (Pd (-2))). assert (P3 : F (-3) = F 1) by exact (eq_sym (Pd (-3))).
  destruct V as [->|[->|[->| ->]]]; repeat match goal with |- context [F (?a - ?b)] => let v := eval compute in (a - b) in change (F (a - b)) with (F v) end;
    rewrite ?P1, ?P2, ?P3; ring.
Qed.

Lemma turned_nil : turned_entries [].
Proof. intros k s t _ _. reflexivity. Qed.
Lemma turned_app : forall a b, turned_entries a -> turned_entries b -> turned_entries (a ++ b).
Proof. intros a b A B k s t Ss St. rewrite !coo_at_app. rewrite (A k s t Ss St), (B k s t Ss St). reflexivity. Qed.

Lemma rotated_ix : forall d s k, describes n (nholes c) (nbeta c) d s -> rotated_index c d k = Ok (ix (spun k s)).
Proof. intros d s k D. unfold rotated_index. apply index_describes. exact (rotate_describes k c d s Hc D). Qed.
End Turn.

(** ** Entries *)

Definition symmetric_entries (g : coo) : Prop := forall i j, coo_at g i j = coo_at g j i.
Lemma symmetric_nil : symmetric_entries [].
Proof. intros i j. reflexivity. Qed.
Lemma symmetric_app : forall a b, symmetric_entries a -> symmetric_entries b -> symmetric_entries (a ++ b).
Proof. intros a b A B i j. rewrite !coo_at_app. now rewrite (A i j), (B i j). Qed.
Lemma symmetric_one : forall x k, symmetric_entries [(x, k, k)].
Proof. intros x k i j. unfold coo_at. rewrite !qsum_cons, !qsum_nil, andb_comm. reflexivity. Qed.
Lemma symmetric_two : forall x k l, symmetric_entries [(x, k, l); (x, l, k)].
Proof. intros x k l i j. unfold coo_at. rewrite !qsum_cons, !qsum_nil. rewrite (andb_comm (k =? i)), (andb_comm (l =? i)). ring. Qed.

Lemma add_coo_inv : forall dim ham x i j h, add_coo dim ham x i j = Ok h -> h = ham ++ [(x, i, j)].
Proof. intros dim ham x i j h H. unfold add_coo in H. destruct (_ && _); [|discriminate]. injection H as <-. reflexivity. Qed.

Lemma foldM_parts : forall A (Q : coo -> Prop) (f : coo -> A -> res coo) l b b', Q [] -> (forall x y, Q x -> Q y -> Q (x ++ y)) ->
  (forall b x b', In x l -> f b x = Ok b' -> exists g, b' = b ++ g /\ Q g) -> foldM f b l = Ok b' -> exists g, b' = b ++ g /\ Q g.
Proof.
  intros A Q f l b b' Q0 QA H. apply (foldM_keeps _ _ (fun x => exists g, x = b ++ g /\ Q g)); [exists []; now rewrite app_nil_r|].
  intros b1 x b2 Hx (g & -> & Hg) F. destruct (H _ _ _ Hx F) as (g' & -> & Hg'). exists (g ++ g'). rewrite app_assoc. split; [reflexivity | now apply QA].
Qed.

Lemma pairs_in : forall A (l : list A) x y, In (x, y) (pairs_of l) -> In x l /\ In y l.
Proof.
  induction l as [|a l IH]; intros x y H; cbn [pairs_of] in H; [destruct H|]. apply in_app_iff in H. destruct H as [H|H].
  - apply in_map_iff in H. destruct H as (z & Q & Hz). injection Q as <- <-. split; [now left | now right].
  - destruct (IH x y H). split; now right.
Qed.

Section Parts.
Variables (E : runtime) (I : interactions) (c : configuration) (l : list (list Z)) (nb : basis) (y : dynamics) (Q : coo -> Prop) (ok : list Z -> Prop).
Hypothesis Hyc : y_conf y = c.
Hypothesis Hyn : y_neighbor y = nb.
Hypothesis Q0 : Q [].
Hypothesis QA : forall a b, Q a -> Q b -> Q (a ++ b).
Hypothesis QS : forall ham e i d h, In d l -> add_static c (y_single y) (y_dim y) ham e i d = Ok h -> exists g, h = ham ++ g /\ Q g.
Hypothesis QC : forall ham e d1 c1 d2 c2 h, ok d1 -> ok d2 ->
  add_coupling c (y_single y) (y_threshold y) (y_energy y) e (y_gs y) (y_dim y) ham ((d1, c1), (d2, c2)) = Ok h -> exists g, h = ham ++ g /\ Q g.
Hypothesis QK : forall det_A site spin new_spin pA pB dA det_B new_site dB pert lst, In det_A l -> In det_B (determinants nb) ->
  In spin [-1; 0; 1] -> In new_spin [-1; 0; 1] -> new_spin <> spin -> get_spin_site c det_A site = Ok spin -> 0 < count_of (b_conf nb) new_spin ->
  perturbed_A c spin new_spin = Ok pA -> perturbed_B c (b_conf nb) spin new_spin = Ok pB -> perturb E c pA det_A site spin new_spin = Ok dA ->
  perturb E (b_conf nb) pB det_B new_site new_spin spin = Ok dB -> extend_determinant E pA pB dA dB = Ok pert ->
  coupled E I (b_conf nb) pA pB (y_sur y) dA dB pert = Ok lst -> forall d x, In (d, x) lst -> ok d.

Let grown (a b : coo) : Prop := exists g, b = a ++ g /\ Q g.
Lemma grown_trans : forall a b d, grown a b -> grown b d -> grown a d.
Proof. intros a b d (g & -> & G) (g' & -> & G'). exists (g ++ g'). rewrite app_assoc. split; [reflexivity | now apply QA]. Qed.
Lemma grown_refl : forall a, grown a a.
Proof. intros a. exists []. now rewrite app_nil_r. Qed.

Lemma site_spin : forall d x s, get_spin_site c d x = Ok s -> In s [-1; 0; 1].
Proof.
  intros d x s H. unfold get_spin_site in H. apply bind_ok_inv in H. destruct H as (i & _ & H). injection H as <-.
  destruct (i <? nholes c); [cbn; auto|]. destruct (i <? _); cbn; auto.
Qed.

Lemma dynamic_parts : forall ham det_A h, In det_A l -> dynamic_part E I y ham det_A = Ok h -> grown ham h.
Proof.
  intros ham det_A h HA H. unfold dynamic_part in H. rewrite Hyc in H. apply bind_ok_inv in H. destruct H as ([h' mem] & H & R). injection R as <-.
  set (G := fun st : coo * memory => grown ham (fst st)). change (G (h', mem)). revert H. apply (foldM_keeps _ _ G); [apply grown_refl|].
  intros st site st' _ Hst H. apply bind_ok_inv in H. destruct H as (spin & Hs & H). revert H. apply (foldM_keeps _ _ G); [assumption|].
  clear st st' Hst h' mem. intros st new st' Hnew Hst H. apply filter_In in Hnew. destruct Hnew as [Hnew Hne]. apply negb_true_iff, Z.eqb_neq in Hne.
  unfold dynamic_exchange in H. rewrite Hyc, Hyn in H. destruct (Z.leb_spec (count_of (b_conf nb) new) 0) as [|Hpos]; [injection H as <-; assumption|].
  apply bind_ok_inv in H. destruct H as (pA & HpA & H). apply bind_ok_inv in H. destruct H as (pB & HpB & H). apply bind_ok_inv in H. destruct H as (dA & HdA & H).
  apply bind_ok_inv in H. destruct H as (near & _ & H). apply bind_ok_inv in H. destruct H as (far & _ & H).
  revert H. apply (foldM_keeps _ _ G); [assumption|]. clear st st' Hst. intros st det_B st' HB Hst H.
  revert H. apply (foldM_keeps _ _ G); [assumption|]. clear st st' Hst. intros [h mem] x st' _ Hst H. unfold G in Hst. cbn [fst] in Hst.
  unfold dynamic_site in H. rewrite Hyc, Hyn in H. apply bind_ok_inv in H. destruct H as (s & _ & H). destruct (negb (s =? new)); [injection H as <-; assumption|].
  apply bind_ok_inv in H. destruct H as (dB & HdB & H). apply bind_ok_inv in H. destruct H as (iA & _ & H). apply bind_ok_inv in H. destruct H as (iB & _ & H).
  apply bind_ok_inv in H. destruct H as ([mem'|] & _ & H); [|injection H as <-; assumption].
  apply bind_ok_inv in H. destruct H as (pert & Hp & H). apply bind_ok_inv in H. destruct H as (e & _ & H). apply bind_ok_inv in H. destruct H as (lst & Hl & H).
  apply bind_ok_inv in H. destruct H as (h1 & H1 & H). injection H as <-. unfold G. cbn [fst]. apply (grown_trans _ h); [assumption|].
  unfold grown. revert H1. apply foldM_parts; [assumption | assumption|]. intros b [[d1 c1] [d2 c2]] b' Hin F. apply pairs_in in Hin. destruct Hin as [I1 I2].
  pose proof (QK det_A site spin new pA pB dA det_B _ dB pert lst HA HB (site_spin _ _ _ Hs) Hnew Hne Hs Hpos HpA HpB HdA HdB Hp Hl) as OK.
  exact (QC b e d1 c1 d2 c2 b' (OK _ _ I1) (OK _ _ I2) F).
Qed.

Lemma dress_parts : forall dynamic pB ham h, dress_blocks E I (mkBasis c l) dynamic y pB ham = Ok h -> exists g, h = ham ++ g /\ Q g.
Proof.
  intros dynamic pB ham h. unfold dress_blocks. cbn [b_conf determinants]. apply foldM_parts; [assumption | assumption|].
  intros b [k d] b' Hk H. cbn [fst snd] in H. assert (Hd : In d l) by (apply in_enumerate in Hk; destruct Hk as [_ Hk]; eapply nth_error_In; exact Hk).
  apply bind_ok_inv in H. destruct H as (v & _ & H). apply bind_ok_inv in H. destruct H as (pA & _ & H). apply bind_ok_inv in H. destruct H as (x & _ & H).
  apply bind_ok_inv in H. destruct H as (h1 & H1 & H). apply (QS b x k d h1 Hd) in H1. destruct dynamic.
  - exact (grown_trans _ h1 _ H1 (dynamic_parts h1 d b' Hd H)).
  - injection H as <-. exact H1.
Qed.
End Parts.

Lemma add_both_inv : forall dim ham x t i j h, add_both dim ham x t i j = Ok h ->
  h = ham ++ (if qleb t (qabs x) then [(x, i, j); (x, j, i)] else []).
Proof.
  intros dim ham x t i j h H. unfold add_both in H. destruct (qleb t (qabs x)); [|injection H as <-; now rewrite app_nil_r].
  apply bind_ok_inv in H. destruct H as (h1 & H1 & H2). apply add_coo_inv in H1, H2. subst h1 h. now rewrite <- app_assoc.
Qed.

Lemma dress_symmetric : forall E I c l nb u full single thr energy gs dim dynamic pB ham h,
  dress_blocks E I (mkBasis c l) dynamic (mkDyn c nb u full single thr energy gs dim) pB ham = Ok h -> exists g, h = ham ++ g /\ symmetric_entries g.
Proof.
  intros E I c l nb u full single thr energy gs dim dynamic pB ham h.
  apply (dress_parts E I c l nb _ symmetric_entries (fun _ => True)); try reflexivity; try exact symmetric_nil; try exact symmetric_app; try (intros; exact Logic.I); cbn [y_single y_threshold y_energy y_gs y_dim].
  - intros ham0 e i d h0 _ H. unfold add_static in H. destruct single.
    + apply add_coo_inv in H. subst. eexists. split; [reflexivity | apply symmetric_one].
    + revert H. apply foldM_parts; [exact symmetric_nil | exact symmetric_app|]. intros b r b' _ H. apply bind_ok_inv in H. destruct H as (k & _ & H).
      apply add_coo_inv in H. subst. eexists. split; [reflexivity | apply symmetric_one].
  - intros ham0 e d1 c1 d2 c2 h0 _ _ H. unfold add_coupling in H. apply bind_ok_inv in H. destruct H as (i1 & _ & H). apply bind_ok_inv in H. destruct H as (i2 & _ & H).
    apply bind_ok_inv in H. destruct H as (g1 & _ & H). apply bind_ok_inv in H. destruct H as (g2 & _ & H). apply bind_ok_inv in H. destruct H as (x & _ & H).
    assert (B : forall ham i j h, add_both dim ham x thr i j = Ok h -> exists g, h = ham ++ g /\ symmetric_entries g).
    { intros ham1 i j h1 F. apply add_both_inv in F. subst. eexists. split; [reflexivity|]. destruct (qleb _ _); [apply symmetric_two | exact symmetric_nil]. }
    destruct single.
    + apply bind_ok_inv in H. destruct H as (k1 & _ & H). apply bind_ok_inv in H. destruct H as (k2 & _ & H). exact (B _ _ _ _ H).
    + revert H. apply foldM_parts; [exact symmetric_nil | exact symmetric_app|]. intros b r b' _ H. apply bind_ok_inv in H. destruct H as (k1 & _ & H).
      apply bind_ok_inv in H. destruct H as (k2 & _ & H). exact (B _ _ _ _ H).
Qed.

(** ** The determinants met *)

Lemma make_inv : forall bm h b r lt x v s c', make_configuration bm h b r lt x v s = Ok c' ->
  bond_matrix c' = bm /\ nsites c' = mrows bm /\ nholes c' = h /\ nbeta c' = b /\
  (forall p q, r = RTuple p q -> restr_falsy r = false -> sites_restriction c' = RTuple p q).
Proof.
  intros bm h b r lt x v s c' H. unfold make_configuration in H. destruct (mrows bm =? 0); [discriminate|].
  apply bind_ok_inv in H. destruct H as (r' & Hr & H). injection H as <-. cbn [bond_matrix nsites nholes nbeta sites_restriction].
  split; [reflexivity|]. split; [reflexivity|]. split; [reflexivity|]. split; [reflexivity|]. intros p q -> Q. rewrite Q in Hr. now injection Hr as <-.
Qed.

Lemma make_whole : forall bm h b lt x v s c' n, make_configuration bm h b (RTuple (zrange 0 n) (zrange 0 n)) lt x v s = Ok c' -> mrows bm = n ->
  0 <= h -> 0 <= b -> whole c' n.
Proof.
  intros bm h b lt x v s c' n H N Hh Hb. destruct (make_inv _ _ _ _ _ _ _ _ _ H) as (_ & A & B & C & D).
  split; [now rewrite A|]. split; [lia|]. split; [lia|]. apply D; [reflexivity|]. reflexivity.
Qed.

Lemma proper_whole : forall c, proper c -> whole c (nsites c).
Proof. intros c (A & B & _ & _ & _ & R). split; [reflexivity|]. auto. Qed.

Lemma site_count : forall c d x s, 0 <= nholes c -> 0 <= nbeta c -> get_spin_site c d x = Ok s -> (s = 0 -> 0 < nholes c) /\ (s = -1 -> 0 < nbeta c).
Proof.
  intros c d x s Hh Hb H. unfold get_spin_site in H. apply bind_ok_inv in H. destruct H as (i & Hi & H). apply py_index_spec in Hi. destruct Hi as [Hi _]. injection H as <-.
  destruct (Z.ltb_spec i (nholes c)); [split; intros; lia|]. destruct (Z.ltb_spec i (nholes c + nbeta c)); split; intros; lia.
Qed.

Lemma reversed_perm : forall E c n d c' d', set_iter_ok E -> whole c n -> mrows (bond_matrix c) = n -> 0 <= nalpha c -> Permutation d (zrange 0 n) ->
  reverse_spins E c d = Ok (c', d') -> whole c' n /\ bond_matrix c' = bond_matrix c /\ nholes c' = nholes c /\ nbeta c' = nalpha c /\ Permutation d' (zrange 0 n).
Proof.
  intros E c n d c' d' HE W M Ha P H. unfold reverse_spins in H. apply bind_ok_inv in H. destruct H as (c1 & Hc & H).
  apply bind_ok_inv in H. destruct H as (h & Gh & H). apply bind_ok_inv in H. destruct H as (a & Ga & H). apply bind_ok_inv in H. destruct H as (b & Gb & H).
  injection H as <- <-. pose proof W as (N & Hh & Hb & R). rewrite R in Hc. pose proof (make_whole _ _ _ _ _ _ _ _ n Hc M Hh Ha) as W'.
  destruct (make_inv _ _ _ _ _ _ _ _ _ Hc) as (A & _ & B & C & _). split; [assumption|]. split; [assumption|]. split; [assumption|]. split; [assumption|].
  destruct W' as (_ & H1 & H2 & _). rewrite (reorder_perm c1 _ H1 H2). rewrite <- P, <- (three_groups E c n d h b a HE W P Gh Gb Ga).
  apply Permutation_app_head, Permutation_app_comm.
Qed.

Lemma neighbor_whole : forall E c l r nb n, set_iter_ok E -> whole c n -> mrows (bond_matrix c) = n -> 0 <= nalpha c -> Forall (fun d => Permutation d (zrange 0 n)) l ->
  neighbor_basis E (mkBasis c l) r = Ok nb ->
  whole (b_conf nb) n /\ bond_matrix (b_conf nb) = bond_matrix c /\ nholes (b_conf nb) = nholes c /\ nbeta (b_conf nb) = (if r : bool then nalpha c else nbeta c) /\
  Forall (fun d => Permutation d (zrange 0 n)) (determinants nb).
Proof.
  intros E c l r nb n HE W M Ha P H. unfold neighbor_basis in H. destruct r.
  - unfold reverse_spins_basis in H. cbn [determinants b_conf] in H. apply bind_ok_inv in H. destruct H as (d0 & Hd0 & H). apply bind_ok_inv in H. destruct H as ([c' d1] & H1 & H).
    apply bind_ok_inv in H. destruct H as (ds & Hds & H). injection H as <-. cbn [b_conf determinants]. rewrite Forall_forall in P.
    destruct (reversed_perm E c n d0 c' d1 HE W M Ha (P d0 (py_get_In _ _ _ _ Hd0)) H1) as (A & B & C & D & _).
    split; [assumption|]. split; [assumption|]. split; [assumption|]. split; [assumption|].
    revert Hds. apply mapM_all. intros d d' Hd Q. apply bind_ok_inv in Q. destruct Q as ([c2 d2] & Q1 & Q2). injection Q2 as <-.
    destruct (reversed_perm E c n d c2 d2 HE W M Ha (P d Hd) Q1) as (_ & _ & _ & _ & F). exact F.
  - injection H as <-. cbn [b_conf determinants]. auto.
Qed.

Lemma surroundings_inv : forall E c cn u full, block_surroundings E c cn = Ok (u, full) ->
  build_bond_matrix_block_embedding (nbh c) (nbv c) (nblocs_side c) = Ok (bond_matrix (u_conf u)) /\
  nholes (u_conf u) = nholes c + nholes cn /\ nbeta (u_conf u) = nbeta c + nbeta cn.
Proof.
  intros E c cn u full H. unfold block_surroundings in H. apply bind_ok_inv in H. destruct H as (bm & Hbm & H).
  apply bind_ok_inv in H. destruct H as (fA & _ & H). apply bind_ok_inv in H. destruct H as (fB & _ & H).
  apply bind_ok_inv in H. destruct H as (cu & Hcu & H). apply bind_ok_inv in H. destruct H as (cf & _ & H). injection H as <- _. cbn [u_conf].
  destruct (make_inv _ _ _ _ _ _ _ _ _ Hcu) as (A & _ & B & C & _). rewrite A. auto.
Qed.

Section Turned.
Variables (E : runtime) (I : interactions) (c : configuration) (l : list (list Z)).
Hypothesis HE : set_iter_ok E.
Hypothesis HZ : sized c.
Hypothesis P : proper c.
Hypothesis SQ : nbh c = nbv c.
Hypothesis HB : construct_basis c = Ok (mkBasis c l).

Lemma is_square : square c.
Proof. pose proof (sized_n c HZ) as N. destruct HZ as (H1 & H2 & H3 & _). constructor; [assumption|lia|lia|]. rewrite N, Z.pow_2_r. ring. Qed.

Lemma basis_described : forall d, In d l -> exists s, describes (nsites c) (nholes c) (nbeta c) d s.
Proof.
  intros d Hd. destruct (basis_listed c l P HB) as (_ & _ & Ls). apply In_nth_error in Hd. destruct Hd as (k & Hk). eexists. exact (Ls k d Hk).
Qed.

Lemma basis_perm : Forall (fun d => Permutation d (zrange 0 (nsites c))) l.
Proof.
  apply Forall_forall. intros d Hd. destruct (basis_described d Hd) as (s & D). apply NoDup_Permutation; [eapply describes_NoDup; exact D | apply zrange_NoDup|].
  intros x. rewrite in_zrange. eapply describes_In. exact D.
Qed.

Lemma diagonal_zero : forall m, build_bond_matrix_block_embedding (nbh c) (nbv c) (nblocs_side c) = Ok m ->
  mrows m = 2 * nsites c /\ mcols m = 2 * nsites c /\ forall i, 0 <= i < 2 * nsites c -> mat_at m i i <> 1.
Proof.
  intros m Hm. pose proof (sized_n c HZ) as N. destruct HZ as (H1 & H2 & H3 & _). destruct (blocks_is _ _ _ H1 H2 H3) as (m' & Hm' & R & C & G).
  rewrite Hm in Hm'. injection Hm' as <-. replace (nblocs_side c * nbh c * (nblocs_side c * nbv c)) with (nsites c) in R, C, G by (rewrite N; ring).
  split; [assumption|]. split; [assumption|]. intros i Hi. rewrite G by assumption.
  destruct (adjb _ _) eqn:A; [|discriminate]. apply adjb_iff in A. exfalso. revert A. unfold adjacent. lia.
Qed.

Lemma dress_turned : forall r nb u full thr energy gs dim dynamic pb ham h, (dynamic = true -> r = true -> nalpha c = nbeta c) ->
  neighbor_basis E (mkBasis c l) r = Ok nb -> block_surroundings E c (b_conf nb) = Ok (u, full) ->
  dress_blocks E I (mkBasis c l) dynamic (mkDyn c nb u full false thr energy gs dim) pb ham = Ok h -> exists g, h = ham ++ g /\ turned_entries c g.
Proof.
  intros r nb u full thr energy gs dim dynamic pb ham h Bal Hnb Hu.
  pose proof is_square as Hc. pose proof (proper_n c P) as Hn. pose proof P as (P1 & P2 & P3 & P4 & _).
  assert (HM : mrows (bond_matrix c) = nsites c) by (destruct HZ as (_ & _ & _ & _ & M & _); now rewrite M).
  destruct (neighbor_whole E c l r nb (nsites c) HE (proper_whole c P) HM P3 basis_perm Hnb) as (Wn & Mn & Hn1 & Hn2 & Pn).
  assert (St : forall ham e i d h, In d l -> add_static c false dim ham e i d = Ok h -> exists g, h = ham ++ g /\ turned_entries c g).
  { intros ham0 e i d h0 Hd H. destruct (basis_described d Hd) as (s & D). exists (orbit c e s s). split; [|apply orbit_turned; [assumption | eapply describes_sector; exact D | eapply describes_sector; exact D]].
    unfold add_static, orbit in *. revert H. change (zrange 0 4) with [0; 1; 2; 3]. cbn [foldM map]. rewrite !(rotated_ix c Hc d s _ D). cbn [bind]. intros H.
    apply bind_ok_inv in H. destruct H as (h1 & H1 & H). apply bind_ok_inv in H. destruct H as (h2 & H2 & H). apply bind_ok_inv in H. destruct H as (h3 & H3 & H).
    apply bind_ok_inv in H. destruct H as (h4 & H4 & H). injection H as <-. apply add_coo_inv in H1, H2, H3, H4. subst. now rewrite <- !app_assoc. }
  destruct dynamic.
  2:{ unfold dress_blocks. cbn [b_conf determinants y_single y_dim]. apply foldM_parts; [apply turned_nil | apply turned_app|]. intros b [k d] b' Hk H. cbn [fst snd] in H.
      assert (Hd : In d l) by (apply in_enumerate in Hk; destruct Hk as [_ Hk]; eapply nth_error_In; exact Hk).
      apply bind_ok_inv in H. destruct H as (v & _ & H). apply bind_ok_inv in H. destruct H as (pA & _ & H). apply bind_ok_inv in H. destruct H as (x & _ & H).
      apply bind_ok_inv in H. destruct H as (h1 & H1 & H). injection H as <-. exact (St b x k d h1 Hd H1). }
  apply (dress_parts E I c l nb _ (turned_entries c) (fun d => Permutation d (zrange 0 (2 * nsites c)))); try reflexivity; try apply turned_nil; try apply turned_app; cbn [y_single y_threshold y_energy y_gs y_dim y_sur].
  - exact St.
  - intros ham0 e d1 c1 d2 c2 h0 D1 D2 H. unfold add_coupling in H. apply bind_ok_inv in H. destruct H as (i1 & _ & H). apply bind_ok_inv in H. destruct H as (i2 & _ & H).
    apply bind_ok_inv in H. destruct H as (g1 & _ & H). apply bind_ok_inv in H. destruct H as (g2 & _ & H). apply bind_ok_inv in H. destruct H as (x & _ & H).
    destruct (perm_describes (nsites c) (nholes c) (nbeta c) _ P1 P2 ltac:(lia) (part_perm _ _ Hn D1)) as (s & Ds).
    destruct (perm_describes (nsites c) (nholes c) (nbeta c) _ P1 P2 ltac:(lia) (part_perm _ _ Hn D2)) as (t & Dt).
    pose proof (describes_sector _ _ _ _ _ Ds) as Ss. pose proof (describes_sector _ _ _ _ _ Dt) as St'.
    revert H. change (zrange 0 4) with [0; 1; 2; 3]. cbn [foldM]. rewrite !(rotated_ix c Hc _ s _ Ds), !(rotated_ix c Hc _ t _ Dt). cbn [bind]. intros H.
    apply bind_ok_inv in H. destruct H as (h1 & H1 & H). apply bind_ok_inv in H. destruct H as (h2 & H2 & H). apply bind_ok_inv in H. destruct H as (h3 & H3 & H).
    apply bind_ok_inv in H. destruct H as (h4 & H4 & H). injection H as <-. apply add_both_inv in H1, H2, H3, H4. subst. destruct (qleb thr (qabs x)).
    + eexists. split; [rewrite <- !app_assoc; reflexivity|].
      intros k a b Sa Sb. rewrite !app_assoc. pose proof (orbit_turned c Hc x s t Ss St' k a b Sa Sb) as T1. pose proof (orbit_turned c Hc x t s St' Ss k a b Sa Sb) as T2.
      unfold orbit in T1, T2. change (zrange 0 4) with [0; 1; 2; 3] in T1, T2. cbn [map] in T1, T2. cbn [app]. unfold coo_at in *. rewrite !qsum_cons, !qsum_nil in *.
      match goal with |- ?a = ?b => assert (Q : forall A1 A2 A3 A4 B1 B2 B3 B4 : Qc, (A1 + (B1 + (A2 + (B2 + (A3 + (B3 + (A4 + (B4 + 0))))))) = (A1 + (A2 + (A3 + (A4 + 0)))) + (B1 + (B2 + (B3 + (B4 + 0)))))%Qc) by (intros; ring) end.
      rewrite !Q. rewrite T1, T2. reflexivity.
    + exists []. rewrite !app_nil_r. split; [reflexivity | apply turned_nil].
  - intros det_A site spin new pA pB dA det_B nsite dB pert lst IA IB Is Inw Nn Hs Hpos HpA HpB HdA HdB Hp Hl d x Hd.
    destruct (site_count c det_A site spin P1 P2 Hs) as [C0 C1].
    assert (Eb : nbeta (b_conf nb) = nbeta c) by (rewrite Hn2; destruct r; [apply Bal; reflexivity | reflexivity]).
    pose proof P as (_ & _ & _ & _ & _ & PR). unfold perturbed_A in HpA. rewrite PR in HpA.
    assert (WA : whole pA (nsites c)).
    { apply (make_whole _ _ _ _ _ _ _ pA (nsites c) HpA HM); unfold count_of; cbn [Z.eqb Pos.eqb];
        cbn [In] in Is, Inw; destruct Is as [<-|[<-|[<-|[]]]], Inw as [<-|[<-|[<-|[]]]]; try lia; cbn [Z.eqb Pos.eqb]; lia. }
    unfold perturbed_B in HpB. destruct Wn as (Wn1 & Wn2 & Wn3 & Wn4). rewrite Wn4 in HpB. cbn [swap_restriction bind] in HpB.
    assert (WB : whole pB (nsites c)).
    { apply (make_whole _ _ _ _ _ _ _ pB (nsites c) HpB); [now rewrite Mn| |]; unfold count_of in *; cbn [Z.eqb Pos.eqb] in *;
        cbn [In] in Is, Inw; destruct Is as [<-|[<-|[<-|[]]]], Inw as [<-|[<-|[<-|[]]]]; try lia; cbn [Z.eqb Pos.eqb] in *; lia. }
    pose proof basis_perm as BP. rewrite Forall_forall in BP, Pn.
    assert (PA : Permutation dA (zrange 0 (nsites c))).
    { destruct WA as (_ & A1 & A2 & _). apply (perturb_perm E c pA (nsites c) det_A site spin new dA HE (proper_whole c P) A1 A2 (BP _ IA) Is Inw); [congruence | assumption]. }
    assert (PB : Permutation dB (zrange 0 (nsites c))).
    { destruct WB as (_ & A1 & A2 & _). apply (perturb_perm E (b_conf nb) pB (nsites c) det_B nsite new spin dB HE); try assumption; [split; auto | now apply Pn]. }
    pose proof (extend_perm E pA pB (nsites c) dA dB pert HE Hn WA WB PA PB Hp) as PP.
    destruct (surroundings_inv E c (b_conf nb) u full Hu) as (HU & U1 & U2). destruct (diagonal_zero _ HU) as (D1 & D2 & D3).
    unfold coupled in Hl. apply bind_ok_inv in Hl. destruct Hl as (inB & _ & Hl). apply bind_ok_inv in Hl. destruct Hl as (inA & _ & Hl). apply bind_ok_inv in Hl. destruct Hl as (sw & _ & Hl).
    apply (dynamic_perm E _ (2 * nsites c) HE) in Hl; cbn [nholes nbeta bond_matrix with_restriction]; try lia; try assumption.
    rewrite Forall_forall in Hl. rewrite <- PP. exact (Hl (d, x) Hd).
Qed.
End Turned.
