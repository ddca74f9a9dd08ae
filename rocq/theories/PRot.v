(** Moving determinants by a permutation of the sites, rotations, and scattering of vectors. *)
From Coq Require Import ZArith List Bool Lia Permutation Sorted.
From Verif Require Import PyBase PyFacts Lattice Base Spec PHash PBasis PSites.
Import ListNotations.
Open Scope Z_scope.

Lemma nth_error_ext : forall A (l m : list A), (forall i, nth_error l i = nth_error m i) -> l = m.
Proof.
  induction l as [|x l IH]; intros [|y m] H.
  - reflexivity.
  - specialize (H 0%nat). discriminate.
  - specialize (H 0%nat). discriminate.
  - f_equal; [specialize (H 0%nat); now inversion H | apply IH; intros i; exact (H (S i))].
Qed.

(** ** Scatter *)

Section Scatter.
Variables (A D : Type) (v : list A) (f : D -> Z) (N : Z).
Variable step : list A -> Z * D -> res (list A).
Hypothesis Hv : zlen v = N.

Lemma scatter_suffix : forall suf k w,
  (forall acc i d, In d suf -> step acc (i, d) = (x <- py_get v i ;; py_set acc (f d) x)) ->
  0 <= k -> k + zlen suf <= N -> zlen w = N ->
  NoDup (map f suf) -> (forall d, In d suf -> 0 <= f d < N) ->
  exists w', foldM step w (combine (zrange k (k + zlen suf)) suf) = Ok w' /\ zlen w' = N /\
    (forall i d, nth_error suf i = Some d -> nth_error w' (Z.to_nat (f d)) = nth_error v (Z.to_nat k + i)) /\
    (forall j, ~ In j (map f suf) -> 0 <= j -> nth_error w' (Z.to_nat j) = nth_error w (Z.to_nat j)).
Proof.
  induction suf as [|d suf IH]; intros k w Hs Hk HN Hw ND HB.
  - exists w. destruct (zrange k (k + zlen (@nil D))); simpl; (split; [reflexivity|split; [assumption|]]);
      (split; [intros i d Hd; destruct i; discriminate | reflexivity]).
  - rewrite zlen_cons in *. pose proof (zlen_nonneg _ suf).
    rewrite zrange_cons by lia. cbn [combine foldM].
    rewrite Hs by now left.
    destruct (nth_error v (Z.to_nat k)) as [x|] eqn:Ex;
      [|apply nth_error_None in Ex; unfold zlen in *; lia].
    rewrite (py_get_nth _ _ _ x) by assumption. cbn [bind].
    rewrite py_set_ok by (rewrite Hw; apply HB; now left). cbn [bind].
    inversion ND as [|? ? Hnin ND']; subst.
    replace (k + (zlen suf + 1)) with ((k + 1) + zlen suf) by lia.
    destruct (IH (k + 1) (set_nth w (Z.to_nat (f d)) x)) as (w' & E & L & P & Q).
    + intros acc i d' Hd'. apply Hs. now right.
    + lia.
    + lia.
    + unfold zlen in *. now rewrite set_nth_length.
    + assumption.
    + intros d' Hd'. apply HB. now right.
    + exists w'. split; [exact E|]. split; [assumption|]. split.
      * intros [|i] d' Hd'; simpl in Hd'.
        -- inversion Hd'; subst d'. rewrite Nat.add_0_r, Ex.
           rewrite Q by (auto; apply HB; now left). apply set_nth_same.
           pose proof (HB d (or_introl eq_refl)). unfold zlen in *. lia.
        -- rewrite (P i d' Hd'). f_equal. lia.
      * intros j Hj Hj0. simpl in Hj. rewrite Q by tauto. apply set_nth_other.
        pose proof (HB d (or_introl eq_refl)). intros C. apply Hj. left. lia.
Qed.

Lemma scatter_ok : forall l w,
  (forall acc i d, In d l -> step acc (i, d) = (x <- py_get v i ;; py_set acc (f d) x)) ->
  zlen l = N -> zlen w = N -> NoDup (map f l) -> (forall d, In d l -> 0 <= f d < N) ->
  exists w', foldM step w (enumerate l) = Ok w' /\ zlen w' = N /\ Permutation w' v /\
    (forall i d, nth_error l i = Some d -> nth_error w' (Z.to_nat (f d)) = nth_error v i).
Proof.
  intros l w Hs Hl Hw ND HB.
  destruct (scatter_suffix l 0 w Hs ltac:(lia) ltac:(lia) Hw ND HB) as (w' & E & L & P & _).
  exists w'. rewrite Z.add_0_l in E. split; [exact E|]. split; [assumption|].
  simpl in P. split; [|exact P].
  (* both lists are images of permutations of positions *)
  set (g := fun j => nth_error w' (Z.to_nat j)).
  assert (Ev : map Some v = map (fun d => g (f d)) l).
  { apply nth_error_ext. intros i. rewrite !nth_error_map.
    destruct (nth_error l i) as [d|] eqn:Ed; cbn [option_map].
    - rewrite <- (P i d Ed). unfold g. destruct (nth_error w' (Z.to_nat (f d))) eqn:Ew; [reflexivity|].
      exfalso. apply nth_error_None in Ew. apply nth_error_In in Ed. pose proof (HB d Ed). unfold zlen in *; lia.
    - apply nth_error_None in Ed. assert (nth_error v i = None) as -> by (apply nth_error_None; unfold zlen in *; lia).
      reflexivity. }
  assert (Ew : map Some w' = map g (zrange 0 N)).
  { apply nth_error_ext. intros i. rewrite !nth_error_map. unfold zrange. rewrite nth_error_map.
    destruct (Nat.lt_ge_cases i (Z.to_nat N)) as [Hi|Hi].
    - rewrite (nth_error_nth' (seq 0 (Z.to_nat (N - 0))) 0%nat) by (rewrite seq_length; lia).
      cbn [option_map]. rewrite seq_nth by lia. unfold g. rewrite Z.add_0_l, Nat2Z.id, Nat.add_0_l.
      destruct (nth_error w' i) eqn:Ei; [reflexivity|]. apply nth_error_None in Ei. unfold zlen in *; lia.
    - assert (nth_error w' i = None) as -> by (apply nth_error_None; unfold zlen in *; lia).
      assert (nth_error (seq 0 (Z.to_nat (N - 0))) i = None) as -> by (apply nth_error_None; rewrite seq_length; lia).
      reflexivity. }
  assert (PP : Permutation (map f l) (zrange 0 N)).
  { apply NoDup_Permutation_bis; [assumption | | ].
    - rewrite map_length, zrange_length. unfold zlen in *. lia.
    - intros j Hj. apply in_map_iff in Hj. destruct Hj as (d & <- & Hd). apply in_zrange. now apply HB. }
  assert (QQ : Permutation (map Some w') (map Some v)).
  { rewrite Ev, Ew. rewrite <- (map_map f g). apply Permutation_map. now apply Permutation_sym. }
  apply (Permutation_map (fun o => match o with Some a => [a] | None => @nil A end)) in QQ.
  rewrite !map_map in QQ.
  assert (C : forall u : list A, concat (map (fun a => [a]) u) = u) by (induction u; simpl; congruence).
  rewrite <- (C w'), <- (C v). clear - QQ. revert QQ. generalize (map (fun a : A => [a]) w'), (map (fun a : A => [a]) v).
  intros a b H. induction H; simpl; auto.
  - now apply Permutation_app_head.
  - rewrite !app_assoc. apply Permutation_app_tail, Permutation_app_comm.
  - eapply Permutation_trans; eauto.
Qed.
End Scatter.

(** ** Site maps *)

(** [rho] and [rho'] are inverse bijections of the sites *)
Definition site_bij (n : Z) (rho rho' : Z -> Z) : Prop :=
  forall x, 0 <= x < n -> 0 <= rho x < n /\ 0 <= rho' x < n /\ rho' (rho x) = x /\ rho (rho' x) = x.

Lemma map_describes : forall n h b d s rho rho', site_bij n rho rho' ->
  describes n h b d s -> describes n h b (map rho d) (fun x => s (rho' x)).
Proof.
  intros n h b d s rho rho' HB (hs & bs & us & -> & Lh & Lb & Nh & Nb & Nu & Ih & Ib & Iu).
  assert (G : forall l p, NoDup l -> (forall x, In x l <-> 0 <= x < n /\ s x = p) ->
    NoDup (map rho l) /\ (forall x, In x (map rho l) <-> 0 <= x < n /\ s (rho' x) = p)).
  { intros l p ND I. split.
    - apply NoDup_map_on; [|assumption]. intros x y Hx Hy E. apply I in Hx, Hy.
      destruct Hx as [Hx _], Hy as [Hy _]. destruct (HB x Hx) as (_ & _ & A & _), (HB y Hy) as (_ & _ & B & _). congruence.
    - intros x. rewrite in_map_iff. split.
      + intros (y & <- & Hy). apply I in Hy. destruct Hy as [Hy Q]. destruct (HB y Hy) as (A1 & _ & A2 & _).
        rewrite A2. auto.
      + intros [Hx Q]. destruct (HB x Hx) as (_ & A1 & _ & A2). exists (rho' x). split; [assumption|]. apply I. auto. }
  destruct (G _ _ Nh Ih), (G _ _ Nb Ib), (G _ _ Nu Iu).
  exists (map rho hs), (map rho bs), (map rho us). rewrite !map_app, !map_length. auto 10.
Qed.

Lemma bij_sym : forall n r r', site_bij n r r' -> site_bij n r' r.
Proof. intros n r r' H x Hx. destruct (H x Hx) as (A & B & C & D). auto. Qed.

Lemma bij_sector : forall n h b s rho rho', site_bij n rho rho' ->
  in_sector n h b s -> in_sector n h b (fun x => s (rho' x)).
Proof.
  intros n h b s rho rho' HB H. eapply describes_sector. eapply map_describes; [exact HB|].
  now apply canon_describes.
Qed.

(** ** Rotations *)

Section Rot.
Variables w h : Z.
Hypothesis Hw : 0 < w.
Hypothesis Hh : 0 < h.

Lemma half_bij : site_bij (w * h) (fun x => w * h - 1 - x) (fun x => w * h - 1 - x).
Proof. intros x Hx. lia. Qed.
End Rot.

Section RotSq.
Variable w : Z.
Hypothesis Hw : 0 < w.

Definition rot1 (x : Z) : Z := w * (w - 1 - x mod w) + x / w.
Definition rot3 (x : Z) : Z := (x mod w) * w + w - 1 - x / w.
Definition rot2 (x : Z) : Z := w * w - 1 - x.

Lemma site_point : forall x, 0 <= x -> site w (point w x) = x.
Proof. intros x Hx. unfold site, point. simpl. pose proof (Z.div_mod x w). lia. Qed.

Lemma site_bound : forall a b, 0 <= a < w -> 0 <= b < w -> 0 <= site w (a, b) < w * w.
Proof. intros. unfold site. simpl. nia. Qed.

Lemma point_bound : forall x, 0 <= x < w * w -> 0 <= x mod w < w /\ 0 <= x / w < w.
Proof.
  intros x Hx. split; [apply Z.mod_pos_bound; lia|]. split; [apply Z.div_pos; lia|].
  apply Z.div_lt_upper_bound; lia.
Qed.

Lemma point_site : forall a b, 0 <= a < w -> 0 <= b < w -> point w (site w (a, b)) = (a, b).
Proof.
  intros a b Ha Hb. unfold point, site. simpl. f_equal.
  - rewrite Z.add_comm, Z_mod_plus_full. now apply Z.mod_small.
  - rewrite Z.add_comm, Z_div_plus_full by lia. rewrite Z.div_small; lia.
Qed.

Lemma site_mod : forall a b, 0 <= a < w -> 0 <= b < w -> site w (a, b) mod w = a.
Proof. intros a b Ha Hb. pose proof (point_site a b Ha Hb) as P. unfold point in P. congruence. Qed.
Lemma site_div : forall a b, 0 <= a < w -> 0 <= b < w -> site w (a, b) / w = b.
Proof. intros a b Ha Hb. pose proof (point_site a b Ha Hb) as P. unfold point in P. congruence. Qed.

Lemma rot1_site : forall a b, 0 <= a < w -> 0 <= b < w -> rot1 (site w (a, b)) = site w (b, w - 1 - a).
Proof. intros. unfold rot1. rewrite site_mod, site_div by assumption. unfold site. simpl. lia. Qed.
Lemma rot3_site : forall a b, 0 <= a < w -> 0 <= b < w -> rot3 (site w (a, b)) = site w (w - 1 - b, a).
Proof. intros. unfold rot3. rewrite site_mod, site_div by assumption. unfold site. simpl. lia. Qed.
Lemma rot2_site : forall a b, rot2 (site w (a, b)) = site w (w - 1 - a, w - 1 - b).
Proof. intros. unfold rot2, site. simpl. lia. Qed.

Lemma on_sites : forall P : Z -> Prop,
  (forall a b, 0 <= a < w -> 0 <= b < w -> P (site w (a, b))) -> forall x, 0 <= x < w * w -> P x.
Proof.
  intros P H x Hx. rewrite <- (site_point x) by lia. destruct (point_bound x Hx). now apply H.
Qed.

Lemma rot1_bij : site_bij (w * w) rot1 rot3.
Proof.
  intros x Hx. pattern x. revert x Hx. apply on_sites. intros a b Ha Hb.
  rewrite rot1_site, rot3_site by assumption.
  split; [apply site_bound; lia|]. split; [apply site_bound; lia|].
  rewrite rot3_site, rot1_site by lia. split; f_equal; f_equal; lia.
Qed.

Definition rot (k : Z) (x : Z) : Z :=
  if k mod 4 =? 1 then rot1 x else if k mod 4 =? 2 then rot2 x else if k mod 4 =? 3 then rot3 x else x.

Lemma mod4_cases : forall k, k mod 4 = 0 \/ k mod 4 = 1 \/ k mod 4 = 2 \/ k mod 4 = 3.
Proof. intros k. pose proof (Z.mod_pos_bound k 4). lia. Qed.

Lemma rot_site : forall k a b, 0 <= a < w -> 0 <= b < w ->
  rot k (site w (a, b)) = site w (turns (Z.to_nat (k mod 4)) w (a, b)).
Proof.
  intros k a b Ha Hb. unfold rot.
  destruct (mod4_cases k) as [E|[E|[E|E]]]; rewrite E; simpl; unfold quarter; simpl.
  - reflexivity.
  - now apply rot1_site.
  - rewrite rot2_site. f_equal.
  - rewrite rot3_site by assumption. f_equal. f_equal; lia.
Qed.

Lemma turns_bound : forall k a b, 0 <= a < w -> 0 <= b < w ->
  0 <= fst (turns k w (a, b)) < w /\ 0 <= snd (turns k w (a, b)) < w.
Proof. induction k; intros a b Ha Hb; simpl; [auto|]. destruct (IHk a b Ha Hb). lia. Qed.

Lemma turns_add : forall j k p, turns (j + k) w p = turns j w (turns k w p).
Proof. induction j; intros; simpl; [reflexivity|]. now rewrite IHj. Qed.

Lemma turns4 : forall p, turns 4 w p = p.
Proof. intros [a b]. simpl. unfold quarter. simpl. f_equal; lia. Qed.

Lemma turns_mod : forall j p, turns (Z.to_nat (Z.of_nat j mod 4)) w p = turns j w p.
Proof.
  intros j p. rewrite (Nat.div_mod j 4) at 2 by lia.
  rewrite (Nat.mul_comm 4), Nat.add_comm, turns_add.
  assert (Q : forall q p, turns (q * 4) w p = p).
  { induction q; intros; [reflexivity|]. replace (S q * 4)%nat with (4 + q * 4)%nat by lia.
    rewrite turns_add, turns4. apply IHq. }
  rewrite Q. f_equal. rewrite <- (Nat2Z.id (j mod 4)). now rewrite Nat2Z.inj_mod.
Qed.

Lemma rot_add : forall j k x, 0 <= x < w * w -> rot j (rot k x) = rot (j + k) x.
Proof.
  intros j k x Hx. pattern x. revert x Hx. apply on_sites. intros a b Ha Hb.
  rewrite (rot_site k), (rot_site (j + k)) by assumption.
  destruct (turns_bound (Z.to_nat (k mod 4)) a b Ha Hb).
  destruct (turns (Z.to_nat (k mod 4)) w (a, b)) as [a' b'] eqn:E. simpl in *.
  rewrite rot_site by assumption. rewrite <- E, <- turns_add. f_equal.
  rewrite <- (turns_mod (_ + _)). f_equal. f_equal.
  rewrite Nat2Z.inj_add, !Z2Nat.id by (apply Z.mod_pos_bound; lia). now rewrite <- Zplus_mod.
Qed.

Lemma rot_bound : forall k x, 0 <= x < w * w -> 0 <= rot k x < w * w.
Proof.
  intros k x Hx. pattern x. revert x Hx. apply on_sites. intros a b Ha Hb. rewrite rot_site by assumption.
  destruct (turns_bound (Z.to_nat (k mod 4)) a b Ha Hb). destruct (turns _ w (a, b)); now apply site_bound.
Qed.

Lemma rot_0 : forall x, rot 0 x = x. Proof. reflexivity. Qed.

Lemma rot_bij : forall k, site_bij (w * w) (rot k) (rot (- k)).
Proof.
  intros k x Hx. split; [now apply rot_bound|]. split; [now apply rot_bound|].
  rewrite !rot_add by assumption. rewrite Z.add_opp_diag_l, Z.add_opp_diag_r. split; apply rot_0.
Qed.
End RotSq.

Record square (c : configuration) : Prop := {
  sq_eq : nbh c = nbv c;
  sq_h : 0 < nbh c;
  sq_s : 0 < nblocs_side c;
  sq_n : nsites c = nbh c * nbv c * nblocs_side c ^ 2 }.

Definition side (c : configuration) : Z := nbh c * nblocs_side c.

Lemma square_n : forall c, square c -> nsites c = side c * side c.
Proof. intros c [E _ _ N]. rewrite N, <- E. unfold side. rewrite Z.pow_2_r. ring. Qed.
Lemma square_side : forall c, square c -> 0 < side c.
Proof. intros c [_ H S _]. unfold side. nia. Qed.

Lemma rotate_map : forall k c d, square c -> k mod 4 <> 0 ->
  rotate_determinant k c d = reorder_basis_element c (map (rot (side c) k) d).
Proof.
  intros k c d Hc Hk. unfold rotate_determinant, rot. destruct Hc as [E H S N].
  assert (V : nbv c * nblocs_side c = side c) by (unfold side; now rewrite E).
  destruct (mod4_cases k) as [K|[K|[K|K]]]; rewrite K; cbn [Z.eqb Pos.eqb]; try lia; f_equal; apply map_ext; intros x.
  - unfold rot1. rewrite V. reflexivity.
  - unfold rot2. unfold side. rewrite <- E, Z.pow_2_r. ring.
  - unfold rot3. rewrite <- Z.mul_assoc, V. reflexivity.
Qed.

Lemma rotate_describes : forall k c d s, square c -> conf_describes c d s ->
  conf_describes c (rotate_determinant k c d) (fun x => s (rot (side c) (- k) x)).
Proof.
  intros k c d s Hc D. destruct (Z.eq_dec (k mod 4) 0) as [K|K].
  - unfold rotate_determinant. rewrite K. simpl. eapply describes_same; [|exact D].
    intros x _. f_equal. unfold rot. rewrite Z.mod_opp_l_z by lia. reflexivity.
  - rewrite rotate_map by assumption.
    assert (D' : conf_describes c (map (rot (side c) k) d) (fun x => s (rot (side c) (- k) x))).
    { apply map_describes; [|exact D]. rewrite square_n by assumption. apply rot_bij. now apply square_side. }
    rewrite (reorder_describes c _ _ D'). apply canon_describes. eapply describes_sector. exact D'.
Qed.

Lemma rotate_canon : forall k c s, square c -> in_sector (nsites c) (nholes c) (nbeta c) s ->
  rotate_determinant k c (canon (nsites c) s) = canon (nsites c) (fun x => s (rot (side c) (- k) x)).
Proof.
  intros k c s Hc Hs. destruct (Z.eq_dec (k mod 4) 0) as [K|K].
  - unfold rotate_determinant. rewrite K. simpl. apply canon_same.
    intros x _. f_equal. unfold rot. rewrite Z.mod_opp_l_z by lia. reflexivity.
  - rewrite rotate_map by assumption. apply reorder_describes. apply map_describes.
    + rewrite square_n by assumption. apply rot_bij. now apply square_side.
    + now apply canon_describes.
Qed.

Lemma half_describes : forall k c d s, k mod 4 = 2 -> 0 < nsites c ->
  nsites c = nbh c * nbv c * nblocs_side c ^ 2 -> conf_describes c d s ->
  rotate_determinant k c d = canon (nsites c) (fun x => s (nsites c - 1 - x)).
Proof.
  intros k c d s K P N D. unfold rotate_determinant. rewrite K. cbn [Z.eqb Pos.eqb]. rewrite <- N.
  apply reorder_describes. refine (map_describes _ _ _ _ _ (fun x => _) _ _ D). intros x Hx. lia.
Qed.
