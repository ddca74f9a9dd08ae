(** Determinants, occupation states and positions in the basis. *)
From Coq Require Import ZArith List Bool Lia Permutation Sorted.
From Verif Require Import PyBase PyFacts Lattice Base Spec PHash.
Import ListNotations.
Open Scope Z_scope.

Definition is_p (p q : particle) : bool :=
  match p, q with Hole, Hole | Down, Down | Up, Up => true | _, _ => false end.

Lemma is_p_eq : forall p q, is_p p q = true <-> p = q.
Proof. destruct p, q; simpl; split; congruence. Qed.

Lemma is_p_neq : forall p q, is_p p q = false <-> p <> q.
Proof. destruct p, q; simpl; split; congruence. Qed.

(** sites of [0..n-1] carrying [p], in increasing order *)
Definition sites_of (n : Z) (s : occupation) (p : particle) : list Z :=
  filter (fun x => is_p (s x) p) (zrange 0 n).

Lemma in_sites_of : forall n s p x, In x (sites_of n s p) <-> 0 <= x < n /\ s x = p.
Proof. intros. unfold sites_of. rewrite filter_In, in_zrange, is_p_eq. tauto. Qed.

Lemma sites_of_sorted : forall n s p, Sorted Z.lt (sites_of n s p).
Proof. intros. apply Sorted_filter_lt, zrange_sorted. Qed.

Lemma sites_of_NoDup : forall n s p, NoDup (sites_of n s p).
Proof. intros. apply sorted_lt_NoDup, sites_of_sorted. Qed.

Lemma sites_of_same : forall n s t p, same_state n s t -> sites_of n s p = sites_of n t p.
Proof.
  intros n s t p H. apply filter_ext_in'. intros x Hx. apply in_zrange in Hx. now rewrite H.
Qed.

(** the canonical list of a state *)
Definition canon (n : Z) (s : occupation) : list Z :=
  sites_of n s Hole ++ sites_of n s Down ++ sites_of n s Up.

Definition in_sector (n h b : Z) (s : occupation) : Prop :=
  zlen (sites_of n s Hole) = h /\ zlen (sites_of n s Down) = b.

Lemma canon_describes : forall n h b s, in_sector n h b s -> describes n h b (canon n s) s.
Proof.
  intros n h b s [H1 H2]. exists (sites_of n s Hole), (sites_of n s Down), (sites_of n s Up).
  repeat split; auto using sites_of_NoDup; try (apply in_sites_of; assumption);
    intros; try (now apply in_sites_of in H); tauto.
Qed.

Lemma canon_increasing : forall n h b s, in_sector n h b s -> increasing_groups h b (canon n s).
Proof.
  intros n h b s [H1 H2]. exists (sites_of n s Hole), (sites_of n s Down), (sites_of n s Up).
  repeat split; auto using sites_of_sorted.
Qed.

Lemma group_perm : forall n s p l, NoDup l -> (forall x, In x l <-> 0 <= x < n /\ s x = p) ->
  Permutation l (sites_of n s p).
Proof.
  intros. apply NoDup_Permutation; auto using sites_of_NoDup. intros x. rewrite H0, in_sites_of. tauto.
Qed.

Lemma zsort_group : forall n s p l, NoDup l -> (forall x, In x l <-> 0 <= x < n /\ s x = p) ->
  zsort l = sites_of n s p.
Proof.
  intros. rewrite <- (zsort_id (sites_of n s p)) by apply sorted_lt_le, sites_of_sorted.
  apply zsort_unique, group_perm; assumption.
Qed.

Lemma describes_sector : forall n h b d s, describes n h b d s -> in_sector n h b s.
Proof.
  intros n h b d s (hs & bs & us & -> & Lh & Lb & Nh & Nb & Nu & Ih & Ib & Iu).
  split; unfold zlen.
  - rewrite <- (Permutation_length (group_perm n s Hole hs Nh Ih)). assumption.
  - rewrite <- (Permutation_length (group_perm n s Down bs Nb Ib)). assumption.
Qed.

(** the position of the groups *)
Lemma describes_slices : forall n h b d s, describes n h b d s ->
  exists hs bs us, d = hs ++ bs ++ us /\
    py_slice d 0 h = hs /\ py_slice d h (h + b) = bs /\ py_slice_from d (h + b) = us /\
    zlen hs = h /\ zlen bs = b /\ NoDup hs /\ NoDup bs /\ NoDup us /\
    (forall x, In x hs <-> 0 <= x < n /\ s x = Hole) /\
    (forall x, In x bs <-> 0 <= x < n /\ s x = Down) /\
    (forall x, In x us <-> 0 <= x < n /\ s x = Up).
Proof.
  intros n h b d s (hs & bs & us & -> & Lh & Lb & Nh & Nb & Nu & Ih & Ib & Iu).
  destruct (py_slices_app _ hs bs us) as (A & B & C).
  fold (zlen hs) in Lh. fold (zlen bs) in Lb. subst h b.
  exists hs, bs, us. repeat (split; [first [assumption | reflexivity]|]). assumption.
Qed.

Lemma reorder_describes : forall c d s, describes (nsites c) (nholes c) (nbeta c) d s ->
  reorder_basis_element c d = canon (nsites c) s.
Proof.
  intros c d s H. destruct (describes_slices _ _ _ _ _ H)
    as (hs & bs & us & -> & A & B & C & Lh & Lb & Nh & Nb & Nu & Ih & Ib & Iu).
  unfold reorder_basis_element, canon. rewrite A, B, C.
  now rewrite (zsort_group _ _ _ _ Nh Ih), (zsort_group _ _ _ _ Nb Ib), (zsort_group _ _ _ _ Nu Iu).
Qed.

(** [describes] only looks at the sites of the lattice *)
Lemma describes_same : forall n h b d s t, same_state n s t -> describes n h b d s -> describes n h b d t.
Proof.
  intros n h b d s t E (hs & bs & us & Ed & Lh & Lb & Nh & Nb & Nu & Ih & Ib & Iu).
  exists hs, bs, us.
  repeat (split; [assumption|]).
  assert (G : forall x p l, (In x l <-> 0 <= x < n /\ s x = p) -> (In x l <-> 0 <= x < n /\ t x = p)).
  { intros x p l Hx. rewrite Hx. split; intros [R Q]; (split; [assumption|]); [now rewrite <- E | now rewrite E]. }
  repeat split; try (apply G; auto); try (now apply (G x _ _ (Ih x))); try (now apply (G x _ _ (Ib x)));
    try (now apply (G x _ _ (Iu x))).
Qed.

Lemma describes_unique : forall n h b d s t, describes n h b d s -> describes n h b d t -> same_state n s t.
Proof.
  intros n h b d s t Hs Ht x Hx.
  destruct (describes_slices _ _ _ _ _ Hs) as (hs & bs & us & _ & A & B & C & _ & _ & _ & _ & _ & Ih & Ib & Iu).
  destruct (describes_slices _ _ _ _ _ Ht) as (hs' & bs' & us' & _ & A' & B' & C' & _ & _ & _ & _ & _ & Ih' & Ib' & Iu').
  rewrite A in A'. rewrite B in B'. rewrite C in C'. subst hs' bs' us'.
  destruct (s x) eqn:E.
  - symmetry. apply Ih'. apply Ih. auto.
  - symmetry. apply Ib'. apply Ib. auto.
  - symmetry. apply Iu'. apply Iu. auto.
Qed.

Lemma canon_same : forall n s t, same_state n s t -> canon n s = canon n t.
Proof. intros. unfold canon. now rewrite !(sites_of_same n s t) by assumption. Qed.

Lemma canon_inj : forall n h b s t, in_sector n h b s -> in_sector n h b t ->
  canon n s = canon n t -> same_state n s t.
Proof.
  intros n h b s t Hs Ht E. apply (describes_unique n h b (canon n s)).
  - now apply canon_describes.
  - rewrite E. now apply canon_describes.
Qed.

(** an increasing description is the canonical list *)
Lemma increasing_canon : forall n h b d s, describes n h b d s -> increasing_groups h b d -> d = canon n s.
Proof.
  intros n h b d s H (hs' & bs' & us' & E & Lh' & Lb' & Sh & Sb & Su).
  destruct (describes_slices _ _ _ _ _ H)
    as (hs & bs & us & -> & A & B & C & Lh & Lb & Nh & Nb & Nu & Ih & Ib & Iu).
  assert (hs' = hs /\ bs' = bs /\ us' = us) as (-> & -> & ->).
  { destruct (py_slices_app _ hs' bs' us') as (A' & B' & C').
    unfold zlen in A', B', C'. rewrite <- E in A', B', C'. rewrite Lh' in A', B', C'. rewrite Lb' in B', C'.
    repeat split; congruence. }
  unfold canon. repeat f_equal; (apply sorted_perm_eq;
    [apply sorted_lt_le; assumption | apply sorted_lt_le, sites_of_sorted | apply group_perm; assumption]).
Qed.

(** ** The enumeration *)

Definition ups_of (n : Z) (hs bs : list Z) : list Z := filter (fun y => negb (mem y bs)) (electrons n hs).

Definition dets (n : Z) (h b : nat) : list (list Z) :=
  flat_map (fun hs => map (fun bs => hs ++ bs ++ ups_of n hs bs) (combs b (electrons n hs)))
           (combs h (zrange 0 n)).

Lemma electrons_NoDup : forall n hs, NoDup (electrons n hs).
Proof. intros. apply sorted_lt_NoDup, electrons_sorted. Qed.

Lemma construct_basis_ok : forall c, 0 <= nholes c -> 0 <= nbeta c ->
  construct_basis c = Ok (mkBasis c (dets (nsites c) (Z.to_nat (nholes c)) (Z.to_nat (nbeta c)))).
Proof.
  intros c Hh Hb. unfold construct_basis, py_combinations.
  destruct (Z.ltb_spec (nholes c) 0); [lia|]. cbn [bind].
  rewrite (concatM_ok _ _ _ (fun hs => map (fun bs => hs ++ bs ++ ups_of (nsites c) hs bs)
                                        (combs (Z.to_nat (nbeta c)) (electrons (nsites c) hs)))).
  - reflexivity.
  - intros hs Hhs. apply in_combs in Hhs as [Sh Lh].
    rewrite remove_all_spec.
    + cbn [bind]. destruct (Z.ltb_spec (nbeta c) 0); [lia|]. cbn [bind].
      apply mapM_ok. intros bs Hbs. apply in_combs in Hbs as [Sb Lb].
      rewrite remove_all_spec.
      * reflexivity.
      * apply electrons_NoDup.
      * eapply sublist_NoDup; [exact Sb | apply electrons_NoDup].
      * apply sublist_incl. exact Sb.
    + apply zrange_NoDup.
    + eapply sublist_NoDup; [exact Sh | apply zrange_NoDup].
    + apply sublist_incl. exact Sh.
Qed.

Lemma filter_length_split : forall A (f : A -> bool) l,
  (length (filter f l) + length (filter (fun x => negb (f x)) l))%nat = length l.
Proof. induction l; simpl; [reflexivity|]. destruct (f a); simpl; lia. Qed.

Lemma filter_mem_sublist : forall s l, Sorted Z.lt l -> sublist s l -> filter (fun y => mem y s) l = s.
Proof.
  intros s l Sl Hs. apply sorted_perm_eq.
  - apply sorted_lt_le, Sorted_filter_lt, Sl.
  - apply sorted_lt_le. eapply sublist_sorted; eauto.
  - apply NoDup_Permutation.
    + apply NoDup_filter', sorted_lt_NoDup, Sl.
    + eapply sublist_NoDup; [exact Hs | apply sorted_lt_NoDup, Sl].
    + intros x. rewrite filter_In, mem_In. split; [tauto|]. intros H. split; [|assumption].
      eapply sublist_incl; eauto.
Qed.

Lemma electrons_length : forall n hs, 0 <= n -> sublist hs (zrange 0 n) ->
  Z.of_nat (length (electrons n hs)) = n - zlen hs.
Proof.
  intros n hs Hn H. pose proof (filter_length_split _ (fun y => mem y hs) (zrange 0 n)) as L.
  rewrite filter_mem_sublist in L by (auto using zrange_sorted). rewrite zrange_length in L.
  unfold electrons, zlen. lia.
Qed.

Lemma sublist_length : forall A (s l : list A), sublist s l -> (length s <= length l)%nat.
Proof. induction 1; simpl; lia. Qed.

Lemma flat_map_length_const : forall A B (f : A -> list B) k l,
  (forall x, In x l -> length (f x) = k) -> length (flat_map f l) = (length l * k)%nat.
Proof.
  induction l; simpl; intros H; [reflexivity|]. rewrite app_length, H, IHl by auto. reflexivity.
Qed.

Lemma nth_error_flat_map : forall A B (f : A -> list B) k l i j x y,
  (forall x, In x l -> length (f x) = k) -> nth_error l i = Some x -> nth_error (f x) j = Some y ->
  nth_error (flat_map f l) (i * k + j) = Some y.
Proof.
  induction l as [|a l IH]; intros i j x y Hk Hi Hj; [now destruct i|].
  simpl. destruct i as [|i]; simpl in Hi.
  - inversion Hi; subst. simpl. rewrite nth_error_app1; [assumption|].
    apply nth_error_Some. congruence.
  - rewrite nth_error_app2 by (rewrite (Hk a) by (now left); simpl; lia).
    rewrite (Hk a) by (now left). replace (S i * k + j - k)%nat with (i * k + j)%nat by (simpl; lia).
    eapply IH; eauto. intros; apply Hk; now right.
Qed.

Lemma combs_electrons_length : forall n h b hs, 0 <= n -> In hs (combs h (zrange 0 n)) ->
  Z.of_nat (length (combs b (electrons n hs))) = comb (n - Z.of_nat h) (Z.of_nat b).
Proof.
  intros n h b hs Hn H. apply in_combs in H as [S L].
  rewrite combs_length, <- comb_binom, electrons_length by assumption.
  unfold zlen. now rewrite L.
Qed.

Lemma dets_length : forall n h b, 0 <= n ->
  Z.of_nat (length (dets n h b)) = comb n (Z.of_nat h) * comb (n - Z.of_nat h) (Z.of_nat b).
Proof.
  intros n h b Hn. unfold dets.
  rewrite (flat_map_length_const _ _ _ (Z.to_nat (comb (n - Z.of_nat h) (Z.of_nat b)))).
  - rewrite Nat2Z.inj_mul, combs_length, Z2Nat.id by apply comb_nonneg. rewrite zrange_length.
    rewrite <- comb_binom. f_equal. f_equal. lia.
  - intros hs H. rewrite map_length. pose proof (combs_electrons_length n h b hs Hn H). lia.
Qed.

Lemma comb_sym : forall n k, comb n k = comb n (n - k).
Proof.
  intros n k. unfold comb.
  destruct (Z.ltb_spec n k); simpl.
  - destruct (Z.ltb_spec n (n - k)); simpl; [reflexivity|].
    destruct (Z.ltb_spec n 0); simpl; [reflexivity|].
    destruct (Z.ltb_spec (n - k) 0); [reflexivity | lia].
  - destruct (Z.ltb_spec n 0); simpl; [now rewrite orb_true_r|].
    destruct (Z.ltb_spec k 0).
    + destruct (Z.ltb_spec n (n - k)); [reflexivity | lia].
    + destruct (Z.ltb_spec n (n - k)); [lia|]. simpl. destruct (Z.ltb_spec (n - k) 0); [lia|].
      rewrite !pascal_nth, binom_sym by lia. f_equal. lia.
Qed.

(** ** States and their lists *)

Lemma sites_not_hole : forall n s, electrons n (sites_of n s Hole) = filter (fun x => negb (is_p (s x) Hole)) (zrange 0 n).
Proof.
  intros. apply filter_ext_in'. intros x Hx. f_equal.
  destruct (is_p (s x) Hole) eqn:E.
  - apply mem_In, in_sites_of. split; [now apply in_zrange|]. now apply is_p_eq.
  - apply mem_false. rewrite in_sites_of. apply is_p_neq in E. tauto.
Qed.

Lemma downs_sublist : forall n s, sublist (sites_of n s Down) (electrons n (sites_of n s Hole)).
Proof.
  intros. apply sorted_incl_sublist; auto using electrons_sorted, sites_of_sorted.
  intros x Hx. apply in_sites_of in Hx as [R E]. apply in_electrons. split; [assumption|].
  rewrite in_sites_of. intros [_ E']. congruence.
Qed.

Lemma holes_sublist : forall n s p, sublist (sites_of n s p) (zrange 0 n).
Proof.
  intros. apply sorted_incl_sublist; auto using zrange_sorted, sites_of_sorted.
  intros x Hx. apply in_sites_of in Hx as [R _]. now apply in_zrange.
Qed.

Lemma ups_of_sites : forall n s, ups_of n (sites_of n s Hole) (sites_of n s Down) = sites_of n s Up.
Proof.
  intros. unfold ups_of. rewrite sites_not_hole, filter_filter. apply filter_ext_in'.
  intros x Hx. apply in_zrange in Hx.
  replace (mem x (sites_of n s Down)) with (is_p (s x) Down).
  - destruct (s x); reflexivity.
  - destruct (is_p (s x) Down) eqn:E; symmetry.
    + apply mem_In, in_sites_of. split; [assumption | now apply is_p_eq].
    + apply mem_false. rewrite in_sites_of. apply is_p_neq in E. tauto.
Qed.

(** the state of a pair of lists of sites *)
Definition state2 (hs bs : list Z) : occupation :=
  fun x => if mem x hs then Hole else if mem x bs then Down else Up.

Lemma state2_holes : forall n hs bs, sublist hs (zrange 0 n) -> sites_of n (state2 hs bs) Hole = hs.
Proof.
  intros n hs bs H. rewrite <- (filter_mem_sublist hs (zrange 0 n)) at 2 by auto using zrange_sorted.
  apply filter_ext_in'. intros x _. unfold state2. destruct (mem x hs), (mem x bs); reflexivity.
Qed.

Lemma state2_downs : forall n hs bs, sublist bs (electrons n hs) -> sites_of n (state2 hs bs) Down = bs.
Proof.
  intros n hs bs H. rewrite <- (filter_mem_sublist bs (electrons n hs)) at 2 by auto using electrons_sorted.
  unfold electrons. rewrite filter_filter. apply filter_ext_in'. intros x _. unfold state2.
  destruct (mem x hs), (mem x bs); reflexivity.
Qed.

Lemma state2_canon : forall n hs bs, sublist hs (zrange 0 n) -> sublist bs (electrons n hs) ->
  canon n (state2 hs bs) = hs ++ bs ++ ups_of n hs bs.
Proof.
  intros. unfold canon. rewrite <- ups_of_sites, state2_holes, state2_downs by assumption. reflexivity.
Qed.

Lemma in_dets : forall n h b d, 0 <= n ->
  In d (dets n h b) <-> exists s, in_sector n (Z.of_nat h) (Z.of_nat b) s /\ d = canon n s.
Proof.
  intros n h b d Hn. unfold dets. rewrite in_flat_map. split.
  - intros (hs & Hh & Hd). apply in_map_iff in Hd as (bs & <- & Hb).
    apply in_combs in Hh as [Sh Lh]. apply in_combs in Hb as [Sb Lb].
    exists (state2 hs bs). split.
    + split; unfold zlen; [rewrite state2_holes | rewrite state2_downs]; auto; congruence.
    + symmetry. now apply state2_canon.
  - intros (s & [Lh Lb] & ->). exists (sites_of n s Hole). split.
    + apply in_combs. split; [apply holes_sublist | unfold zlen in Lh; lia].
    + apply in_map_iff. exists (sites_of n s Down). split.
      * unfold canon. now rewrite ups_of_sites.
      * apply in_combs. split; [apply downs_sublist | unfold zlen in Lb; lia].
Qed.

(** position of a state *)
Definition state_index (n h b : Z) (s : occupation) : Z :=
  rk n 0 (sites_of n s Hole) * comb (n - h) b
  + rk (n - h) 0 (map (compress (sites_of n s Hole)) (sites_of n s Down)).

Lemma state_index_nonneg : forall n h b s, 0 <= state_index n h b s.
Proof.
  intros. unfold state_index. pose proof (rk_nonneg (sites_of n s Hole) n 0).
  pose proof (comb_nonneg (n - h) b).
  pose proof (rk_nonneg (map (compress (sites_of n s Hole)) (sites_of n s Down)) (n - h) 0). nia.
Qed.

Lemma sublist_map : forall A B (f : A -> B) s l, sublist s l -> sublist (map f s) (map f l).
Proof. induction 1; simpl; constructor; auto. Qed.

Lemma compress_nil : forall l, map (compress []) l = l.
Proof.
  intros. rewrite <- (map_id l) at 2. apply map_ext. intros x. unfold compress. rewrite cnt_nil. lia.
Qed.

Lemma nth_combs_map_inj : forall A B (f : A -> B) k (l : list A) s i, NoDup (map f l) ->
  sublist s l -> length s = k ->
  nth_error (combs k (map f l)) i = Some (map f s) -> nth_error (combs k l) i = Some s.
Proof.
  intros A B f k l s i ND Hs L H. rewrite combs_map, nth_error_map in H.
  destruct (nth_error (combs k l) i) as [t|] eqn:E; [|discriminate]. simpl in H. inversion H.
  f_equal. apply nth_error_In in E. apply in_combs in E as [Ht _].
  apply (map_inj_on _ _ f (fun x => In x l)).
  - intros x y Hx Hy Ef. eapply NoDup_map_inj_on; eauto.
  - apply sublist_incl; assumption.
  - apply sublist_incl; assumption.
  - assumption.
Qed.

Lemma nth_dets : forall n h b s, 0 <= n -> in_sector n (Z.of_nat h) (Z.of_nat b) s ->
  nth_error (dets n h b) (Z.to_nat (state_index n (Z.of_nat h) (Z.of_nat b) s)) = Some (canon n s).
Proof.
  intros n h b s Hn [Lh Lb].
  pose proof (holes_sublist n s Hole) as Sh. pose proof (downs_sublist n s) as Sb.
  assert (Hlen : forall hs, In hs (combs h (zrange 0 n)) ->
     length (map (fun bs => hs ++ bs ++ ups_of n hs bs) (combs b (electrons n hs)))
     = Z.to_nat (comb (n - Z.of_nat h) (Z.of_nat b))).
  { intros hs H. rewrite map_length. pose proof (combs_electrons_length n h b hs Hn H). lia. }
  unfold state_index. rewrite Z2Nat.inj_add, Z2Nat.inj_mul;
    try (apply Z.mul_nonneg_nonneg); try apply rk_nonneg; try apply comb_nonneg.
  unfold dets. eapply nth_error_flat_map; [exact Hlen | |].
  - pose proof (rk_nth 0 n _ Sh) as R. replace (length (sites_of n s Hole)) with h in R by (unfold zlen in Lh; lia).
    exact R.
  - cbv beta. rewrite nth_error_map.
    assert (E : nth_error (combs b (electrons n (sites_of n s Hole)))
       (Z.to_nat (rk (n - Z.of_nat h) 0 (map (compress (sites_of n s Hole)) (sites_of n s Down))))
       = Some (sites_of n s Down)).
    { assert (CE : map (compress (sites_of n s Hole)) (electrons n (sites_of n s Hole)) = zrange 0 (n - Z.of_nat h)).
      { rewrite compress_electrons; auto using sites_of_NoDup.
        - now rewrite Lh.
        - intros x Hx. now apply in_sites_of in Hx. }
      apply (nth_combs_map_inj _ _ (compress (sites_of n s Hole))); auto.
      - rewrite CE. apply zrange_NoDup.
      - unfold zlen in Lb. lia.
      - rewrite CE. pose proof (rk_nth 0 (n - Z.of_nat h) (map (compress (sites_of n s Hole)) (sites_of n s Down))) as R.
        rewrite map_length in R. replace (length (sites_of n s Down)) with b in R by (unfold zlen in Lb; lia).
        apply R. rewrite <- CE. now apply sublist_map. }
    rewrite E. simpl. unfold canon. now rewrite ups_of_sites.
Qed.

Lemma in_sector_nonneg : forall n h b s, in_sector n h b s -> 0 <= h /\ 0 <= b.
Proof. intros n h b s [<- <-]. split; apply zlen_nonneg. Qed.

Lemma state_index_bound : forall n h b s, 0 <= n -> in_sector n h b s ->
  state_index n h b s < comb n h * comb (n - h) b.
Proof.
  intros n h b s Hn H. destruct (in_sector_nonneg _ _ _ _ H).
  pose proof (nth_dets n (Z.to_nat h) (Z.to_nat b) s Hn) as N. rewrite !Z2Nat.id in N by assumption.
  specialize (N H).
  assert (L : (Z.to_nat (state_index n h b s) < length (dets n (Z.to_nat h) (Z.to_nat b)))%nat)
    by (apply nth_error_Some; congruence).
  apply inj_lt in L. rewrite dets_length, !Z2Nat.id in L by auto using state_index_nonneg. assumption.
Qed.

Lemma index_of_canon : forall c s, in_sector (nsites c) (nholes c) (nbeta c) s ->
  compute_hash_table c (canon (nsites c) s) = Ok (state_index (nsites c) (nholes c) (nbeta c) s).
Proof.
  intros c s [Lh Lb]. unfold compute_hash_table, canon.
  destruct (py_slices_app _ (sites_of (nsites c) s Hole) (sites_of (nsites c) s Down) (sites_of (nsites c) s Up))
    as (A & B & _).
  rewrite Lh in A. rewrite Lh, Lb in B. rewrite A, B.
  rewrite !distance_hash_rk. cbn [bind]. rewrite compress_nil. change (zlen (@nil Z)) with 0.
  rewrite Z.sub_0_r, Lh. reflexivity.
Qed.

Lemma index_describes : forall c d s, describes (nsites c) (nholes c) (nbeta c) d s ->
  get_index_in_basis c d = Ok (state_index (nsites c) (nholes c) (nbeta c) s).
Proof.
  intros. unfold get_index_in_basis. rewrite (reorder_describes _ _ _ H).
  apply index_of_canon. eapply describes_sector; eauto.
Qed.

Lemma state_index_inj : forall n h b s t, 0 <= n -> in_sector n h b s -> in_sector n h b t ->
  state_index n h b s = state_index n h b t -> same_state n s t.
Proof.
  intros n h b s t Hn Hs Ht E. destruct (in_sector_nonneg _ _ _ _ Hs).
  pose proof (nth_dets n (Z.to_nat h) (Z.to_nat b) s Hn) as Ns.
  pose proof (nth_dets n (Z.to_nat h) (Z.to_nat b) t Hn) as Nt.
  rewrite !Z2Nat.id in Ns, Nt by assumption. specialize (Ns Hs). specialize (Nt Ht).
  rewrite E in Ns. rewrite Ns in Nt. inversion Nt. eapply canon_inj; eauto.
Qed.

Lemma state_index_same : forall n h b s t, same_state n s t -> state_index n h b s = state_index n h b t.
Proof. intros. unfold state_index. now rewrite !(sites_of_same n s t) by assumption. Qed.

Lemma NoDup_map_on : forall A B (f : A -> B) l,
  (forall x y, In x l -> In y l -> f x = f y -> x = y) -> NoDup l -> NoDup (map f l).
Proof.
  induction l; simpl; intros Hf ND; constructor; inversion ND; subst.
  - intros C. apply in_map_iff in C as (y & E & Hy). apply Hf in E; auto. subst. contradiction.
  - apply IHl; auto.
Qed.

Lemma dets_NoDup : forall n h b, NoDup (dets n h b).
Proof.
  intros n h b. unfold dets.
  assert (G : forall L, NoDup L -> (forall hs, In hs L -> length hs = h) ->
    NoDup (flat_map (fun hs => map (fun bs => hs ++ bs ++ ups_of n hs bs) (combs b (electrons n hs))) L)).
  { induction L as [|hs L IH]; intros ND HL; [constructor|]. inversion ND; subst. cbn [flat_map].
    apply NoDup_app'.
    - apply NoDup_map_on.
      + intros x y Hx Hy E. apply app_inv_head in E.
        apply in_combs in Hx as [_ Lx]. apply in_combs in Hy as [_ Ly].
        assert (firstn b (x ++ ups_of n hs x) = firstn b (y ++ ups_of n hs y)) as F by now rewrite E.
        rewrite !firstn_app, Lx, Ly, Nat.sub_diag in F. simpl in F. rewrite !app_nil_r in F.
        rewrite <- Lx in F at 1. rewrite <- Ly in F at 1. now rewrite !firstn_all in F.
      + apply combs_NoDup, electrons_NoDup.
    - apply IH; auto using in_cons.
    - intros d Hd Hd'. apply in_map_iff in Hd as (bs & <- & _). apply in_flat_map in Hd' as (hs' & Hh' & Hd').
      apply in_map_iff in Hd' as (bs' & E & _).
      assert (hs' = hs).
      { assert (F : firstn h (hs' ++ bs' ++ ups_of n hs' bs') = firstn h (hs ++ bs ++ ups_of n hs bs)) by now rewrite E.
        rewrite !firstn_app in F. rewrite (HL hs'), (HL hs), Nat.sub_diag in F by auto using in_cons, in_eq.
        simpl in F. rewrite !app_nil_r in F.
        rewrite <- (HL hs') in F at 1 by auto using in_cons. rewrite <- (HL hs) in F by auto using in_eq.
        now rewrite !firstn_all in F. }
      subst. contradiction. }
  apply G; [apply combs_NoDup, zrange_NoDup|]. intros hs H. now apply in_combs in H.
Qed.
