(** get_hash_basis and the lexicographic order of the basis. *)
From Coq Require Import ZArith List Bool Lia Permutation Sorted.
From Verif Require Import PyBase PyFacts Lattice Base Spec PHash PBasis.
Import ListNotations.
Open Scope Z_scope.

Lemma hash_basis_ok : forall h a b i, 0 <= h -> 0 <= a -> 0 <= b ->
  0 <= i < comb (h + a + b) h * comb (a + b) b ->
  exists d, get_hash_basis h a b i = Ok d /\
    nth_error (dets (h + a + b) (Z.to_nat h) (Z.to_nat b)) (Z.to_nat i) = Some d.
Proof.
  intros h a b i Hh Ha Hb Hi. unfold get_hash_basis.
  set (n := h + a + b) in *. replace (n - h) with (a + b) by lia.
  set (k := comb (a + b) b) in *.
  assert (Hk : 0 < k) by (apply comb_pos; lia).
  destruct (Z.eqb_spec k 0); [lia|].
  assert (Hq : 0 <= i / k < comb n h).
  { split; [apply Z.div_pos; lia|]. apply Z.div_lt_upper_bound; lia. }
  assert (Hr : 0 <= i mod k < k) by (apply Z.mod_pos_bound; lia).
  destruct (target_hash_ok n h (i / k) ltac:(lia) Hq) as (hs & -> & Sh & Lh & Rh). cbn [bind].
  destruct (target_hash_ok (a + b) b (i mod k) ltac:(lia) Hr) as (bs0 & -> & Sb & Lb & Rb). cbn [bind].
  rewrite fusion_hash_spread.
  pose proof (subset_sorted _ _ Sh) as Srt.
  assert (SE : map (spread hs) (zrange 0 (a + b)) = electrons n hs).
  { replace (a + b) with (n - zlen hs) by lia. apply spread_electrons; [lia | assumption |].
    intros x Hx. eapply subset_range; eauto. }
  assert (Sb' : sublist (map (spread hs) bs0) (electrons n hs)) by (rewrite <- SE; now apply sublist_map).
  assert (Hcb : map (compress hs) (map (spread hs) bs0) = bs0).
  { rewrite map_map. rewrite <- (map_id bs0) at 2. apply map_ext. intros x. now apply spread_spec. }
  set (bs := map (spread hs) bs0) in *.
  rewrite remove_all_spec.
  - cbn [bind]. exists ((hs ++ bs) ++ filter (fun y => negb (mem y (hs ++ bs))) (zrange 0 n)). split; [reflexivity|].
    pose proof (nth_dets n (Z.to_nat h) (Z.to_nat b) (state2 hs bs) ltac:(lia)) as N.
    rewrite !Z2Nat.id in N by lia.
    assert (Isec : in_sector n h b (state2 hs bs)).
    { split; [rewrite state2_holes | rewrite state2_downs]; auto. unfold bs. now rewrite zlen_map. }
    specialize (N Isec). rewrite state2_canon in N by assumption.
    assert (Ei : state_index n h b (state2 hs bs) = i).
    { unfold state_index. rewrite state2_holes, state2_downs by assumption.
      rewrite Hcb, Rh. replace (n - h) with (a + b) by lia. rewrite Rb. fold k.
      rewrite (Z.div_mod i k) at 3 by lia. lia. }
    rewrite Ei in N. rewrite N. f_equal. rewrite <- app_assoc. do 2 f_equal.
    unfold ups_of, electrons. rewrite filter_filter. apply filter_ext_in'. intros x _.
    rewrite <- negb_orb. f_equal. unfold mem. now rewrite existsb_app.
  - apply zrange_NoDup.
  - apply NoDup_app'.
    + now apply sorted_lt_NoDup.
    + eapply sublist_NoDup; [eassumption | apply electrons_NoDup].
    + intros x Hx Hx'. eapply sublist_incl in Hx'; [|eassumption]. apply in_electrons in Hx'. tauto.
  - intros x Hx. apply in_app_iff in Hx as [Hx|Hx].
    + apply in_zrange. eapply subset_range; eauto.
    + eapply sublist_incl in Hx; [|eassumption]. apply in_electrons in Hx. apply in_zrange. tauto.
Qed.

Lemma hash_basis_zero_div : forall h a b i, a < 0 -> 0 <= b -> get_hash_basis h a b i = Err ZeroDivisionError.
Proof.
  intros. unfold get_hash_basis. replace (h + a + b - h) with (a + b) by lia.
  rewrite (comb_gt (a + b) b) by lia. reflexivity.
Qed.

(** an index past the end *)
Lemma hash_basis_err : forall h a b i, 1 <= h -> 0 <= a -> 0 <= b ->
  comb (h + a + b) h * comb (a + b) b <= i -> get_hash_basis h a b i = Err IndexError.
Proof.
  intros h a b i Hh Ha Hb Hi. unfold get_hash_basis.
  replace (h + a + b - h) with (a + b) by lia.
  assert (Hk : 0 < comb (a + b) b) by (apply comb_pos; lia).
  destruct (Z.eqb_spec (comb (a + b) b) 0); [lia|].
  rewrite target_hash_err; [reflexivity | lia |].
  apply Z.div_le_lower_bound; lia.
Qed.

(** ** Lexicographic order *)

Lemma lex_irrefl : forall l, ~ lex_lt l l.
Proof. induction l; intros H; inversion H; subst; [lia | contradiction]. Qed.

Lemma lex_trans : forall a b c, lex_lt a b -> lex_lt b c -> lex_lt a c.
Proof.
  intros a b c H. revert c. induction H; intros c Hc; inversion Hc; subst;
    try (apply lex_head; lia); try (constructor; now apply IHlex_lt); constructor.
Qed.

Lemma lex_app : forall p p' q q', length p = length p' -> lex_lt p p' -> lex_lt (p ++ q) (p' ++ q').
Proof.
  intros p p' q q' L H. revert L. induction H; simpl; intros L; try discriminate.
  - now constructor.
  - apply lex_tail. apply IHlex_lt. lia.
Qed.

Lemma lex_app_l : forall p q q', lex_lt q q' -> lex_lt (p ++ q) (p ++ q').
Proof. induction p; simpl; intros; [assumption|]. apply lex_tail. auto. Qed.

Lemma SS_app : forall A (R : A -> A -> Prop) l1 l2, StronglySorted R l1 -> StronglySorted R l2 ->
  (forall x y, In x l1 -> In y l2 -> R x y) -> StronglySorted R (l1 ++ l2).
Proof.
  induction l1; simpl; intros l2 S1 S2 H; [assumption|]. inversion S1; subst. constructor.
  - apply IHl1; auto.
  - rewrite Forall_forall in *. intros y Hy. apply in_app_iff in Hy as [Hy|Hy]; auto.
Qed.

Lemma SS_map : forall A B (R : A -> A -> Prop) (Q : B -> B -> Prop) (f : A -> B) l,
  (forall x y, In x l -> In y l -> R x y -> Q (f x) (f y)) -> StronglySorted R l -> StronglySorted Q (map f l).
Proof.
  induction l; simpl; intros H S; [constructor|]. inversion S; subst. constructor.
  - apply IHl; auto.
  - rewrite Forall_forall in *. intros y Hy. apply in_map_iff in Hy as (x & <- & Hx). auto.
Qed.

Lemma combs_lex : forall l k, Sorted Z.lt l -> StronglySorted lex_lt (combs k l).
Proof.
  induction l as [|x l IH]; intros k S.
  - destruct k; repeat constructor.
  - destruct k; [repeat constructor|]. rewrite combs_S_cons.
    assert (S' := S). apply Sorted_StronglySorted in S'; [|intros u v w; lia].
    inversion S as [|? ? Sl Hd]; subst. inversion S' as [|? ? Sl' F]; subst. rewrite Forall_forall in F.
    apply SS_app.
    + eapply SS_map; [|apply IH, Sl]. intros; now apply lex_tail.
    + now apply IH.
    + intros a b Ha Hb. apply in_map_iff in Ha as (a' & <- & _). apply in_combs in Hb as [Hb L].
      destruct b as [|y b]; [discriminate|]. apply lex_head. apply F. eapply sublist_incl; [exact Hb | now left].
Qed.

Lemma SS_flat_map : forall A B (R : A -> A -> Prop) (Q : B -> B -> Prop) (f : A -> list B) l,
  StronglySorted R l -> (forall x, In x l -> StronglySorted Q (f x)) ->
  (forall x y a b, In x l -> In y l -> R x y -> In a (f x) -> In b (f y) -> Q a b) ->
  StronglySorted Q (flat_map f l).
Proof.
  induction l; simpl; intros S H1 H2; [constructor|]. inversion S; subst. apply SS_app; auto.
  - apply IHl; eauto.
  - intros x y Hx Hy. apply in_flat_map in Hy as (z & Hz & Hy).
    rewrite Forall_forall in H4. eapply (H2 a z); eauto.
Qed.

Lemma dets_lex : forall n h b, StronglySorted lex_lt (dets n h b).
Proof.
  intros. unfold dets. eapply SS_flat_map; [apply combs_lex, zrange_sorted | |].
  - intros hs _. eapply SS_map; [|apply combs_lex, electrons_sorted].
    intros x y Hx Hy R. cbv beta. apply lex_app_l. apply lex_app; [|assumption].
    apply in_combs in Hx as [_ Lx]. apply in_combs in Hy as [_ Ly]. congruence.
  - intros x y p q Hx Hy R Hp Hq. cbv beta in *. apply in_map_iff in Hp as (? & <- & _).
    apply in_map_iff in Hq as (? & <- & _). apply lex_app; [|assumption].
    apply in_combs in Hx as [_ Lx]. apply in_combs in Hy as [_ Ly]. congruence.
Qed.

Lemma SS_nth : forall A (R : A -> A -> Prop) l i j x y, StronglySorted R l ->
  nth_error l i = Some x -> nth_error l j = Some y -> (i < j)%nat -> R x y.
Proof.
  induction l; intros i j x y S Hi Hj L; [now destruct i|]. inversion S; subst.
  destruct j; [lia|]. simpl in Hj. destruct i; simpl in Hi.
  - inversion Hi; subst. rewrite Forall_forall in H2. apply H2. eapply nth_error_In; eauto.
  - eapply IHl; eauto. lia.
Qed.

Lemma state_index_lex : forall n h b s t, 0 <= n -> in_sector n h b s -> in_sector n h b t ->
  state_index n h b s < state_index n h b t <-> lex_lt (canon n s) (canon n t).
Proof.
  intros n h b s t Hn Hs Ht. destruct (in_sector_nonneg _ _ _ _ Hs).
  pose proof (nth_dets n (Z.to_nat h) (Z.to_nat b) s Hn) as Ns.
  pose proof (nth_dets n (Z.to_nat h) (Z.to_nat b) t Hn) as Nt.
  rewrite !Z2Nat.id in Ns, Nt by assumption. specialize (Ns Hs). specialize (Nt Ht).
  pose proof (state_index_nonneg n h b s). pose proof (state_index_nonneg n h b t).
  pose proof (dets_lex n (Z.to_nat h) (Z.to_nat b)) as D. split; intros L.
  - eapply SS_nth; [exact D | exact Ns | exact Nt | lia].
  - destruct (Z.lt_total (state_index n h b s) (state_index n h b t)) as [|[E|G]]; [assumption | |].
    + rewrite E in Ns. rewrite Ns in Nt. inversion Nt as [E']. rewrite E' in L. now apply lex_irrefl in L.
    + exfalso. assert (lex_lt (canon n t) (canon n s)) by (eapply SS_nth; [exact D | exact Nt | exact Ns | lia]).
      eapply lex_irrefl, lex_trans; eauto.
Qed.
