(** Facts about the primitives of PyBase. *)
From Coq Require Import ZArith List Bool Lia Permutation Sorted.
From Verif Require Import PyBase.
Import ListNotations.
Open Scope Z_scope.

(** ** The exception monad *)

Lemma bind_ok : forall A B (x : res A) (f : A -> res B) a, x = Ok a -> bind x f = f a.
Proof. intros; subst; reflexivity. Qed.

Lemma bind_ok_inv : forall A B (x : res A) (f : A -> res B) b,
  bind x f = Ok b -> exists a, x = Ok a /\ f a = Ok b.
Proof. intros A B [a|e] f b H; simpl in H; [eauto | discriminate]. Qed.

Lemma mapM_ok : forall A B (f : A -> res B) (g : A -> B) l,
  (forall x, In x l -> f x = Ok (g x)) -> mapM f l = Ok (map g l).
Proof.
  induction l as [|x l IH]; simpl; intros H; [reflexivity|].
  rewrite (H x) by auto. simpl. rewrite IH by auto. reflexivity.
Qed.

Lemma concatM_ok : forall A B (f : A -> res (list B)) (g : A -> list B) l,
  (forall x, In x l -> f x = Ok (g x)) -> concatM f l = Ok (flat_map g l).
Proof.
  intros. unfold concatM. rewrite (mapM_ok _ _ f g) by assumption. simpl.
  now rewrite flat_map_concat_map.
Qed.

Lemma filterM_ok : forall A (p : A -> res bool) (q : A -> bool) l,
  (forall x, In x l -> p x = Ok (q x)) -> filterM p l = Ok (filter q l).
Proof.
  induction l as [|x l IH]; simpl; intros H; [reflexivity|].
  rewrite (H x) by auto. simpl. rewrite IH by auto. simpl. destruct (q x); reflexivity.
Qed.

Lemma foldM_ok : forall A B (f : B -> A -> res B) (g : B -> A -> B) l b,
  (forall b x, In x l -> f b x = Ok (g b x)) -> foldM f b l = Ok (fold_left g l b).
Proof.
  induction l as [|x l IH]; simpl; intros b H; [reflexivity|].
  rewrite (H b x) by auto. simpl. apply IH. auto.
Qed.

(** with an invariant on the accumulator *)
Lemma foldM_ok_inv : forall A B (P : B -> Prop) (f : B -> A -> res B) (g : B -> A -> B) l b,
  P b -> (forall b x, P b -> In x l -> f b x = Ok (g b x) /\ P (g b x)) ->
  foldM f b l = Ok (fold_left g l b) /\ P (fold_left g l b).
Proof.
  induction l as [|x l IH]; simpl; intros b Hb H; [auto|].
  destruct (H b x Hb (or_introl eq_refl)) as [E1 P1]. rewrite E1. simpl.
  apply IH; auto.
Qed.

Lemma foldM_app : forall A B (f : B -> A -> res B) l1 l2 b,
  foldM f b (l1 ++ l2) = bind (foldM f b l1) (fun b' => foldM f b' l2).
Proof.
  induction l1 as [|x l1 IH]; simpl; intros; [reflexivity|].
  destruct (f b x); simpl; [apply IH | reflexivity].
Qed.

(** ** Ranges *)

Lemma zlen_nonneg : forall A (l : list A), 0 <= zlen l.
Proof. intros; unfold zlen; lia. Qed.

Lemma zlen_app : forall A (l1 l2 : list A), zlen (l1 ++ l2) = zlen l1 + zlen l2.
Proof. intros; unfold zlen; rewrite app_length; lia. Qed.

Lemma zlen_cons : forall A (x : A) l, zlen (x :: l) = zlen l + 1.
Proof. intros; unfold zlen; simpl length; lia. Qed.

Lemma zlen_map : forall A B (f : A -> B) l, zlen (map f l) = zlen l.
Proof. intros; unfold zlen; now rewrite map_length. Qed.

Lemma zlen_nil_iff : forall A (l : list A), zlen l = 0 <-> l = [].
Proof. intros A [|x l]; unfold zlen; simpl; split; intros; try congruence; lia. Qed.

Lemma in_zrange : forall x a b, In x (zrange a b) <-> a <= x < b.
Proof.
  intros. unfold zrange. rewrite in_map_iff. split.
  - intros (k & <- & Hk). apply in_seq in Hk. lia.
  - intros. exists (Z.to_nat (x - a)). split; [lia|]. apply in_seq. lia.
Qed.

Lemma zrange_length : forall a b, length (zrange a b) = Z.to_nat (b - a).
Proof. intros; unfold zrange; now rewrite map_length, seq_length. Qed.

Lemma zlen_zrange : forall a b, a <= b -> zlen (zrange a b) = b - a.
Proof. intros; unfold zlen; rewrite zrange_length; lia. Qed.

Lemma zrange_nil : forall a b, b <= a -> zrange a b = [].
Proof. intros; unfold zrange. replace (Z.to_nat (b - a)) with 0%nat by lia. reflexivity. Qed.

Lemma zrange_cons : forall a b, a < b -> zrange a b = a :: zrange (a + 1) b.
Proof.
  intros; unfold zrange.
  replace (Z.to_nat (b - a)) with (S (Z.to_nat (b - (a + 1)))) by lia.
  simpl seq. simpl map. f_equal; [lia|].
  rewrite <- seq_shift, map_map. apply map_ext. intros; lia.
Qed.

Lemma zrange_snoc : forall a b, a <= b -> zrange a (b + 1) = zrange a b ++ [b].
Proof.
  intros; unfold zrange.
  replace (Z.to_nat (b + 1 - a)) with (S (Z.to_nat (b - a))) by lia.
  rewrite seq_S, map_app. simpl. repeat f_equal. lia.
Qed.

Lemma zrange_app : forall a b c, a <= b <= c -> zrange a c = zrange a b ++ zrange b c.
Proof.
  intros a b c H. remember (Z.to_nat (b - a)) as n eqn:Hn.
  revert a H Hn. induction n; intros.
  - replace b with a by lia. now rewrite (zrange_nil a a) by lia.
  - rewrite (zrange_cons a c), (zrange_cons a b) by lia. simpl. f_equal. apply IHn; lia.
Qed.

Lemma zrange_NoDup : forall a b, NoDup (zrange a b).
Proof.
  intros. unfold zrange. apply FinFun.Injective_map_NoDup.
  - intros x y; lia.
  - apply seq_NoDup.
Qed.

Lemma zrange_shift : forall a b k, map (fun x => x + k) (zrange a b) = zrange (a + k) (b + k).
Proof.
  intros. unfold zrange. rewrite map_map.
  replace (b + k - (a + k)) with (b - a) by lia. apply map_ext; intros; lia.
Qed.

Lemma zrange_ind : forall (P : Z -> Z -> Prop),
  (forall a b, b <= a -> P a b) -> (forall a b, a < b -> P (a + 1) b -> P a b) -> forall a b, P a b.
Proof.
  intros P H0 H1 a b. remember (Z.to_nat (b - a)) as n eqn:Hn. revert a Hn.
  induction n; intros.
  - apply H0; lia.
  - apply H1; [lia|]. apply IHn; lia.
Qed.

(** ** Membership *)

Lemma mem_In : forall x l, mem x l = true <-> In x l.
Proof.
  intros. unfold mem. rewrite existsb_exists. split.
  - intros (y & Hy & E). apply Z.eqb_eq in E. now subst.
  - intros. exists x. split; [assumption | apply Z.eqb_refl].
Qed.

Lemma mem_false : forall x l, mem x l = false <-> ~ In x l.
Proof. intros. rewrite <- mem_In. destruct (mem x l); split; intros; congruence. Qed.

Lemma zlist_eqb_eq : forall a b, zlist_eqb a b = true <-> a = b.
Proof.
  induction a as [|x a IH]; destruct b as [|y b]; simpl; split; intros; try congruence.
  - apply andb_true_iff in H as [H1 H2]. apply Z.eqb_eq in H1. apply IH in H2. congruence.
  - inversion H; subst. rewrite Z.eqb_refl. simpl. now apply IH.
Qed.

(** ** index, get, set *)

Lemma py_index_spec : forall l x i, py_index l x = Ok i ->
  0 <= i < zlen l /\ nth_error l (Z.to_nat i) = Some x /\
  (forall j, 0 <= j < i -> nth_error l (Z.to_nat j) <> Some x).
Proof.
  induction l as [|y l IH]; simpl; intros x i H; [discriminate|].
  destruct (Z.eqb_spec y x).
  - inversion H; subst. rewrite zlen_cons. pose proof (zlen_nonneg _ l).
    split; [lia|]. split; [reflexivity|]. intros; lia.
  - apply bind_ok_inv in H as (k & H1 & H2). inversion H2; subst.
    destruct (IH _ _ H1) as (A & B & C). rewrite zlen_cons. split; [lia|].
    replace (Z.to_nat (k + 1)) with (S (Z.to_nat k)) by lia. simpl. split; [assumption|].
    intros j Hj. destruct (Z.eq_dec j 0).
    + subst. simpl. congruence.
    + replace (Z.to_nat j) with (S (Z.to_nat (j - 1))) by lia. simpl. apply C. lia.
Qed.

Lemma py_index_In : forall l x, In x l -> exists i, py_index l x = Ok i.
Proof.
  induction l as [|y l IH]; simpl; intros x H; [contradiction|].
  destruct (Z.eqb_spec y x); [eauto|].
  destruct H; [congruence|]. destruct (IH _ H) as (i & E). rewrite E. simpl. eauto.
Qed.

Lemma py_index_notin : forall l x, ~ In x l -> py_index l x = Err ValueError.
Proof.
  induction l as [|y l IH]; simpl; intros x H; [reflexivity|].
  destruct (Z.eqb_spec y x); [subst; tauto|]. rewrite IH by tauto. reflexivity.
Qed.

Lemma py_index_nth : forall l x k, NoDup l -> nth_error l k = Some x -> py_index l x = Ok (Z.of_nat k).
Proof.
  induction l as [|y l IH]; intros x k ND H; [now destruct k|].
  inversion ND; subst. destruct k; simpl in *.
  - inversion H; subst. now rewrite Z.eqb_refl.
  - destruct (Z.eqb_spec y x).
    + subst. apply nth_error_In in H. contradiction.
    + rewrite (IH _ _ H3 H). simpl. f_equal. lia.
Qed.

Lemma py_get_nth : forall A (l : list A) i a,
  0 <= i -> nth_error l (Z.to_nat i) = Some a -> py_get l i = Ok a.
Proof.
  intros A l i a Hi H. unfold py_get, py_norm.
  destruct (Z.ltb_spec i 0); [lia|]. destruct (Z.ltb_spec i 0); [lia|]. now rewrite H.
Qed.

Lemma py_get_neg : forall A (l : list A) i a, i < 0 -> 0 <= i + zlen l ->
  nth_error l (Z.to_nat (i + zlen l)) = Some a -> py_get l i = Ok a.
Proof.
  intros. unfold py_get, py_norm.
  destruct (Z.ltb_spec i 0); [|lia]. destruct (Z.ltb_spec (i + zlen l) 0); [lia|]. now rewrite H1.
Qed.

Lemma py_get_In : forall A (l : list A) i a, py_get l i = Ok a -> In a l.
Proof.
  intros A l i a. unfold py_get. destruct (py_norm (zlen l) i <? 0); [discriminate|].
  destruct (nth_error l _) eqn:E; [|discriminate]. intros H; inversion H; subst.
  eapply nth_error_In; eauto.
Qed.

Lemma set_nth_length : forall A (l : list A) k v, length (set_nth l k v) = length l.
Proof. induction l; destruct k; simpl; intros; auto. Qed.

Lemma set_nth_same : forall A (l : list A) k v, (k < length l)%nat -> nth_error (set_nth l k v) k = Some v.
Proof. induction l; destruct k; simpl; intros; try lia; auto. apply IHl; lia. Qed.

Lemma set_nth_other : forall A (l : list A) k k' v, k <> k' -> nth_error (set_nth l k v) k' = nth_error l k'.
Proof. induction l; destruct k, k'; simpl; intros; try congruence; auto. Qed.

Lemma set_nth_app2 : forall A (l1 l2 : list A) k v,
  set_nth (l1 ++ l2) (length l1 + k) v = l1 ++ set_nth l2 k v.
Proof. induction l1; simpl; intros; [reflexivity|]. now rewrite IHl1. Qed.

Lemma py_set_ok : forall A (l : list A) i v, 0 <= i < zlen l -> py_set l i v = Ok (set_nth l (Z.to_nat i) v).
Proof.
  intros. unfold py_set, py_norm. destruct (Z.ltb_spec i 0); [lia|].
  destruct (Z.ltb_spec i 0); [lia|]. destruct (Z.leb_spec (zlen l) i); [lia|]. reflexivity.
Qed.

Lemma py_set_neg : forall A (l : list A) i v, i < 0 -> 0 <= i + zlen l ->
  py_set l i v = Ok (set_nth l (Z.to_nat (i + zlen l)) v).
Proof.
  intros. unfold py_set, py_norm. destruct (Z.ltb_spec i 0); [|lia].
  destruct (Z.ltb_spec (i + zlen l) 0); [lia|]. destruct (Z.leb_spec (zlen l) (i + zlen l)); [lia|]. reflexivity.
Qed.

(** ** slices *)

Lemma py_slice_prefix : forall A (l : list A) n, 0 <= n <= zlen l -> py_slice l 0 n = firstn (Z.to_nat n) l.
Proof.
  intros. unfold py_slice, py_clamp.
  destruct (Z.ltb_spec 0 0); [lia|]. destruct (Z.ltb_spec n 0); [lia|].
  rewrite (Z.min_l 0) by apply zlen_nonneg. rewrite (Z.min_l n) by lia.
  now rewrite Z.sub_0_r.
Qed.

Lemma py_slice_mid : forall A (l : list A) a b, 0 <= a <= b -> b <= zlen l ->
  py_slice l a b = firstn (Z.to_nat (b - a)) (skipn (Z.to_nat a) l).
Proof.
  intros. unfold py_slice, py_clamp.
  destruct (Z.ltb_spec a 0); [lia|]. destruct (Z.ltb_spec b 0); [lia|].
  now rewrite !Z.min_l by lia.
Qed.

Lemma py_slice_from_skipn : forall A (l : list A) a, 0 <= a <= zlen l ->
  py_slice_from l a = skipn (Z.to_nat a) l.
Proof.
  intros. unfold py_slice_from. rewrite py_slice_mid by lia.
  apply firstn_all2. rewrite skipn_length. unfold zlen. lia.
Qed.

Lemma py_slices_app : forall A (h b a : list A),
  py_slice (h ++ b ++ a) 0 (zlen h) = h /\
  py_slice (h ++ b ++ a) (zlen h) (zlen h + zlen b) = b /\
  py_slice_from (h ++ b ++ a) (zlen h + zlen b) = a.
Proof.
  intros. pose proof (zlen_nonneg _ h). pose proof (zlen_nonneg _ b). pose proof (zlen_nonneg _ a).
  assert (Hn : forall A (l : list A), Z.to_nat (zlen l) = length l) by (intros; unfold zlen; lia).
  repeat split.
  - rewrite py_slice_prefix by (rewrite !zlen_app; lia).
    rewrite Hn. now rewrite firstn_app, Nat.sub_diag, firstn_all, app_nil_r.
  - rewrite py_slice_mid by (rewrite ?zlen_app; lia).
    replace (zlen h + zlen b - zlen h) with (zlen b) by lia. rewrite !Hn.
    rewrite skipn_app, skipn_all, Nat.sub_diag. simpl.
    now rewrite firstn_app, Nat.sub_diag, firstn_all, app_nil_r.
  - rewrite py_slice_from_skipn by (rewrite !zlen_app; lia).
    rewrite Z2Nat.inj_add, !Hn by lia.
    rewrite app_assoc, skipn_app, skipn_all2 by (rewrite app_length; lia).
    rewrite app_length. replace (length h + length b - (length h + length b))%nat with 0%nat by lia.
    reflexivity.
Qed.

(** ** remove *)

Lemma py_remove_spec : forall l x, NoDup l -> In x l ->
  py_remove l x = Ok (filter (fun y => negb (y =? x)) l).
Proof.
  induction l as [|y l IH]; simpl; intros x ND H; [contradiction|].
  inversion ND; subst. destruct (Z.eqb_spec y x); simpl.
  - subst. f_equal. symmetry. clear -H2. induction l as [|z l IH]; [reflexivity|].
    simpl. destruct (Z.eqb_spec z x); simpl.
    + subst. exfalso. apply H2. now left.
    + f_equal. apply IH. intros C; apply H2; now right.
  - destruct H; [congruence|]. rewrite IH by assumption. reflexivity.
Qed.

Lemma filter_ext_in' : forall A (f g : A -> bool) l,
  (forall x, In x l -> f x = g x) -> filter f l = filter g l.
Proof.
  induction l; simpl; intros H; [reflexivity|].
  rewrite H by auto. rewrite IHl by auto. reflexivity.
Qed.

Lemma filter_filter : forall A (f g : A -> bool) l,
  filter f (filter g l) = filter (fun x => g x && f x) l.
Proof.
  induction l; simpl; [reflexivity|].
  destruct (g a); simpl; [destruct (f a)|]; now rewrite ?IHl.
Qed.

Lemma NoDup_filter' : forall A (f : A -> bool) l, NoDup l -> NoDup (filter f l).
Proof.
  induction l; simpl; intros H; [constructor|]. inversion H; subst.
  destruct (f a); [constructor|]; auto. rewrite filter_In. tauto.
Qed.

(** removing every element of [xs] from [l] *)
Lemma remove_all_spec : forall xs l, NoDup l -> NoDup xs -> (forall x, In x xs -> In x l) ->
  foldM (fun l x => py_remove l x) l xs = Ok (filter (fun y => negb (mem y xs)) l).
Proof.
  induction xs as [|x xs IH]; intros l NDl NDx Hin.
  - cbn [foldM mem existsb]. f_equal. symmetry. clear.
    induction l; simpl; [reflexivity|]. now rewrite IHl at 1.
  - cbn [foldM]. rewrite py_remove_spec by (auto; apply Hin; now left). cbn [bind].
    inversion NDx; subst. rewrite IH; [| now apply NoDup_filter' | assumption |].
    + f_equal. rewrite filter_filter. apply filter_ext_in'. intros y Hy.
      cbn [mem existsb]. rewrite negb_orb. now rewrite (Z.eqb_sym y x).
    + intros y Hy. apply filter_In. split; [apply Hin; now right|].
      destruct (Z.eqb_spec y x); [subst; contradiction | reflexivity].
Qed.

(** ** sorting *)

Lemma zinsert_perm : forall x l, Permutation (zinsert x l) (x :: l).
Proof.
  induction l; simpl; [reflexivity|]. destruct (x <=? a); [reflexivity|].
  rewrite IHl. apply perm_swap.
Qed.

Lemma zsort_perm : forall l, Permutation (zsort l) l.
Proof. induction l; simpl; [reflexivity|]. rewrite zinsert_perm. now constructor. Qed.

Lemma zinsert_sorted : forall x l, Sorted Z.le l -> Sorted Z.le (zinsert x l).
Proof.
  induction l; simpl; intros H; [repeat constructor|].
  destruct (Z.leb_spec x a).
  - constructor; [assumption | constructor; lia].
  - inversion H; subst. constructor; [auto|].
    destruct l; simpl in *; [constructor; lia|].
    destruct (x <=? z); constructor; try lia. inversion H4; lia.
Qed.

Lemma zsort_sorted : forall l, Sorted Z.le (zsort l).
Proof. induction l; simpl; [constructor | now apply zinsert_sorted]. Qed.

Lemma zsort_length : forall l, length (zsort l) = length l.
Proof. intros. apply Permutation_length, zsort_perm. Qed.

Lemma zlen_zsort : forall l, zlen (zsort l) = zlen l.
Proof. intros. unfold zlen. now rewrite zsort_length. Qed.

Lemma in_zsort : forall x l, In x (zsort l) <-> In x l.
Proof.
  intros; split; apply Permutation_in; [| symmetry]; apply zsort_perm.
Qed.

(** two sorted permutations are equal *)
Lemma sorted_perm_eq : forall l1 l2, Sorted Z.le l1 -> Sorted Z.le l2 -> Permutation l1 l2 -> l1 = l2.
Proof.
  induction l1 as [|x l1 IH]; intros l2 S1 S2 P.
  - apply Permutation_nil in P. congruence.
  - destruct l2 as [|y l2]; [apply Permutation_sym, Permutation_nil in P; discriminate|].
    assert (T1 := S1). assert (T2 := S2).
    apply Sorted_StronglySorted in T1; [|intros a b c; lia].
    apply Sorted_StronglySorted in T2; [|intros a b c; lia].
    inversion T1; subst. inversion T2; subst.
    rewrite Forall_forall in *.
    assert (x = y).
    { assert (In y (x :: l1)) by (eapply Permutation_in; [symmetry; exact P | now left]).
      assert (In x (y :: l2)) by (eapply Permutation_in; [exact P | now left]).
      destruct H as [|H]; [congruence|]. destruct H0 as [|H0]; [congruence|].
      specialize (H2 _ H). specialize (H4 _ H0). lia. }
    subst. f_equal. apply IH.
    + now inversion S1.
    + now inversion S2.
    + eapply Permutation_cons_inv; eauto.
Qed.

Lemma zsort_unique : forall l1 l2, Permutation l1 l2 -> zsort l1 = zsort l2.
Proof.
  intros. apply sorted_perm_eq; try apply zsort_sorted.
  now rewrite !zsort_perm.
Qed.

Lemma zsort_id : forall l, Sorted Z.le l -> zsort l = l.
Proof. intros. apply sorted_perm_eq; [apply zsort_sorted | assumption | apply zsort_perm]. Qed.

(** strictly increasing lists *)
Lemma sorted_lt_le : forall l, Sorted Z.lt l -> Sorted Z.le l.
Proof.
  induction 1; constructor; auto. destruct H0; constructor. lia.
Qed.

Lemma sorted_lt_NoDup : forall l, Sorted Z.lt l -> NoDup l.
Proof.
  intros l H. apply Sorted_StronglySorted in H; [|intros a b c; lia].
  induction H; constructor; auto. rewrite Forall_forall in H0.
  intros C. specialize (H0 _ C). lia.
Qed.

Lemma sorted_le_NoDup_lt : forall l, Sorted Z.le l -> NoDup l -> Sorted Z.lt l.
Proof.
  induction 1; intros ND; constructor; inversion ND; subst; auto.
  destruct H0; constructor. assert (a <> b) by (intros ->; apply H3; now left). lia.
Qed.

Lemma zrange_sorted : forall a b, Sorted Z.lt (zrange a b).
Proof.
  apply (zrange_ind (fun a b => Sorted Z.lt (zrange a b))); intros.
  - rewrite zrange_nil by lia. constructor.
  - rewrite zrange_cons by lia. constructor; [assumption|].
    destruct (Z_lt_dec (a + 1) b).
    + rewrite zrange_cons by lia. constructor. lia.
    + rewrite zrange_nil by lia. constructor.
Qed.

Lemma Sorted_filter_lt : forall (f : Z -> bool) l, Sorted Z.lt l -> Sorted Z.lt (filter f l).
Proof.
  intros f l H. apply Sorted_StronglySorted in H; [|intros a b c; lia].
  apply StronglySorted_Sorted. induction H; simpl; [constructor|].
  destruct (f a); [constructor|]; auto.
  rewrite Forall_forall in *. intros y Hy. apply filter_In in Hy. apply H0. tauto.
Qed.

(** ** sets *)

Section Sets.
Variable E : runtime.
Hypothesis HE : set_iter_ok E.

Lemma in_set_list : forall x l, In x (py_set_list E l) <-> In x l.
Proof. intros. apply HE. Qed.

Lemma set_list_NoDup : forall l, NoDup (py_set_list E l).
Proof. intros. apply HE. Qed.

Lemma in_set_and : forall x a b, In x (py_set_and E a b) <-> In x a /\ In x b.
Proof.
  intros. unfold py_set_and. destruct (_ <=? _).
  - destruct (HE (filter (fun x => mem x (set_iter E a)) (set_iter E b))) as [_ H]. rewrite H.
    rewrite filter_In, mem_In. destruct (HE a) as [_ Ha], (HE b) as [_ Hb]. rewrite Ha, Hb. tauto.
  - destruct (HE (filter (fun x => mem x (set_iter E b)) (set_iter E a))) as [_ H]. rewrite H.
    rewrite filter_In, mem_In. destruct (HE a) as [_ Ha], (HE b) as [_ Hb]. rewrite Ha, Hb. tauto.
Qed.

Lemma set_and_NoDup : forall a b, NoDup (py_set_and E a b).
Proof. intros. unfold py_set_and. destruct (_ <=? _); apply HE. Qed.

Lemma in_set_diff : forall x a b, In x (py_set_diff E a b) <-> In x a /\ ~ In x b.
Proof.
  intros. unfold py_set_diff.
  destruct (HE (filter (fun x => negb (mem x b)) (set_iter E a))) as [_ H]. rewrite H.
  rewrite filter_In. destruct (HE a) as [_ Ha]. rewrite Ha, negb_true_iff, mem_false. tauto.
Qed.

Lemma set_diff_NoDup : forall a b, NoDup (py_set_diff E a b).
Proof. intros. apply HE. Qed.

End Sets.

(** ** binomials *)

Fixpoint binom (n k : nat) : Z :=
  match n, k with
  | _, O => 1
  | O, S _ => 0
  | S n', S k' => binom n' k' + binom n' (S k')
  end.
Lemma pair_sums_nth : forall l k, nth k (pair_sums l) 0 = nth k l 0 + nth (S k) l 0.
Proof.
  induction l as [|x l IH]; intros k; [now destruct k|]. destruct l as [|y l].
  - cbn [pair_sums]. destruct k as [|[|k]]; cbn [nth]; lia.
  - change (pair_sums (x :: y :: l)) with (x + y :: pair_sums (y :: l)). destruct k; [reflexivity|]. cbn [nth]. now rewrite IH.
Qed.
Lemma pascal_nth : forall n k, nth k (pascal n) 0 = binom n k.
Proof.
  induction n as [|n IH]; intros [|k]; cbn [pascal binom nth]; try reflexivity; [now destruct k|].
  now rewrite pair_sums_nth, !IH.
Qed.

Lemma binom_0 : forall n, binom n 0 = 1.
Proof. destruct n; reflexivity. Qed.

Lemma binom_S : forall n k, binom (S n) (S k) = binom n k + binom n (S k).
Proof. reflexivity. Qed.

Lemma binom_gt : forall n k, (n < k)%nat -> binom n k = 0.
Proof.
  induction n; destruct k; simpl; intros; try lia. rewrite !IHn by lia. reflexivity.
Qed.

Lemma binom_nonneg : forall n k, 0 <= binom n k.
Proof. induction n; destruct k; simpl; try lia. pose proof (IHn k); pose proof (IHn (S k)); lia. Qed.

Lemma binom_pos : forall n k, (k <= n)%nat -> 0 < binom n k.
Proof.
  induction n; destruct k; simpl; intros; try lia.
  pose proof (IHn k ltac:(lia)). pose proof (binom_nonneg n (S k)). lia.
Qed.

Lemma binom_diag : forall n, binom n n = 1.
Proof. induction n; [reflexivity|]. rewrite binom_S, IHn, binom_gt by lia. reflexivity. Qed.

Lemma binom_sym : forall n k, (k <= n)%nat -> binom n k = binom n (n - k).
Proof.
  induction n; intros k Hk.
  - replace k with 0%nat by lia. reflexivity.
  - destruct k.
    + rewrite Nat.sub_0_r, binom_diag. reflexivity.
    + destruct (Nat.eq_dec k n).
      * subst. rewrite Nat.sub_diag, binom_diag. reflexivity.
      * rewrite binom_S. replace (S n - S k)%nat with (S (n - S k)) by lia. rewrite binom_S.
        rewrite (IHn k) by lia. rewrite (IHn (S k)) by lia.
        replace (n - k)%nat with (S (n - S k)) by lia. lia.
Qed.

Lemma comb_binom : forall n k, comb (Z.of_nat n) (Z.of_nat k) = binom n k.
Proof.
  intros. unfold comb. destruct (Z.ltb_spec (Z.of_nat n) (Z.of_nat k)); simpl.
  - rewrite binom_gt; lia.
  - destruct (Z.ltb_spec (Z.of_nat n) 0); [lia|]. destruct (Z.ltb_spec (Z.of_nat k) 0); [lia|].
    simpl. now rewrite !Nat2Z.id, pascal_nth.
Qed.

Lemma comb_binom' : forall n k, 0 <= n -> 0 <= k -> comb n k = binom (Z.to_nat n) (Z.to_nat k).
Proof. intros. rewrite <- comb_binom. now rewrite !Z2Nat.id. Qed.

Lemma comb_nonneg : forall n k, 0 <= comb n k.
Proof. intros. unfold comb. destruct (_ || _ || _); [lia | rewrite pascal_nth; apply binom_nonneg]. Qed.

Lemma comb_pos : forall n k, 0 <= k <= n -> 0 < comb n k.
Proof. intros. rewrite comb_binom' by lia. apply binom_pos. lia. Qed.

(** ** combinations *)

Lemma combs_S_nil : forall A k, combs (S k) (@nil A) = [].
Proof. reflexivity. Qed.

Lemma combs_S_cons : forall A k (x : A) l,
  combs (S k) (x :: l) = map (cons x) (combs k l) ++ combs (S k) l.
Proof. reflexivity. Qed.

Lemma combs_0 : forall A (l : list A), combs 0 l = [[]].
Proof. reflexivity. Qed.

Lemma combs_length : forall A (l : list A) k, Z.of_nat (length (combs k l)) = binom (length l) k.
Proof.
  induction l as [|x l IH]; destruct k; try reflexivity.
  - rewrite combs_S_cons, app_length, map_length, Nat2Z.inj_add, !IH. reflexivity.
Qed.

Lemma combs_map : forall A B (f : A -> B) k l, combs k (map f l) = map (map f) (combs k l).
Proof.
  intros A B f k. induction k; intros l; [reflexivity|].
  induction l as [|x l IH]; [reflexivity|].
  simpl map. rewrite !combs_S_cons, map_app, IH, IHk, !map_map. f_equal.
Qed.

(** sub-lists *)
Inductive sublist {A} : list A -> list A -> Prop :=
| sub_nil : sublist [] []
| sub_keep : forall x s l, sublist s l -> sublist (x :: s) (x :: l)
| sub_skip : forall x s l, sublist s l -> sublist s (x :: l).

Lemma sublist_nil_l : forall A (l : list A), sublist [] l.
Proof. induction l; constructor; auto. Qed.

Lemma in_combs : forall A (l : list A) k s, In s (combs k l) <-> sublist s l /\ length s = k.
Proof.
  induction l as [|x l IH]; intros k s.
  - destruct k; simpl; split; intros H.
    + destruct H; [subst|contradiction]. split; [constructor | reflexivity].
    + destruct H as [H _]. inversion H. now left.
    + contradiction.
    + destruct H as [H L]. inversion H; subst. discriminate.
  - destruct k.
    + rewrite combs_0. simpl. split; intros H.
      * destruct H; [subst|contradiction]. split; [apply sublist_nil_l | reflexivity].
      * destruct H as [_ L]. destruct s; [now left | discriminate].
    + rewrite combs_S_cons, in_app_iff, in_map_iff. split; intros H.
      * destruct H as [(s' & <- & H)|H]; apply IH in H as [H1 H2].
        -- split; [now constructor | simpl; congruence].
        -- split; [now constructor | assumption].
      * destruct H as [H L]. inversion H; subst.
        -- left. exists s0. split; [reflexivity|]. apply IH. split; [assumption | simpl in L; congruence].
        -- right. apply IH. auto.
Qed.

Lemma sublist_incl : forall A (s l : list A), sublist s l -> forall x, In x s -> In x l.
Proof. induction 1; simpl; intros; auto. destruct H0; auto. Qed.

Lemma sublist_NoDup : forall A (s l : list A), sublist s l -> NoDup l -> NoDup s.
Proof.
  induction 1; intros ND; auto; inversion ND; subst; auto. constructor; auto.
  intros C. apply H2. eapply sublist_incl; eauto.
Qed.

Lemma sublist_sorted : forall s l, sublist s l -> Sorted Z.lt l -> Sorted Z.lt s.
Proof.
  intros s l H S. apply Sorted_StronglySorted in S; [|intros a b c; lia].
  apply StronglySorted_Sorted. induction H; auto; inversion S; subst; auto.
  constructor; auto. rewrite Forall_forall in *. intros y Hy.
  apply H3. eapply sublist_incl; eauto.
Qed.

(** a strictly increasing list all of whose elements are in the strictly increasing list [l]
    is a sub-list of [l] *)
Lemma sorted_incl_sublist : forall l s, Sorted Z.lt l -> Sorted Z.lt s ->
  (forall x, In x s -> In x l) -> sublist s l.
Proof.
  induction l as [|y l IH]; intros s SL SS Hin.
  - destruct s; [constructor|]. exfalso. apply (Hin z). now left.
  - destruct s as [|x s]; [apply sublist_nil_l|].
    assert (TL := SL). assert (TS := SS).
    apply Sorted_StronglySorted in TL; [|intros a b c; lia].
    apply Sorted_StronglySorted in TS; [|intros a b c; lia].
    inversion TL; subst. inversion TS; subst. rewrite Forall_forall in *.
    destruct (Z.eq_dec x y).
    + subst. apply sub_keep. apply IH; [now inversion SL | now inversion SS |].
      intros z Hz. destruct (Hin z) as [|]; [now right | | assumption].
      subst. specialize (H4 _ Hz). lia.
    + apply sub_skip. apply IH; [now inversion SL | assumption |].
      intros z Hz. destruct (Hin z Hz) as [|]; [|assumption]. subst z.
      destruct Hz as [|Hz]; [congruence|]. specialize (H4 _ Hz).
      destruct (Hin x) as [|Hx]; [now left | congruence |]. specialize (H2 _ Hx). lia.
Qed.

Lemma NoDup_app' : forall A (l1 l2 : list A), NoDup l1 -> NoDup l2 ->
  (forall x, In x l1 -> ~ In x l2) -> NoDup (l1 ++ l2).
Proof.
  induction l1; simpl; intros l2 N1 N2 D; auto. inversion N1; subst. constructor.
  - rewrite in_app_iff. intros [C|C]; [contradiction | eapply D; eauto].
  - apply IHl1; auto.
Qed.

Lemma combs_NoDup : forall A (l : list A) k, NoDup l -> NoDup (combs k l).
Proof.
  induction l as [|x l IH]; intros k ND.
  - destruct k; [repeat constructor; auto | constructor].
  - destruct k; [repeat constructor; auto|].
    rewrite combs_S_cons. inversion ND; subst. apply NoDup_app'; auto.
    + apply FinFun.Injective_map_NoDup; auto. intros a b E; now inversion E.
    + intros s H C. apply in_map_iff in H as (s' & <- & H). apply in_combs in C as [C _].
      apply H1. eapply sublist_incl; [exact C | now left].
Qed.
