(** Ranking and unranking of subsets (baseConstruction.py:819-951). *)
From Coq Require Import ZArith List Bool Lia Permutation Sorted.
From Verif Require Import PyBase PyFacts Lattice Base.
Import ListNotations.
Open Scope Z_scope.

Arguments zrange : simpl never.
Arguments comb : simpl never.

Lemma zsum_app : forall a b, zsum (a ++ b) = zsum a + zsum b.
Proof. induction a; simpl; intros; [reflexivity|]. rewrite IHa. lia. Qed.

(** Rank of the increasing list [s] among the subsets of [lo..n-1] of its size. *)
Fixpoint rk (n lo : Z) (s : list Z) : Z :=
  match s with
  | [] => 0
  | x :: s' => zsum (map (fun j => comb (n - j - 1) (zlen s')) (zrange lo x)) + rk n (x + 1) s'
  end.

Lemma zsum_nonneg : forall l, (forall x, In x l -> 0 <= x) -> 0 <= zsum l.
Proof. induction l; simpl; intros; [lia|]. pose proof (H a). pose proof IHl. intuition. Qed.

Lemma rk_nonneg : forall s n lo, 0 <= rk n lo s.
Proof.
  induction s; simpl; intros; [lia|].
  assert (0 <= zsum (map (fun j => comb (n - j - 1) (zlen s)) (zrange lo a))).
  { apply zsum_nonneg. intros x Hx. apply in_map_iff in Hx as (j & <- & _). apply comb_nonneg. }
  pose proof (IHs n (a + 1)). lia.
Qed.

Lemma rk_nth : forall lo n s, sublist s (zrange lo n) ->
  nth_error (combs (length s) (zrange lo n)) (Z.to_nat (rk n lo s)) = Some s.
Proof.
  apply (zrange_ind (fun lo n => forall s, sublist s (zrange lo n) ->
    nth_error (combs (length s) (zrange lo n)) (Z.to_nat (rk n lo s)) = Some s)).
  - intros lo n H s Hs. rewrite zrange_nil in * by lia. inversion Hs; subst. reflexivity.
  - intros lo n Hlt IH s Hs. destruct s as [|x s']; [reflexivity|].
    rewrite zrange_cons in Hs by lia.
    assert (Hc : length (combs (length s') (zrange (lo + 1) n)) = Z.to_nat (comb (n - lo - 1) (zlen s'))).
    { apply Nat2Z.inj. rewrite combs_length, Z2Nat.id by apply comb_nonneg.
      rewrite zrange_length. unfold zlen. rewrite <- comb_binom. f_equal; lia. }
    simpl length. rewrite (zrange_cons lo n) by lia. rewrite combs_S_cons.
    inversion Hs; subst.
    + simpl rk. rewrite (zrange_nil lo lo) by lia. simpl.
      rewrite nth_error_app1.
      * rewrite nth_error_map, IH by assumption. reflexivity.
      * rewrite map_length. apply nth_error_Some. rewrite IH by assumption. discriminate.
    + assert (Hx : lo + 1 <= x) by (apply (in_zrange x (lo + 1) n); eapply sublist_incl; [eassumption | now left]).
      assert (Hrk : rk n lo (x :: s') = comb (n - lo - 1) (zlen s') + rk n (lo + 1) (x :: s')).
      { simpl rk. rewrite (zrange_cons lo x) by lia. simpl. lia. }
      rewrite Hrk, nth_error_app2.
      * rewrite map_length, Hc, Z2Nat.inj_add by (apply comb_nonneg || apply rk_nonneg).
        rewrite Nat.add_comm, Nat.add_sub. exact (IH (x :: s') H1).
      * rewrite map_length, Hc. pose proof (rk_nonneg (x :: s') n (lo + 1)).
        pose proof (comb_nonneg (n - lo - 1) (zlen s')). lia.
Qed.

Lemma rk_bound : forall n s, 0 <= n -> sublist s (zrange 0 n) -> rk n 0 s < comb n (zlen s).
Proof.
  intros n s Hn H. apply rk_nth in H.
  assert (L : (Z.to_nat (rk n 0 s) < length (combs (length s) (zrange 0 n)))%nat)
    by (apply nth_error_Some; congruence).
  apply inj_lt in L. rewrite combs_length, zrange_length, Z2Nat.id in L by apply rk_nonneg.
  rewrite <- comb_binom in L. unfold zlen. replace (Z.of_nat (Z.to_nat (n - 0))) with n in L by lia. lia.
Qed.

Lemma rk_inj : forall n s t, sublist s (zrange 0 n) -> sublist t (zrange 0 n) ->
  length s = length t -> rk n 0 s = rk n 0 t -> s = t.
Proof.
  intros n s t Hs Ht L E. apply rk_nth in Hs. apply rk_nth in Ht. congruence.
Qed.

(** ** get_distance_hash *)

(** number of elements of [hs] not above [x] *)
Definition cnt (hs : list Z) (x : Z) : Z := zsum (map (fun h => if h <=? x then 1 else 0) hs).

Definition compress (hs : list Z) (x : Z) : Z := x - cnt hs x.

Lemma combine_map_same : forall A B (f : A -> B) l, combine l (map f l) = map (fun x => (x, f x)) l.
Proof. induction l; simpl; congruence. Qed.

Lemma distance_loop : forall suf pre p free dist,
  foldM (fun dist ind_i =>
             prev <- py_get (pre ++ p :: suf) (ind_i - 1) ;;
             cur <- py_get (pre ++ p :: suf) ind_i ;;
             Ok (dist + zsum (map (fun ind_j => comb (free - ind_j - 1) (zlen (pre ++ p :: suf) - ind_i - 1))
                                  (zrange (prev + 1) cur))))
          dist (zrange (zlen pre + 1) (zlen (pre ++ p :: suf)))
  = Ok (dist + rk free (p + 1) suf).
Proof.
  induction suf as [|q suf IH]; intros pre p free dist.
  - rewrite zrange_nil by (rewrite zlen_app, zlen_cons; unfold zlen; simpl; lia).
    simpl. f_equal. lia.
  - rewrite zrange_cons by (rewrite zlen_app, !zlen_cons; pose proof (zlen_nonneg _ suf); lia).
    cbn [foldM].
    assert (Hn : Z.to_nat (zlen pre) = length pre) by (unfold zlen; lia).
    rewrite (py_get_nth _ _ _ p).
    2: { pose proof (zlen_nonneg _ pre). lia. }
    2: { replace (zlen pre + 1 - 1) with (zlen pre) by lia. rewrite Hn.
         rewrite nth_error_app2, Nat.sub_diag by lia. reflexivity. }
    cbn [bind].
    rewrite (py_get_nth _ _ _ q).
    2: { pose proof (zlen_nonneg _ pre). lia. }
    2: { rewrite Z2Nat.inj_add, Hn by (pose proof (zlen_nonneg _ pre); lia).
         rewrite nth_error_app2 by lia.
         replace (length pre + Z.to_nat 1 - length pre)%nat with 1%nat by lia. reflexivity. }
    cbn [bind].
    specialize (IH (pre ++ [p]) q free
      (dist + zsum (map (fun ind_j => comb (free - ind_j - 1) (zlen (pre ++ p :: q :: suf) - (zlen pre + 1) - 1))
                        (zrange (p + 1) q)))).
    replace ((pre ++ [p]) ++ q :: suf) with (pre ++ p :: q :: suf) in IH by now rewrite <- app_assoc.
    replace (zlen (pre ++ [p])) with (zlen pre + 1) in IH by (rewrite zlen_app; reflexivity).
    rewrite IH. f_equal. cbn [rk].
    replace (zlen (pre ++ p :: q :: suf) - (zlen pre + 1) - 1) with (zlen suf)
      by (rewrite zlen_app, !zlen_cons; lia).
    lia.
Qed.

Lemma distance_hash_rk : forall n hs bs,
  get_distance_hash n hs bs = Ok (rk (n - zlen hs) 0 (map (compress hs) bs)).
Proof.
  intros n hs bs. unfold get_distance_hash. destruct bs as [|b bs]; [reflexivity|].
  unfold project_hash. rewrite combine_map_same, map_map.
  replace (map (fun x => fst (x, zsum (map (fun elt_h => if elt_h <=? x then 1 else 0) hs)) -
                snd (x, zsum (map (fun elt_h => if elt_h <=? x then 1 else 0) hs))) (b :: bs))
    with (map (compress hs) (b :: bs)) by reflexivity.
  cbn [map]. cbn [py_get]. 
  rewrite (py_get_nth _ _ 0 (compress hs b)) by (reflexivity || lia).
  cbn [bind].
  pose proof (distance_loop (map (compress hs) bs) [] (compress hs b) (n - zlen hs)
    (zsum (map (fun ind => comb (n - zlen hs - ind - 1) (zlen (b :: bs) - 1)) (zrange 0 (compress hs b))))) as L.
  cbn [app] in L.
  replace (zlen (compress hs b :: map (compress hs) bs)) with (zlen (b :: bs)) in L
    by (rewrite !zlen_cons, zlen_map; reflexivity).
  change (zlen (@nil Z) + 1) with 1 in L.
  rewrite L. f_equal. cbn [rk]. rewrite zlen_map.
  replace (zlen (b :: bs) - 1) with (zlen bs) by (rewrite zlen_cons; lia). reflexivity.
Qed.

(** ** Electrons seen from the sites left free by the holes *)

Lemma cnt_cons : forall h hs x, cnt (h :: hs) x = (if h <=? x then 1 else 0) + cnt hs x.
Proof. reflexivity. Qed.

Lemma cnt_nil : forall x, cnt [] x = 0.
Proof. reflexivity. Qed.

Lemma cnt_bounds : forall hs x, 0 <= cnt hs x <= zlen hs.
Proof.
  induction hs; intros; [rewrite cnt_nil; unfold zlen; simpl; lia|].
  rewrite cnt_cons, zlen_cons. pose proof (IHhs x). destruct (a <=? x); lia.
Qed.

Lemma cnt_step : forall hs x, NoDup hs ->
  cnt hs x = cnt hs (x - 1) + (if mem x hs then 1 else 0).
Proof.
  induction hs as [|h hs IH]; intros x ND; [reflexivity|].
  inversion ND; subst. rewrite !cnt_cons, IH by assumption.
  simpl mem. unfold mem in *. simpl existsb.
  destruct (Z.eqb_spec x h).
  - subst. simpl. replace (existsb (Z.eqb h) hs) with false.
    + destruct (Z.leb_spec h h), (Z.leb_spec h (h - 1)); lia.
    + symmetry. now apply mem_false.
  - simpl. destruct (Z.leb_spec h x), (Z.leb_spec h (x - 1)); lia.
Qed.

Lemma cnt_all : forall hs x, (forall h, In h hs -> h <= x) -> cnt hs x = zlen hs.
Proof.
  induction hs; intros x H; [reflexivity|]. rewrite cnt_cons, zlen_cons, IHhs by auto using in_cons.
  destruct (Z.leb_spec a x); [lia|]. specialize (H a (or_introl eq_refl)). lia.
Qed.

Lemma cnt_none : forall hs x, (forall h, In h hs -> x < h) -> cnt hs x = 0.
Proof.
  induction hs; intros x H; [reflexivity|]. rewrite cnt_cons, IHhs by auto using in_cons.
  destruct (Z.leb_spec a x); [|lia]. specialize (H a (or_introl eq_refl)). lia.
Qed.

Definition electrons (n : Z) (hs : list Z) : list Z := filter (fun y => negb (mem y hs)) (zrange 0 n).

Lemma in_electrons : forall n hs x, In x (electrons n hs) <-> 0 <= x < n /\ ~ In x hs.
Proof.
  intros. unfold electrons. rewrite filter_In, in_zrange, negb_true_iff, mem_false. tauto.
Qed.

Lemma electrons_sorted : forall n hs, Sorted Z.lt (electrons n hs).
Proof. intros. apply Sorted_filter_lt, zrange_sorted. Qed.

Lemma compress_electrons_aux : forall (k : nat) hs, NoDup hs -> (forall h, In h hs -> 0 <= h) ->
  map (compress hs) (electrons (Z.of_nat k) hs) = zrange 0 (Z.of_nat k - cnt hs (Z.of_nat k - 1)).
Proof.
  induction k; intros hs ND Hpos.
  - rewrite cnt_none by (intros h Hh; specialize (Hpos h Hh); lia). reflexivity.
  - unfold electrons in *. rewrite Nat2Z.inj_succ.
    replace (Z.succ (Z.of_nat k)) with (Z.of_nat k + 1) by lia.
    rewrite zrange_snoc by lia. rewrite filter_app, map_app, IHk by assumption.
    replace (Z.of_nat k + 1 - 1) with (Z.of_nat k) by lia.
    rewrite (cnt_step hs (Z.of_nat k)) by assumption. simpl filter.
    assert (cnt hs (Z.of_nat k - 1) <= Z.of_nat k).
    { pose proof (f_equal (@length Z) (IHk hs ND Hpos)) as L.
      destruct (Z_le_gt_dec (cnt hs (Z.of_nat k - 1)) (Z.of_nat k)); [assumption|].
      exfalso. clear -g ND Hpos. 
      assert (B : forall (m : nat), cnt hs (Z.of_nat m - 1) <= Z.of_nat m).
      { induction m.
        - rewrite cnt_none by (intros h Hh; specialize (Hpos h Hh); lia). lia.
        - rewrite Nat2Z.inj_succ. replace (Z.succ (Z.of_nat m) - 1) with (Z.of_nat m) by lia.
          rewrite (cnt_step hs _ ND). destruct (mem _ _); lia. }
      specialize (B k). lia. }
    destruct (mem (Z.of_nat k) hs) eqn:M; simpl.
    + rewrite app_nil_r. f_equal. lia.
    + unfold compress at 1. rewrite (cnt_step hs (Z.of_nat k)), M by assumption.
      rewrite Z.add_0_r, <- zrange_snoc by lia. f_equal. lia.
Qed.

Lemma compress_electrons : forall n hs, 0 <= n -> NoDup hs -> (forall h, In h hs -> 0 <= h < n) ->
  map (compress hs) (electrons n hs) = zrange 0 (n - zlen hs).
Proof.
  intros n hs Hn ND Hr. pose proof (compress_electrons_aux (Z.to_nat n) hs ND) as H.
  rewrite Z2Nat.id in H by assumption. rewrite H by (intros h Hh; specialize (Hr h Hh); lia).
  f_equal. rewrite cnt_all; [reflexivity|]. intros h Hh. specialize (Hr h Hh). lia.
Qed.

(** ** fusion_hash *)

Definition spread (hs : list Z) (x : Z) : Z :=
  fold_left (fun e h => e + (if h <=? e then 1 else 0)) hs x.

Lemma spread_small : forall hs x, (forall h, In h hs -> x < h) -> spread hs x = x.
Proof.
  unfold spread. induction hs; intros x H; [reflexivity|]. cbn [fold_left].
  destruct (Z.leb_spec a x).
  - specialize (H a (or_introl eq_refl)). lia.
  - rewrite Z.add_0_r. apply IHhs. auto using in_cons.
Qed.

Lemma spread_spec : forall hs x, Sorted Z.lt hs ->
  ~ In (spread hs x) hs /\ compress hs (spread hs x) = x /\ x <= spread hs x <= x + zlen hs.
Proof.
  induction hs as [|h hs IH]; intros x S.
  - unfold compress. rewrite cnt_nil. unfold zlen; simpl. repeat split; [tauto| lia | lia | lia].
  - assert (S' := S). apply Sorted_StronglySorted in S; [|intros a b c; lia].
    inversion S; subst. rewrite Forall_forall in H2. inversion S'; subst.
    unfold spread. cbn [fold_left]. fold (spread hs (x + (if h <=? x then 1 else 0))).
    rewrite zlen_cons. unfold compress. rewrite cnt_cons.
    destruct (Z.leb_spec h x).
    + destruct (IH (x + 1) H3) as (A & B & C). unfold compress in B.
      destruct (Z.leb_spec h (spread hs (x + 1))); [|lia].
      split; [|split; lia]. intros [E|E]; [lia | contradiction].
    + rewrite Z.add_0_r. rewrite spread_small by (intros y Hy; specialize (H2 y Hy); lia).
      destruct (Z.leb_spec h x); [lia|].
      rewrite cnt_none by (intros y Hy; specialize (H2 y Hy); lia).
      pose proof (zlen_nonneg _ hs).
      split; [|split; lia]. intros [E|E]; [lia |]. specialize (H2 _ E). lia.
Qed.

Lemma map_inj_on : forall A B (f : A -> B) (P : A -> Prop) l1 l2,
  (forall x y, P x -> P y -> f x = f y -> x = y) ->
  (forall x, In x l1 -> P x) -> (forall x, In x l2 -> P x) -> map f l1 = map f l2 -> l1 = l2.
Proof.
  induction l1; destruct l2; simpl; intros Hf H1 H2 E; try discriminate; [reflexivity|].
  inversion E. f_equal; [apply Hf; auto | apply IHl1; auto].
Qed.

Lemma NoDup_map_inj_on : forall A B (f : A -> B) l x y, NoDup (map f l) ->
  In x l -> In y l -> f x = f y -> x = y.
Proof.
  induction l; simpl; intros x y ND Hx Hy E; [contradiction|].
  inversion ND; subst. destruct Hx as [<-|Hx], Hy as [<-|Hy]; auto.
  - exfalso. apply H1. rewrite E. now apply in_map.
  - exfalso. apply H1. rewrite <- E. now apply in_map.
Qed.

Lemma spread_electrons : forall n hs, 0 <= n -> Sorted Z.lt hs -> (forall h, In h hs -> 0 <= h < n) ->
  map (spread hs) (zrange 0 (n - zlen hs)) = electrons n hs.
Proof.
  intros n hs Hn S Hr. pose proof (sorted_lt_NoDup _ S) as ND.
  pose proof (compress_electrons n hs Hn ND Hr) as C.
  apply (map_inj_on _ _ (compress hs) (fun x => In x (electrons n hs))).
  - intros x y Hx Hy E. eapply NoDup_map_inj_on; eauto. rewrite C. apply zrange_NoDup.
  - intros x Hx. apply in_map_iff in Hx as (k & <- & Hk). apply in_zrange in Hk.
    destruct (spread_spec hs k S) as (A & _ & B). apply in_electrons. split; [lia | assumption].
  - auto.
  - rewrite C, map_map. rewrite <- (map_id (zrange 0 (n - zlen hs))) at 2. apply map_ext.
    intros k. now apply spread_spec.
Qed.

Lemma fusion_hash_spread : forall hs bs, fusion_hash hs bs = hs ++ map (spread hs) bs.
Proof. reflexivity. Qed.

(** ** get_target_hash *)

Definition subset (n : Z) (s : list Z) : Prop := sublist s (zrange 0 n).

Lemma subset_intro : forall n s, Sorted Z.lt s -> (forall x, In x s -> 0 <= x < n) -> subset n s.
Proof.
  intros. apply sorted_incl_sublist; auto using zrange_sorted. intros x Hx. apply in_zrange. auto.
Qed.

Lemma subset_sorted : forall n s, subset n s -> Sorted Z.lt s.
Proof. intros. eapply sublist_sorted; [eassumption | apply zrange_sorted]. Qed.

Lemma subset_range : forall n s x, subset n s -> In x s -> 0 <= x < n.
Proof. intros. apply in_zrange. eapply sublist_incl; eauto. Qed.

Lemma comb_0_r : forall n, 0 <= n -> comb n 0 = 1.
Proof. intros. rewrite comb_binom' by lia. apply binom_0. Qed.

Lemma comb_pascal : forall n k, 0 <= n -> 0 <= k -> comb (n + 1) (k + 1) = comb n k + comb n (k + 1).
Proof.
  intros. rewrite !comb_binom' by lia.
  replace (Z.to_nat (n + 1)) with (S (Z.to_nat n)) by lia.
  replace (Z.to_nat (k + 1)) with (S (Z.to_nat k)) by lia. apply binom_S.
Qed.

Lemma comb_diag : forall n, 0 <= n -> comb n n = 1.
Proof. intros. rewrite comb_binom' by lia. apply binom_diag. Qed.

Lemma comb_gt : forall n k, n < k -> comb n k = 0.
Proof. intros. unfold comb. destruct (Z.ltb_spec n k); [reflexivity | lia]. Qed.

Lemma hockey : forall lo n t, 0 <= t ->  lo <= n ->
  zsum (map (fun j => comb (n - j - 1) t) (zrange lo n)) = comb (n - lo) (t + 1).
Proof.
  apply (zrange_ind (fun lo n => forall t, 0 <= t -> lo <= n ->
    zsum (map (fun j => comb (n - j - 1) t) (zrange lo n)) = comb (n - lo) (t + 1))).
  - intros lo n H t Ht Hle. rewrite zrange_nil by lia. simpl. rewrite comb_gt by lia. reflexivity.
  - intros lo n H IH t Ht Hle. rewrite zrange_cons by lia. simpl. rewrite IH by lia.
    replace (n - lo - 1) with (n - (lo + 1)) by lia.
    replace (n - lo) with ((n - (lo + 1)) + 1) by lia.
    rewrite comb_pascal by lia. reflexivity.
Qed.

Lemma zsum_const1 : forall f lo x, (forall j, lo <= j < x -> f j = 1) -> lo <= x ->
  zsum (map f (zrange lo x)) = x - lo.
Proof.
  intros f. apply (zrange_ind (fun lo x => (forall j, lo <= j < x -> f j = 1) -> lo <= x ->
    zsum (map f (zrange lo x)) = x - lo)); intros.
  - rewrite zrange_nil by lia. simpl. lia.
  - rewrite zrange_cons by lia. simpl. rewrite H0, H1; try lia; intros; apply H1; lia.
Qed.

(** the full top segment is the last subset *)
Lemma rk_top : forall (t : nat) n lo, lo <= n - Z.of_nat t ->
  rk n lo (zrange (n - Z.of_nat t) n) = comb (n - lo) (Z.of_nat t) - 1.
Proof.
  induction t; intros n lo H.
  - rewrite zrange_nil by lia. simpl. rewrite comb_0_r by lia. reflexivity.
  - rewrite zrange_cons by lia.
    replace (n - Z.of_nat (S t) + 1) with (n - Z.of_nat t) by lia.
    cbn [rk]. rewrite zlen_zrange by lia. replace (n - Z.of_nat (S t) + 1) with (n - Z.of_nat t) by lia.
    rewrite IHt by lia.
    replace (n - (n - Z.of_nat t)) with (Z.of_nat t) by lia. rewrite comb_diag by lia.
    replace (Z.of_nat (S t)) with (Z.of_nat t + 1) by lia.
    pose proof (hockey lo n (Z.of_nat t) ltac:(lia) ltac:(lia)) as HK.
    rewrite (zrange_app lo (n - Z.of_nat t - 1) n), map_app, zsum_app in HK by lia.
    rewrite (zrange_cons (n - Z.of_nat t - 1) n) in HK by lia. simpl map in HK. simpl zsum in HK.
    replace (n - (n - Z.of_nat t - 1) - 1) with (Z.of_nat t) in HK by lia.
    rewrite comb_diag in HK by lia.
    assert (Z0 : zsum (map (fun j => comb (n - j - 1) (Z.of_nat t)) (zrange (n - Z.of_nat t - 1 + 1) n)) = 0).
    { clear. assert (G : forall l, (forall x, In x l -> n - Z.of_nat t <= x) ->
        zsum (map (fun j => comb (n - j - 1) (Z.of_nat t)) l) = 0).
      { induction l; simpl; intros; [reflexivity|]. rewrite IHl by auto.
        rewrite comb_gt; [reflexivity|]. specialize (H a (or_introl eq_refl)). lia. }
      apply G. intros x Hx. apply in_zrange in Hx. lia. }
    rewrite Z0 in HK. replace (n - (Z.of_nat t + 1)) with (n - Z.of_nat t - 1) by lia. lia.
Qed.

(** the full bottom segment is the first subset *)
Lemma rk_bottom : forall (t : nat) n lo, rk n lo (zrange lo (lo + Z.of_nat t)) = 0.
Proof.
  induction t; intros n lo.
  - rewrite zrange_nil by lia. reflexivity.
  - rewrite zrange_cons by lia. cbn [rk]. rewrite (zrange_nil lo lo) by lia. simpl map. simpl zsum.
    replace (lo + Z.of_nat (S t)) with (lo + 1 + Z.of_nat t) by lia. apply IHt.
Qed.

Lemma rk_app : forall n pre s1 s2 lo, length s1 = length s2 ->
  rk n lo (pre ++ s2) - rk n lo (pre ++ s1)
  = match rev pre with [] => rk n lo s2 - rk n lo s1 | x :: _ => rk n (x + 1) s2 - rk n (x + 1) s1 end.
Proof.
  induction pre as [|y pre IH]; intros s1 s2 lo L; [reflexivity|].
  cbn [app rk]. assert (zlen (pre ++ s2) = zlen (pre ++ s1)) as -> by (unfold zlen; rewrite !app_length; lia).
  specialize (IH s1 s2 (y + 1) L).
  cbn [rev]. destruct (rev pre) as [|z r] eqn:R.
  - cbn [app]. lia.
  - cbn [app]. lia.
Qed.

(** the lower bound left by a prefix *)
Definition after (lo : Z) (pre : list Z) : Z := match rev pre with [] => lo | x :: _ => x + 1 end.

Lemma rk_app' : forall n pre s1 s2 lo, length s1 = length s2 ->
  rk n lo (pre ++ s2) = rk n lo (pre ++ s1) + (rk n (after lo pre) s2 - rk n (after lo pre) s1).
Proof.
  intros. pose proof (rk_app n pre s1 s2 lo H).
  unfold after. destruct (rev pre); lia.
Qed.

(** subsets and appending *)
Lemma Sorted_app_lt : forall l1 l2, Sorted Z.lt l1 -> Sorted Z.lt l2 ->
  (forall x y, In x l1 -> In y l2 -> x < y) -> Sorted Z.lt (l1 ++ l2).
Proof.
  induction l1; simpl; intros l2 S1 S2 H; [assumption|].
  inversion S1; subst. constructor; [apply IHl1; auto|].
  destruct l1; simpl.
  - destruct l2; constructor. apply H; now left.
  - inversion H3; subst. now constructor.
Qed.

Lemma Sorted_app_inv : forall l1 l2, Sorted Z.lt (l1 ++ l2) ->
  Sorted Z.lt l1 /\ Sorted Z.lt l2 /\ (forall x y, In x l1 -> In y l2 -> x < y).
Proof.
  induction l1; simpl; intros l2 S.
  - repeat split; [constructor | assumption | tauto].
  - assert (S' := S). apply Sorted_StronglySorted in S'; [|intros u v w; lia].
    inversion S as [|? ? S1 S2]; subst. destruct (IHl1 _ S1) as (A & B & C).
    inversion S' as [|? ? S3 F]; subst. rewrite Forall_forall in F. repeat split; auto.
    + constructor; auto. destruct l1; constructor. apply F. now left.
    + intros x y [<-|Hx] Hy; auto. apply F. apply in_app_iff. auto.
Qed.

Lemma after_le : forall pre x s, Sorted Z.lt (pre ++ x :: s) -> (forall y, In y (pre ++ x :: s) -> 0 <= y) ->
  0 <= after 0 pre <= x.
Proof.
  intros pre x s S H. destruct (Sorted_app_inv _ _ S) as (_ & _ & C). unfold after.
  destruct (rev pre) eqn:R.
  - split; [lia|]. apply H. apply in_app_iff. right. now left.
  - assert (In z pre) by (apply in_rev; rewrite R; now left).
    split; [|specialize (C z x H0 (or_introl eq_refl)); lia].
    assert (0 <= z) by (apply H; apply in_app_iff; auto). lia.
Qed.

(** moving the last element up *)
Lemma move_last : forall n pre x m, subset n (pre ++ [x]) -> 0 <= m -> x + m < n ->
  subset n (pre ++ [x + m]) /\ rk n 0 (pre ++ [x + m]) = rk n 0 (pre ++ [x]) + m.
Proof.
  intros n pre x m H Hm Hx. pose proof (subset_sorted _ _ H) as S.
  destruct (Sorted_app_inv _ _ S) as (S1 & _ & C). split.
  - apply subset_intro.
    + apply Sorted_app_lt; [assumption | repeat constructor |].
      intros a b Ha [<-|[]]. specialize (C a x Ha (or_introl eq_refl)). lia.
    + intros y Hy. apply in_app_iff in Hy as [Hy|[<-|[]]].
      * eapply subset_range; [eassumption|]. apply in_app_iff; auto.
      * assert (0 <= x < n) by (eapply subset_range; [eassumption|]; apply in_app_iff; right; now left). lia.
  - rewrite (rk_app' n pre [x] [x + m] 0 eq_refl).
    assert (A : 0 <= after 0 pre <= x).
    { eapply after_le; [eassumption|]. intros y Hy. eapply subset_range; eauto. }
    cbn [rk]. change (zlen (@nil Z)) with 0.
    rewrite !zsum_const1; try lia; intros; apply comb_0_r; lia.
Qed.

(** the successor of a subset *)
Lemma next_subset : forall n pre x (t : nat), subset n (pre ++ x :: zrange (n - Z.of_nat t) n) ->
  x <> n - Z.of_nat t - 1 ->
  subset n (pre ++ zrange (x + 1) (x + 2 + Z.of_nat t)) /\
  rk n 0 (pre ++ zrange (x + 1) (x + 2 + Z.of_nat t)) = rk n 0 (pre ++ x :: zrange (n - Z.of_nat t) n) + 1.
Proof.
  intros n pre x t H Hx. pose proof (subset_sorted _ _ H) as S.
  destruct (Sorted_app_inv _ _ S) as (S1 & S2 & C).
  assert (Hxr : 0 <= x < n) by (eapply subset_range; [eassumption|]; apply in_app_iff; right; now left).
  assert (Hlt : x < n - Z.of_nat t - 1).
  { destruct (Z.lt_total x (n - Z.of_nat t - 1)) as [|[|]]; [assumption | lia |].
    destruct t; [lia|].
    apply Sorted_StronglySorted in S2; [|intros u v w; lia]. inversion S2 as [|? ? _ F]; subst.
    rewrite Forall_forall in F. specialize (F (n - Z.of_nat (Datatypes.S t))).
    rewrite in_zrange in F. specialize (F ltac:(lia)). lia. }
  split.
  - apply subset_intro.
    + apply Sorted_app_lt; [assumption | apply zrange_sorted |].
      intros a b Ha Hb. apply in_zrange in Hb. specialize (C a x Ha (or_introl eq_refl)). lia.
    + intros y Hy. apply in_app_iff in Hy as [Hy|Hy].
      * eapply subset_range; [eassumption|]. apply in_app_iff; auto.
      * apply in_zrange in Hy. lia.
  - rewrite (rk_app' n pre (x :: zrange (n - Z.of_nat t) n) (zrange (x + 1) (x + 2 + Z.of_nat t)) 0)
      by (simpl; rewrite !zrange_length; lia).
    assert (A : 0 <= after 0 pre <= x).
    { eapply after_le; [eassumption|]. intros y Hy. eapply subset_range; eauto. }
    rewrite (zrange_cons (x + 1)) by lia. cbn [rk].
    rewrite !zlen_zrange by lia.
    replace (n - (n - Z.of_nat t)) with (Z.of_nat t) by lia.
    replace (x + 2 + Z.of_nat t - (x + 1 + 1)) with (Z.of_nat t) by lia.
    rewrite rk_top by lia.
    replace (x + 2 + Z.of_nat t) with (x + 1 + 1 + Z.of_nat t) by lia. rewrite rk_bottom.
    rewrite (zrange_snoc (after 0 pre) x) by lia. rewrite map_app, zsum_app. simpl.
    replace (n - (x + 1)) with (n - x - 1) by lia. lia.
Qed.

(** every subset is the top one or has a position to increase *)
Lemma decompose : forall s n, Sorted Z.lt s -> (forall x, In x s -> x < n) ->
  s = zrange (n - zlen s) n \/
  exists pre x (t : nat), s = pre ++ x :: zrange (n - Z.of_nat t) n /\ x <> n - Z.of_nat t - 1.
Proof.
  induction s as [|y s IH]; intros n S H.
  - left. rewrite zrange_nil by (unfold zlen; simpl; lia). reflexivity.
  - inversion S; subst. destruct (IH n H2) as [E|(pre & x & t & E & Hx)]; [auto using in_cons | |].
    + destruct (Z.eq_dec y (n - zlen s - 1)).
      * left. rewrite zlen_cons. rewrite zrange_cons by (pose proof (zlen_nonneg _ s); lia).
        subst y. f_equal; [lia|]. replace (n - (zlen s + 1) + 1) with (n - zlen s) by lia. assumption.
      * right. exists [], y, (length s). split; [simpl; f_equal; assumption | assumption].
    + right. exists (y :: pre), x, t. split; [simpl; f_equal; assumption | assumption].
Qed.

Lemma py_get_last : forall A (pre : list A) x, py_get (pre ++ [x]) (-1) = Ok x.
Proof.
  intros. pose proof (zlen_nonneg _ pre). apply py_get_neg; [lia | rewrite zlen_app; change (zlen [x]) with 1; lia |].
  rewrite zlen_app. change (zlen [x]) with 1. replace (-1 + (zlen pre + 1)) with (zlen pre) by lia.
  unfold zlen. rewrite Nat2Z.id. rewrite nth_error_app2, Nat.sub_diag by lia. reflexivity.
Qed.

Lemma py_get_from_end : forall A (pre : list A) x suf, py_get (pre ++ x :: suf) (- (zlen suf + 1)) = Ok x.
Proof.
  intros. pose proof (zlen_nonneg _ pre). pose proof (zlen_nonneg _ suf).
  apply py_get_neg; [lia | rewrite zlen_app, zlen_cons; lia |].
  rewrite zlen_app, zlen_cons. replace (- (zlen suf + 1) + (zlen pre + (zlen suf + 1))) with (zlen pre) by lia.
  unfold zlen. rewrite Nat2Z.id. rewrite nth_error_app2, Nat.sub_diag by lia. reflexivity.
Qed.

Lemma py_set_from_end : forall A (pre : list A) x v suf,
  py_set (pre ++ x :: suf) (- (zlen suf + 1)) v = Ok (pre ++ v :: suf).
Proof.
  intros. pose proof (zlen_nonneg _ pre). pose proof (zlen_nonneg _ suf).
  rewrite py_set_neg by (try lia; rewrite zlen_app, zlen_cons; lia).
  rewrite zlen_app, zlen_cons. replace (- (zlen suf + 1) + (zlen pre + (zlen suf + 1))) with (zlen pre) by lia.
  unfold zlen. rewrite Nat2Z.id. f_equal.
  replace (length pre) with (length pre + 0)%nat at 1 by lia. rewrite set_nth_app2. reflexivity.
Qed.

Lemma target_rank_found : forall (t : nat) fuel n pre x (u : nat),
  x <> n - Z.of_nat (u + t) - 1 -> (t < fuel)%nat ->
  target_rank fuel n (pre ++ x :: zrange (n - Z.of_nat (u + t)) n) (- Z.of_nat u - 1)
  = Ok (- Z.of_nat (u + t) - 1).
Proof.
  induction t; intros fuel n pre x u Hx Hf; (destruct fuel; [lia|]); cbn [target_rank].
  - rewrite Nat.add_0_r in *.
    replace (- Z.of_nat u - 1) with (- (zlen (zrange (n - Z.of_nat u) n) + 1)) at 1
      by (rewrite zlen_zrange by lia; lia).
    rewrite py_get_from_end. cbn [bind].
    destruct (Z.eqb_spec (n + (- Z.of_nat u - 1) - x) 0); [lia | reflexivity].
  - assert (E : zrange (n - Z.of_nat (u + S t)) n =
      zrange (n - Z.of_nat (u + S t)) (n - Z.of_nat u - 1) ++ (n - Z.of_nat u - 1) :: zrange (n - Z.of_nat u) n).
    { rewrite (zrange_app _ (n - Z.of_nat u - 1) n) by lia. f_equal.
      rewrite zrange_cons by lia. f_equal. f_equal. lia. }
    assert (G : py_get (pre ++ x :: zrange (n - Z.of_nat (u + S t)) n) (- Z.of_nat u - 1) = Ok (n - Z.of_nat u - 1)).
    { rewrite E. replace (- Z.of_nat u - 1) with (- (zlen (zrange (n - Z.of_nat u) n) + 1))
        by (rewrite zlen_zrange by lia; lia).
      change (x :: ?a ++ ?b) with ((x :: a) ++ b). rewrite app_assoc. apply py_get_from_end. }
    rewrite G. cbn [bind].
    destruct (Z.eqb_spec (n + (- Z.of_nat u - 1) - (n - Z.of_nat u - 1)) 0); [|lia].
    replace (- Z.of_nat u - 1 - 1) with (- Z.of_nat (S u) - 1) by lia.
    replace (u + S t)%nat with (S u + t)%nat by lia.
    apply IHt; [|lia]. replace (S u + t)%nat with (u + S t)%nat by lia. assumption.
Qed.

Lemma target_rank_top : forall (t : nat) fuel n (u : nat), (t < fuel)%nat ->
  target_rank fuel n (zrange (n - Z.of_nat (u + t)) n) (- Z.of_nat u - 1) = Err IndexError.
Proof.
  induction t; intros fuel n u Hf; (destruct fuel; [lia|]); cbn [target_rank].
  - rewrite Nat.add_0_r. unfold py_get, py_norm. rewrite zlen_zrange by lia.
    destruct (Z.ltb_spec (- Z.of_nat u - 1) 0); [|lia].
    destruct (Z.ltb_spec (- Z.of_nat u - 1 + (n - (n - Z.of_nat u))) 0); [reflexivity | lia].
  - assert (E : zrange (n - Z.of_nat (u + S t)) n =
      zrange (n - Z.of_nat (u + S t)) (n - Z.of_nat u - 1) ++ (n - Z.of_nat u - 1) :: zrange (n - Z.of_nat u) n).
    { rewrite (zrange_app _ (n - Z.of_nat u - 1) n) by lia. f_equal.
      rewrite zrange_cons by lia. f_equal. f_equal. lia. }
    assert (G : py_get (zrange (n - Z.of_nat (u + S t)) n) (- Z.of_nat u - 1) = Ok (n - Z.of_nat u - 1)).
    { rewrite E. replace (- Z.of_nat u - 1) with (- (zlen (zrange (n - Z.of_nat u) n) + 1))
        by (rewrite zlen_zrange by lia; lia). apply py_get_from_end. }
    rewrite G. cbn [bind].
    destruct (Z.eqb_spec (n + (- Z.of_nat u - 1) - (n - Z.of_nat u - 1)) 0); [|lia].
    replace (- Z.of_nat u - 1 - 1) with (- Z.of_nat (S u) - 1) by lia.
    replace (u + S t)%nat with (S u + t)%nat by lia. apply IHt. lia.
Qed.

Lemma refill : forall suf pre y,
  foldM (fun l ind_j => y <- py_get l (ind_j - 1) ;; py_set l ind_j (y + 1))
        (pre ++ y :: suf) (zrange (- zlen suf) 0)
  = Ok (pre ++ zrange y (y + 1 + zlen suf)).
Proof.
  induction suf as [|z suf IH]; intros pre y.
  - rewrite zrange_nil by (unfold zlen; simpl; lia). cbn [foldM]. do 2 f_equal.
    rewrite zrange_cons by (unfold zlen; simpl; lia).
    rewrite zrange_nil by (unfold zlen; simpl; lia). reflexivity.
  - pose proof (zlen_nonneg _ suf). rewrite zlen_cons.
    rewrite zrange_cons by lia. cbn [foldM].
    replace (- (zlen suf + 1) - 1) with (- (zlen (z :: suf) + 1)) by (rewrite zlen_cons; lia).
    rewrite py_get_from_end. cbn [bind].
    change (pre ++ y :: z :: suf) with (pre ++ [y] ++ z :: suf). rewrite app_assoc.
    rewrite py_set_from_end. cbn [bind].
    replace (- (zlen suf + 1) + 1) with (- zlen suf) by lia. rewrite IH.
    f_equal. rewrite <- app_assoc. f_equal. cbn [app].
    rewrite (zrange_cons y) by lia. do 2 f_equal. lia.
Qed.

Lemma rk_last : forall n k, 0 <= k <= n -> forall s, subset n s -> zlen s = k ->
  rk n 0 s = comb n k - 1 -> s = zrange (n - k) n.
Proof.
  intros n k Hk s Hs L E. apply (rk_inj n).
  - assumption.
  - apply subset_intro; [apply zrange_sorted|]. intros x Hx; apply in_zrange in Hx; lia.
  - unfold zlen in L. rewrite zrange_length. lia.
  - rewrite E. pose proof (rk_top (Z.to_nat k) n 0 ltac:(lia)) as T.
    rewrite Z2Nat.id in T by lia. rewrite T. f_equal. f_equal. lia.
Qed.

Lemma target_loop_spec : forall fuel n s r, subset n s -> s <> [] -> 0 <= r -> r < Z.of_nat fuel ->
  (rk n 0 s + r < comb n (zlen s) ->
     exists s', target_loop fuel n s r = Ok s' /\ subset n s' /\ zlen s' = zlen s /\ rk n 0 s' = rk n 0 s + r)
  /\ (comb n (zlen s) <= rk n 0 s + r -> target_loop fuel n s r = Err IndexError).
Proof.
  induction fuel as [|fuel IH]; intros n s r Hs Hne Hr Hf; [lia|].
  cbn [target_loop]. destruct (Z.leb_spec r 0).
  { assert (r = 0) by lia. subst r. rewrite Z.add_0_r. split.
    - intros _. exists s. auto.
    - intros C. exfalso. pose proof (rk_bound n s) as B.
      destruct s as [|x s]; [congruence|].
      assert (0 <= x < n) by (eapply subset_range; [eassumption | now left]).
      specialize (B ltac:(lia) Hs). lia. }
  destruct (exists_last Hne) as (pre & x & Es). subst s.
  rewrite py_get_last. cbn [bind].
  assert (Hx : 0 <= x < n) by (eapply subset_range; [eassumption|]; apply in_app_iff; right; now left).
  assert (Hlast : forall v, py_set (pre ++ [x]) (-1) v = Ok (pre ++ [v])).
  { intros. change (-1) with (- (zlen (@nil Z) + 1)). apply py_set_from_end. }
  assert (Hz : forall v, zlen (pre ++ [v]) = zlen (pre ++ [x])) by (intros; rewrite !zlen_app; reflexivity).
  destruct (Z.ltb_spec 0 (n - 1 - x)).
  - destruct (Z.leb_spec r (n - 1 - x)).
    + rewrite Hlast. cbn [bind].
      destruct (move_last n pre x r Hs ltac:(lia) ltac:(lia)) as [A B].
      assert (T : target_loop fuel n (pre ++ [x + r]) 0 = Ok (pre ++ [x + r])) by (destruct fuel; reflexivity).
      rewrite T. split.
      * intros _. exists (pre ++ [x + r]). repeat split; auto.
      * intros C. exfalso. pose proof (rk_bound n _ ltac:(lia) A) as D. rewrite (Hz (x + r)), B in D. lia.
    + rewrite Hlast. cbn [bind].
      destruct (move_last n pre x (n - 1 - x) Hs ltac:(lia) ltac:(lia)) as [A B].
      replace (x + (n - 1 - x)) with (n + -1) in A, B by lia.
      destruct (IH n (pre ++ [n + -1]) (r - (n - 1 - x)) A) as [I1 I2];
        [now destruct pre | lia | lia |].
      rewrite (Hz (n + -1)), B in I1, I2.
      replace (rk n 0 (pre ++ [x]) + (n - 1 - x) + (r - (n - 1 - x))) with (rk n 0 (pre ++ [x]) + r) in I1, I2 by lia.
      split; assumption.
  - assert (x = n - 1) by lia.
    pose proof (subset_sorted _ _ Hs) as Srt.
    assert (Hlt : forall y, In y (pre ++ [x]) -> y < n) by (intros y Hy; eapply subset_range in Hy; eauto; lia).
    destruct (decompose _ n Srt Hlt) as [E|(pre' & x' & t & E & Hx')].
    + (* last subset *)
      assert (Ln : zlen (pre ++ [x]) <= n).
      { assert (In (n - zlen (pre ++ [x])) (pre ++ [x])).
        { rewrite E at 2. apply in_zrange. rewrite zlen_app. change (zlen [x]) with 1.
          pose proof (zlen_nonneg _ pre). lia. }
        eapply subset_range in H2; eauto. lia. }
      assert (Rk : rk n 0 (pre ++ [x]) = comb n (zlen (pre ++ [x])) - 1).
      { rewrite E at 1. pose proof (rk_top (length (pre ++ [x])) n 0) as T.
        unfold zlen in *. rewrite T by lia. f_equal. f_equal. lia. }
      split; [lia|]. intros _.
      rewrite E. pose proof (target_rank_top (length (pre ++ [x])) (length (pre ++ [x]) + 1) n 0 ltac:(lia)) as T.
      simpl Nat.add in T. change (- Z.of_nat 0 - 1) with (-1) in T. fold (zlen (pre ++ [x])) in T.
      rewrite zrange_length. replace (Z.to_nat (n - (n - zlen (pre ++ [x])))) with (length (pre ++ [x])) by (unfold zlen; lia).
      rewrite T. reflexivity.
    + rewrite E in *. clear pre x E Hx Hlast Hz H0 H1 Hlt.
      pose proof (target_rank_found t (length (pre' ++ x' :: zrange (n - Z.of_nat t) n) + 1) n pre' x' 0) as T.
      simpl Nat.add in T. change (- Z.of_nat 0 - 1) with (-1) in T.
      rewrite T; [| assumption | rewrite app_length; simpl; rewrite zrange_length; lia]. cbn [bind].
      assert (Hl : zlen (zrange (n - Z.of_nat t) n) = Z.of_nat t) by (rewrite zlen_zrange; lia).
      replace (- Z.of_nat t - 1) with (- (zlen (zrange (n - Z.of_nat t) n) + 1)) by lia.
      rewrite py_get_from_end. cbn [bind]. rewrite py_set_from_end. cbn [bind].
      replace (- (zlen (zrange (n - Z.of_nat t) n) + 1) + 1) with (- zlen (zrange (n - Z.of_nat t) n)) by lia.
      rewrite refill. cbn [bind]. rewrite Hl.
      replace (x' + 1 + 1 + Z.of_nat t) with (x' + 2 + Z.of_nat t) by lia.
      destruct (next_subset n pre' x' t Hs Hx') as [A B].
      assert (L : zlen (pre' ++ zrange (x' + 1) (x' + 2 + Z.of_nat t)) = zlen (pre' ++ x' :: zrange (n - Z.of_nat t) n))
        by (rewrite !zlen_app, zlen_cons, !zlen_zrange by lia; lia).
      destruct (IH n _ (r - 1) A) as [I1 I2]; [| lia | lia |].
      { rewrite zrange_cons by lia. now destruct pre'. }
      rewrite L, B in I1, I2.
      replace (rk n 0 (pre' ++ x' :: zrange (n - Z.of_nat t) n) + 1 + (r - 1))
        with (rk n 0 (pre' ++ x' :: zrange (n - Z.of_nat t) n) + r) in I1, I2 by lia.
      split; assumption.
Qed.

Lemma first_subset : forall n k, 0 <= k <= n -> subset n (zrange 0 k) /\ rk n 0 (zrange 0 k) = 0.
Proof.
  intros. split.
  - apply subset_intro; [apply zrange_sorted|]. intros x Hx; apply in_zrange in Hx; lia.
  - pose proof (rk_bottom (Z.to_nat k) n 0) as R. rewrite Z2Nat.id in R by lia. exact R.
Qed.

Lemma target_hash_ok : forall n k i, 0 <= k <= n -> 0 <= i < comb n k ->
  exists s, get_target_hash n k i = Ok s /\ subset n s /\ zlen s = k /\ rk n 0 s = i.
Proof.
  intros n k i Hk Hi. unfold get_target_hash. destruct (Z.eqb_spec k 0); simpl negb; cbn iota.
  - subst. rewrite comb_0_r in Hi by lia. exists []. rewrite zrange_nil by lia.
    repeat split; [apply sublist_nil_l | simpl; lia].
  - destruct (first_subset n k Hk) as [A B].
    destruct (target_loop_spec (Z.to_nat i + 1) n (zrange 0 k) i A) as [I1 _]; [| lia | lia |].
    + rewrite zrange_cons by lia. discriminate.
    + rewrite zlen_zrange, B in I1 by lia. rewrite Z.sub_0_r in I1. destruct I1 as (s & E & S & L & R); [lia|].
      exists s. repeat split; auto.
Qed.

Lemma target_hash_err : forall n k i, 1 <= k <= n -> comb n k <= i -> get_target_hash n k i = Err IndexError.
Proof.
  intros n k i Hk Hi. unfold get_target_hash. destruct (Z.eqb_spec k 0); [lia|]. simpl negb; cbn iota.
  destruct (first_subset n k ltac:(lia)) as [A B]. pose proof (comb_nonneg n k).
  destruct (target_loop_spec (Z.to_nat i + 1) n (zrange 0 k) i A) as [_ I2]; [| lia | lia |].
  + rewrite zrange_cons by lia. discriminate.
  + apply I2. rewrite zlen_zrange, B by lia. rewrite Z.sub_0_r. lia.
Qed.

Lemma target_hash_zero : forall n i, get_target_hash n 0 i = Ok [].
Proof. reflexivity. Qed.
