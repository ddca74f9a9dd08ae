(** Probabilities and dominant determinants. *)
From Coq Require Import ZArith List Bool Lia Permutation Sorted QArith Qcanon Qcabs.
From Verif Require Import PyBase PyFacts Lattice Base Interact Spin Prob Spec SpecOps SpecTJ SpecSpin SpinDefs ProbDefs
  PBasis PSites PRot PSpin PRep POps PHam FBasis FSites PWave PVec PSecSum PSpinOp PBound PAct PQc.
Import ListNotations.
Open Scope Z_scope.

Lemma qeqb_eq : forall x y, qeqb x y = true <-> x = y.
Proof.
  intros x y. unfold qeqb. rewrite Qeq_bool_iff. split; [apply Qc_is_canon | intros ->; reflexivity].
Qed.
Lemma qeqb_refl : forall x, qeqb x x = true.
Proof. intros. now apply qeqb_eq. Qed.
Lemma qeqb_neq : forall x y, qeqb x y = false <-> x <> y.
Proof. intros x y. rewrite <- qeqb_eq. destruct (qeqb x y); split; congruence. Qed.
Lemma qleb_le : forall x y, qleb x y = true <-> (x <= y)%Qc.
Proof. intros x y. unfold qleb. rewrite Qle_bool_iff. reflexivity. Qed.
Lemma qleb_false : forall x y, qleb x y = false -> (y <= x)%Qc.
Proof.
  intros x y H. destruct (Qclt_le_dec x y) as [L|L]; [|assumption]. apply Qclt_le_weak in L. apply qleb_le in L. congruence.
Qed.
Lemma qabs_abs : forall x, qabs x = Qcabs x.
Proof.
  intros x. unfold qabs. destruct (qleb 0 x) eqn:Q.
  - symmetry. apply Qcabs_pos. now apply qleb_le.
  - symmetry. apply Qcabs_neg. now apply qleb_false.
Qed.
Lemma qabs_square : forall x, (qabs x * qabs x = x * x)%Qc.
Proof. intros x. unfold qabs. destruct (qleb 0 x); ring. Qed.

Lemma vdot_inner : forall u v, length u = length v -> vdot u v = inner u v.
Proof.
  intros u v H. rewrite vdot_sum by assumption. unfold inner, sum_sites, sites, zlen. rewrite Nat2Z.id, qsum_map.
  apply qsum_ext. intros k _. unfold vat. now rewrite Nat2Z.id.
Qed.

(** ** probabilities *)
Lemma enumerate_nth : forall A (l : list A), enumerate l = combine (map Z.of_nat (seq 0 (length l))) l.
Proof. intros. unfold enumerate, zrange, zlen. rewrite Z.sub_0_r, Nat2Z.id. f_equal. Qed.

Lemma spin_code_samep : forall p q, (spin_code p =? spin_code q) = samep p q.
Proof. intros [] []; reflexivity. Qed.

Lemma foldM_sum : forall A (f : Qc -> A -> res Qc) (g : A -> Qc) l, (forall x a, In x l -> f a x = Ok (a + g x)%Qc) ->
  forall a, foldM f a l = Ok (a + qsum g l)%Qc.
Proof.
  intros A f g l. induction l as [|x l IH]; intros H a; cbn [foldM]; [rewrite qsum_nil; f_equal; ring|].
  rewrite H by now left. cbn [bind]. rewrite IH by (intros; apply H; now right). rewrite qsum_cons. f_equal. ring.
Qed.

Lemma qsum_enumerate : forall A (l : list A) (g : Z * A -> Qc) (f : nat -> Qc),
  (forall k x, nth_error l k = Some x -> g (Z.of_nat k, x) = f k) -> qsum g (enumerate l) = qsum f (seq 0 (length l)).
Proof.
  intros A l g f H. rewrite enumerate_nth.
  assert (G : forall m k, (forall j x, nth_error m j = Some x -> g (Z.of_nat (k + j), x) = f (k + j)%nat) ->
    qsum g (combine (map Z.of_nat (seq k (length m))) m) = qsum f (seq k (length m))).
  { induction m as [|x m IH]; intros k Q; [reflexivity|]. cbn [length seq map combine]. rewrite !qsum_cons. f_equal.
    - specialize (Q 0%nat x eq_refl). now rewrite Nat.add_0_r in Q.
    - apply IH. intros j y Hy. specialize (Q (S j) y Hy). now rewrite Nat.add_succ_r in Q. }
  apply (G l 0%nat). exact H.
Qed.

Lemma proba_site_ok : forall c l st v p x, listed (nsites c) (nholes c) (nbeta c) l st -> length v = length l -> 0 <= x < nsites c ->
  proba_site (mkBasis c l) v (spin_code p) x = Ok (weight st v p x).
Proof.
  intros c l st v p x D L Hx. unfold proba_site. cbn [b_conf determinants].
  set (g := fun q : Z * det => only (samep (st (Z.to_nat (fst q)) x) p) (vat v (fst q) * vat v (fst q))%Qc).
  rewrite (foldM_sum _ _ g).
  - f_equal. rewrite Qcplus_0_l. unfold weight. rewrite L. apply qsum_enumerate. intros k d Hk. unfold g, vat. cbn [fst]. now rewrite Nat2Z.id.
  - intros [k d] a Hk. apply in_enumerate in Hk. destruct Hk as [Hk Nk]. cbn [fst snd].
    pose proof (nth_error_Some l (Z.to_nat k)) as B. rewrite Nk in B. assert (B' : (Z.to_nat k < length l)%nat) by (apply B; congruence).
    rewrite vat_get by (unfold zlen; lia). cbn [bind].
    pose proof (D _ _ Nk) as Dk.
    rewrite (spin_site_ok c d (st (Z.to_nat k)) x Dk Hx). cbn [bind]. rewrite spin_code_samep, qabs_square. unfold g. cbn [fst].
    destruct (samep _ _); cbn [only]; f_equal; ring.
Qed.

Lemma bad_code : forall p, bad_spin (spin_code p) = false.
Proof. intros []; reflexivity. Qed.

Lemma neg_code : forall p, - spin_code p = spin_code (flip_particle p).
Proof. intros []; reflexivity. Qed.

Lemma probability_ok : forall c l st v p, listed (nsites c) (nholes c) (nbeta c) l st -> length v = length l -> inner v v <> 0%Qc ->
  get_probability_spin_lattice (mkBasis c l) v (spin_code p) false =
  Ok (map (fun x => weight st v p x / inner v v)%Qc (zrange 0 (nsites c))).
Proof.
  intros c l st v p D L N. unfold get_probability_spin_lattice. rewrite bad_code. cbn [b_conf]. apply mapM_ok.
  intros x Hx. apply in_zrange in Hx. rewrite (proba_site_ok c l st v p x D L Hx). cbn [bind]. unfold fdiv, norm_square.
  rewrite vdot_inner by reflexivity. apply qeqb_neq in N. now rewrite N.
Qed.

Lemma weight_nonneg : forall st v p x, (0 <= weight st v p x)%Qc.
Proof.
  intros. unfold weight. apply qsum_nonneg. intros k _. destruct (samep _ _); cbn [only]; [apply square_nonneg | apply Qcle_refl].
Qed.

Lemma weight_sum : forall st v x, (weight st v Hole x + weight st v Down x + weight st v Up x = inner v v)%Qc.
Proof.
  intros st v x. unfold weight, inner. rewrite <- !qsum_add. apply qsum_ext. intros k _. destruct (st k x); cbn [samep particle_eq_dec only]; unfold samep; cbn; ring.
Qed.

Lemma inner_nonneg : forall v, (0 <= inner v v)%Qc.
Proof. intros v. unfold inner. apply qsum_nonneg. intros k _. apply square_nonneg. Qed.

Lemma div_nonneg : forall x y, (0 <= x)%Qc -> (0 < y)%Qc -> (0 <= x / y)%Qc.
Proof.
  intros x y Hx Hy. destruct (Qclt_le_dec (x / y) 0) as [L|L]; [|assumption]. exfalso.
  assert (Q : (x = x / y * y)%Qc) by (field; intros ->; discriminate Hy).
  assert (x / y * y < 0 * y)%Qc by (apply Qcmult_lt_compat_r; assumption). rewrite <- Q, Qcmult_0_l in H.
  apply (Qclt_not_le _ _ H). assumption.
Qed.

Lemma inner_pos : forall v, inner v v <> 0%Qc -> (0 < inner v v)%Qc.
Proof.
  intros v N. destruct (Qcle_lt_or_eq _ _ (inner_nonneg v)) as [L|L]; [assumption|]. congruence.
Qed.

Lemma qsum_zrange : forall (f : Z -> Qc) n, qsum f (zrange 0 n) = sum_sites n f.
Proof. intros f n. unfold zrange, sum_sites, sites. rewrite Z.sub_0_r. f_equal. Qed.

Lemma weight_lattice : forall st v p n q, (forall k, (k < length v)%nat -> num n (st k) p = q) ->
  sum_sites n (weight st v p) = (q * inner v v)%Qc.
Proof.
  intros st v p n q H. unfold weight, sum_sites. rewrite qsum_exchange. unfold inner. rewrite <- qsum_scale. apply qsum_ext.
  intros k Hk. apply in_seq in Hk. specialize (H k ltac:(lia)). unfold num, sum_sites in H. rewrite <- H.
  transitivity (nth k v 0 * nth k v 0 * qsum (fun i => only (samep (st k i) p) 1) (sites n))%Qc; [|ring].
  rewrite <- qsum_scale. apply qsum_ext. intros x _. destruct (samep _ _); cbn [only]; ring.
Qed.

Lemma listed_num : forall n h b l st, 0 <= n -> listed n h b l st ->
  forall k, (k < length l)%nat -> num n (st k) Hole = qz h /\ num n (st k) Down = qz b /\ num n (st k) Up = qz (n - h - b).
Proof.
  intros n h b l st Hn D k Hk. destruct (nth_error l k) as [d|] eqn:Q; [|apply nth_error_None in Q; lia].
  pose proof (describes_sector _ _ _ _ _ (D k d Q)) as [A B]. rewrite !num_sites, A, B. split; [reflexivity|]. split; [reflexivity|].
  f_equal. pose proof (sites_partition n (st k) Hn). lia.
Qed.

(** ** order *)
Lemma qinsert_perm : forall x l, Permutation (qinsert x l) (x :: l).
Proof.
  induction l as [|y l IH]; cbn [qinsert]; [reflexivity|]. destruct (qleb x y); [reflexivity|]. rewrite IH. apply perm_swap.
Qed.
Lemma qsort_perm : forall l, Permutation (qsort l) l.
Proof. induction l as [|x l IH]; cbn [qsort]; [reflexivity|]. rewrite qinsert_perm. now constructor. Qed.
Lemma qinsert_sorted : forall x l, StronglySorted Qcle l -> StronglySorted Qcle (qinsert x l).
Proof.
  induction l as [|y l IH]; intros H; cbn [qinsert]; [repeat constructor|]. inversion H as [|? ? S F]; subst.
  destruct (qleb x y) eqn:Q.
  - apply qleb_le in Q. constructor; [assumption|]. constructor; [assumption|]. eapply Forall_impl; [|exact F].
    intros a Ha. eapply Qcle_trans; eassumption.
  - apply qleb_false in Q. constructor; [now apply IH|]. apply Forall_forall. intros a Ha.
    apply (Permutation_in _ (qinsert_perm x l)) in Ha. destruct Ha as [<-|Ha]; [assumption|]. rewrite Forall_forall in F. now apply F.
Qed.
Lemma qsort_sorted : forall l, StronglySorted Qcle (qsort l).
Proof. induction l; cbn [qsort]; [constructor | now apply qinsert_sorted]. Qed.

Lemma StronglySorted_snoc : forall A (R : A -> A -> Prop) l x, StronglySorted R l -> (forall y, In y l -> R y x) -> StronglySorted R (l ++ [x]).
Proof.
  intros A R l x S. induction S as [|y l S IH F]; intros H; cbn [app]; [repeat constructor|]. constructor.
  - apply IH. intros; apply H; now right.
  - apply Forall_app. split; [assumption|]. constructor; [|constructor]. apply H. now left.
Qed.

Lemma StronglySorted_rev : forall A (R : A -> A -> Prop) l, StronglySorted R l -> StronglySorted (fun x y => R y x) (rev l).
Proof.
  intros A R l S. induction S as [|x l S IH F]; cbn [rev]; [constructor|]. apply StronglySorted_snoc; [assumption|].
  intros y Hy. apply in_rev in Hy. rewrite Forall_forall in F. now apply F.
Qed.

(** decreasing magnitudes *)
Definition descending_abs (v : list Qc) : list Qc := rev (qsort (map qabs v)).

Lemma desc_perm : forall v, Permutation (descending_abs v) (map qabs v).
Proof. intros v. unfold descending_abs. rewrite <- Permutation_rev. apply qsort_perm. Qed.
Lemma desc_sorted : forall v, StronglySorted (fun x y => y <= x)%Qc (descending_abs v).
Proof. intros v. unfold descending_abs. apply StronglySorted_rev, qsort_sorted. Qed.
Lemma desc_length : forall v, length (descending_abs v) = length v.
Proof. intros v. rewrite (Permutation_length (desc_perm v)). apply map_length. Qed.

Lemma StronglySorted_app : forall A (R : A -> A -> Prop) l1 l2, StronglySorted R (l1 ++ l2) ->
  StronglySorted R l1 /\ forall x y, In x l1 -> In y l2 -> R x y.
Proof.
  intros A R l1 l2. induction l1 as [|x l1 IH]; cbn [app]; intros S; [split; [constructor | intros ? ? []]|].
  inversion S as [|? ? S' F]; subst. destruct (IH S') as [S1 H1]. rewrite Forall_forall in F. split.
  - constructor; [assumption|]. apply Forall_forall. intros y Hy. apply F, in_or_app. now left.
  - intros a y [<-|Ha] Hy; [apply F, in_or_app; now right | now apply H1].
Qed.

Lemma StronglySorted_map : forall A B (R : B -> B -> Prop) (f : A -> B) l, StronglySorted R (map f l) -> StronglySorted (fun x y => R (f x) (f y)) l.
Proof.
  intros A B R f l. induction l as [|x l IH]; cbn [map]; intros S; [constructor|]. inversion S as [|? ? S' F]; subst.
  constructor; [now apply IH|]. rewrite Forall_forall in *. intros y Hy. apply F. now apply in_map.
Qed.

(** the indices that are left *)
Definition left_out (n : nat) (idx : list nat) : list nat := filter (fun i => negb (existsb (Nat.eqb i) idx)) (seq 0 n).

Lemma in_left_out : forall n idx i, In i (left_out n idx) <-> (i < n)%nat /\ ~ In i idx.
Proof.
  intros n idx i. unfold left_out. rewrite filter_In, in_seq, negb_true_iff, <- not_true_iff_false, existsb_exists. split.
  - intros [A B]. split; [lia|]. intros C. apply B. exists i. split; [assumption | apply Nat.eqb_refl].
  - intros [A B]. split; [lia|]. intros (j & Hj & Q). apply Nat.eqb_eq in Q. subst. contradiction.
Qed.

Lemma left_out_perm : forall n idx, NoDup idx -> (forall i, In i idx -> (i < n)%nat) -> Permutation (idx ++ left_out n idx) (seq 0 n).
Proof.
  intros n idx ND B. apply NoDup_Permutation; [|apply seq_NoDup|].
  - apply NoDup_app'; [assumption | apply NoDup_filter, seq_NoDup|]. intros x Hx Hy. apply in_left_out in Hy. tauto.
  - intros i. rewrite in_app_iff, in_left_out, in_seq. split.
    + intros [H|H]; [apply B in H|]; lia.
    + intros H. destruct (in_dec Nat.eq_dec i idx); [now left|]. right. split; [lia | assumption].
Qed.

Definition mag (v : list Qc) (i : nat) : Qc := qabs (nth i v 0%Qc).
Lemma mag_magnitude : forall v i, mag v i = magnitude v i.
Proof. intros. apply qabs_abs. Qed.

Lemma map_mag_seq : forall v, map (mag v) (seq 0 (length v)) = map qabs v.
Proof.
  intros v. apply nth_ext with (d := mag v 0) (d' := qabs 0%Qc); [now rewrite !map_length, seq_length|].
  intros k Hk. rewrite map_length, seq_length in Hk. rewrite map_nth, seq_nth, map_nth by assumption. reflexivity.
Qed.

Lemma rest_perm : forall v idx pre post, NoDup idx -> (forall i, In i idx -> (i < length v)%nat) ->
  descending_abs v = pre ++ post -> map (mag v) idx = pre -> Permutation (map (mag v) (left_out (length v) idx)) post.
Proof.
  intros v idx pre post ND B Q M. apply (Permutation_app_inv_l pre). rewrite <- Q, desc_perm, <- map_mag_seq, <- M, <- map_app.
  apply Permutation_map. now apply left_out_perm.
Qed.

Lemma largest_of : forall v idx pre post, NoDup idx -> (forall i, In i idx -> (i < length v)%nat) ->
  descending_abs v = pre ++ post -> map (mag v) idx = pre -> largest v idx.
Proof.
  intros v idx pre post ND B Q M. pose proof (desc_sorted v) as S. rewrite Q in S. apply StronglySorted_app in S. destruct S as [S1 S2].
  split; [assumption|]. split; [assumption|]. split.
  - rewrite <- M in S1. apply StronglySorted_map in S1.
    assert (G : forall l, StronglySorted (fun x y => mag v y <= mag v x)%Qc l -> StronglySorted (fun i j => magnitude v j <= magnitude v i)%Qc l).
    { intros l H. induction H; constructor; [assumption|]. eapply Forall_impl; [|eassumption]. intros e Ha. cbn in Ha. now rewrite !mag_magnitude in Ha. }
    now apply G.
  - intros i j Hi Hj Nj. rewrite <- !mag_magnitude. apply S2.
    + rewrite <- M. now apply in_map.
    + apply (Permutation_in _ (rest_perm v idx pre post ND B Q M)). apply in_map, in_left_out. auto.
Qed.

Lemma next_exists : forall v idx pre a post, NoDup idx -> (forall i, In i idx -> (i < length v)%nat) ->
  descending_abs v = pre ++ a :: post -> map (mag v) idx = pre -> exists i, (i < length v)%nat /\ ~ In i idx /\ mag v i = a.
Proof.
  intros v idx pre a post ND B Q M. pose proof (rest_perm v idx pre (a :: post) ND B Q M) as P.
  assert (H : In a (map (mag v) (left_out (length v) idx))) by (eapply Permutation_in; [symmetry; exact P | now left]).
  apply in_map_iff in H. destruct H as (i & E & Hi). apply in_left_out in Hi. exists i. tauto.
Qed.

Lemma kept_slice : forall A (l : list A) c, py_slice l 0 c = firstn (kept (length l) c) l.
Proof.
  intros A l c. unfold py_slice, py_clamp, kept, zlen. destruct (Z.ltb_spec 0 0); [lia|].
  replace (Z.min 0 (Z.of_nat (length l))) with 0 by lia. cbn [Z.to_nat skipn]. rewrite Z.sub_0_r. destruct (Z.ltb_spec c 0).
  - f_equal. lia.
  - reflexivity.
Qed.

Lemma kept_le : forall n c, (kept n c <= n)%nat.
Proof. intros n c. unfold kept. destruct (Z.ltb_spec c 0); lia. Qed.

(** the while loop *)
Lemma amp_get : forall v k, (k < length v)%nat -> py_get (map qabs v) (Z.of_nat k) = Ok (mag v k).
Proof.
  intros v k H. apply py_get_nth; [lia|]. rewrite Nat2Z.id. rewrite nth_error_map, (nth_error_nth' v 0%Qc) by assumption. reflexivity.
Qed.

Lemma next_index_ok : forall v a memory i fuel k, (k <= i)%nat -> (i < length v)%nat -> mag v i = a -> ~ In i memory -> (i - k < fuel)%nat ->
  exists j, (j < length v)%nat /\ mag v j = a /\ ~ In j memory /\
    next_index fuel (map qabs v) a (map Z.of_nat memory) (Z.of_nat k) = Ok (Z.of_nat j).
Proof.
  intros v a memory i fuel. induction fuel as [|fuel IH]; intros k Hk Hi Ma Ni Hf; [lia|]. cbn [next_index].
  rewrite amp_get by lia. cbn [bind].
  assert (MI : mem (Z.of_nat k) (map Z.of_nat memory) = true <-> In k memory).
  { rewrite mem_In, in_map_iff. split; [intros (j & Q & Hj); apply Nat2Z.inj in Q; now subst | intros; now exists k]. }
  destruct (negb (qeqb (mag v k) a) || mem (Z.of_nat k) (map Z.of_nat memory)) eqn:Q.
  - assert (k <> i).
    { intros ->. apply orb_true_iff in Q. destruct Q as [Q|Q]; [rewrite Ma, qeqb_refl in Q; discriminate|]. now apply MI in Q. }
    replace (Z.of_nat k + 1) with (Z.of_nat (S k)) by lia. apply IH; try assumption; lia.
  - apply orb_false_iff in Q. destruct Q as [Q1 Q2]. apply negb_false_iff in Q1. apply qeqb_eq in Q1.
    exists k. split; [lia|]. split; [assumption|]. split; [|reflexivity]. intros H. apply MI in H. congruence.
Qed.

(** the loop of get_most_dominant_determinants *)
Lemma most_loop : forall v (l : list det) post pre idx, (length v <= length l)%nat -> NoDup idx -> (forall i, In i idx -> (i < length v)%nat) ->
  (exists rest, descending_abs v = pre ++ post ++ rest) -> map (mag v) idx = pre ->
  exists idx', NoDup (idx ++ idx') /\ (forall i, In i (idx ++ idx') -> (i < length v)%nat) /\ map (mag v) idx' = post /\
    forall items,
    foldM (fun st amplitude =>
             let '(memory, items) := st in
             index <- next_index (S (length v)) (map qabs v) amplitude memory 0 ;;
             x <- py_get v index ;;
             d <- py_get l index ;;
             Ok (memory ++ [index], items ++ [((index, x), d)]))
          (map Z.of_nat idx, items) post =
    Ok (map Z.of_nat (idx ++ idx'), items ++ map (fun i => ((Z.of_nat i, nth i v 0%Qc), nth i l [])) idx').
Proof.
  intros v l post. induction post as [|a post IH]; intros pre idx Ll ND B [rest Q] M.
  - exists []. rewrite app_nil_r. split; [assumption|]. split; [assumption|]. split; [reflexivity|].
    intros items. cbn [foldM map]. now rewrite app_nil_r.
  - cbn [app] in Q. destruct (next_exists v idx pre a (post ++ rest) ND B Q M) as (i & Hi & Ni & Mi).
    destruct (next_index_ok v a idx i (S (length v)) 0%nat) as (j & Hj & Mj & Nj & E); try assumption; try lia.
    destruct (IH (pre ++ [a]) (idx ++ [j])) as (idx' & N' & B' & M' & F); try assumption.
    + now apply NoDup_snoc.
    + intros k Hk. apply in_app_or in Hk. destruct Hk as [Hk|[<-|[]]]; auto.
    + exists rest. rewrite <- app_assoc. exact Q.
    + rewrite map_app, M. cbn [map]. now rewrite Mj.
    + exists (j :: idx'). rewrite <- app_assoc in N', B', F. cbn [app] in N', B', F. split; [assumption|]. split; [assumption|].
      split; [cbn [map]; now rewrite M', Mj|].
      intros items. cbn [foldM]. cbn beta iota. change (Z.of_nat 0) with 0 in E. rewrite E. cbn [bind].
      rewrite (py_get_nth _ v (Z.of_nat j) (nth j v 0%Qc)); [|lia | rewrite Nat2Z.id; now apply nth_error_nth']. cbn [bind].
      rewrite (py_get_nth _ l (Z.of_nat j) (nth j l [])); [|lia | rewrite Nat2Z.id; apply nth_error_nth'; lia]. cbn [bind].
      rewrite map_app in F. cbn [map] in F. rewrite F. cbn [map]. now rewrite <- app_assoc.
Qed.

Lemma most_ok : forall v (l : list det) count, (length v <= length l)%nat ->
  exists idx, largest v idx /\ length idx = kept (length v) count /\
    get_most_dominant_determinants l v count = Ok (map (fun i => ((Z.of_nat i, nth i v 0%Qc), nth i l [])) idx).
Proof.
  intros v l count Ll. set (k := kept (length v) count).
  destruct (most_loop v l (firstn k (descending_abs v)) [] [] Ll) as (idx & ND & B & M & F); [constructor | intros i [] | | reflexivity |].
  - exists (skipn k (descending_abs v)). cbn [app]. now rewrite firstn_skipn.
  - cbn [app] in *. exists idx. split; [|split].
    + apply (largest_of v idx (firstn k (descending_abs v)) (skipn k (descending_abs v))); try assumption. now rewrite firstn_skipn.
    + rewrite <- (map_length (mag v) idx), M. apply firstn_length_le. rewrite desc_length. apply kept_le.
    + unfold get_most_dominant_determinants. cbn zeta. rewrite kept_slice. fold (descending_abs v). rewrite desc_length. fold k.
      specialize (F []). cbn [map] in F. rewrite F. reflexivity.
Qed.

(** ** distinct magnitudes *)
Lemma qindex_ok : forall l x, In x l -> exists k, (k < length l)%nat /\ nth k l 0%Qc = x /\ qindex l x = Ok (Z.of_nat k).
Proof.
  induction l as [|y l IH]; intros x H; [destruct H|]. cbn [qindex length]. destruct (qeqb y x) eqn:Q.
  - apply qeqb_eq in Q. exists 0%nat. split; [lia|]. split; [assumption | reflexivity].
  - destruct H as [->|H]; [rewrite qeqb_refl in Q; discriminate|]. destruct (IH x H) as (k & Hk & Nk & E).
    exists (S k). rewrite E. cbn [bind nth]. split; [lia|]. split; [assumption|]. f_equal. lia.
Qed.

Lemma indices_of : forall (v : list Qc) pre, (forall a, In a pre -> In a (map qabs v)) ->
  exists idx, map (mag v) idx = pre /\ (forall i, In i idx -> (i < length v)%nat) /\
    mapM (fun a => qindex (map qabs v) a) pre = Ok (map Z.of_nat idx).
Proof.
  intros v pre. induction pre as [|a pre IH]; intros H.
  - exists []. split; [reflexivity|]. split; [intros i [] | reflexivity].
  - destruct IH as (idx & M & B & E); [intros; apply H; now right|].
    destruct (qindex_ok (map qabs v) a) as (k & Hk & Nk & Ek); [apply H; now left|]. rewrite map_length in Hk.
    exists (k :: idx). split.
    + cbn [map]. rewrite M. f_equal. unfold mag. change 0%Qc with (qabs 0%Qc) in Nk at 1. now rewrite map_nth in Nk.
    + split; [intros i [<-|Hi]; auto|]. cbn [mapM]. rewrite Ek. cbn [bind]. rewrite E. reflexivity.
Qed.

Lemma mapM_bind : forall A B C (f : A -> res B) (g : B -> res C) l m,
  mapM f l = Ok m -> mapM (fun x => y <- f x ;; g y) l = mapM g m.
Proof.
  induction l as [|x l IH]; intros m H; cbn [mapM] in *; [now injection H as <-|].
  apply bind_ok_inv in H. destruct H as (y & Ey & H). apply bind_ok_inv in H. destruct H as (ys & Eys & H). injection H as <-.
  rewrite Ey. cbn [bind mapM]. now rewrite (IH ys Eys).
Qed.

Lemma NoDup_map_inv' : forall A B (f : A -> B) l, NoDup (map f l) -> NoDup l.
Proof. intros. eapply NoDup_map_inv; eassumption. Qed.
