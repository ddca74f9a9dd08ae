(** The selection of the lowest eigenpairs. *)
From Coq Require Import ZArith List Bool Lia Permutation Sorted QArith Qcanon.
From Verif Require Import PyBase PyFacts Lattice Base Interact Spin Prob Dav Spec SpecTJ SpinDefs ProbDefs DavDefs PRep PProb.
Import ListNotations.
Open Scope Z_scope.

(** indices carrying a value *)
Definition carriers (vals : list Qc) (v : Qc) : list nat := filter (fun i => qeqb (nth i vals 0%Qc) v) (seq 0 (length vals)).

Lemma filter_map_comm : forall A B (f : A -> B) (p : B -> bool) l, filter p (map f l) = map f (filter (fun x => p (f x)) l).
Proof. intros A B f p l. induction l as [|x l IH]; [reflexivity|]. cbn [map filter]. rewrite IH. destruct (p (f x)); reflexivity. Qed.

Lemma enumerate_seq : forall A (l : list A) d, enumerate l = map (fun i => (Z.of_nat i, nth i l d)) (seq 0 (length l)).
Proof.
  intros A l d. rewrite enumerate_nth. 
  assert (G : forall (m : list A) k, combine (map Z.of_nat (seq k (length m))) m = map (fun i => (Z.of_nat i, nth (i - k) m d)) (seq k (length m))).
  { induction m as [|x m IH]; intros k; [reflexivity|]. cbn [length seq map combine]. rewrite Nat.sub_diag. f_equal.
    rewrite IH. apply map_ext_in. intros i Hi. apply in_seq in Hi. replace (i - k)%nat with (S (i - S k)) by lia. reflexivity. }
  rewrite (G l 0%nat). apply map_ext. intros i. now rewrite Nat.sub_0_r.
Qed.

Lemma carriers_enum : forall vals v, map fst (filter (fun p => qeqb (snd p) v) (enumerate vals)) = map Z.of_nat (carriers vals v).
Proof.
  intros vals v. rewrite (enumerate_seq _ vals 0%Qc), filter_map_comm, map_map. reflexivity.
Qed.

Lemma in_carriers : forall vals v i, In i (carriers vals v) <-> (i < length vals)%nat /\ nth i vals 0%Qc = v.
Proof. intros. unfold carriers. rewrite filter_In, in_seq, qeqb_eq. intuition lia. Qed.

Lemma map_nth_seq : forall (vals : list Qc), map (fun i => nth i vals 0%Qc) (seq 0 (length vals)) = vals.
Proof.
  intros. apply nth_ext with (d := nth 0 vals 0%Qc) (d' := 0%Qc); [now rewrite map_length, seq_length|].
  intros k Hk. rewrite map_length, seq_length in Hk.
  rewrite (map_nth (fun i => nth i vals 0%Qc)), seq_nth by assumption. reflexivity.
Qed.

Lemma carriers_length : forall vals v, length (carriers vals v) = length (filter (fun x => qeqb x v) vals).
Proof.
  intros. rewrite <- (map_nth_seq vals) at 2. rewrite filter_map_comm, map_length. reflexivity.
Qed.

Lemma filter_length_perm : forall A (p : A -> bool) l m, Permutation l m -> length (filter p l) = length (filter p m).
Proof.
  intros A p l m H. induction H; cbn [filter]; try congruence; [destruct (p x); cbn; congruence | destruct (p x), (p y); reflexivity].
Qed.

(** the first block of a sorted list *)
Lemma first_block : forall v T, StronglySorted Qcle (v :: T) ->
  exists c T', v :: T = repeat v (S c) ++ T' /\ distinct_sorted (v :: T) = v :: distinct_sorted T' /\ (forall x, In x T' -> x <> v) /\ StronglySorted Qcle T'.
Proof.
  intros v T. revert v. induction T as [|w T IH]; intros v S.
  - exists 0%nat, []. split; [reflexivity|]. split; [reflexivity|]. split; [intros x [] | constructor].
  - inversion S as [|? ? S' F]; subst. change (distinct_sorted (v :: w :: T)) with (if qeqb v w then distinct_sorted (w :: T) else v :: distinct_sorted (w :: T)).
    destruct (qeqb v w) eqn:Q.
    + apply qeqb_eq in Q. subst w. destruct (IH v S') as (c & T' & E & D & N & S2). exists (Datatypes.S c), T'.
      split; [cbn [repeat app] in *; now rewrite E|]. split; [exact D|]. split; assumption.
    + apply qeqb_neq in Q. exists 0%nat, (w :: T). split; [reflexivity|]. split; [reflexivity|]. split; [|assumption].
      intros x Hx ->. inversion S' as [|? ? S2 F2]; subst. rewrite Forall_forall in F, F2.
      assert (w <= v)%Qc by (destruct Hx as [<-|Hx]; [apply Qcle_refl | now apply F2]).
      apply Q. apply Qcle_antisym; [apply F; now left | assumption].
Qed.

Lemma filter_none : forall A (p : A -> bool) l, (forall x, In x l -> p x = false) -> filter p l = [].
Proof.
  intros A p l. induction l as [|x l IH]; intros H; [reflexivity|]. cbn [filter]. rewrite (H x) by now left. apply IH. intros; apply H; now right.
Qed.
Lemma filter_repeat : forall v c, filter (fun x => qeqb x v) (repeat v c) = repeat v c.
Proof. intros v c. induction c; [reflexivity|]. cbn [repeat filter]. rewrite qeqb_refl. now rewrite IHc. Qed.

Lemma py_slice_firstn : forall A (l : list A) n, py_slice l 0 (Z.of_nat n) = firstn n l.
Proof.
  intros A l n. rewrite kept_slice. unfold kept. destruct (Z.ltb_spec (Z.of_nat n) 0); [lia|].
  destruct (Nat.le_ge_cases n (length l)).
  - f_equal. lia.
  - rewrite !firstn_all2; [reflexivity | lia | lia].
Qed.

Lemma map_const : forall A B (f : A -> B) v l, (forall x, In x l -> f x = v) -> map f l = repeat v (length l).
Proof. intros A B f v l. induction l as [|x l IH]; intros H; [reflexivity|]. cbn [map length repeat]. f_equal; [apply H; now left | apply IH; intros; apply H; now right]. Qed.

Lemma NoDup_firstn : forall A (l : list A) n, NoDup l -> NoDup (firstn n l).
Proof.
  intros A l n H. rewrite <- (firstn_skipn n l) in H. revert H. generalize (skipn n l) (firstn n l). intros b a. induction a as [|x a IH]; intros H; [constructor|].
  inversion H; subst. constructor; [|auto]. intros C. apply H2, in_or_app. now left.
Qed.

Lemma in_firstn : forall A (l : list A) n x, In x (firstn n l) -> In x l.
Proof. intros A l n x H. rewrite <- (firstn_skipn n l). apply in_or_app. now left. Qed.

Lemma indexes_loop : forall vals nb U m T acc, (length T <= m)%nat -> StronglySorted Qcle (T ++ U) ->
  Permutation (map (fun i => nth i vals 0%Qc) acc ++ T ++ U) vals ->
  (forall i x, In i acc -> In x (T ++ U) -> nth i vals 0%Qc <> x) \/ T = [] ->
  NoDup acc -> (forall i, In i acc -> (i < length vals)%nat) ->
  (nb - zlen acc = Z.of_nat (length T) \/ U = [] /\ Z.of_nat (length T) <= nb - zlen acc) ->
  exists acc',
    fold_left (fun a val =>
      let val_indices := map fst (filter (fun p => qeqb (snd p) val) (enumerate vals)) in
      a ++ py_slice val_indices 0 (Z.min (zlen val_indices) (nb - zlen a))) (distinct_sorted T) (map Z.of_nat acc) = map Z.of_nat (acc ++ acc') /\
    map (fun i => nth i vals 0%Qc) acc' = T /\ NoDup (acc ++ acc') /\ (forall i, In i acc' -> (i < length vals)%nat).
Proof.
  intros vals nb U m. induction m as [|m IH]; intros T acc Hm S P D ND B C.
  { destruct T; [|cbn in Hm; lia]. exists []. rewrite app_nil_r. split; [reflexivity|]. split; [reflexivity|]. split; [assumption | intros i []]. }
  destruct T as [|v T]. { exists []. rewrite app_nil_r. split; [reflexivity|]. split; [reflexivity|]. split; [assumption | intros i []]. }
  destruct D as [D|D]; [|discriminate].
  assert (S0 : StronglySorted Qcle (v :: T)) by (apply StronglySorted_app in S; apply S).
  destruct (first_block v T S0) as (c & T' & E & DS & N & S').
  assert (LT : length (v :: T) = (Datatypes.S c + length T')%nat) by (rewrite E, app_length, repeat_length; reflexivity).
  set (I := carriers vals v).
  assert (HI : length I = (Datatypes.S c + length (filter (fun x => qeqb x v) U))%nat).
  { unfold I. rewrite carriers_length, <- (filter_length_perm _ _ _ _ P), E, !filter_app, !app_length, filter_repeat, repeat_length.
    rewrite (filter_none _ _ (map _ acc)), (filter_none _ _ T'); [cbn [length]; lia | |].
    - intros x Hx. apply qeqb_neq. now apply N.
    - intros x Hx. apply qeqb_neq. apply in_map_iff in Hx. destruct Hx as (i & <- & Hi). apply D; [assumption | now left]. }
  assert (HU : T' <> [] -> filter (fun x => qeqb x v) U = []).
  { intros NT. apply filter_none. intros x Hx. apply qeqb_neq. intros ->. destruct T' as [|t T']; [congruence|].
    rewrite E in S. rewrite <- app_assoc in S. cbn [repeat app] in S. inversion S as [|? ? S1 F1]; subst. rewrite Forall_forall in F1.
    assert (A1 : (v <= t)%Qc) by (apply F1; apply in_or_app; right; now left).
    apply StronglySorted_app in S1. destruct S1 as [_ _].
    assert (S2 : StronglySorted Qcle ((t :: T') ++ U)).
    { clear - S. cbn [repeat app] in S. inversion S as [|? ? S1 _]; subst. clear S. revert S1. generalize (repeat v c). intros l. induction l as [|z l IHl]; cbn [app]; intros H; [assumption|]. inversion H; auto. }
    cbn [app] in S2. inversion S2 as [|? ? _ F2]; subst. rewrite Forall_forall in F2.
    assert (A2 : (t <= v)%Qc) by (apply F2, in_or_app; now right). apply (N t); [now left|]. now apply Qcle_antisym. }
  (* the block *)
  set (blk := firstn (Datatypes.S c) I).
  assert (Hblk : length blk = Datatypes.S c) by (unfold blk; apply firstn_length_le; lia).
  assert (Slice : py_slice (map Z.of_nat I) 0 (Z.min (zlen (map Z.of_nat I)) (nb - zlen (map Z.of_nat acc))) = map Z.of_nat blk).
  { unfold zlen. rewrite !map_length. fold (zlen acc).
    replace (Z.min (Z.of_nat (length I)) (nb - zlen acc)) with (Z.of_nat (Datatypes.S c)).
    - rewrite py_slice_firstn. unfold blk. now rewrite firstn_map.
    - destruct T' as [|t T'].
      + cbn [length] in LT, C. destruct C as [C|[QU C]]; [lia|]. rewrite QU in HI. cbn [filter length] in HI. lia.
      + rewrite (HU ltac:(discriminate)) in HI. cbn [length] in *. lia. }
  assert (Bv : forall i, In i blk -> (i < length vals)%nat /\ nth i vals 0%Qc = v) by (intros i Hi; apply in_carriers; eapply in_firstn, Hi).
  assert (Mb : map (fun i => nth i vals 0%Qc) blk = repeat v (Datatypes.S c)) by (rewrite <- Hblk; apply map_const; intros i Hi; now apply Bv).
  destruct (IH T' (acc ++ blk)) as (acc' & F & M & ND' & B').
  - cbn [length] in Hm, LT. lia.
  - rewrite E in S. clear - S. rewrite <- app_assoc in S. revert S. generalize (repeat v (Datatypes.S c)). intros l. induction l as [|z l IHl]; cbn [app]; intros H; [assumption|]. inversion H; auto.
  - rewrite map_app, Mb, <- app_assoc. rewrite E, <- app_assoc in P. exact P.
  - destruct T' as [|t T'']; [now right | left]. intros i x Hi Hx. apply in_app_or in Hi. destruct Hi as [Hi|Hi].
    + apply D; [assumption|]. rewrite E, <- app_assoc. apply in_or_app. now right.
    + destruct (Bv i Hi) as [_ ->]. intros <-. apply in_app_or in Hx. destruct Hx as [Hx|Hx]; [now apply (N v)|].
      assert (Q : In v (filter (fun x => qeqb x v) U)) by (apply filter_In; split; [assumption | apply qeqb_refl]).
      rewrite HU in Q by discriminate. destruct Q.
  - apply NoDup_app'; [assumption | apply NoDup_firstn; unfold I, carriers; apply NoDup_filter, seq_NoDup|].
    intros i Hi Hb. destruct (Bv i Hb) as [_ Q]. apply (D i v Hi); [now left | assumption].
  - intros i Hi. apply in_app_or in Hi. destruct Hi as [Hi|Hi]; [now apply B | now apply Bv].
  - unfold zlen in *. rewrite app_length, Hblk. cbn [length] in *. destruct C as [C|[-> C]]; [left; lia | right; split; [reflexivity | lia]].
  - exists (blk ++ acc'). split; [|split; [|split]].
    + rewrite DS. cbn [fold_left]. cbv zeta. rewrite carriers_enum. fold I. rewrite Slice, <- map_app. cbv zeta in F. rewrite F. now rewrite app_assoc.
    + rewrite map_app, Mb, M. now symmetry.
    + now rewrite app_assoc.
    + intros i Hi. apply in_app_or in Hi. destruct Hi as [Hi|Hi]; [now apply Bv | now apply B'].
Qed.

Lemma smallest_of : forall vals idx pre post, NoDup idx -> (forall i, In i idx -> (i < length vals)%nat) ->
  qsort vals = pre ++ post -> map (fun i => nth i vals 0%Qc) idx = pre -> smallest vals idx.
Proof.
  intros vals idx pre post ND B Q M. pose proof (qsort_sorted vals) as S. rewrite Q in S. apply StronglySorted_app in S. destruct S as [S1 S2].
  split; [assumption|]. split; [assumption|]. split.
  - rewrite <- M in S1. apply StronglySorted_map in S1. assumption.
  - intros i j Hi Hj Nj. apply S2.
    + rewrite <- M. apply (in_map (fun i => nth i vals 0%Qc)). assumption.
    + assert (P : Permutation (map (fun i => nth i vals 0%Qc) (left_out (length vals) idx)) post).
      { apply (Permutation_app_inv_l pre). rewrite <- Q, qsort_perm, <- M, <- map_app.
        transitivity (map (fun i => nth i vals 0%Qc) (seq 0 (length vals))); [|rewrite map_nth_seq; reflexivity].
        apply Permutation_map. now apply left_out_perm. }
      eapply Permutation_in; [exact P|]. apply (in_map (fun i => nth i vals 0%Qc)), in_left_out. auto.
Qed.

Lemma lowest_ok : forall vals nb, 0 <= nb ->
  exists idx, smallest vals idx /\ Z.of_nat (length idx) = Z.min nb (zlen vals) /\
    forall (vects : cols), get_lowests_eig vals vects nb =
      (vs <- mapM (fun i => py_get vects (Z.of_nat i)) idx ;; Ok (map (fun i => nth i vals 0%Qc) idx, vs)).
Proof.
  intros vals nb Hnb. set (k := kept (length vals) nb).
  assert (LS : length (qsort vals) = length vals) by (apply Permutation_length, qsort_perm).
  assert (Hk : Z.of_nat k = Z.min nb (zlen vals)) by (unfold k, kept, zlen; destruct (Z.ltb_spec nb 0); lia).
  destruct (indexes_loop vals nb (skipn k (qsort vals)) k (firstn k (qsort vals)) []) as (idx & F & M & ND & B).
  - rewrite firstn_length. lia.
  - rewrite firstn_skipn. apply qsort_sorted.
  - cbn [map app]. rewrite firstn_skipn. apply qsort_perm.
  - left. intros i x [].
  - constructor.
  - intros i [].
  - rewrite firstn_length_le by (rewrite LS; apply kept_le). unfold zlen in *. cbn [length]. destruct (Z.le_gt_cases nb (Z.of_nat (length vals))).
    + left. lia.
    + right. split; [apply skipn_all2; lia | lia].
  - cbn [app map] in *. exists idx. split; [|split].
    + apply (smallest_of vals idx (firstn k (qsort vals)) (skipn k (qsort vals))); try assumption. now rewrite firstn_skipn.
    + rewrite <- (map_length (fun i => nth i vals 0%Qc) idx), M, firstn_length_le by (rewrite LS; apply kept_le). assumption.
    + intros vects. unfold get_lowests_eig. cbv zeta. rewrite kept_slice, LS. fold k. cbv zeta in F. rewrite F, <- M.
      assert (G : forall l, mapM (fun i => py_get vects i) (map Z.of_nat l) = mapM (fun i => py_get vects (Z.of_nat i)) l).
      { induction l as [|x l IHl]; [reflexivity|]. cbn [map mapM]. now rewrite IHl. }
      now rewrite G.
Qed.
