(** Systems of equations with more unknowns than equations, and orthogonal vectors (for C99). *)
From Coq Require Import ZArith List Bool Sorted QArith Qcanon Lia.
From Verif Require Import PyBase PyFacts Spec SpecTJ SpinDefs Dav DavDefs VarDefs LevelDefs PBasis PSpin PQc PSecSum PBound PDavIter PDav FDav FProj FVar.
Import ListNotations.
Open Scope Z_scope.

Lemma nullspace : forall m (eqs : list (nat -> Qc)), (length eqs < m)%nat ->
  exists c : nat -> Qc, (exists j, (j < m)%nat /\ c j <> 0%Qc) /\ forall f, In f eqs -> qsum (fun j => f j * c j)%Qc (seq 0 m) = 0%Qc.
Proof.
  induction m as [|m IH]; intros eqs L; [lia|].
  destruct (existsb (fun f => if Qc_eq_dec (f m) 0 then false else true) eqs) eqn:Q.
  - apply existsb_exists in Q. destruct Q as (f & I & Q). destruct (Qc_eq_dec (f m) 0) as [|NZ]; [discriminate|]. clear Q.
    apply in_split in I. destruct I as (l1 & l2 & ->). rewrite app_length in L. cbn [length] in L.
    destruct (IH (map (fun g j => g j - g m / f m * f j)%Qc (l1 ++ l2))) as (c & (j & Hj & NJ) & Z0); [rewrite map_length, app_length; lia|].
    set (t := qsum (fun j => f j * c j)%Qc (seq 0 m)).
    exists (fun j => if Nat.eqb j m then (- (t / f m))%Qc else c j). split.
    + exists j. split; [lia|]. destruct (Nat.eqb_spec j m); [lia | assumption].
    + assert (X : forall g : nat -> Qc, qsum (fun j => g j * (if Nat.eqb j m then - (t / f m) else c j))%Qc (seq 0 (S m)) = (qsum (fun j => g j * c j) (seq 0 m) - g m * (t / f m))%Qc).
      { intros g. rewrite seq_S, qsum_app, qsum_one. cbn [Nat.add]. rewrite Nat.eqb_refl. rewrite (qsum_ext _ _ (fun j => g j * c j)%Qc); [ring|].
        intros i Hi. apply in_seq in Hi. destruct (Nat.eqb_spec i m); [lia | reflexivity]. }
      intros g I. rewrite X. assert (G : g = f \/ In g (l1 ++ l2)) by (apply in_app_or in I; destruct I as [I|[I|I]]; [right; apply in_or_app; now left | now left | right; apply in_or_app; now right]).
      destruct G as [->|G].
      * fold t. field. exact NZ.
      * specialize (Z0 _ (in_map _ _ _ G)). cbv beta in Z0. rewrite (qsum_ext _ _ (fun j => g j * c j + (- (g m / f m)) * (f j * c j))%Qc) in Z0 by (intros; ring).
        rewrite qsum_add, qsum_scale in Z0. fold t in Z0. rewrite <- Z0. field. exact NZ.
  - exists (fun j => if Nat.eqb j m then 1%Qc else 0%Qc). split; [exists m; split; [lia|]; rewrite Nat.eqb_refl; discriminate|].
    intros f I. assert (Z0 : f m = 0%Qc).
    { destruct (Qc_eq_dec (f m) 0) as [|NZ]; [assumption|]. exfalso. assert (T : existsb (fun f => if Qc_eq_dec (f m) 0 then false else true) eqs = true); [|congruence].
      apply existsb_exists. exists f. split; [assumption|]. now destruct (Qc_eq_dec (f m) 0). }
    apply qsum_zero. intros j _. destruct (Nat.eqb_spec j m) as [->|]; [rewrite Z0; ring | ring].
Qed.

(** ** blends *)
Lemma blend_nth : forall dim V y i, (i < dim)%nat -> nth i (blend dim V y) 0%Qc = qsum (fun k => nth k y 0 * nth i (nth k V []) 0)%Qc (seq 0 (length V)).
Proof. intros dim V y i H. unfold blend. now rewrite (nth_map_seq (fun i => qsum (fun k => nth k y 0 * nth i (nth k V []) 0)%Qc (seq 0 (length V)))). Qed.
Lemma nth_map_in : forall (A B : Type) (f : A -> B) l k d d', (k < length l)%nat -> nth k (map f l) d' = f (nth k l d).
Proof. intros A B f l k d d' H. rewrite (nth_indep _ d' (f d)) by (now rewrite map_length). apply map_nth. Qed.

Lemma blend_blend : forall dim K ys d, tall (length K) ys -> blend dim K (blend (length K) ys d) = blend dim (map (blend dim K) ys) d.
Proof.
  intros dim K ys d T. apply (nth_ext _ _ 0%Qc 0%Qc); [now rewrite !blend_length|]. intros i Hi. rewrite blend_length in Hi. rewrite !blend_nth by assumption. rewrite map_length.
  rewrite (qsum_ext _ _ (fun k => qsum (fun p => nth p d 0 * (nth k (nth p ys []) 0 * nth i (nth k K []) 0)) (seq 0 (length ys)))%Qc).
  - rewrite qsum_exchange. apply qsum_ext. intros p Hp. apply in_seq in Hp. rewrite (nth_map_in _ _ _ _ _ []) by lia. rewrite blend_nth by assumption. apply qsum_scale.
  - intros k Hk. apply in_seq in Hk. rewrite blend_nth by lia. rewrite Qcmult_comm, <- qsum_scale. apply qsum_ext. intros; ring.
Qed.

Lemma ortho_coeff : forall dim V d k, tall dim V -> orthonormal V -> (k < length V)%nat -> inner (nth k V []) (blend dim V d) = nth k d 0%Qc.
Proof.
  intros dim V d k T O Hk. unfold tall in T. rewrite Forall_forall in T. rewrite (inner_blend dim) by (apply T, nth_In; assumption).
  rewrite (qsum_ext _ _ (fun j => if Nat.eqb k j then nth j d 0 else 0)%Qc); [apply (qsum_delta _ _ (fun j => nth j d 0%Qc)); assumption|].
  intros j Hj. apply in_seq in Hj. rewrite O by lia. destruct (Nat.eqb k j); ring.
Qed.

(** an orthonormal family of full size spans everything *)
Lemma ortho_complete : forall n ys g, length ys = n -> tall n ys -> orthonormal ys -> length g = n -> exists d, length d = n /\ g = blend n ys d.
Proof.
  intros n ys g Ly T O Lg.
  destruct (nullspace (S n) (map (fun i j => if Nat.eqb j n then nth i g 0 else nth i (nth j ys []) 0)%Qc (seq 0 n))) as (c & (j0 & Hj0 & NJ) & Z0); [rewrite map_length, seq_length; lia|].
  assert (E : forall i, (i < n)%nat -> (qsum (fun j => c j * nth i (nth j ys []) 0) (seq 0 n) + c n * nth i g 0 = 0)%Qc).
  { intros i Hi. specialize (Z0 _ (in_map _ _ i (proj2 (in_seq n 0 i) ltac:(lia)))). cbv beta in Z0. rewrite seq_S, qsum_app, qsum_one in Z0. cbn [Nat.add] in Z0. rewrite Nat.eqb_refl in Z0.
    refine (eq_trans _ Z0). f_equal; [|ring]. apply qsum_ext. intros j Hj. apply in_seq in Hj. destruct (Nat.eqb_spec j n); [lia | ring]. }
  assert (NC : forall k, (k < n)%nat -> nth k (map c (seq 0 n)) 0%Qc = c k) by (intros k Hk; now rewrite (nth_map_seq c)).
  assert (CN : c n <> 0%Qc).
  { intros CN. destruct (Nat.eq_dec j0 n) as [->|D]; [contradiction|]. apply NJ.
    assert (B : blend n ys (map c (seq 0 n)) = repeat 0%Qc n).
    { apply (nth_ext _ _ 0%Qc 0%Qc); [now rewrite blend_length, repeat_length|]. intros i Hi. rewrite blend_length in Hi. rewrite blend_nth, nth_repeat by assumption. rewrite Ly.
      specialize (E i Hi). rewrite CN in E. rewrite (qsum_ext _ _ (fun j => c j * nth i (nth j ys []) 0)%Qc); [refine (eq_trans _ E); ring|]. intros j Hj. apply in_seq in Hj. now rewrite NC by lia. }
    pose proof (ortho_coeff n ys (map c (seq 0 n)) j0 T O ltac:(lia)) as Q. rewrite NC in Q by lia. rewrite <- Q, B. unfold inner. apply qsum_zero. intros i _. rewrite nth_repeat. ring. }
  exists (map (fun j => - (c j / c n))%Qc (seq 0 n)). split; [now rewrite map_length, seq_length|].
  apply (nth_ext _ _ 0%Qc 0%Qc); [now rewrite blend_length|]. intros i Hi. rewrite Lg in Hi. rewrite blend_nth by assumption. rewrite Ly.
  specialize (E i Hi). rewrite (qsum_ext _ _ (fun j => (- (1 / c n)) * (c j * nth i (nth j ys []) 0))%Qc).
  - rewrite qsum_scale. set (s := qsum _ _) in *. assert (s = - (c n * nth i g 0))%Qc as -> by (transitivity (s + c n * nth i g 0 - c n * nth i g 0)%Qc; [ring | rewrite E; ring]). field. exact CN.
  - intros j Hj. apply in_seq in Hj. rewrite (nth_map_seq (fun j => - (c j / c n))%Qc) by lia. field. exact CN.
Qed.

Lemma inner_pos : forall (v : list Qc) k, (k < length v)%nat -> nth k v 0%Qc <> 0%Qc -> (0 < inner v v)%Qc.
Proof.
  intros v k Hk Nk. destruct (Qclt_le_dec 0 (inner v v)) as [|G]; [assumption|]. exfalso. apply Nk.
  assert (P : forall i, In i (seq 0 (length v)) -> (0 <= nth i v 0 * nth i v 0)%Qc) by (intros; apply square_nonneg).
  pose proof (qsum_nonneg_zero _ (fun i => nth i v 0 * nth i v 0)%Qc (seq 0 (length v)) P G k ltac:(apply in_seq; lia)) as Q. cbv beta in Q.
  apply Qcmult_integral in Q. tauto.
Qed.

(** a combination of the columns [X i], i in [I], orthogonal to [T] *)
Lemma orthogonal_state : forall n (X : nat -> list Qc) (I : list nat) (T : list (list Qc)), NoDup I -> (forall i, In i I -> (i < n)%nat) -> (length T < length I)%nat ->
  exists d, length d = n /\ (0 < inner d d)%Qc /\ (forall i, ~ In i I -> nth i d 0%Qc = 0%Qc) /\
    forall t, In t T -> qsum (fun i => nth i d 0 * inner t (X i))%Qc (seq 0 n) = 0%Qc.
Proof.
  intros n X I T ND B L. set (others := filter (fun i => if in_dec Nat.eq_dec i I then false else true) (seq 0 n)).
  assert (LO : (length others + length I <= n)%nat).
  { rewrite <- app_length. replace n with (length (seq 0 n)) by apply seq_length. apply NoDup_incl_length.
    - apply NoDup_app'; [apply NoDup_filter, seq_NoDup | exact ND|]. intros i H1 H2. apply filter_In in H1. destruct H1 as [_ H1]. now destruct (in_dec Nat.eq_dec i I).
    - intros i H. apply in_app_or in H. destruct H as [H|H]; [now apply filter_In in H | apply in_seq; specialize (B i H); lia]. }
  destruct (nullspace n (map (fun t i => inner t (X i)) T ++ map (fun i0 i => if Nat.eqb i0 i then 1%Qc else 0%Qc) others)) as (c & (j & Hj & NJ) & Z0); [rewrite app_length, !map_length; lia|].
  assert (NC : forall k, (k < n)%nat -> nth k (map c (seq 0 n)) 0%Qc = c k) by (intros k Hk; now rewrite (nth_map_seq c)).
  assert (LC : length (map c (seq 0 n)) = n) by now rewrite map_length, seq_length.
  exists (map c (seq 0 n)). split; [exact LC|]. split; [apply (inner_pos _ j); [lia | now rewrite NC]|]. split.
  - intros i NI. destruct (le_lt_dec n i) as [G|G]; [apply nth_overflow; lia|]. rewrite NC by assumption.
    assert (IO : In i others) by (apply filter_In; split; [apply in_seq; lia | now destruct (in_dec Nat.eq_dec i I)]).
    specialize (Z0 _ (in_or_app _ _ _ (or_intror (in_map _ _ i IO)))). cbv beta in Z0. refine (eq_trans _ Z0).
    rewrite (qsum_ext _ _ (fun k => if Nat.eqb i k then c k else 0)%Qc) by (intros k _; destruct (Nat.eqb i k); ring). symmetry. now apply qsum_delta.
  - intros t It. specialize (Z0 _ (in_or_app _ _ _ (or_introl (in_map _ _ t It)))). cbv beta in Z0. refine (eq_trans _ Z0). apply qsum_ext. intros i Hi. apply in_seq in Hi. rewrite NC by lia. ring.
Qed.

(** combinations of combinations *)
Lemma combine_combinations : forall dim K V d, tall dim K -> tall dim V -> length d = length V -> (forall k, (k < length V)%nat -> nth k d 0%Qc <> 0%Qc -> combination dim K (nth k V [])) ->
  combination dim K (blend dim V d).
Proof.
  intros dim K V. induction V as [|v V IH]; intros d TK TV Ld H.
  - exists (repeat 0%Qc (length K)). split; [apply repeat_length|]. apply (nth_ext _ _ 0%Qc 0%Qc); [now rewrite !blend_length|]. intros i Hi. rewrite blend_length in Hi. rewrite !blend_nth by assumption.
    cbn [length seq]. rewrite qsum_nil. symmetry. apply qsum_zero. intros k _. rewrite nth_repeat. ring.
  - destruct d as [|d0 d]; [discriminate|]. cbn [length] in Ld. assert (T0 : length v = dim) by (now inversion TV). assert (TV' : tall dim V) by (now inversion TV).
    destruct (IH d TK TV' ltac:(lia)) as (y & Ly & Ey); [intros k Hk; exact (H (S k) ltac:(cbn [length]; lia))|].
    assert (B : forall i, (i < dim)%nat -> nth i (blend dim (v :: V) (d0 :: d)) 0%Qc = (d0 * nth i v 0 + nth i (blend dim V d) 0)%Qc).
    { intros i Hi. rewrite !blend_nth by assumption. cbn [length seq]. rewrite qsum_cons. cbn [nth]. f_equal. rewrite <- seq_shift, qsum_map. reflexivity. }
    destruct (Qc_eq_dec d0 0) as [->|NZ].
    + exists y. split; [assumption|]. rewrite <- Ey. apply (nth_ext _ _ 0%Qc 0%Qc); [now rewrite !blend_length|]. intros i Hi. rewrite blend_length in Hi. rewrite B by assumption. ring.
    + destruct (H 0%nat ltac:(cbn [length]; lia) NZ) as (y0 & Ly0 & Ey0). cbn [nth] in Ey0.
      exists (map (fun k => d0 * nth k y0 0 + nth k y 0)%Qc (seq 0 (length K))). split; [now rewrite map_length, seq_length|].
      apply (nth_ext _ _ 0%Qc 0%Qc); [now rewrite !blend_length|]. intros i Hi. rewrite blend_length in Hi. rewrite B by assumption. rewrite Ey. replace (nth i v 0%Qc) with (nth i (blend dim K y0) 0%Qc) by (now rewrite <- Ey0). rewrite !blend_nth by assumption.
      rewrite <- qsum_scale, <- qsum_add. apply qsum_ext. intros k Hk. apply in_seq in Hk. rewrite (nth_map_seq (fun k => d0 * nth k y0 0 + nth k y 0)%Qc) by lia. ring.
Qed.

(** weighted sums *)
Lemma weighted_le : forall n (w d : nat -> Qc) u, (forall i, (i < n)%nat -> d i <> 0%Qc -> (w i <= u)%Qc) ->
  (qsum (fun i => w i * (d i * d i)) (seq 0 n) <= u * qsum (fun i => d i * d i) (seq 0 n))%Qc.
Proof.
  intros n w d u H. rewrite <- qsum_scale. assert (G : forall i, In i (seq 0 n) -> (w i * (d i * d i) <= u * (d i * d i))%Qc).
  { intros i I. apply in_seq in I. destruct (Qc_eq_dec (d i) 0) as [->|NZ]; [rewrite !Qcmult_0_r; apply Qcle_refl|]. apply Qcmult_le_compat_r; [apply H; [lia | assumption] | apply square_nonneg]. }
  induction (seq 0 n) as [|x l IH]; [apply Qcle_refl|]. rewrite !qsum_cons. apply Qcplus_le_compat; [apply G; now left | apply IH; intros; apply G; now right].
Qed.
Lemma weighted_lt : forall T (w d : T -> Qc) l u, (forall i, In i l -> d i <> 0%Qc -> (u < w i)%Qc) -> (0 < qsum (fun i => d i * d i) l)%Qc ->
  (u * qsum (fun i => d i * d i) l < qsum (fun i => w i * (d i * d i)) l)%Qc.
Proof.
  intros T w d l u H P.
  assert (G : forall i, In i l -> (0 <= (w i - u) * (d i * d i))%Qc).
  { intros i I. destruct (Qc_eq_dec (d i) 0) as [->|NZ]; [rewrite !Qcmult_0_r; apply Qcle_refl|]. specialize (H i I NZ). apply Qcmult_nonneg; [revert H; generalize (w i); intros a H; qc | apply square_nonneg]. }
  assert (E : qsum (fun i => (w i - u) * (d i * d i))%Qc l = (qsum (fun i => w i * (d i * d i)) l - u * qsum (fun i => d i * d i) l)%Qc).
  { rewrite <- qsum_scale. replace (qsum (fun i => w i * (d i * d i)) l - qsum (fun x => u * (d x * d x)) l)%Qc with (qsum (fun i => w i * (d i * d i)) l + - qsum (fun x => u * (d x * d x)) l)%Qc by ring.
    rewrite <- qsum_opp, <- qsum_add. apply qsum_ext. intros; ring. }
  destruct (Qclt_le_dec (u * qsum (fun i => d i * d i) l)%Qc (qsum (fun i => w i * (d i * d i)) l)%Qc) as [|F]; [assumption|]. exfalso.
  assert (Z0 : (qsum (fun i => (w i - u) * (d i * d i)) l <= 0)%Qc) by (rewrite E; revert F; generalize (u * qsum (fun i => d i * d i) l)%Qc (qsum (fun i => w i * (d i * d i)) l)%Qc; intros a b F; qc).
  assert (D : forall i, In i l -> (d i * d i)%Qc = 0%Qc).
  { intros i I. pose proof (qsum_nonneg_zero _ _ _ G Z0 i I) as Q. cbv beta in Q. destruct (Qc_eq_dec (d i) 0) as [->|NZ]; [ring|]. apply Qcmult_integral in Q. destruct Q as [Q|Q]; [|assumption].
    specialize (H i I NZ). revert H Q. generalize (w i). intros a H Q. exfalso. apply this_eq in Q. unfold Qcminus in Q. rewrite this_add, this_opp in Q. qc. }
  rewrite (qsum_zero _ _ _ D) in P. discriminate P.
Qed.
