(** Final lemmas for C79: the restriction of a matrix to an orthogonal complement. *)
From Coq Require Import ZArith List Bool Lia QArith Qcanon.
From Verif Require Import PyBase PyFacts Spin Prob Dav PSpin PProb PHam PDav PDavIter FSpinVal Spec SpecTJ SpinDefs DavDefs Lattice Base Interact Ham Files Emb Display Post Phase.
Import ListNotations.
Open Scope Z_scope.

Lemma qsum_delta : forall n i (f : nat -> Qc), (i < n)%nat -> qsum (fun j => if Nat.eqb i j then f j else 0%Qc) (seq 0 n) = f i.
Proof.
  intros n i f H. rewrite (qsum_single _ _ _ i).
  - rewrite Nat.eqb_refl. reflexivity.
  - apply seq_NoDup.
  - apply in_seq. lia.
  - intros y _ N. destruct (Nat.eqb_spec i y); [congruence | reflexivity].
Qed.
Lemma qsum_prod : forall A B (f : A -> Qc) (g : B -> Qc) l m, (qsum f l * qsum g m)%Qc = qsum (fun x => qsum (fun y => f x * g y)%Qc m) l.
Proof.
  intros A B f g l m. rewrite (qsum_ext _ (fun x => qsum (fun y => (f x * g y)%Qc) m) (fun x => (qsum g m * f x)%Qc)).
  - rewrite qsum_scale. ring.
  - intros x _. rewrite qsum_scale. ring.
Qed.
Lemma qz_nat_sum : forall n, qsum (fun _ => 1%Qc) (seq 0 n) = qz (Z.of_nat n).
Proof. intros n. rewrite qsum_const. unfold zlen. rewrite seq_length. ring. Qed.

(** as many orthonormal columns as rows: the rows are orthonormal too *)
Lemma complete : forall n V, tall n V -> orthonormal V -> length V = n ->
  forall i j, (i < n)%nat -> (j < n)%nat -> qsum (fun k => nth i (nth k V []) 0 * nth j (nth k V []) 0)%Qc (seq 0 n) = if Nat.eqb i j then 1%Qc else 0%Qc.
Proof.
  intros n V T O L. set (q := fun k i => nth i (nth k V []) 0%Qc). set (I := seq 0 n).
  set (P := fun i j => qsum (fun k => q k i * q k j)%Qc I). set (dl := fun i j : nat => if Nat.eqb i j then 1%Qc else 0%Qc).
  assert (QQ : forall k l, In k I -> In l I -> qsum (fun i => q k i * q l i)%Qc I = dl k l).
  { intros k l Hk Hl. apply in_seq in Hk. apply in_seq in Hl. pose proof (O k l ltac:(lia) ltac:(lia)) as H. unfold inner in H.
    replace (length (nth k V [])) with n in H; [exact H|]. symmetry. unfold tall in T. rewrite Forall_forall in T. apply T, nth_In. lia. }
  assert (Tr : qsum (fun i => P i i) I = qz (Z.of_nat n)).
  { unfold P. rewrite qsum_exchange. rewrite (qsum_ext _ _ (fun _ => 1%Qc)); [apply qz_nat_sum|].
    intros k Hk. rewrite (QQ k k Hk Hk). unfold dl. rewrite Nat.eqb_refl. reflexivity. }
  assert (Dd : forall (f : nat -> nat -> Qc), qsum (fun i => qsum (fun j => dl i j * f i j)%Qc I) I = qsum (fun i => f i i) I).
  { intros f. apply qsum_ext. intros i Hi. apply in_seq in Hi. rewrite (qsum_ext _ _ (fun j => if Nat.eqb i j then f i j else 0%Qc)).
    - apply qsum_delta. lia.
    - intros j _. unfold dl. destruct (Nat.eqb i j); ring. }
  assert (PP : qsum (fun i => qsum (fun j => P i j * P i j)%Qc I) I = qz (Z.of_nat n)).
  { transitivity (qsum (fun k => qsum (fun l => dl k l * dl k l)%Qc I) I).
    - rewrite (qsum_ext _ _ (fun i => qsum (fun k => qsum (fun l => (q k i * q l i) * dl k l)%Qc I) I)).
      + rewrite qsum_exchange. apply qsum_ext. intros k Hk. rewrite qsum_exchange. apply qsum_ext. intros l Hl.
        rewrite (qsum_ext _ _ (fun i => dl k l * (q k i * q l i))%Qc) by (intros; ring). rewrite qsum_scale, QQ by assumption. reflexivity.
      + intros i Hi. unfold P. rewrite (qsum_ext _ _ (fun j => qsum (fun k => qsum (fun l => (q k i * q l i) * (q k j * q l j))%Qc I) I)).
        * rewrite qsum_exchange. apply qsum_ext. intros k Hk. rewrite qsum_exchange. apply qsum_ext. intros l Hl. rewrite qsum_scale, QQ by assumption. reflexivity.
        * intros j Hj. rewrite qsum_prod. apply qsum_ext. intros k _. apply qsum_ext. intros l _. ring.
    - rewrite Dd. rewrite (qsum_ext _ _ (fun _ => 1%Qc)); [apply qz_nat_sum|]. intros i _. unfold dl. rewrite Nat.eqb_refl. reflexivity. }
  assert (DP : qsum (fun i => qsum (fun j => dl i j * P i j)%Qc I) I = qz (Z.of_nat n)) by (rewrite Dd; exact Tr).
  assert (DD : qsum (fun i => qsum (fun j => dl i j * dl i j)%Qc I) I = qz (Z.of_nat n)).
  { rewrite Dd. rewrite (qsum_ext _ _ (fun _ => 1%Qc)); [apply qz_nat_sum|]. intros i _. unfold dl. rewrite Nat.eqb_refl. reflexivity. }
  assert (Tot : qsum (fun p => (P (fst p) (snd p) - dl (fst p) (snd p)) * (P (fst p) (snd p) - dl (fst p) (snd p)))%Qc (list_prod I I) = 0%Qc).
  { assert (LP : forall (f : nat -> nat -> Qc), qsum (fun p => f (fst p) (snd p)) (list_prod I I) = qsum (fun i => qsum (fun j => f i j) I) I).
    { intros f. assert (G : forall l, qsum (fun p => f (fst p) (snd p)) (list_prod l I) = qsum (fun i => qsum (fun j => f i j) I) l); [|apply G].
      induction l as [|x l IH]; [reflexivity|]. cbn [list_prod]. rewrite qsum_app, qsum_cons, IH, qsum_map. reflexivity. }
    rewrite (LP (fun i j => (P i j - dl i j) * (P i j - dl i j))%Qc).
    rewrite (qsum_ext _ _ (fun i => qsum (fun j => P i j * P i j)%Qc I + (- qz 2 * qsum (fun j => dl i j * P i j)%Qc I + qsum (fun j => dl i j * dl i j)%Qc I))%Qc).
    - rewrite !qsum_add, qsum_scale, PP, DP, DD. replace (qz 2) with (1 + 1)%Qc by (apply Qc_is_canon; reflexivity). ring.
    - intros i _. rewrite <- qsum_scale, <- !qsum_add. apply qsum_ext. intros j _. replace (qz 2) with (1 + 1)%Qc by (apply Qc_is_canon; reflexivity). ring. }
  intros i j Hi Hj.
  assert (Z : (P i j - dl i j)%Qc = 0%Qc).
  { apply (qsum_squares_zero _ (fun p => (P (fst p) (snd p) - dl (fst p) (snd p))%Qc) _ Tot (i, j)). apply in_prod; apply in_seq; lia. }
  change (P i j = dl i j). replace (P i j) with ((P i j - dl i j) + dl i j)%Qc by ring. rewrite Z. ring.
Qed.

(** every vector is the combination of its components *)
Lemma resolve : forall n V x i, tall n V -> orthonormal V -> length V = n -> length x = n -> (i < n)%nat ->
  nth i x 0%Qc = qsum (fun k => inner (nth k V []) x * nth i (nth k V []) 0)%Qc (seq 0 n).
Proof.
  intros n V x i T O L Lx Hi.
  transitivity (qsum (fun j => nth j x 0 * (if Nat.eqb i j then 1 else 0))%Qc (seq 0 n)).
  { rewrite (qsum_ext _ _ (fun j => if Nat.eqb i j then nth j x 0%Qc else 0%Qc)); [rewrite qsum_delta by assumption; reflexivity|]. intros j _. destruct (Nat.eqb i j); ring. }
  rewrite (qsum_ext _ _ (fun j => qsum (fun k => nth j x 0 * (nth i (nth k V []) 0 * nth j (nth k V []) 0))%Qc (seq 0 n))).
  - rewrite qsum_exchange. apply qsum_ext. intros k Hk. apply in_seq in Hk. unfold inner.
    replace (length (nth k V [])) with n by (symmetry; unfold tall in T; rewrite Forall_forall in T; apply T, nth_In; lia).
    rewrite (qsum_ext _ _ (fun j => nth i (nth k V []) 0 * (nth j (nth k V []) 0 * nth j x 0))%Qc) by (intros; ring). rewrite qsum_scale. ring.
  - intros j Hj. apply in_seq in Hj. rewrite qsum_scale, (complete n V T O L i j Hi ltac:(lia)). reflexivity.
Qed.
Lemma parseval : forall n V x, tall n V -> orthonormal V -> length V = n -> length x = n ->
  inner x x = qsum (fun v => inner v x * inner v x)%Qc V.
Proof.
  intros n V x T O L Lx. unfold inner at 1. rewrite Lx.
  rewrite (qsum_ext _ _ (fun i => qsum (fun k => inner (nth k V []) x * (nth i (nth k V []) 0 * nth i x 0))%Qc (seq 0 n))).
  - rewrite qsum_exchange.
    rewrite (qsum_ext _ _ (fun k => inner (nth k V []) x * inner (nth k V []) x)%Qc).
    + rewrite <- L. clear. transitivity (qsum (fun v => inner v x * inner v x)%Qc (map (fun k => nth k V []) (seq 0 (length V)))); [rewrite qsum_map; reflexivity|].
      f_equal. clear. apply nth_ext with (d := []) (d' := []); [rewrite map_length, seq_length; reflexivity|]. intros k Hk. rewrite map_length, seq_length in Hk.
      rewrite (nth_indep _ [] (nth 0 V [])) by (rewrite map_length, seq_length; exact Hk). rewrite (map_nth (fun k => nth k V [])), seq_nth by exact Hk. reflexivity.
    + intros k Hk. apply in_seq in Hk. rewrite qsum_scale. f_equal. unfold inner.
      replace (length (nth k V [])) with n by (symmetry; unfold tall in T; rewrite Forall_forall in T; apply T, nth_In; lia). reflexivity.
  - intros i Hi. apply in_seq in Hi. rewrite (resolve n V x i T O L Lx ltac:(lia)) at 1.
    rewrite Qcmult_comm, <- qsum_scale. apply qsum_ext. intros k _. ring.
Qed.

Lemma inner_sym : forall u v, length u = length v -> inner u v = inner v u.
Proof. intros u v L. unfold inner. rewrite L. apply qsum_ext. intros; ring. Qed.
Lemma inner_blend : forall dim V y u, length u = dim -> inner u (blend dim V y) = qsum (fun k => nth k y 0 * inner u (nth k V []))%Qc (seq 0 (length V)).
Proof.
  intros dim V y u L. unfold inner. rewrite L.
  rewrite (qsum_ext _ _ (fun i => qsum (fun k => nth k y 0 * (nth i u 0 * nth i (nth k V []) 0))%Qc (seq 0 (length V)))).
  - rewrite qsum_exchange. apply qsum_ext. intros k _. apply qsum_scale.
  - intros i Hi. apply in_seq in Hi. unfold blend. rewrite nth_map_seq by lia. rewrite <- qsum_scale. apply qsum_ext. intros; ring.
Qed.
Lemma blend_length : forall dim V y, length (blend dim V y) = dim.
Proof. intros. unfold blend. rewrite map_length, seq_length. reflexivity. Qed.
Lemma image_nth : forall A x i, (i < length A)%nat -> nth i (image A x) 0%Qc = inner (nth i A []) x.
Proof.
  intros A x i H. unfold image. rewrite (nth_indep _ 0%Qc (inner [] x)) by (rewrite map_length; exact H). apply (map_nth (fun row => inner row x)).
Qed.
Lemma image_length : forall A x, length (image A x) = length A.
Proof. intros. unfold image. apply map_length. Qed.
Lemma row_length : forall A i, square A -> (i < length A)%nat -> length (nth i A []) = length A.
Proof. intros A i S H. unfold square in S. rewrite Forall_forall in S. apply S, nth_In, H. Qed.
Lemma residual_length : forall A m x, length (residual A m x) = length A.
Proof. intros. unfold residual. rewrite map_length, seq_length. reflexivity. Qed.

Lemma inner_image : forall A u v, square A -> symmetric A -> length u = length A -> length v = length A -> inner u (image A v) = inner v (image A u).
Proof.
  intros A u v SA Sy Lu Lv. unfold inner at 1 2. rewrite Lu, Lv.
  rewrite (qsum_ext _ _ (fun i => qsum (fun j => nth i u 0 * nth j (nth i A []) 0 * nth j v 0)%Qc (seq 0 (length A)))).
  2:{ intros i Hi. apply in_seq in Hi. rewrite image_nth by lia. unfold inner. rewrite row_length by (trivial; lia). rewrite <- qsum_scale. apply qsum_ext. intros; ring. }
  rewrite qsum_exchange. apply qsum_ext. intros j Hj. apply in_seq in Hj. rewrite image_nth by lia. unfold inner. rewrite row_length by (trivial; lia).
  rewrite <- qsum_scale. apply qsum_ext. intros i Hi. apply in_seq in Hi. rewrite (Sy i j) by lia. ring.
Qed.
Lemma inner_residual : forall A u m x, length u = length A -> inner u (residual A m x) = (m * inner u x - inner u (image A x))%Qc.
Proof.
  intros A u m x L. unfold inner at 1 2 3. rewrite L. unfold Qcminus. rewrite <- qsum_scale, <- qsum_opp, <- qsum_add. apply qsum_ext.
  intros i Hi. apply in_seq in Hi. rewrite image_nth by lia. unfold residual. rewrite nth_map_seq by lia. ring.
Qed.
Lemma zero_vector : forall x, inner x x = 0%Qc -> x = repeat 0%Qc (length x).
Proof.
  intros x H. pose proof (proj1 (inner_zero x) H) as F. clear H. induction x as [|a x IH]; [reflexivity|].
  cbn [length repeat]. rewrite (F a) by (left; reflexivity). f_equal. apply IH. intros y Hy. apply F. right. exact Hy.
Qed.
Lemma inner_zeros : forall u n, inner u (repeat 0%Qc n) = 0%Qc.
Proof.
  intros u n. unfold inner. rewrite (qsum_ext _ _ (fun _ => 0%Qc)); [apply qsum_zero; auto|]. intros i _. rewrite nth_repeat. ring.
Qed.

(** the hypotheses on the factor of lin.qr for these columns *)
Lemma complement : forall dim vects Q, tall dim vects -> orthonormal vects -> (length vects <= dim)%nat -> length Q = dim -> tall dim Q -> orthonormal Q ->
  (forall j, (j < length vects)%nat -> combination dim (firstn (S j) Q) (nth j vects [])) ->
  let comp := skipn (length vects) Q in length comp = (dim - length vects)%nat /\ tall dim comp /\ orthonormal (vects ++ comp).
Proof.
  intros dim vects Q T O L LQ TQ OQ C comp.
  assert (Lc : length comp = (dim - length vects)%nat) by (unfold comp; rewrite skipn_length; lia).
  assert (Tc : tall dim comp).
  { unfold tall in *. rewrite Forall_forall in *. intros x Hx. apply TQ. unfold comp in Hx. rewrite <- (firstn_skipn (length vects) Q). apply in_or_app. now right. }
  split; [exact Lc|]. split; [exact Tc|].
  assert (Nc : forall k, nth k comp [] = nth (length vects + k) Q []).
  { intros k. unfold comp. rewrite <- (firstn_skipn (length vects) Q) at 2. rewrite app_nth2 by (rewrite firstn_length; lia). rewrite firstn_length.
    f_equal. lia. }
  assert (Lv : forall j, (j < length vects)%nat -> length (nth j vects []) = dim).
  { intros j Hj. unfold tall in T. rewrite Forall_forall in T. apply T, nth_In, Hj. }
  assert (Lq : forall j, (j < dim)%nat -> length (nth j Q []) = dim).
  { intros j Hj. unfold tall in TQ. rewrite Forall_forall in TQ. apply TQ, nth_In. lia. }
  assert (X : forall j k, (j < length vects)%nat -> (k < length comp)%nat -> inner (nth k comp []) (nth j vects []) = 0%Qc).
  { intros j k Hj Hk. destruct (C j Hj) as (y & Ly & Ey). rewrite Ey, inner_blend by (rewrite Nc; apply Lq; lia).
    apply qsum_zero. intros l Hl. apply in_seq in Hl. rewrite firstn_length in Hl.
    replace (nth l (firstn (S j) Q) []) with (nth l Q []).
    - rewrite Nc, OQ by lia. replace (Nat.eqb (length vects + k) l) with false by (symmetry; apply Nat.eqb_neq; lia). ring.
    - rewrite <- (firstn_skipn (S j) Q) at 1. rewrite app_nth1 by (rewrite firstn_length; lia). reflexivity. }
  intros i j Hi Hj. rewrite app_length in Hi, Hj.
  destruct (Nat.lt_ge_cases i (length vects)) as [Ii|Ii]; destruct (Nat.lt_ge_cases j (length vects)) as [Ij|Ij].
  - rewrite !app_nth1 by assumption. now apply O.
  - rewrite (app_nth1 _ _ _ Ii), (app_nth2 _ _ _ Ij). rewrite inner_sym.
    + rewrite X by lia. replace (Nat.eqb i j) with false by (symmetry; apply Nat.eqb_neq; lia). reflexivity.
    + rewrite Lv, Nc, Lq by lia. reflexivity.
  - rewrite (app_nth2 _ _ _ Ii), (app_nth1 _ _ _ Ij). rewrite X by lia. replace (Nat.eqb i j) with false by (symmetry; apply Nat.eqb_neq; lia). reflexivity.
  - rewrite (app_nth2 _ _ _ Ii), (app_nth2 _ _ _ Ij). rewrite !Nc, OQ by lia. replace (length vects + (i - length vects))%nat with i by lia.
    replace (length vects + (j - length vects))%nat with j by lia. reflexivity.
Qed.

Lemma projected_skip : forall A Q n, map (skipn n) (skipn n (projected A Q)) = projected A (skipn n Q).
Proof.
  intros A Q n. unfold projected. rewrite skipn_map, map_map. apply map_ext. intros w. rewrite skipn_map. reflexivity.
Qed.

Lemma inner_map : forall (f : list Qc -> Qc) l y, inner (map f l) y = qsum (fun k => f (nth k l []) * nth k y 0)%Qc (seq 0 (length l)).
Proof.
  intros f l y. unfold inner. rewrite map_length. apply qsum_ext. intros k Hk. apply in_seq in Hk.
  rewrite (nth_indep _ 0%Qc (f [])) by (rewrite map_length; lia). rewrite (map_nth f). reflexivity.
Qed.

Lemma C79_projection_pf : forall N A vects, let dim := length A in
  let Q := qr N dim (vects ++ repeat (repeat 1%Qc dim) (dim - length vects)) in
  square A -> tall dim vects -> orthonormal vects -> (length vects <= dim)%nat ->
  length Q = dim -> tall dim Q -> orthonormal Q -> (forall j, (j < length vects)%nat -> combination dim (firstn (S j) Q) (nth j vects [])) ->
  exists comp, length comp = (dim - length vects)%nat /\ tall dim comp /\ orthonormal comp /\
    (forall x, length x = dim -> (combination dim comp x <-> forall v, In v vects -> inner v x = 0%Qc)) /\
    perform_matrix_orthogonal_projection N A vects = Ok (projected A comp).
Proof.
  intros N A vects dim Q SA T O L LQ TQ OQ C.
  destruct (complement dim vects Q T O L LQ TQ OQ C) as (Lc & Tc & Oc). set (comp := skipn (length vects) Q) in *.
  assert (Ta : tall dim (vects ++ comp)) by (apply Forall_app; split; assumption).
  assert (La : length (vects ++ comp) = dim) by (rewrite app_length; lia).
  exists comp. split; [exact Lc|]. split; [exact Tc|]. split; [|split].
  - intros i j Hi Hj. pose proof (Oc (length vects + i)%nat (length vects + j)%nat) as H. rewrite app_length in H. specialize (H ltac:(lia) ltac:(lia)).
    rewrite !app_nth2 in H by lia. replace (length vects + i - length vects)%nat with i in H by lia. replace (length vects + j - length vects)%nat with j in H by lia.
    rewrite H. destruct (Nat.eqb_spec i j); destruct (Nat.eqb_spec (length vects + i) (length vects + j)); try reflexivity; lia.
  - intros x Lx. split.
    + intros (y & Ly & ->) v Hv. destruct (In_nth _ _ [] Hv) as (j & Hj & <-).
      rewrite inner_blend by (unfold tall in T; rewrite Forall_forall in T; apply T; exact Hv).
      apply qsum_zero. intros k Hk. apply in_seq in Hk. pose proof (Oc j (length vects + k)%nat) as H. rewrite app_length in H. specialize (H ltac:(lia) ltac:(lia)).
      rewrite app_nth1 in H by lia. rewrite app_nth2 in H by lia. replace (length vects + k - length vects)%nat with k in H by lia. rewrite H.
      replace (Nat.eqb j (length vects + k)) with false by (symmetry; apply Nat.eqb_neq; lia). ring.
    + intros Z. exists (map (fun k => inner (nth k comp []) x) (seq 0 (length comp))). split; [rewrite map_length, seq_length; reflexivity|].
      apply nth_ext with (d := 0%Qc) (d' := 0%Qc); [rewrite blend_length; exact Lx|]. intros i Hi. rewrite (resolve dim (vects ++ comp) x i Ta Oc La Lx) by lia.
      unfold blend. rewrite nth_map_seq by lia. rewrite <- La, app_length, seq_app, qsum_app.
      replace (qsum _ (seq 0 (length vects))) with 0%Qc.
      * rewrite Qcplus_0_l. replace (seq (0 + length vects) (length comp)) with (map (fun k => (length vects + k)%nat) (seq 0 (length comp))).
        -- rewrite qsum_map. apply qsum_ext. intros k Hk. apply in_seq in Hk. rewrite app_nth2 by lia. rewrite nth_map_seq by lia.
           replace (length vects + k - length vects)%nat with k by lia. reflexivity.
        -- clear. generalize (length vects) as a. generalize (length comp) as m. intros m a. rewrite Nat.add_0_l.
           apply nth_ext with (d := (a + 0)%nat) (d' := 0%nat); [rewrite map_length, !seq_length; reflexivity|]. intros k Hk. rewrite map_length, seq_length in Hk.
           rewrite (map_nth (fun k => (a + k)%nat)), !seq_nth by exact Hk. reflexivity.
      * symmetry. apply qsum_zero. intros k Hk. apply in_seq in Hk. rewrite app_nth1 by lia. rewrite Z by (apply nth_In; lia). ring.
  - unfold perform_matrix_orthogonal_projection. fold dim. destruct (Nat.ltb_spec dim (length vects)) as [G|_]; [lia|]. fold Q.
    rewrite gram_projected by assumption. rewrite projected_skip. reflexivity.
Qed.

Lemma C79_spectrum_pf : forall N A vects, let dim := length A in
  let Q := qr N dim (vects ++ repeat (repeat 1%Qc dim) (dim - length vects)) in
  square A -> symmetric A -> tall dim vects -> orthonormal vects -> (length vects <= dim)%nat ->
  (forall v, In v vects -> exists l, residual A l v = repeat 0%Qc dim) ->
  length Q = dim -> tall dim Q -> orthonormal Q -> (forall j, (j < length vects)%nat -> combination dim (firstn (S j) Q) (nth j vects [])) ->
  exists B, perform_matrix_orthogonal_projection N A vects = Ok B /\ length B = (dim - length vects)%nat /\
    forall m, (exists x, length x = dim /\ x <> repeat 0%Qc dim /\ (forall v, In v vects -> inner v x = 0%Qc) /\ residual A m x = repeat 0%Qc dim) <->
              (exists y, length y = length B /\ y <> repeat 0%Qc (length B) /\ residual B m y = repeat 0%Qc (length B)).
Proof.
  intros N A vects dim Q SA Sy T O L Ev LQ TQ OQ C.
  destruct (C79_projection_pf N A vects SA T O L LQ TQ OQ C) as (comp & Lc & Tc & Oc & Cc & E). fold dim in Lc, Tc, Cc.
  exists (projected A comp). split; [exact E|].
  assert (LB : length (projected A comp) = length comp) by (unfold projected; apply map_length).
  split; [rewrite LB; exact Lc|]. intros m. rewrite LB.
  assert (Lk : forall k, (k < length comp)%nat -> length (nth k comp []) = dim).
  { intros k Hk. unfold tall in Tc. rewrite Forall_forall in Tc. apply Tc, nth_In, Hk. }
  assert (Lv : forall v, In v vects -> length v = dim) by (intros v Hv; unfold tall in T; rewrite Forall_forall in T; auto).
  (* components of a residual *)
  assert (R1 : forall y i, (i < length comp)%nat -> nth i (residual (projected A comp) m y) 0%Qc = inner (nth i comp []) (residual A m (blend dim comp y))).
  { intros y i Hi. unfold residual at 1. rewrite LB, nth_map_seq by exact Hi. rewrite inner_residual by (apply Lk; exact Hi).
    assert (F1 : inner (nth i comp []) (blend dim comp y) = nth i y 0%Qc).
    { rewrite inner_blend by (apply Lk; exact Hi). rewrite (qsum_ext _ _ (fun k => if Nat.eqb i k then nth k y 0%Qc else 0%Qc)); [apply qsum_delta; exact Hi|].
      intros k Hk. apply in_seq in Hk. rewrite Oc by lia. destruct (Nat.eqb i k); ring. }
    rewrite F1. apply (f_equal (fun z => (m * nth i y 0 - z)%Qc)). unfold projected. rewrite (nth_indep _ [] (map (fun v => inner v (image A [])) comp)) by (rewrite map_length; exact Hi).
    rewrite (map_nth (fun w => map (fun v => inner v (image A w)) comp)).
    cbv beta. rewrite (inner_map (fun v => inner v (image A (nth i comp [])))).
    rewrite (inner_image A _ (blend dim comp y)) by (trivial; rewrite ?blend_length; auto; apply Lk; exact Hi).
    rewrite inner_sym by (rewrite blend_length, image_length; reflexivity). rewrite inner_blend by apply image_length.
    apply qsum_ext. intros k Hk. apply in_seq in Hk. rewrite (inner_sym (image A _)) by (rewrite image_length, Lk by lia; reflexivity). ring. }
  assert (R2 : forall x v, length x = dim -> (forall v, In v vects -> inner v x = 0%Qc) -> In v vects -> inner v (residual A m x) = 0%Qc).
  { intros x v Lx Z Hv. rewrite inner_residual by (apply Lv; exact Hv). rewrite (Z v Hv). rewrite inner_image by (trivial; auto; apply Lv; exact Hv).
    destruct (Ev v Hv) as (l & El). pose proof (inner_residual A x l v Lx) as H. rewrite El, inner_zeros in H.
    rewrite (inner_sym x v), (Z v Hv) in H by (rewrite Lx; symmetry; apply Lv; exact Hv).
    replace (inner x (image A v)) with (l * 0 - (l * 0 - inner x (image A v)))%Qc by ring. rewrite <- H. ring. }
  assert (R3 : forall r, length r = dim -> (forall v, In v vects -> inner v r = 0%Qc) -> (forall i, (i < length comp)%nat -> inner (nth i comp []) r = 0%Qc) -> r = repeat 0%Qc dim).
  { intros r Lr Z1 Z2. destruct (proj2 (Cc r Lr) Z1) as (y & Ly & Ey). rewrite <- Lr. apply zero_vector.
    rewrite Ey at 2. rewrite inner_blend by exact Lr. apply qsum_zero. intros k Hk. apply in_seq in Hk.
    rewrite (inner_sym r) by (rewrite Lk by lia; exact Lr). rewrite Z2 by lia. ring. }
  split.
  - intros (x & Lx & Nx & Zx & Rx). destruct (proj2 (Cc x Lx) Zx) as (y & Ly & Ey). exists y. split; [exact Ly|]. split.
    + intros Ez. apply Nx. rewrite Ey, Ez. apply nth_ext with (d := 0%Qc) (d' := 0%Qc); [rewrite blend_length, repeat_length; reflexivity|].
      intros i Hi. rewrite blend_length in Hi. unfold blend. rewrite nth_map_seq by exact Hi. rewrite nth_repeat. apply qsum_zero. intros k _. rewrite nth_repeat. ring.
    + apply nth_ext with (d := 0%Qc) (d' := 0%Qc); [rewrite residual_length, repeat_length, LB; reflexivity|]. intros i Hi. rewrite residual_length, LB in Hi.
      rewrite R1 by exact Hi. rewrite <- Ey, Rx, inner_zeros, nth_repeat. reflexivity.
  - intros (y & Ly & Ny & Ry). exists (blend dim comp y). split; [apply blend_length|].
    assert (Z : forall v, In v vects -> inner v (blend dim comp y) = 0%Qc).
    { apply (proj1 (Cc _ (blend_length dim comp y))). exists y. split; [exact Ly | reflexivity]. }
    split; [|split].
    + intros Ez. apply Ny. apply nth_ext with (d := 0%Qc) (d' := 0%Qc); [rewrite repeat_length; exact Ly|]. intros i Hi. rewrite nth_repeat.
      assert (F1 : inner (nth i comp []) (blend dim comp y) = nth i y 0%Qc).
      { rewrite inner_blend by (apply Lk; lia). rewrite (qsum_ext _ _ (fun k => if Nat.eqb i k then nth k y 0%Qc else 0%Qc)); [apply qsum_delta; lia|].
        intros k Hk. apply in_seq in Hk. rewrite Oc by lia. destruct (Nat.eqb i k); ring. }
      rewrite <- F1, Ez. apply inner_zeros.
    + exact Z.
    + apply R3; [apply residual_length | intros v Hv; apply R2; [apply blend_length | exact Z | exact Hv] |].
      intros i Hi. rewrite <- R1 by exact Hi. rewrite Ry. apply nth_repeat.
Qed.

Lemma C79_too_many_pf : forall N A vects, (length A < length vects)%nat -> perform_matrix_orthogonal_projection N A vects = Err ValueError.
Proof.
  intros N A vects H. unfold perform_matrix_orthogonal_projection. destruct (Nat.ltb_spec (length A) (length vects)); [reflexivity | lia].
Qed.
