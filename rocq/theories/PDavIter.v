(** One iteration of modified_davidson_algorithm, completely. *)
From Coq Require Import ZArith List Bool Lia Permutation Sorted QArith Qcanon.
From Verif Require Import PyBase PyFacts Lattice Base Interact Spin Prob Dav Spec SpecOps SpecTJ SpecSpin SpinDefs ProbDefs DavDefs
  PSpin PRep POps PHam PWave PVec PSecSum PBound PQc PProb PDavVec PLowest PDav.
Import ListNotations.
Open Scope Z_scope.

Lemma mat_vect_image : forall A x, square A -> length x = length A -> mat_vect A x = image A x.
Proof.
  intros A x SA L. unfold mat_vect, image. apply map_ext_in. intros row Hr. apply vdot_inner. unfold square in SA. rewrite Forall_forall in SA. rewrite L. now apply SA.
Qed.

Lemma gram_projected : forall A K, square A -> tall (length A) K -> gram K (map (mat_vect A) K) = projected A K.
Proof.
  intros A K SA T. unfold gram, projected. rewrite map_map. apply map_ext_in. intros w Hw. apply map_ext_in. intros v Hv.
  unfold tall in T. rewrite Forall_forall in T. rewrite mat_vect_image by auto. apply vdot_inner. unfold image. rewrite map_length. auto.
Qed.

Lemma nth_map_seq : forall (f : nat -> Qc) n i, (i < n)%nat -> nth i (map f (seq 0 n)) 0%Qc = f i.
Proof.
  intros f n i H. apply nth_error_nth. rewrite nth_error_map, (nth_error_nth' _ 0%nat) by (rewrite seq_length; lia). rewrite seq_nth by lia. reflexivity.
Qed.

Lemma nth_vadd : forall u v i, length u = length v -> nth i (vadd u v) 0%Qc = (nth i u 0 + nth i v 0)%Qc.
Proof.
  unfold vadd. induction u as [|a u IH]; intros [|b v] i L; try discriminate L; [destruct i; cbn; ring|].
  destruct i; cbn [combine map nth fst snd]; [reflexivity|]. apply IH. now injection L.
Qed.
Lemma nth_vscale : forall a u i, nth i (vscale a u) 0%Qc = (a * nth i u 0)%Qc.
Proof. unfold vscale. intros a u. induction u as [|b u IH]; intros [|i]; cbn [map nth]; try ring. apply IH. Qed.
Lemma nth_zero_vect : forall n i, nth i (zero_vect n) 0%Qc = 0%Qc.
Proof. intros. apply nth_repeat. Qed.

Lemma mix_nth : forall dim V y i, tall dim V -> nth i (mix dim V y) 0%Qc = qsum (fun k => nth k y 0 * nth i (nth k V []) 0)%Qc (seq 0 (length V)).
Proof.
  intros dim V. unfold mix. induction V as [|v V IH]; intros y i T.
  - cbn [length seq]. rewrite qsum_nil. destruct y; cbn [combine fold_right]; apply nth_zero_vect.
  - inversion T as [|? ? H1 H2]; subst. cbn [length seq]. rewrite qsum_cons, <- seq_shift, qsum_map. destruct y as [|a y].
    + cbn [combine fold_right]. rewrite nth_zero_vect. rewrite qsum_zero; [cbn [nth]; ring|]. intros k _. destruct k; cbn [nth]; ring.
    + cbn [combine fold_right fst snd]. rewrite nth_vadd by (rewrite vscale_length; symmetry; apply (mix_length (length v) V y H2)).
      rewrite nth_vscale, IH by assumption. reflexivity.
Qed.

Lemma mix_blend : forall dim V y, tall dim V -> mix dim V y = blend dim V y.
Proof.
  intros dim V y T. apply (nth_ext _ _ 0%Qc 0%Qc).
  - rewrite mix_length by assumption. unfold blend. now rewrite map_length, seq_length.
  - intros i Hi. rewrite mix_length in Hi by assumption. rewrite mix_nth by assumption. unfold blend. now rewrite nth_map_seq.
Qed.

Lemma mat_diagonal_seq : forall A, mat_diagonal A = map (fun i => nth i (nth i A []) 0%Qc) (seq 0 (length A)).
Proof.
  intros A. apply (nth_ext _ _ 0%Qc 0%Qc); [now rewrite mat_diagonal_length, map_length, seq_length|].
  intros i Hi. rewrite mat_diagonal_length in Hi. rewrite nth_map_seq by assumption. apply nth_error_nth. unfold mat_diagonal. rewrite nth_error_map.
  rewrite (nth_error_nth' _ (0%nat, [])) by (rewrite combine_length, seq_length; lia). rewrite combine_nth by (now rewrite seq_length).
  rewrite seq_nth by lia. reflexivity.
Qed.

Lemma combine_maps : forall X (f g : X -> Qc) l, combine (map f l) (map g l) = map (fun x => (f x, g x)) l.
Proof. intros X f g. induction l as [|x l IH]; [reflexivity|]. cbn [map combine]. now rewrite IH. Qed.

Lemma mapM_map : forall X Y W (f : X -> Y) (g : Y -> res W) l, mapM g (map f l) = mapM (fun x => g (f x)) l.
Proof. intros X Y W f g. induction l as [|x l IH]; [reflexivity|]. cbn [map mapM]. now rewrite IH. Qed.

Lemma correction_ok : forall A l x,
  mapM (fun p => f <- fdiv 1 (fst p - l)%Qc ;; Ok (f * snd p)%Qc) (combine (mat_diagonal A) (residual A l x)) =
  if existsb (fun i => qeqb (nth i (nth i A []) 0%Qc) l) (seq 0 (length A)) then Err ZeroDivisionError else Ok (correction A l x).
Proof.
  intros A l x. rewrite mat_diagonal_seq. unfold correction.
  assert (R : residual A l x = map (fun i => nth i (residual A l x) 0%Qc) (seq 0 (length A))).
  { apply (nth_ext _ _ 0%Qc 0%Qc); [now rewrite residual_length, map_length, seq_length|]. intros i Hi. rewrite residual_length in Hi. now rewrite nth_map_seq. }
  rewrite R at 1. rewrite combine_maps, mapM_map. cbn [fst snd]. generalize (seq 0 (length A)) as s. induction s as [|i s IH]; [reflexivity|].
  cbn [mapM existsb map]. unfold fdiv at 1. set (d := nth i (nth i A []) 0%Qc). destruct (qeqb d l) eqn:Q.
  - apply qeqb_eq in Q. replace (d - l)%Qc with 0%Qc by (rewrite Q; ring). rewrite qeqb_refl. reflexivity.
  - destruct (qeqb (d - l) 0) eqn:Q2.
    + apply qeqb_eq in Q2. exfalso. assert (H : d = l) by (replace d with (d - l + l)%Qc by ring; rewrite Q2; ring). rewrite H, qeqb_refl in Q. discriminate.
    + cbn [bind orb]. rewrite IH. destruct (existsb _ s); [reflexivity|]. cbn [bind]. f_equal. f_equal. unfold Qcdiv. ring.
Qed.

Lemma mapM_first_err : forall X Y (f : X -> res Y) e l1 x l2, (forall y, In y l1 -> exists z, f y = Ok z) -> f x = Err e -> mapM f (l1 ++ x :: l2) = Err e.
Proof.
  intros X Y f e. induction l1 as [|y l1 IH]; intros x l2 H E; cbn [app mapM]; [now rewrite E|].
  destruct (H y (or_introl eq_refl)) as [z Q]. rewrite Q. cbn [bind]. rewrite IH; [reflexivity | intros; apply H; now right | assumption].
Qed.

Lemma mapM_some_err : forall X Y (f : X -> res Y) (g : X -> Y) (bad : X -> bool) e l, (forall x, In x l -> f x = if bad x then Err e else Ok (g x)) ->
  mapM f l = if existsb bad l then Err e else Ok (map g l).
Proof.
  intros X Y f g bad e. induction l as [|x l IH]; intros H; [reflexivity|]. cbn [mapM existsb map]. rewrite (H x (or_introl eq_refl)).
  destruct (bad x); [reflexivity|]. cbn [bind orb]. rewrite IH by (intros; apply H; now right). destruct (existsb bad l); reflexivity.
Qed.

Lemma forallb_map : forall X Y (f : X -> Y) g l, forallb g (map f l) = forallb (fun x => g (f x)) l.
Proof. intros X Y f g. induction l as [|x l IH]; [reflexivity|]. cbn [map forallb]. now rewrite IH. Qed.
Lemma existsb_map : forall X Y (f : X -> Y) g l, existsb g (map f l) = existsb (fun x => g (f x)) l.
Proof. intros X Y f g. induction l as [|x l IH]; [reflexivity|]. cbn [map existsb]. now rewrite IH. Qed.

Lemma py_get_nth : forall X (l : list X) k d, (k < length l)%nat -> py_get l (Z.of_nat k) = Ok (nth k l d).
Proof. intros X l k d H. apply py_get_of_nat. now apply nth_error_nth'. Qed.

Lemma zrange_seq : forall n, 0 <= n -> zrange 0 n = map Z.of_nat (seq 0 (Z.to_nat n)).
Proof. intros n H. unfold zrange. rewrite Z.sub_0_r. apply map_ext. intros. lia. Qed.

Section ITER.
Context (N : numerics) (A : list (list Qc)) (nb : Z) (tol : Qc) (dm : Z) (K : list (list Qc)).
Context (SA : square A) (TK : tall (length A) K) (Hnb : 0 <= nb).
Local Notation vals0 := (fst (eigh N (projected A K))).
Local Notation ys0 := (snd (eigh N (projected A K))).

Lemma residues_all : forall vals ys n, (n <= length vals)%nat -> (n <= length ys)%nat ->
  residues_of A (map (mat_vect A) K) vals ys (map (mix (length A) K) ys) (Z.of_nat n) =
  Ok (map (fun k => residual A (nth k vals 0%Qc) (blend (length A) K (nth k ys []))) (seq 0 n)).
Proof.
  intros vals ys n L1 L2. unfold residues_of. rewrite zrange_seq by lia. rewrite Nat2Z.id, mapM_map.
  apply mapM_ok. intros k Hk. apply in_seq in Hk.
  rewrite (py_get_nth _ vals k 0%Qc) by lia. cbn [bind].
  assert (Q : nth_error ys k = Some (nth k ys [])) by (apply nth_error_nth'; lia).
  rewrite (proj2 (py_get_of_nat _ (map (mix (length A) K) ys) k (mix (length A) K (nth k ys [])))) by (now rewrite nth_error_map, Q). cbn [bind].
  rewrite (proj2 (py_get_of_nat _ ys k _) Q). cbn [bind]. f_equal. rewrite <- mix_blend by assumption.
  rewrite <- (mat_mix A (length A) K _ TK). apply residual_vsub; [assumption | now apply mix_length].
Qed.

Lemma dav_step_full : (length vals0 <= length ys0)%nat ->
  exists idx, smallest vals0 idx /\ Z.of_nat (length idx) = Z.min nb (Z.of_nat (length vals0)) /\
  dav_step N A nb tol dm K =
    if Z.of_nat (length vals0) <? nb then Err IndexError else
    let vals := map (fun i => nth i vals0 0%Qc) idx in
    let vects := map (fun i => blend (length A) K (nth i ys0 [])) idx in
    let pairs := combine vals vects in
    if forallb (fun p => qleb (norm N (residual A (fst p) (snd p))) tol) pairs then Ok (Converged vals vects) else
    if existsb (fun p => existsb (fun i => qeqb (nth i (nth i A []) 0%Qc) (fst p)) (seq 0 (length A))) pairs then Err ZeroDivisionError else
    let cs := map (fun p => correction A (fst p) (snd p)) pairs in
    Ok (Continue vals vects (qr N (length A) ((if dm - nb <? Z.of_nat (length A) then vects else K) ++ cs))).
Proof.
  intros L. destruct (lowest_ok vals0 nb Hnb) as (idx & S & Li & F). exists idx. split; [assumption|]. split; [exact Li|].
  unfold dav_step. cbv zeta. rewrite gram_projected by assumption. destruct (eigh N (projected A K)) as [v0 y0]. cbn [fst snd] in *.
  rewrite F. destruct S as (_ & B & _).
  assert (G : mapM (fun i => py_get y0 (Z.of_nat i)) idx = Ok (map (fun i => nth i y0 []) idx)).
  { apply mapM_ok. intros i Hi. apply py_get_of_nat, nth_error_nth'. specialize (B i Hi). lia. }
  rewrite G. cbn [bind]. set (vals := map (fun i => nth i v0 0%Qc) idx). set (ys := map (fun i => nth i y0 []) idx).
  assert (Lv : length vals = length idx) by apply map_length. assert (Ly : length ys = length idx) by apply map_length.
  destruct (Z.ltb_spec (Z.of_nat (length v0)) nb) as [Short|Enough].
  - replace (residues_of _ _ _ _ _ _) with (Err (A := list (list Qc)) IndexError); [reflexivity|]. symmetry. unfold residues_of.
    rewrite zrange_seq by lia. rewrite mapM_map. assert (Hl : (length idx < Z.to_nat nb)%nat) by (unfold zlen in Li; lia).
    replace (Z.to_nat nb) with (length idx + S (Z.to_nat nb - length idx - 1))%nat by lia. rewrite seq_app. cbn [Nat.add seq].
    apply mapM_first_err.
    + intros k Hk. apply in_seq in Hk. rewrite (py_get_nth _ vals k 0%Qc) by lia. cbn [bind].
      assert (Q : nth_error ys k = Some (nth k ys [])) by (apply nth_error_nth'; lia).
      rewrite (proj2 (py_get_of_nat _ (map (mix (length A) K) ys) k (mix (length A) K (nth k ys [])))) by (now rewrite nth_error_map, Q). cbn [bind].
      rewrite (proj2 (py_get_of_nat _ ys k _) Q). cbn [bind]. eauto.
    + unfold py_get, py_norm. destruct (Z.ltb_spec (Z.of_nat (length idx)) 0); [lia|]. destruct (Z.ltb_spec (Z.of_nat (length idx)) 0); [lia|].
      rewrite Nat2Z.id. rewrite (proj2 (nth_error_None vals (length idx))) by lia. reflexivity.
  - assert (Hl : length idx = Z.to_nat nb) by (unfold zlen in Li; lia). assert (En : nb = Z.of_nat (length idx)) by lia.
    rewrite En at 1. rewrite residues_all by lia. cbn [bind].
    assert (Vx : map (mix (length A) K) ys = map (fun i => blend (length A) K (nth i y0 [])) idx).
    { unfold ys. rewrite map_map. apply map_ext. intros. now apply mix_blend. }
    rewrite Vx. set (vects := map (fun i => blend (length A) K (nth i y0 [])) idx).
    assert (Pr : combine vals vects = map (fun k => (nth k vals 0%Qc, blend (length A) K (nth k ys []))) (seq 0 (length idx))).
    { apply (nth_ext _ _ (0%Qc, []) (0%Qc, [])); [rewrite combine_length, map_length, seq_length; unfold vects; rewrite map_length; lia|].
      intros k Hk. rewrite combine_length in Hk. rewrite combine_nth by (unfold vects; rewrite map_length; lia).
      symmetry. apply nth_error_nth. rewrite nth_error_map, (nth_error_nth' _ 0%nat) by (rewrite seq_length; lia). rewrite seq_nth by lia. cbn [option_map Nat.add]. f_equal. f_equal.
      unfold vects. symmetry. apply nth_error_nth. rewrite nth_error_map, (nth_error_nth' _ 0%nat) by lia. cbn [option_map]. f_equal. f_equal. unfold ys.
      symmetry. apply nth_error_nth. rewrite nth_error_map, (nth_error_nth' _ 0%nat) by lia. reflexivity. }
    set (pairs := combine vals vects) in *.
    assert (Rs : map (fun k => residual A (nth k vals 0%Qc) (blend (length A) K (nth k ys []))) (seq 0 (length idx)) = map (fun p => residual A (fst p) (snd p)) pairs).
    { rewrite Pr, map_map. reflexivity. }
    rewrite Rs. rewrite forallb_map. destruct (forallb _ pairs); [reflexivity|].
    rewrite En at 1. rewrite zrange_seq by lia. rewrite Nat2Z.id, mapM_map.
    set (bad := fun p : Qc * list Qc => existsb (fun i => qeqb (nth i (nth i A []) 0%Qc) (fst p)) (seq 0 (length A))).
    rewrite (mapM_some_err _ _ _ (fun k => correction A (nth k vals 0%Qc) (blend (length A) K (nth k ys [])))
               (fun k => bad (nth k vals 0%Qc, blend (length A) K (nth k ys []))) ZeroDivisionError).
    + rewrite <- (existsb_map _ _ (fun k => (nth k vals 0%Qc, blend (length A) K (nth k ys []))) bad), <- Pr.
      destruct (existsb bad pairs); [reflexivity|]. cbn [bind].
      replace (map (fun k => correction A (nth k vals 0%Qc) (blend (length A) K (nth k ys []))) (seq 0 (length idx))) with (map (fun p => correction A (fst p) (snd p)) pairs).
      * destruct (dm - nb <? Z.of_nat (length A)); reflexivity.
      * rewrite Pr, map_map. reflexivity.
    + intros k Hk. apply in_seq in Hk. rewrite (py_get_nth _ vals k 0%Qc) by lia. cbn [bind].
      rewrite (proj2 (py_get_of_nat _ (map (fun p => residual A (fst p) (snd p)) pairs) k (residual A (nth k vals 0%Qc) (blend (length A) K (nth k ys []))))).
      * cbn [bind]. apply correction_ok.
      * rewrite Pr, map_map, nth_error_map, (nth_error_nth' _ 0%nat) by (rewrite seq_length; lia). rewrite seq_nth by lia. reflexivity.
Qed.
End ITER.
