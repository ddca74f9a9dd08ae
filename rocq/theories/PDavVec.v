(** Algebra of the vectors of Dav.v. *)
From Coq Require Import ZArith List Bool Lia Permutation Sorted QArith Qcanon.
From Verif Require Import PyBase PyFacts Lattice Base Interact Spin Prob Dav Spec SpecOps SpecTJ SpecSpin SpinDefs ProbDefs DavDefs
  PSpin PRep POps PHam PWave PVec PSecSum PBound PQc PProb.
Import ListNotations.
Open Scope Z_scope.

Lemma vdot_comm : forall u v, vdot u v = vdot v u.
Proof.
  unfold vdot. induction u as [|x u IH]; intros [|y v]; try reflexivity. cbn [combine fold_right fst snd]. rewrite IH. ring.
Qed.
Lemma vdot_add_r : forall w u v, length u = length v -> vdot w (vadd u v) = (vdot w u + vdot w v)%Qc.
Proof.
  unfold vdot, vadd. induction w as [|a w IH]; intros [|x u] [|y v] L; try discriminate L; try (cbn; ring).
  cbn [combine map fold_right fst snd]. rewrite IH by (injection L; auto). ring.
Qed.
Lemma vdot_scale_r : forall w a u, vdot w (vscale a u) = (a * vdot w u)%Qc.
Proof.
  unfold vdot, vscale. induction w as [|b w IH]; intros a [|x u]; try (cbn; ring).
  cbn [combine map fold_right fst snd]. rewrite IH. ring.
Qed.
Lemma vdot_zero_r : forall w n, vdot w (zero_vect n) = 0%Qc.
Proof.
  unfold vdot, zero_vect. induction w as [|b w IH]; intros [|n]; try reflexivity. cbn [repeat combine fold_right fst snd]. rewrite IH. ring.
Qed.
Lemma vsub_length : forall u v, length u = length v -> length (vsub u v) = length u.
Proof. intros u v H. unfold vsub. apply vadd_length. rewrite vscale_length. assumption. Qed.
Lemma vdot_sub_r : forall w u v, length u = length v -> vdot w (vsub u v) = (vdot w u - vdot w v)%Qc.
Proof. intros w u v H. unfold vsub. rewrite vdot_add_r by (rewrite vscale_length; assumption). rewrite vdot_scale_r. ring. Qed.
Lemma vdot_sub_l : forall w u v, length u = length v -> vdot (vsub u v) w = (vdot u w - vdot v w)%Qc.
Proof. intros. rewrite !(vdot_comm _ w). now apply vdot_sub_r. Qed.
Lemma vdot_scale_l : forall w a u, vdot (vscale a u) w = (a * vdot u w)%Qc.
Proof. intros. rewrite !(vdot_comm _ w). apply vdot_scale_r. Qed.

Lemma zero_length : forall n, length (zero_vect n) = n.
Proof. intros. apply repeat_length. Qed.

Lemma vdot_self_zero : forall u, vdot u u = 0%Qc -> u = zero_vect (length u).
Proof.
  intros u H. assert (G : forall u, (0 <= vdot u u)%Qc).
  { clear. intros u. rewrite vdot_inner by reflexivity. apply inner_nonneg. }
  induction u as [|x u IH]; [reflexivity|]. unfold vdot in H. cbn [combine fold_right fst snd] in H. fold (vdot u u) in H.
  pose proof (G u) as A. pose proof (square_nonneg x) as B.
  assert (Hx : (x * x)%Qc = 0%Qc).
  { apply Qcle_antisym; [|assumption]. apply this_eq in H. clear - A B H. qc. }
  assert (Hu : vdot u u = 0%Qc) by (rewrite Hx in H; rewrite <- H; ring).
  cbn [length zero_vect repeat]. unfold zero_vect in *. rewrite <- (IH Hu). f_equal. destruct (Qcmult_integral _ _ Hx); assumption.
Qed.

(** ** the matrix *)
Lemma mat_vect_length : forall A x, length (mat_vect A x) = length A.
Proof. intros. apply map_length. Qed.
Lemma mat_vect_add : forall A u v, length u = length v -> mat_vect A (vadd u v) = vadd (mat_vect A u) (mat_vect A v).
Proof.
  intros A u v L. unfold mat_vect. induction A as [|row A IH]; [reflexivity|]. cbn [map]. rewrite IH, vdot_add_r by assumption. reflexivity.
Qed.
Lemma mat_vect_scale : forall A a u, mat_vect A (vscale a u) = vscale a (mat_vect A u).
Proof.
  intros A a u. unfold mat_vect. induction A as [|row A IH]; [reflexivity|]. cbn [map]. rewrite IH, vdot_scale_r. reflexivity.
Qed.
Lemma mat_vect_zero : forall A n, mat_vect A (zero_vect n) = zero_vect (length A).
Proof.
  intros A n. unfold mat_vect. induction A as [|row A IH]; [reflexivity|]. cbn [map length]. rewrite IH, vdot_zero_r. reflexivity.
Qed.

Lemma mix_length : forall dim V y, tall dim V -> length (mix dim V y) = dim.
Proof.
  intros dim V. unfold mix. induction V as [|v V IH]; intros [|a y] T; try apply zero_length. cbn [combine fold_right fst snd].
  inversion T as [|? ? H1 H2]; subst. rewrite vadd_length; rewrite vscale_length; [reflexivity|]. symmetry. now apply IH.
Qed.

Lemma mat_mix : forall A dim V y, tall dim V -> mat_vect A (mix dim V y) = mix (length A) (map (mat_vect A) V) y.
Proof.
  intros A dim V. unfold mix. induction V as [|v V IH]; intros [|a y] T; try apply mat_vect_zero. cbn [map combine fold_right fst snd].
  inversion T as [|? ? H1 H2]; subst. rewrite mat_vect_add, mat_vect_scale by (rewrite vscale_length; symmetry; apply (mix_length (length v) V y H2)).
  f_equal. now apply IH.
Qed.

Lemma vdot_mix : forall dim V y z, tall dim V -> vdot z (mix dim V y) = qsum (fun p => fst p * vdot z (snd p))%Qc (combine y V).
Proof.
  intros dim V. unfold mix. induction V as [|v V IH]; intros [|a y] z T; cbn [combine fold_right fst snd]; try (rewrite qsum_nil; apply vdot_zero_r).
  inversion T as [|? ? H1 H2]; subst. rewrite vdot_add_r by (rewrite vscale_length; symmetry; apply (mix_length (length v) V y H2)).
  rewrite vdot_scale_r, qsum_cons. cbn [fst snd]. f_equal. now apply IH.
Qed.

Lemma residual_vsub : forall A l x, square A -> length x = length A -> vsub (vscale l x) (mat_vect A x) = residual A l x.
Proof.
  intros A l x S L. apply vat_ext.
  - rewrite vsub_length; rewrite vscale_length; [|now rewrite mat_vect_length]. unfold residual. now rewrite map_length, seq_length.
  - intros k Hk. unfold zlen in Hk. rewrite vsub_length in Hk; rewrite vscale_length in *; [|now rewrite mat_vect_length].
    unfold vsub. rewrite vat_add by (rewrite !vscale_length, mat_vect_length; assumption). rewrite !vat_scale. unfold vat, residual.
    assert (Hk' : (Z.to_nat k < length A)%nat) by lia.
    set (f := fun i => (l * nth i x 0 - inner (nth i A []) x)%Qc).
    rewrite (nth_error_nth (map f (seq 0 (length A))) _ (x := f (Z.to_nat k)))
      by (rewrite nth_error_map, (nth_error_nth' _ 0%nat) by (rewrite seq_length; assumption); rewrite seq_nth by assumption; reflexivity).
    unfold f. rewrite (nth_error_nth (mat_vect A x) _ (x := inner (nth (Z.to_nat k) A []) x)).
    + ring.
    + unfold mat_vect. rewrite nth_error_map, (nth_error_nth' _ []) by assumption. cbn [option_map]. f_equal. apply vdot_inner.
      unfold square in S. rewrite Forall_forall in S. rewrite L. apply S. now apply nth_In.
Qed.

Lemma vsub_self : forall x, vsub x x = zero_vect (length x).
Proof.
  unfold vsub, vadd, vscale, zero_vect. induction x as [|a x IH]; [reflexivity|]. cbn [map combine length repeat fst snd]. rewrite IH. f_equal. ring.
Qed.

Lemma vsub_opp : forall u v, length u = length v -> vsub v u = vscale (- (1))%Qc (vsub u v).
Proof.
  unfold vsub, vadd, vscale. induction u as [|a u IH]; intros [|b v] L; try discriminate L; [reflexivity|]. cbn [map combine fst snd].
  rewrite IH by (injection L; auto). f_equal. ring.
Qed.
