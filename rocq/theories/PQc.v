(** Inequalities on the canonical fractions, through the fractions. *)
From Coq Require Import ZArith Lia List Bool QArith Qcanon Qround Lqa.
From Verif Require Import PyBase Interact Spin SpecTJ.
Open Scope Z_scope.

Lemma this_add : forall x y : Qc, (this (x + y)%Qc == this x + this y)%Q.
Proof. intros. apply Qred_correct. Qed.
Lemma this_opp : forall x : Qc, (this (- x)%Qc == - this x)%Q.
Proof. intros. apply Qred_correct. Qed.
Lemma this_sub : forall x y : Qc, (this (x - y)%Qc == this x - this y)%Q.
Proof. intros. unfold Qcminus. rewrite this_add, this_opp. reflexivity. Qed.
Lemma this_mul : forall x y : Qc, (this (x * y)%Qc == this x * this y)%Q.
Proof. intros. apply Qred_correct. Qed.
Lemma this_qz : forall k, (this (qz k) == inject_Z k)%Q.
Proof. intros. apply Qred_correct. Qed.
Lemma this_half : (this half == 1 # 2)%Q.
Proof. reflexivity. Qed.
Lemma this_frac : forall a b, (this (qfrac a b) == a # b)%Q.
Proof. intros. apply Qred_correct. Qed.
Lemma this_0 : (this 0%Qc == 0)%Q. Proof. reflexivity. Qed.
Lemma this_1 : (this 1%Qc == 1)%Q. Proof. reflexivity. Qed.
Lemma Qc_eq_this : forall x y : Qc, (this x == this y)%Q -> x = y.
Proof. exact Qc_is_canon. Qed.
Lemma this_eq : forall x y : Qc, x = y -> (this x == this y)%Q.
Proof. intros x y ->. reflexivity. Qed.
Lemma Qcle_this : forall x y : Qc, (x <= y)%Qc <-> (this x <= this y)%Q.
Proof. reflexivity. Qed.
Lemma Qclt_this : forall x y : Qc, (x < y)%Qc <-> (this x < this y)%Q.
Proof. reflexivity. Qed.

(** linear goals *)
Ltac qc := rewrite ?Qcle_this, ?Qclt_this in *;
  repeat progress (rewrite ?this_add, ?this_sub, ?this_opp, ?this_mul, ?this_qz, ?this_half, ?this_frac, ?this_0, ?this_1 in *); try lra.

Lemma round_near : forall x k, (qz k - half < x)%Qc -> (x < qz k + half)%Qc -> round0 x = k.
Proof.
  intros x k A B. unfold round0. set (f := Qfloor x).
  assert (F1 : (inject_Z f <= this x)%Q) by apply Qfloor_le.
  assert (F2 : (this x < inject_Z (f + 1))%Q) by apply Qlt_floor.
  rewrite inject_Z_plus in F2. change (inject_Z 1) with 1%Q in F2. qc.
  assert (K1 : (inject_Z f < inject_Z (k + 1))%Q) by (rewrite inject_Z_plus; change (inject_Z 1) with 1%Q; lra).
  assert (K2 : (inject_Z (k - 2) < inject_Z f)%Q) by (replace (k - 2) with (k + -2) by lia; rewrite inject_Z_plus; change (inject_Z (-2)) with (-2 # 1)%Q; lra).
  rewrite <- Zlt_Qlt in K1, K2. assert (f = k \/ f = k - 1) as [Q|Q] by lia.
  - destruct (Qclt_le_dec (x - qz f) (qfrac 1 2)) as [L|L]; [assumption|]. exfalso. qc. rewrite Q in L. lra.
  - assert (Q' : (inject_Z f == inject_Z k - 1)%Q) by (rewrite Q; replace (k - 1) with (k + -1) by lia; rewrite inject_Z_plus; reflexivity).
    destruct (Qclt_le_dec (x - qz f) (qfrac 1 2)) as [L|L]; [exfalso; qc|].
    destruct (Qc_eq_dec (x - qz f) (qfrac 1 2)) as [L'|_]; [exfalso; apply this_eq in L'; qc|]. lia.
Qed.

Lemma round_half : forall x, (qz (round0 x) - half <= x)%Qc /\ (x <= qz (round0 x) + half)%Qc.
Proof.
  intros x. unfold round0. set (f := Qfloor x).
  assert (F1 : (inject_Z f <= this x)%Q) by apply Qfloor_le.
  assert (F2 : (this x < inject_Z (f + 1))%Q) by apply Qlt_floor.
  assert (F3 : (inject_Z (f + 1) == inject_Z f + 1)%Q) by (rewrite inject_Z_plus; reflexivity).
  destruct (Qclt_le_dec (x - qz f) (qfrac 1 2)) as [L|L]; [split; qc|].
  destruct (Qc_eq_dec (x - qz f) (qfrac 1 2)) as [L'|_]; [destruct (Z.even f); apply this_eq in L'; split; qc|]. split; qc.
Qed.

(** comparing computed values *)
Definition sameq (r : res Qc) (x : Qc) : bool := match r with Ok y => Qeq_bool y x | Err _ => false end.
Lemma sameq_ok : forall r x, sameq r x = true -> r = Ok x.
Proof. intros [y|e] x H; [|discriminate]. f_equal. apply Qc_is_canon. now apply Qeq_bool_eq. Qed.
Fixpoint sameql (u v : list Qc) : bool :=
  match u, v with
  | nil, nil => true
  | x :: u, y :: v => Qeq_bool x y && sameql u v
  | _, _ => false
  end%list%bool.
Lemma sameql_eq : forall u v, sameql u v = true -> u = v.
Proof.
  induction u as [|x u IH]; intros [|y v] H; try discriminate; [reflexivity|]. cbn in H. apply andb_prop in H. destruct H as [A B].
  f_equal; [apply Qc_is_canon; now apply Qeq_bool_eq | now apply IH].
Qed.
Lemma sameqv_ok : forall r v, match r with Ok u => sameql u v | Err _ => false end = true -> r = Ok v.
Proof. intros [u|e] v H; [|discriminate]. f_equal. now apply sameql_eq. Qed.
