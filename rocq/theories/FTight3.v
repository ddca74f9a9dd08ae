(** Final lemmas of C64 and C67 that were added after the random mutation runs. *)
From Coq Require Import ZArith String List Bool Lia QArith Qcanon Qround.
From Verif Require Import PyBase PyFacts Lattice Base Interact Spin Prob Dav Files Display Emb Post Phase Spec SpecTJ SpinDefs ProbDefs DavDefs PostDefs
  PSpin PVec PQc PProb PDavVec PFiles FilesDefs FProb FDav FPost.
Import ListNotations.
Open Scope Z_scope.

(** ** C64 *)
Lemma mapM_same_err : forall A B (f : A -> res B) e l, (forall x, In x l -> (exists y, f x = Ok y) \/ f x = Err e) -> (exists x, In x l /\ f x = Err e) -> mapM f l = Err e.
Proof.
  intros A B f e l. induction l as [|x l IH]; intros H (z & I & F); [destruct I|]. cbn [mapM]. destruct (H x (or_introl eq_refl)) as [(y & Y)|Y]; rewrite Y; cbn [bind]; [|reflexivity].
  rewrite IH; [reflexivity | intros a Ha; apply H; now right |]. destruct I as [->|I]; [congruence | eauto].
Qed.
Lemma C64_empty_pf : forall P dc n k, 4 <= n -> Z.of_nat k < Z.sqrt n ^ 2 -> nth_error (e_vects (dc_eig dc)) k = Some [] ->
  plot_determinants_amplitude_repartition P dc n = Err ValueError.
Proof.
  intros P dc n k Hn Hk He. unfold plot_determinants_amplitude_repartition. set (vs := e_vects (dc_eig dc)) in *. rewrite rows_ok by lia. cbn [bind].
  set (r := Z.sqrt n) in *. pose proof (sqrt_rows n Hn) as Hr. fold r in Hr.
  match goal with |- context [mapM ?f ?l] => rewrite (mapM_same_err _ _ f ValueError l) end; [reflexivity | |].
  - intros x Hx. apply in_zrange in Hx. assert (L : (Z.to_nat x < length vs)%nat) by (unfold zlen in Hx; lia).
    rewrite (py_get_nth _ vs x (nth (Z.to_nat x) vs [])) by (try lia; now apply nth_error_nth'). cbn [bind].
    destruct (nth (Z.to_nat x) vs []) as [|q v]; [now right|]. left. destruct (amax_peak (q :: v) ltac:(discriminate)) as (m & -> & _). cbn [bind]. rewrite panel_ok by lia. cbn [bind]. eauto.
  - assert (L : (k < length vs)%nat) by (apply nth_error_Some; congruence). exists (Z.of_nat k). split; [apply in_zrange; unfold zlen; lia|].
    rewrite (py_get_nth _ vs (Z.of_nat k) []) by (try lia; now rewrite Nat2Z.id). reflexivity.
Qed.

(** ** C67 *)
Lemma round_even : forall x, (qabs (x - qz (round0 x)) = half)%Qc -> Z.even (round0 x) = true.
Proof.
  intros x. unfold round0. set (f := Qfloor x).
  assert (F1 : (inject_Z f <= this x)%Q) by apply Qfloor_le.
  assert (F2 : (this x < inject_Z (f + 1))%Q) by apply Qlt_floor. rewrite inject_Z_plus in F2. change (inject_Z 1) with 1%Q in F2.
  assert (Q1 : forall y : Qc, qabs y = half -> y = half \/ y = (- half)%Qc).
  { intros y. unfold qabs. destruct (qleb 0 y); intros <-; [now left | right; ring]. }
  destruct (Qclt_le_dec (x - qz f) (qfrac 1 2)) as [L|L].
  - intros H. exfalso. change (qfrac 1 2) with half in L. destruct (Q1 _ H) as [G|G]; rewrite G in L; [now apply Qclt_not_eq in L|].
    apply this_eq in G. rewrite this_sub, this_opp, this_qz in G. change (this half) with (1 # 2)%Q in G. clear L H Q1. clearbody f. revert F1 G. generalize (this x) (inject_Z f). intros a b F1 G.
    assert (0 <= a - b)%Q by (apply (Qplus_le_l _ _ b); ring_simplify; exact F1). rewrite G in H. apply H. reflexivity.
  - destruct (Qc_eq_dec (x - qz f) (qfrac 1 2)) as [G|G].
    + intros _. destruct (Z.even f) eqn:Ev; [exact Ev|]. rewrite Z.add_1_r, Z.even_succ, <- Z.negb_even, Ev. reflexivity.
    + intros H. exfalso. rewrite qz_add in H. change (qz 1) with 1%Qc in H. change (qfrac 1 2) with half in *. destruct (Q1 _ H) as [A|A].
      * assert (B : (x - qz f)%Qc = (half + 1)%Qc) by (rewrite <- A; ring). apply this_eq in B. rewrite this_sub, this_add, this_qz in B. change (this half) with (1 # 2)%Q in B. change (this 1) with 1%Q in B.
        revert F2 B. generalize (this x) (inject_Z f). intros a b F2 B. assert (a - b < 1)%Q by (apply (Qplus_lt_l _ _ b); ring_simplify; rewrite Qplus_comm in F2; rewrite Qplus_comm; exact F2). rewrite B in H0. discriminate H0.
      * apply G. replace (x - qz f)%Qc with (x - (qz f + 1) + 1)%Qc by ring. rewrite A. apply Qc_is_canon. reflexivity.
Qed.
(** [round(x, prec)] is the nearest multiple of [10 ^ - prec], the even one half-way *)
Lemma C67_decimals_pf : forall x prec unit, unit = (if prec <? 0 then qz (10 ^ (- prec)) else 1 / qz (10 ^ prec))%Qc ->
  exists k, round_to x prec = (qz k * unit)%Qc /\ (qabs (x / unit - qz k) <= half)%Qc /\ ((qabs (x / unit - qz k))%Qc = half -> Z.even k = true).
Proof.
  intros x prec unit ->. unfold round_to.
  assert (G : forall y, (qabs (y - qz (round0 y)) <= half)%Qc).
  { intros y. destruct (round_half y) as [A B]. unfold qabs. destruct (qleb 0 (y - qz (round0 y))).
    - revert A B. generalize (qz (round0 y)). intros z A B. qc.
    - revert A B. generalize (qz (round0 y)). intros z A B. qc. }
  destruct (Z.ltb_spec prec 0) as [N|N].
  - rewrite (Z.abs_neq prec) by lia. exists (round0 (x / qz (10 ^ (- prec)))). split; [reflexivity|]. split; [apply G | apply round_even].
  - rewrite (Z.abs_eq prec) by lia. assert (P : 0 < 10 ^ prec) by (apply Z.pow_pos_nonneg; lia).
    assert (Np : qz (10 ^ prec) <> 0%Qc) by (intros E; pose proof (qz_lt' 0 _ P) as Q; change (qz 0) with 0%Qc in Q; rewrite E in Q; now apply Qclt_not_eq in Q).
    exists (round0 (x * qz (10 ^ prec))). replace (x / (1 / qz (10 ^ prec)))%Qc with (x * qz (10 ^ prec))%Qc by (field; repeat split; try exact Np; discriminate).
    split; [field; exact Np|]. split; [apply G | apply round_even].
Qed.
