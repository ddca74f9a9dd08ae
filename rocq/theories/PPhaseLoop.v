(** The while loop of plot_spectrum_dependance, step by step. *)
From Coq Require Import ZArith String List Bool Lia Permutation QArith Qcanon.
From Verif Require Import PyBase PyFacts Lattice Base Interact Ham Spin Prob Dav PProb PQc Files Post Phase PhaseDefs PPhase.
Import ListNotations.
Open Scope Z_scope.

Lemma label_eqb_eq : forall a b, label_eqb a b = true <-> a = b.
Proof.
  intros [x|] [y|]; cbn; try (split; [discriminate | congruence]); [|split; reflexivity].
  rewrite String.eqb_eq. split; congruence.
Qed.
Lemma same_labels_alike : forall p q, same_labels p q = true <-> alike p q.
Proof.
  intros p q. unfold same_labels, alike. rewrite andb_true_iff, label_eqb_eq, Z.eqb_eq. reflexivity.
Qed.
Lemma same_labels_not : forall p q, same_labels p q = false <-> ~ alike p q.
Proof. intros p q. rewrite <- same_labels_alike. destruct (same_labels p q); split; congruence. Qed.

Lemma crossing_crosses : forall n a b m x, length a = n -> length b = n -> 0 <= m -> m + 1 < Z.of_nat n -> crossing a b m = Ok x ->
  (x = true <-> crosses (Z.to_nat m) a b).
Proof.
  intros n a b m x La Lb M0 M1 E. destruct (crossing_ok n a b m La Lb M0 M1) as (a0 & a1 & b0 & b1 & N1 & N2 & N3 & N4 & C).
  rewrite C in E. injection E as <-. replace (Z.to_nat (m + 1)) with (S (Z.to_nat m)) in * by lia. rewrite andb_true_iff, !same_labels_alike. split.
  - intros [H1 H2]. exists a0, a1, b0, b1. tauto.
  - intros (p0 & p1 & r0 & r1 & H1 & H2 & H3 & H4 & H5 & H6). split; congruence.
Qed.

Lemma qabs_size : forall x, qabs x = size x.
Proof.
  intros x. unfold qabs, size. destruct (Qclt_le_dec x 0); destruct (qleb 0 x) eqn:Q; try reflexivity.
  all: exfalso.
  - apply qleb_le in Q. exact (Qclt_not_le _ _ q Q).
  - assert (C : qleb 0 x = true) by (apply qleb_le; exact q). congruence.
Qed.

Lemma qltb_lt : forall x y, qltb x y = true <-> (x < y)%Qc.
Proof.
  intros x y. unfold qltb. rewrite negb_true_iff. split.
  - intros H. destruct (Qclt_le_dec x y) as [L|L]; [exact L|]. apply qleb_le in L. congruence.
  - intros H. destruct (qleb y x) eqn:Q; [|reflexivity]. apply qleb_le in Q. exfalso. exact (Qclt_not_le _ _ H Q).
Qed.

Lemma exchanged_apart : forall n a b m x, length a = n -> length b = n -> 0 <= m -> m + 1 < Z.of_nat n -> exchanged a b m = Ok x ->
  (x = true <-> smoother_apart (Z.to_nat m) a b).
Proof.
  intros n a b m x La Lb M0 M1 E. destruct (Z_lt_ge_dec m 2) as [Small|Big].
  - split; [|intros (H & _); lia]. intros ->. destruct (exchanged_ok n a b m La Lb M0 M1) as (x & E' & F). rewrite E in E'. injection E' as <-. specialize (F eq_refl). lia.
  - unfold exchanged in E.
    destruct (py_get_lt _ a (m - 1)) as (p1 & E1 & N1); [unfold zlen; lia|]. destruct (py_get_lt _ a m) as (p2 & E2 & N2); [unfold zlen; lia|].
    destruct (py_get_lt _ a (m + 1)) as (p3 & E3 & N3); [unfold zlen; lia|]. destruct (py_get_lt _ b (m - 1)) as (p4 & E4 & N4); [unfold zlen; lia|].
    destruct (py_get_lt _ b m) as (p5 & E5 & N5); [unfold zlen; lia|]. destruct (py_get_lt _ b (m + 1)) as (p6 & E6 & N6); [unfold zlen; lia|].
    rewrite E1 in E; cbn [bind] in E. rewrite E2 in E; cbn [bind] in E. rewrite E3 in E; cbn [bind] in E. rewrite E4 in E; cbn [bind] in E.
    rewrite E5 in E; cbn [bind] in E. rewrite E6 in E; cbn [bind] in E. injection E as <-.
    replace (1 <? m) with true by (symmetry; apply Z.ltb_lt; lia). cbn [andb]. rewrite andb_true_iff, !qltb_lt, !qabs_size.
    replace (Z.to_nat (m - 1)) with (Z.to_nat m - 1)%nat in * by lia. replace (Z.to_nat (m + 1)) with (S (Z.to_nat m)) in * by lia. split.
    + intros [H1 H2]. split; [lia|]. exists p1, p2, p3, p4, p5, p6. do 6 (split; [assumption|]). exact (conj H1 H2).
    + intros (_ & x & y & z & x' & y' & z' & H1 & H2 & H3 & H4 & H5 & H6 & L1 & L2).
      assert (x = p1) by congruence. assert (y = p2) by congruence. assert (z = p3) by congruence. assert (x' = p4) by congruence. assert (y' = p5) by congruence. assert (z' = p6) by congruence.
      subst. split; assumption.
Qed.

Lemma find_crossing_first : forall n a m rest k, length a = n -> Forall (fun l => length l = n) rest -> 0 <= m -> m + 1 < Z.of_nat n ->
  (exists y b w, rest = y ++ b :: w /\ find_crossing a rest m k = Ok (Some (k + zlen y)) /\ crosses (Z.to_nat m) a b /\ Forall (fun b => ~ crosses (Z.to_nat m) a b) y) \/
  (find_crossing a rest m k = Ok None /\ Forall (fun b => ~ crosses (Z.to_nat m) a b) rest).
Proof.
  intros n a m rest. induction rest as [|b rest IH]; intros k La F M0 M1.
  - right. split; [reflexivity | constructor].
  - apply Forall_inv in F as Fb. apply Forall_inv_tail in F. cbn [find_crossing].
    destruct (crossing_ok n a b m La Fb M0 M1) as (a0 & a1 & b0 & b1 & _ & _ & _ & _ & C). pose proof (crossing_crosses n a b m _ La Fb M0 M1 C) as X. rewrite C. cbn [bind].
    destruct (same_labels a0 b1 && same_labels b0 a1) eqn:E.
    + left. exists [], b, rest. split; [reflexivity|]. split; [unfold zlen; simpl; f_equal; f_equal; lia|]. split; [apply X; reflexivity | constructor].
    + assert (Nc : ~ crosses (Z.to_nat m) a b) by (intros Q; apply X in Q; discriminate).
      destruct (IH (k + 1) La F M0 M1) as [(y & b' & w & H1 & H2 & H3 & H4) | [H1 H2]].
      * left. exists (b :: y), b', w. split; [rewrite H1; reflexivity|]. split; [rewrite H2; f_equal; f_equal; rewrite zlen_cons; lia|].
        split; [exact H3 | constructor; assumption].
      * right. split; [exact H1 | constructor; assumption].
Qed.

Lemma reorganise_untangled : forall fuel n curves i curves', (1 <= n)%nat -> rectangle n curves -> 0 <= i ->
  reorganise fuel curves i = Ok curves' -> untangled (Z.to_nat i) curves curves'.
Proof.
  induction fuel as [|f IH]; intros n curves i curves' Hn F Hi R.
  { unfold reorganise in R. destruct (Z.leb_spec (zlen curves - 1) i); [|discriminate]. injection R as <-. apply untangled_end. unfold zlen in *. lia. }
  cbn [reorganise] in R. destruct (Z.leb_spec (zlen curves - 1) i).
  { injection R as <-. apply untangled_end. unfold zlen in *. lia. }
  destruct (py_get_lt _ curves i) as (a & G & Na); [lia|]. rewrite G in R. cbn [bind] in R.
  assert (La : length a = n) by (apply nth_error_In in Na; unfold rectangle in F; rewrite Forall_forall in F; apply F; exact Na).
  destruct (py_get_lt _ a 0) as (p & Gp & Np); [unfold zlen; lia|]. rewrite Gp in R. cbn [bind] in R.
  assert (Ea : a = p :: py_slice_from a 1).
  { rewrite py_slice_from_skipn by (unfold zlen; lia). destruct a as [|q a]; [discriminate|]. simpl in Np. injection Np as ->. reflexivity. }
  pose proof (run_length_bounds (py_slice_from a 1) p) as B. set (m := run_length p (py_slice_from a 1)) in *.
  assert (Ls : zlen (py_slice_from a 1) = Z.of_nat n - 1).
  { rewrite py_slice_from_skipn by (unfold zlen; lia). unfold zlen. rewrite skipn_length. lia. }
  destruct (nth_error_split curves (Z.to_nat i) Na) as (x & rest & Ec & Lx).
  assert (Lxi : zlen x = i) by (unfold zlen; lia).
  assert (Hr : rest <> []) by (intros ->; rewrite Ec, zlen_app in *; unfold zlen in *; simpl in *; lia).
  assert (Next : reorganise f curves (i + 1) = Ok curves' -> untangled (S (length x)) (x ++ a :: rest) curves').
  { intros Q. rewrite <- Ec. replace (S (length x)) with (Z.to_nat (i + 1)) by lia. apply (IH n); trivial; lia. }
  assert (St : steady_to (Z.to_nat m) a).
  { intros j u v Hj U V. apply same_labels_alike. rewrite Ea in U, V. apply (run_length_agree (py_slice_from a 1) p j); [fold m; lia | exact U | exact V]. }
  rewrite Ec. replace (Z.to_nat i) with (length x) by lia.
  destruct (Z.eqb_spec m (zlen a - 1)) as [Em|Em].
  { apply untangled_steady; [exact Hr | | apply Next; exact R]. intros j u v Hj U V. apply (St j); trivial.
    assert (nth_error a (S j) <> None) as Q by congruence. apply nth_error_Some in Q. unfold zlen in Em. lia. }
  assert (Hm : m + 1 < Z.of_nat n) by (unfold zlen in *; lia).
  assert (Ch : changes_after (Z.to_nat m) a).
  { split; [exact St|]. destruct (nth_error a (Z.to_nat m)) as [u|] eqn:U; [|apply nth_error_None in U; lia].
    destruct (nth_error a (S (Z.to_nat m))) as [v|] eqn:V; [|apply nth_error_None in V; lia]. exists u, v. split; [reflexivity|]. split; [reflexivity|].
    apply same_labels_not. apply (run_length_stop (py_slice_from a 1) p); fold m; [lia | rewrite <- Ea; exact U |].
    rewrite <- Ea. replace (Z.to_nat (m + 1)) with (S (Z.to_nat m)) by lia. exact V. }
  assert (Er : py_slice_from curves (i + 1) = rest).
  { rewrite py_slice_from_skipn by lia. rewrite Ec. replace (Z.to_nat (i + 1)) with (length (x ++ [a])) by (rewrite app_length; simpl; lia).
    replace (x ++ a :: rest) with ((x ++ [a]) ++ rest) by (rewrite <- app_assoc; reflexivity). rewrite skipn_app, skipn_all, Nat.sub_diag. reflexivity. }
  assert (Fr : Forall (fun l => length l = n) rest).
  { unfold rectangle in F. rewrite Ec in F. apply Forall_app in F. destruct F as [_ F]. apply Forall_inv_tail in F. exact F. }
  rewrite Er in R. destruct (find_crossing_first n a m rest (i + 1) La Fr ltac:(lia) Hm) as [(y & b & w & E1 & E2 & E3 & E4) | [E1 E2]].
  2:{ rewrite E1 in R. cbn [bind] in R. apply (untangled_alone (Z.to_nat m)); trivial. apply Next. exact R. }
  rewrite E2 in R. cbn [bind] in R.
  assert (Lb : length b = n). { rewrite E1 in Fr. apply Forall_app in Fr. destruct Fr as [_ Fr]. apply Forall_inv in Fr. exact Fr. }
  assert (Gb : py_get curves (i + 1 + zlen y) = Ok b).
  { rewrite Ec, E1. replace (i + 1 + zlen y) with (zlen (x ++ a :: y)) by (rewrite zlen_app, zlen_cons; lia).
    replace (x ++ a :: y ++ b :: w) with ((x ++ a :: y) ++ b :: w) by (rewrite <- !app_assoc; reflexivity). apply get_at. }
  rewrite Gb in R. cbn [bind] in R. destruct (exchanged_ok n a b m La Lb ltac:(lia) Hm) as (t & Et & Ht). rewrite Et in R. cbn [bind] in R.
  pose proof (exchanged_apart n a b m t La Lb ltac:(lia) Hm Et) as Ap.
  destruct t.
  - specialize (Ht eq_refl). rewrite E1.
    assert (X : exchange_tails curves i (i + 1 + zlen y) m = Ok (x ++ splice a b (Z.to_nat (m + 1)) :: y ++ splice b a (Z.to_nat (m + 1)) :: w)).
    { rewrite Ec, E1, <- Lxi. apply (exchange_tails_at n m x a y b w La Lb); lia. }
    rewrite X in R. cbn [bind] in R. apply (untangled_exchanged (Z.to_nat m)); trivial; [apply Ap; reflexivity|].
    replace (length x) with (Z.to_nat i) by lia. replace (S (Z.to_nat m)) with (Z.to_nat (m + 1)) by lia. apply (IH n); trivial.
    unfold rectangle in *. rewrite Ec, E1 in F. apply Forall_app in F. destruct F as [F1 F]. apply Forall_inv_tail in F.
    apply Forall_app in F. destruct F as [F2 F]. apply Forall_inv_tail in F.
    assert (Sp : forall u v : list point, length u = n -> length v = n -> length (splice u v (Z.to_nat (m + 1))) = n) by (intros u v Lu Lv; rewrite splice_length by lia; exact Lu).
    apply Forall_app. split; [exact F1|]. constructor; [apply Sp; assumption|]. apply Forall_app. split; [exact F2|]. constructor; [apply Sp; assumption | exact F].
  - rewrite E1. apply (untangled_kept (Z.to_nat m)); trivial; [intros Q; apply Ap in Q; discriminate|]. rewrite <- E1. apply Next. exact R.
Qed.
