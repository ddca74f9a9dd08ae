(** The Davidson iterations. *)
From Coq Require Import ZArith List Bool Lia Permutation Sorted QArith Qcanon.
From Verif Require Import PyBase PyFacts Lattice Base Interact Spin Prob Dav Spec SpecOps SpecTJ SpecSpin SpinDefs ProbDefs DavDefs
  PSpin PRep POps PHam PWave PVec PSecSum PBound PQc PProb PDavVec PLowest.
Import ListNotations.
Open Scope Z_scope.

Lemma mapM_length : forall A B (f : A -> res B) l m, mapM f l = Ok m -> length m = length l.
Proof.
  induction l as [|x l IH]; intros m H; cbn [mapM] in H; [now injection H as <-|].
  apply bind_ok_inv in H. destruct H as (y & _ & H). apply bind_ok_inv in H. destruct H as (ys & E & H). injection H as <-. cbn [length]. f_equal. now apply IH.
Qed.
Lemma mapM_nth : forall A B (f : A -> res B) l m k x, mapM f l = Ok m -> nth_error l k = Some x -> exists y, f x = Ok y /\ nth_error m k = Some y.
Proof.
  induction l as [|x l IH]; intros m k a H Hk; [destruct k; discriminate|]. cbn [mapM] in H.
  apply bind_ok_inv in H. destruct H as (y & Ey & H). apply bind_ok_inv in H. destruct H as (ys & E & H). injection H as <-.
  destruct k as [|k]; cbn [nth_error] in *; [injection Hk as <-; eauto | now apply IH].
Qed.
Lemma mapM_Forall : forall A B (f : A -> res B) (P : B -> Prop) l m, mapM f l = Ok m -> (forall x y, In x l -> f x = Ok y -> P y) -> Forall P m.
Proof.
  induction l as [|x l IH]; intros m H G; cbn [mapM] in H; [injection H as <-; constructor|].
  apply bind_ok_inv in H. destruct H as (y & Ey & H). apply bind_ok_inv in H. destruct H as (ys & E & H). injection H as <-.
  constructor; [apply (G x); [now left | assumption]|]. apply IH; [assumption|]. intros z w Hz. apply G. now right.
Qed.

Lemma ok_eq : forall A (a b : A), Ok a = Ok b -> a = b.
Proof. intros A a b H. now injection H. Qed.
Lemma zrange_nth' : forall n k, (k < Z.to_nat n)%nat -> nth_error (zrange 0 n) k = Some (Z.of_nat k).
Proof.
  intros n k H. unfold zrange. rewrite nth_error_map, (nth_error_nth' _ 0%nat) by (rewrite seq_length; lia).
  rewrite seq_nth by lia. reflexivity.
Qed.

Lemma py_get_of_nat : forall A (l : list A) k x, py_get l (Z.of_nat k) = Ok x <-> nth_error l k = Some x.
Proof.
  intros A l k x. unfold py_get, py_norm. destruct (Z.ltb_spec (Z.of_nat k) 0); [lia|]. destruct (Z.ltb_spec (Z.of_nat k) 0); [lia|].
  rewrite Nat2Z.id. destruct (nth_error l k); split; intros H'; congruence.
Qed.

(** residues *)
Lemma residues_ok : forall A K vals ys nb rs, square A -> tall (length A) K -> 
  residues_of A (map (mat_vect A) K) vals ys (map (mix (length A) K) ys) nb = Ok rs ->
  length rs = Z.to_nat nb /\
  forall col, (col < Z.to_nat nb)%nat -> exists l x, nth_error vals col = Some l /\ nth_error (map (mix (length A) K) ys) col = Some x /\
    nth_error rs col = Some (residual A l x) /\ length x = length A.
Proof.
  intros A K vals ys nb rs SA TK H. unfold residues_of in H. pose proof (mapM_length _ _ _ _ _ H) as L. rewrite zrange_length in L.
  split; [rewrite L; f_equal; lia|]. intros col Hc. destruct (mapM_nth _ _ _ _ _ col (Z.of_nat col) H (zrange_nth' nb col Hc)) as (r & E & Nr).
  apply bind_ok_inv in E. destruct E as (l & E1 & E). apply bind_ok_inv in E. destruct E as (x & E2 & E). apply bind_ok_inv in E.
  destruct E as (y & E3 & E). apply ok_eq in E. apply py_get_of_nat in E1, E2, E3.
  exists l, x. split; [assumption|]. split; [assumption|].
  rewrite nth_error_map, E3 in E2. cbn [option_map] in E2. injection E2 as <-.
  pose proof (mix_length (length A) K y TK) as Lx. split; [|assumption].
  rewrite Nr, <- E. f_equal. rewrite <- (mat_mix A (length A) K y TK). apply residual_vsub; assumption.
Qed.

Lemma tall_map_mix : forall dim K ys, tall dim K -> tall dim (map (mix dim K) ys).
Proof. intros dim K ys T. apply Forall_forall. intros x Hx. apply in_map_iff in Hx. destruct Hx as (y & <- & _). now apply mix_length. Qed.

Lemma residual_length : forall A l x, length (residual A l x) = length A.
Proof. intros. unfold residual. now rewrite map_length, seq_length. Qed.

Lemma mat_diagonal_length : forall A, length (mat_diagonal A) = length A.
Proof. intros. unfold mat_diagonal. rewrite map_length, combine_length, seq_length. lia. Qed.

(** one iteration *)
Lemma dav_step_inv : forall N A nb tol dm K o, square A -> tall (length A) K -> 0 <= nb -> dav_step N A nb tol dm K = Ok o ->
  exists vals ys, length vals = Z.to_nat nb /\ length ys = Z.to_nat nb /\
    (forall y, In y ys -> In y (snd (eigh N (gram K (map (mat_vect A) K))))) /\
    let ritz := map (mix (length A) K) ys in
    (o = Converged vals ritz /\
     forall col, (col < Z.to_nat nb)%nat -> exists l x, nth_error vals col = Some l /\ nth_error ritz col = Some x /\ length x = length A /\
       (norm N (residual A l x) <= tol)%Qc) \/
    exists cs, length cs = Z.to_nat nb /\ tall (length A) cs /\
      o = Continue vals ritz (qr N (length A) ((if dm - nb <? Z.of_nat (length A) then ritz else K) ++ cs)).
Proof.
  intros N A nb tol dm K o SA TK Hnb H. unfold dav_step in H. cbv zeta in H.
  destruct (eigh N (gram K (map (mat_vect A) K))) as [vals0 ys0] eqn:Eg. cbn [snd].
  destruct (lowest_ok vals0 nb Hnb) as (idx & Hs & Li & F). rewrite (F ys0) in H.
  apply bind_ok_inv in H. destruct H as (low & E0 & H). apply bind_ok_inv in E0. destruct E0 as (ys & E1 & E0). apply ok_eq in E0. subst low.
  set (vals := map (fun i => nth i vals0 0%Qc) idx) in *. pose proof (mapM_length _ _ _ _ _ E1) as Ly.
  apply bind_ok_inv in H. destruct H as (rs & Er & H).
  destruct (residues_ok A K vals ys nb rs SA TK Er) as [Lr Rr].
  assert (Lv : length vals = Z.to_nat nb).
  { assert ((length vals <= Z.to_nat nb)%nat) by (unfold vals; rewrite map_length; lia).
    assert (~ (length vals < Z.to_nat nb)%nat); [|lia]. intros C. destruct (Rr _ C) as (l & x & Q & _).
    assert (length vals < length vals)%nat by (apply nth_error_Some; congruence). lia. }
  exists vals, ys. split; [assumption|]. split; [rewrite Ly; unfold vals in Lv; now rewrite map_length in Lv|].
  split.
  { intros y Hy. pose proof (mapM_Forall _ _ _ (fun y => In y ys0) _ _ E1) as G. rewrite Forall_forall in G. apply G; [|assumption].
    intros i z _ Hz. eapply py_get_In, Hz. }
  destruct (forallb _ rs) eqn:Cv.
  - left. apply ok_eq in H. split; [now symmetry|]. intros col Hc. destruct (Rr col Hc) as (l & x & Q1 & Q2 & Q3 & Q4).
    exists l, x. split; [assumption|]. split; [assumption|]. split; [assumption|]. rewrite forallb_forall in Cv. apply qleb_le, Cv. eapply nth_error_In, Q3.
  - right. apply bind_ok_inv in H. destruct H as (cs & Ec & H). exists cs.
    split; [rewrite (mapM_length _ _ _ _ _ Ec), zrange_length; f_equal; lia|]. split.
    + apply (mapM_Forall _ _ _ _ _ _ Ec). intros ind cv _ E. apply bind_ok_inv in E. destruct E as (l & _ & E). apply bind_ok_inv in E.
      destruct E as (r & E2 & E). rewrite (mapM_length _ _ _ _ _ E), combine_length, mat_diagonal_length.
      assert (length r = length A).
      { apply py_get_In in E2. apply In_nth_error in E2. destruct E2 as [j Ej].
        assert (j < length rs)%nat by (apply nth_error_Some; congruence). rewrite Lr in *. destruct (Rr j) as (l' & x' & _ & _ & Q & _); [assumption|].
        assert (r = residual A l' x') by congruence. subst r. apply residual_length. }
      match goal with [ H : length r = _ |- _ ] => rewrite H end. apply Nat.min_id.
    + apply ok_eq in H. rewrite <- H. destruct (dm - nb <? Z.of_nat (length A)); reflexivity.
Qed.

Lemma search_tall : forall N A nb tol dm K0 i K, qr_shape N -> square A -> tall (length A) K0 -> 0 <= nb ->
  search_space N A nb tol dm K0 i K -> tall (length A) K.
Proof.
  intros N A nb tol dm K0 i K HQ SA T0 Hnb H. induction H as [|i K vals vects K' H IH E]; [assumption|].
  destruct (dav_step_inv _ _ _ _ _ _ _ SA IH Hnb E) as (vs & ys & _ & _ & _ & [[Q _]|(cs & _ & Tc & Q)]); [discriminate|]. injection Q as _ _ ->.
  apply HQ. apply Forall_app. split; [|assumption]. destruct (_ <? _); [now apply tall_map_mix | assumption].
Qed.

(** the loop *)
Lemma dav_loop_inv : forall N A nb tol dm K0 stp i last K r, search_space N A nb tol dm K0 i K ->
  dav_loop N A nb tol dm stp last K = Ok r ->
  (exists vals vects j K', r = (true, vals, vects) /\ (i <= j < i + stp)%nat /\ search_space N A nb tol dm K0 j K' /\
     dav_step N A nb tol dm K' = Ok (Converged vals vects)) \/
  (exists vals vects K', r = (false, vals, vects) /\ search_space N A nb tol dm K0 (i + stp) K' /\ 
     (stp = 0%nat /\ last = Some (vals, vects) \/ exists K1, search_space N A nb tol dm K0 (i + stp - 1) K1 /\ dav_step N A nb tol dm K1 = Ok (Continue vals vects K'))).
Proof.
  intros N A nb tol dm K0 stp. induction stp as [|stp IH]; intros i last K r Hs H; cbn [dav_loop] in H.
  - destruct last as [[vals vects]|]; [|discriminate]. right. exists vals, vects, K. injection H as <-. rewrite Nat.add_0_r. auto.
  - apply bind_ok_inv in H. destruct H as (o & Eo & H). destruct o as [vals vects|vals vects K'].
    + left. exists vals, vects, i, K. injection H as <-. split; [reflexivity|]. split; [lia|]. split; assumption.
    + assert (Hs' : search_space N A nb tol dm K0 (S i) K') by (eapply search_next; eassumption).
      destruct (IH _ _ _ _ Hs' H) as [(vs & xs & j & K2 & -> & Hj & S2 & E2)|(vs & xs & K2 & -> & S2 & Q)].
      * left. exists vs, xs, j, K2. split; [reflexivity|]. split; [lia|]. split; assumption.
      * right. exists vs, xs, K2. split; [reflexivity|]. replace (i + S stp)%nat with (S i + stp)%nat by lia. split; [assumption|].
        destruct Q as [[-> Q]|Q].
        -- injection Q as -> ->. right. exists K. replace (S i + 0 - 1)%nat with i by lia. split; [assumption|].
           replace K2 with K'; [assumption|]. cbn [dav_loop] in H. clear - Hs' S2. revert S2. rewrite Nat.add_0_r.
           assert (U : forall i K1 K2, search_space N A nb tol dm K0 i K1 -> search_space N A nb tol dm K0 i K2 -> K1 = K2).
           { clear. intros i. induction i as [|i IHi]; intros K1 K2 H1 H2; inversion H1; inversion H2; subst; [reflexivity|].
             match goal with [ A : search_space _ _ _ _ _ _ i ?X, B : search_space _ _ _ _ _ _ i ?Y |- _ ] => assert (X = Y) by (now apply IHi); subst end.
             congruence. }
           intros S2. eapply U; eassumption.
        -- right. exact Q.
Qed.

(** ** orthonormal bases *)
Lemma orth_mix_unit : forall dim K y, tall dim K -> orthonormal K -> length y = length K -> vdot (mix dim K y) (mix dim K y) = vdot y y.
Proof.
  intros dim K y T O L. rewrite vdot_mix by assumption.
  assert (G : forall k, (k < length K)%nat -> vdot (mix dim K y) (nth k K []) = nth k y 0%Qc).
  { intros k Hk. rewrite vdot_comm, vdot_mix by assumption.
    set (g := fun i => only (Nat.eqb i k) (nth i y 0%Qc)).
    transitivity (qsum g (seq 0 (length K))).
    - transitivity (qsum (fun i => nth i y 0 * vdot (nth k K []) (nth i K []))%Qc (seq 0 (length K))).
      + assert (E : combine y K = map (fun i => (nth i y 0%Qc, nth i K [])) (seq 0 (length K))).
        { apply nth_ext with (d := (0%Qc, [])) (d' := (nth 0 y 0%Qc, nth 0 K [])).
          - rewrite combine_length, map_length, seq_length. lia.
          - intros i Hi. rewrite combine_length in Hi. rewrite combine_nth by assumption.
            rewrite (map_nth (fun i => (nth i y 0%Qc, nth i K []))), seq_nth by lia. reflexivity. }
        rewrite E, qsum_map. reflexivity.
      + apply qsum_ext. intros i Hi. apply in_seq in Hi. unfold g.
        unfold tall in T. rewrite Forall_forall in T.
        rewrite vdot_inner by (rewrite !T; [reflexivity | apply nth_In; lia | now apply nth_In]).
        rewrite (O k i) by lia. rewrite Nat.eqb_sym. destruct (Nat.eqb i k); cbn [only]; ring.
    - rewrite (qsum_single _ g _ k); [unfold g; now rewrite Nat.eqb_refl | apply seq_NoDup | apply in_seq; lia|].
      intros i _ N. unfold g. apply Nat.eqb_neq in N. now rewrite N. }
  assert (E : combine y K = map (fun i => (nth i y 0%Qc, nth i K [])) (seq 0 (length K))).
  { apply nth_ext with (d := (0%Qc, [])) (d' := (nth 0 y 0%Qc, nth 0 K [])).
    - rewrite combine_length, map_length, seq_length. lia.
    - intros i Hi. rewrite combine_length in Hi. rewrite combine_nth by assumption.
      rewrite (map_nth (fun i => (nth i y 0%Qc, nth i K []))), seq_nth by lia. reflexivity. }
  rewrite E, qsum_map. cbn [fst snd]. rewrite vdot_inner by reflexivity. unfold inner. rewrite L. apply qsum_ext.
  intros k Hk. apply in_seq in Hk. rewrite G by lia. reflexivity.
Qed.

Lemma gram_square : forall A K, square (gram K (map (mat_vect A) K)) /\ length (gram K (map (mat_vect A) K)) = length K.
Proof.
  intros A K. unfold gram. rewrite !map_length. split; [|reflexivity]. unfold square. rewrite !map_length. apply Forall_forall. intros r Hr. apply in_map_iff in Hr.
  destruct Hr as (w & <- & _). apply map_length.
Qed.
