(** Final lemmas for C46-C48, C51 and C67. *)
From Coq Require Import ZArith List Bool Lia Permutation Sorted QArith Qcanon.
From Verif Require Import PyBase PyFacts Lattice Base Interact Spin Prob Dav Spec SpecOps SpecTJ SpecSpin SpinDefs ProbDefs DavDefs
  PSpin PRep POps PHam PWave PVec PSecSum PBound PQc PProb PDavVec PLowest PDav PDavIter Examples.
Import ListNotations.
Open Scope Z_scope.

(** ** numpy on easy cases: diagonal matrices, orthonormal columns, norms rounded up *)
Definition unit_vect (dim k : nat) : list Qc := map (fun i => if Nat.eqb i k then 1%Qc else 0%Qc) (seq 0 dim).
Definition identity_cols (dim k : nat) : list (list Qc) := map (unit_vect dim) (seq 0 k).
Definition orthonormalb (V : list (list Qc)) : bool :=
  forallb (fun i => forallb (fun j => qeqb (inner (nth i V []) (nth j V [])) (if Nat.eqb i j then 1%Qc else 0%Qc)) (seq 0 (length V))) (seq 0 (length V)).
Definition norm_up (v : list Qc) : Qc :=
  let q := this (inner v v) in (qz (Z.sqrt_up (Qnum q * Zpos (Qden q))) / qz (Zpos (Qden q)))%Qc.
Definition ex_numerics : numerics :=
  mkNumerics (fun R => (mat_diagonal R, identity_cols (length R) (length R)))
             (fun dim V => if orthonormalb V && (length V <=? dim)%nat then V else identity_cols dim (Nat.min dim (length V)))
             norm_up.

Lemma unit_nth : forall dim k i, (i < dim)%nat -> nth i (unit_vect dim k) 0%Qc = if Nat.eqb i k then 1%Qc else 0%Qc.
Proof.
  intros dim k i H. apply nth_error_nth. unfold unit_vect. rewrite nth_error_map, (nth_error_nth' _ 0%nat) by (rewrite seq_length; lia).
  rewrite seq_nth by lia. reflexivity.
Qed.
Lemma unit_length : forall dim k, length (unit_vect dim k) = dim.
Proof. intros. unfold unit_vect. now rewrite map_length, seq_length. Qed.
Lemma unit_inner : forall dim i j, (i < dim)%nat -> (j < dim)%nat -> inner (unit_vect dim i) (unit_vect dim j) = if Nat.eqb i j then 1%Qc else 0%Qc.
Proof.
  intros dim i j Hi Hj. unfold inner. rewrite unit_length.
  rewrite (qsum_ext _ _ (fun k => only (Nat.eqb k i) (if Nat.eqb i j then 1%Qc else 0%Qc))).
  - rewrite (qsum_single _ _ _ i); [now rewrite Nat.eqb_refl | apply seq_NoDup | apply in_seq; lia|].
    intros k _ N. apply Nat.eqb_neq in N. now rewrite N.
  - intros k Hk. apply in_seq in Hk. rewrite !unit_nth by lia. destruct (Nat.eqb_spec k i) as [->|]; cbn [only]; ring.
Qed.
Lemma identity_nth : forall dim k i, (i < k)%nat -> nth i (identity_cols dim k) [] = unit_vect dim i.
Proof.
  intros dim k i H. apply nth_error_nth. unfold identity_cols. rewrite nth_error_map, (nth_error_nth' _ 0%nat) by (rewrite seq_length; lia).
  rewrite seq_nth by lia. reflexivity.
Qed.
Lemma orthonormalb_ok : forall V, orthonormalb V = true -> orthonormal V.
Proof.
  intros V H i j Hi Hj. unfold orthonormalb in H. rewrite forallb_forall in H. specialize (H i ltac:(apply in_seq; lia)).
  rewrite forallb_forall in H. specialize (H j ltac:(apply in_seq; lia)). now apply qeqb_eq.
Qed.

Lemma ex_qr_shape : qr_shape ex_numerics.
Proof.
  intros dim V T. cbn [ex_numerics qr]. destruct (orthonormalb V && (length V <=? dim)%nat) eqn:Q.
  - apply andb_prop in Q. destruct Q as [_ Q]. apply Nat.leb_le in Q. split; [assumption | lia].
  - unfold identity_cols. split; [|now rewrite map_length, seq_length]. apply Forall_forall. intros v Hv. apply in_map_iff in Hv.
    destruct Hv as (k & <- & _). apply unit_length.
Qed.
Lemma ex_qr_orthonormal : qr_orthonormal ex_numerics.
Proof.
  intros dim V T. cbn [ex_numerics qr]. destruct (orthonormalb V && (length V <=? dim)%nat) eqn:Q.
  - apply andb_prop in Q. destruct Q as [Q _]. now apply orthonormalb_ok.
  - intros i j Hi Hj. unfold identity_cols in Hi, Hj. rewrite map_length, seq_length in Hi, Hj. rewrite !identity_nth by assumption. apply unit_inner; lia.
Qed.
Lemma ex_eigh_unit : eigh_unit ex_numerics.
Proof.
  intros R y S H. cbn [ex_numerics eigh snd] in H. unfold identity_cols in H. apply in_map_iff in H. destruct H as (k & <- & Hk). apply in_seq in Hk.
  rewrite unit_length, unit_inner, Nat.eqb_refl by lia. auto.
Qed.

Lemma qz_mul : forall a b, qz (a * b) = (qz a * qz b)%Qc.
Proof. intros a b. apply Qc_eq_this. rewrite this_mul, !this_qz. unfold inject_Z, Qmult, Qeq. reflexivity. Qed.

Lemma qz_pos_neq : forall p, qz (Zpos p) <> 0%Qc.
Proof. intros p H. pose proof (this_qz (Zpos p)) as Q. rewrite H in Q. unfold inject_Z, Qeq in Q. cbn in Q. discriminate Q. Qed.

Lemma qz_le : forall a b, a <= b -> (qz a <= qz b)%Qc.
Proof. intros a b H. unfold Qcle. rewrite !this_qz. rewrite <- Zle_Qle; assumption. Qed.

Lemma qz_lt' : forall a b, a < b -> (qz a < qz b)%Qc.
Proof. intros a b H. unfold Qclt. rewrite !this_qz. rewrite <- Zlt_Qlt; assumption. Qed.

Lemma ex_norm_above : norm_above ex_numerics.
Proof.
  intros v. cbn [ex_numerics norm]. unfold norm_up. pose proof (inner_nonneg v) as P. set (x := inner v v) in *. clearbody x.
  set (n := Qnum x). set (d := Qden x).
  assert (Hn : 0 <= n). { unfold Qcle, Qle in P. cbn in P. unfold n. lia. }
  assert (Ex : (x * qz (Zpos d))%Qc = qz n).
  { apply Qc_eq_this. rewrite this_mul, !this_qz. destruct x as [[a b] cx]. cbn in n, d |- *. unfold n, d, inject_Z, Qmult, Qeq. cbn. lia. }
  assert (Nd : qz (Zpos d) <> 0%Qc) by apply qz_pos_neq.
  set (k := Z.sqrt_up (n * Zpos d)).
  assert (Hk : n * Zpos d <= k * k). { unfold k. destruct (Z.eq_dec (n * Zpos d) 0) as [E0|N0]; [rewrite E0; apply Z.square_nonneg|]. pose proof (Z.sqrt_up_spec (n * Zpos d)). nia. }
  assert (Kk : 0 <= k) by apply Z.sqrt_up_nonneg. split.
  - apply div_nonneg; [exact (qz_le 0 k Kk) | exact (qz_lt' 0 (Zpos d) ltac:(lia))].
  - assert (Q : (x = qz n * qz (Zpos d) / (qz (Zpos d) * qz (Zpos d)))%Qc) by (rewrite <- Ex; field; assumption).
    rewrite Q. replace (qz k / qz (Zpos d) * (qz k / qz (Zpos d)))%Qc with (qz k * qz k / (qz (Zpos d) * qz (Zpos d)))%Qc by (field; assumption).
    unfold Qcdiv. apply Qcmult_le_compat_r; [rewrite <- !qz_mul; now apply qz_le|].
    replace (/ (qz (Zpos d) * qz (Zpos d)))%Qc with (1 / (qz (Zpos d) * qz (Zpos d)))%Qc by (field; assumption).
    apply div_nonneg; [discriminate|]. rewrite <- qz_mul. apply (qz_lt' 0). lia.
Qed.

(** ** C46 *)
Lemma C46_lowest_pf : forall vals (vects : list (list Qc)) nb, 0 <= nb -> (length vals <= length vects)%nat ->
  exists idx, smallest vals idx /\ Z.of_nat (length idx) = Z.min nb (Z.of_nat (length vals)) /\
    get_lowests_eig vals vects nb = Ok (map (fun i => nth i vals 0%Qc) idx, map (fun i => nth i vects []) idx).
Proof.
  intros vals vects nb Hnb L. destruct (lowest_ok vals nb Hnb) as (idx & S & Li & F). exists idx. split; [assumption|]. split; [assumption|].
  rewrite F. rewrite (mapM_ok _ _ _ (fun i => nth i vects [])); [reflexivity|]. intros i Hi. destruct S as (_ & B & _).
  apply py_get_of_nat. apply nth_error_nth'. specialize (B i Hi). lia.
Qed.

(** ** C47 *)
Lemma first_tall : forall N A nb guess, qr_shape N -> tall (length A) guess -> tall (length A) (dav_first N A nb guess).
Proof. intros N A nb guess HQ T. unfold dav_first. destruct (1 <? nb); [now apply HQ | assumption]. Qed.

Lemma C47_residual_pf : forall N A nb guess stp tol dim_max vals vects, qr_shape N -> square A -> tall (length A) guess ->
  0 <= nb -> 0 <= dim_max ->
  modified_davidson_algorithm N A nb guess stp tol dim_max = Ok (true, vals, vects) ->
  let count := Z.to_nat (Z.min nb (if dim_max =? 0 then Z.of_nat (length A) else dim_max)) in
  length vals = count /\ length vects = count /\
  forall k, (k < count)%nat -> exists l x, nth_error vals k = Some l /\ nth_error vects k = Some x /\ length x = length A /\
    (norm N (residual A l x) <= tol)%Qc.
Proof.
  intros N A nb guess stp tol dim_max vals vects HQ SA T Hnb Hdm H. unfold modified_davidson_algorithm in H. cbv zeta in H.
  change (if dim_max =? 0 then Z.of_nat (length A) else dim_max) with (dav_dim_max A dim_max). set (dm := dav_dim_max A dim_max) in *.
  assert (Hd : 0 <= dm) by (unfold dm, dav_dim_max, zlen; destruct (Z.eqb_spec dim_max 0); lia).
  set (nb' := Z.min nb dm) in *. assert (Hnb' : 0 <= nb') by (unfold nb'; lia).
  pose proof (first_tall N A nb' guess HQ T) as T0.
  destruct (dav_loop_inv _ _ _ _ _ _ _ 0 _ _ _ (search_first _ _ _ _ _ _) H) as [(vs & xs & j & K & Q & _ & S & E)|(vs & xs & K & Q & _)]; [|discriminate].
  injection Q as <- <-. pose proof (search_tall _ _ _ _ _ _ _ _ HQ SA T0 Hnb' S) as TK.
  destruct (dav_step_inv _ _ _ _ _ _ _ SA TK Hnb' E) as (vs & ys & Lv & Ly & _ & [[Q R]|(cs & _ & _ & Q)]); [|discriminate].
  injection Q as -> ->. cbv zeta. split; [assumption|]. split; [now rewrite map_length|]. exact R.
Qed.

Lemma C47_budget_pf : forall N A nb guess stp tol dim_max found vals vects,
  modified_davidson_algorithm N A nb guess stp tol dim_max = Ok (found, vals, vects) ->
  let dm := if dim_max =? 0 then Z.of_nat (length A) else dim_max in
  exists i K, search_space N A (Z.min nb dm) tol dm (dav_first N A (Z.min nb dm) guess) i K /\
    (found = true -> Z.of_nat i < stp /\ dav_step N A (Z.min nb dm) tol dm K = Ok (Converged vals vects)) /\
    (found = false -> Z.of_nat i = stp - 1 /\ exists K', dav_step N A (Z.min nb dm) tol dm K = Ok (Continue vals vects K')).
Proof.
  intros N A nb guess stp tol dim_max found vals vects H. cbv zeta. unfold modified_davidson_algorithm in H. cbv zeta in H.
  change (if dim_max =? 0 then Z.of_nat (length A) else dim_max) with (dav_dim_max A dim_max). set (dm := dav_dim_max A dim_max) in *.
  destruct (dav_loop_inv _ _ _ _ _ _ _ 0 _ _ _ (search_first _ _ _ _ _ _) H) as [(vs & xs & j & K & Q & Hj & S & E)|(vs & xs & K & Q & S & [[Z0 Q2]|(K1 & S1 & E)])].
  - injection Q as -> <- <-. exists j, K. split; [assumption|]. split; [split; [lia | assumption] | discriminate].
  - discriminate.
  - injection Q as -> <- <-.
    destruct (Z.to_nat stp) as [|n] eqn:Qn; [cbn [dav_loop] in H; discriminate|].
    cbn [Nat.add] in *. replace (Datatypes.S n - 1)%nat with n in S1 by lia. exists n, K1. split; [assumption|]. split; [discriminate|].
    intros _. split; [lia | eauto].
Qed.

Lemma C47_true_residual_pf : forall N A nb guess stp tol dim_max vals vects, qr_shape N -> norm_above N -> square A -> tall (length A) guess ->
  0 <= nb -> 0 <= dim_max ->
  modified_davidson_algorithm N A nb guess stp tol dim_max = Ok (true, vals, vects) ->
  forall k l x, nth_error vals k = Some l -> nth_error vects k = Some x ->
  (inner (residual A l x) (residual A l x) <= tol * tol)%Qc.
Proof.
  intros N A nb guess stp tol dim_max vals vects HQ HN SA T Hnb Hdm H k l x Hl Hx.
  destruct (C47_residual_pf _ _ _ _ _ _ _ _ _ HQ SA T Hnb Hdm H) as (L1 & L2 & R).
  assert (Hk : (k < length vals)%nat) by (apply nth_error_Some; congruence). rewrite L1 in Hk. destruct (R k Hk) as (l' & x' & Q1 & Q2 & _ & Hn).
  assert (l' = l) by congruence. assert (x' = x) by congruence. subst l' x'. destruct (HN (residual A l x)) as [P1 P2].
  eapply Qcle_trans; [exact P2|]. assert (0 <= tol)%Qc by (eapply Qcle_trans; eassumption).
  eapply Qcle_trans; [apply Qcmult_le_compat_r; [exact Hn | exact P1]|]. rewrite !(Qcmult_comm tol). now apply Qcmult_le_compat_r.
Qed.

Lemma C47_iteration_pf : forall N A nb tol dim_max K, square A -> tall (length A) K -> 0 <= nb ->
  let vals0 := fst (eigh N (projected A K)) in
  let ys0 := snd (eigh N (projected A K)) in
  (length vals0 <= length ys0)%nat ->
  exists idx, smallest vals0 idx /\ Z.of_nat (length idx) = Z.min nb (Z.of_nat (length vals0)) /\
  dav_step N A nb tol dim_max K =
    if Z.of_nat (length vals0) <? nb then Err IndexError else
    let vals := map (fun i => nth i vals0 0%Qc) idx in
    let vects := map (fun i => blend (length A) K (nth i ys0 [])) idx in
    let pairs := combine vals vects in
    if forallb (fun p => qleb (norm N (residual A (fst p) (snd p))) tol) pairs then Ok (Converged vals vects) else
    if existsb (fun p => existsb (fun i => qeqb (nth i (nth i A []) 0%Qc) (fst p)) (seq 0 (length A))) pairs then Err ZeroDivisionError else
    let cs := map (fun p => correction A (fst p) (snd p)) pairs in
    Ok (Continue vals vects (qr N (length A) ((if dim_max - nb <? Z.of_nat (length A) then vects else K) ++ cs))).
Proof. intros N A nb tol dim_max K SA T Hnb. exact (dav_step_full N A nb tol dim_max K SA T Hnb). Qed.

Lemma C47_no_iteration_pf : forall N A nb guess stp tol dim_max, stp <= 0 ->
  modified_davidson_algorithm N A nb guess stp tol dim_max = Err NameError.
Proof.
  intros N A nb guess stp tol dim_max H. unfold modified_davidson_algorithm. cbv zeta. replace (Z.to_nat stp) with 0%nat by lia. reflexivity.
Qed.

(** ** C48 *)
Lemma C48_columns_pf : forall N A nb tol dim_max K0 i K, qr_shape N -> square A -> tall (length A) K0 -> 1 <= nb ->
  dim_max <= Z.of_nat (length A) -> search_space N A nb tol dim_max K0 (S i) K -> length K = Nat.min (length A) (2 * Z.to_nat nb).
Proof.
  intros N A nb tol dm K0 i K HQ SA T0 Hnb Hdm H. inversion H as [|i' K1 vals vects K' Hs E]; subst.
  assert (Hnb0 : 0 <= nb) by lia. pose proof (search_tall _ _ _ _ _ _ _ _ HQ SA T0 Hnb0 Hs) as TK.
  destruct (dav_step_inv _ _ _ _ _ _ _ SA TK Hnb0 E) as (vs & ys & Lv & Ly & _ & [[Q R]|(cs & Lc & Tc & Q)]); [discriminate|].
  injection Q as _ _ ->. destruct (Z.ltb_spec (dm - nb) (Z.of_nat (length A))); [|lia].
  rewrite (proj2 (HQ (length A) _ (proj2 (Forall_app _ _ _) (conj (tall_map_mix _ _ _ TK) Tc)))).
  rewrite app_length, map_length, Ly, Lc. f_equal. lia.
Qed.

Lemma C48_never_wider_pf : forall N A nb tol dim_max K0 i K, qr_shape N -> square A -> tall (length A) K0 -> 0 <= nb ->
  search_space N A nb tol dim_max K0 (S i) K -> (length K <= length A)%nat.
Proof.
  intros N A nb tol dm K0 i K HQ SA T0 Hnb H. inversion H as [|i' K1 vals vects K' Hs E]; subst.
  pose proof (search_tall _ _ _ _ _ _ _ _ HQ SA T0 Hnb Hs) as TK.
  destruct (dav_step_inv _ _ _ _ _ _ _ SA TK Hnb E) as (vs & ys & Lv & Ly & _ & [[Q R]|(cs & Lc & Tc & Q)]); [discriminate|].
  injection Q as _ _ ->. destruct (dm - nb <? Z.of_nat (length A)).
  - rewrite (proj2 (HQ (length A) _ (proj2 (Forall_app _ _ _) (conj (tall_map_mix _ _ _ TK) Tc)))). lia.
  - rewrite (proj2 (HQ (length A) _ (proj2 (Forall_app _ _ _) (conj TK Tc)))). lia.
Qed.

Lemma C48_bounded_pf : forall N A nb tol dim_max K0 i K, qr_shape N -> square A -> tall (length A) K0 -> 1 <= nb ->
  dim_max <= Z.of_nat (length A) -> (length K0 <= 2 * Z.to_nat nb)%nat -> search_space N A nb tol dim_max K0 i K -> (length K <= 2 * Z.to_nat nb)%nat.
Proof.
  intros N A nb tol dm K0 i K HQ SA T0 Hnb Hdm L H. destruct i as [|i]; [inversion H; subst; assumption|].
  rewrite (C48_columns_pf _ _ _ _ _ _ _ _ HQ SA T0 Hnb Hdm H). lia.
Qed.

(** four sites, two vectors wanted, limit of three columns *)
Definition ex_A4 : list (list Qc) := map (map qz) [[0; 0; 0; 0]; [0; 25; 0; 0]; [0; 0; 1; 0]; [0; 0; 0; 51]].
Definition ex_K4 : list (list Qc) := [[qfrac 3 5; qfrac 4 5; 0%Qc; 0%Qc]; [0%Qc; 0%Qc; qfrac 3 5; qfrac 4 5]].

Fixpoint sameqm (u v : list (list Qc)) : bool :=
  match u, v with
  | nil, nil => true
  | x :: u', y :: v' => sameql x y && sameqm u' v'
  | _, _ => false
  end.
Lemma sameqm_eq : forall u v, sameqm u v = true -> u = v.
Proof.
  induction u as [|x u IH]; intros [|y v] H; try discriminate; [reflexivity|]. cbn [sameqm] in H. apply andb_prop in H. destruct H as [A B].
  f_equal; [now apply sameql_eq | now apply IH].
Qed.

Lemma C48_refuted_pf : exists A guess nb dim_max tol, square A /\ tall (length A) guess /\ orthonormal guess /\ length A = 4%nat /\
  nb = 2 /\ dim_max = 3 /\ tol = 1%Qc /\
  forall N, qr_shape N -> norm_above N -> qr N 4 guess = guess ->
    eigh N [[qz 16; qz 0]; [qz 0; qz 33]] = ([qz 16; qz 33], [[1%Qc; 0%Qc]; [0%Qc; 1%Qc]]) ->
    exists K, search_space N A nb tol dim_max (dav_first N A nb guess) 1 K /\ length K = 4%nat /\ dim_max < Z.of_nat (length K).
Proof.
  exists ex_A4, ex_K4, 2, 3, 1%Qc.
  assert (SA : square ex_A4) by (unfold square; repeat constructor). assert (TK : tall (length ex_A4) ex_K4) by (repeat constructor).
  split; [assumption|]. split; [assumption|]. split; [apply orthonormalb_ok; vm_compute; reflexivity|].
  split; [reflexivity|]. split; [reflexivity|]. split; [reflexivity|]. split; [reflexivity|].
  intros N HQ HN E1 E2. unfold dav_first. change (1 <? 2) with true. cbn iota. change (length ex_A4) with 4%nat. rewrite E1.
  assert (G : gram ex_K4 (map (mat_vect ex_A4) ex_K4) = [[qz 16; qz 0]; [qz 0; qz 33]]) by (apply sameqm_eq; vm_compute; reflexivity).
  assert (St : exists vals vects K', dav_step N ex_A4 2 1 3 ex_K4 = Ok (Continue vals vects K')).
  { unfold dav_step. cbv zeta. rewrite G, E2.
    set (lows := ([qz 16; qz 33], [[1%Qc; 0%Qc]; [0%Qc; 1%Qc]])).
    assert (L : get_lowests_eig [qz 16; qz 33] [[1%Qc; 0%Qc]; [0%Qc; 1%Qc]] 2 = Ok lows) by (vm_compute; reflexivity).
    rewrite L. unfold lows. cbn [bind].
    set (rs := [[qfrac 48 5; qfrac (-36) 5; 0%Qc; 0%Qc]; [0%Qc; 0%Qc; qfrac 96 5; qfrac (-72) 5]]).
    assert (R : residues_of ex_A4 (map (mat_vect ex_A4) ex_K4) [qz 16; qz 33] [[1%Qc; 0%Qc]; [0%Qc; 1%Qc]]
                  (map (mix (length ex_A4) ex_K4) [[1%Qc; 0%Qc]; [0%Qc; 1%Qc]]) 2 = Ok rs).
    { destruct (residues_of ex_A4 _ _ _ _ _) as [rs'|e] eqn:Q; [|vm_compute in Q; discriminate Q]. f_equal. apply sameqm_eq.
      assert (Q' : sameqm (get [] (Ok rs')) rs = true) by (rewrite <- Q; vm_compute; reflexivity). exact Q'. }
    rewrite R. cbn [bind].
    assert (F : forallb (fun r => qleb (norm N r) 1) rs = false).
    { unfold rs. cbn [forallb]. apply andb_false_iff. left. destruct (qleb _ 1) eqn:Q; [|reflexivity]. exfalso. apply qleb_le in Q.
      set (r := [qfrac 48 5; qfrac (-36) 5; 0%Qc; 0%Qc]) in *. destruct (HN r) as [P1 P2].
      assert (I : inner r r = qz 144) by (apply Qc_is_canon; vm_compute; reflexivity). rewrite I in P2.
      assert (norm N r * norm N r <= 1)%Qc.
      { eapply Qcle_trans; [apply Qcmult_le_compat_r; [exact Q | exact P1]|]. rewrite Qcmult_1_l. exact Q. }
      assert (C : (qz 144 <= 1)%Qc) by (eapply Qcle_trans; eassumption). vm_compute in C. apply C. reflexivity. }
    rewrite F. destruct (mapM _ (zrange 0 2)) as [cs|e] eqn:M; [|vm_compute in M; discriminate M]. cbn [bind]. eauto. }
  destruct St as (vals & vects & K & St). exists K.
  assert (S1 : search_space N ex_A4 2 1 3 ex_K4 1 K) by (eapply search_next; [apply search_first | exact St]).
  split; [assumption|]. pose proof (C48_columns_pf N ex_A4 2 1 3 ex_K4 0 K HQ SA TK ltac:(lia) ltac:(vm_compute; discriminate) S1) as L.
  split; [exact L | rewrite L; vm_compute; reflexivity].
Qed.

(** ** C51 *)
Lemma residual_nth : forall A l x i, (i < length A)%nat -> nth i (residual A l x) 0%Qc = (l * nth i x 0 - inner (nth i A []) x)%Qc.
Proof.
  intros A l x i H. apply nth_error_nth. unfold residual. rewrite nth_error_map, (nth_error_nth' _ 0%nat) by (rewrite seq_length; lia).
  rewrite seq_nth by lia. reflexivity.
Qed.

Lemma residual_inner : forall A l m x e, square A -> symmetric A -> length x = length A -> length e = length A ->
  residual A m e = repeat 0%Qc (length A) -> inner (residual A l x) e = ((l - m) * inner x e)%Qc.
Proof.
  intros A l m x e SA SY Lx Le R.
  assert (Row : forall i, (i < length A)%nat -> length (nth i A []) = length A).
  { intros i Hi. unfold square in SA. rewrite Forall_forall in SA. apply SA. now apply nth_In. }
  assert (E : forall i, (i < length A)%nat -> inner (nth i A []) e = (m * nth i e 0)%Qc).
  { intros i Hi. assert (Q : nth i (residual A m e) 0%Qc = 0%Qc) by (rewrite R; apply nth_repeat). rewrite residual_nth in Q by assumption.
    replace (inner (nth i A []) e) with (m * nth i e 0 - (m * nth i e 0 - inner (nth i A []) e))%Qc by ring. rewrite Q. ring. }
  unfold inner at 1. rewrite residual_length.
  rewrite (qsum_ext _ _ (fun i => (l * (nth i x 0 * nth i e 0)) + - qsum (fun j => nth j (nth i A []) 0 * nth j x 0 * nth i e 0)%Qc (seq 0 (length A)))%Qc).
  - rewrite qsum_add, qsum_scale, qsum_opp, qsum_exchange.
    rewrite (qsum_ext _ (fun y => qsum _ _) (fun j => m * (nth j x 0 * nth j e 0))%Qc).
    + rewrite qsum_scale. unfold inner. rewrite Lx. ring.
    + intros j Hj. apply in_seq in Hj.
      rewrite (qsum_ext _ _ (fun i => nth j x 0 * (nth i (nth j A []) 0 * nth i e 0))%Qc).
      * rewrite qsum_scale. replace (qsum _ (seq 0 (length A))) with (inner (nth j A []) e); [rewrite E by lia; ring|].
        unfold inner. now rewrite Row by lia.
      * intros i Hi. apply in_seq in Hi. rewrite (SY i j) by lia. ring.
  - intros i Hi. apply in_seq in Hi. rewrite residual_nth by lia. unfold inner. rewrite Row by lia.
    rewrite (qsum_ext _ (fun j => nth j (nth i A []) 0 * nth j x 0 * nth i e 0)%Qc (fun j => nth i e 0 * (nth j (nth i A []) 0 * nth j x 0))%Qc) by (intros; ring).
    rewrite qsum_scale. ring.
Qed.

Lemma qsum_nonneg_zero : forall A (f : A -> Qc) l, (forall x, In x l -> (0 <= f x)%Qc) -> (qsum f l <= 0)%Qc -> forall x, In x l -> f x = 0%Qc.
Proof.
  intros A f. induction l as [|a l IH]; intros P S x Hx; [destruct Hx|]. destruct Hx as [<-|Hx].
  - rewrite qsum_cons in S. pose proof (P a (or_introl eq_refl)). pose proof (qsum_nonneg _ f l (fun y H => P y (or_intror H))).
    apply Qcle_antisym; qc.
  - rewrite qsum_cons in S. pose proof (P a (or_introl eq_refl)). apply IH; [intros; apply P; now right | qc | assumption].
Qed.

Lemma Qcmult_nonneg : forall a b : Qc, (0 <= a -> 0 <= b -> 0 <= a * b)%Qc.
Proof. intros a b Ha Hb. rewrite <- (Qcmult_0_l b). now apply Qcmult_le_compat_r. Qed.

Lemma near_spectrum : forall A es l x t, square A -> symmetric A -> spectrum A es -> length x = length A -> inner x x = 1%Qc ->
  (inner (residual A l x) (residual A l x) <= t)%Qc -> exists m e, In (m, e) es /\ ((l - m) * (l - m) <= t)%Qc.
Proof.
  intros A es l x t SA SY [Hes Hres] Lx U H.
  destruct (existsb (fun p => qleb ((l - fst p) * (l - fst p)) t) es) eqn:Q.
  - apply existsb_exists in Q. destruct Q as ([m e] & I & Q). exists m, e. split; [assumption | now apply qleb_le].
  - exfalso.
    assert (F : forall p, In p es -> (t < (l - fst p) * (l - fst p))%Qc).
    { intros p Hp. apply Qcnot_le_lt. intros L. rewrite <- qleb_le in L. rewrite <- not_true_iff_false in Q. apply Q. apply existsb_exists. eauto. }
    rewrite (Hres (residual A l x)) in H by apply residual_length. rewrite (Hres x Lx) in U.
    assert (Z0 : (qsum (fun p => ((l - fst p) * (l - fst p) - t) * (inner x (snd p) * inner x (snd p)))%Qc es <= 0)%Qc).
    { replace (qsum _ es) with (qsum (fun p => inner (residual A l x) (snd p) * inner (residual A l x) (snd p))%Qc es - t * qsum (fun p => inner x (snd p) * inner x (snd p))%Qc es)%Qc.
      - rewrite U. qc.
      - rewrite <- qsum_scale. unfold Qcminus at 1. rewrite <- qsum_opp, <- qsum_add. apply qsum_ext. intros [m e] Hp. cbn [fst snd].
        destruct (Hes m e Hp) as [Le Re]. rewrite (residual_inner A l m x e) by assumption. ring. }
    assert (Zx : forall p, In p es -> (inner x (snd p) * inner x (snd p))%Qc = 0%Qc).
    { intros p Hp. pose proof (qsum_nonneg_zero _ _ es (fun p Hp => Qcmult_nonneg _ _ (Qclt_le_weak _ _ (proj1 (Qclt_minus_iff _ _) (F p Hp))) (square_nonneg (inner x (snd p)))) Z0 p Hp) as Q0.
      cbv beta in Q0. apply Qcmult_integral in Q0. destruct Q0 as [Q0|Q0]; [|assumption]. specialize (F p Hp). exfalso.
      change ((l - fst p) * (l - fst p) - t = 0)%Qc in Q0. replace ((l - fst p) * (l - fst p))%Qc with (((l - fst p) * (l - fst p) - t) + t)%Qc in F by ring. rewrite Q0, Qcplus_0_l in F.
      now apply Qclt_not_eq in F. }
    rewrite (qsum_zero _ _ es Zx) in U. discriminate U.
Qed.

Lemma unit_found : forall N A nb guess stp tol dim_max vals vects,
  qr_shape N -> qr_orthonormal N -> eigh_unit N -> norm_above N ->
  square A -> tall (length A) guess -> 0 <= nb -> 0 <= dim_max ->
  (2 <= Z.min nb (if dim_max =? 0 then Z.of_nat (length A) else dim_max) \/ orthonormal guess) ->
  modified_davidson_algorithm N A nb guess stp tol dim_max = Ok (true, vals, vects) ->
  forall k l, nth_error vals k = Some l ->
    exists x, nth_error vects k = Some x /\ length x = length A /\ inner x x = 1%Qc /\ (inner (residual A l x) (residual A l x) <= tol * tol)%Qc.
Proof.
  intros N A nb guess stp tol dim_max vals vects HQ HO HE HN SA T Hnb Hdm Hstart H k l Hk.
  unfold modified_davidson_algorithm in H. cbv zeta in H.
  change (if dim_max =? 0 then Z.of_nat (length A) else dim_max) with (dav_dim_max A dim_max) in Hstart. set (dm := dav_dim_max A dim_max) in *.
  assert (Hd : 0 <= dm) by (unfold dm, dav_dim_max, zlen; destruct (Z.eqb_spec dim_max 0); lia).
  set (nb' := Z.min nb dm) in *. assert (Hnb' : 0 <= nb') by (unfold nb'; lia).
  pose proof (first_tall N A nb' guess HQ T) as T0.
  destruct (dav_loop_inv _ _ _ _ _ _ _ 0 _ _ _ (search_first _ _ _ _ _ _) H) as [(vs & xs & j & K & Q & _ & S & E)|(vs & xs & K & Q & _)]; [|discriminate].
  injection Q as <- <-. pose proof (search_tall _ _ _ _ _ _ _ _ HQ SA T0 Hnb' S) as TK.
  assert (OK : orthonormal K).
  { inversion S as [|i K1 v1 x1 K2 S1 E1]; subst.
    - unfold dav_first. destruct Hstart as [Hs|Hs].
      + destruct (Z.ltb_spec 1 nb'); [|lia]. now apply HO.
      + destruct (1 <? nb'); [now apply HO | assumption].
    - pose proof (search_tall _ _ _ _ _ _ _ _ HQ SA T0 Hnb' S1) as TK1.
      destruct (dav_step_inv _ _ _ _ _ _ _ SA TK1 Hnb' E1) as (vs & ys & Lv & Ly & _ & [[Q R]|(cs & Lc & Tc & Q)]); [discriminate|].
      injection Q as _ _ ->. apply HO. apply Forall_app. split; [|assumption]. destruct (_ <? _); [now apply tall_map_mix | assumption]. }
  destruct (dav_step_inv _ _ _ _ _ _ _ SA TK Hnb' E) as (vs & ys & Lv & Ly & Ey & [[Q R]|(cs & _ & _ & Q)]); [|discriminate].
  injection Q as -> ->. assert (Hk' : (k < Z.to_nat nb')%nat). { rewrite <- Lv. apply nth_error_Some. congruence. }
  destruct (R k Hk') as (l' & x & Hl & Hx & Lx & Hn). assert (l' = l) by congruence. subst l'.
  assert (Ux : inner x x = 1%Qc).
  { rewrite nth_error_map in Hx. destruct (nth_error ys k) as [y|] eqn:Yk; [|discriminate]. injection Hx as <-.
    destruct (gram_square A K) as [GS GL]. destruct (HE _ y GS (Ey y (nth_error_In _ _ Yk))) as [Ly' Uy]. rewrite GL in Ly'.
    rewrite <- vdot_inner by reflexivity. rewrite orth_mix_unit by assumption. rewrite vdot_inner by reflexivity. assumption. }
  exists x. split; [assumption|]. split; [assumption|]. split; [assumption|]. destruct (HN (residual A l x)) as [P1 P2].
  eapply Qcle_trans; [exact P2|]. assert (0 <= tol)%Qc by (eapply Qcle_trans; eassumption).
  eapply Qcle_trans; [apply Qcmult_le_compat_r; [exact Hn | exact P1]|]. rewrite !(Qcmult_comm tol). now apply Qcmult_le_compat_r.
Qed.
Lemma C51_true_value_pf : forall N A nb guess stp tol dim_max vals vects es,
  qr_shape N -> qr_orthonormal N -> eigh_unit N -> norm_above N ->
  square A -> symmetric A -> spectrum A es -> tall (length A) guess -> 0 <= nb -> 0 <= dim_max ->
  (2 <= Z.min nb (if dim_max =? 0 then Z.of_nat (length A) else dim_max) \/ orthonormal guess) ->
  modified_davidson_algorithm N A nb guess stp tol dim_max = Ok (true, vals, vects) ->
  forall k l, nth_error vals k = Some l ->
    (exists x, nth_error vects k = Some x /\ inner x x = 1%Qc) /\
    exists m e, In (m, e) es /\ ((l - m) * (l - m) <= tol * tol)%Qc.
Proof.
  intros N A nb guess stp tol dim_max vals vects es HQ HO HE HN SA SY SP T Hnb Hdm Hstart H k l Hk.
  destruct (unit_found N A nb guess stp tol dim_max vals vects HQ HO HE HN SA T Hnb Hdm Hstart H k l Hk) as (x & Hx & Lx & Ux & R).
  split; [eauto|]. now apply (near_spectrum A es l x).
Qed.

Definition ex_five : list (list Qc) := [[qz 5]].
Lemma C51_refuted_pf : exists N A guess tol vals vects es, qr_shape N /\ qr_orthonormal N /\ eigh_unit N /\ norm_above N /\
  square A /\ symmetric A /\ spectrum A es /\ tall (length A) guess /\ 
  modified_davidson_algorithm N A 1 guess 1 tol 0 = Ok (true, vals, vects) /\
  (exists l, vals = [l]) /\ (exists x, vects = [x]) /\
  forall l m e, In l vals -> In (m, e) es -> (tol * tol < (l - m) * (l - m))%Qc.
Proof.
  exists ex_numerics, ex_five, [[qfrac 1 1000]], (qfrac 1 100).
  destruct (modified_davidson_algorithm ex_numerics ex_five 1 [[qfrac 1 1000]] 1 (qfrac 1 100) 0) as [[[b vals] vects]|e] eqn:Q; [|vm_compute in Q; discriminate Q].
  exists vals, vects, [(qz 5, [1%Qc])].
  split; [exact ex_qr_shape|]. split; [exact ex_qr_orthonormal|]. split; [exact ex_eigh_unit|]. split; [exact ex_norm_above|].
  split; [repeat constructor|]. split.
  { intros i j Hi Hj. cbn in Hi, Hj. replace i with 0%nat by lia. replace j with 0%nat by lia. reflexivity. }
  split.
  { split.
    - intros l e [I|[]]. injection I as <- <-. split; [reflexivity|]. apply sameql_eq. vm_compute. reflexivity.
    - intros [|a [|b' x]] L; try discriminate L. rewrite qsum_one. unfold inner. cbn [length seq nth snd]. rewrite !qsum_one. ring. }
  split; [repeat constructor|].
  assert (F : b = true /\ sameql vals [qfrac 5 1000000] = true /\ sameqm vects [[qfrac 1 1000]] = true).
  { change (match Ok (b, vals, vects) with Ok (b, vals, vects) => b = true /\ sameql vals [qfrac 5 1000000] = true /\ sameqm vects [[qfrac 1 1000]] = true | Err _ => True end).
    rewrite <- Q. vm_compute. auto. }
  destruct F as (-> & F1 & F2). apply sameql_eq in F1. apply sameqm_eq in F2. subst vals vects.
  split; [reflexivity|]. split; [eauto|]. split; [eauto|]. intros l m e [<-|[]] [I|[]]. injection I as <- _. vm_compute. reflexivity.
Qed.

(** ** C67 *)
Lemma lowest_pair_inv : forall N A V l u r, square A -> tall (length A) V -> lowest_pair N A V = Ok (l, u, r) ->
  length u = length A /\ r = opposite (residual A l u).
Proof.
  intros N A V l u r SA T H. unfold lowest_pair in H. cbv zeta in H. destruct (eigh N _) as [vals ys]. destruct (qsort vals) as [|m q]; [discriminate|].
  apply bind_ok_inv in H. destruct H as (i & _ & H). apply bind_ok_inv in H. destruct H as (y & _ & H). injection H as <- <- <-.
  pose proof (mix_length (length A) V y T) as L. split; [assumption|]. rewrite vsub_opp by (rewrite vscale_length, mat_vect_length; assumption).
  rewrite residual_vsub by assumption. unfold vscale, opposite. apply map_ext. intros a. ring.
Qed.

Lemma inner_loop_inv : forall N A tol prec stp l u r V o, qr_shape N -> square A -> tall (length A) V ->
  length u = length A /\ r = opposite (residual A l u) -> inner_loop N A tol prec stp l u r V = Ok o ->
  match o with
  | Returned l' u' => exists l0, l' = round_to l0 prec /\ length u' = length A /\ (norm N (opposite (residual A l0 u')) <= tol)%Qc
  | Fell l' u' r' V' => tall (length A) V' /\ length u' = length A /\ r' = opposite (residual A l' u')
  end.
Proof.
  intros N A tol prec stp. induction stp as [|stp IH]; intros l u r V o HQ SA T I H; cbn [inner_loop] in H.
  - apply ok_eq in H. subst o. auto.
  - apply bind_ok_inv in H. destruct H as ([[l1 u1] r1] & E & H). destruct (lowest_pair_inv _ _ _ _ _ _ SA T E) as [Lu Hr].
    destruct (qleb tol (norm N r1)) eqn:Q; cbn [negb] in H.
    + apply (IH l1 u1 r1 (qr N (length A) (V ++ [r1]))); auto. apply HQ. apply Forall_app. split; [assumption|]. constructor; [|constructor].
      rewrite Hr. unfold opposite. now rewrite map_length, residual_length.
    + apply ok_eq in H. subst o. exists l1. split; [reflexivity|]. split; [assumption|]. rewrite <- Hr.
      apply Qclt_le_weak, Qcnot_le_lt. intros L. apply qleb_le in L. congruence.
Qed.

Lemma C67_returned_pf : forall N A stp tol prec v0 fuel l u, qr_shape N -> square A -> length v0 = length A ->
  davidson_algorithm N A stp tol prec v0 fuel = Ok (l, u) ->
  exists l0, (l = l0 \/ l = round_to l0 prec) /\ length u = length A /\ (norm N (opposite (residual A l0 u)) <= tol)%Qc.
Proof.
  intros N A stp tol prec v0 fuel l u HQ SA L0 H. unfold davidson_algorithm in H. apply bind_ok_inv in H. destruct H as ([[l1 u1] r1] & E & H).
  assert (T1 : tall (length A) [v0]) by (constructor; [assumption | constructor]).
  pose proof (lowest_pair_inv _ _ _ _ _ _ SA T1 E) as I. destruct (qleb tol (norm N r1)) eqn:Q; cbn [negb] in H.
  - apply bind_ok_inv in H. destruct H as (t & Et & H).
    assert (T2 : tall (length A) (qr N (length A) [v0; t])).
    { apply HQ. constructor; [assumption|]. constructor; [|constructor]. apply mapM_length in Et. rewrite Et, combine_length, mat_diagonal_length, (proj2 I).
      unfold opposite. rewrite map_length, residual_length. lia. }
    revert H T2 I. clear E Et Q. generalize (qr N (length A) [v0; t]) as V. clear t. revert l1 u1 r1.
    induction fuel as [|fuel IH]; intros l1 u1 r1 V H T2 I; cbn [outer_loop] in H; [discriminate|].
    destruct (qleb (norm N r1) tol) eqn:Q; cbn [negb] in H.
    + injection H as <- <-. exists l1. split; [auto|]. destruct I as [I1 I2]. split; [assumption|]. rewrite <- I2. now apply qleb_le.
    + apply bind_ok_inv in H. destruct H as (o & Eo & H). pose proof (inner_loop_inv _ _ _ _ _ _ _ _ _ _ HQ SA T2 I Eo) as J.
      destruct o as [l2 u2|l2 u2 r2 V2].
      * injection H as <- <-. destruct J as (l0 & -> & J). exists l0. auto.
      * destruct J as (J1 & J2). apply (IH l2 u2 r2 V2 H J1 J2).
  - injection H as <- <-. exists l1. split; [auto|]. destruct I as [I1 I2]. split; [assumption|]. rewrite <- I2.
    apply Qclt_le_weak, Qcnot_le_lt. intros L. apply qleb_le in L. congruence.
Qed.

Lemma C67_rounding_pf : forall x prec, 0 <= prec -> (qabs (round_to x prec - x) <= 1 / (qz 2 * qz (10 ^ prec)))%Qc.
Proof.
  intros x prec H. unfold round_to. destruct (Z.ltb_spec prec 0); [lia|]. rewrite (Z.abs_eq prec) by assumption.
  assert (P : 0 < 10 ^ prec) by (apply Z.pow_pos_nonneg; lia). set (p := qz (10 ^ prec)).
  assert (Pp : (0 < p)%Qc) by exact (qz_lt' 0 _ P). assert (Np : p <> 0%Qc) by (intros E; rewrite E in Pp; now apply Qclt_not_eq in Pp).
  destruct (round_half (x * p)) as [R1 R2]. set (k := qz (round0 (x * p))) in *.
  assert (Ip : (0 <= 1 / p)%Qc) by (apply div_nonneg; [discriminate | assumption]).
  assert (B1 : (k / p - x <= 1 / (qz 2 * p))%Qc).
  { replace (k / p - x)%Qc with ((k - x * p) * (1 / p))%Qc by (field; assumption).
    replace (1 / (qz 2 * p))%Qc with (half * (1 / p))%Qc.
    - apply Qcmult_le_compat_r; [qc | assumption].
    - change half with (1 / (1 + 1))%Qc. replace (qz 2) with (1 + 1)%Qc by (apply Qc_is_canon; reflexivity). field. split; [assumption | discriminate]. }
  assert (B2 : (x - k / p <= 1 / (qz 2 * p))%Qc).
  { replace (x - k / p)%Qc with ((x * p - k) * (1 / p))%Qc by (field; assumption).
    replace (1 / (qz 2 * p))%Qc with (half * (1 / p))%Qc.
    - apply Qcmult_le_compat_r; [qc | assumption].
    - change half with (1 / (1 + 1))%Qc. replace (qz 2) with (1 + 1)%Qc by (apply Qc_is_canon; reflexivity). field. split; [assumption | discriminate]. }
  unfold qabs. destruct (qleb 0 _); [assumption|]. replace (- (k / p - x))%Qc with (x - k / p)%Qc by ring. assumption.
Qed.

Lemma mat_diagonal_nth : forall A i, (i < length A)%nat -> nth_error (mat_diagonal A) i = Some (nth i (nth i A []) 0%Qc).
Proof.
  intros A i H. unfold mat_diagonal. rewrite nth_error_map.
  assert (Q : nth_error (combine (seq 0 (length A)) A) i = Some (i, nth i A [])).
  { rewrite (nth_error_nth' _ (0%nat, [])) by (rewrite combine_length, seq_length; lia). rewrite combine_nth by (now rewrite seq_length).
    rewrite seq_nth by lia. reflexivity. }
  now rewrite Q.
Qed.

Lemma C67_endless_pf : forall N A stp tol prec v0 l y, square A -> length v0 = length A -> stp <= 0 ->
  eigh N [[inner v0 (map (fun row => inner row v0) A)]] = ([l], [[y]]) ->
  (forall i, (i < length A)%nat -> nth i (nth i A []) 0%Qc <> l) ->
  (tol < norm N (opposite (residual A l (map (Qcmult y) v0))))%Qc ->
  forall fuel, davidson_algorithm N A stp tol prec v0 fuel = Err OutOfFuel.
Proof.
  intros N A stp tol prec v0 l y SA L0 Hs E D R fuel.
  assert (T1 : tall (length A) [v0]) by (constructor; [assumption | constructor]).
  assert (M : mat_vect A v0 = map (fun row => inner row v0) A).
  { unfold mat_vect. apply map_ext_in. intros row Hr. apply vdot_inner. unfold square in SA. rewrite Forall_forall in SA. rewrite L0. now apply SA. }
  assert (P : lowest_pair N A [v0] = Ok (l, map (Qcmult y) v0, opposite (residual A l (map (Qcmult y) v0)))).
  { assert (P : exists u r, lowest_pair N A [v0] = Ok (l, u, r) /\ u = map (Qcmult y) v0).
    { unfold lowest_pair. cbn [gram map]. rewrite M, vdot_inner by (now rewrite map_length). rewrite E. cbn [qsort qinsert fold_right].
      cbn [qindex]. rewrite qeqb_refl. cbn [bind]. eexists. eexists. split; [reflexivity|].
      unfold mix. cbn [combine fold_right fst snd]. rewrite <- L0. clear. unfold vscale, vadd, zero_vect.
      induction v0 as [|a v IH]; [reflexivity|]. cbn [map length repeat combine fst snd]. rewrite IH. f_equal. ring. }
    destruct P as (u & r & P & Q). pose proof (lowest_pair_inv _ _ _ _ _ _ SA T1 P) as [_ I]. now rewrite P, I, Q. }
  unfold davidson_algorithm. rewrite P. cbn [bind].
  destruct (qleb tol _) eqn:Q; cbn [negb].
  2:{ exfalso. apply qleb_false in Q. apply (Qclt_not_le _ _ R Q). }
  rewrite (mapM_ok _ _ _ (fun p => (snd p / (fst p - l))%Qc)).
  - cbn [bind]. replace (Z.to_nat stp) with 0%nat by lia. generalize (qr N (length A) [v0; map (fun p : Qc * Qc => (snd p / (fst p - l))%Qc) (combine (mat_diagonal A) (opposite (residual A l (map (Qcmult y) v0))))]).
    intros V. induction fuel as [|fuel IH]; [reflexivity|]. cbn [outer_loop].
    destruct (qleb _ tol) eqn:Q2; cbn [negb inner_loop bind]; [|assumption]. apply qleb_le in Q2. exfalso. apply (Qclt_not_le _ _ R Q2).
  - intros [d r] I. apply in_combine_l in I. destruct (In_nth_error _ _ I) as (i & Hi).
    assert (Li : (i < length A)%nat) by (rewrite <- mat_diagonal_length; apply nth_error_Some; congruence).
    rewrite mat_diagonal_nth in Hi by assumption. injection Hi as <-. cbn [fst snd].
    destruct (qeqb _ l) eqn:Q3; [|reflexivity]. apply qeqb_eq in Q3. exfalso. now apply (D i).
Qed.
