(** Final lemmas for C49 and C50. *)
From Coq Require Import ZArith List Bool Lia Permutation Sorted QArith Qcanon.
From Verif Require Import PyBase PyFacts Lattice Base Interact Spin Prob Dav Spec SpecOps SpecTJ SpecSpin SpinDefs ProbDefs DavDefs
  PSpin PRep POps PHam PWave PVec PSecSum PBound PQc PProb PDavVec PLowest PDav PDavIter Examples FDav.
Import ListNotations.
Open Scope Z_scope.

(** ** C50 *)
Lemma orthonormal_app_l : forall U V, orthonormal (U ++ V) -> orthonormal U.
Proof.
  intros U V O i j Hi Hj. specialize (O i j). rewrite !app_length, !app_nth1 in O by assumption. apply O; lia.
Qed.

Lemma orthonormal_in : forall U u V, orthonormal (U ++ u :: V) -> inner u u = 1%Qc /\ forall v, In v U -> inner v u = 0%Qc.
Proof.
  intros U u V O. split.
  - specialize (O (length U) (length U)). rewrite !app_length, !app_nth2, !Nat.sub_diag, Nat.eqb_refl in O by lia. cbn [nth length] in O. apply O; lia.
  - intros v Hv. destruct (In_nth _ _ [] Hv) as (i & Hi & <-). specialize (O i (length U)). rewrite !app_length, (app_nth1 U) in O by assumption.
    rewrite (app_nth2 U), Nat.sub_diag in O by lia. cbn [nth length] in O. rewrite O by lia. destruct (Nat.eqb_spec i (length U)); [lia | reflexivity].
Qed.

Lemma inner_orthogonal_part : forall us x v, (forall u, In u us -> length u = length x) -> length v = length x ->
  inner v (orthogonal_part us x) = (inner v x - qsum (fun u => inner u x * inner v u) us)%Qc.
Proof.
  intros us x v T L. unfold inner at 1. unfold orthogonal_part. rewrite L.
  rewrite (qsum_ext _ _ (fun i => nth i v 0 * nth i x 0 + - qsum (fun u => inner u x * (nth i v 0 * nth i u 0)) us)%Qc).
  - rewrite qsum_add, qsum_opp, qsum_exchange. unfold Qcminus. f_equal; [unfold inner; now rewrite L|]. f_equal. apply qsum_ext. intros u Hu.
    rewrite qsum_scale. unfold inner at 3. rewrite L. reflexivity.
  - intros i Hi. apply in_seq in Hi. rewrite nth_map_seq by lia.
    rewrite (qsum_ext _ (fun u => inner u x * (nth i v 0 * nth i u 0))%Qc (fun u => nth i v 0 * (inner u x * nth i u 0))%Qc) by (intros; ring).
    rewrite qsum_scale. ring.
Qed.

Lemma orthogonal_part_length : forall us x, length (orthogonal_part us x) = length x.
Proof. intros. unfold orthogonal_part. now rewrite map_length, seq_length. Qed.

Lemma project_out_part : forall us x, tall (length x) us -> orthonormal us -> project_out us x = orthogonal_part us x.
Proof.
  intros us x. unfold project_out. induction us as [|u us IH] using rev_ind; intros T O.
  - cbn [fold_left]. unfold orthogonal_part. apply (nth_ext _ _ 0%Qc 0%Qc); [now rewrite map_length, seq_length|].
    intros i Hi. rewrite nth_map_seq by assumption. rewrite qsum_nil. ring.
  - apply Forall_app in T. destruct T as [T1 T2]. inversion T2 as [|? ? T3 _]; subst.
    destruct (orthonormal_in us u [] O) as [_ Z0]. rewrite fold_left_app, IH by (try assumption; eapply orthonormal_app_l, O). cbn [fold_left].
    unfold tall in T1. rewrite Forall_forall in T1.
    assert (V : vdot u (orthogonal_part us x) = inner u x).
    { rewrite vdot_inner by (now rewrite orthogonal_part_length). rewrite inner_orthogonal_part by auto. rewrite qsum_zero; [ring|].
      intros v Hv. replace (inner u v) with (inner v u); [rewrite Z0 by assumption; ring|].
      rewrite <- !vdot_inner by (try rewrite (T1 v Hv); congruence). apply vdot_comm. }
    rewrite V. apply (nth_ext _ _ 0%Qc 0%Qc).
    + rewrite vsub_length; rewrite ?vscale_length, ?orthogonal_part_length; auto.
    + intros i Hi. rewrite vsub_length in Hi by (rewrite vscale_length, orthogonal_part_length; auto). rewrite orthogonal_part_length in Hi.
      unfold vsub. rewrite nth_vadd by (rewrite !vscale_length, orthogonal_part_length; auto). rewrite !nth_vscale.
      unfold orthogonal_part. rewrite !nth_map_seq by assumption. rewrite qsum_app, qsum_one. ring.
Qed.

Lemma orthogonalise_once : forall N eta us x, orthogonalise N 2 eta us x 0 = Ok (project_out us x).
Proof. reflexivity. Qed.

Lemma slice_last : forall A (l1 l2 : list A), l2 <> [] -> py_slice_from (l1 ++ l2) (- zlen l2) = l2.
Proof.
  intros A l1 l2 H. unfold py_slice_from, py_slice, py_clamp, py_norm, zlen. rewrite app_length. destruct l2 as [|a l2]; [congruence|]. cbn [length].
  repeat (match goal with |- context [?a <? ?b] => destruct (Z.ltb_spec a b) end; try lia).
  replace (Z.to_nat _) with (length (a :: l2)) by (cbn [length]; lia).
  replace (Z.to_nat _) with (length l1) by lia. rewrite skipn_app, skipn_all, Nat.sub_diag. cbn [app skipn]. apply firstn_all.
Qed.
Lemma slice_all : forall A (l : list A), py_slice_from l (- 0) = l.
Proof.
  intros A l. unfold py_slice_from, py_slice, py_clamp, py_norm, zlen.
  repeat (match goal with |- context [?a <? ?b] => destruct (Z.ltb_spec a b) end; try lia);
  rewrite ?Z.min_l, ?Z.max_r by lia; rewrite ?Z.sub_0_r; cbn; rewrite ?Nat2Z.id; try apply firstn_all.
  all: destruct l; [reflexivity | cbn [length] in *; lia].
Qed.

Lemma foldM_index : forall A B (g : B -> A -> res B) temp pre post st,
  foldM (fun st c => x <- py_get (pre ++ temp ++ post) c ;; g st x) st (map Z.of_nat (seq (length pre) (length temp))) = foldM g st temp.
Proof.
  intros A B g. induction temp as [|x temp IH]; intros pre post st; [reflexivity|]. cbn [length seq map foldM].
  rewrite (py_get_nth _ _ _ x) by (rewrite !app_length; cbn [length]; lia). rewrite app_nth2, Nat.sub_diag by lia. cbn [app nth bind].
  destruct (g st x) as [st'|e]; [|reflexivity]. cbn [bind]. specialize (IH (pre ++ [x]) post st'). rewrite <- app_assoc, app_length in IH. cbn [length app] in IH.
  replace (S (length pre)) with (length pre + 1)%nat by lia. exact IH.
Qed.

Definition keep_step (N : numerics) (droptol eta : Qc) (st : list (list Qc) * Z) (x : list Qc) : res (list (list Qc) * Z) :=
  let '(corrections, block_size_new) := st in
  x <- orthogonalise N 2 eta corrections x 0 ;;
  if qleb (norm N x) droptol then Ok (corrections, block_size_new)
  else
    correction <- mapM (fun e => fdiv e (norm N x)) x ;;
    Ok (corrections ++ [correction], block_size_new + 1).

Lemma corrections_fold : forall N krylov temp droptol eta nu, 0 <= nu <= Z.of_nat (length temp) ->
  get_meaningful_corrections N krylov temp droptol eta nu =
  (st <- foldM (keep_step N droptol eta) (krylov, 0) (firstn (Z.to_nat nu) temp) ;; Ok (py_slice_from (fst st) (- (snd st)))).
Proof.
  intros N krylov temp droptol eta nu H. unfold get_meaningful_corrections. rewrite zrange_seq by lia.
  rewrite <- (foldM_index _ _ (keep_step N droptol eta) (firstn (Z.to_nat nu) temp) [] (skipn (Z.to_nat nu) temp)).
  rewrite firstn_length, Nat.min_l by lia. cbn [length app]. rewrite firstn_skipn. f_equal. apply foldM_ext. intros [us b] x _. reflexivity.
Qed.

Lemma fdiv_all : forall x n, n <> 0%Qc -> mapM (fun e => fdiv e n) x = Ok (map (fun e => e / n)%Qc x).
Proof.
  intros x n H. apply mapM_ok. intros e _. unfold fdiv. destruct (qeqb n 0) eqn:Q; [|reflexivity]. apply qeqb_eq in Q. contradiction.
Qed.

Lemma keep_fold : forall N droptol eta, (0 <= droptol)%Qc -> forall dim xs us b, tall dim us -> tall dim xs ->
  orthonormal (us ++ kept_corrections (norm N) droptol us xs) ->
  foldM (keep_step N droptol eta) (us, b) xs =
  Ok (us ++ kept_corrections (norm N) droptol us xs, b + zlen (kept_corrections (norm N) droptol us xs)).
Proof.
  intros N droptol eta Hd dim. induction xs as [|x xs IH]; intros us b Tu Tx O; cbn [foldM kept_corrections].
  - now rewrite app_nil_r, Z.add_0_r.
  - inversion Tx as [|? ? Lx Tx']; subst. unfold keep_step at 1. rewrite orthogonalise_once. cbn [bind].
    rewrite project_out_part by (try assumption; eapply orthonormal_app_l, O). cbn [kept_corrections] in O. set (w := orthogonal_part us x) in *.
    destruct (Qclt_le_dec droptol (norm N w)) as [L|L].
    + destruct (qleb (norm N w) droptol) eqn:Q. { apply qleb_le in Q. exfalso. apply (Qclt_not_le _ _ L Q). }
      rewrite fdiv_all by (intros Q0; rewrite Q0 in L; apply (Qclt_not_le _ _ L Hd)). cbn [bind].
      set (c := map (fun e => (e / norm N w)%Qc) w) in *.
      set (R := kept_corrections (norm N) droptol (us ++ [c]) xs) in *.
      assert (EA : us ++ c :: R = (us ++ [c]) ++ R) by (now rewrite <- app_assoc). rewrite EA in O |- *.
      rewrite (IH (us ++ [c])); try assumption.
      * fold R. f_equal. f_equal. unfold zlen. cbn [length]. lia.
      * apply Forall_app. split; [assumption|]. constructor; [|constructor]. unfold c, w. rewrite map_length. apply orthogonal_part_length.
    + rewrite (proj2 (qleb_le _ _) L). now apply IH.
Qed.

Lemma C50_kept_pf : forall N krylov temp droptol eta nu dim, tall dim krylov -> tall dim temp -> (0 <= droptol)%Qc ->
  0 <= nu <= Z.of_nat (length temp) ->
  let kept := kept_corrections (norm N) droptol krylov (firstn (Z.to_nat nu) temp) in
  orthonormal (krylov ++ kept) ->
  get_meaningful_corrections N krylov temp droptol eta nu = Ok (match kept with [] => krylov | _ => kept end).
Proof.
  intros N krylov temp droptol eta nu dim Tk Tt Hd Hn kept O. rewrite corrections_fold by assumption.
  rewrite (keep_fold N droptol eta Hd dim) ; try assumption.
  - cbn [bind fst snd]. fold kept. f_equal. destruct kept as [|c k] eqn:Q.
    + cbn [zlen length]. rewrite app_nil_r. apply slice_all.
    + rewrite <- Q. rewrite Z.add_0_l. apply slice_last. congruence.
  - unfold tall in *. rewrite Forall_forall in *. intros v Hv. apply Tt. clear - Hv. rewrite <- (firstn_skipn (Z.to_nat nu) temp). apply in_or_app. now left.
Qed.

Lemma nth_firstn_lt : forall A (l : list A) n k d, (k < n)%nat -> nth k (firstn n l) d = nth k l d.
Proof.
  intros A. induction l as [|x l IH]; intros [|n] [|k] d H; try lia; try reflexivity. cbn [firstn nth]. apply IH. lia.
Qed.

Lemma C50_none_pf : forall N krylov temp droptol eta nu dim, tall dim krylov -> tall dim temp -> (0 <= droptol)%Qc ->
  0 <= nu <= Z.of_nat (length temp) -> orthonormal krylov ->
  (forall k, (k < Z.to_nat nu)%nat -> (norm N (orthogonal_part krylov (nth k temp [])) <= droptol)%Qc) ->
  get_meaningful_corrections N krylov temp droptol eta nu = Ok krylov.
Proof.
  intros N krylov temp droptol eta nu dim Tk Tt Hd Hn O H.
  assert (E : kept_corrections (norm N) droptol krylov (firstn (Z.to_nat nu) temp) = []).
  { assert (G : forall x, In x (firstn (Z.to_nat nu) temp) -> (norm N (orthogonal_part krylov x) <= droptol)%Qc).
    { intros x Hx. destruct (In_nth _ _ [] Hx) as (k & Hk & <-). rewrite firstn_length in Hk. rewrite nth_firstn_lt by lia. apply H. lia. }
    revert G. generalize (firstn (Z.to_nat nu) temp) as xs. induction xs as [|x xs IH]; intros G; [reflexivity|]. cbn [kept_corrections].
    destruct (Qclt_le_dec _ _) as [L|L]; [exfalso; apply (Qclt_not_le _ _ L); apply G; now left|]. apply IH. intros; apply G; now right. }
  rewrite (C50_kept_pf N krylov temp droptol eta nu dim) by (try assumption; rewrite E, app_nil_r; assumption). now rewrite E.
Qed.

Lemma keep_len : forall N droptol eta xs us b st, foldM (keep_step N droptol eta) (us, b) xs = Ok st ->
  exists new, fst st = us ++ new /\ snd st = b + zlen new.
Proof.
  intros N droptol eta. induction xs as [|x xs IH]; intros us b st H; cbn [foldM] in H.
  - apply ok_eq in H. subst st. exists []. cbn [fst snd]. rewrite app_nil_r. split; [reflexivity | unfold zlen; cbn [length]; lia].
  - apply bind_ok_inv in H. destruct H as ([us' b'] & E & H). unfold keep_step in E. rewrite orthogonalise_once in E. cbn [bind] in E.
    destruct (qleb _ _).
    + apply ok_eq in E. injection E as <- <-. apply (IH _ _ _ H).
    + apply bind_ok_inv in E. destruct E as (c & _ & E). apply ok_eq in E. injection E as <- <-. destruct (IH _ _ _ H) as (new & Q1 & Q2).
      exists (c :: new). rewrite Q1, Q2, <- app_assoc. split; [reflexivity | unfold zlen; cbn [length]; lia].
Qed.

Lemma C50_never_empty_pf : forall N krylov temp droptol eta nu r, 0 <= nu <= Z.of_nat (length temp) -> krylov <> [] ->
  get_meaningful_corrections N krylov temp droptol eta nu = Ok r -> r <> [].
Proof.
  intros N krylov temp droptol eta nu r Hn Hk H. rewrite corrections_fold in H by assumption. apply bind_ok_inv in H. destruct H as (st & E & H).
  apply ok_eq in H. destruct (keep_len _ _ _ _ _ _ _ E) as (new & Q1 & Q2). rewrite Q1, Q2, Z.add_0_l in H. destruct new as [|c new].
  - cbn [zlen length Z.of_nat] in H. rewrite app_nil_r in H. change (- zlen (A := list Qc) []) with (- 0) in H. rewrite slice_all in H. congruence.
  - rewrite slice_last in H by discriminate. subst r. discriminate.
Qed.

Lemma C50_eta_unused_pf : forall N krylov temp droptol eta eta' nu, 
  get_meaningful_corrections N krylov temp droptol eta nu = get_meaningful_corrections N krylov temp droptol eta' nu.
Proof. reflexivity. Qed.

Lemma C50_refuted_pf : exists N krylov temp droptol eta nu, tall 2 krylov /\ orthonormal krylov /\ tall 2 temp /\ (0 < droptol)%Qc /\ 
  nu = Z.of_nat (length temp) /\ norm_above N /\
  (forall x, In x temp -> norm N x = 0%Qc) /\
  exists r, get_meaningful_corrections N krylov temp droptol eta nu = Ok r /\ r = krylov /\ r <> [].
Proof.
  exists ex_numerics, [[qfrac 3 5; qfrac 4 5]], [[0%Qc; 0%Qc]; [0%Qc; 0%Qc]], (qfrac 1 1000000), (qfrac 1 10), 2.
  assert (T : tall 2 [[qfrac 3 5; qfrac 4 5]]) by (repeat constructor). assert (O : orthonormal [[qfrac 3 5; qfrac 4 5]]) by (apply orthonormalb_ok; vm_compute; reflexivity).
  assert (T2 : tall 2 [[0%Qc; 0%Qc]; [0%Qc; 0%Qc]]) by (repeat constructor).
  split; [assumption|]. split; [assumption|]. split; [assumption|]. split; [reflexivity|]. split; [reflexivity|]. split; [exact ex_norm_above|]. split.
  { intros x [<-|[<-|[]]]; apply Qc_is_canon; vm_compute; reflexivity. }
  exists [[qfrac 3 5; qfrac 4 5]]. split; [|split; [reflexivity | discriminate]].
  apply (C50_none_pf _ _ _ _ _ _ 2 T T2); [discriminate | cbn [length]; lia | exact O |].
  intros k Hk. apply qleb_le. change (Z.to_nat 2) with 2%nat in Hk. destruct k as [|[|k]]; [| |lia]; vm_compute; reflexivity.
Qed.

(** ** C49 *)
Lemma in_firstn_in : forall X (l : list X) n x, In x (firstn n l) -> In x l.
Proof. exact in_firstn. Qed.
Lemma in_skipn_in : forall X (l : list X) n x, In x (skipn n l) -> In x l.
Proof. intros X l n x H. rewrite <- (firstn_skipn n l). apply in_or_app. now right. Qed.
Lemma nth_set_same : forall X (l : list X) k v d, (k < length l)%nat -> nth k (set_nth l k v) d = v.
Proof. intros. apply nth_error_nth. now apply set_nth_same. Qed.
Lemma nth_set_other : forall X (l : list X) k j v d, k <> j -> nth j (set_nth l k v) d = nth j l d.
Proof.
  intros X l k j v d H. pose proof (set_nth_other X l k j v H) as Q. destruct (nth_error l j) as [x|] eqn:E.
  - rewrite (nth_error_nth _ _ d Q), (nth_error_nth _ _ d E). reflexivity.
  - apply nth_error_None in E, Q. rewrite !nth_overflow by assumption. reflexivity.
Qed.
Section OPT.
Context (N : numerics) (A : list (list Qc)) (nb nu_0 : Z) (tol droptol eta : Qc) (dm : Z).
Context (SA : square A) (HQ : qr_shape N) (Hb : nb <= nu_0).

(** the first pairs are aligned, the other columns are zero *)
Definition aligned (vals : list Qc) (vects : list (list Qc)) : Prop :=
  length vects = Z.to_nat nb /\ (length vals <= Z.to_nat nb)%nat /\
  (forall k, (k < length vals)%nat -> (norm N (residual A (nth k vals 0%Qc) (nth k vects [])) <= tol)%Qc) /\
  forall k, (length vals <= k < Z.to_nat nb)%nat -> nth k vects [] = zero_vect (length A).
Definition opt_inv (s : opt_state) : Prop :=
  o_found s = Z.of_nat (length (o_eigvals s)) /\ o_found s < nb /\ tall (length A) (o_krylov s) /\ aligned (o_eigvals s) (o_eigvects s).

Definition defl (vals : list Qc) (found : Z) (st : list Qc * list (list Qc) * list (list Qc)) (p : Z * bool) :=
  let '(eigvals, eigvects, ritz_vectors) := st in
  let '(col, res_ind) := p in
  if res_ind && (found <? nb) then
    x <- py_get vals col ;;
    u <- py_get ritz_vectors col ;;
    eigvects <- py_set eigvects (found + 0) u ;;
    ritz_vectors <- swap_views ritz_vectors col 0 ;;
    Ok (eigvals ++ [x], eigvects, ritz_vectors)
  else Ok (eigvals, eigvects, ritz_vectors).

Lemma defl_length : forall vals found l st st', found < nb -> foldM (defl vals found) st l = Ok st' ->
  (length (fst (fst st')) = length (fst (fst st)) + length (filter snd l))%nat.
Proof.
  intros vals found. induction l as [|[col b] l IH]; intros [[ev ex] rz] st' H E; cbn [foldM] in E; [apply ok_eq in E; subst; cbn [filter length]; lia|].
  apply bind_ok_inv in E. destruct E as (st1 & E1 & E). specialize (IH _ _ H E). unfold defl in E1. destruct b; cbn [andb] in E1.
  - destruct (Z.ltb_spec found nb); [|lia]. apply bind_ok_inv in E1. destruct E1 as (x & _ & E1). apply bind_ok_inv in E1. destruct E1 as (u & _ & E1).
    apply bind_ok_inv in E1. destruct E1 as (ex' & _ & E1). apply bind_ok_inv in E1. destruct E1 as (rz' & _ & E1). apply ok_eq in E1. subst st1.
    cbn [fst snd filter length] in *. rewrite app_length in IH. cbn [length] in IH. lia.
  - apply ok_eq in E1. subst st1. cbn [fst snd filter length] in *. assumption.
Qed.

Lemma defl_none : forall vals found l st, filter snd l = [] -> foldM (defl vals found) st l = Ok st.
Proof.
  intros vals found. induction l as [|[col b] l IH]; intros [[ev ex] rz] H; [reflexivity|]. cbn [filter snd] in H. destruct b; [discriminate|].
  cbn [foldM defl andb bind]. now apply IH.
Qed.

Lemma defl_one : forall vals found l st st' p, found < nb -> filter snd l = [p] -> foldM (defl vals found) st l = Ok st' ->
  exists x u, py_get vals (fst p) = Ok x /\ py_get (snd st) (fst p) = Ok u /\ fst (fst st') = fst (fst st) ++ [x] /\
    py_set (snd (fst st)) found u = Ok (snd (fst st')).
Proof.
  intros vals found. induction l as [|[col b] l IH]; intros [[ev ex] rz] st' p H F E; [discriminate|]. cbn [filter snd] in F. cbn [foldM] in E.
  apply bind_ok_inv in E. destruct E as (st1 & E1 & E). unfold defl in E1. destruct b; cbn [andb] in E1.
  - injection F as <- F. destruct (Z.ltb_spec found nb); [|lia].
    apply bind_ok_inv in E1. destruct E1 as (x & Q1 & E1). apply bind_ok_inv in E1. destruct E1 as (u & Q2 & E1).
    apply bind_ok_inv in E1. destruct E1 as (ex' & Q3 & E1). apply bind_ok_inv in E1. destruct E1 as (rz' & _ & E1). apply ok_eq in E1. subst st1.
    rewrite (defl_none _ _ _ _ F) in E. apply ok_eq in E. subst st'. cbn [fst snd]. rewrite Z.add_0_r in Q3. eauto 10.
  - apply ok_eq in E1. subst st1. destruct (IH _ _ _ H F E) as (x & u & Q). eauto.
Qed.

(** what one iteration has computed when it reaches the corrections *)
Lemma opt_step_inv : forall s o, opt_inv s -> opt_step N A nb nu_0 tol droptol eta dm s = Ok o ->
  exists vals ys rs d, let conv := map (fun r => qleb (norm N r) tol) rs in
    (forall k, (k < length rs)%nat -> exists l y, nth_error vals k = Some l /\ nth_error ys k = Some y /\
      nth k rs [] = residual A l (mix (length A) (o_krylov s) y)) /\
    Z.of_nat (length rs) <= nu_0 - o_found s /\
    foldM (defl vals (o_found s)) (o_eigvals s, o_eigvects s, map (mix (length A) (o_krylov s)) ys) (enumerate conv) = Ok d /\
    (o = ODone (fst d) /\ nb <= o_found s + count_true conv \/
     exists K, o = ONext (mkOpt (o_found s + count_true conv) (fst (fst d)) (snd (fst d)) K) /\ o_found s + count_true conv < nb /\ 
       exists V, K = qr N (length A) V /\ (tall (length A) (snd d) -> tall (length A) V)).
Proof.
  intros s o (I1 & I2 & I3 & I4) H. unfold opt_step in H. cbv zeta in H.
  destruct (eigh N _) as [v0 y0]. set (nu := Z.min _ _) in H.
  assert (Hnu : 0 <= nu) by (unfold nu; apply Z.min_glb; [apply zlen_nonneg | lia]).
  destruct (lowest_ok v0 nu Hnu) as (idx & Hs & Li & F). rewrite (F y0) in H.
  apply bind_ok_inv in H. destruct H as (low & E0 & H). apply bind_ok_inv in E0. destruct E0 as (ys & E1 & E0). apply ok_eq in E0. subst low.
  set (vals := map (fun i => nth i v0 0%Qc) idx) in *.
  apply bind_ok_inv in H. destruct H as (rs & Er & H).
  destruct (residues_ok A _ vals ys nu rs SA I3 Er) as [Lr Rr].
  apply bind_ok_inv in H. destruct H as (d & Ed & H). destruct d as [[ev ex] rz].
  exists vals, ys, rs, (ev, ex, rz). cbv zeta. split; [|split; [unfold nu in Lr; lia | split]].
  - intros k Hk. rewrite Lr in Hk. destruct (Rr k Hk) as (l & x & Q1 & Q2 & Q3 & _). rewrite nth_error_map in Q2. destruct (nth_error ys k) as [y|] eqn:Y; [|discriminate].
    injection Q2 as <-. exists l, y. split; [assumption|]. split; [reflexivity|]. now apply nth_error_nth.
  - exact Ed.
  - cbn [fst snd]. set (nc := count_true _) in *. destruct (Z.leb_spec nb (o_found s + nc)) as [Ld|Ld].
    + left. apply ok_eq in H. auto.
    + right. apply bind_ok_inv in H. destruct H as (tc & Et & H). apply bind_ok_inv in H. destruct H as (cs & Ec & H). apply ok_eq in H. subst o.
      assert (Tt : tall (length A) tc).
      { apply (mapM_Forall _ _ _ _ _ _ Et). intros ind cv _ E. destruct (ind <? nc); [apply ok_eq in E; subst cv; apply zero_length|].
        apply bind_ok_inv in E. destruct E as (l & _ & E). apply bind_ok_inv in E.
        destruct E as (r & E2 & E). rewrite (mapM_length _ _ _ _ _ E), combine_length, mat_diagonal_length.
        assert (Lrr : length r = length A).
        { apply py_get_In in E2. apply In_nth_error in E2. destruct E2 as [j Ej].
          assert (Hj : (j < length rs)%nat) by (apply nth_error_Some; congruence). rewrite Lr in Hj. destruct (Rr j Hj) as (l' & x' & _ & _ & Q & _).
          assert (r = residual A l' x') by congruence. subst r. apply residual_length. }
        rewrite Lrr. apply Nat.min_id. }
      assert (Tc : tall (length A) cs).
      { assert (Ltc : length tc = Z.to_nat nu) by (rewrite (mapM_length _ _ _ _ _ Et), zrange_length; f_equal; lia).
        rewrite corrections_fold in Ec by lia. apply bind_ok_inv in Ec. destruct Ec as (st & Ef & Ec). apply ok_eq in Ec. subst cs.
        assert (Tf : tall (length A) (firstn (Z.to_nat nu) tc)).
        { unfold tall in *. rewrite Forall_forall in *. intros v Hv. apply Tt. rewrite <- (firstn_skipn (Z.to_nat nu) tc). apply in_or_app. now left. }
        assert (Tst : tall (length A) (fst st)).
        { revert Ef. generalize 0 as b. revert I3 Tf. generalize (o_krylov s) as us. generalize (firstn (Z.to_nat nu) tc) as xs. clear - HQ.
          induction xs as [|x xs IH]; intros us Tu Tx b E; cbn [foldM] in E; [apply ok_eq in E; now subst st|].
          inversion Tx as [|? ? Lx Tx']; subst. apply bind_ok_inv in E. destruct E as ([us' b'] & E1 & E). apply (IH us' ) with (b := b'); try assumption.
          unfold keep_step in E1. rewrite orthogonalise_once in E1. cbn [bind] in E1. destruct (qleb _ _); [apply ok_eq in E1; now injection E1 as <- _|].
          apply bind_ok_inv in E1. destruct E1 as (c & E1 & E2). apply ok_eq in E2. injection E2 as <- _. apply Forall_app. split; [assumption|].
          constructor; [|constructor]. rewrite (mapM_length _ _ _ _ _ E1). unfold project_out.
          revert Lx. clear - Tu. revert x. induction us as [|u us IHu]; intros x Lx; [assumption|]. cbn [fold_left]. inversion Tu as [|? ? Hu Tu']; subst.
          rewrite IHu; [reflexivity|assumption|]. rewrite vsub_length; [assumption|]. rewrite vscale_length. congruence. }
        unfold tall in *. rewrite Forall_forall in *. intros v Hv. apply Tst. unfold py_slice_from, py_slice in Hv.
        apply in_firstn_in in Hv. apply in_skipn_in in Hv. assumption. }
      eexists. split; [reflexivity|]. split; [lia|]. destruct (_ || _).
      * eexists. split; [reflexivity|]. intros Trz. apply Forall_app. split; [|assumption]. unfold tall in *. rewrite Forall_forall in *. intros v Hv. apply Trz.
        unfold py_slice_from, py_slice in Hv. apply in_firstn_in in Hv. apply in_skipn_in in Hv. assumption.
      * eexists. split; [reflexivity|]. intros _. apply Forall_app. split; assumption.
Qed.

Lemma enumerate_true : forall (l : list bool) k, length (filter snd (combine (map Z.of_nat (seq k (length l))) l)) = length (filter (fun b => b) l).
Proof.
  induction l as [|b l IH]; intros k; [reflexivity|]. cbn [length seq map combine filter snd]. destruct b; cbn [length]; now rewrite IH.
Qed.
Lemma enumerate_count : forall l, Z.of_nat (length (filter snd (enumerate l))) = count_true l.
Proof. intros l. unfold enumerate, count_true, zlen. rewrite zrange_seq by lia. rewrite Nat2Z.id. now rewrite enumerate_true. Qed.

Lemma swap_tall : forall m i j m', tall (length A) m -> swap_views m i j = Ok m' -> tall (length A) m'.
Proof.
  intros m i j m' T H. unfold swap_views in H. apply bind_ok_inv in H. destruct H as (x & Ex & H). apply bind_ok_inv in H. destruct H as (m1 & E1 & H).
  apply bind_ok_inv in H. destruct H as (y & Ey & H).
  assert (P : forall (m m' : list (list Qc)) i x, tall (length A) m -> In x m -> py_set m i x = Ok m' -> tall (length A) m').
  { clear. intros m m' i x T I H. unfold py_set in H. destruct (_ || _); [discriminate|]. apply ok_eq in H. subst m'.
    assert (Lx : length x = length A) by (unfold tall in T; rewrite Forall_forall in T; auto). clear I. unfold tall in *. revert T. generalize (Z.to_nat (py_norm (zlen m) i)) as k.
    induction m as [|a m IH]; intros [|k] T; cbn [set_nth]; try constructor; inversion T; subst; auto. }
  pose proof (P m m1 i x T (py_get_In _ _ _ _ Ex) E1) as T1. apply (P m1 m' j y T1 (py_get_In _ _ _ _ Ey) H).
Qed.
Lemma defl_tall : forall vals found l st st', foldM (defl vals found) st l = Ok st' -> tall (length A) (snd st) -> tall (length A) (snd st').
Proof.
  intros vals found. induction l as [|[col b] l IH]; intros [[ev ex] rz] st' E T; cbn [foldM] in E; [apply ok_eq in E; now subst|].
  apply bind_ok_inv in E. destruct E as (st1 & E1 & E). apply (IH _ _ E). unfold defl in E1. destruct (b && (found <? nb)).
  - apply bind_ok_inv in E1. destruct E1 as (x & _ & E1). apply bind_ok_inv in E1. destruct E1 as (u & _ & E1).
    apply bind_ok_inv in E1. destruct E1 as (ex' & _ & E1). apply bind_ok_inv in E1. destruct E1 as (rz' & Q & E1). apply ok_eq in E1. subst st1. cbn [snd] in *.
    eapply swap_tall; eassumption.
  - apply ok_eq in E1. now subst st1.
Qed.

Lemma aligned_step : forall s vals ys rs d, opt_inv s ->
    (forall k, (k < length rs)%nat -> exists l y, nth_error vals k = Some l /\ nth_error ys k = Some y /\
      nth k rs [] = residual A l (mix (length A) (o_krylov s) y)) ->
    foldM (defl vals (o_found s)) (o_eigvals s, o_eigvects s, map (mix (length A) (o_krylov s)) ys) (enumerate (map (fun r => qleb (norm N r) tol) rs)) = Ok d ->
    count_true (map (fun r => qleb (norm N r) tol) rs) <= 1 -> aligned (fst (fst d)) (snd (fst d)).
Proof.
  intros s vals ys rs d (I1 & I2 & I3 & I4) R E C. set (conv := map _ rs) in *. pose proof (enumerate_count conv) as EC.
  destruct (filter snd (enumerate conv)) as [|p q] eqn:F.
  - rewrite (defl_none _ _ _ _ F) in E. apply ok_eq in E. subst d. exact I4.
  - destruct q as [|p2 q]; [|cbn [length] in EC; lia].
    destruct (defl_one _ _ _ _ _ _ I2 F E) as (x & u & Q1 & Q2 & Q3 & Q4). cbn [fst snd] in *. destruct I4 as (A1 & A2 & A3 & A4).
    assert (P : In p (enumerate conv) /\ snd p = true) by (apply filter_In; rewrite F; now left). destruct P as [P1 P2].
    destruct p as [col b]. cbn [fst snd] in *. subst b.
    assert (Hcol : exists k, col = Z.of_nat k /\ (k < length rs)%nat /\ (norm N (nth k rs []) <= tol)%Qc).
    { apply In_nth_error in P1. destruct P1 as [k Pk]. unfold enumerate in Pk. exists k.
      assert (Lk : (k < length conv)%nat). { assert (k < length (combine (zrange 0 (zlen conv)) conv))%nat by (apply nth_error_Some; congruence). rewrite combine_length in H. lia. }
      apply nth_error_nth with (d := (0, false)) in Pk. rewrite combine_nth in Pk by (rewrite zrange_length; unfold zlen; lia). injection Pk as Pk1 Pk2.
      rewrite zrange_seq in Pk1 by (unfold zlen; lia). split; [|split].
      - rewrite <- Pk1. apply nth_error_nth. rewrite nth_error_map, (nth_error_nth' _ 0%nat) by (rewrite seq_length; unfold zlen; lia).
        rewrite seq_nth by (unfold zlen; lia). reflexivity.
      - unfold conv in Lk. now rewrite map_length in Lk.
      - apply qleb_le. rewrite <- Pk2. unfold conv. symmetry. unfold conv in Lk. rewrite map_length in Lk. apply nth_error_nth.
        rewrite nth_error_map, (nth_error_nth' _ []) by assumption. reflexivity. }
    destruct Hcol as (k & -> & Hk & Hn). destruct (R k Hk) as (l & y & R1 & R2 & R3). apply py_get_of_nat in Q1, Q2.
    rewrite nth_error_map, R2 in Q2. injection Q2 as <-. assert (x = l) by congruence. subst x. rewrite R3 in Hn.
    rewrite Q3. rewrite py_set_ok in Q4 by (unfold zlen; rewrite A1; lia). apply ok_eq in Q4. rewrite <- Q4.
    rewrite I1, Nat2Z.id. unfold aligned. rewrite set_nth_length, app_length. cbn [length]. split; [assumption|]. split; [lia|]. split.
    + intros j Hj. destruct (Nat.eq_dec j (length (o_eigvals s))) as [->|Nj].
      * rewrite app_nth2, Nat.sub_diag by lia. cbn [nth]. rewrite nth_set_same by (rewrite A1; lia). exact Hn.
      * rewrite app_nth1 by lia. rewrite nth_set_other by lia. apply A3. lia.
    + intros j Hj. rewrite nth_set_other by lia. apply A4. lia.
Qed.

Lemma opt_keeps : forall s0, one_at_a_time N A nb nu_0 tol droptol eta dm s0 -> opt_inv s0 -> forall s, opt_reached N A nb nu_0 tol droptol eta dm s0 s -> opt_inv s.
Proof.
  intros s0 OA I0 s H. induction H as [|s s' H IH E]; [assumption|]. destruct (opt_step_inv _ _ IH E) as (vals & ys & rs & d & R & Lrs & Ed & [[Q _]|(K & Q & Lt & V & QK & TV)]); [discriminate|].
  injection Q as ->. set (conv := map _ rs) in *. pose proof IH as (I1 & I2 & I3 & I4).
  destruct (OA s H) as [OA1 _]. specialize (OA1 _ E). cbn [o_found] in OA1.
  assert (C : count_true conv <= 1) by lia.
  pose proof (defl_length _ _ _ _ _ I2 Ed) as Ld. cbn [fst snd] in Ld. pose proof (enumerate_count conv) as EC.
  split; [cbn; lia|]. split; [cbn; lia|]. split; [|exact (aligned_step s vals ys rs d IH R Ed C)].
  cbn [o_krylov]. rewrite QK. apply HQ. apply TV. apply (defl_tall _ _ _ _ _ Ed). cbn [snd]. now apply tall_map_mix.
Qed.

Lemma opt_loop_aligned : forall s0, one_at_a_time N A nb nu_0 tol droptol eta dm s0 -> opt_inv s0 ->
  forall stp s r, opt_reached N A nb nu_0 tol droptol eta dm s0 s -> opt_loop N A nb nu_0 tol droptol eta dm stp s = Ok r -> aligned (fst r) (snd r).
Proof.
  intros s0 OA I0. induction stp as [|stp IH]; intros s r Hs H; cbn [opt_loop] in H; pose proof (opt_keeps s0 OA I0 s Hs) as I.
  - apply ok_eq in H. subst r. apply I.
  - apply bind_ok_inv in H. destruct H as (o & Eo & H). destruct o as [r'|s'].
    + apply ok_eq in H. subst r'. destruct (opt_step_inv _ _ I Eo) as (vals & ys & rs & d & R & Lrs & Ed & [[Q _]|(K & Q & _)]); [|discriminate].
      injection Q as ->. set (conv := map _ rs) in *. pose proof I as (I1 & I2 & I3 & I4).
      destruct (OA s Hs) as [_ OA2]. destruct d as [[ev ex] rz]. cbn [fst snd] in *. specialize (OA2 _ _ Eo).
      pose proof (defl_length _ _ _ _ _ I2 Ed) as Ld. cbn [fst snd] in Ld. pose proof (enumerate_count conv) as EC.
      exact (aligned_step s vals ys rs (ev, ex, rz) I R Ed ltac:(fold conv; lia)).
    + eapply IH; [|exact H]. eapply opt_next; eassumption.
Qed.

Lemma count_true_le : forall l, count_true l <= Z.of_nat (length l).
Proof. intros l. unfold count_true, zlen. induction l as [|[] l IH]; cbn [filter length]; lia. Qed.

Lemma opt_single : nu_0 = 1 -> forall s0, opt_inv s0 -> one_at_a_time N A nb nu_0 tol droptol eta dm s0.
Proof.
  intros H1 s0 I0.
  assert (St : forall s o, opt_inv s -> opt_step N A nb nu_0 tol droptol eta dm s = Ok o ->
            match o with ODone (vals, _) => Z.of_nat (length vals) <= o_found s + 1 | ONext s' => o_found s' <= o_found s + 1 /\ opt_inv s' end).
  { intros s o I E. destruct (opt_step_inv _ _ I E) as (vals & ys & rs & d & R & Lrs & Ed & Q). pose proof I as (I1 & I2 & I3 & I4).
    set (conv := map _ rs) in *. pose proof (count_true_le conv) as C. unfold conv in C at 2. rewrite map_length in C.
    pose proof (defl_length _ _ _ _ _ I2 Ed) as Ld. cbn [fst snd] in Ld. pose proof (enumerate_count conv) as EC.
    destruct Q as [[-> _]|(K & -> & Lt & V & QK & TV)].
    - destruct d as [[ev ex] rz]. cbn [fst snd] in *. lia.
    - cbn [o_found]. split; [lia|]. split; [cbn; lia|]. split; [cbn; lia|]. split; [|exact (aligned_step s vals ys rs d I R Ed ltac:(fold conv; lia))].
      cbn [o_krylov]. rewrite QK. apply HQ. apply TV. apply (defl_tall _ _ _ _ _ Ed). cbn [snd]. now apply tall_map_mix. }
  assert (I : forall s, opt_reached N A nb nu_0 tol droptol eta dm s0 s -> opt_inv s).
  { intros s H. induction H as [|s s' H IH E]; [assumption|]. apply (St _ _ IH E). }
  intros s Hs. split; [intros s' E; apply (St _ _ (I s Hs) E) | intros vals vects E; apply (St _ _ (I s Hs) E)].
Qed.
End OPT.

Lemma C49_aligned_pf : forall N A nb init guess stp tol droptol eta dim_max vals vects, qr_shape N -> square A -> tall (length A) guess -> 1 <= nb ->
  one_at_a_time N A nb (Z.max init nb) tol droptol eta (if dim_max =? 0 then Z.of_nat (length A) else dim_max)
    (mkOpt 0 [] (repeat (repeat 0%Qc (length A)) (Z.to_nat nb)) (qr N (length A) guess)) ->
  modified_davidson_algorithm_opt N A nb init guess stp tol droptol eta dim_max = Ok (vals, vects) ->
  length vects = Z.to_nat nb /\ (length vals <= Z.to_nat nb)%nat /\
  (forall k, (k < length vals)%nat -> (norm N (residual A (nth k vals 0%Qc) (nth k vects [])) <= tol)%Qc) /\
  forall k, (length vals <= k < Z.to_nat nb)%nat -> nth k vects [] = repeat 0%Qc (length A).
Proof.
  intros N A nb init guess stp tol droptol eta dim_max vals vects HQ SA T Hnb OA H. unfold modified_davidson_algorithm_opt in H. cbv zeta in H.
  assert (Hm : nb <= Z.max init nb) by lia. apply (opt_loop_aligned _ _ _ _ _ _ _ _ SA HQ Hm _ OA) with (r := (vals, vects)) in H; [exact H | | apply opt_first].
  split; [reflexivity|]. cbn [o_found o_eigvals o_eigvects o_krylov length]. split; [lia|]. split; [now apply HQ|].
  split; [apply repeat_length|]. cbn [length]. split; [lia|]. split; [intros; lia|]. intros k Hk.
  apply nth_error_nth. apply nth_error_repeat. lia.
Qed.

Lemma C49_single_pf : forall N A init guess stp tol droptol eta dim_max vals vects, qr_shape N -> square A -> tall (length A) guess -> init <= 1 ->
  modified_davidson_algorithm_opt N A 1 init guess stp tol droptol eta dim_max = Ok (vals, vects) ->
  length vects = 1%nat /\ 
  (vals = [] /\ vects = [repeat 0%Qc (length A)] \/
   exists l x, vals = [l] /\ vects = [x] /\ (norm N (residual A l x) <= tol)%Qc).
Proof.
  intros N A init guess stp tol droptol eta dim_max vals vects HQ SA T Hi H. 
  destruct (C49_aligned_pf N A 1 init guess stp tol droptol eta dim_max vals vects HQ SA T ltac:(lia)) as (L1 & L2 & R & Z0); [|assumption|].
  - apply opt_single; [assumption | assumption | lia | lia |]. 
    split; [reflexivity|]. cbn [o_found o_eigvals o_eigvects o_krylov length]. split; [lia|]. split; [now apply HQ|].
    split; [apply repeat_length|]. cbn [length]. split; [lia|]. split; [intros; lia|]. intros k Hk. apply nth_error_nth. apply nth_error_repeat. lia.
  - change (Z.to_nat 1) with 1%nat in *. split; [assumption|]. destruct vects as [|x [|x' vects]]; try discriminate L1.
    destruct vals as [|l [|l' vals]]; [left|right|cbn [length] in L2; lia].
    + split; [reflexivity|]. f_equal. apply (Z0 0%nat). cbn [length]. lia.
    + exists l, x. split; [reflexivity|]. split; [reflexivity|]. apply (R 0%nat). cbn [length]. lia.
Qed.

Lemma C49_refuted_pf : exists N A guess vals vects tol droptol eta, qr_shape N /\ qr_orthonormal N /\ eigh_unit N /\ norm_above N /\ square A /\ symmetric A /\
  tall (length A) guess /\ orthonormal guess /\ (0 < tol)%Qc /\
  modified_davidson_algorithm_opt N A 2 2 guess 1 tol droptol eta 0 = Ok (vals, vects) /\
  length vals = 2%nat /\ length vects = 2%nat /\
  (tol < norm N (residual A (nth 0 vals 0%Qc) (nth 0 vects [])))%Qc /\
  nth 1 vects [] = repeat 0%Qc (length A).
Proof.
  exists ex_numerics, [[1%Qc; 0%Qc]; [0%Qc; qz 2]], [[1%Qc; 0%Qc]; [0%Qc; 1%Qc]].
  destruct (modified_davidson_algorithm_opt ex_numerics [[1%Qc; 0%Qc]; [0%Qc; qz 2]] 2 2 [[1%Qc; 0%Qc]; [0%Qc; 1%Qc]] 1 (qfrac 1 1000) (qfrac 1 1000000) (qfrac 1 10) 0) as [[vals vects]|e] eqn:Q;
    [|vm_compute in Q; discriminate Q].
  exists vals, vects, (qfrac 1 1000), (qfrac 1 1000000), (qfrac 1 10).
  assert (F : sameql vals [1%Qc; qz 2] = true /\ sameqm vects [[0%Qc; 1%Qc]; [0%Qc; 0%Qc]] = true).
  { change (match Ok (vals, vects) with Ok (vals, vects) => sameql vals [1%Qc; qz 2] = true /\ sameqm vects [[0%Qc; 1%Qc]; [0%Qc; 0%Qc]] = true | Err _ => True end).
    rewrite <- Q. vm_compute. auto. }
  destruct F as (F1 & F2). apply sameql_eq in F1. apply sameqm_eq in F2.
  split; [exact ex_qr_shape|]. split; [exact ex_qr_orthonormal|]. split; [exact ex_eigh_unit|]. split; [exact ex_norm_above|].
  split; [repeat constructor|]. split.
  { intros i j Hi Hj. cbn [length] in Hi, Hj. destruct i as [|[|i]]; [| |lia]; (destruct j as [|[|j]]; [| |lia]); reflexivity. }
  split; [repeat constructor|]. split; [apply orthonormalb_ok; vm_compute; reflexivity|]. split; [reflexivity|]. split; [exact Q|]. rewrite F1, F2.
  split; [reflexivity|]. split; [reflexivity|]. split; [vm_compute; reflexivity | reflexivity].
Qed.
