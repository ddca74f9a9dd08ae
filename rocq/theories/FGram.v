(** Final lemmas for C66. *)
From Coq Require Import ZArith List Bool Lia Permutation Sorted QArith Qcanon.
From Verif Require Import PyBase PyFacts Lattice Base Interact Spin Prob Dav Spec SpecOps SpecTJ SpecSpin SpinDefs ProbDefs DavDefs
  PSpin PRep POps PHam PWave PVec PSecSum PBound PQc PProb PDavVec PLowest PDav PDavIter Examples FDav FDavOpt.
Import ListNotations.
Open Scope Z_scope.

(** ** spans *)
Section SPAN.
Context (dim : nat).
Definition insp (V : list (list Qc)) (x : list Qc) : Prop := exists y, length y = length V /\ x = mix dim V y.

Lemma insp_combination : forall V x, tall dim V -> insp V x <-> combination dim V x.
Proof. intros V x T. unfold insp, combination. split; intros (y & L & E); exists y; (split; [assumption|]); rewrite E; [now apply mix_blend | symmetry; now apply mix_blend]. Qed.

Lemma vec_ext : forall u v, length u = dim -> length v = dim -> (forall i, (i < dim)%nat -> nth i u 0%Qc = nth i v 0%Qc) -> u = v.
Proof. intros u v Lu Lv H. apply (nth_ext _ _ 0%Qc 0%Qc); [congruence|]. intros i Hi. apply H. lia. Qed.

Lemma nth_vsub : forall u v i, length u = length v -> nth i (vsub u v) 0%Qc = (nth i u 0 - nth i v 0)%Qc.
Proof. intros u v i L. unfold vsub. rewrite nth_vadd, nth_vscale by (now rewrite vscale_length). ring. Qed.

Lemma insp_zero : forall V, tall dim V -> insp V (zero_vect dim).
Proof.
  intros V T. exists (repeat 0%Qc (length V)). split; [apply repeat_length|]. apply vec_ext; [apply zero_length | now apply mix_length|].
  intros i Hi. rewrite mix_nth by assumption. rewrite nth_zero_vect. symmetry. apply qsum_zero. intros k _. rewrite nth_repeat. ring.
Qed.

Lemma insp_add : forall V u v, tall dim V -> insp V u -> insp V v -> insp V (vadd u v).
Proof.
  intros V u v T (y & Ly & ->) (z & Lz & ->). exists (vadd y z). split; [rewrite vadd_length; congruence|].
  apply vec_ext; [rewrite vadd_length; rewrite !mix_length; auto | now apply mix_length|].
  intros i Hi. rewrite nth_vadd by (now rewrite !mix_length). rewrite !mix_nth by assumption. rewrite <- qsum_add. apply qsum_ext.
  intros k _. rewrite nth_vadd by congruence. ring.
Qed.

Lemma insp_scale : forall V a u, tall dim V -> insp V u -> insp V (vscale a u).
Proof.
  intros V a u T (y & Ly & ->). exists (vscale a y). split; [now rewrite vscale_length|].
  apply vec_ext; [rewrite vscale_length; now apply mix_length | now apply mix_length|].
  intros i Hi. rewrite nth_vscale, !mix_nth by assumption. rewrite <- qsum_scale. apply qsum_ext. intros k _. rewrite nth_vscale. ring.
Qed.

Lemma insp_mix : forall V W y, tall dim V -> (forall w, In w W -> insp V w) -> insp V (mix dim W y).
Proof.
  intros V W. unfold mix. induction W as [|w W IH]; intros [|a y] T H; try now apply insp_zero.
  cbn [combine fold_right fst snd]. apply insp_add; [assumption | apply insp_scale; [assumption | apply H; now left] | apply IH; [assumption | intros; apply H; now right]].
Qed.

Lemma insp_sub : forall V u v, tall dim V -> insp V u -> insp V v -> insp V (vsub u v).
Proof. intros V u v T Hu Hv. unfold vsub. apply insp_add; [assumption | assumption | now apply insp_scale]. Qed.

Lemma insp_app : forall V W x, tall dim V -> tall dim W -> insp V x -> insp (V ++ W) x.
Proof.
  intros V W x TV TW (y & L & ->). exists (y ++ repeat 0%Qc (length W)). split; [rewrite !app_length, repeat_length; congruence|].
  assert (T : tall dim (V ++ W)) by (apply Forall_app; auto).
  apply vec_ext; [now apply mix_length | now apply mix_length|]. intros i Hi. rewrite !mix_nth by assumption.
  rewrite app_length, seq_app, qsum_app. rewrite (qsum_zero _ _ (seq (0 + length V) (length W))).
  - rewrite Qcplus_0_r. apply qsum_ext. intros k Hk. apply in_seq in Hk. rewrite !app_nth1 by lia. reflexivity.
  - intros k Hk. apply in_seq in Hk. rewrite (app_nth2 y) by lia. rewrite nth_repeat. ring.
Qed.

Lemma insp_in : forall V v, tall dim V -> In v V -> insp V v.
Proof.
  intros V v T H. destruct (In_nth _ _ [] H) as (k & Hk & <-). exists (unit_vect (length V) k). split; [apply unit_length|].
  assert (Lk : length (nth k V []) = dim) by (unfold tall in T; rewrite Forall_forall in T; apply T; now apply nth_In).
  apply vec_ext; [assumption | now apply mix_length|]. intros i Hi. rewrite mix_nth by assumption.
  rewrite (qsum_single _ _ _ k); [rewrite unit_nth, Nat.eqb_refl by assumption; ring | apply seq_NoDup | apply in_seq; lia|].
  intros j Hj N. apply in_seq in Hj. rewrite unit_nth by lia. apply Nat.eqb_neq in N. rewrite N. ring.
Qed.

Lemma insp_length : forall V x, tall dim V -> insp V x -> length x = dim.
Proof. intros V x T (y & _ & ->). now apply mix_length. Qed.
End SPAN.

(** ** one column *)
Definition apart (P : list (list Qc)) : Prop := forall i j, (i < length P)%nat -> (j < length P)%nat -> i <> j -> vdot (nth i P []) (nth j P []) = 0%Qc.

Lemma apart_before : forall done p prev, apart (done ++ p :: prev) -> forall q, In q done -> vdot q p = 0%Qc.
Proof.
  intros done p prev H q Hq. destruct (In_nth _ _ [] Hq) as (i & Hi & <-). specialize (H i (length done)).
  rewrite app_nth1, app_nth2, Nat.sub_diag in H by lia. cbn [nth] in H. apply H; rewrite ?app_length; cbn [length]; lia.
Qed.

Lemma gs_reduce_ok : forall dim prev done v, tall dim (done ++ prev) -> length v = dim -> apart (done ++ prev) ->
  (forall p, In p prev -> vdot p p <> 0%Qc) -> (forall p, In p done -> vdot p v = 0%Qc) ->
  exists w, gs_reduce prev v = Ok w /\ length w = dim /\ (forall p, In p (done ++ prev) -> vdot p w = 0%Qc) /\ insp dim prev (vsub v w).
Proof.
  intros dim. unfold gs_reduce. induction prev as [|p prev IH]; intros done v T L O NZ D; cbn [foldM].
  - exists v. split; [reflexivity|]. split; [assumption|]. rewrite app_nil_r. split; [assumption|]. rewrite vsub_self, L. apply insp_zero. constructor.
  - pose proof (NZ p (or_introl eq_refl)) as Np. unfold fdiv at 1. destruct (qeqb (vdot p p) 0) eqn:Q; [apply qeqb_eq in Q; contradiction|]. cbn [bind].
    assert (T' := T). apply Forall_app in T'. destruct T' as [Td Tp]. inversion Tp as [|? ? Lp Tp']; subst.
    set (f := (vdot v p / vdot p p)%Qc). assert (Lf : length (vsub v (vscale f p)) = length v) by (apply vsub_length; rewrite vscale_length; auto).
    assert (EA : done ++ p :: prev = (done ++ [p]) ++ prev) by (now rewrite <- app_assoc).
    destruct (IH (done ++ [p]) (vsub v (vscale f p))) as (w & E & Lw & Ow & (y & Ly & Ey)).
    + rewrite <- EA. assumption.
    + assumption.
    + rewrite <- EA. assumption.
    + intros q Hq. apply NZ. now right.
    + intros q Hq. apply in_app_or in Hq. rewrite vdot_sub_r, vdot_scale_r by (rewrite vscale_length; auto). destruct Hq as [Hq|[<-|[]]].
      * rewrite (apart_before _ _ _ O q Hq), (D q Hq). ring.
      * unfold f. rewrite (vdot_comm v p). field. assumption.
    + exists w. split; [exact E|]. split; [assumption|]. split; [now rewrite EA|].
      exists (f :: y). split; [cbn [length]; congruence|]. unfold mix. cbn [combine fold_right fst snd]. fold (mix (length v) prev y). rewrite <- Ey.
      apply (vec_ext (length v)).
      * now rewrite vsub_length by congruence.
      * rewrite vadd_length; rewrite vscale_length; [auto|]. rewrite vsub_length; congruence.
      * intros i Hi. assert (L1 : length v = length (vscale f p)) by (rewrite vscale_length; auto).
        assert (L2 : length (vsub v (vscale f p)) = length w) by congruence. assert (L3 : length (vsub (vsub v (vscale f p)) w) = length v) by (rewrite vsub_length; congruence).
        rewrite nth_vadd by congruence. rewrite !nth_vsub, nth_vscale by congruence. ring.
Qed.

(** ** all the columns *)
Definition gs_step (N : numerics) (done : list (list Qc)) (v : list Qc) : res (list (list Qc)) :=
  w <- gs_reduce done v ;; a <- mapM (fun e => fdiv e (norm N w)) w ;; Ok (done ++ [a]).

Section COLUMNS.
Context (N : numerics) (dim : nat) (HN : forall w, norm N w = 0%Qc -> inner w w = 0%Qc).

Definition gs_inv (V done : list (list Qc)) : Prop :=
  length done = length V /\ tall dim done /\ apart done /\ (forall p, In p done -> vdot p p <> 0%Qc) /\
  (forall p, In p done -> insp dim V p) /\
  forall k, (k < length V)%nat -> exists w, length w = dim /\ norm N w <> 0%Qc /\ nth k done [] = map (fun e => e / norm N w)%Qc w /\
    insp dim (firstn k done) (vsub (nth k V []) w).

Lemma firstn_app_1 : forall X (l : list X) a k, (k <= length l)%nat -> firstn k (l ++ [a]) = firstn k l.
Proof. intros X l a k H. rewrite firstn_app. replace (k - length l)%nat with 0%nat by lia. cbn [firstn]. apply app_nil_r. Qed.

Lemma gs_step_ok : forall V done v, tall dim (V ++ [v]) -> gs_inv V done -> ~ insp dim V v ->
  exists a, gs_step N done v = Ok (done ++ [a]) /\ gs_inv (V ++ [v]) (done ++ [a]).
Proof.
  intros V done v T (L & Td & O & NZ & Sp & W) Ind. assert (T' := T). apply Forall_app in T'. destruct T' as [TV Tv]. inversion Tv as [|? ? Lv _].
  destruct (gs_reduce_ok dim done [] v) as (w & E & Lw & Ow & Iw); [assumption | assumption | assumption | assumption | intros p [] |].
  cbn [app] in Ow.
  assert (Nw : vdot w w <> 0%Qc).
  { intros Z0. apply vdot_self_zero in Z0. apply Ind. rewrite Lw in Z0. 
    destruct Iw as (y & Ly & Ey). assert (Ev : v = mix dim done y).
    { rewrite <- Ey, Z0. apply (vec_ext dim); [assumption | rewrite vsub_length; [assumption | now rewrite zero_length] |].
      intros i Hi. unfold vsub. rewrite nth_vadd, nth_vscale, nth_zero_vect by (rewrite vscale_length, zero_length; assumption). ring. }
    rewrite Ev. apply insp_mix; assumption. }
  assert (Nn : norm N w <> 0%Qc). { intros Z0. apply HN in Z0. apply Nw. rewrite vdot_inner by reflexivity. assumption. }
  unfold gs_step. rewrite E. cbn [bind]. rewrite fdiv_all by assumption. cbn [bind]. set (a := map (fun e => (e / norm N w)%Qc) w).
  assert (Ea : a = vscale (1 / norm N w)%Qc w). { unfold a, vscale. apply map_ext. intros e. field. assumption. }
  assert (La : length a = dim) by (unfold a; rewrite map_length; assumption).
  exists a. split; [reflexivity|]. split; [rewrite !app_length; cbn [length]; lia|].
  assert (Ta : tall dim (done ++ [a])) by (apply Forall_app; split; [assumption | constructor; [assumption | constructor]]).
  split; [assumption|]. 
  assert (Oa : forall p, In p done -> vdot p a = 0%Qc). { intros p Hp. rewrite Ea, vdot_scale_r, (Ow p Hp). ring. }
  split; [|split; [|split]].
  - intros i j Hi Hj Nij. rewrite app_length in Hi, Hj. cbn [length] in Hi, Hj.
    destruct (Nat.lt_ge_cases i (length done)) as [Li|Li], (Nat.lt_ge_cases j (length done)) as [Lj|Lj].
    + rewrite !app_nth1 by assumption. now apply O.
    + replace j with (length done) by lia. rewrite (app_nth1 _ _ _ Li), app_nth2, Nat.sub_diag by lia. cbn [nth]. apply Oa. now apply nth_In.
    + replace i with (length done) by lia. rewrite (app_nth1 _ _ _ Lj), app_nth2, Nat.sub_diag by lia. cbn [nth]. rewrite vdot_comm. apply Oa. now apply nth_In.
    + lia.
  - intros p Hp. apply in_app_or in Hp. destruct Hp as [Hp|[<-|[]]]; [now apply NZ|]. rewrite Ea, vdot_scale_r, vdot_scale_l. intros Z0.
    apply Nw. replace (vdot w w) with (norm N w * norm N w * (1 / norm N w * (1 / norm N w * vdot w w)))%Qc by (field; assumption). rewrite Z0. ring.
  - intros p Hp. apply in_app_or in Hp. destruct Hp as [Hp|[<-|[]]].
    + apply insp_app; [assumption | assumption | now apply Sp].
    + rewrite Ea. apply insp_scale; [assumption|].
      assert (Ew : w = vsub v (vsub v w)).
      { apply (vec_ext dim); [assumption | rewrite vsub_length; [assumption | rewrite vsub_length; congruence] |]. intros i Hi.
        rewrite nth_vsub by (rewrite vsub_length; congruence). rewrite nth_vsub by congruence. ring. }
      rewrite Ew. apply insp_sub; [assumption | apply insp_in; [assumption | apply in_or_app; right; now left]|].
      apply insp_app; [assumption | assumption|]. destruct Iw as (y & Ly & ->). now apply insp_mix.
  - intros k Hk. rewrite app_length in Hk. cbn [length] in Hk. destruct (Nat.lt_ge_cases k (length V)) as [Lk|Lk].
    + destruct (W k Lk) as (w' & W1 & W2 & W3 & W4). exists w'. split; [assumption|]. split; [assumption|]. rewrite !app_nth1 by lia. split; [assumption|].
      rewrite firstn_app_1 by lia. assumption.
    + replace k with (length V) by lia. exists w. split; [assumption|]. split; [assumption|].
      replace (nth (length V) (done ++ [a]) []) with a by (rewrite <- L, app_nth2, Nat.sub_diag by lia; reflexivity).
      replace (nth (length V) (V ++ [v]) []) with v by (rewrite app_nth2, Nat.sub_diag by lia; reflexivity).
      split; [reflexivity|]. rewrite <- L. rewrite firstn_app_1, firstn_all by lia. assumption.
Qed.

Lemma gs_all : forall V2 V1 done, tall dim (V1 ++ V2) -> gs_inv V1 done ->
  (forall k, (length V1 <= k < length (V1 ++ V2))%nat -> ~ insp dim (firstn k (V1 ++ V2)) (nth k (V1 ++ V2) [])) ->
  exists done', foldM (gs_step N) done V2 = Ok done' /\ gs_inv (V1 ++ V2) done'.
Proof.
  induction V2 as [|v V2 IH]; intros V1 done T I Ind; cbn [foldM].
  - exists done. rewrite app_nil_r in *. auto.
  - assert (EA : V1 ++ v :: V2 = (V1 ++ [v]) ++ V2) by (now rewrite <- app_assoc). rewrite EA in *.
    assert (T' := T). apply Forall_app in T'. destruct T' as [T1 T2].
    destruct (gs_step_ok V1 done v T1 I) as (a & E & I').
    + specialize (Ind (length V1)). rewrite <- !app_assoc in Ind. cbn [app] in Ind. rewrite app_nth2, Nat.sub_diag in Ind by lia. cbn [nth] in Ind.
      rewrite firstn_app, firstn_all, Nat.sub_diag in Ind. cbn [firstn] in Ind. rewrite app_nil_r in Ind. apply Ind. rewrite app_length. cbn [length]. lia.
    + rewrite E. cbn [bind]. apply IH; [assumption | assumption|]. intros k Hk. apply Ind. rewrite app_length in Hk at 1. cbn [length] in Hk. lia.
Qed.
End COLUMNS.

(** ** the whole procedure *)
Lemma gs_first : forall N v0, (a0 <- mapM (fun e => fdiv e (norm N v0)) v0 ;; Ok [a0]) = gs_step N [] v0.
Proof. intros N v0. unfold gs_step, gs_reduce. cbn [foldM bind app]. reflexivity. Qed.

Lemma seq_zrange : forall n, map Z.of_nat (seq 1 n) = zrange 1 (Z.of_nat (S n)).
Proof. intros n. unfold zrange. replace (Z.to_nat (Z.of_nat (S n) - 1)) with n by lia. rewrite <- seq_shift, map_map. apply map_ext. intros. lia. Qed.

Lemma gs_loop : forall N V dim, (1 <= dim)%nat -> (dim <= length V)%nat -> 
  gramSchmidt N dim V = (done <- foldM (gs_step N) [] (firstn dim V) ;; Ok (done ++ repeat (zero_vect dim) (length V - length done))).
Proof.
  intros N V dim H1 H2. unfold gramSchmidt. destruct V as [|v0 V]; [cbn [length] in H2; lia|]. change (py_get (v0 :: V) 0) with (Ok v0). cbn [bind].
  destruct dim as [|n]; [lia|]. cbn [firstn foldM]. rewrite <- gs_first.
  destruct (mapM (fun e => fdiv e (norm N v0)) v0) as [a0|e]; [|reflexivity]. cbn [bind]. f_equal.
  cbn [length] in H2. replace (zrange 1 (Z.of_nat (S n))) with (map Z.of_nat (seq 1 n)).
  - pose proof (foldM_index _ _ (gs_step N) (firstn n V) [v0] (skipn n V) [a0]) as F. rewrite firstn_skipn, firstn_length, Nat.min_l in F by lia. cbn [length app] in F.
    rewrite <- F. apply foldM_ext. intros b x _. unfold gs_step. reflexivity.
  - apply seq_zrange.
Qed.

Lemma gs_columns : forall N V dim, (forall w, norm N w = 0%Qc -> inner w w = 0%Qc) -> tall dim V -> (1 <= dim <= length V)%nat -> independent dim (firstn dim V) ->
  exists B, gramSchmidt N dim V = Ok (B ++ repeat (zero_vect dim) (length V - dim)) /\ gs_inv N dim (firstn dim V) B.
Proof.
  intros N V dim HN T Hd Ind.
  assert (Tf : tall dim (firstn dim V)). { unfold tall in *. rewrite Forall_forall in *. intros v Hv. apply T. eapply in_firstn_in, Hv. }
  destruct (gs_all N dim HN (firstn dim V) [] []) as (B & E & I).
  - exact Tf.
  - split; [reflexivity|]. split; [constructor|]. split; [intros i j Hi; cbn in Hi; lia|]. split; [intros p []|]. split; [intros p []|]. intros k Hk. cbn in Hk. lia.
  - cbn [app length]. intros k Hk C. apply (Ind k); [lia|]. apply insp_combination; [|assumption].
    unfold tall in *. rewrite Forall_forall in *. intros v Hv. apply Tf. eapply in_firstn_in, Hv.
  - exists B. rewrite gs_loop by lia. rewrite E. cbn [bind app]. split; [|assumption]. destruct I as (L & _). cbn [app] in L.
    rewrite L, firstn_length, Nat.min_l by lia. reflexivity.
Qed.

Lemma C66_orthonormal_pf : forall N V dim, (forall w, norm N w = 0%Qc -> inner w w = 0%Qc) -> tall dim V -> (1 <= dim <= length V)%nat ->
  independent dim (firstn dim V) ->
  exists B, gramSchmidt N dim V = Ok (B ++ repeat (repeat 0%Qc dim) (length V - dim)) /\ length B = dim /\ tall dim B /\
    (forall i j, (i < dim)%nat -> (j < dim)%nat -> i <> j -> inner (nth i B []) (nth j B []) = 0%Qc) /\
    forall k, (k < dim)%nat -> exists w, length w = dim /\ norm N w <> 0%Qc /\ nth k B [] = map (fun e => e / norm N w)%Qc w /\
      combination dim (firstn k B) (map (fun i => nth i (nth k V []) 0 - nth i w 0)%Qc (seq 0 dim)) /\
      (norm N w * norm N w = inner w w -> inner (nth k B []) (nth k B []) = 1)%Qc.
Proof.
  intros N V dim HN T Hd Ind. destruct (gs_columns N V dim HN T Hd Ind) as (B & E & (L & TB & O & NZ & Sp & W)).
  rewrite firstn_length, Nat.min_l in L by lia. rewrite firstn_length, Nat.min_l in W by lia.
  assert (Lb : forall k, (k < dim)%nat -> length (nth k B []) = dim). { intros k Hk. unfold tall in TB. rewrite Forall_forall in TB. apply TB, nth_In. lia. }
  exists B. split; [exact E|]. split; [assumption|]. split; [assumption|]. split.
  - intros i j Hi Hj Nij. rewrite <- vdot_inner by (now rewrite !Lb). apply O; lia.
  - intros k Hk. destruct (W k Hk) as (w & Lw & Nw & Ew & Iw). exists w. split; [assumption|]. split; [assumption|]. split; [assumption|].
    rewrite nth_firstn_lt in Iw by assumption.
    assert (LV : length (nth k V []) = dim). { unfold tall in T. rewrite Forall_forall in T. apply T, nth_In. lia. }
    split.
    + apply insp_combination; [unfold tall in *; rewrite Forall_forall in *; intros v Hv; apply TB; eapply in_firstn_in, Hv|].
      replace (map _ (seq 0 dim)) with (vsub (nth k V []) w); [assumption|]. apply (vec_ext dim).
      * rewrite vsub_length; congruence.
      * now rewrite map_length, seq_length.
      * intros i Hi. rewrite nth_map_seq by assumption. unfold vsub. rewrite nth_vadd, nth_vscale by (rewrite vscale_length; congruence). ring.
    + intros U. rewrite Ew. replace (map (fun e => (e / norm N w)%Qc) w) with (vscale (1 / norm N w)%Qc w) by (unfold vscale; apply map_ext; intros; field; assumption).
      rewrite <- vdot_inner by reflexivity. rewrite vdot_scale_l, vdot_scale_r, vdot_inner, <- U by reflexivity. field. assumption.
Qed.

Lemma C66_narrow_pf : forall N V dim, (forall w, norm N w = 0%Qc -> inner w w = 0%Qc) -> tall dim V -> (length V < dim)%nat ->
  independent dim V -> gramSchmidt N dim V = Err IndexError.
Proof.
  intros N V dim HN T Hd Ind. unfold gramSchmidt. destruct V as [|v0 V]; [reflexivity|]. change (py_get (v0 :: V) 0) with (Ok v0). cbn [bind].
  destruct (gs_all N dim HN (v0 :: V) [] []) as (B & E & I).
  - exact T.
  - split; [reflexivity|]. split; [constructor|]. split; [intros i j Hi; cbn in Hi; lia|]. split; [intros p []|]. split; [intros p []|]. intros k Hk. cbn in Hk. lia.
  - cbn [app]. intros k Hk C. apply (Ind k); [lia|]. apply insp_combination; [|assumption].
    unfold tall in *. rewrite Forall_forall in *. intros v Hv. apply T. eapply in_firstn_in, Hv.
  - cbn [foldM] in E. rewrite <- gs_first in E. destruct (mapM (fun e => fdiv e (norm N v0)) v0) as [a0|e]; [|discriminate E]. cbn [bind] in E |- *.
    cbn [length] in Hd. replace (zrange 1 (Z.of_nat dim)) with (map Z.of_nat (seq 1 (length V)) ++ zrange (Z.of_nat (S (length V))) (Z.of_nat dim)).
    + rewrite foldM_app. pose proof (foldM_index _ _ (gs_step N) V [v0] [] [a0]) as F. rewrite app_nil_r in F. cbn [length app] in F.
      unfold gs_step in F, E. rewrite F, E. cbn [bind]. rewrite zrange_cons by lia. cbn [foldM].
      unfold py_get, py_norm. destruct (Z.ltb_spec (Z.of_nat (S (length V))) 0); [lia|]. destruct (Z.ltb_spec (Z.of_nat (S (length V))) 0); [lia|].
      rewrite Nat2Z.id. rewrite (proj2 (nth_error_None (v0 :: V) (S (length V)))) by (cbn [length]; lia). reflexivity.
    + rewrite (zrange_app 1 (Z.of_nat (S (length V)))) by lia. f_equal. apply seq_zrange.
Qed.

(** ** cases *)
Lemma norm_up_zero : forall w, norm ex_numerics w = 0%Qc -> inner w w = 0%Qc.
Proof.
  intros w H. destruct (ex_norm_above w) as [_ P]. rewrite H in P. apply Qcle_antisym; [|apply inner_nonneg]. eapply Qcle_trans; [exact P|]. discriminate.
Qed.

Lemma ex_independent : independent 2 [[qz 3; qz 4]; [qz 5; 0%Qc]].
Proof.
  intros k Hk (y & L & E). cbn [length] in Hk. destruct k as [|[|k]]; [| |lia]; cbn [firstn length nth] in L, E.
  - apply (f_equal (fun v => nth 0 v 0%Qc)) in E. unfold blend in E. cbn [length seq map nth] in E. rewrite qsum_nil in E. apply this_eq in E. discriminate E.
  - destruct y as [|a [|b y]]; try discriminate L. unfold blend in E. cbn [length seq map nth] in E. rewrite !qsum_one in E. cbn [nth] in E.
    pose proof (f_equal (fun v => nth 0 v 0%Qc) E) as E1. pose proof (f_equal (fun v => nth 1 v 0%Qc) E) as E2. cbn [nth] in E1, E2. symmetry in E2. apply Qcmult_integral in E2. destruct E2 as [E2|E2]; [|apply this_eq in E2; discriminate E2].
    rewrite E2, Qcmult_0_l in E1. apply this_eq in E1. discriminate E1.
Qed.
