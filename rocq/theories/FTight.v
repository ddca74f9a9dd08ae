(** Final lemmas of C49, C64, C67, C74 and C75 that were added after the mutation runs. *)
From Coq Require Import ZArith String List Bool Lia Permutation Sorted QArith Qcanon.
From Verif Require Import PyBase PyFacts Lattice Base Interact Spin Prob Dav Files Display Emb Post Phase Spec SpecOps SpecTJ SpecSpin SpinDefs ProbDefs DavDefs PhaseDefs
  PSpin PRep POps PHam PWave PVec PSecSum PBound PQc PProb PDavVec PLowest PDav PDavIter Examples FDav FDavOpt PFiles FilesDefs Geometry FPhase.
Import ListNotations.
Open Scope Z_scope.

(** ** C49 *)
Lemma deflate_none : forall vals f nb ev ex rz conv, forallb negb conv = true -> deflate vals conv f nb ev ex rz = Ok (ev, ex, rz).
Proof.
  intros vals f nb ev ex rz conv H. unfold deflate, enumerate. generalize (zrange 0 (zlen conv)) as ks.
  induction conv as [|b conv IH]; intros ks; destruct ks as [|k ks]; try reflexivity.
  cbn [forallb] in H. apply andb_true_iff in H. destruct H as [H1 H2]. destruct b; [discriminate|].
  cbn [combine foldM andb bind]. now apply IH.
Qed.

Lemma count_none : forall conv, forallb negb conv = true -> count_true conv = 0.
Proof.
  intros conv H. unfold count_true, zlen. replace (filter (fun b => b) conv) with (@nil bool); [reflexivity|].
  symmetry. induction conv as [|b conv IH]; [reflexivity|]. cbn [forallb] in H. apply andb_true_iff in H. destruct H as [H1 H2]. destruct b; [discriminate|].
  cbn [filter]. now apply IH.
Qed.

Lemma correction_raise : forall A l x,
  mapM (fun p => if qeqb (fst p) l then Err ValueError else Ok (snd p / (fst p - l))%Qc) (combine (mat_diagonal A) (residual A l x)) =
  if existsb (fun i => qeqb (nth i (nth i A []) 0%Qc) l) (seq 0 (length A)) then Err ValueError else Ok (correction A l x).
Proof.
  intros A l x. rewrite mat_diagonal_seq. unfold correction.
  assert (R : residual A l x = map (fun i => nth i (residual A l x) 0%Qc) (seq 0 (length A))).
  { apply (nth_ext _ _ 0%Qc 0%Qc); [now rewrite residual_length, map_length, seq_length|]. intros i Hi. rewrite residual_length in Hi. now rewrite nth_map_seq. }
  rewrite R at 1. rewrite combine_maps, mapM_map. cbn [fst snd].
  apply (mapM_some_err _ _ _ _ (fun i => qeqb (nth i (nth i A []) 0%Qc) l)). reflexivity.
Qed.

Lemma slice_from_0 : forall X (l : list X), py_slice_from l 0 = l.
Proof. intros X l. exact (slice_all X l). Qed.

Lemma C49_iteration_pf : forall N A nb nu_0 tol droptol eta dim_max s, square A -> tall (length A) (o_krylov s) -> o_found s < nb -> o_found s <= nu_0 ->
  let K := o_krylov s in
  let nu := Z.min (Z.of_nat (length K)) (nu_0 - o_found s) in
  let vals0 := fst (eigh N (projected A K)) in
  let ys0 := snd (eigh N (projected A K)) in
  nu <= Z.of_nat (length vals0) -> (length vals0 <= length ys0)%nat ->
  exists idx, smallest vals0 idx /\ Z.of_nat (length idx) = nu /\
  let pairs := map (fun i => (nth i vals0 0%Qc, blend (length A) K (nth i ys0 []))) idx in
  ((forall l x, In (l, x) pairs -> (tol < norm N (residual A l x))%Qc) ->
   opt_step N A nb nu_0 tol droptol eta dim_max s =
     if existsb (fun p => existsb (fun i => qeqb (nth i (nth i A []) 0%Qc) (fst p)) (seq 0 (length A))) pairs then Err ValueError else
     (cs <- get_meaningful_corrections N K (map (fun p => correction A (fst p) (snd p)) pairs) droptol eta nu ;;
      Ok (ONext (mkOpt (o_found s) (o_eigvals s) (o_eigvects s)
            (qr N (length A) ((if (dim_max - Z.of_nat (length cs) <? Z.of_nat (length A)) || (Z.of_nat (length cs) =? 0) then map snd pairs else K) ++ cs)))))).
Proof.
  intros N A nb nu_0 tol droptol eta dm s SA TK Hf Hn K nu vals0 ys0 Hv Hy.
  assert (Hnu : 0 <= nu) by (unfold nu; lia).
  destruct (lowest_ok vals0 nu Hnu) as (idx & Sm & Li & F). exists idx. split; [assumption|].
  assert (Li' : Z.of_nat (length idx) = nu) by (unfold zlen in Li; lia). split; [assumption|]. intros pairs Far.
  unfold opt_step. cbv zeta. fold K. rewrite gram_projected by assumption. unfold vals0, ys0 in *. clear vals0 ys0.
  replace (zlen (projected A K)) with (Z.of_nat (length K)) by (unfold zlen, projected; now rewrite map_length). fold nu.
  destruct (eigh N (projected A K)) as [v0 y0]. cbn [fst snd] in *. rewrite F. destruct Sm as (_ & B & _).
  assert (G : mapM (fun i => py_get y0 (Z.of_nat i)) idx = Ok (map (fun i => nth i y0 []) idx)).
  { apply mapM_ok. intros i Hi. apply py_get_of_nat, nth_error_nth'. specialize (B i Hi). lia. }
  rewrite G. cbn [bind]. set (vals := map (fun i => nth i v0 0%Qc) idx). set (ys := map (fun i => nth i y0 []) idx).
  assert (Lv : length vals = length idx) by apply map_length. assert (Ly : length ys = length idx) by apply map_length.
  rewrite <- Li' at 1. rewrite residues_all by (try assumption; lia). cbn [bind].
  assert (Vx : map (mix (length A) K) ys = map snd pairs).
  { unfold ys, pairs. rewrite !map_map. apply map_ext. intros. now apply mix_blend. }
  assert (Pr : pairs = map (fun k => (nth k vals 0%Qc, blend (length A) K (nth k ys []))) (seq 0 (length idx))).
  { apply (nth_ext _ _ (0%Qc, []) (0%Qc, [])); [unfold pairs; now rewrite !map_length, seq_length|].
    intros k Hk. unfold pairs in Hk. rewrite map_length in Hk.
    transitivity (nth (nth k idx 0%nat) v0 0%Qc, blend (length A) K (nth (nth k idx 0%nat) y0 [])).
    - apply nth_error_nth. unfold pairs. rewrite nth_error_map, (nth_error_nth' _ 0%nat) by assumption. reflexivity.
    - symmetry. apply nth_error_nth. rewrite nth_error_map, (nth_error_nth' _ 0%nat) by (rewrite seq_length; lia). rewrite seq_nth by lia. cbn [option_map Nat.add]. f_equal.
      unfold vals, ys. f_equal; [|f_equal]; apply nth_error_nth; rewrite nth_error_map, (nth_error_nth' _ 0%nat) by assumption; reflexivity. }
  assert (Rs : map (fun k => residual A (nth k vals 0%Qc) (blend (length A) K (nth k ys []))) (seq 0 (length idx)) = map (fun p => residual A (fst p) (snd p)) pairs).
  { rewrite Pr, map_map. reflexivity. }
  rewrite Rs, Vx.
  assert (Nc : forallb negb (map (fun r => qleb (norm N r) tol) (map (fun p => residual A (fst p) (snd p)) pairs)) = true).
  { rewrite map_map. apply forallb_forall. intros b Hb. apply in_map_iff in Hb. destruct Hb as ([l x] & <- & Hp). specialize (Far l x Hp). cbn [fst snd].
    destruct (qleb _ tol) eqn:Q; [|reflexivity]. apply qleb_le in Q. exfalso. exact (Qclt_not_le _ _ Far Q). }
  rewrite deflate_none by assumption. rewrite count_none by assumption. cbn [bind]. rewrite Z.add_0_r.
  destruct (Z.leb_spec nb (o_found s)) as [|_]; [lia|].
  set (bad := fun p : Qc * list Qc => existsb (fun i => qeqb (nth i (nth i A []) 0%Qc) (fst p)) (seq 0 (length A))).
  assert (C : mapM (fun ind => if ind <? 0 then Ok (zero_vect (length A)) else
        x <- py_get vals ind ;; r <- py_get (map (fun p => residual A (fst p) (snd p)) pairs) ind ;;
        mapM (fun p => if qeqb (fst p) x then Err ValueError else Ok (snd p / (fst p - x))%Qc) (combine (mat_diagonal A) r)) (zrange 0 nu) =
      if existsb bad pairs then Err ValueError else Ok (map (fun p => correction A (fst p) (snd p)) pairs)).
  { rewrite <- Li'. rewrite zrange_seq by lia. rewrite Nat2Z.id, mapM_map.
    rewrite (mapM_some_err _ _ _ (fun k => correction A (nth k vals 0%Qc) (blend (length A) K (nth k ys [])))
               (fun k => bad (nth k vals 0%Qc, blend (length A) K (nth k ys []))) ValueError).
    - rewrite <- (existsb_map _ _ (fun k => (nth k vals 0%Qc, blend (length A) K (nth k ys []))) bad), <- Pr.
      destruct (existsb bad pairs); [reflexivity|]. f_equal. rewrite Pr, map_map. reflexivity.
    - intros k Hk. apply in_seq in Hk. destruct (Z.ltb_spec (Z.of_nat k) 0) as [|_]; [lia|]. rewrite (py_get_nth _ vals k 0%Qc) by lia. cbn [bind].
      rewrite (proj2 (py_get_of_nat _ (map (fun p => residual A (fst p) (snd p)) pairs) k (residual A (nth k vals 0%Qc) (blend (length A) K (nth k ys []))))).
      + cbn [bind]. apply correction_raise.
      + rewrite Pr, map_map, nth_error_map, (nth_error_nth' _ 0%nat) by (rewrite seq_length; lia). rewrite seq_nth by lia. reflexivity. }
  rewrite C. destruct (existsb bad pairs); [reflexivity|]. cbn [bind].
  destruct (get_meaningful_corrections _ _ _ _ _ _) as [cs|e]; [|reflexivity]. cbn [bind]. f_equal. f_equal. f_equal.
  unfold zlen. cbn [Z.eqb negb]. rewrite orb_false_r. rewrite slice_from_0. destruct (_ || _); reflexivity.
Qed.

(** ** C64 *)
Lemma panel_rows_none : forall n, n <= 0 -> panel_rows n = Err ValueError.
Proof.
  intros n H. unfold panel_rows. destruct (Z.ltb_spec n 0); [reflexivity|]. replace n with 0 by lia. reflexivity.
Qed.
Lemma C64_none_pf : forall P dc n, n <= 0 ->
  plot_determinants_amplitude_repartition P dc n = Err ValueError /\ save_hole_probability_lattice P dc n = Err ValueError.
Proof.
  intros P dc n H. unfold plot_determinants_amplitude_repartition, save_hole_probability_lattice. rewrite !panel_rows_none by assumption. now split.
Qed.

(** ** C67 *)
Lemma outer_rounded : forall N A tol prec stp fuel l1 u1 r1 V l u, qr_shape N -> square A -> tall (length A) V ->
  length u1 = length A /\ r1 = opposite (residual A l1 u1) -> outer_loop N A tol prec stp fuel l1 u1 r1 V = Ok (l, u) ->
  exists l0, l = round_to l0 prec /\ length u = length A /\ (norm N (opposite (residual A l0 u)) <= tol)%Qc.
Proof.
  intros N A tol prec stp fuel. induction fuel as [|fuel IH]; intros l1 u1 r1 V l u HQ SA T2 I H; cbn [outer_loop] in H; [discriminate|].
  destruct (qleb (norm N r1) tol) eqn:Q; cbn [negb] in H.
  - injection H as <- <-. exists l1. split; [auto|]. destruct I as [I1 I2]. split; [assumption|]. rewrite <- I2. now apply qleb_le.
  - apply bind_ok_inv in H. destruct H as (o & Eo & H). pose proof (inner_loop_inv _ _ _ _ _ _ _ _ _ _ HQ SA T2 I Eo) as J.
    destruct o as [l2 u2|l2 u2 r2 V2].
    + injection H as <- <-. exact J.
    + destruct J as (J1 & J2). apply (IH l2 u2 r2 V2 l u HQ SA J1 J2 H).
Qed.

Lemma mix_one : forall v y, mix (length v) [v] [y] = map (Qcmult y) v.
Proof.
  intros v y. rewrite mix_blend by (constructor; [reflexivity | constructor]). unfold blend. cbn [length seq].
  apply (nth_ext _ _ 0%Qc 0%Qc); [now rewrite !map_length, seq_length|]. intros i Hi. rewrite map_length, seq_length in Hi.
  rewrite nth_map_seq by assumption. rewrite qsum_cons, qsum_nil. cbn [nth].
  rewrite (nth_indep (map _ v) 0%Qc (y * 0)%Qc) by (now rewrite map_length). rewrite (map_nth (Qcmult y)). ring.
Qed.

Lemma lowest_pair_one : forall N A v0 l1 y, square A -> length v0 = length A -> eigh N [[inner v0 (image A v0)]] = ([l1], [[y]]) ->
  exists r, lowest_pair N A [v0] = Ok (l1, map (Qcmult y) v0, r).
Proof.
  intros N A v0 l1 y SA L E. assert (T1 : tall (length A) [v0]) by (constructor; [assumption | constructor]).
  unfold lowest_pair. rewrite gram_projected by assumption. unfold projected. cbn [map]. rewrite E. cbn [qsort qinsert qindex].
  rewrite qeqb_refl. cbn [bind]. change (py_get [[y]] 0) with (Ok [y]). cbn [bind]. cbv zeta.
  replace (mix (length A) [v0] [y]) with (map (Qcmult y) v0) by (rewrite <- L; symmetry; apply mix_one). eexists. reflexivity.
Qed.

Lemma C67_rounded_pf : forall N A stp tol prec v0 fuel l u l1 y, qr_shape N -> square A -> length v0 = length A ->
  eigh N [[inner v0 (image A v0)]] = ([l1], [[y]]) ->
  davidson_algorithm N A stp tol prec v0 fuel = Ok (l, u) ->
  let u1 := map (Qcmult y) v0 in
  ((norm N (opposite (residual A l1 u1)) < tol)%Qc -> l = l1 /\ u = u1) /\
  ((tol <= norm N (opposite (residual A l1 u1)))%Qc ->
   exists l0, l = round_to l0 prec /\ (norm N (opposite (residual A l0 u)) <= tol)%Qc).
Proof.
  intros N A stp tol prec v0 fuel l u l1 y HQ SA L0 E H u1. unfold davidson_algorithm in H.
  destruct (lowest_pair_one N A v0 l1 y SA L0 E) as [r1 E1]. rewrite E1 in H. cbn [bind] in H. fold u1 in E1, H.
  assert (T1 : tall (length A) [v0]) by (constructor; [assumption | constructor]).
  pose proof (lowest_pair_inv _ _ _ _ _ _ SA T1 E1) as I. rewrite <- (proj2 I). destruct (qleb tol (norm N r1)) eqn:Q; cbn [negb] in H.
  - split; [intros Lt; apply qleb_le in Q; exfalso; exact (Qclt_not_le _ _ Lt Q)|]. intros _.
    apply bind_ok_inv in H. destruct H as (t & Et & H).
    assert (T2 : tall (length A) (qr N (length A) [v0; t])).
    { apply HQ. constructor; [assumption|]. constructor; [|constructor]. apply mapM_length in Et. rewrite Et, combine_length, mat_diagonal_length, (proj2 I).
      unfold opposite. rewrite map_length, residual_length. lia. }
    destruct (outer_rounded _ _ _ _ _ _ _ _ _ _ _ _ HQ SA T2 I H) as (l0 & J1 & _ & J2). exists l0. auto.
  - injection H as <- <-. split; [auto|]. intros L. apply qleb_le in L. congruence.
Qed.

(** ** C74 *)
Lemma C74_linspace_pf : forall a b n, 2 <= n ->
  exists x, linspace a b n = Ok x /\ Z.of_nat (length x) = n /\ nth 0 x 0%Qc = a /\ nth (Z.to_nat (n - 1)) x 0%Qc = b /\
  forall k, (k < length x)%nat -> ((nth k x 0 - a) * qz (n - 1) = qz (Z.of_nat k) * (b - a))%Qc.
Proof.
  intros a b n H. unfold linspace. destruct (Z.ltb_spec n 0) as [|_]; [lia|]. destruct (Z.eqb_spec n 1) as [|_]; [lia|].
  assert (D : qz (n - 1) <> 0%Qc) by (intros Q; apply (qz_inj (n - 1) 0) in Q; lia).
  eexists. split; [reflexivity|]. rewrite map_length, zrange_length. split; [lia|].
  assert (E : forall k, (k < Z.to_nat n)%nat -> nth k (map (fun k => (a + (b - a) * (qz k / qz (n - 1)))%Qc) (zrange 0 n)) 0%Qc =
      (a + (b - a) * (qz (Z.of_nat k) / qz (n - 1)))%Qc).
  { intros k Hk. rewrite zrange_seq by lia. rewrite map_map. now rewrite nth_map_seq. }
  split; [|split].
  - rewrite E by lia. change (Z.of_nat 0) with 0. change (qz 0) with 0%Qc. unfold Qcdiv. ring.
  - rewrite E by lia. rewrite Z2Nat.id by lia. field. exact D.
  - intros k Hk. rewrite E by lia. field. exact D.
Qed.

(** ** C75 *)
Lemma C75_unsorted_pf : forall e count, length (e_spins e) = length (e_vals e) -> 0 <= count <= zlen (e_vals e) ->
  exists pts energies, points_of e count = Ok pts /\ length pts = Z.to_nat count /\
  Permutation (map (fun l => round_to l 6) (e_vals e)) energies /\ StronglySorted (fun x y => (x <= y)%Qc) energies /\
  forall i p, nth_error pts i = Some p -> exists l s, nth_error (e_vals e) i = Some l /\ nth_error (e_spins e) i = Some s /\
    nth_error energies i = Some (q_energy p) /\ q_mult p = compute_spin_multiplicity s /\
    q_deg p = Z.of_nat (length (filter (fun l' => if Qc_eq_dec (round_to l' 6) (round_to l 6) then true else false) (e_vals e))).
Proof.
  intros e count Ls Hc. unfold points_of. cbv zeta. set (es := qsort (rounded (e_vals e))).
  assert (Pe : Permutation es (rounded (e_vals e))) by apply qsort_perm.
  assert (Le : length es = length (e_vals e)) by (rewrite (Permutation_length Pe); apply map_length).
  set (good := fun (i : nat) (p : Phase.point) => exists l s, nth_error (e_vals e) i = Some l /\ nth_error (e_spins e) i = Some s /\
    nth_error es i = Some (q_energy p) /\ q_mult p = compute_spin_multiplicity s /\
    q_deg p = Z.of_nat (length (filter (fun l' => if Qc_eq_dec (round_to l' 6) (round_to l 6) then true else false) (e_vals e)))).
  edestruct (mapM_ex Z Phase.point (fun ind => x <- py_get es ind ;; m <- py_get (labels (e_spins e)) ind ;; k <- py_get (degeneracies (rounded (e_vals e))) ind ;; Ok (mkPoint x m k))
    (fun i p => good (Z.to_nat i) p) (zrange 0 count)) as (pts & P & F).
  - intros i Hi. apply in_zrange in Hi.
    destruct (nth_error (e_vals e) (Z.to_nat i)) as [l|] eqn:El; [|apply nth_error_None in El; unfold zlen in *; lia].
    destruct (nth_error (e_spins e) (Z.to_nat i)) as [s|] eqn:Es; [|apply nth_error_None in Es; unfold zlen in *; lia].
    destruct (nth_error es (Z.to_nat i)) as [x|] eqn:Ex; [|apply nth_error_None in Ex; unfold zlen in *; lia].
    assert (Er : nth_error (rounded (e_vals e)) (Z.to_nat i) = Some (round_to l 6)) by (unfold rounded; apply map_nth_error with (f := fun e => round_to e 6); exact El).
    rewrite (PyFacts.py_get_nth _ es i x ltac:(lia) Ex). cbn [bind].
    rewrite (PyFacts.py_get_nth _ (labels (e_spins e)) i (compute_spin_multiplicity s) ltac:(lia) (map_nth_error _ _ _ Es)). cbn [bind].
    rewrite (PyFacts.py_get_nth _ (degeneracies (rounded (e_vals e))) i (qcount (rounded (e_vals e)) (round_to l 6)) ltac:(lia) (map_nth_error _ _ _ Er)). cbn [bind].
    eexists. split; [reflexivity|]. exists l, s. cbn [q_energy q_mult q_deg]. repeat (split; [assumption || reflexivity|]).
    unfold qcount, zlen. f_equal. unfold rounded. clear. generalize (round_to l 6). intros t. induction (e_vals e) as [|x xs IH]; [reflexivity|].
    cbn [map filter]. destruct (qeqb (round_to x 6) t) eqn:Q.
    + apply qeqb_eq in Q. destruct (Qc_eq_dec (round_to x 6) t); [cbn [length]; f_equal; exact IH | contradiction].
    + destruct (Qc_eq_dec (round_to x 6) t) as [Et|]; [rewrite Et, qeqb_refl in Q; discriminate | exact IH].
  - exists pts, es. split; [exact P|]. pose proof (mapM_length _ _ _ _ _ P) as L. rewrite zrange_length in L. split; [rewrite L; f_equal; lia|].
    split; [symmetry; exact Pe|]. split; [apply qsort_sorted|].
    intros i p Hi. assert (Hi' : (i < length pts)%nat) by (apply nth_error_Some; congruence). change (good i p).
    assert (G : forall l m, Forall2 (fun i p => good (Z.to_nat i) p) l m -> forall k x y, nth_error l k = Some x -> nth_error m k = Some y -> good (Z.to_nat x) y).
    { clear. induction 1; intros [|k] u v A B; try discriminate; [injection A as <-; injection B as <-; assumption | eapply IHForall2; eassumption]. }
    replace i with (Z.to_nat (Z.of_nat i)) by lia. apply (G _ _ F i); [|exact Hi]. apply zrange_nth'. lia.
Qed.
