(** Spectrum, repartition of the amplitudes and the missing switch (C63, C64, C65). *)
From Coq Require Import ZArith String List Bool Lia QArith Qcanon Qcabs Permutation Sorted.
From Verif Require Import PyBase PyFacts Lattice Base Interact Ham Spin Prob Dav Files Emb Display Spec SpecQ SpecOps SpecTJ SpinDefs ProbDefs PProb PDav FProb PSpin Post PostDefs.
Import ListNotations.
Open Scope Z_scope.

(** ** C63 *)

Lemma qmem_In : forall x l, qmem x l = true <-> In x l.
Proof.
  intros x l. unfold qmem. rewrite existsb_exists. split.
  - intros (y & I & E). apply qeqb_eq in E. now subst.
  - intros I. exists x. split; [assumption | apply qeqb_refl].
Qed.

Lemma qremove_first : forall x l, In x l -> exists a b, l = a ++ x :: b /\ ~ In x a /\ qremove l x = Ok (a ++ b).
Proof.
  induction l as [|y l IH]; intros I; [destruct I|]. cbn [qremove]. destruct (qeqb y x) eqn:E.
  - apply qeqb_eq in E. subst. exists [], l. cbn. auto.
  - apply qeqb_neq in E. destruct I as [->|I]; [congruence|]. destruct (IH I) as (a & b & -> & N & R). exists (y :: a), b.
    rewrite R. cbn [app bind]. split; [reflexivity|]. split; [|reflexivity]. intros [->|J]; [congruence | auto].
Qed.

Lemma remove_comm : forall x y l, remove Qc_eq_dec x (remove Qc_eq_dec y l) = remove Qc_eq_dec y (remove Qc_eq_dec x l).
Proof.
  induction l as [|z l IH]; [reflexivity|]. cbn [remove]. destruct (Qc_eq_dec y z) as [Ey|Ny], (Qc_eq_dec x z) as [Ex|Nx]; cbn [remove].
  - assumption.
  - destruct (Qc_eq_dec y z); [assumption | congruence].
  - destruct (Qc_eq_dec x z); [assumption | congruence].
  - destruct (Qc_eq_dec y z); [congruence|]. destruct (Qc_eq_dec x z); [congruence|]. now rewrite IH.
Qed.

Lemma firsts_drop : forall v a b, ~ In v a -> remove Qc_eq_dec v (firsts (a ++ v :: b)) = remove Qc_eq_dec v (firsts (a ++ b)).
Proof.
  induction a as [|x a IH]; intros b N; cbn [app firsts].
  - cbn [remove]. destruct (Qc_eq_dec v v); [|congruence]. apply remove_remove_eq.
  - cbn [remove]. destruct (Qc_eq_dec v x); [subst; exfalso; apply N; now left|]. f_equal.
    rewrite remove_comm, IH by (intros I; apply N; now right). apply remove_comm.
Qed.

Lemma in_firsts : forall x l, In x (firsts l) <-> In x l.
Proof.
  induction l as [|y l IH]; [reflexivity|]. cbn [firsts]. split.
  - intros [->|I]; [now left|]. apply in_remove in I. right. tauto.
  - intros [->|I]; [now left|]. destruct (Qc_eq_dec x y); [left; congruence|]. right. apply in_in_remove; tauto.
Qed.

Lemma firsts_NoDup : forall l, NoDup (firsts l).
Proof.
  assert (R : forall x l, NoDup l -> NoDup (remove Qc_eq_dec x l)).
  { intros x l H. induction H; [constructor|]. cbn [remove]. destruct (Qc_eq_dec x x0); [assumption|]. constructor; [|assumption].
    intros I. apply in_remove in I. tauto. }
  induction l as [|x l IH]; cbn [firsts]; [constructor|]. constructor; [apply remove_In | now apply R].
Qed.

Lemma times_app : forall a b x, times_in (a ++ b) x = times_in a x + times_in b x.
Proof. intros. unfold times_in. rewrite count_occ_app. lia. Qed.

Lemma times_cons : forall a b x, times_in (a :: b) x = (if Qc_eq_dec a x then 1 else 0) + times_in b x.
Proof. intros. unfold times_in. cbn [count_occ]. destruct (Qc_eq_dec a x); lia. Qed.

Lemma times_none : forall l x, ~ In x l -> times_in l x = 0.
Proof. intros l x N. unfold times_in. now rewrite (proj1 (count_occ_not_In Qc_eq_dec l x) N). Qed.

Lemma get_mid : forall A (a : list A) x b, py_get (a ++ x :: b) (zlen a) = Ok x.
Proof.
  intros. apply py_get_nth; [apply zlen_nonneg|]. unfold zlen. rewrite Nat2Z.id, nth_error_app2, Nat.sub_diag by lia. reflexivity.
Qed.

Lemma set_mid : forall A (a : list A) x b y, py_set (a ++ x :: b) (zlen a) y = Ok (a ++ y :: b).
Proof.
  intros. pose proof (zlen_nonneg _ a). pose proof (zlen_nonneg _ b). rewrite py_set_ok by (rewrite zlen_app, zlen_cons; lia). f_equal.
  unfold zlen. rewrite Nat2Z.id. replace (length a) with (length a + 0)%nat by lia. now rewrite set_nth_app2.
Qed.

Lemma slice_to_mid : forall A (a : list A) x b, py_slice (a ++ x :: b) 0 (zlen a + 1) = a ++ [x].
Proof.
  intros. unfold py_slice, py_clamp. pose proof (zlen_nonneg _ a). pose proof (zlen_nonneg _ b). rewrite zlen_app, zlen_cons.
  destruct (Z.ltb_spec (zlen a + 1) 0); [lia|]. change (0 <? 0) with false. cbn match. rewrite !Z.min_l by lia. rewrite Z.sub_0_r. cbn [skipn Z.to_nat].
  replace (Z.to_nat (zlen a + 1)) with (length a + 1)%nat by (unfold zlen; lia). rewrite firstn_app_2. reflexivity.
Qed.

Lemma slice_from_mid : forall A (a : list A) x b, py_slice_from (a ++ x :: b) (zlen a + 1) = b.
Proof.
  intros. unfold py_slice_from, py_slice, py_clamp. pose proof (zlen_nonneg _ a). pose proof (zlen_nonneg _ b). rewrite zlen_app, zlen_cons.
  destruct (Z.ltb_spec (zlen a + 1) 0); [lia|]. destruct (Z.ltb_spec (zlen a + (zlen b + 1)) 0); [lia|]. rewrite (Z.min_l (zlen a + 1)) by lia. try rewrite Z.min_id.
  replace (Z.to_nat (zlen a + 1)) with (length a + 1)%nat by (unfold zlen; lia). replace (Z.to_nat (zlen a + (zlen b + 1) - (zlen a + 1))) with (length b) by (unfold zlen; lia).
  rewrite skipn_app. rewrite skipn_all2 by lia. replace (length a + 1 - length a)%nat with 1%nat by lia. cbn [skipn app]. apply firstn_all.
Qed.

Lemma merge_loop_ok : forall n rest v k done ks m fuel, (length rest <= n)%nat -> (length rest < fuel)%nat -> (length rest <= m)%nat -> length ks = length done ->
  exists m', merge_loop fuel (done ++ v :: rest) (ks ++ k :: repeat 1 m) (zlen done) =
    Ok (done ++ firsts (v :: rest), ks ++ (k + times_in rest v) :: map (times_in rest) (remove Qc_eq_dec v (firsts rest)) ++ repeat 1 m').
Proof.
  induction n as [|n IH]; intros rest v k done ks m fuel Hn Hf Hm Hk.
  - destruct rest; [|simpl in Hn; lia]. destruct fuel; [lia|]. cbn [merge_loop].
    replace (zlen done <? zlen (done ++ [v]) - 1) with false by (rewrite zlen_app; symmetry; apply Z.ltb_ge; unfold zlen; simpl; lia).
    exists m. cbn [firsts remove map]. unfold times_in. cbn [count_occ]. rewrite Z.add_0_r. reflexivity.
  - destruct rest as [|w rest'] eqn:Er.
    + destruct fuel; [lia|]. cbn [merge_loop].
      replace (zlen done <? zlen (done ++ [v]) - 1) with false by (rewrite zlen_app; symmetry; apply Z.ltb_ge; unfold zlen; simpl; lia).
      exists m. cbn [firsts remove map]. unfold times_in. cbn [count_occ]. rewrite Z.add_0_r. reflexivity.
    + rewrite <- Er in *. destruct fuel as [|fuel]; [lia|]. cbn [merge_loop].
      replace (zlen done <? zlen (done ++ v :: rest) - 1) with true.
      2:{ symmetry. apply Z.ltb_lt. rewrite zlen_app, zlen_cons. subst rest. rewrite zlen_cons. pose proof (zlen_nonneg _ rest'). lia. }
      cbn zeta. rewrite get_mid. cbn [bind]. rewrite slice_from_mid. destruct (qmem v rest) eqn:Q.
      * apply qmem_In in Q. destruct (qremove_first v rest Q) as (a & b & E & N & ->). cbn [bind].
        assert (Zk : zlen done = zlen ks) by (unfold zlen; lia). rewrite Zk, get_mid. cbn [bind]. rewrite set_mid. cbn [bind]. rewrite <- Zk, slice_to_mid. replace ((done ++ [v]) ++ a ++ b) with (done ++ v :: a ++ b) by (rewrite <- (app_assoc done); reflexivity).
        assert (L : length rest = S (length (a ++ b))) by (rewrite E, !app_length; simpl; lia).
        destruct (IH (a ++ b) v (k + 1) done ks m fuel) as (m' & R); try lia. exists m'. rewrite R. f_equal. f_equal.
        -- cbn [firsts]. rewrite E, firsts_drop by assumption. reflexivity.
        -- f_equal. rewrite E. rewrite firsts_drop by assumption. f_equal.
           ++ rewrite !times_app, times_cons. destruct (Qc_eq_dec v v); [lia | congruence].
           ++ f_equal. apply map_ext_in. intros x I. apply in_remove in I. rewrite !times_app, times_cons. destruct (Qc_eq_dec v x); [intuition congruence | lia].
      * assert (Nv : ~ In v rest) by (rewrite <- qmem_In; congruence). rewrite Er in *.
        replace (zlen done + 1) with (zlen (done ++ [v])) by (rewrite zlen_app; reflexivity).
        replace (done ++ v :: w :: rest') with ((done ++ [v]) ++ w :: rest') by (rewrite <- app_assoc; reflexivity).
        destruct m as [|m]; [simpl in Hm; lia|].
        replace (ks ++ k :: repeat 1 (S m)) with ((ks ++ [k]) ++ 1 :: repeat 1 m) by (rewrite <- app_assoc; reflexivity).
        destruct (IH rest' w 1 (done ++ [v]) (ks ++ [k]) m fuel) as (m' & R); [simpl in Hn; lia | simpl in Hf; lia | simpl in Hm; lia | rewrite !app_length; simpl; lia |].
        exists m'. rewrite R. rewrite <- !app_assoc. cbn [app]. f_equal.
        assert (NF : remove Qc_eq_dec v (firsts (w :: rest')) = firsts (w :: rest')) by (apply notin_remove; rewrite in_firsts; assumption).
        assert (FE : firsts (v :: w :: rest') = v :: firsts (w :: rest')) by (change (firsts (v :: w :: rest')) with (v :: remove Qc_eq_dec v (firsts (w :: rest'))); now rewrite NF).
        rewrite FE, NF. f_equal. f_equal. f_equal; [rewrite times_none by assumption; lia|]. cbn [firsts map app]. f_equal.
        -- rewrite times_cons. destruct (Qc_eq_dec w w); [lia | congruence].
        -- f_equal. apply map_ext_in. intros x I. apply in_remove in I. rewrite times_cons. destruct (Qc_eq_dec w x); [intuition congruence | lia].
Qed.

Lemma slice_prefix : forall A (a b : list A), py_slice (a ++ b) 0 (zlen a) = a.
Proof.
  intros. unfold py_slice, py_clamp. pose proof (zlen_nonneg _ a). pose proof (zlen_nonneg _ b). rewrite zlen_app.
  destruct (Z.ltb_spec (zlen a) 0); [lia|]. change (0 <? 0) with false. cbn match. rewrite !Z.min_l by lia. rewrite Z.sub_0_r. cbn [skipn Z.to_nat].
  unfold zlen. rewrite Nat2Z.id. rewrite firstn_app, Nat.sub_diag, firstn_all. cbn [firstn]. now rewrite app_nil_r.
Qed.

Lemma C63_merged_pf : forall l, merge_energies l = Ok (firsts l, map (times_in l) (firsts l)).
Proof.
  intros [|v rest]; [reflexivity|]. unfold merge_energies. cbn [map].
  destruct (merge_loop_ok (length rest) rest v 1 [] [] (length rest) (S (length (v :: rest)))) as (m' & R); try (simpl; lia).
  cbn [app] in R. change (zlen []) with 0 in R. replace (map (fun _ => 1) rest) with (repeat 1 (length rest)).
  2:{ clear. induction rest; simpl; congruence. }
  rewrite R. cbn [bind]. f_equal. f_equal.
  assert (E : map (times_in (v :: rest)) (firsts (v :: rest)) = (1 + times_in rest v) :: map (times_in rest) (remove Qc_eq_dec v (firsts rest))).
  { cbn [firsts map]. f_equal; [rewrite times_cons; destruct (Qc_eq_dec v v); [lia | congruence]|]. apply map_ext_in. intros x I. apply in_remove in I.
    rewrite times_cons. destruct (Qc_eq_dec v x); [intuition congruence | lia]. }
  rewrite E. replace (zlen (firsts (v :: rest))) with (zlen ((1 + times_in rest v) :: map (times_in rest) (remove Qc_eq_dec v (firsts rest)))).
  2:{ rewrite <- E. apply zlen_map. }
  rewrite app_comm_cons. apply slice_prefix.
Qed.

Lemma C63_values_pf : forall l, NoDup (firsts l) /\ (forall x, In x (firsts l) <-> In x l).
Proof. intros l. split; [apply firsts_NoDup | intros x; apply in_firsts]. Qed.

Lemma int_total_cons : forall x l, int_total (x :: l) = x + int_total l.
Proof. reflexivity. Qed.

Lemma int_total_remove : forall (f : Qc -> Z) x l, NoDup l -> int_total (map f (remove Qc_eq_dec x l)) = int_total (map f l) - (if in_dec Qc_eq_dec x l then f x else 0).
Proof.
  intros f x l H. induction H as [|y l N H IH]; [reflexivity|]. cbn [remove map]. rewrite int_total_cons.
  destruct (Qc_eq_dec x y) as [->|Ny].
  - rewrite notin_remove by assumption. destruct (in_dec Qc_eq_dec y (y :: l)) as [_|C]; [lia | exfalso; apply C; now left].
  - cbn [map]. rewrite int_total_cons, IH.
    destruct (in_dec Qc_eq_dec x l) as [I|I], (in_dec Qc_eq_dec x (y :: l)) as [J|J]; try lia; exfalso; [apply J; now right | destruct J; [congruence | auto]].
Qed.

Lemma C63_total_pf : forall l, int_total (map (times_in l) (firsts l)) = zlen l.
Proof.
  induction l as [|v l IH]; [reflexivity|]. cbn [firsts map]. rewrite int_total_cons, zlen_cons, times_cons. destruct (Qc_eq_dec v v); [|congruence].
  replace (map (times_in (v :: l)) (remove Qc_eq_dec v (firsts l))) with (map (times_in l) (remove Qc_eq_dec v (firsts l))).
  2:{ apply map_ext_in. intros x I. apply in_remove in I. rewrite times_cons. destruct (Qc_eq_dec v x); [intuition congruence | lia]. }
  rewrite int_total_remove by apply firsts_NoDup. rewrite IH. destruct (in_dec Qc_eq_dec v (firsts l)) as [I|I]; [lia|].
  rewrite in_firsts in I. rewrite times_none by assumption. lia.
Qed.

(** the lines of the picture *)
Lemma axis_points : forall k, qz (k + 1) = abscissa (S (Z.to_nat k)) /\ (qz k + qfrac 3 2)%Qc = (abscissa (S (Z.to_nat k)) + Q2Qc (1 # 2))%Qc \/ k < 0.
Proof.
  intros k. destruct (Z.ltb_spec k 0); [now right|]. left.
  assert (A : abscissa (S (Z.to_nat k)) = qz (k + 1)).
  { unfold abscissa, qz. replace (Z.of_nat (S (Z.to_nat k))) with (k + 1) by lia. reflexivity. }
  split; [now symmetry|]. rewrite A. rewrite qz_add. unfold qfrac. rewrite <- Qcplus_assoc. reflexivity.
Qed.

Lemma C63_drawn_pf : forall dc, save_spectrum dc = Ok (DSpectrum (append (picture (d_conf (dc_data dc)) "Spectrum") ".png") (spectrum_lines (e_vals (dc_eig dc)))).
Proof.
  intros dc. set (l := e_vals (dc_eig dc)). unfold save_spectrum. fold l. rewrite C63_merged_pf. cbn [bind].
  assert (O : orbitals_of (firsts l) (map (times_in l) (firsts l)) =
    Ok (concat (map (fun v => map (fun k => ((qz (k + 1), (qz k + qfrac 3 2)%Qc), (v, v))) (zrange 0 (times_in l v))) (firsts l)))).
  { unfold orbitals_of, enumerate.
    assert (G : forall pre post, concatM (fun p : Z * Qc => let '(ind_val, val) := p in k <- py_get (map (times_in l) (pre ++ post)) ind_val ;;
        Ok (map (fun ind => ((qz (ind + 1), (qz ind + qfrac 3 2)%Qc), (val, val))) (zrange 0 k))) (combine (zrange (zlen pre) (zlen pre + zlen post)) post)
      = Ok (concat (map (fun v => map (fun k => ((qz (k + 1), (qz k + qfrac 3 2)%Qc), (v, v))) (zrange 0 (times_in l v))) post))).
    { intros pre post. revert pre. induction post as [|v post IH]; intros pre; [now rewrite combine_nil|].
      pose proof (zlen_nonneg _ post). rewrite zrange_cons by (rewrite zlen_cons; lia). unfold concatM. cbn [combine mapM].
      rewrite map_app. cbn [map]. replace (zlen pre) with (zlen (map (times_in l) pre)) at 1 by apply zlen_map. rewrite get_mid. cbn [bind].
      specialize (IH (pre ++ [v])). rewrite <- app_assoc in IH. cbn [app] in IH. unfold concatM in IH.
      replace (zlen (pre ++ [v])) with (zlen pre + 1) in IH by (rewrite zlen_app; reflexivity).
      replace (zlen pre + 1 + zlen post) with (zlen pre + zlen (v :: post)) in IH by (rewrite zlen_cons; lia).
      rewrite map_app in IH. cbn [map] in IH. destruct (mapM _ _) in IH |- *; cbn [bind] in *; [|discriminate]. injection IH as IH. cbn [concat]. now rewrite IH. }
    specialize (G [] (firsts l)). cbn [app] in G. exact G. }
  rewrite O. cbn [bind]. f_equal. f_equal. unfold spectrum_lines. f_equal. apply map_ext. intros v. unfold times_in.
  set (n := count_occ Qc_eq_dec l v). clearbody n. unfold zrange. rewrite Z.sub_0_r, Nat2Z.id, map_map. apply map_ext. intros k.
  destruct (axis_points (0 + Z.of_nat k)) as [[-> ->]|C]; [|lia]. replace (Z.to_nat (0 + Z.of_nat k)) with k by lia. reflexivity.
Qed.

Lemma C63_lines_pf : forall l, length (spectrum_lines l) = length l.
Proof.
  intros l. apply Nat2Z.inj. fold (zlen l). rewrite <- C63_total_pf. unfold spectrum_lines, times_in. generalize (firsts l). intros f. induction f as [|v f IH]; [reflexivity|].
  cbn [map concat]. rewrite app_length, map_length, seq_length, int_total_cons, <- IH. lia.
Qed.

(** ** C64 *)

Lemma filter_perm : forall A (f : A -> bool) l l', Permutation l l' -> length (filter f l) = length (filter f l').
Proof. intros A f l l' P. induction P; cbn [filter]; try (destruct (f x)); try (destruct (f y)); simpl; lia. Qed.

Lemma first_above_ok : forall l x k, StronglySorted Qcle l -> Forall (fun v => 0 <= v)%Qc l ->
  first_above l x k = k + Z.of_nat (length (filter (fun v => negb (qleb x v)) l)).
Proof.
  induction l as [|v l IH]; intros x k S F; [simpl; lia|]. inversion S as [|? ? S' Fv]; inversion F as [|? ? P F']; subst. cbn [first_above filter].
  assert (A : qabs v = v) by (unfold qabs; now rewrite (proj2 (qleb_le 0 v) P)). rewrite A. destruct (qleb x v) eqn:Q; cbn [negb].
  - replace (filter (fun v => negb (qleb x v)) l) with (@nil Qc); [simpl; lia|]. symmetry. apply qleb_le in Q. clear - Fv Q. induction Fv as [|w l H Fv IH]; [reflexivity|].
    cbn [filter]. rewrite (proj2 (qleb_le x w)) by (eapply Qcle_trans; eassumption). assumption.
  - rewrite IH by assumption. cbn [length]. lia.
Qed.

Lemma repartition_ok : forall v x, zlen (qsort (map qabs v)) - first_above (qsort (map qabs v)) x 0 = at_least v x.
Proof.
  intros v x. rewrite first_above_ok; [| apply qsort_sorted |].
  2:{ eapply Permutation_Forall; [symmetry; apply qsort_perm|]. apply Forall_forall. intros a I. apply in_map_iff in I. destruct I as (b & <- & _). rewrite qabs_abs. apply Qcabs_nonneg. }
  unfold zlen, at_least. rewrite (filter_perm _ _ _ _ (qsort_perm (map qabs v))), (Permutation_length (qsort_perm (map qabs v))). rewrite map_length.
  assert (E : (length (filter (fun w => negb (qleb x w)) (map qabs v)) + length (filter (fun a => if Qclt_le_dec (Qcabs a) x then false else true) v) = length v)%nat).
  { induction v as [|a v IH]; [reflexivity|]. cbn [map filter]. rewrite qabs_abs. destruct (Qclt_le_dec (Qcabs a) x) as [H|H].
    - replace (qleb x (Qcabs a)) with false; [cbn [negb length]; lia|]. symmetry. destruct (qleb x (Qcabs a)) eqn:Q; [|reflexivity]. apply qleb_le in Q. exfalso. exact (Qclt_not_le _ _ H Q).
    - rewrite (proj2 (qleb_le x (Qcabs a)) H). cbn [negb length]. lia. }
  lia.
Qed.

Lemma panel_ok : forall r k, 2 <= r -> 0 <= k < r ^ 2 -> panel r k = Ok (k / r, k mod r).
Proof.
  intros r k Hr Hk. unfold panel. destruct (Z.eqb_spec r 1); [lia|]. assert (k / r < r) by (apply Z.div_lt_upper_bound; nia).
  destruct (Z.ltb_spec (k / r) r); [reflexivity | lia].
Qed.

Lemma sqrt_rows : forall n, 4 <= n -> 2 <= Z.sqrt n.
Proof. intros n H. change 2 with (Z.sqrt 4). apply Z.sqrt_le_mono, H. Qed.

Lemma rows_ok : forall n, 1 <= n -> panel_rows n = Ok (Z.sqrt n).
Proof.
  intros n H. unfold panel_rows. destruct (Z.ltb_spec n 0); [lia|]. destruct (Z.eqb_spec (Z.sqrt n) 0) as [E|E]; [|reflexivity].
  pose proof (Z.sqrt_le_mono 1 n H) as M. change (Z.sqrt 1) with 1 in M. lia.
Qed.

Lemma amax_ok : forall l, l <> [] -> exists m, amax l = Ok m /\ In m l /\ Forall (fun a => a <= m)%Qc l.
Proof.
  intros [|x l] H; [congruence|]. clear H. cbn [amax]. eexists. split; [reflexivity|].
  assert (G : forall l x m0, In m0 (x :: l) \/ True -> In (fold_left (fun m y => if qleb m y then y else m) l x) (x :: l) /\ (x <= fold_left (fun m y => if qleb m y then y else m) l x)%Qc /\
    Forall (fun a => a <= fold_left (fun m y => if qleb m y then y else m) l x)%Qc l).
  { clear. induction l as [|y l IH]; intros x m0 _; cbn [fold_left].
    - split; [now left|]. split; [apply Qcle_refl | constructor].
    - destruct (qleb x y) eqn:Q.
      + apply qleb_le in Q. destruct (IH y y (or_intror I)) as (I1 & I2 & I3). split; [right; assumption|]. split; [eapply Qcle_trans; eassumption | constructor; assumption].
      + apply qleb_false in Q. destruct (IH x x (or_intror I)) as (I1 & I2 & I3). split; [destruct I1; [now left | right; now right]|]. split; [assumption|].
        constructor; [eapply Qcle_trans; eassumption | assumption]. }
  destruct (G l x x (or_intror I)) as (I1 & I2 & I3). split; [assumption | constructor; assumption].
Qed.

Lemma amax_peak : forall v, v <> [] -> exists m, amax (qsort (map qabs v)) = Ok m /\ peak v m.
Proof.
  intros v H. assert (P := qsort_perm (map qabs v)). destruct (amax_ok (qsort (map qabs v))) as (m & E & I & F).
  { intros C. rewrite C in P. apply Permutation_nil in P. destruct v; [congruence | discriminate]. }
  exists m. split; [assumption|]. assert (M : map qabs v = map Qcabs v) by (apply map_ext; apply qabs_abs). rewrite M in *. split.
  - eapply Permutation_in; eassumption.
  - apply Forall_forall. intros a J. assert (K : In (Qcabs a) (qsort (map Qcabs v))) by (eapply Permutation_in; [symmetry; exact P | now apply in_map]).
    rewrite Forall_forall in F. now apply F.
Qed.


Lemma mapM_rel : forall A B (f : A -> res B) (R : A -> B -> Prop) l, (forall x, In x l -> exists y, f x = Ok y /\ R x y) ->
  exists ys, mapM f l = Ok ys /\ Forall2 R l ys.
Proof.
  induction l as [|x l IH]; intros H; [exists []; split; [reflexivity | constructor]|].
  destruct (H x (or_introl eq_refl)) as (y & E & Rxy). destruct IH as (ys & M & F); [intros; apply H; now right|].
  exists (y :: ys). cbn [mapM]. rewrite E. cbn [bind]. rewrite M. split; [reflexivity | now constructor].
Qed.

Lemma Forall2_len : forall A B (R : A -> B -> Prop) l l', Forall2 R l l' -> length l = length l'.
Proof. intros A B R l l' F. induction F; simpl; congruence. Qed.

Lemma Forall2_zrange : forall B (R : Z -> B -> Prop) n ys, 0 <= n -> Forall2 R (zrange 0 n) ys ->
  zlen ys = n /\ forall k, 0 <= k < n -> exists y, nth_error ys (Z.to_nat k) = Some y /\ R k y.
Proof.
  intros B R n ys Hn F. assert (L := Forall2_len _ _ _ _ _ F). rewrite zrange_length in L. split; [unfold zlen; lia|]. intros k Hk.
  assert (G : forall a l, Forall2 R (zrange a n) l -> forall k, a <= k < n -> exists y, nth_error l (Z.to_nat (k - a)) = Some y /\ R k y).
  { clear. intros a l. revert a. induction l as [|y l IH]; intros a F k Hk.
    - apply Forall2_len in F. rewrite zrange_length in F. simpl in F. lia.
    - rewrite zrange_cons in F by lia. inversion F; subst. destruct (Z.eq_dec k a) as [->|Nk]; [exists y; rewrite Z.sub_diag; auto|].
      destruct (IH _ H4 k ltac:(lia)) as (z & E & Rz). exists z. split; [|assumption]. replace (Z.to_nat (k - a)) with (S (Z.to_nat (k - (a + 1)))) by lia. exact E. }
  destruct (G 0 ys F k Hk) as (y & E & Ry). rewrite Z.sub_0_r in E. eauto.
Qed.

Lemma C64_curves_pf : forall P dc n, let vs := e_vects (dc_eig dc) in let r := Z.sqrt n in 4 <= n -> Forall (fun v => v <> []) vs ->
  exists panels, plot_determinants_amplitude_repartition P dc n = Ok (DAmplitudes (append (picture (d_conf (dc_data dc)) "DeterminantsAmplitude") ".png") panels) /\
    zlen panels = Z.min (r ^ 2) (zlen vs) /\
    forall k, 0 <= k < r ^ 2 -> k < zlen vs -> exists m, peak (nth (Z.to_nat k) vs []) m /\
      nth_error panels (Z.to_nat k) = Some ((k / r, k mod r), (arange P m, map (at_least (nth (Z.to_nat k) vs [])) (arange P m))).
Proof.
  intros P dc n vs r Hn Hv. unfold plot_determinants_amplitude_repartition. fold vs. rewrite rows_ok by lia. cbn [bind]. fold r.
  pose proof (sqrt_rows n Hn) as Hr. fold r in Hr. pose proof (zlen_nonneg _ vs) as Z0.
  match goal with |- context [mapM ?f ?l] => destruct (mapM_rel _ _ f (fun k y => exists m, peak (nth (Z.to_nat k) vs []) m /\
      y = ((k / r, k mod r), (arange P m, map (at_least (nth (Z.to_nat k) vs [])) (arange P m)))) l) as (ys & M & F) end.
  - intros k Hk. apply in_zrange in Hk. assert (L : (Z.to_nat k < length vs)%nat) by (unfold zlen in Hk; lia).
    rewrite (py_get_nth _ vs k (nth (Z.to_nat k) vs [])) by (try lia; now apply nth_error_nth'). cbn [bind].
    set (v := nth (Z.to_nat k) vs []). assert (Nv : v <> []) by (rewrite Forall_forall in Hv; apply Hv, nth_In, L).
    destruct (amax_peak v Nv) as (m & E & Pk). rewrite E. cbn [bind]. rewrite panel_ok by lia. cbn [bind]. eexists. split; [reflexivity|]. exists m. split; [assumption|].
    f_equal. f_equal. apply map_ext. intros x. apply repartition_ok.
  - rewrite M. cbn [bind]. exists ys. split; [reflexivity|]. assert (S0 : 0 <= Z.min (r ^ 2) (zlen vs)) by nia.
    destruct (Forall2_zrange _ _ _ _ S0 F) as (L & G). split; [assumption|]. intros k Hk Hk'. destruct (G k ltac:(lia)) as (y & E & m & Pk & ->). exists m. auto.
Qed.

(** with one to three panels asked for, the only axis cannot be indexed *)
Lemma C64_single_pf : forall P dc n, 1 <= n < 4 -> e_vects (dc_eig dc) <> [] -> Forall (fun v => v <> []) (e_vects (dc_eig dc)) ->
  plot_determinants_amplitude_repartition P dc n = Err TypeError.
Proof.
  intros P dc n Hn Hv Hne. unfold plot_determinants_amplitude_repartition. rewrite rows_ok by lia.
  assert (R : Z.sqrt n = 1) by (assert (H : n = 1 \/ n = 2 \/ n = 3) by lia; destruct H as [->|[->| ->]]; reflexivity). rewrite R. cbn [bind].
  destruct (e_vects (dc_eig dc)) as [|v vs] eqn:E; [congruence|]. pose proof (zlen_nonneg _ vs). change (1 ^ 2) with 1.
  rewrite Z.min_l by (rewrite zlen_cons; lia). change (zrange 0 1) with (0 :: nil). cbn [mapM]. rewrite (get_mid _ [] v vs : py_get (v :: vs) 0 = Ok v). cbn [bind]. inversion Hne; subst. destruct (amax_peak v H2) as (m & -> & _). reflexivity.
Qed.

(** ** C65 *)

Lemma C65_forgotten_pf : forall bt bz bij bSD btN bV bV_embedding b_spin,
  bool_attribute (make_bools bt bz bij bSD btN bV bV_embedding b_spin) "bV_embedding" = Err AttributeError.
Proof. reflexivity. Qed.

Lemma C65_others_pf : forall bt bz bij bSD btN bV bV_embedding b_spin, let b := make_bools bt bz bij bSD btN bV bV_embedding b_spin in
  bool_attribute b "bt" = Ok bt /\ bool_attribute b "bz" = Ok bz /\ bool_attribute b "bij" = Ok bij /\ bool_attribute b "bSD" = Ok bSD /\
  bool_attribute b "btN" = Ok btN /\ bool_attribute b "bV" = Ok bV /\ bool_attribute b "b_spin_multipicities" = Ok b_spin.
Proof. repeat split; reflexivity. Qed.

Lemma C65_never_pf : forall P dc n x, save_hole_probability_lattice P dc n <> Ok x.
Proof.
  intros P dc n x. unfold save_hole_probability_lattice. destruct (panel_rows n) as [r|]; cbn [bind]; [|discriminate].
  destruct (mapM _ _); cbn [bind]; [|discriminate]. discriminate.
Qed.

Lemma C65_raises_pf : forall P dc st n, let c := d_conf (dc_data dc) in
  (forall x y z, exists u, interp2d P x y z = Ok u) ->
  listed (nsites c) (nholes c) (nbeta c) (dc_dets dc) st -> lattice_type c = Periodic -> 0 <= nbh c * nblocs_side c -> 0 <= nbv c * nblocs_side c ->
  nsites c = (nbh c * nblocs_side c) * (nbv c * nblocs_side c) ->
  Forall (fun v => length v = length (dc_dets dc) /\ inner v v <> 0%Qc) (e_vects (dc_eig dc)) -> 4 <= n ->
  save_hole_probability_lattice P dc n = Err AttributeError.
Proof.
  intros P dc st n c HI HL HP Hh Hv HN HF Hn. unfold save_hole_probability_lattice. rewrite rows_ok by lia. cbn [bind]. fold c.
  pose proof (sqrt_rows n Hn) as Hr. set (r := Z.sqrt n) in *. set (vs := e_vects (dc_eig dc)) in *. pose proof (zlen_nonneg _ vs) as Z0.
  match goal with |- context [mapM ?f ?l] => destruct (mapM_rel _ _ f (fun _ _ => True) l) as (ys & M & _) end; [|rewrite M; reflexivity].
  intros k Hk. apply in_zrange in Hk. assert (L : (Z.to_nat k < length vs)%nat) by (unfold zlen in Hk; lia).
  rewrite (py_get_nth _ vs k (nth (Z.to_nat k) vs [])) by (try lia; now apply nth_error_nth'). cbn [bind].
  set (v := nth (Z.to_nat k) vs []). assert (Fv : length v = length (dc_dets dc) /\ inner v v <> 0%Qc) by (rewrite Forall_forall in HF; apply HF, nth_In, L).
  destruct (C43_map_pf c (dc_dets dc) st v Hole HL (proj1 Fv) (proj2 Fv) HP Hh Hv HN) as (rows & pr & _ & E & _). change (spin_code Hole) with 0 in E. rewrite E. cbn [bind].
  destruct (HI (zrange 0 (nblocs_side c * nbh c)) (zrange 0 (nblocs_side c * nbv c)) rows) as (u & ->). cbn [bind]. rewrite panel_ok by lia. cbn [bind]. eauto.
Qed.

(** no picture follows the spectrum when the density of the holes is asked for *)
Lemma C65_plots_pf : forall P fs d i, 0 < nholes (d_conf d) -> p_holes i = true ->
  (exists e, snd (generate_plots_configuration P fs d i) = Err e) /\
  forall x, In x (fst (generate_plots_configuration P fs d i)) -> exists name l, x = DSpectrum name l.
Proof.
  intros P fs d i Hh Hp. 
  assert (G : forall dc emb, (exists e, snd (plot_everything P (d_conf d) i dc emb) = Err e) /\
     forall x, In x (fst (plot_everything P (d_conf d) i dc emb)) -> exists name l, x = DSpectrum name l).
  { intros dc emb. unfold plot_everything. rewrite (proj2 (Z.ltb_lt _ _) Hh), Hp. cbn [andb].
    pose proof (C65_never_pf P dc (p_plot i)) as NV. destruct (save_hole_probability_lattice P dc (p_plot i)) as [x|e]; [exfalso; eapply NV; reflexivity|].
    destruct (p_spectrum i); cbn [and_then drawn_one nothing app].
    - unfold save_spectrum. destruct (merge_energies _) as [[vals deg]|e0]; cbn [bind]; [|cbn; split; [eauto | intros ? []]].
      destruct (orbitals_of vals deg); cbn [bind drawn_one and_then app fst snd]; (split; [eauto|]); [intros y [<-|[]]; eauto | intros ? []].
    - cbn. split; [eauto | intros ? []]. }
  unfold generate_plots_configuration. destruct (load_data fs _) as [dc|e]; [|cbn; split; [eauto | intros ? []]].
  destruct (p_neel i || p_static i || p_dynamic i); [|apply G]. destruct (load_data fs _) as [emb|e]; [apply G | cbn; split; [eauto | intros ? []]].
Qed.
