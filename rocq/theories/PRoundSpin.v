(** Rounded spin operators compared with the exact ones. *)
From Coq Require Import ZArith List Bool Lia Permutation QArith Qcanon.
From Verif Require Import PyBase PyFacts Lattice Base Interact Spin Ham Round RoundSpin Spec SpecOps SpecTJ SpecSpin SpinDefs SignDefs RoundDefs
  PBasis PSites PRot PInter PSpin POps PHam FBasis FSites FInter PWave PVec PSecSum PSpinOp PQc PBound PPerron FDav RangeDefs PRange PRound.
Import ListNotations.
Open Scope Z_scope.

Section Lock.
Variables (u : Qc) (F : floats).
Hypothesis HF : rounds u F.

(** the components of [a'] and [a] differ by at most [eps k] times those of [w] *)
Definition vnear (g : Z -> nat) (a' a w : list Qc) : Prop :=
  length a' = length a /\ length w = length a /\ forall k, 0 <= k -> near (eps u (g k)) (vat a' k) (vat a k) (vat w k).
Lemma vnear_weak : forall g g' a' a w, (forall k, 0 <= k -> (g k <= g' k)%nat) -> vnear g a' a w -> vnear g' a' a w.
Proof. intros g g' a' a w H (L1 & L2 & N). split; [exact L1|]. split; [exact L2|]. intros k Hk. eapply near_weak; [apply (eps_le u F HF), H, Hk | now apply N]. Qed.

Definition hits (dest : Z -> option Z) (k : Z) (inds : list Z) : nat := length (filter (fun ind => match dest ind with Some i => i =? k | None => false end) inds).
Lemma plus_fold_fl : forall (dest : Z -> option Z) (val : Z -> Qc) inds g a' a w, vnear g a' a w ->
  (forall ind i, In ind inds -> dest ind = Some i -> 0 <= i < zlen a) ->
  exists b' b x,
    foldM (fun a ind => match dest ind with Some i => vplus_at_fl F a i (val ind) | None => Ok a end) a' inds = Ok b' /\
    foldM (fun a ind => match dest ind with Some i => vplus_at a i (val ind) | None => Ok a end) a inds = Ok b /\
    foldM (fun a ind => match dest ind with Some i => vplus_at a i (magnitude (val ind)) | None => Ok a end) w inds = Ok x /\
    length b = length a /\ vnear (fun k => (g k + hits dest k inds)%nat) b' b x.
Proof.
  intros dest val inds. induction inds as [|ind inds IH]; intros g a' a w V H; cbn [foldM].
  - exists a', a, w. repeat (split; [reflexivity|]). eapply vnear_weak; [|exact V]. intros k _. cbn. lia.
  - destruct (dest ind) as [i|] eqn:Q.
    + assert (Hi : 0 <= i < zlen a) by (apply (H ind i); [now left | assumption]). destruct V as (L1 & L2 & V).
      assert (Hi' : 0 <= i < zlen a') by (unfold zlen in *; now rewrite L1). assert (Hi2 : 0 <= i < zlen w) by (unfold zlen in *; now rewrite L2).
      unfold vplus_at_fl at 1. unfold vplus_at at 1 3. rewrite !vat_get by assumption. cbn [bind]. rewrite !py_set_ok by assumption. cbn [bind].
      destruct (IH (fun k => if k =? i then S (g k) else g k) (set_nth a' (Z.to_nat i) (fl F (vat a' i + val ind)%Qc)) (set_nth a (Z.to_nat i) (vat a i + val ind)%Qc) (set_nth w (Z.to_nat i) (vat w i + magnitude (val ind))%Qc))
        as (b' & b & x & E1 & E2 & E3 & Lb & N).
      { split; [now rewrite !set_nth_length|]. split; [now rewrite !set_nth_length|]. intros k Hk. rewrite !vat_set by assumption. destruct (Z.eqb_spec k i) as [->|]; [|now apply V].
        apply (near_fl u F HF). apply near_add; [now apply V | apply (near_self u F HF), Qcle_refl]. }
      { intros ind' i' Hin Q'. unfold zlen. rewrite set_nth_length. apply (H ind' i'); [now right | assumption]. }
      exists b', b, x. split; [exact E1|]. split; [exact E2|]. split; [exact E3|]. split; [now rewrite Lb, set_nth_length|].
      eapply vnear_weak; [|exact N]. intros k Hk. cbv beta. unfold hits. cbn [filter]. rewrite Q, (Z.eqb_sym i k). destruct (k =? i); cbn [length]; lia.
    + cbn [bind]. destruct (IH g a' a w V) as (b' & b & x & E1 & E2 & E3 & Lb & N); [intros ind' i' Hin; apply H; now right|].
      exists b', b, x. split; [exact E1|]. split; [exact E2|]. split; [exact E3|]. split; [exact Lb|]. eapply vnear_weak; [|exact N]. intros k Hk. unfold hits. cbn [filter]. rewrite Q. lia.
Qed.

Lemma vat_add_fl : forall a b k, length a = length b -> 0 <= k < zlen a -> vat (vadd_fl F a b) k = fl F (vat a k + vat b k)%Qc.
Proof.
  intros a b k L [Hk Hk']. unfold vat, zlen in *. assert (M : (Z.to_nat k < length a)%nat) by lia. revert M. generalize (Z.to_nat k). clear Hk Hk'. revert b L. induction a as [|x a IH]; intros [|y b] L m M; try discriminate; cbn [length] in M; [lia|].
  unfold vadd_fl. cbn [combine map]. destruct m; cbn [nth fst snd]; [reflexivity|]. apply IH; [now injection L | lia].
Qed.
Lemma vadd_fl_length : forall a b, length a = length b -> length (vadd_fl F a b) = length a.
Proof. intros a b H. unfold vadd_fl. rewrite map_length, combine_length. lia. Qed.
Lemma vat_out : forall a k, 0 <= k -> ~ 0 <= k < zlen a -> vat a k = 0%Qc.
Proof. intros a k Hk N. unfold vat. apply nth_overflow. unfold zlen in N. lia. Qed.
Lemma near_zero : forall k, near (eps u k) 0%Qc 0%Qc 0%Qc.
Proof. intros k. apply (near_self u F HF). apply Qcle_refl. Qed.
Lemma vnear_add : forall k a' a w b' b x, vnear (fun _ => k) a' a w -> vnear (fun _ => k) b' b x -> length a = length b -> vnear (fun _ => S k) (vadd_fl F a' b') (vadd a b) (vadd w x).
Proof.
  intros k a' a w b' b x (L1 & L2 & V) (L3 & L4 & W) L. split; [rewrite vadd_fl_length, vadd_length; congruence|]. split; [rewrite !vadd_length; congruence|].
  intros i Hi. destruct (Z_lt_dec i (zlen a)) as [Q|Q].
  - rewrite vat_add_fl, !vat_add by (unfold zlen in *; try congruence; rewrite L1; lia). apply (near_fl u F HF). apply near_add; [now apply V | now apply W].
  - rewrite !vat_out by (try assumption; unfold zlen in *; rewrite ?vadd_fl_length, ?vadd_length by congruence; lia). apply near_zero.
Qed.
Lemma vat_map : forall f v k, 0 <= k < zlen v -> vat (map f v) k = f (vat v k).
Proof. intros f v k [Hk Hk']. unfold vat, zlen in *. rewrite (nth_indep (map f v) 0%Qc (f 0%Qc)) by (rewrite map_length; lia). apply map_nth. Qed.
Lemma vat_magnitude : forall v k, 0 <= k -> vat (map magnitude v) k = magnitude (vat v k).
Proof.
  intros v k Hk. destruct (Z_lt_dec k (zlen v)) as [Q|Q]; [now apply vat_map|]. rewrite !vat_out by (try assumption; unfold zlen in *; rewrite ?map_length; lia). symmetry. reflexivity.
Qed.
Lemma vnear_scale : forall y v, (0 <= y)%Qc -> vnear (fun _ => 1%nat) (vscale_fl F y v) (vscale y v) (vscale y (map magnitude v)).
Proof.
  intros y v Hy. unfold vscale_fl, vscale. split; [now rewrite !map_length|]. split; [now rewrite !map_length|]. intros k Hk.
  destruct (Z_lt_dec k (zlen v)) as [Q|Q].
  - rewrite (vat_map (fun y0 => fl F (y * y0)%Qc)), (vat_map (fun y0 => (y * y0)%Qc) v), (vat_map (fun y0 => (y * y0)%Qc)), vat_magnitude by (unfold zlen in *; rewrite ?map_length; lia).
    apply (near_fl u F HF 0%nat). apply (near_self u F HF). rewrite magnitude_product. rewrite (magnitude_unique y y Hy) by now left. apply Qcle_refl.
  - rewrite !vat_out by (try assumption; unfold zlen in *; rewrite ?map_length; lia). apply near_zero.
Qed.
End Lock.

Section Op.
Variables (u : Qc) (F : floats) (E : runtime) (c : configuration).
Hypothesis HF : rounds u F.
Hypothesis HE : set_iter_ok E.
Hypothesis P : proper c.
Hypothesis HO : holes_in_order E c.
Local Notation n := (nsites c).
Local Notation sec := (in_sector (nsites c) (nholes c) (nbeta c)).
Local Notation ix := (state_index (nsites c) (nholes c) (nbeta c)).

(** every component is the target of one determinant at most *)
Lemma spm_near : forall v i j, zlen v = nb_conf c -> 0 <= i < n -> 0 <= j < n ->
  exists a' a w, compute_S_plus_S_minus_fl F E c v i j = Ok a' /\ compute_S_plus_S_minus E c v i j = Ok a /\
    compute_S_plus_S_minus E c (map magnitude v) i j = Ok w /\ length a = length v /\ vnear u (fun _ => 1%nat) a' a w.
Proof.
  intros v i j Lv Hi Hj. assert (Pn : 0 < n) by lia.
  assert (DS : forall k, 0 <= k < nb_conf c -> exists s, sec s /\ ix s = k /\
    get_hash_basis (nholes c) (nalpha c) (nbeta c) k = Ok (canon n s)).
  { intros k Hk. destruct (ix_onto c P k Hk) as (s & A & B & C & _). eauto. }
  set (dest := fun k => match get_hash_basis (nholes c) (nalpha c) (nbeta c) k with
     | Ok d => let s := state_of c d in if samep (s i) Down && samep (s j) Up then Some (ix (swap_state i j s)) else None | Err _ => None end).
  assert (DE : forall s, sec s -> dest (ix s) = if samep (s i) Down && samep (s j) Up then Some (ix (swap_state i j s)) else None).
  { intros s Hs. destruct (DS (ix s)) as (s' & Hs' & Q & G); [now apply ix_range|]. unfold dest. rewrite G.
    pose proof (state_of_describes c (canon n s') s' (canon_describes _ _ _ _ Hs')) as S1.
    pose proof (state_index_inj _ _ _ _ _ (proper_n c P) Hs' Hs Q) as S2.
    assert (S3 : same_state n (state_of c (canon n s')) s) by (intros x Hx; rewrite (S1 x Hx); now apply S2).
    cbv zeta. rewrite (S3 i Hi), (S3 j Hj). destruct (_ && _); [|reflexivity]. f_equal. apply state_index_same.
    intros x Hx. unfold swap_state. destruct (x =? i); [now apply S3|]. destruct (x =? j); now apply S3. }
  destruct (plus_fold_fl u F HF dest (vat v) (zrange 0 (nb_conf c)) (fun _ => 0%nat) (vzeros v) (vzeros v) (vzeros (map magnitude v))) as (a' & a & w & E1 & E2 & E3 & La & N).
  { split; [reflexivity|]. split; [unfold vzeros; now rewrite !map_length|]. intros k Hk. rewrite !vat_zeros. apply (near_zero u F HF). }
  { intros k i' Hk Q. apply in_zrange in Hk. destruct (DS k Hk) as (s & Hs & <- & _). rewrite (DE s Hs) in Q.
    destruct (_ && _); [|discriminate]. injection Q as <-. unfold zlen. rewrite vzeros_length. change (0 <= ix (swap_state i j s) < zlen v). rewrite Lv.
    apply (ix_range c P). now apply (swap_sector c). }
  assert (ST : forall (A : Type) (f : list Qc -> Z -> Qc -> res (list Qc)) (v' : list Qc) acc k, zlen v' = nb_conf c -> In k (zrange 0 (nb_conf c)) ->
    match dest k with Some i0 => f acc i0 (vat v' k) | None => Ok acc end =
    (d <- get_hash_basis (nholes c) (nalpha c) (nbeta c) k ;; o <- compute_S_plus_S_minus_det E c d i j ;;
     match o with Some (x :: l) => i <- compute_hash_table c (x :: l) ;; y <- py_get v' k ;; f acc i y | _ => Ok acc end)).
  { intros _ f v' acc k Lv' Hk. apply in_zrange in Hk.
    destruct (DS k Hk) as (s & Hs & Q & G). rewrite G. cbn [bind]. pose proof (spm_det_ok E c s i j HE P HO Hs Hi Hj) as SD. rewrite SD. cbn [bind].
    rewrite <- Q, (DE s Hs). destruct (_ && _); [|reflexivity].
    destruct (nonempty_canon c _ (swap_sector c s i j Hs Hi Hj) Pn) as (x & l & Q'). rewrite Q'. rewrite <- Q'.
    rewrite (index_of_canon c _ (swap_sector c s i j Hs Hi Hj)). cbn [bind]. rewrite vat_get; [reflexivity|]. rewrite Q. now rewrite Lv'. }
  assert (Lm : zlen (map magnitude v) = nb_conf c) by (unfold zlen in *; now rewrite map_length).
  exists a', a, w. split; [|split; [|split; [|split]]].
  - unfold compute_S_plus_S_minus_fl. rewrite <- E1. apply foldM_ext. intros acc k Hk. symmetry. now apply (ST unit (vplus_at_fl F)).
  - unfold compute_S_plus_S_minus. rewrite <- E2. apply foldM_ext. intros acc k Hk. symmetry. now apply (ST unit vplus_at).
  - unfold compute_S_plus_S_minus. rewrite <- E3. apply foldM_ext. intros acc k Hk. symmetry. rewrite <- (ST unit vplus_at _ acc k Lm Hk). apply in_zrange in Hk. rewrite vat_magnitude by lia. reflexivity.
  - now rewrite La, vzeros_length.
  - eapply vnear_weak; [exact HF| |exact N]. intros k Hk. cbn beta. cbn [plus]. unfold hits.
    set (l := filter _ _).
    assert (ND : NoDup l) by (apply NoDup_filter, zrange_NoDup).
    assert (U : forall x y, In x l -> In y l -> x = y).
    { intros x y Hx Hy. apply filter_In in Hx, Hy. destruct Hx as [Hx1 Hx2], Hy as [Hy1 Hy2]. apply in_zrange in Hx1, Hy1.
      destruct (DS x Hx1) as (s & Hs & <- & _), (DS y Hy1) as (t & Ht & <- & _). rewrite (DE s Hs) in Hx2. rewrite (DE t Ht) in Hy2.
      destruct (samep (s i) Down && samep (s j) Up); [|discriminate]. destruct (samep (t i) Down && samep (t j) Up); [|discriminate].
      apply Z.eqb_eq in Hx2, Hy2. rewrite <- Hy2 in Hx2.
      apply (state_index_inj _ _ _ _ _ (proper_n c P) (swap_sector c s i j Hs Hi Hj) (swap_sector c t i j Ht Hi Hj)) in Hx2.
      apply state_index_same. intros z Hz. pose proof (Hx2 z Hz) as A0. pose proof (Hx2 i Hi) as A1. pose proof (Hx2 j Hj) as A2. unfold swap_state in *.
      rewrite Z.eqb_refl in *. destruct (Z.eqb_spec z i), (Z.eqb_spec z j), (Z.eqb_spec j i); subst; congruence. }
    destruct l as [|x [|y l]]; cbn [length]; try lia. exfalso. inversion ND as [|? ? A B]; subst. apply A. rewrite (U x y) by (cbn; auto). now left.
Qed.

Lemma inner_near : forall v i l k acc' acc w, zlen v = nb_conf c -> 0 <= i < n -> (forall j, In j l -> 0 <= j < n) -> length acc = length v -> (2 <= k)%nat -> vnear u (fun _ => k) acc' acc w ->
  exists b' b x,
    foldM (fun a j => x <- compute_S_plus_S_minus_fl F E c v i j ;; y <- compute_S_plus_S_minus_fl F E c v j i ;; Ok (vadd_fl F a (vadd_fl F x y))) acc' l = Ok b' /\
    foldM (fun a j => x <- compute_S_plus_S_minus E c v i j ;; y <- compute_S_plus_S_minus E c v j i ;; Ok (vadd a (vadd x y))) acc l = Ok b /\
    foldM (fun a j => x <- compute_S_plus_S_minus E c (map magnitude v) i j ;; y <- compute_S_plus_S_minus E c (map magnitude v) j i ;; Ok (vadd a (vadd x y))) w l = Ok x /\
    length b = length v /\ vnear u (fun _ => (k + length l)%nat) b' b x.
Proof.
  intros v i l. induction l as [|j l IH]; intros k acc' acc w Lv Hi Hl La Hk V; cbn [foldM].
  - exists acc', acc, w. repeat (split; [reflexivity|]). split; [exact La|]. cbn [length]. now rewrite Nat.add_0_r.
  - assert (Hj : 0 <= j < n) by (apply Hl; now left).
    destruct (spm_near v i j Lv Hi Hj) as (a1' & a1 & w1 & A1 & A2 & A3 & L1 & N1). destruct (spm_near v j i Lv Hj Hi) as (a2' & a2 & w2 & B1 & B2 & B3 & L2 & N2).
    rewrite A1, A2, A3, B1, B2, B3. cbn [bind].
    assert (LA : length (vadd a1 a2) = length v) by (rewrite vadd_length; congruence).
    destruct (IH (S k) (vadd_fl F acc' (vadd_fl F a1' a2')) (vadd acc (vadd a1 a2)) (vadd w (vadd w1 w2)) Lv Hi) as (b' & b & x & E1 & E2 & E3 & Lb & N).
    { intros j' Hj'. apply Hl. now right. }
    { rewrite vadd_length; congruence. }
    { lia. }
    { apply (vnear_add u F HF); [exact V| |congruence]. eapply vnear_weak; [exact HF| |apply (vnear_add u F HF _ _ _ _ _ _ _ N1 N2); congruence]. intros; cbn; lia. }
    exists b', b, x. split; [exact E1|]. split; [exact E2|]. split; [exact E3|]. split; [exact Lb|]. cbn [length]. rewrite Nat.add_succ_r. exact N.
Qed.

Lemma outer_near : forall v l k acc' acc w, zlen v = nb_conf c -> (forall i, In i l -> 0 <= i < n) -> length acc = length v -> (2 <= k)%nat -> vnear u (fun _ => k) acc' acc w ->
  exists b' b x,
    foldM (fun a i => foldM (fun a j => x <- compute_S_plus_S_minus_fl F E c v i j ;; y <- compute_S_plus_S_minus_fl F E c v j i ;; Ok (vadd_fl F a (vadd_fl F x y))) a (zrange (i + 1) n)) acc' l = Ok b' /\
    foldM (fun a i => foldM (fun a j => x <- compute_S_plus_S_minus E c v i j ;; y <- compute_S_plus_S_minus E c v j i ;; Ok (vadd a (vadd x y))) a (zrange (i + 1) n)) acc l = Ok b /\
    foldM (fun a i => foldM (fun a j => x <- compute_S_plus_S_minus E c (map magnitude v) i j ;; y <- compute_S_plus_S_minus E c (map magnitude v) j i ;; Ok (vadd a (vadd x y))) a (zrange (i + 1) n)) w l = Ok x /\
    length b = length v /\ vnear u (fun _ => (k + list_sum (map (fun i => length (zrange (i + 1) n)) l))%nat) b' b x.
Proof.
  intros v l. induction l as [|i l IH]; intros k acc' acc w Lv Hl La Hk V; cbn [foldM].
  - exists acc', acc, w. repeat (split; [reflexivity|]). split; [exact La|]. cbn [map list_sum fold_right]. now rewrite Nat.add_0_r.
  - assert (Hi : 0 <= i < n) by (apply Hl; now left).
    destruct (inner_near v i (zrange (i + 1) n) k acc' acc w Lv Hi) as (a' & a & y & A1 & A2 & A3 & La' & Na); [intros j Hj; apply in_zrange in Hj; lia | assumption..|].
    rewrite A1, A2, A3. cbn [bind].
    destruct (IH (k + length (zrange (i + 1) n))%nat a' a y Lv) as (b' & b & x & E1 & E2 & E3 & Lb & N); [intros i' Hi'; apply Hl; now right | assumption | lia | assumption|].
    exists b', b, x. split; [exact E1|]. split; [exact E2|]. split; [exact E3|]. split; [exact Lb|]. cbn [map list_sum fold_right]. rewrite Nat.add_assoc. exact N.
Qed.

Lemma pairs_count : forall m, 0 <= m <= n -> 2 * Z.of_nat (list_sum (map (fun i => length (zrange (i + 1) n)) (zrange 0 m))) = m * (2 * n - 1 - m).
Proof.
  intros m Hm. replace m with (Z.of_nat (Z.to_nat m)) by lia. assert (K : (Z.to_nat m <= Z.to_nat n)%nat) by lia. revert K. generalize (Z.to_nat m). clear m Hm.
  intros m0; induction m0 as [|m IH]; intros K; [reflexivity|]. rewrite Nat2Z.inj_succ. unfold Z.succ. rewrite zrange_snoc by lia. rewrite map_app, list_sum_app. cbn [map list_sum fold_right]. rewrite zrange_length.
  rewrite !Nat2Z.inj_add, Z2Nat.id by lia. rewrite Z.mul_add_distr_l, IH by lia. lia.
Qed.

Lemma constant_nonneg : (0 <= s2_constant c)%Qc.
Proof.
  unfold s2_constant. rewrite s2_const. destruct P as (_ & H1 & H2 & _). rewrite <- qz_add.
  assert (A : (0 <= qz (nalpha c + nbeta c))%Qc) by (change 0%Qc with (qz 0); apply FDav.qz_le; lia).
  assert (B : (0 <= half)%Qc) by (unfold Qcle; vm_compute; discriminate).
  pose proof (Qcmult_nonneg _ _ B A). pose proof (PBound.square_nonneg (half * (qz (nalpha c) - qz (nbeta c)))%Qc). qc.
Qed.

Lemma S2_near : forall v, zlen v = nb_conf c ->
  exists a' a w, compute_S2_fl F E c v = Ok a' /\ compute_S2 E c v = Ok a /\ compute_S2 E c (map magnitude v) = Ok w /\
    length a = length v /\ vnear u (fun _ => Z.to_nat (2 + n * (n - 1) / 2)) a' a w.
Proof.
  intros v Lv. unfold compute_S2_fl, compute_S2.
  destruct (outer_near v (zrange 0 (n - 1)) 2 (vscale_fl F (s2_constant c) v) (vscale (s2_constant c) v) (vscale (s2_constant c) (map magnitude v)) Lv) as (b' & b & x & E1 & E2 & E3 & Lb & N).
  { intros i Hi. apply in_zrange in Hi. lia. }
  { apply vscale_length. }
  { lia. }
  { eapply vnear_weak; [exact HF| |apply (vnear_scale u F HF), constant_nonneg]. intros; cbn; lia. }
  exists b', b, x. split; [exact E1|]. split; [exact E2|]. split; [exact E3|]. split; [exact Lb|]. eapply vnear_weak; [exact HF| |exact N]. intros k Hk. cbv beta.
  pose proof (proper_n c P) as Pn. destruct (Z.eq_dec n 0) as [Z0|Z0].
  - rewrite Z0. rewrite (zrange_nil 0 (0 - 1)) by lia. cbn [map list_sum fold_right]. change (0 * (0 - 1) / 2) with 0. lia.
  - pose proof (pairs_count (n - 1) ltac:(lia)) as C. replace ((n - 1) * (2 * n - 1 - (n - 1))) with (n * (n - 1)) in C by ring.
    assert (D : nsites c * (nsites c - 1) / 2 = Z.of_nat (list_sum (map (fun i => length (zrange (i + 1) (nsites c))) (zrange 0 (nsites c - 1))))) by (rewrite <- C, (Z.mul_comm 2), Z.div_mul by lia; reflexivity). lia.
Qed.
End Op.
