(** The bond matrices are planar adjacency. *)
From Coq Require Import ZArith List Bool Lia.
From Verif Require Import PyBase PyFacts Lattice Spec.
Import ListNotations.
Open Scope Z_scope.

Definition adjb (p q : Z * Z) : bool := Z.abs (fst p - fst q) + Z.abs (snd p - snd q) =? 1.

Lemma adjb_iff : forall p q, adjb p q = true <-> adjacent p q.
Proof. intros. unfold adjb, adjacent. now rewrite Z.eqb_eq. Qed.
Lemma adjb_sym : forall p q, adjb p q = adjb q p.
Proof. intros. unfold adjb. f_equal. lia. Qed.
Lemma adjacent_sym : forall p q, adjacent p q -> adjacent q p.
Proof. unfold adjacent. intros; lia. Qed.

Definition b2z (b : bool) : Z := if b then 1 else 0.

Lemma bond_entry_b : forall a p q, bond_entry a p q <-> a = b2z (adjb p q).
Proof.
  intros a p q. unfold bond_entry. destruct (adjb p q) eqn:E; simpl.
  - apply adjb_iff in E. tauto.
  - assert (~ adjacent p q) by (rewrite <- adjb_iff; congruence). tauto.
Qed.

(** loops over a range *)
Lemma foldM_range : forall A (P : Z -> A -> Prop) (f : A -> Z -> res A) hi lo b,
  lo <= hi -> P lo b ->
  (forall k acc, lo <= k < hi -> P k acc -> exists acc', f acc k = Ok acc' /\ P (k + 1) acc') ->
  exists r, foldM f b (zrange lo hi) = Ok r /\ P hi r.
Proof.
  intros A P f hi lo b Hle. remember (Z.to_nat (hi - lo)) as m eqn:Em. revert lo b Hle Em.
  induction m as [|m IH]; intros lo b Hle Em H0 Hs.
  - assert (lo = hi) by lia. subst. rewrite zrange_nil by lia. simpl. eauto.
  - rewrite zrange_cons by lia. simpl.
    destruct (Hs lo b ltac:(lia) H0) as (b' & E & H1). rewrite E. simpl.
    apply IH; try lia; [assumption|]. intros k acc Hk. apply Hs. lia.
Qed.

(** shape and entries *)
Definition is_mat (m : mat) (r c : Z) (g : Z -> Z -> Z) : Prop :=
  mrows m = r /\ mcols m = c /\ forall i j, 0 <= i < r -> 0 <= j < c -> mat_at m i j = g i j.

Lemma mzeros_is : forall r c, 0 <= r -> 0 <= c -> exists m, mzeros r c = Ok m /\ is_mat m r c (fun _ _ => 0).
Proof.
  intros r c Hr Hc. unfold mzeros. destruct (Z.ltb_spec r 0); [lia|]. destruct (Z.ltb_spec c 0); [lia|].
  simpl. eexists. split; [reflexivity|]. repeat split.
Qed.

Lemma mset_is : forall m r c g i j v, is_mat m r c g -> 0 <= i < r -> 0 <= j < c ->
  exists m', mset m i j v = Ok m' /\
    is_mat m' r c (fun a b => if (a =? i) && (b =? j) then v else g a b).
Proof.
  intros m r c g i j v (R & C & G) Hi Hj. unfold mset, py_norm.
  destruct (Z.ltb_spec i 0); [lia|]. destruct (Z.ltb_spec j 0); [lia|]. rewrite R, C.
  destruct (Z.leb_spec 0 i); [|lia]. destruct (Z.ltb_spec i r); [|lia].
  destruct (Z.leb_spec 0 j); [|lia]. destruct (Z.ltb_spec j c); [|lia]. simpl.
  eexists. split; [reflexivity|]. split; [reflexivity|]. split; [reflexivity|].
  intros a b Ha Hb. simpl. rewrite G by assumption. reflexivity.
Qed.

Lemma mset_block_is : forall m r c g r0 r1 c0 c1 b gb, is_mat m r c g ->
  0 <= r0 <= r1 -> r1 <= r -> 0 <= c0 <= c1 -> c1 <= c -> is_mat b (r1 - r0) (c1 - c0) gb ->
  exists m', mset_block m r0 r1 c0 c1 b = Ok m' /\
    is_mat m' r c (fun i j => if (r0 <=? i) && (i <? r1) && (c0 <=? j) && (j <? c1)
                              then gb (i - r0) (j - c0) else g i j).
Proof.
  intros m r c g r0 r1 c0 c1 b gb (R & C & G) H1 H2 H3 H4 (Rb & Cb & Gb).
  unfold mset_block. rewrite R, C.
  assert (K : forall n i, 0 <= i <= n -> py_clamp n i = i).
  { intros n i Hi. unfold py_clamp. destruct (Z.ltb_spec i 0); lia. }
  rewrite !K by lia. rewrite Rb, Cb, !Z.eqb_refl. simpl.
  eexists. split; [reflexivity|]. split; [reflexivity|]. split; [reflexivity|].
  intros i j Hi Hj. simpl.
  destruct (Z.leb_spec r0 i); destruct (Z.ltb_spec i r1); destruct (Z.leb_spec c0 j); destruct (Z.ltb_spec j c1);
    simpl; try (apply G; assumption). apply Gb; lia.
Qed.

Lemma is_mat_ext : forall m r c g g', is_mat m r c g ->
  (forall i j, 0 <= i < r -> 0 <= j < c -> g i j = g' i j) -> is_mat m r c g'.
Proof.
  intros m r c g g' (R & C & G) H. split; [assumption|]. split; [assumption|].
  intros i j Hi Hj. rewrite G by assumption. now apply H.
Qed.

Lemma mconcat0_is : forall a b r1 r2 c ga gb, is_mat a r1 c ga -> is_mat b r2 c gb -> 0 <= r1 -> 0 <= r2 ->
  exists m, mconcat0 a b = Ok m /\ is_mat m (r1 + r2) c (fun i j => if i <? r1 then ga i j else gb (i - r1) j).
Proof.
  intros a b r1 r2 c ga gb (Ra & Ca & Ga) (Rb & Cb & Gb) H1 H2. unfold mconcat0. rewrite Ca, Cb, Z.eqb_refl.
  eexists. split; [reflexivity|]. unfold is_mat. cbn [mrows mcols mat_at]. rewrite Ra, Rb.
  split; [reflexivity|]. split; [reflexivity|].
  intros i j Hi Hj. destruct (Z.ltb_spec i r1); [apply Ga | apply Gb]; lia.
Qed.

Lemma mconcat1_is : forall a b r c1 c2 ga gb, is_mat a r c1 ga -> is_mat b r c2 gb -> 0 <= c1 -> 0 <= c2 ->
  exists m, mconcat1 a b = Ok m /\ is_mat m r (c1 + c2) (fun i j => if j <? c1 then ga i j else gb i (j - c1)).
Proof.
  intros a b r c1 c2 ga gb (Ra & Ca & Ga) (Rb & Cb & Gb) H1 H2. unfold mconcat1. rewrite Ra, Rb, Z.eqb_refl.
  eexists. split; [reflexivity|]. unfold is_mat. cbn [mrows mcols mat_at]. rewrite Ca, Cb.
  split; [reflexivity|]. split; [reflexivity|].
  intros i j Hi Hj. destruct (Z.ltb_spec j c1); [apply Ga | apply Gb]; lia.
Qed.

Lemma mtrans_is : forall m r c g, is_mat m r c g -> is_mat (mtrans m) c r (fun i j => g j i).
Proof. intros m r c g (R & C & G). split; [exact C|]. split; [exact R|]. intros i j Hi Hj. simpl. now apply G. Qed.

Lemma meye_is : forall n, 0 <= n -> is_mat (meye n) n n (fun i j => b2z (i =? j)).
Proof.
  intros n Hn. unfold meye. split; [simpl; lia|]. split; [simpl; lia|]. intros i j Hi Hj. reflexivity.
Qed.

Lemma build_J_is : forall d, 1 <= d -> exists m, build_J_matrix d = Ok m /\ is_mat m d d (fun i j => b2z (Z.abs (i - j) =? 1)).
Proof.
  intros d Hd. unfold build_J_matrix.
  set (ones := map (fun _ => 1) (zrange 0 (d - 1))).
  assert (L : zlen ones = d - 1) by (unfold ones; rewrite zlen_map, zlen_zrange; lia).
  assert (O : forall k, 0 <= k < d - 1 -> nth (Z.to_nat k) ones 0 = 1).
  { intros k Hk. unfold ones. rewrite (nth_indep _ 0 1).
    - exact (map_nth (fun _ => 1) (zrange 0 (d - 1)) 0 (Z.to_nat k)).
    - rewrite map_length, zrange_length. lia. }
  unfold madd, mdiag. cbn [mrows mcols]. rewrite L. rewrite !Z.eqb_refl.
  eexists. split; [reflexivity|]. unfold is_mat. cbn [mrows mcols mat_at].
  split; [simpl; lia|]. split; [simpl; lia|]. intros i j Hi Hj. unfold b2z.
  destruct (Z.eqb_spec (j - i) 1); destruct (Z.eqb_spec (j - i) (-1)); destruct (Z.eqb_spec (Z.abs (i - j)) 1); try lia;
    try (rewrite O by lia; lia).
Qed.

(** ** Rectangle *)

Lemma block_div : forall w i b, 0 < w -> (w * b <= i < w * (b + 1) <-> i / w = b).
Proof.
  intros w i b Hw. split; intros H.
  - symmetry. apply (Z.div_unique i w b (i - w * b)); lia.
  - subst b. pose proof (Z.div_mod i w). pose proof (Z.mod_pos_bound i w). lia.
Qed.

Section Rect.
Variables h v s : Z.
Hypothesis Hh : 1 <= h.
Hypothesis Hv : 1 <= v.
Hypothesis Hs : 1 <= s.
Let w := s * h.
Let ht := s * v.

Lemma w_pos : 1 <= w. Proof. subst w. nia. Qed.
Lemma ht_pos : 1 <= ht. Proof. subst ht. nia. Qed.
Lemma n_eq : h * v * s ^ 2 = w * ht. Proof. subst w ht. rewrite Z.pow_2_r. ring. Qed.

(** entries after [k] row blocks and [l] column blocks *)
Definition rect_part (k l : Z) (i j : Z) : Z :=
  if (i / w =? j / w) && (i / w <? k) then b2z (Z.abs (i - j) =? 1)
  else if ((i / w =? j / w + 1) && (j / w <? l)) || ((j / w =? i / w + 1) && (i / w <? l))
       then b2z (Z.abs (i - j) =? w) else 0.

Lemma in_block : forall i b, (w * b <=? i) && (i <? w * (b + 1)) = (i / w =? b).
Proof.
  intros i b. pose proof w_pos. pose proof (block_div w i b ltac:(lia)) as D.
  destruct (Z.leb_spec (w * b) i); destruct (Z.ltb_spec i (w * (b + 1))); simpl; symmetry;
    [apply Z.eqb_eq | apply Z.eqb_neq | apply Z.eqb_neq | apply Z.eqb_neq]; lia.
Qed.

Lemma rect_is : exists m, build_rectangular_bond_matrix h v s = Ok m /\
  is_mat m (w * ht) (w * ht) (fun i j => b2z (adjb (point w i) (point w j))).
Proof.
  pose proof w_pos as Hw. pose proof ht_pos as Hht.
  unfold build_rectangular_bond_matrix. rewrite n_eq. fold w ht.
  destruct (build_J_is w Hw) as (J & -> & IJ). cbn [bind].
  assert (P0 : 0 <= w * ht) by nia.
  destruct (mzeros_is (w * ht) (w * ht) P0 P0) as (z & -> & Iz). cbn [bind].
  match goal with |- context [foldM ?f z _] =>
    destruct (foldM_range mat (fun k m => is_mat m (w * ht) (w * ht) (rect_part k 0)) f ht 0 z) as (m1 & -> & I1)
  end.
  - lia.
  - eapply is_mat_ext; [exact Iz|]. intros i j Hi Hj. unfold rect_part.
    destruct (Z.ltb_spec (i / w) 0); [pose proof (Z.div_pos i w); lia|].
    destruct (Z.ltb_spec (j / w) 0); [pose proof (Z.div_pos j w); lia|].
    now rewrite !andb_false_r.
  - intros k m Hk Im.
    destruct (mset_block_is m (w * ht) (w * ht) _ (w * k) (w * (k + 1)) (w * k) (w * (k + 1)) J (fun i j => b2z (Z.abs (i - j) =? 1)) Im) as (m' & E & I').
    + nia.
    + nia.
    + nia.
    + nia.
    + replace (w * (k + 1) - w * k) with w by lia. exact IJ.
    + exists m'. split; [exact E|]. eapply is_mat_ext; [exact I'|]. cbv beta. intros i j Hi Hj.
      rewrite <- andb_assoc, !in_block. unfold rect_part.
      destruct (Z.eqb_spec (i / w) k); destruct (Z.eqb_spec (j / w) k); destruct (Z.eqb_spec (i / w) (j / w)); try lia; simpl.
      * destruct (Z.ltb_spec (i / w) (k + 1)); [|lia]. f_equal. f_equal. f_equal. lia.
      * reflexivity.
      * reflexivity.
      * destruct (Z.ltb_spec (i / w) (k + 1)); destruct (Z.ltb_spec (i / w) k); try lia; reflexivity.
      * reflexivity.
  - cbn [bind].
    match goal with |- context [foldM ?f m1 _] =>
      destruct (foldM_range mat (fun k m => is_mat m (w * ht) (w * ht) (rect_part ht k)) f (ht - 1) 0 m1) as (m2 & E2 & I2)
    end.
    + lia.
    + exact I1.
    + intros k m Hk Im.
      destruct (mset_block_is m (w * ht) (w * ht) _ (w * (k + 1)) (w * (k + 2)) (w * k) (w * (k + 1)) (meye w) (fun i j => b2z (i =? j)) Im) as (m' & -> & I').
      * nia.
      * nia.
      * nia.
      * nia.
      * replace (w * (k + 2) - w * (k + 1)) with w by lia. replace (w * (k + 1) - w * k) with w by lia.
        apply meye_is. lia.
      * cbn [bind].
        destruct (mset_block_is m' (w * ht) (w * ht) _ (w * k) (w * (k + 1)) (w * (k + 1)) (w * (k + 2)) (meye w) (fun i j => b2z (i =? j)) I') as (m'' & E'' & I'').
        -- nia.
        -- nia.
        -- nia.
        -- nia.
        -- replace (w * (k + 2) - w * (k + 1)) with w by lia. replace (w * (k + 1) - w * k) with w by lia.
           apply meye_is. lia.
        -- exists m''. split; [exact E''|]. eapply is_mat_ext; [exact I''|]. cbv beta. intros i j Hi Hj.
           replace (k + 2) with ((k + 1) + 1) by lia. rewrite <- !(andb_assoc (_ && _)), !in_block. unfold rect_part.
           assert (Bi : i / w < ht) by (apply Z.div_lt_upper_bound; lia).
           assert (Bj : j / w < ht) by (apply Z.div_lt_upper_bound; lia).
           destruct (Z.eqb_spec (i / w) k) as [A1|A1]; destruct (Z.eqb_spec (i / w) (k + 1)) as [A2|A2];
           destruct (Z.eqb_spec (j / w) k) as [A3|A3]; destruct (Z.eqb_spec (j / w) (k + 1)) as [A4|A4]; try lia; cbn [andb];
           destruct (Z.ltb_spec (i / w) ht) as [A12|A12]; try lia;
           destruct (Z.eqb_spec (i / w) (j / w)) as [A5|A5]; try lia; try reflexivity;
           destruct (Z.eqb_spec (i / w) (j / w + 1)) as [A6|A6]; try lia;
           destruct (Z.eqb_spec (j / w) (i / w + 1)) as [A7|A7]; try lia; cbn [andb orb]; try reflexivity;
           destruct (Z.ltb_spec (j / w) (k + 1)) as [A8|A8]; try lia; 
           destruct (Z.ltb_spec (i / w) (k + 1)) as [A9|A9]; try lia;
           destruct (Z.ltb_spec (j / w) k) as [A10|A10]; try lia; destruct (Z.ltb_spec (i / w) k) as [A11|A11];
           try lia; cbn [andb orb]; try reflexivity;
           unfold b2z; destruct (Z.eqb_spec (Z.abs (i - j)) w);
           match goal with |- context [?a =? ?b] => destruct (Z.eqb_spec a b) end; try lia;
           apply (block_div w) in A1 || apply (block_div w) in A2;
           apply (block_div w) in A3 || apply (block_div w) in A4; lia.
    + exists m2. split; [exact E2|]. eapply is_mat_ext; [exact I2|]. cbv beta. intros i j Hi Hj.
      assert (Bi : i / w < ht) by (apply Z.div_lt_upper_bound; lia).
      assert (Bj : j / w < ht) by (apply Z.div_lt_upper_bound; lia).
      unfold rect_part, adjb, point. cbn [fst snd].
      pose proof (Z.div_mod i w ltac:(lia)). pose proof (Z.mod_pos_bound i w ltac:(lia)).
      pose proof (Z.div_mod j w ltac:(lia)). pose proof (Z.mod_pos_bound j w ltac:(lia)).
      set (qi := i / w) in *. set (qj := j / w) in *. set (ri := i mod w) in *. set (rj := j mod w) in *.
      destruct (Z.eqb_spec qi qj) as [A5|A5].
      * destruct (Z.ltb_spec qi ht); [|lia]. cbn [andb]. unfold b2z.
        destruct (Z.eqb_spec (Z.abs (i - j)) 1); destruct (Z.eqb_spec (Z.abs (ri - rj) + Z.abs (qi - qj)) 1); try reflexivity; nia.
      * cbn [andb].
        destruct (Z.eqb_spec qi (qj + 1)); destruct (Z.eqb_spec qj (qi + 1)); try lia; cbn [andb orb].
        -- destruct (Z.ltb_spec qj (ht - 1)); [|lia]. cbn [orb]. unfold b2z.
           destruct (Z.eqb_spec (Z.abs (i - j)) w); destruct (Z.eqb_spec (Z.abs (ri - rj) + Z.abs (qi - qj)) 1); try reflexivity; nia.
        -- destruct (Z.ltb_spec qi (ht - 1)); [|lia]. unfold b2z.
           destruct (Z.eqb_spec (Z.abs (i - j)) w); destruct (Z.eqb_spec (Z.abs (ri - rj) + Z.abs (qi - qj)) 1); try reflexivity; nia.
        -- unfold b2z. destruct (Z.eqb_spec (Z.abs (ri - rj) + Z.abs (qi - qj)) 1); [|reflexivity]. lia.
Qed.
End Rect.
