(** The interactions on one determinant: repulsion of holes. *)
From Coq Require Import ZArith List Bool Lia Permutation QArith Qcanon.
From Verif Require Import PyBase PyFacts Lattice Base Interact Spec SpecOps SpecTJ Geometry PBasis PSites PRot PMat PGeo PInter PSpin.
Import ListNotations.
Open Scope Z_scope.

Lemma in_skipn_nth : forall A (l : list A) k x, In x (skipn k l) <-> exists j, (k <= j)%nat /\ nth_error l j = Some x.
Proof.
  intros A l. induction l as [|y l IH]; intros k x.
  - rewrite skipn_nil. split; [intros []|]. intros (j & _ & H). destruct j; discriminate.
  - destruct k as [|k]; cbn [skipn].
    + split.
      * intros H. apply In_nth_error in H. destruct H as (j & H). exists j. split; [lia | assumption].
      * intros (j & _ & H). eapply nth_error_In, H.
    + rewrite IH. split.
      * intros (j & H1 & H2). exists (S j). split; [lia | assumption].
      * intros (j & H1 & H2). destruct j as [|j]; [lia|]. exists j. split; [lia | assumption].
Qed.

Lemma nth_error_firstn : forall A (l : list A) m j, (j < m)%nat -> nth_error (firstn m l) j = nth_error l j.
Proof. intros A l. induction l as [|y l IH]; intros [|m] [|j] H; cbn; auto; try lia. apply IH. lia. Qed.

Lemma in_enumerate : forall A (l : list A) k x, In (k, x) (enumerate l) <-> 0 <= k /\ nth_error l (Z.to_nat k) = Some x.
Proof.
  intros A l k x. unfold enumerate, zlen, zrange. split.
  - intros H. apply In_nth_error in H. destruct H as (j & H).
    assert (Hj : (j < length l)%nat).
    { assert (nth_error (combine (map (fun k => 0 + Z.of_nat k) (seq 0 (Z.to_nat (Z.of_nat (length l) - 0)))) l) j <> None) by congruence.
      apply nth_error_Some in H0. rewrite combine_length in H0. lia. }
    revert H. assert (G : forall (ks : list Z) (l : list A) j, nth_error (combine ks l) j = 
       match nth_error ks j, nth_error l j with Some a, Some b => Some (a, b) | _, _ => None end).
    { clear. induction ks as [|a ks IH]; intros [|b l] [|j]; cbn; auto. destruct (nth_error ks j); reflexivity. }
    rewrite G, nth_error_map. rewrite (nth_error_nth' _ 0%nat) by (rewrite seq_length; lia). rewrite seq_nth by lia. cbn [option_map].
    destruct (nth_error l j) eqn:Q; [|discriminate]. intros [= <- <-]. split; [lia|]. rewrite <- Q. f_equal. lia.
  - intros [Hk H]. assert (Hj : (Z.to_nat k < length l)%nat) by (apply nth_error_Some; congruence).
    apply (nth_error_In _ (Z.to_nat k)).
    assert (G : forall (ks : list Z) (l : list A) j, nth_error (combine ks l) j = 
       match nth_error ks j, nth_error l j with Some a, Some b => Some (a, b) | _, _ => None end).
    { clear. induction ks as [|a ks IH]; intros [|b l] [|j]; cbn; auto. destruct (nth_error ks j); reflexivity. }
    rewrite G, nth_error_map. rewrite (nth_error_nth' _ 0%nat) by (rewrite seq_length; lia). rewrite seq_nth by lia. cbn [option_map].
    rewrite H. do 2 f_equal. lia.
Qed.

Lemma enumerate_fst : forall A (l : list A), map fst (enumerate l) = zrange 0 (zlen l).
Proof.
  intros. unfold enumerate. assert (H : length (zrange 0 (zlen l)) = length l).
  { unfold zrange, zlen. rewrite map_length, seq_length. lia. }
  revert H. generalize (zrange 0 (zlen l)). induction l as [|x l IH]; intros [|k ks] H; cbn in *; try discriminate; [reflexivity|].
  f_equal. apply IH. lia.
Qed.

Lemma enumerate_NoDup : forall A (l : list A), NoDup (enumerate l).
Proof. intros. apply (NoDup_map_inv fst). rewrite enumerate_fst. apply zrange_NoDup. Qed.

Lemma py_slice_but_last : forall A (l : list A), py_slice l 0 (-1) = firstn (length l - 1) l.
Proof.
  intros. unfold py_slice, py_clamp. pose proof (zlen_nonneg _ l). destruct (Z.ltb_spec 0 0); [lia|]. 
  destruct (Z.ltb_spec (-1) 0); [|lia]. rewrite Z.min_l by lia. cbn [skipn Z.to_nat].
  f_equal. unfold zlen. destruct l; cbn [length]; lia.
Qed.

Definition sort2 (p : Z * Z) : Z * Z := (Z.min (fst p) (snd p), Z.max (fst p) (snd p)).

Lemma later_pairs : forall (l : list Z) (G : Z * Z -> list Z) (R : Z -> Z -> Prop), NoDup l ->
  (forall x, ~ R x x) -> (forall x y, R x y -> R y x) ->
  (forall k h, In (k, h) (enumerate (py_slice l 0 (-1))) ->
     NoDup (G (k, h)) /\ forall x, In x (G (k, h)) <-> R h x /\ In x (py_slice_from l k)) ->
  let P := map sort2 (flat_map (fun p => map (pair (snd p)) (G p)) (enumerate (py_slice l 0 (-1)))) in
  NoDup P /\ (forall i j, In (i, j) P <-> i < j /\ In i l /\ In j l /\ R i j).
Proof.
  intros l G R ND Irr Sym H P.
  assert (Ien : forall k h, In (k, h) (enumerate (py_slice l 0 (-1))) <->
    0 <= k /\ (Z.to_nat k < length l - 1)%nat /\ nth_error l (Z.to_nat k) = Some h).
  { intros k h. rewrite in_enumerate, py_slice_but_last. split.
    - intros [H1 H2]. assert (Hl : (Z.to_nat k < length (firstn (length l - 1) l))%nat) by (apply nth_error_Some; congruence).
      rewrite firstn_length in Hl. rewrite nth_error_firstn in H2 by lia. split; [assumption|]. split; [lia | assumption].
    - intros (H1 & H2 & H3). rewrite nth_error_firstn by lia. auto. }
  assert (Ifrom : forall k x, 0 <= k -> (Z.to_nat k < length l - 1)%nat ->
    (In x (py_slice_from l k) <-> exists j, (Z.to_nat k <= j)%nat /\ nth_error l j = Some x)).
  { intros k x Hk Hl. rewrite py_slice_from_skipn by (unfold zlen; lia). apply in_skipn_nth. }
  assert (U : forall i j x, nth_error l i = Some x -> nth_error l j = Some x -> i = j).
  { intros i j x H1 H2. assert (Hi : (i < length l)%nat) by (apply nth_error_Some; congruence).
    rewrite NoDup_nth_error in ND. apply ND; [assumption | congruence]. }
  assert (M : forall i j, In (i, j) P <-> i < j /\ exists a b x y, (a < b)%nat /\ nth_error l a = Some x /\ nth_error l b = Some y /\
              R x y /\ sort2 (x, y) = (i, j)).
  { intros i j. unfold P. rewrite in_map_iff. split.
    - intros ([x y] & Q & H1). apply in_flat_map in H1. destruct H1 as ([k h] & H1 & H2). apply in_map_iff in H2.
      destruct H2 as (y' & [= -> ->] & H2). destruct (H _ _ H1) as (_ & H3). cbn [snd] in *. apply H3 in H2. destruct H2 as [Rx H2].
      apply Ien in H1. destruct H1 as (K1 & K2 & K3). apply Ifrom in H2; [|assumption|assumption]. destruct H2 as (b & B1 & B2).
      assert (x <> y) by (intros ->; exact (Irr _ Rx)).
      assert (Z.to_nat k <> b) by (intros Qb; rewrite Qb in K3; congruence).
      split; [unfold sort2 in Q; cbn in Q; injection Q as <- <-; lia|]. exists (Z.to_nat k), b, x, y. split; [lia|]. auto.
    - intros (Hij & a & b & x & y & Hab & Hx & Hy & Rxy & Q). exists (x, y). split; [assumption|]. apply in_flat_map.
      assert (Hb : (b < length l)%nat) by (apply nth_error_Some; congruence).
      exists (Z.of_nat a, x). assert (He : In (Z.of_nat a, x) (enumerate (py_slice l 0 (-1)))).
      { apply Ien. rewrite Nat2Z.id. split; [lia|]. split; [lia | assumption]. }
      split; [assumption|]. cbn [snd]. apply in_map. apply (H _ _ He). split; [assumption|].
      apply Ifrom; [lia|rewrite Nat2Z.id; lia|]. exists b. rewrite Nat2Z.id. split; [lia | assumption]. }
  split.
  - unfold P. rewrite flat_map_concat_map, concat_map, map_map, <- flat_map_concat_map.
    apply NoDup_flat_map; [apply enumerate_NoDup| |].
    + intros [k h] Hk. rewrite map_map. apply FinFun.Injective_map_NoDup; [|apply (H _ _ Hk)].
      intros x y Q. unfold sort2 in Q. cbn in Q. injection Q as Q1 Q2. lia.
    + intros [k h] [k' h'] z Hk Hk' H1 H2. rewrite map_map in H1, H2. apply in_map_iff in H1, H2.
      destruct H1 as (x & <- & H1), H2 as (x' & Q & H2). cbn [snd] in Q.
      apply (H _ _ Hk) in H1. apply (H _ _ Hk') in H2. destruct H1 as [_ H1], H2 as [_ H2].
      apply Ien in Hk, Hk'. destruct Hk as (A1 & A2 & A3), Hk' as (B1 & B2 & B3).
      apply Ifrom in H1; [|assumption|assumption]. apply Ifrom in H2; [|assumption|assumption].
      destruct H1 as (j & C1 & C2), H2 as (j' & D1 & D2).
      unfold sort2 in Q. cbn in Q. injection Q as Q1 Q2.
      assert (Z.to_nat k = Z.to_nat k').
      { assert (h = h' \/ (h = x' /\ x = h')) as [->|[-> ->]] by lia; [eapply U; eassumption|].
        pose proof (U _ _ _ A3 D2). pose proof (U _ _ _ B3 C2). lia. }
      assert (k = k') by lia. subst k'. rewrite A3 in B3. injection B3 as <-. reflexivity.
  - intros i j. rewrite M. split.
    + intros (Hij & a & b & x & y & Hab & Hx & Hy & Rxy & Q). split; [assumption|].
      unfold sort2 in Q. cbn in Q. injection Q as <- <-. apply nth_error_In in Hx, Hy.
      destruct (Z.le_ge_cases x y).
      * rewrite Z.min_l, Z.max_r by lia. auto.
      * rewrite Z.min_r, Z.max_l by lia. auto.
    + intros (Hij & Hi & Hj & Rij). split; [assumption|]. apply In_nth_error in Hi, Hj. destruct Hi as (a & Ha), Hj as (b & Hb).
      assert (a <> b) by (intros ->; assert (i = j) by congruence; lia).
      destruct (Nat.lt_ge_cases a b).
      * exists a, b, i, j. unfold sort2. cbn. rewrite Z.min_l, Z.max_r by lia. auto.
      * exists b, a, j, i. unfold sort2. cbn. rewrite Z.min_r, Z.max_l by lia. split; [lia|]. auto.
Qed.

Section Det.
Variables (E : runtime) (c : configuration) (pos : Z -> Z * Z) (r0 r1 : list Z) (d : list Z) (s : occupation).
Hypothesis HE : set_iter_ok E.
Hypothesis HD : drawn c pos.
Hypothesis HR : sites_restriction c = RTuple r0 r1.
Hypothesis Hsub : forall x, 0 <= x < nsites c -> In x r0 -> In x r1.
Hypothesis Hd : conf_describes c d s.
Hypothesis HL : straightness_decided E c pos.
(** two sites at the opposite corners of a square have a common neighbour *)
Hypothesis Hmid : forall x y, 0 <= x < nsites c -> 0 <= y < nsites c -> diagonal (pos x) (pos y) -> exists m, path (nsites c) pos x m y.
Let n := nsites c.
Let bm := bond_matrix c.
Variable L : lattice.
Hypothesis HLs : lat_size L = n.
Hypothesis HLp : forall x, 0 <= x < n -> lat_pos L x = pos x.
Hypothesis HLf : forall x, 0 <= x < n -> (lat_from L x = true <-> In x r0).

Lemma diagonal_sym : forall p q, diagonal p q -> diagonal q p.
Proof. unfold diagonal. intros. lia. Qed.

Definition pairs_at (nbs : Z -> list Z) (l : list Z) : list (Z * Z) :=
  flat_map (fun p => map (pair (snd p)) (py_set_and E (nbs (snd p)) (py_slice_from l (fst p)))) (enumerate (py_slice l 0 (-1))).

Lemma pairs_at_ok : forall nbs l R x, NoDup l -> (forall z, In z l -> 0 <= z < n /\ s z = Hole /\ In z r0) ->
  (forall z, 0 <= z < n -> s z = Hole -> In z r0 -> In z l) ->
  (forall y z, 0 <= y < n -> 0 <= z < n -> (In z (nbs y) <-> In z r1 /\ R (pos y) (pos z) = true)) ->
  (forall y z, In y l -> In z (nbs y) -> 0 <= z < n) ->
  (forall p, R p p = false) -> (forall p q, R p q = R q p) ->
  (qz (zlen (pairs_at nbs l)) * x)%Qc = sum_sites n (fun i => sum_sites n (fun j =>
    only ((i <? j) && lat_from L i && lat_from L j && holeb (s i) && holeb (s j) && R (lat_pos L i) (lat_pos L j)) x)).
Proof.
  intros nbs l R x ND I1 I2 HN HN' Irr Sym.
  destruct (later_pairs l (fun p => py_set_and E (nbs (snd p)) (py_slice_from l (fst p)))
     (fun y z => R (pos y) (pos z) = true /\ 0 <= y < n /\ 0 <= z < n /\ In z r1 /\ In y r1)) as [NDP IP].
  - assumption.
  - intros z (Q & _). rewrite Irr in Q. discriminate.
  - intros y z (Q & H1 & H2 & H3 & H4). rewrite Sym in Q. auto.
  - intros k h Hk. split; [apply set_and_NoDup, HE|]. intros z. rewrite (in_set_and E HE). cbn [fst snd].
    assert (Hh : In h l).
    { apply in_enumerate in Hk. destruct Hk as [_ Hk]. apply nth_error_In in Hk. rewrite py_slice_but_last in Hk.
      rewrite <- (firstn_skipn (length l - 1) l). apply in_app_iff. auto. }
    destruct (I1 _ Hh) as (Hh1 & _ & Hh2). pose proof (Hsub _ Hh1 Hh2) as Hh3. split.
    + intros [H1 H2]. pose proof (HN' _ _ Hh H1) as Hz. apply HN in H1; [|assumption|assumption]. split; [|assumption]. destruct H1. auto 10.
    + intros ((Q & H1 & H2 & H3 & _) & H4). split; [|assumption]. apply HN; auto.
  - fold (pairs_at nbs l) in NDP, IP.
    assert (Ez : zlen (pairs_at nbs l) = zlen (map sort2 (pairs_at nbs l))) by (unfold zlen; rewrite map_length; reflexivity).
    rewrite Ez, <- qsum_const.
    apply (sum_pairs n _ (fun i j => (i <? j) && lat_from L i && lat_from L j && holeb (s i) && holeb (s j) && R (lat_pos L i) (lat_pos L j)) (fun _ => x) NDP).
    intros i j. rewrite IP. rewrite !andb_true_iff, !holeb_iff, Z.ltb_lt. split.
    + intros (H1 & H2 & H3 & Q & Hi & Hj & _). destruct (I1 _ H2) as (_ & A1 & A2), (I1 _ H3) as (_ & B1 & B2).
      split; [assumption|]. split; [assumption|]. rewrite !HLf, !HLp by assumption. auto 10.
    + intros (Hi & Hj & (((((Q & A3) & B3) & A2) & B2) & G)). rewrite HLf in A3 by assumption. rewrite HLf in B3 by assumption.
      rewrite !HLp in G by assumption. split; [assumption|]. split; [auto|]. split; [auto|]. auto 10.
Qed.

Lemma repulsion_ok : forall K, compute_hole_repulsion E c K d = Ok (op_repulsion L K s).
Proof.
  intros K. unfold compute_hole_repulsion.
  destruct (idx_ok E c r0 r1 d s HE HR Hd Hole 0) as (Eh & NDh & Ih). change (spin_code Hole) with 0 in Eh. cbn [Z.eqb] in Ih.
  set (l := idx E c d Hole 0) in *.
  set (dg := fun x => val [] (get_diagonal_second_neighbors E c x)).
  assert (Idg : forall x, 0 <= x < n -> get_diagonal_second_neighbors E c x = Ok (dg x) /\
     forall y, In y (dg x) <-> 0 <= y < n /\ In y r1 /\ diagonal (pos x) (pos y)).
  { intros x Hx. destruct (diag_ok E c pos HE HD HL x r0 r1 Hx HR) as (l0 & E0 & _ & I0). unfold dg. rewrite E0. cbn [val].
    split; [reflexivity|]. intros y. rewrite I0. split.
    - intros (H1 & (m & H2) & H3). split; [apply H2|]. split; [assumption | exact H3].
    - intros (H1 & H2 & H3). split; [assumption|]. split; [apply Hmid; assumption | exact H3]. }
  assert (Inb := nbr_ok E c pos r0 r1 HE HD HR).
  assert (Il : forall z, In z l -> 0 <= z < n /\ s z = Hole /\ In z r0) by (intros z Hz; apply Ih in Hz; tauto).
  assert (Eop : op_repulsion L K s = (qz (zlen (pairs_at (nbr E c) l)) * i_VNN K + qz (zlen (pairs_at dg l)) * i_VNNNper K)%Qc).
  { rewrite (pairs_at_ok (nbr E c) l bondb), (pairs_at_ok dg l diagb).
    - unfold op_repulsion. rewrite HLs. unfold sum_sites. rewrite <- qsum_add. apply qsum_ext. intros i _.
      rewrite <- qsum_add. apply qsum_ext. intros j _. unfold bonded.
      destruct ((i <? j) && lat_from L i && lat_from L j && holeb (s i) && holeb (s j)); cbn [andb only]; [reflexivity | ring].
    - assumption.
    - assumption.
    - intros z H1 H2 H3. apply Ih. auto.
    - intros y z Hy Hz. rewrite (proj2 (Idg y Hy)), diagb_iff. tauto.
    - intros y z Hy Hz. apply Il in Hy. apply (Idg y (proj1 Hy)) in Hz. apply Hz.
    - intros p. unfold diagb. rewrite Z.sub_diag. reflexivity.
    - intros p q. apply eq_true_iff_eq. rewrite !diagb_iff. split; apply diagonal_sym.
    - assumption.
    - assumption.
    - intros z H1 H2 H3. apply Ih. auto.
    - intros y z Hy Hz. rewrite (proj2 (proj2 (Inb y Hy))), bondb_iff. unfold n in Hz. tauto.
    - intros y z Hy Hz. apply Il in Hy. apply (Inb y (proj1 Hy)) in Hz. apply Hz.
    - intros p. unfold bondb. rewrite !Z.sub_diag. reflexivity.
    - apply bondb_sym. }
  rewrite Eop.
  destruct (Z.ltb_spec 1 (nholes c)) as [Hh|Hh].
  - rewrite Eh. cbn [bind].
    match goal with |- context [foldM ?F ?b0 ?l0] =>
      destruct (foldM_ghost _ _ _ F (fun p => [p])
        (fun ts st => st = (flat_map (fun p => map (pair (snd p)) (py_set_and E (nbr E c (snd p)) (py_slice_from l (fst p)))) ts,
                            flat_map (fun p => map (pair (snd p)) (py_set_and E (dg (snd p)) (py_slice_from l (fst p)))) ts)) l0 [] b0) as (x & Ex & Rx) end.
    + intros ts st [k h] Hk ->. assert (Hl : In h l).
      { apply in_enumerate in Hk. destruct Hk as [_ Hk]. apply nth_error_In in Hk. rewrite py_slice_but_last in Hk.
        rewrite <- (firstn_skipn (length l - 1) l). apply in_app_iff. auto. }
      apply Il in Hl. destruct Hl as (Hl & _). rewrite (proj1 (Inb h Hl)). cbn [bind]. rewrite (proj1 (Idg h Hl)). cbn [bind].
      eexists. split; [reflexivity|]. rewrite !flat_map_app. cbn [flat_map fst snd]. rewrite !app_nil_r. reflexivity.
    + reflexivity.
    + rewrite Ex, Rx. cbn [bind app]. f_equal.
      assert (Q : forall (m : list (Z * Z)), flat_map (fun p => [p]) m = m) by (induction m as [|y m IH]; cbn; congruence).
      rewrite Q. reflexivity.
  - assert (Hlen : (length l <= 1)%nat).
    { destruct Hd as (hs & bs & us & _ & Lh & _ & _ & _ & _ & Hin & _).
      assert ((length l <= length hs)%nat); [|lia]. apply NoDup_incl_length; [assumption|]. intros z Hz. apply Hin. apply Il in Hz. tauto. }
    assert (Q : enumerate (py_slice l 0 (-1)) = []).
    { rewrite py_slice_but_last. replace (length l - 1)%nat with 0%nat by lia. reflexivity. }
    unfold pairs_at. rewrite Q. cbn [flat_map]. f_equal.
Qed.

End Det.
