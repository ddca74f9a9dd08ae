(** Proofs on the curves of Phase.v. *)
From Coq Require Import ZArith String List Bool Sorted Permutation Lia QArith Qcanon.
From Verif Require Import PyBase PyFacts Lattice Base Interact Ham Spin Prob Dav Files Emb Display Post Phase.
Import ListNotations.
Open Scope Z_scope.

Lemma py_get_lt : forall A (l : list A) i, 0 <= i < zlen l -> exists a, py_get l i = Ok a /\ nth_error l (Z.to_nat i) = Some a.
Proof.
  intros A l i H. destruct (nth_error l (Z.to_nat i)) as [a|] eqn:E.
  - exists a. split; [|reflexivity]. apply py_get_nth; [lia | exact E].
  - apply nth_error_None in E. unfold zlen in H. lia.
Qed.

Lemma py_get_nil : forall A i, py_get (@nil A) i = Err IndexError.
Proof. intros A i. unfold py_get. destruct (_ <? 0); [reflexivity|]. destruct (Z.to_nat _); reflexivity. Qed.

Lemma run_length_bounds : forall l p, 0 <= run_length p l <= zlen l.
Proof.
  induction l as [|q l IH]; intros p; cbn [run_length]; [unfold zlen; simpl; lia|].
  rewrite zlen_cons. destruct (same_labels p q); [specialize (IH q) |pose proof (zlen_nonneg _ l)]; lia.
Qed.

(** the labels agree up to the run length, and not after *)
Lemma run_length_stop : forall l p a b, run_length p l < zlen l ->
  nth_error (p :: l) (Z.to_nat (run_length p l)) = Some a -> nth_error (p :: l) (Z.to_nat (run_length p l + 1)) = Some b -> same_labels a b = false.
Proof.
  induction l as [|q l IH]; intros p a b; cbn [run_length]; [unfold zlen; simpl; lia|].
  rewrite zlen_cons. destruct (same_labels p q) eqn:E; intros L A B.
  - pose proof (run_length_bounds l q). apply (IH q); [lia| |].
    + replace (Z.to_nat (1 + run_length q l)) with (S (Z.to_nat (run_length q l))) in A by lia. exact A.
    + replace (Z.to_nat (1 + run_length q l + 1)) with (S (Z.to_nat (run_length q l + 1))) in B by lia. exact B.
  - simpl in A, B. injection A as <-. injection B as <-. exact E.
Qed.
Lemma run_length_agree : forall l p i a b, (Z.of_nat i < run_length p l) ->
  nth_error (p :: l) i = Some a -> nth_error (p :: l) (S i) = Some b -> same_labels a b = true.
Proof.
  induction l as [|q l IH]; intros p i a b; cbn [run_length]; [lia|].
  destruct (same_labels p q) eqn:E; [|lia]. intros L A B. destruct i as [|i].
  - simpl in A, B. injection A as <-. injection B as <-. exact E.
  - apply (IH q i); [lia | exact A | exact B].
Qed.
Lemma run_length_ge : forall l p m, (m <= length l)%nat ->
  (forall i a b, (i < m)%nat -> nth_error (p :: l) i = Some a -> nth_error (p :: l) (S i) = Some b -> same_labels a b = true) ->
  Z.of_nat m <= run_length p l.
Proof.
  induction l as [|q l IH]; intros p m L H; cbn [run_length].
  - simpl in L. lia.
  - destruct m as [|m]. { destruct (same_labels p q); [pose proof (run_length_bounds l q)|]; lia. }
    rewrite (H 0%nat p q); [|lia|reflexivity|reflexivity].
    assert (Z.of_nat m <= run_length q l); [|lia]. apply IH; [simpl in L; lia|].
    intros i a b Hi A B. apply (H (S i)); [lia | exact A | exact B].
Qed.

(** one step keeps the points of every abscissa *)
Definition kept (n : nat) (u v : list (list point)) : Prop :=
  length v = length u /\ Forall (fun l => length l = n) v /\
  (forall k, Permutation (map (fun l => nth_error l k) u) (map (fun l => nth_error l k) v)) /\
  map (firstn 3) v = map (firstn 3) u.

Lemma kept_refl : forall n u, Forall (fun l => length l = n) u -> kept n u u.
Proof. intros. split; [reflexivity|]. split; [assumption|]. split; [intros; apply Permutation_refl | reflexivity]. Qed.
Lemma kept_trans : forall n u v w, kept n u v -> kept n v w -> kept n u w.
Proof.
  intros n u v w (A1 & A2 & A3 & A4) (B1 & B2 & B3 & B4). split; [congruence|]. split; [assumption|]. split; [|congruence].
  intros k. eapply Permutation_trans; [apply A3 | apply B3].
Qed.

(** the new curve made of the start of [a] and of the end of [b] *)
Definition splice (a b : list point) (m : nat) : list point := firstn m a ++ skipn m b.
Lemma splice_length : forall a b m, length b = length a -> (m <= length a)%nat -> length (splice a b m) = length a.
Proof. intros. unfold splice. rewrite app_length, firstn_length, skipn_length. lia. Qed.
Lemma nth_error_firstn_lt : forall A m k (l : list A), (k < m)%nat -> nth_error (firstn m l) k = nth_error l k.
Proof.
  induction m as [|m IH]; intros k l H; [lia|]. destruct l as [|x l]; [destruct k; reflexivity|].
  destruct k as [|k]; [reflexivity|]. simpl. apply IH. lia.
Qed.
Lemma nth_error_skipn_plus : forall A m k (l : list A), nth_error (skipn m l) k = nth_error l (m + k).
Proof. induction m as [|m IH]; intros k l; [reflexivity|]. destruct l; [destruct k; reflexivity|]. simpl. apply IH. Qed.
Lemma splice_nth : forall a b m k, length b = length a -> (m <= length a)%nat ->
  nth_error (splice a b m) k = if (k <? m)%nat then nth_error a k else nth_error b k.
Proof.
  intros a b m k L M. unfold splice. destruct (Nat.ltb_spec k m).
  - rewrite nth_error_app1 by (rewrite firstn_length; lia). apply nth_error_firstn_lt. assumption.
  - rewrite nth_error_app2 by (rewrite firstn_length; lia). rewrite firstn_length, Nat.min_l by lia.
    rewrite nth_error_skipn_plus. f_equal. lia.
Qed.
Lemma splice_first : forall a b m, (3 <= m)%nat -> (m <= length a)%nat -> firstn 3 (splice a b m) = firstn 3 a.
Proof.
  intros a b m H L. unfold splice. rewrite firstn_app, firstn_firstn, Nat.min_l by lia.
  replace (3 - length (firstn m a))%nat with 0%nat by (rewrite firstn_length; lia). rewrite app_nil_r. reflexivity.
Qed.

Lemma kept_exchange : forall n m x a y b z, Forall (fun l => length l = n) (x ++ a :: y ++ b :: z) -> (3 <= m <= n)%nat ->
  kept n (x ++ a :: y ++ b :: z) (x ++ splice a b m :: y ++ splice b a m :: z).
Proof.
  intros n m x a y b z F M. apply Forall_app in F. destruct F as [Fx F]. apply Forall_inv in F as Fa. apply Forall_inv_tail in F.
  apply Forall_app in F. destruct F as [Fy F]. apply Forall_inv in F as Fb. apply Forall_inv_tail in F.
  split. { rewrite !app_length. simpl. rewrite !app_length. reflexivity. }
  split.
  { apply Forall_app. split; [assumption|]. constructor; [rewrite splice_length; lia|].
    apply Forall_app. split; [assumption|]. constructor; [rewrite splice_length; lia | assumption]. }
  split.
  - intros k. rewrite !map_app. simpl. rewrite !map_app. simpl. rewrite !splice_nth by lia.
    apply Permutation_app_head. destruct (k <? m)%nat; [apply Permutation_refl|].
    set (P := map _ y). set (Q := map _ z).
    change (Permutation ((nth_error a k :: P) ++ nth_error b k :: Q) ((nth_error b k :: P) ++ nth_error a k :: Q)).
    eapply Permutation_trans; [apply Permutation_sym, Permutation_middle|]. simpl.
    constructor. apply Permutation_middle.
  - rewrite !map_app. cbn [map]. rewrite !map_app. cbn [map]. rewrite !splice_first by lia. reflexivity.
Qed.

Lemma get_at : forall A (x : list A) a y, py_get (x ++ a :: y) (zlen x) = Ok a.
Proof. intros. apply py_get_nth; [apply zlen_nonneg|]. unfold zlen. rewrite Nat2Z.id, nth_error_app2, Nat.sub_diag by lia. reflexivity. Qed.
Lemma set_at : forall A (x : list A) a y v, py_set (x ++ a :: y) (zlen x) v = Ok (x ++ v :: y).
Proof.
  intros. pose proof (zlen_nonneg _ y). pose proof (zlen_nonneg _ x). rewrite py_set_ok by (rewrite zlen_app, zlen_cons; lia).
  f_equal. unfold zlen. rewrite Nat2Z.id. induction x as [|p x IH]; [reflexivity|]. simpl. f_equal. apply IH. apply zlen_nonneg.
Qed.

Lemma exchange_tails_at : forall n m x a y b z, length a = n -> length b = n -> 0 <= m -> m < Z.of_nat n ->
  exchange_tails (x ++ a :: y ++ b :: z) (zlen x) (zlen x + 1 + zlen y) m =
  Ok (x ++ splice a b (Z.to_nat (m + 1)) :: y ++ splice b a (Z.to_nat (m + 1)) :: z).
Proof.
  intros n m x a y b z Fa Fb M0 M1.
  assert (La : zlen a = Z.of_nat n) by (unfold zlen; lia). assert (Lb : zlen b = Z.of_nat n) by (unfold zlen; lia).
  unfold exchange_tails. rewrite get_at. cbn [bind].
  replace (zlen x + 1 + zlen y) with (zlen (x ++ a :: y)) by (rewrite zlen_app, zlen_cons; lia).
  replace (x ++ a :: y ++ b :: z) with ((x ++ a :: y) ++ b :: z) by (rewrite <- app_assoc; reflexivity). rewrite get_at. cbn [bind].
  rewrite !py_slice_prefix, !py_slice_from_skipn by lia.
  replace ((x ++ a :: y) ++ b :: z) with (x ++ a :: y ++ b :: z) by (rewrite <- app_assoc; reflexivity). rewrite set_at. cbn [bind].
  fold (splice a b (Z.to_nat (m + 1))). fold (splice b a (Z.to_nat (m + 1))).
  replace (zlen (x ++ a :: y)) with (zlen (x ++ splice a b (Z.to_nat (m + 1)) :: y)) by (rewrite !zlen_app, !zlen_cons; lia).
  replace (x ++ splice a b (Z.to_nat (m + 1)) :: y ++ b :: z) with ((x ++ splice a b (Z.to_nat (m + 1)) :: y) ++ b :: z) by (rewrite <- app_assoc; reflexivity).
  rewrite set_at. rewrite <- app_assoc. reflexivity.
Qed.

Lemma crossing_ok : forall n a b m, length a = n -> length b = n -> 0 <= m -> m + 1 < Z.of_nat n ->
  exists a0 a1 b0 b1, nth_error a (Z.to_nat m) = Some a0 /\ nth_error a (Z.to_nat (m + 1)) = Some a1 /\
    nth_error b (Z.to_nat m) = Some b0 /\ nth_error b (Z.to_nat (m + 1)) = Some b1 /\
    crossing a b m = Ok (same_labels a0 b1 && same_labels b0 a1).
Proof.
  intros n a b m La Lb M0 M1.
  destruct (py_get_lt _ a m) as (a0 & G1 & N1); [unfold zlen; lia|].
  destruct (py_get_lt _ a (m + 1)) as (a1 & G2 & N2); [unfold zlen; lia|].
  destruct (py_get_lt _ b m) as (b0 & G3 & N3); [unfold zlen; lia|].
  destruct (py_get_lt _ b (m + 1)) as (b1 & G4 & N4); [unfold zlen; lia|].
  exists a0, a1, b0, b1. repeat (split; [assumption|]). unfold crossing. rewrite G1. cbn [bind]. rewrite G2. cbn [bind]. rewrite G4. cbn [bind]. rewrite G3. reflexivity.
Qed.

Lemma exchanged_ok : forall n a b m, length a = n -> length b = n -> 0 <= m -> m + 1 < Z.of_nat n ->
  exists x, exchanged a b m = Ok x /\ (x = true -> 2 <= m).
Proof.
  intros n a b m La Lb M0 M1. unfold exchanged.
  assert (G : forall l i, length l = n -> - Z.of_nat n <= i < Z.of_nat n -> exists p, py_get l i = @Ok point p).
  { intros l i L Hi. destruct (Z.ltb_spec i 0).
    - destruct (nth_error l (Z.to_nat (i + zlen l))) as [p|] eqn:Ep.
      + exists p. apply py_get_neg; [lia | unfold zlen; lia | exact Ep].
      + apply nth_error_None in Ep. unfold zlen in Ep. lia.
    - destruct (py_get_lt _ l i) as (p & Hp & _); [unfold zlen; lia|]. exists p. exact Hp. }
  destruct (G a (m - 1) La) as [p1 E1]; [lia|]. destruct (G a m La) as [p2 E2]; [lia|]. destruct (G a (m + 1) La) as [p3 E3]; [lia|].
  destruct (G b (m - 1) Lb) as [p4 E4]; [lia|]. destruct (G b m Lb) as [p5 E5]; [lia|]. destruct (G b (m + 1) Lb) as [p6 E6]; [lia|].
  rewrite E1; cbn [bind]. rewrite E2; cbn [bind]. rewrite E3; cbn [bind]. rewrite E4; cbn [bind]. rewrite E5; cbn [bind]. rewrite E6; cbn [bind].
  eexists. split; [reflexivity|]. intros H. apply andb_prop in H. destruct H as [H _]. apply andb_prop in H. destruct H as [H _].
  apply Z.ltb_lt in H. lia.
Qed.

Lemma find_crossing_empty : forall n a m rest z k, length a = n -> Forall (fun l => length l = n) rest -> 0 <= m -> m + 1 < Z.of_nat n ->
  (exists y b w, rest = y ++ b :: w /\ find_crossing a (rest ++ repeat [] z) m k = Ok (Some (k + zlen y)) /\ crossing a b m = Ok true) \/
  (z = 0%nat /\ find_crossing a (rest ++ repeat [] z) m k = Ok None) \/
  (z <> 0%nat /\ find_crossing a (rest ++ repeat [] z) m k = Err IndexError).
Proof.
  intros n a m rest z. induction rest as [|b rest IH]; intros k La F M0 M1.
  - right. destruct z as [|z]; [left; split; reflexivity|]. right. split; [discriminate|]. cbn [app repeat find_crossing].
    unfold crossing. destruct (py_get_lt _ a m) as (a0 & G1 & _); [unfold zlen; lia|].
    destruct (py_get_lt _ a (m + 1)) as (a1 & G2 & _); [unfold zlen; lia|]. rewrite G1. cbn [bind]. rewrite G2. cbn [bind].
    assert (G : py_get (@nil point) (m + 1) = Err IndexError).
    { apply py_get_nil. }
    rewrite G. reflexivity.
  - apply Forall_inv in F as Fb. apply Forall_inv_tail in F. cbn [app find_crossing].
    destruct (crossing_ok n a b m La Fb M0 M1) as (a0 & a1 & b0 & b1 & _ & _ & _ & _ & C). rewrite C. cbn [bind].
    destruct (same_labels a0 b1 && same_labels b0 a1) eqn:E.
    + left. exists [], b, rest. split; [reflexivity|]. split; [|exact C]. unfold zlen. simpl. f_equal. f_equal. lia.
    + destruct (IH (k + 1) La F M0 M1) as [(y & b' & w & H1 & H2 & H3) | H]; [|right; exact H].
      left. exists (b :: y), b', w. split; [rewrite H1; reflexivity|]. split; [|exact H3]. rewrite H2. f_equal. f_equal. rewrite zlen_cons. lia.
Qed.

Lemma reorganise_from : forall fuel n full z i, (1 <= n)%nat -> Forall (fun l => length l = n) full -> 0 <= i ->
  (i < zlen full + Z.of_nat z - 1 -> (zlen full + Z.of_nat z - 2 - i) * Z.of_nat n + 1 <= Z.of_nat fuel) ->
  (forall a p, i < zlen full -> i < zlen full + Z.of_nat z - 1 -> py_get full i = Ok a -> py_get a 0 = Ok p ->
     (zlen full + Z.of_nat z - 2 - i) * Z.of_nat n + (Z.of_nat n - run_length p (py_slice_from a 1)) <= Z.of_nat fuel) ->
  (exists full', reorganise fuel (full ++ repeat [] z) i = Ok (full' ++ repeat [] z) /\ kept n full full') \/
  (z <> 0%nat /\ reorganise fuel (full ++ repeat [] z) i = Err IndexError).
Proof.
  induction fuel as [|f IH]; intros n full z i Hn F Hi Hf0 Hf.
  { unfold reorganise. rewrite zlen_app. replace (zlen (repeat [] z)) with (Z.of_nat z) by (unfold zlen; rewrite repeat_length; reflexivity).
    destruct (Z.leb_spec (zlen full + Z.of_nat z - 1) i); [left; eexists; split; [reflexivity | apply kept_refl; assumption]|].
    specialize (Hf0 ltac:(lia)). nia. }
  cbn [reorganise]. rewrite zlen_app. replace (zlen (repeat [] z)) with (Z.of_nat z) by (unfold zlen; rewrite repeat_length; reflexivity).
  destruct (Z.leb_spec (zlen full + Z.of_nat z - 1) i); [left; eexists; split; [reflexivity | apply kept_refl; assumption]|].
  destruct (Z_lt_ge_dec i (zlen full)) as [Hlt|Hge].
  2:{ right. split; [lia|]. assert (G : py_get (full ++ repeat [] z) i = @Ok (list point) []).
      { apply py_get_nth; [lia|]. rewrite nth_error_app2 by (unfold zlen in *; lia). apply nth_error_repeat. unfold zlen in *. lia. }
      rewrite G. cbn [bind]. rewrite py_get_nil. reflexivity. }
  destruct (py_get_lt _ full i) as (a & G & Na); [lia|].
  assert (La : length a = n) by (apply nth_error_In in Na; rewrite Forall_forall in F; apply F; exact Na).
  destruct (py_get_lt _ a 0) as (p & Gp & Np); [unfold zlen; lia|].
  pose proof (Hf a p ltac:(lia) ltac:(lia) G Gp) as Hfa. specialize (Hf0 ltac:(lia)). pose proof (run_length_bounds (py_slice_from a 1) p) as B.
  assert (G' : py_get (full ++ repeat [] z) i = Ok a).
  { apply py_get_nth; [lia|]. rewrite nth_error_app1 by (unfold zlen in *; lia). exact Na. }
  rewrite G'. cbn [bind]. rewrite Gp. cbn [bind].
  assert (Ea : a = p :: py_slice_from a 1).
  { rewrite py_slice_from_skipn by (unfold zlen; lia). destruct a as [|q a]; [discriminate|]. simpl in Np. injection Np as ->. reflexivity. }
  set (m := run_length p (py_slice_from a 1)) in *.
  assert (Ls : zlen (py_slice_from a 1) = Z.of_nat n - 1).
  { rewrite py_slice_from_skipn by (unfold zlen; lia). unfold zlen. rewrite skipn_length. lia. }
  assert (Next : (exists full', reorganise f (full ++ repeat [] z) (i + 1) = Ok (full' ++ repeat [] z) /\ kept n full full') \/
    (z <> 0%nat /\ reorganise f (full ++ repeat [] z) (i + 1) = Err IndexError)).
  { apply IH; [assumption|assumption|lia|nia|]. intros a' p' L L' Ga Gp'. pose proof (run_length_bounds (py_slice_from a' 1) p'). nia. }
  destruct (Z.eqb_spec m (zlen a - 1)); [exact Next|].
  assert (Hm : m + 1 < Z.of_nat n) by (unfold zlen in *; lia).
  (* the curves before, the curve, the curves after *)
  destruct (nth_error_split full (Z.to_nat i) Na) as (x & rest & Ec & Lx).
  assert (Lxi : zlen x = i) by (unfold zlen; lia).
  assert (Er : py_slice_from (full ++ repeat [] z) (i + 1) = rest ++ repeat [] z).
  { rewrite py_slice_from_skipn by (rewrite zlen_app; pose proof (zlen_nonneg _ (repeat (@nil point) z)); lia). rewrite Ec.
    replace (Z.to_nat (i + 1)) with (length (x ++ [a])) by (rewrite app_length; simpl; lia).
    replace ((x ++ a :: rest) ++ repeat [] z) with ((x ++ [a]) ++ rest ++ repeat [] z) by (rewrite <- !app_assoc; reflexivity).
    rewrite skipn_app, skipn_all, Nat.sub_diag. reflexivity. }
  assert (Fr : Forall (fun l => length l = n) rest).
  { rewrite Ec in F. apply Forall_app in F. destruct F as [_ F]. apply Forall_inv_tail in F. exact F. }
  rewrite Er. destruct (find_crossing_empty n a m rest z (i + 1) La Fr ltac:(lia) Hm) as [(y & b & w & E1 & E2 & E3) | [[_ E]|[Hz E]]].
  2:{ rewrite E. cbn [bind]. exact Next. }
  2:{ right. rewrite E. split; [exact Hz | reflexivity]. }
  rewrite E2. cbn [bind].
  assert (Lb : length b = n). { rewrite E1 in Fr. apply Forall_app in Fr. destruct Fr as [_ Fr]. apply Forall_inv in Fr. exact Fr. }
  assert (Gb : py_get (full ++ repeat [] z) (i + 1 + zlen y) = Ok b).
  { rewrite Ec, E1. replace (i + 1 + zlen y) with (zlen (x ++ a :: y)) by (rewrite zlen_app, zlen_cons; lia).
    replace ((x ++ a :: y ++ b :: w) ++ repeat [] z) with ((x ++ a :: y) ++ b :: w ++ repeat [] z)
      by (rewrite <- !app_assoc; simpl; rewrite <- !app_assoc; reflexivity). apply get_at. }
  rewrite Gb. cbn [bind]. destruct (exchanged_ok n a b m La Lb ltac:(lia) Hm) as (t & Et & Ht). rewrite Et. cbn [bind].
  destruct t; [|exact Next]. specialize (Ht eq_refl).
  assert (Fc : Forall (fun l => length l = n) (x ++ a :: y ++ b :: w)) by (rewrite <- E1, <- Ec; exact F).
  assert (Eall : (x ++ a :: y ++ b :: w) ++ repeat [] z = x ++ a :: y ++ b :: w ++ repeat [] z)
    by (rewrite <- !app_assoc; simpl; rewrite <- !app_assoc; reflexivity).
  assert (X : exchange_tails (full ++ repeat [] z) i (i + 1 + zlen y) m =
    Ok ((x ++ splice a b (Z.to_nat (m + 1)) :: y ++ splice b a (Z.to_nat (m + 1)) :: w) ++ repeat [] z)).
  { rewrite Ec, E1, Eall, <- Lxi. rewrite (exchange_tails_at n m x a y b _ La Lb) by lia. f_equal. rewrite <- !app_assoc. simpl. rewrite <- !app_assoc. reflexivity. }
  rewrite X. cbn [bind]. clear X Eall.
  set (mm := Z.to_nat (m + 1)) in *. set (new := x ++ splice a b mm :: y ++ splice b a mm :: w).
  assert (K : kept n full new) by (rewrite Ec, E1; apply kept_exchange; [exact Fc | lia]).
  destruct K as (K1 & K2 & K3). pose proof (conj K1 (conj K2 K3)) as K.
  assert (Zn : zlen new = zlen full) by (unfold zlen; f_equal; exact K1).
  assert (Hnew : (exists full', reorganise f (new ++ repeat [] z) i = Ok (full' ++ repeat [] z) /\ kept n new full') \/
    (z <> 0%nat /\ reorganise f (new ++ repeat [] z) i = Err IndexError)).
  { apply IH; [assumption|exact K2|lia| |].
    { rewrite Zn. intros _. lia. }
    rewrite Zn. intros a' p' L L' Ga' Gp'.
    assert (a' = splice a b mm). { unfold new in Ga'. rewrite <- Lxi, get_at in Ga'. injection Ga' as <-. reflexivity. } subst a'.
    assert (Ns : nth_error (splice a b mm) 0 = Some p).
    { rewrite splice_nth by lia. destruct (Nat.ltb_spec 0 mm); [exact Np | lia]. }
    assert (Lsp : length (splice a b mm) = n) by (rewrite splice_length; lia).
    assert (p' = p). { destruct (py_get_lt _ (splice a b mm) 0) as (q & G1 & G2); [unfold zlen; lia|]. change (Z.to_nat 0) with 0%nat in G2. rewrite Ns in G2. congruence. } subst p'.
    assert (Es : splice a b mm = p :: py_slice_from (splice a b mm) 1).
    { rewrite py_slice_from_skipn by (unfold zlen; lia). destruct (splice a b mm) as [|q l]; [discriminate|]. simpl in Ns. injection Ns as ->. reflexivity. }
    assert (Z.of_nat mm <= run_length p (py_slice_from (splice a b mm) 1)).
    { apply run_length_ge.
      - rewrite py_slice_from_skipn by (unfold zlen; lia). rewrite skipn_length. lia.
      - intros j u v Hj U V. rewrite <- Es in U, V. rewrite splice_nth in U, V by lia.
        destruct (crossing_ok n a b m La Lb ltac:(lia) Hm) as (a0 & a1 & b0 & b1 & N1 & N2 & N3 & N4 & C).
        rewrite C in E3. injection E3 as E3. apply andb_prop in E3. destruct E3 as [E3 _].
        replace (j <? mm)%nat with true in U by (symmetry; apply Nat.ltb_lt; lia).
        destruct (Nat.ltb_spec (S j) mm).
        + rewrite Ea in U, V. apply (run_length_agree (py_slice_from a 1) p j); [|exact U|exact V]. fold m. lia.
        + replace j with (Z.to_nat m) in U by lia. replace (S j) with (Z.to_nat (m + 1)) in V by lia. congruence. }
    lia. }
  destruct Hnew as [(r & R1 & R2) | R]; [|right; exact R]. left. exists r. split; [exact R1|]. eapply kept_trans; [exact K | exact R2].
Qed.

Lemma reorganise_ragged : forall n full z, (1 <= n)%nat -> (length full <> 0 \/ z = 0)%nat -> Forall (fun l => length l = n) full ->
  (exists full', reorganise (loop_fuel (full ++ repeat [] z)) (full ++ repeat [] z) 0 = Ok (full' ++ repeat [] z) /\ kept n full full') \/
  (z <> 0%nat /\ reorganise (loop_fuel (full ++ repeat [] z)) (full ++ repeat [] z) 0 = Err IndexError).
Proof.
  intros n full z Hn Hz F.
  assert (Q : (length full = 0 \/ length (nth 0 (full ++ repeat [] z) []) = n)%nat).
  { destruct full as [|a full]; [left; reflexivity|]. right. apply Forall_inv in F. exact F. }
  assert (L : Z.of_nat (loop_fuel (full ++ repeat [] z)) = (zlen full + Z.of_nat z) * (1 + Z.of_nat (length (nth 0 (full ++ repeat [] z) [])))).
  { unfold loop_fuel, zlen. rewrite app_length, repeat_length. lia. }
  pose proof (zlen_nonneg _ full). apply reorganise_from; [assumption|assumption|lia| |].
  - intros H0. rewrite L. destruct Q as [Q|Q]; [unfold zlen in *; lia|]. rewrite Q. nia.
  - intros a p H0 H1 G Gp. rewrite L. pose proof (run_length_bounds (py_slice_from a 1) p).
    destruct Q as [Q|Q]; [unfold zlen in *; lia|]. rewrite Q. nia.
Qed.

Lemma reorganise_ok : forall n curves, (1 <= n)%nat -> Forall (fun l => length l = n) curves ->
  exists curves', reorganise (loop_fuel curves) curves 0 = Ok curves' /\ kept n curves curves'.
Proof.
  intros n curves Hn F. destruct (reorganise_ragged n curves 0 Hn (or_intror eq_refl) F) as [(r & R1 & R2)|[C _]]; [|lia].
  cbn [repeat] in R1. rewrite !app_nil_r in R1. exists r. split; assumption.
Qed.
