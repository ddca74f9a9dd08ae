(** The determinants met by the dynamic part list every site once. *)
From Coq Require Import ZArith List Bool QArith Qcanon Lia Permutation.
From Verif Require Import PyBase PyFacts Lattice Base Interact Ham Spin Prob Dav Files Emb Spec SpecTJ HamSpec SpinDefs ProbDefs Geometry EmbDefs.
From Verif Require Import PBasis.
Import ListNotations.
Open Scope Z_scope.

(** ** Loops *)

Lemma foldM_keeps : forall A B (P : B -> Prop) (f : B -> A -> res B) l b b', P b ->
  (forall b x b', In x l -> P b -> f b x = Ok b' -> P b') -> foldM f b l = Ok b' -> P b'.
Proof.
  intros A B P f l. induction l as [|x l IH]; intros b b' Hb H Q; cbn [foldM] in Q.
  - injection Q as <-. assumption.
  - apply bind_ok_inv in Q. destruct Q as (b1 & Q1 & Q2). apply (IH b1 b'); [|intros; eapply H; eauto; now right | assumption].
    eapply H; [now left | exact Hb | exact Q1].
Qed.

Lemma mapM_all : forall A B (P : B -> Prop) (f : A -> res B) l r, (forall x y, In x l -> f x = Ok y -> P y) -> mapM f l = Ok r -> Forall P r.
Proof.
  intros A B P f l. induction l as [|x l IH]; intros r H Q; cbn [mapM] in Q.
  - injection Q as <-. constructor.
  - apply bind_ok_inv in Q. destruct Q as (y & Q1 & Q2). apply bind_ok_inv in Q2. destruct Q2 as (ys & Q2 & Q3). injection Q3 as <-.
    constructor; [eapply H; [now left | exact Q1] | apply IH; [intros; eapply H; eauto; now right | assumption]].
Qed.

Lemma concatM_all : forall A B (P : B -> Prop) (f : A -> res (list B)) l r, (forall x y, In x l -> f x = Ok y -> Forall P y) -> concatM f l = Ok r -> Forall P r.
Proof.
  intros A B P f l r H Q. unfold concatM in Q. apply bind_ok_inv in Q. destruct Q as (ys & Q1 & Q2). injection Q2 as <-.
  apply (mapM_all _ _ (Forall P)) in Q1; [|assumption]. induction Q1; cbn [concat]; [constructor | apply Forall_app; auto].
Qed.

Lemma filterM_in : forall A (p : A -> res bool) l r x, filterM p l = Ok r -> In x r -> In x l /\ p x = Ok true.
Proof.
  intros A p l. induction l as [|a l IH]; intros r x Q I; cbn [filterM] in Q.
  - injection Q as <-. destruct I.
  - apply bind_ok_inv in Q. destruct Q as (b & Q1 & Q2). apply bind_ok_inv in Q2. destruct Q2 as (r' & Q2 & Q3). injection Q3 as <-.
    destruct b; [destruct I as [->|I]|]; [split; [now left | assumption]| |]; destruct (IH r' x Q2 I); (split; [now right | assumption]).
Qed.

(** ** Exchanges *)

Lemma set_perm : forall (l : list Z) k x v, nth_error l k = Some x -> Permutation (x :: set_nth l k v) (v :: l).
Proof.
  induction l as [|a l IH]; intros [|k] x v H; cbn [nth_error] in H; try discriminate.
  - injection H as ->. cbn [set_nth]. apply perm_swap.
  - cbn [set_nth]. rewrite perm_swap. rewrite (IH k x v H). apply perm_swap.
Qed.

Lemma get_ok_inv : forall A (l : list A) i a, py_get l i = Ok a -> nth_error l (Z.to_nat (py_norm (zlen l) i)) = Some a /\ 0 <= py_norm (zlen l) i < zlen l.
Proof.
  intros A l i a H. unfold py_get in H. destruct (Z.ltb_spec (py_norm (zlen l) i) 0); [discriminate|].
  destruct (nth_error l _) eqn:N; [|discriminate]. injection H as <-. split; [reflexivity|].
  assert ((Z.to_nat (py_norm (zlen l) i) < length l)%nat) by (apply nth_error_Some; congruence). unfold zlen in *. lia.
Qed.

Lemma set_ok_inv : forall A (l : list A) i v r, py_set l i v = Ok r -> r = set_nth l (Z.to_nat (py_norm (zlen l) i)) v /\ 0 <= py_norm (zlen l) i < zlen l.
Proof.
  intros A l i v r H. unfold py_set in H. destruct (Z.ltb_spec (py_norm (zlen l) i) 0); [discriminate|].
  destruct (Z.leb_spec (zlen l) (py_norm (zlen l) i)); [discriminate|]. injection H as <-. split; [reflexivity | lia].
Qed.

Lemma zlen_set : forall A (l : list A) k v, zlen (set_nth l k v) = zlen l.
Proof. intros. unfold zlen. now rewrite set_nth_length. Qed.

Lemma swap_perm : forall d i j d', swap_at d i j = Ok d' -> Permutation d' d.
Proof.
  intros d i j d' H. unfold swap_at in H. apply bind_ok_inv in H. destruct H as (x & Hx & H). apply bind_ok_inv in H. destruct H as (y & Hy & H).
  apply bind_ok_inv in H. destruct H as (d1 & H1 & H2). apply get_ok_inv in Hx, Hy. apply set_ok_inv in H1, H2. destruct H1 as [-> B1], H2 as [-> B2].
  destruct Hx as [Hx _], Hy as [Hy _]. rewrite zlen_set in *. set (a := Z.to_nat (py_norm (zlen d) i)) in *. set (b := Z.to_nat (py_norm (zlen d) j)) in *.
  assert (Hb : nth_error (set_nth d a x) b = Some x).
  { destruct (Nat.eq_dec a b) as [->|N]; [apply set_nth_same; apply nth_error_Some; congruence | now rewrite set_nth_other]. }
  apply (Permutation_cons_inv (a := x)). rewrite (set_perm _ b x y Hb). now apply set_perm.
Qed.

Lemma index_at : forall d x i, py_index d x = Ok i -> nth_error d (Z.to_nat i) = Some x /\ 0 <= i < zlen d.
Proof. intros d x i H. apply py_index_spec in H. tauto. Qed.

Lemma set_at : forall A (l : list A) i v r, 0 <= i < zlen l -> py_set l i v = Ok r -> r = set_nth l (Z.to_nat i) v.
Proof. intros A l i v r H Q. rewrite py_set_ok in Q by assumption. now injection Q as <-. Qed.

Lemma pass_perm : forall d x y i j d1 d2, py_index d x = Ok i -> py_index d y = Ok j -> py_set d i y = Ok d1 -> py_set d1 j x = Ok d2 -> Permutation d2 d.
Proof.
  intros d x y i j d1 d2 Hi Hj H1 H2. apply index_at in Hi, Hj. destruct Hi as [Ni Bi], Hj as [Nj Bj].
  apply set_at in H1; [|assumption]. subst d1. apply set_at in H2; [|now rewrite zlen_set]. subst d2.
  assert (Hb : nth_error (set_nth d (Z.to_nat i) y) (Z.to_nat j) = Some y).
  { destruct (Nat.eq_dec (Z.to_nat i) (Z.to_nat j)) as [E|N]; [rewrite E; apply set_nth_same; apply nth_error_Some; congruence | now rewrite set_nth_other]. }
  apply (Permutation_cons_inv (a := y)). rewrite (set_perm _ _ y x Hb). now apply set_perm.
Qed.

Lemma round_perm : forall d x y z i j k d1 d2 d3, py_index d x = Ok i -> py_index d y = Ok j -> py_index d z = Ok k -> y <> x -> z <> y ->
  py_set d i z = Ok d1 -> py_set d1 j x = Ok d2 -> py_set d2 k y = Ok d3 -> Permutation d3 d.
Proof.
  intros d x y z i j k d1 d2 d3 Hi Hj Hk N1 N2 H1 H2 H3. apply index_at in Hi, Hj, Hk. destruct Hi as [Ni Bi], Hj as [Nj Bj], Hk as [Nk Bk].
  apply set_at in H1; [|assumption]. subst d1. apply set_at in H2; [|now rewrite zlen_set]. subst d2. apply set_at in H3; [|now rewrite !zlen_set]. subst d3.
  assert (Dij : Z.to_nat i <> Z.to_nat j) by (intros E; rewrite E in Ni; congruence).
  assert (Djk : Z.to_nat j <> Z.to_nat k) by (intros E; rewrite E in Nj; congruence).
  assert (Hb : nth_error (set_nth d (Z.to_nat i) z) (Z.to_nat j) = Some y) by now rewrite set_nth_other.
  assert (Hc : nth_error (set_nth (set_nth d (Z.to_nat i) z) (Z.to_nat j) x) (Z.to_nat k) = Some z).
  { rewrite set_nth_other by assumption. destruct (Nat.eq_dec (Z.to_nat i) (Z.to_nat k)) as [E|N]; [rewrite E; apply set_nth_same; apply nth_error_Some; congruence | now rewrite set_nth_other]. }
  apply (Permutation_cons_inv (a := z)). rewrite (set_perm _ _ z y Hc). rewrite (set_perm _ _ y x Hb). now apply set_perm.
Qed.

Lemma pass_perm' : forall d x y z i j k d1 d2 d3, py_index d x = Ok i -> py_index d y = Ok j -> py_index d z = Ok k -> y <> x -> z <> y ->
  py_set d i z = Ok d1 -> py_set d1 j y = Ok d2 -> py_set d2 k x = Ok d3 -> Permutation d3 d.
Proof.
  intros d x y z i j k d1 d2 d3 Hi Hj Hk N1 N2 H1 H2 H3. apply index_at in Hi, Hj, Hk. destruct Hi as [Ni Bi], Hj as [Nj Bj], Hk as [Nk Bk].
  apply set_at in H1; [|assumption]. subst d1. apply set_at in H2; [|now rewrite zlen_set]. subst d2. apply set_at in H3; [|now rewrite !zlen_set]. subst d3.
  assert (Dij : Z.to_nat i <> Z.to_nat j) by (intros E; rewrite E in Ni; congruence).
  assert (Djk : Z.to_nat j <> Z.to_nat k) by (intros E; rewrite E in Nj; congruence).
  assert (Hb : nth_error (set_nth d (Z.to_nat i) z) (Z.to_nat j) = Some y) by now rewrite set_nth_other.
  assert (Hc : nth_error (set_nth (set_nth d (Z.to_nat i) z) (Z.to_nat j) y) (Z.to_nat k) = Some z).
  { rewrite set_nth_other by assumption. destruct (Nat.eq_dec (Z.to_nat i) (Z.to_nat k)) as [E|N]; [rewrite E; apply set_nth_same; apply nth_error_Some; congruence | now rewrite set_nth_other]. }
  apply (Permutation_cons_inv (a := z)). rewrite (set_perm _ _ z x Hc). apply (Permutation_cons_inv (a := y)). rewrite perm_swap. rewrite (set_perm _ _ y y Hb).
  rewrite perm_swap. apply perm_skip. now apply set_perm.
Qed.

(** ** Groups *)

Lemma skip_add : forall A (l : list A) p k, skipn (p + k) l = skipn k (skipn p l).
Proof. intros A l p. revert l. induction p as [|p IH]; intros [|a l] k; cbn [Nat.add skipn]; [reflexivity|reflexivity|now rewrite skipn_nil|apply IH]. Qed.

Lemma groups : forall (l : list Z) h b, 0 <= h -> 0 <= b -> py_slice l 0 h ++ py_slice l h (h + b) ++ py_slice_from l (h + b) = l.
Proof.
  intros l h b Hh Hb. unfold py_slice_from, py_slice, py_clamp. pose proof (zlen_nonneg _ l).
  destruct (Z.ltb_spec 0 0); [lia|]. destruct (Z.ltb_spec h 0); [lia|]. destruct (Z.ltb_spec (h + b) 0); [lia|]. destruct (Z.ltb_spec (zlen l) 0); [lia|].
  rewrite (Z.min_l 0) by lia. cbn [Z.to_nat skipn]. rewrite Z.sub_0_r, Z.min_id. set (n := zlen l) in *.
  set (p := Z.to_nat (Z.min h n)). set (q := Z.to_nat (Z.min (h + b) n)). replace (Z.to_nat (Z.min (h + b) n - Z.min h n)) with (q - p)%nat by lia.
  replace (Z.to_nat (n - Z.min (h + b) n)) with (length (skipn q l)) by (rewrite skipn_length; unfold q, n, zlen in *; lia).
  rewrite firstn_all. rewrite <- (firstn_skipn p l) at 4. f_equal. replace q with (p + (q - p))%nat at 2 by lia.
  rewrite skip_add. apply firstn_skipn.
Qed.

Lemma reorder_perm : forall c v, 0 <= nholes c -> 0 <= nbeta c -> Permutation (reorder_basis_element c v) v.
Proof.
  intros c v Hh Hb. unfold reorder_basis_element. rewrite <- (groups v (nholes c) (nbeta c) Hh Hb) at 4.
  repeat apply Permutation_app; apply zsort_perm.
Qed.

(** a configuration without restriction *)
Definition whole (c : configuration) (n : Z) : Prop :=
  nsites c = n /\ 0 <= nholes c /\ 0 <= nbeta c /\ sites_restriction c = RTuple (zrange 0 n) (zrange 0 n).

Lemma three_groups : forall E c n d h b a, set_iter_ok E -> whole c n -> Permutation d (zrange 0 n) ->
  get_indexes_of E c d 0 0 = Ok h -> get_indexes_of E c d (-1) 0 = Ok b -> get_indexes_of E c d 1 0 = Ok a -> Permutation (h ++ b ++ a) d.
Proof.
  intros E c n d h b a HE (N & Hh & Hb & R) P Gh Gb Ga. unfold get_indexes_of in *. rewrite R in *. cbn in Gh, Gb, Ga.
  injection Gh as <-. injection Gb as <-. injection Ga as <-.
  assert (ND : NoDup d) by (eapply Permutation_NoDup; [apply Permutation_sym; exact P | apply zrange_NoDup]).
  pose proof (groups d (nholes c) (nbeta c) Hh Hb) as G.
  assert (S : forall l, NoDup l -> incl l d -> Permutation (py_set_and E l (zrange 0 n)) l).
  { intros l Nl Il. apply NoDup_Permutation; [now apply set_and_NoDup | assumption|]. intros x. rewrite in_set_and by assumption. split; [tauto|].
    intros I. split; [assumption|]. eapply Permutation_in; [exact P | now apply Il]. }
  assert (Sub : forall l r : list Z, NoDup (l ++ r) -> NoDup l /\ NoDup r).
  { induction l as [|y l IH]; cbn [app]; intros r H; [split; [constructor | assumption]|]. inversion H as [|? ? Hy H']. subst. destruct (IH _ H') as [A B].
    split; [|assumption]. constructor; [|assumption]. intros C. apply Hy. apply in_app_iff. now left. }
  rewrite <- G in ND. destruct (Sub _ _ ND) as [N1 N23]. destruct (Sub _ _ N23) as [N2 N3].
  assert (I : forall x, In x (py_slice d 0 (nholes c)) \/ In x (py_slice d (nholes c) (nholes c + nbeta c)) \/ In x (py_slice_from d (nholes c + nbeta c)) -> In x d).
  { intros x Hx. rewrite <- G, !in_app_iff. exact Hx. }
  rewrite <- G at 4. repeat apply Permutation_app; apply S; try assumption; intros x Hx; apply I; tauto.
Qed.

Lemma remove_perm : forall l x r, py_remove l x = Ok r -> Permutation (x :: r) l.
Proof.
  induction l as [|y l IH]; intros x r H; cbn [py_remove] in H; [discriminate|]. destruct (Z.eqb_spec y x) as [->|N].
  - injection H as <-. reflexivity.
  - apply bind_ok_inv in H. destruct H as (r' & H1 & H2). injection H2 as <-. rewrite perm_swap. apply perm_skip. now apply IH.
Qed.

Lemma perturb_perm : forall E c c' n d site old new r, set_iter_ok E -> whole c n -> 0 <= nholes c' -> 0 <= nbeta c' -> Permutation d (zrange 0 n) ->
  In old [-1; 0; 1] -> In new [-1; 0; 1] -> old <> new -> perturb E c c' d site old new = Ok r -> Permutation r (zrange 0 n).
Proof.
  intros E c c' n d site old new r HE W Hh Hb P Io Inw Nn H. unfold perturb in H.
  apply bind_ok_inv in H. destruct H as (h & Gh & H). apply bind_ok_inv in H. destruct H as (b & Gb & H). apply bind_ok_inv in H. destruct H as (a & Ga & H).
  pose proof (three_groups E c n d h b a HE W P Gh Gb Ga) as G. clear Gh Gb Ga.
  apply bind_ok_inv in H. destruct H as (h1 & H1 & H). apply bind_ok_inv in H. destruct H as (b1 & H2 & H). apply bind_ok_inv in H. destruct H as (a1 & H3 & H).
  injection H as <-. rewrite (reorder_perm c' _ Hh Hb), <- P, <- G. clear P G W.
  assert (App : forall l, Permutation (l ++ [site]) (site :: l)) by (intros l; apply Permutation_sym, Permutation_cons_append).
  cbn [In] in Io, Inw.
  destruct Io as [<-|[<-|[<-|[]]]], Inw as [<-|[<-|[<-|[]]]]; try (now destruct Nn); cbn [Z.eqb Pos.eqb Pos.compare] in H1, H2, H3;
  repeat match goal with
  | H : Ok _ = Ok _ |- _ => injection H as <-
  | H : py_remove _ _ = Ok _ |- _ => apply remove_perm in H; rewrite <- H; clear H
  end; rewrite ?App; clear.
  all: cbn [app]; repeat rewrite <- Permutation_middle; apply Permutation_refl.
Qed.

Lemma extend_perm : forall E c1 c2 n d1 d2 r, set_iter_ok E -> 0 <= n -> whole c1 n -> whole c2 n -> Permutation d1 (zrange 0 n) -> Permutation d2 (zrange 0 n) ->
  extend_determinant E c1 c2 d1 d2 = Ok r -> Permutation r (zrange 0 (2 * n)).
Proof.
  intros E c1 c2 n d1 d2 r HE Hn W1 W2 P1 P2 H. unfold extend_determinant in H.
  apply bind_ok_inv in H. destruct H as (h1 & G1 & H). apply bind_ok_inv in H. destruct H as (h2 & G2 & H).
  apply bind_ok_inv in H. destruct H as (b1 & G3 & H). apply bind_ok_inv in H. destruct H as (b2 & G4 & H).
  apply bind_ok_inv in H. destruct H as (a1 & G5 & H). apply bind_ok_inv in H. destruct H as (a2 & G6 & H). injection H as <-.
  pose proof (three_groups E c1 n d1 h1 b1 a1 HE W1 P1 G1 G3 G5) as Q1. pose proof (three_groups E c2 n d2 h2 b2 a2 HE W2 P2 G2 G4 G6) as Q2.
  destruct W1 as (-> & _). set (f := fun s => s + n).
  assert (Q3 : Permutation (map f h2 ++ map f b2 ++ map f a2) (zrange n (2 * n))).
  { rewrite <- !map_app, Q2, P2. unfold f. rewrite zrange_shift. replace (0 + n) with n by lia. replace (n + n) with (2 * n) by lia. reflexivity. }
  rewrite (zrange_app 0 n (2 * n)) by lia. rewrite <- Q3, <- P1, <- Q1. clear.
  rewrite <- !app_assoc. apply Permutation_app_head.
  rewrite (Permutation_app_comm (map f h2)), <- !app_assoc. apply Permutation_app_head.
  rewrite (Permutation_app_comm (map f b2)), <- !app_assoc. apply Permutation_app_head.
  rewrite (Permutation_app_comm (map f a2)), <- !app_assoc. reflexivity.
Qed.

(** ** Images *)

Lemma neighbor_other : forall E x m r l y n, mrows m = n -> mcols m = n -> (forall i, 0 <= i < n -> mat_at m i i <> 1) ->
  get_neighbors E x m r = Ok l -> In y l -> y <> x.
Proof.
  intros E x m r l y n R C D H I ->. unfold get_neighbors in H. apply bind_ok_inv in H. destruct H as (sites & _ & H).
  apply (filterM_in _ _ _ _ x) in H; [|assumption]. destruct H as [_ H]. apply bind_ok_inv in H. destruct H as (b & Hb & H). injection H as H. apply Z.eqb_eq in H. subst b.
  unfold mget in Hb. rewrite R, C in Hb. destruct (Z.leb_spec 0 (py_norm n x)), (Z.ltb_spec (py_norm n x) n); cbn in Hb; try discriminate. injection Hb as Hb.
  apply (D (py_norm n x)); [lia | assumption].
Qed.

Section Images.
Variables (E : runtime) (c : configuration) (n : Z).
Hypothesis HE : set_iter_ok E.
Hypothesis Hh : 0 <= nholes c.
Hypothesis Hb : 0 <= nbeta c.
Hypothesis HR : mrows (bond_matrix c) = n.
Hypothesis HC : mcols (bond_matrix c) = n.
Hypothesis HD : forall i, 0 <= i < n -> mat_at (bond_matrix c) i i <> 1.
Variable d : list Z.
Let P (im : list Z) : Prop := Permutation im d.

Lemma P_reorder : forall t, Permutation t d -> P (reorder_basis_element c t).
Proof. intros t H. unfold P. now rewrite (reorder_perm c t Hh Hb). Qed.

Lemma hopping_perm : forall l, compute_hopping_integral E c d = Ok l -> Forall P l.
Proof.
  intros l H. unfold compute_hopping_integral in H. destruct (0 <? nholes c); [|injection H as <-; constructor].
  apply bind_ok_inv in H. destruct H as (holes & _ & H). revert H. apply concatM_all. intros x y _ H. apply bind_ok_inv in H. destruct H as (ns & _ & H).
  revert H. apply concatM_all. intros z t _ H. destruct (mem z holes); [injection H as <-; constructor|].
  apply bind_ok_inv in H. destruct H as (i & _ & H). apply bind_ok_inv in H. destruct H as (j & _ & H). apply bind_ok_inv in H. destruct H as (t' & S & H).
  injection H as <-. constructor; [|constructor]. apply P_reorder. eapply swap_perm. exact S.
Qed.

Lemma next_hopping_perm : forall col ortho, compute_next_hopping_integral E c d = Ok (col, ortho) -> Forall P col /\ Forall P ortho.
Proof.
  intros col ortho H. unfold compute_next_hopping_integral in H. destruct (0 <? nholes c); [|injection H as <- <-; split; constructor].
  apply bind_ok_inv in H. destruct H as (holes & _ & H). apply bind_ok_inv in H. destruct H as ([[s0 c0] o0] & H & Q). injection Q as <- <-.
  set (PP := fun st : nh_state => Forall P (snd (fst st)) /\ Forall P (snd st)). change (PP (s0, c0, o0)).
  revert H. apply (foldM_keeps _ _ PP); [split; constructor|]. intros st hole st' _ Hst H. apply bind_ok_inv in H. destruct H as (ns & _ & H).
  revert Hst H. intros Hst. apply (foldM_keeps _ _ PP); [assumption|]. clear st st' Hst. intros st ng st' _ Hst H.
  apply bind_ok_inv in H. destruct H as (ups & _ & H). apply bind_ok_inv in H. destruct H as (downs & _ & H). apply bind_ok_inv in H. destruct H as (nx & _ & H).
  revert H. apply (foldM_keeps _ _ PP); [assumption|]. clear st st' Hst. intros [[seen cl] ot] el st' _ [A B] H. cbn [fst snd] in A, B.
  unfold next_hop_step in H. apply bind_ok_inv in H. destruct H as (i & Hi & H). apply bind_ok_inv in H. destruct H as (j & Hj & H).
  destruct (pair_mem _ _); [injection H as <-; split; assumption|].
  apply bind_ok_inv in H. destruct H as (t1 & T1 & H). apply bind_ok_inv in H. destruct H as (t2 & T2 & H). apply bind_ok_inv in H. destruct H as (lin & _ & H).
  pose proof (P_reorder t2 (pass_perm d _ _ i j t1 t2 Hi Hj T1 T2)) as G. injection H as <-.
  destruct lin; split; cbn [fst snd]; try assumption; apply Forall_app; (split; [assumption | constructor; [exact G | constructor]]).
Qed.

Lemma flip_perm : forall a b u, compute_spin_flip E c d = Ok (a, b, u) -> Forall P a /\ Forall P b /\ Forall P u.
Proof.
  intros a b u H. unfold compute_spin_flip in H. apply bind_ok_inv in H. destruct H as (bl & _ & H).
  set (PP := fun st : list (list Z) * list (list Z) * list (list Z) => Forall P (fst (fst st)) /\ Forall P (snd (fst st)) /\ Forall P (snd st)). change (PP (a, b, u)).
  revert H. apply (foldM_keeps _ _ PP); [split; [constructor | split; constructor]|]. intros [[a0 b0] u0] [s0 s1] st' _ (A & B & C) H. cbn [fst snd] in A, B, C.
  apply bind_ok_inv in H. destruct H as (p0 & _ & H). apply bind_ok_inv in H. destruct H as (p1 & _ & H).
  destruct (p0 * p1 =? -1); [|injection H as <-; split; [assumption | split; assumption]].
  apply bind_ok_inv in H. destruct H as (i & _ & H). apply bind_ok_inv in H. destruct H as (j & _ & H). apply bind_ok_inv in H. destruct H as (t & T & H).
  apply bind_ok_inv in H. destruct H as (k & _ & H). pose proof (P_reorder t (swap_perm d i j t T)) as G.
  assert (F : forall l, Forall P l -> Forall P (l ++ [reorder_basis_element c t])) by (intros l Hl; apply Forall_app; split; [assumption | constructor; [exact G | constructor]]).
  injection H as <-. destruct k; (split; [|split]); cbn [fst snd]; auto.
Qed.

Lemma singlet_perm : forall par per, compute_singlet_displacement E c d = Ok (par, per) ->
  Forall (fun p => P (fst p) /\ P (snd p)) par /\ Forall (fun p => P (fst p) /\ P (snd p)) per.
Proof.
  intros par per H. unfold compute_singlet_displacement in H. apply bind_ok_inv in H. destruct H as (holes & _ & H).
  set (PP := fun st : list (list Z * list Z) * list (list Z * list Z) => Forall (fun p => P (fst p) /\ P (snd p)) (fst st) /\ Forall (fun p => P (fst p) /\ P (snd p)) (snd st)). change (PP (par, per)).
  revert H. apply (foldM_keeps _ _ PP); [split; constructor|]. intros st hole st' _ Hst H.
  apply bind_ok_inv in H. destruct H as (ng & Hng & H). apply bind_ok_inv in H. destruct H as (ups & _ & H). apply bind_ok_inv in H. destruct H as (downs & _ & H).
  revert H. apply (foldM_keeps _ _ PP); [assumption|]. clear st st' Hst. intros st y st' Hy Hst H.
  apply in_set_and in Hy; [|assumption]. destruct Hy as [_ Hy]. pose proof (neighbor_other E hole _ _ _ y n HR HC HD Hng Hy) as N1.
  apply bind_ok_inv in H. destruct H as (sp & _ & H). apply bind_ok_inv in H. destruct H as (nx & Hnx & H). apply bind_ok_inv in H. destruct H as (opp & _ & H).
  revert H. apply (foldM_keeps _ _ PP); [assumption|]. clear st st' Hst. intros [a b] z st' Hz [A B] H. cbn [fst snd] in A, B.
  apply in_set_and in Hz; [|assumption]. destruct Hz as [_ Hz]. pose proof (neighbor_other E y _ _ _ z n HR HC HD Hnx Hz) as N2.
  unfold singlet_step in H. apply bind_ok_inv in H. destruct H as (i & Hi & H). apply bind_ok_inv in H. destruct H as (j & Hj & H). apply bind_ok_inv in H. destruct H as (k & Hk & H).
  apply bind_ok_inv in H. destruct H as (t1 & T1 & H). apply bind_ok_inv in H. destruct H as (t2 & T2 & H). apply bind_ok_inv in H. destruct H as (t3 & T3 & H).
  apply bind_ok_inv in H. destruct H as (u1 & U1 & H). apply bind_ok_inv in H. destruct H as (u2 & U2 & H). apply bind_ok_inv in H. destruct H as (u3 & U3 & H).
  apply bind_ok_inv in H. destruct H as (lin & _ & H).
  pose proof (P_reorder t3 (round_perm d _ _ _ i j k t1 t2 t3 Hi Hj Hk N1 N2 T1 T2 T3)) as G1.
  pose proof (P_reorder u3 (pass_perm' d _ _ _ i j k u1 u2 u3 Hi Hj Hk N1 N2 U1 U2 U3)) as G2. injection H as <-.
  destruct lin; split; cbn [fst snd]; try assumption; apply Forall_app; (split; [assumption | constructor; [split; assumption | constructor]]).
Qed.

Lemma dict_add_keys : forall (Q : list Z -> Prop) dict k x, Q k -> Forall (fun p => Q (fst p)) dict -> Forall (fun p => Q (fst p)) (dict_add dict k x).
Proof.
  intros Q dict k x Hk. induction dict as [|[k0 v] dict IH]; cbn [dict_add]; intros H; [constructor; [assumption | constructor]|].
  inversion H as [|? ? H1 H2]. subst. destruct (zlist_eqb k0 k); constructor; auto.
Qed.

Lemma fold_keeps : forall A B (Q : B -> Prop) (f : B -> A -> B) l b, Q b -> (forall b x, In x l -> Q b -> Q (f b x)) -> Q (fold_left f l b).
Proof. intros A B Q f l. induction l as [|x l IH]; intros b Q0 H; cbn [fold_left]; [assumption|]. apply IH; [apply H; [now left | assumption] | intros; apply H; [now right | assumption]]. Qed.

Lemma dynamic_perm : forall I s dict, compute_dynamic_interactions E c I s d = Ok dict -> Forall (fun p => P (fst p)) dict.
Proof.
  intros I s dict H. unfold compute_dynamic_interactions in H.
  apply bind_ok_inv in H. destruct H as (e1 & H1 & H). apply bind_ok_inv in H. destruct H as (e2 & H2 & H).
  apply bind_ok_inv in H. destruct H as (e3 & H3 & H). apply bind_ok_inv in H. destruct H as (e4 & H4 & H). injection H as <-.
  assert (F : Forall (fun ev => Forall P (fst ev)) (e1 ++ e2 ++ e3)).
  { apply Forall_app. split; [|apply Forall_app; split].
    - destruct (s_bt s); [|injection H1 as <-; constructor]. apply bind_ok_inv in H1. destruct H1 as (l & L & Q). injection Q as <-.
      constructor; [cbn [fst]; now apply hopping_perm | constructor].
    - destruct (s_btN s); [|injection H2 as <-; constructor]. apply bind_ok_inv in H2. destruct H2 as ([col ortho] & L & Q). injection Q as <-.
      destruct (next_hopping_perm _ _ L). repeat constructor; assumption.
    - destruct (s_bij s); [|injection H3 as <-; constructor]. apply bind_ok_inv in H3. destruct H3 as ([[a b] u] & L & Q). injection Q as <-.
      destruct (flip_perm _ _ _ L) as (? & ? & ?). repeat constructor; assumption. }
  assert (F4 : Forall (fun ev => Forall (fun p => P (fst p) /\ P (snd p)) (fst ev)) e4).
  { destruct (s_bSD s); [|injection H4 as <-; constructor]. apply bind_ok_inv in H4. destruct H4 as ([a b] & L & Q). injection Q as <-.
    destruct (singlet_perm _ _ L). repeat constructor; assumption. }
  rewrite Forall_forall in F, F4.
  apply (fold_keeps _ _ (Forall (fun p => P (fst p)))).
  - apply (fold_keeps _ _ (Forall (fun p => P (fst p)))); [constructor|]. intros b ev Hev Hb'. specialize (F ev Hev). rewrite Forall_forall in F.
    apply (fold_keeps _ _ (Forall (fun p => P (fst p)))); [assumption|]. intros b' k Hk Hb''. apply dict_add_keys; [now apply F | assumption].
  - intros b ev Hev Hb'. specialize (F4 ev Hev). rewrite Forall_forall in F4.
    apply (fold_keeps _ _ (Forall (fun p => P (fst p)))); [assumption|]. intros b' k Hk Hb''. destruct (F4 k Hk). apply dict_add_keys; [assumption|].
    now apply dict_add_keys.
Qed.
End Images.

(** ** Parts *)

Lemma part_perm : forall n d, 0 <= n -> Permutation d (zrange 0 (2 * n)) -> Permutation (filter (fun site => site <? n) d) (zrange 0 n).
Proof.
  intros n d Hn P. apply NoDup_Permutation; [|apply zrange_NoDup|].
  - apply NoDup_filter. eapply Permutation_NoDup; [apply Permutation_sym; exact P | apply zrange_NoDup].
  - intros x. rewrite filter_In, in_zrange, Z.ltb_lt. split.
    + intros [I L]. apply (Permutation_in _ P) in I. apply in_zrange in I. lia.
    + intros I. split; [|lia]. apply (Permutation_in _ (Permutation_sym P)). apply in_zrange. lia.
Qed.

Lemma perm_describes : forall n h b d, 0 <= h -> 0 <= b -> h + b <= n -> Permutation d (zrange 0 n) -> exists s, describes n h b d s.
Proof.
  intros n h b d Hh Hb Hn P. assert (L : zlen d = n) by (unfold zlen; rewrite (Permutation_length P), zrange_length; lia).
  assert (ND : NoDup d) by (eapply Permutation_NoDup; [apply Permutation_sym; exact P | apply zrange_NoDup]).
  assert (I : forall x, In x d <-> 0 <= x < n) by (intros x; rewrite <- in_zrange; split; apply Permutation_in; [assumption | now apply Permutation_sym]).
  set (hs := firstn (Z.to_nat h) d). set (r := skipn (Z.to_nat h) d). set (bs := firstn (Z.to_nat b) r). set (us := skipn (Z.to_nat b) r).
  assert (Q : d = hs ++ bs ++ us) by (unfold bs, us; rewrite firstn_skipn; unfold hs, r; now rewrite firstn_skipn).
  assert (Lh : Z.of_nat (length hs) = h) by (unfold hs; rewrite firstn_length; unfold zlen in L; lia).
  assert (Lb : Z.of_nat (length bs) = b) by (unfold bs, r; rewrite firstn_length, skipn_length; unfold zlen in L; lia).
  clearbody hs bs us. subst d.
  assert (Dis : forall A (l m : list A), NoDup (l ++ m) -> NoDup l /\ NoDup m /\ forall x, In x l -> In x m -> False).
  { intros A. induction l as [|y l IH]; cbn [app]; intros m H; [split; [constructor | split; [assumption | intros x []]]|]. inversion H as [|? ? Hy H']. subst.
    destruct (IH _ H') as (A1 & A2 & A3). rewrite in_app_iff in Hy. split; [constructor; tauto|]. split; [assumption|]. intros x [->|Hx] Hm; [tauto | eauto]. }
  destruct (Dis _ _ _ ND) as (N1 & N23 & D1). destruct (Dis _ _ _ N23) as (N2 & N3 & D2).
  exists (fun x => if mem x hs then Hole else if mem x bs then Down else Up), hs, bs, us.
  split; [reflexivity|]. split; [assumption|]. split; [assumption|]. split; [assumption|]. split; [assumption|]. split; [assumption|].
  assert (J : forall x, In x hs \/ In x bs \/ In x us <-> 0 <= x < n) by (intros x; rewrite <- I, !in_app_iff; tauto).
  assert (D12 : forall x, In x hs -> In x bs -> False) by (intros x A B; apply (D1 x A); rewrite in_app_iff; tauto).
  assert (D13 : forall x, In x hs -> In x us -> False) by (intros x A B; apply (D1 x A); rewrite in_app_iff; tauto).
  split; [|split]; intros x; rewrite <- J; destruct (mem x hs) eqn:M1; [apply mem_In in M1|apply mem_false in M1| apply mem_In in M1|apply mem_false in M1| apply mem_In in M1|apply mem_false in M1];
    try (destruct (mem x bs) eqn:M2; [apply mem_In in M2|apply mem_false in M2]); split; intros T; try (destruct T as [T1 T2]); try discriminate; try tauto; try (split; [tauto | reflexivity || (exfalso; eauto)]); exfalso; eauto.
Qed.
