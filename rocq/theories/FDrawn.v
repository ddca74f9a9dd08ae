(** Final lemmas for C103: the Hamiltonian of any drawn lattice. *)
From Coq Require Import ZArith List Bool QArith Qcanon Lia Permutation.
From Verif Require Import PyBase PyFacts Runtimes Lattice Base Interact Ham Spin Spec SpecOps SpecTJ SpecSpin SpinDefs Geometry HamSpec SignDefs MotionDefs TraceDefs DrawnDefs.
From Verif Require Import PSpin PQc PBasis PSites PRot PMat PGeo PInter PRep PHam POps FGeo FBasis FSites FInter FHam PDavIter FDav PSign FSign FMotion FDraw PDrawn Examples.
Import ListNotations.
Open Scope Z_scope.

Lemma drawn_built : forall E c pos r K S arg, set_iter_ok E -> filled_drawn E c pos r -> let L := between (nsites c) pos r r in
  exists es, construct_basis c = Ok (mkBasis c (dl c)) /\ build_hamiltonian E c K (mkBasis c (dl c)) S arg = Ok (mkCsr (zlen (dl c)) es) /\
    matrix_of c es (tj_by L (number_doping L) K S).
Proof.
  intros E c pos r K S arg HE (HD & HL & HM & HR & Hh & Hb & Ha) L.
  destruct (hamiltonian_ok E c pos r K HE HD HR Hh Hb Ha L eq_refl (fun _ _ => eq_refl) (fun x _ => proj1 (between_ok (nsites c) pos r r x))
    (fun x _ => proj2 (between_ok (nsites c) pos r r x)) HL HM (number_doping L)) with (S := S) (arg := arg) as (es & E1 & M).
  - intros d s D i j Hij Hj A O. apply (flip_class_number E c pos r r d s HE HD HR D L); try reflexivity; try lia.
    intros. apply between_ok.
  - exists es. split; [|auto]. now apply basis_ok.
Qed.

Lemma drawn_core : forall E c pos r K S arg l m, set_iter_ok E -> filled_drawn E c pos r -> assembled E c K S arg l m -> let L := between (nsites c) pos r r in
  l = dl c /\ csr_dim m = zlen (dl c) /\ in_range c (csr_entries m) /\
  forall i j d e s t, nth_error l i = Some d -> nth_error l j = Some e ->
    describes (nsites c) (nholes c) (nbeta c) d s -> describes (nsites c) (nholes c) (nbeta c) e t ->
    csr_at m (Z.of_nat i) (Z.of_nat j) = tj_by L (number_doping L) K S s t.
Proof.
  intros E c pos r K S arg l m HE HF [A B] L. destruct (drawn_built E c pos r K S arg HE HF) as (es & E1 & E2 & R & M).
  rewrite A in E1. injection E1 as ->. rewrite B in E2. injection E2 as ->.
  split; [reflexivity|]. split; [reflexivity|]. split; [exact R|].
  intros i j d e s t Hi Hj D1 D2. rewrite csr_at_coo. cbn [csr_entries].
  rewrite (M _ _ d e); try rewrite Nat2Z.id; try lia; try assumption.
  apply (by_ext L (nsites c)); try reflexivity.
  - apply (number_holes L (nsites c) eq_refl).
  - intros x Hx. symmetry. exact (state_of_describes c d s D1 x Hx).
  - intros x Hx. symmetry. exact (state_of_describes c e t D2 x Hx).
Qed.

Lemma drawn_describes : forall E c pos r i d, filled_drawn E c pos r -> nth_error (dl c) i = Some d -> describes (nsites c) (nholes c) (nbeta c) d (state_of c d).
Proof. intros E c pos r i d (HD & HL & HM & HR & Hh & Hb & Ha) H. apply (in_dl c pos HD Hh Hb). eapply nth_error_In, H. Qed.

(** ** assembly *)
Lemma C103_assembly_pf : forall E c pos r K S arg, set_iter_ok E -> filled_drawn E c pos r ->
  exists l m, assembled E c K S arg l m /\ csr_dim m = Z.of_nat (length l) /\ csr_dim m = compute_dimension (nsites c) (nalpha c) (nbeta c) /\
    (forall x i j, In (x, i, j) (csr_entries m) -> 0 <= i < csr_dim m /\ 0 <= j < csr_dim m) /\ forall i j, csr_at m i j = csr_at m j i.
Proof.
  intros E c pos r K S arg HE HF. set (L := between (nsites c) pos r r). destruct (drawn_built E c pos r K S arg HE HF) as (es & E1 & E2 & R & M). fold L in M.
  exists (dl c), (mkCsr (zlen (dl c)) es). assert (HA : assembled E c K S arg (dl c) (mkCsr (zlen (dl c)) es)) by (split; assumption).
  split; [exact HA|]. split; [reflexivity|]. cbn [csr_dim csr_entries].
  pose proof HF as (HD & HL & HM & HR & Hh & Hb & Ha).
  split; [now apply (dl_length c pos HD)|]. split; [exact R|].
  destruct (drawn_core E c pos r K S arg _ _ HE HF HA) as (_ & D & _ & C). fold L in C.
  intros i j. set (N := zlen (dl c)) in *.
  assert (Z0 : forall i j, ~ (0 <= i < N /\ 0 <= j < N) -> csr_at (mkCsr N es) i j = 0%Qc) by (intros a b H; apply (csr_zero c (mkCsr N es) D R); exact H).
  destruct (Z_le_dec 0 i), (Z_lt_dec i N), (Z_le_dec 0 j), (Z_lt_dec j N); try (rewrite !Z0 by tauto; reflexivity).
  destruct (pick _ (dl c) i) as (d & Hd); [lia|]. destruct (pick _ (dl c) j) as (e & He); [lia|].
  rewrite <- (Z2Nat.id i), <- (Z2Nat.id j) by assumption.
  rewrite (C _ _ d e _ _ Hd He (drawn_describes _ _ _ _ _ _ HF Hd) (drawn_describes _ _ _ _ _ _ HF He)), (C _ _ e d _ _ He Hd (drawn_describes _ _ _ _ _ _ HF He) (drawn_describes _ _ _ _ _ _ HF Hd)).
  apply (by_sym L (nsites c) (number_doping L)); [reflexivity | intros; reflexivity | apply (number_holes L (nsites c) eq_refl)].
Qed.

(** ** elements *)
Lemma C103_numbers_pf : forall E c pos r K S arg l m i j d e s t, set_iter_ok E -> filled_drawn E c pos r -> assembled E c K S arg l m ->
  nth_error l i = Some d -> nth_error l j = Some e ->
  describes (nsites c) (nholes c) (nbeta c) d s -> describes (nsites c) (nholes c) (nbeta c) e t ->
  let L := between (nsites c) pos r r in csr_at m (Z.of_nat i) (Z.of_nat j) = tj_by L (number_doping L) K S s t.
Proof. intros E c pos r K S arg l m i j d e s t HE HF HA. destruct (drawn_core _ _ _ _ _ _ _ _ _ HE HF HA) as (_ & _ & _ & C). apply C. Qed.

Lemma between_same : forall n pos pos' r K S s t, (forall x, 0 <= x < n -> pos' x = pos x) -> tj_element (between n pos' r r) K S s t = tj_element (between n pos r r) K S s t.
Proof. intros n pos pos' r K S s t H. apply (tj_ext _ _ n); try reflexivity; auto; intros x Hx; reflexivity. Qed.

Lemma C103_elements_pf : forall E c pos r K S arg l m i j d e s t, set_iter_ok E -> filled_drawn E c pos r -> assembled E c K S arg l m -> flips_agree c pos K S ->
  nth_error l i = Some d -> nth_error l j = Some e ->
  describes (nsites c) (nholes c) (nbeta c) d s -> describes (nsites c) (nholes c) (nbeta c) e t ->
  csr_at m (Z.of_nat i) (Z.of_nat j) = tj_element (between (nsites c) pos r r) K S s t.
Proof.
  intros E c pos r K S arg l m i j d e s t HE HF HA HG Hi Hj Ds De. set (L := between (nsites c) pos r r).
  destruct HG as [G|[G|(w & RM & G)]].
  - rewrite (C103_numbers_pf E c pos r K S arg l m i j d e s t HE HF HA Hi Hj Ds De). cbv zeta. fold L. apply by_same. now left.
  - rewrite (C103_numbers_pf E c pos r K S arg l m i j d e s t HE HF HA Hi Hj Ds De). cbv zeta. fold L. apply by_same. right.
    intros a b _ _ _. destruct G as [G|[G1 G2]].
    + destruct (no_hole_away L s a b) as [-> ->]; [|reflexivity]. intros z Hz. pose proof (no_holes c d s Ds G z Hz) as N. destruct (s z); [contradiction | reflexivity | reflexivity].
    + destruct (number_doping L s a b), (bond_doping L s a b); cbn [exchange]; congruence.
  - destruct HF as (HD & HL & HM & HR & Hh & Hb & Ha). assert (HF' : filled c w r) by (repeat split; assumption).
    rewrite (C29_elements_pf E c w r K S arg l m i j d e s t HE HF' HA Hi Hj Ds De). unfold L. symmetry. now apply between_same.
Qed.

(** ** relabelling *)
Section Figures.
Variables (n : Z) (p p' : Z -> Z * Z) (f : Z -> Z).
Hypothesis Hp : forall x y, 0 <= x < n -> 0 <= y < n -> p x = p y -> x = y.
Hypothesis M : same_figure n p p' f.

Lemma figure_inj : forall x y, 0 <= x < n -> 0 <= y < n -> f x = f y -> x = y.
Proof.
  intros x y Hx Hy Q. apply Hp; [assumption | assumption|]. rewrite (surjective_pairing (p x)), (surjective_pairing (p y)).
  destruct M as [_ [Q'|Q']]; destruct (Q' x y Hx Hy) as [A B]; rewrite Q in A, B; f_equal; lia.
Qed.

Lemma figure_bij : site_bij n f (back n f).
Proof.
  pose proof figure_inj as I. pose proof (proj1 M) as R.
  assert (P : Permutation (map f (zrange 0 n)) (zrange 0 n)).
  { apply NoDup_Permutation_bis.
    - apply NoDup_map_inj'; [|apply zrange_NoDup]. intros x y Hx Hy. apply in_zrange in Hx, Hy. now apply I.
    - now rewrite map_length.
    - intros y Hy. apply in_map_iff in Hy. destruct Hy as (x & <- & Hx). apply in_zrange. apply in_zrange in Hx. now apply R. }
  assert (K : forall y, 0 <= y < n -> 0 <= back n f y < n /\ f (back n f y) = y).
  { intros y Hy. unfold back. destruct (find _ _) as [x|] eqn:Q.
    - apply find_some in Q. destruct Q as [Q1 Q2]. apply in_zrange in Q1. apply Z.eqb_eq in Q2. auto.
    - exfalso. apply in_zrange in Hy. apply (Permutation_in _ (Permutation_sym P)) in Hy. apply in_map_iff in Hy. destruct Hy as (x & Fx & Hx).
      pose proof (find_none _ _ Q x Hx) as N. cbn in N. apply Z.eqb_neq in N. contradiction. }
  intros x Hx. destruct (K x Hx) as [K1 K2]. split; [now apply R|]. split; [assumption|]. split; [|assumption].
  destruct (K (f x) (R x Hx)) as [K3 K4]. now apply I.
Qed.

Lemma figure_back : same_figure n p' p (back n f).
Proof.
  pose proof figure_bij as B. split; [intros x Hx; now apply B|]. destruct M as [_ [Q|Q]]; [left | right]; intros x y Hx Hy;
    destruct (B x Hx) as (_ & Gx & _ & Fx), (B y Hy) as (_ & Gy & _ & Fy); destruct (Q _ _ Gx Gy) as [A1 A2]; rewrite Fx, Fy in A1, A2; auto.
Qed.

Lemma figure_tj : forall K S s s' t t', carried n f s s' -> carried n f t t' ->
  tj_element (between n p' (zrange 0 n) (zrange 0 n)) K S s' t' = tj_element (between n p (zrange 0 n) (zrange 0 n)) K S s t.
Proof.
  intros K S s s' t t' Hs Ht. pose proof figure_bij as B. destruct M as [R Q].
  apply (rel_tj _ _ n f (back n f) (fun p => p)); try reflexivity; try assumption; clear Hs Ht.
  - intros x y Hx Hy. unfold bonded. cbn [lat_pos between]. unfold bondb.
    destruct Q as [Q|Q]; destruct (Q x y Hx Hy) as [-> ->]; [reflexivity|]. f_equal. apply Z.add_comm.
  - intros x y Hx Hy. cbn [lat_pos between]. apply eq_true_iff_eq. unfold lineb2. rewrite !orb_true_iff, !Z.eqb_eq.
    destruct Q as [Q|Q]; destruct (Q x y Hx Hy); lia.
  - intros x y z Hx Hy Hz. cbn [lat_pos between]. apply eq_true_iff_eq. unfold lineb3.
    rewrite !orb_true_iff, !andb_true_iff, !Z.eqb_eq.
    destruct Q as [Q|Q]; destruct (Q x y Hx Hy), (Q y z Hy Hz); lia.
  - intros x y Hx Hy. cbn [lat_pos between]. apply eq_true_iff_eq. unfold diagb. rewrite !andb_true_iff, !Z.eqb_eq.
    destruct Q as [Q|Q]; destruct (Q x y Hx Hy); lia.
  - intros x Hx. rewrite !(whole_from n) by (try assumption; now apply R). reflexivity.
  - intros x Hx. rewrite !(whole_to n) by (try assumption; now apply R). reflexivity.
Qed.
End Figures.

Lemma gdl_canon : forall c i d s, 0 <= nsites c -> 0 <= nholes c -> 0 <= nbeta c -> nth_error (dl c) i = Some d -> describes (nsites c) (nholes c) (nbeta c) d s -> d = canon (nsites c) s.
Proof.
  intros c i d s P0 Hh Hb H D. apply nth_error_In in H. unfold dl in H. apply in_dets in H; [|exact P0].
  destruct H as (t & St & ->). rewrite !Z2Nat.id in St by assumption. pose proof (describes_unique _ _ _ _ _ _ (canon_describes _ _ _ _ St) D) as Q.
  unfold canon. now rewrite !(sites_of_same _ _ _ _ Q).
Qed.
Lemma gdl_distinct : forall c i j d e s t, 0 <= nsites c -> 0 <= nholes c -> 0 <= nbeta c -> nth_error (dl c) i = Some d -> nth_error (dl c) j = Some e ->
  describes (nsites c) (nholes c) (nbeta c) d s -> describes (nsites c) (nholes c) (nbeta c) e t -> same_state (nsites c) s t -> i = j.
Proof.
  intros c i j d e s t P0 Hh Hb Hi Hj Ds De Q. rewrite (gdl_canon _ _ _ _ P0 Hh Hb Hi Ds) in Hi. rewrite (gdl_canon _ _ _ _ P0 Hh Hb Hj De) in Hj.
  unfold canon in Hi. rewrite !(sites_of_same _ _ _ _ Q) in Hi. fold (canon (nsites c) t) in Hi.
  pose proof (dets_NoDup (nsites c) (Z.to_nat (nholes c)) (Z.to_nat (nbeta c))) as ND. fold (dl c) in ND. rewrite NoDup_nth_error in ND. apply ND; [apply nth_error_Some; congruence | congruence].
Qed.

(** the determinant which is carried to the [k]-th *)
Lemma gbefore : forall c pos f g, drawn c pos -> 0 <= nholes c -> 0 <= nbeta c -> site_bij (nsites c) f g ->
  exists tau : nat -> nat,
    (forall k d', nth_error (dl c) k = Some d' -> exists d, nth_error (dl c) (tau k) = Some d /\ carried (nsites c) f (state_of c d) (state_of c d')) /\
    (forall k i d d' s s', nth_error (dl c) k = Some d' -> nth_error (dl c) i = Some d -> describes (nsites c) (nholes c) (nbeta c) d s ->
       describes (nsites c) (nholes c) (nbeta c) d' s' -> carried (nsites c) f s s' -> tau k = i) /\
    Permutation (map tau (seq 0 (length (dl c)))) (seq 0 (length (dl c))).
Proof.
  intros c pos f g HD Hh Hb B. set (l := dl c).
  assert (P0 : 0 <= nsites c) by apply HD.
  assert (B' : site_bij (nsites c) g f) by (intros x Hx; destruct (B x Hx) as (? & ? & ? & ?); auto).
  assert (DD : forall k d, nth_error l k = Some d -> describes (nsites c) (nholes c) (nbeta c) d (state_of c d)).
  { intros k d H. apply (in_dl c pos HD Hh Hb). eapply nth_error_In, H. }
  set (mv := fun s : occupation => fun x => s (f x)).
  assert (SM : forall s, in_sector (nsites c) (nholes c) (nbeta c) s -> in_sector (nsites c) (nholes c) (nbeta c) (mv s)) by (intros s; apply (bij_sector _ _ _ s g f B')).
  exists (fun k => Z.to_nat (state_index (nsites c) (nholes c) (nbeta c) (mv (state_of c (nth k l []))))).
  assert (A1 : forall k d', nth_error l k = Some d' -> exists d, nth_error l (Z.to_nat (state_index (nsites c) (nholes c) (nbeta c) (mv (state_of c (nth k l []))))) = Some d /\
    describes (nsites c) (nholes c) (nbeta c) d (mv (state_of c d'))).
  { intros k d' Hk. rewrite (nth_error_nth _ _ _ Hk). pose proof (DD _ _ Hk) as D.
    exists (canon (nsites c) (mv (state_of c d'))). pose proof (SM _ (describes_sector _ _ _ _ _ D)) as Q. split; [now apply (dl_nth c pos HD Hh Hb) | now apply canon_describes]. }
  assert (A2 : forall k i d d' s s', nth_error l k = Some d' -> nth_error l i = Some d -> describes (nsites c) (nholes c) (nbeta c) d s ->
       describes (nsites c) (nholes c) (nbeta c) d' s' -> carried (nsites c) f s s' -> Z.to_nat (state_index (nsites c) (nholes c) (nbeta c) (mv (state_of c (nth k l [])))) = i).
  { intros k i d d' s s' Hk Hi Ds Ds' C. destruct (A1 k d' Hk) as (d0 & H0 & D0).
    apply (gdl_distinct c _ _ d0 d _ s P0 Hh Hb H0 Hi D0 Ds). intros x Hx. unfold mv.
    rewrite (describes_unique _ _ _ _ _ _ (DD _ _ Hk) Ds') by (now apply B). now apply C. }
  split; [|split; [exact A2|]].
  - intros k d' Hk. destruct (A1 k d' Hk) as (d & Hd & D). exists d. split; [assumption|]. intros x Hx.
    rewrite (describes_unique _ _ _ _ _ _ (DD _ _ Hd) D x) by assumption. reflexivity.
  - apply NoDup_Permutation_bis.
    + apply NoDup_map_inj'; [|apply seq_NoDup]. intros a b Ia Ib Q. apply in_seq in Ia, Ib.
      destruct (nth_error l a) as [da|] eqn:Qa; [|apply nth_error_None in Qa; lia]. destruct (nth_error l b) as [db|] eqn:Qb; [|apply nth_error_None in Qb; lia].
      destruct (A1 a da Qa) as (d0 & H0 & D0). destruct (A1 b db Qb) as (d1 & H1 & D1). rewrite Q in H0. rewrite H0 in H1. injection H1 as <-.
      apply (gdl_distinct c a b da db _ _ P0 Hh Hb Qa Qb (DD _ _ Qa) (DD _ _ Qb)).
      intros x Hx. destruct (B x Hx) as (_ & Gx & _ & FG). rewrite <- FG. exact (describes_unique _ _ _ _ _ _ D0 D1 _ Gx).
    + now rewrite map_length.
    + intros y Hy. apply in_map_iff in Hy. destruct Hy as (k & <- & Ik). apply in_seq in Ik. apply in_seq.
      destruct (nth_error l k) as [d'|] eqn:Q; [|apply nth_error_None in Q; lia]. destruct (A1 k d' Q) as (d & Hd & _).
      assert (HB : nth_error l (Z.to_nat (state_index (nsites c) (nholes c) (nbeta c) (mv (state_of c (nth k l []))))) <> None) by congruence. apply nth_error_Some in HB. lia.
Qed.

Lemma C103_figures_pf : forall E E' c c' pos pos' f K S arg arg' l l' m m', set_iter_ok E -> set_iter_ok E' ->
  filled_drawn_whole E c pos -> filled_drawn_whole E' c' pos' -> same_filling c c' -> same_figure (nsites c) pos pos' f ->
  flips_agree c pos K S -> flips_agree c' pos' K S -> assembled E c K S arg l m -> assembled E' c' K S arg' l' m' ->
  l' = l /\ csr_dim m' = csr_dim m /\
  (forall i j i' j' d e d' e' s t s' t', nth_error l i = Some d -> nth_error l j = Some e -> nth_error l i' = Some d' -> nth_error l j' = Some e' ->
    describes (nsites c) (nholes c) (nbeta c) d s -> describes (nsites c) (nholes c) (nbeta c) e t ->
    describes (nsites c) (nholes c) (nbeta c) d' s' -> describes (nsites c) (nholes c) (nbeta c) e' t' ->
    carried (nsites c) f s s' -> carried (nsites c) f t t' -> csr_at m' (Z.of_nat i') (Z.of_nat j') = csr_at m (Z.of_nat i) (Z.of_nat j)) /\
  (forall e v, eigenvector m e v -> exists v', moved c l f v v' /\ eigenvector m' e v' /\ inner v' v' = inner v v).
Proof.
  intros E E' c c' pos pos' f K S arg arg' l l' m m' HE HE' HF HF' (N1 & N2 & N3) FG AG AG' HA HA'. unfold filled_drawn_whole in *.
  destruct (drawn_core _ _ _ _ _ _ _ _ _ HE HF HA) as (El & Dm & _ & _). destruct (drawn_core _ _ _ _ _ _ _ _ _ HE' HF' HA') as (El' & Dm' & _ & _).
  assert (Ed : dl c' = dl c) by (unfold dl; now rewrite N1, N2, N3).
  pose proof HF as (HD & _ & _ & _ & Hh & Hb & _). pose proof (figure_bij _ _ _ _ ltac:(apply HD) FG) as B.
  assert (EL : forall i j i' j' d e d' e' s t s' t', nth_error l i = Some d -> nth_error l j = Some e -> nth_error l i' = Some d' -> nth_error l j' = Some e' ->
    describes (nsites c) (nholes c) (nbeta c) d s -> describes (nsites c) (nholes c) (nbeta c) e t ->
    describes (nsites c) (nholes c) (nbeta c) d' s' -> describes (nsites c) (nholes c) (nbeta c) e' t' ->
    carried (nsites c) f s s' -> carried (nsites c) f t t' -> csr_at m' (Z.of_nat i') (Z.of_nat j') = csr_at m (Z.of_nat i) (Z.of_nat j)).
  { intros i j i' j' d e d' e' s t s' t' Hi Hj Hi' Hj' Ds Dt Ds' Dt' Cs Ct.
    rewrite (C103_elements_pf E c pos _ K S arg l m i j d e s t HE HF HA AG Hi Hj Ds Dt).
    rewrite <- N1, <- N2, <- N3 in Ds', Dt'. rewrite El, <- Ed, <- El' in Hi', Hj'.
    rewrite (C103_elements_pf E' c' pos' _ K S arg' l' m' i' j' d' e' s' t' HE' HF' HA' AG' Hi' Hj' Ds' Dt').
    rewrite N1. apply (figure_tj _ _ _ f); try assumption. apply HD. }
  split; [congruence|]. split; [rewrite Dm, Dm'; now rewrite Ed|]. split; [exact EL|].
  intros e v HV. destruct (gbefore c pos f _ HD Hh Hb B) as (tau & T1 & T2 & T3). rewrite <- El in T1, T2, T3.
  assert (DD : forall k d, nth_error l k = Some d -> describes (nsites c) (nholes c) (nbeta c) d (state_of c d)) by (intros k d H; rewrite El in H; exact (drawn_describes _ _ _ _ _ _ HF H)).
  assert (ND : csr_dim m = Z.of_nat (length l)) by (rewrite Dm, <- El; reflexivity). assert (ND' : csr_dim m' = Z.of_nat (length l)) by (rewrite Dm', Ed, <- El; reflexivity).
  destruct (transport m m' (length l) tau e v ND ND' T3) as (V1 & V2); [|exact HV|].
  - intros i j Hi Hj. destruct (nth_error l i) as [d'|] eqn:Qi; [|apply nth_error_None in Qi; lia]. destruct (nth_error l j) as [e'|] eqn:Qj; [|apply nth_error_None in Qj; lia].
    destruct (T1 i d' Qi) as (d0 & Q0 & C0). destruct (T1 j e' Qj) as (d1 & Q1 & C1).
    exact (EL (tau i) (tau j) i j d0 d1 d' e' _ _ _ _ Q0 Q1 Qi Qj (DD _ _ Q0) (DD _ _ Q1) (DD _ _ Qi) (DD _ _ Qj) C0 C1).
  - eexists. split; [|split; [exact V1 | exact V2]]. split; [|split].
    + destruct HV as (Lv & _). rewrite ND in Lv. unfold zlen in Lv. lia.
    + now rewrite map_length, seq_length.
    + intros i i' d d' s s' Hi Hi' Ds Ds' C. assert (Li : (i' < length l)%nat) by (apply nth_error_Some; congruence). rewrite nth_map_seq by assumption. now rewrite (T2 i' i d d' s s').
Qed.

Lemma C103_energies_pf : forall E E' c c' pos pos' f K S arg arg' l l' m m', set_iter_ok E -> set_iter_ok E' ->
  filled_drawn_whole E c pos -> filled_drawn_whole E' c' pos' -> same_filling c c' -> same_figure (nsites c) pos pos' f ->
  flips_agree c pos K S -> flips_agree c' pos' K S -> assembled E c K S arg l m -> assembled E' c' K S arg' l' m' ->
  same_energies m m'.
Proof.
  intros E E' c c' pos pos' f K S arg arg' l l' m m' HE HE' HF HF' SF FG AG AG' HA HA' e.
  destruct (C103_figures_pf E E' c c' pos pos' f K S arg arg' l l' m m' HE HE' HF HF' SF FG AG AG' HA HA') as (_ & _ & _ & G).
  assert (SF' : same_filling c' c) by (unfold same_filling in *; intuition congruence).
  assert (FG' : same_figure (nsites c') pos' pos (back (nsites c') f)).
  { destruct SF as (-> & _). apply figure_back; [|exact FG]. destruct HF as (HD & _). apply HD. }
  destruct (C103_figures_pf E' E c' c pos' pos _ K S arg' arg l' l m' m HE' HE HF' HF SF' FG' AG' AG HA' HA) as (_ & _ & _ & G').
  split; intros (v & Hv); [destruct (G e v Hv) as (v' & _ & V & _) | destruct (G' e v Hv) as (v' & _ & V & _)]; eauto.
Qed.

(** ** sums of the rows *)
Lemma gsum_images : forall c pos u x, drawn c pos -> 0 <= nholes c -> 0 <= nbeta c -> in_sector (nsites c) (nholes c) (nbeta c) u ->
  qsum (fun d => only (sameb (nsites c) (state_of c d) u) x) (dl c) = x.
Proof.
  intros c pos u x HD Hh Hb Hu.
  pose proof (dl_nth c pos HD Hh Hb u Hu) as N.
  rewrite (qsum_single _ _ _ (canon (nsites c) u)).
  - assert (sameb (nsites c) (state_of c (canon (nsites c) u)) u = true) as ->; [|reflexivity].
    apply sameb_iff. apply (state_of_describes c _ u). now apply canon_describes.
  - apply dets_NoDup.
  - eapply nth_error_In, N.
  - intros d Hd Nd. destruct (sameb (nsites c) (state_of c d) u) eqn:Q; [|reflexivity]. exfalso. apply Nd.
    apply sameb_iff in Q. rewrite <- (canon_same _ _ _ Q). apply In_nth_error in Hd. destruct Hd as (k & Hd).
    apply (gdl_canon c k d _ (proj1 HD) Hh Hb Hd). apply (in_dl c pos HD Hh Hb). eapply nth_error_In, Hd.
Qed.

Definition exchange_switches : switches := mkSwitches false true true false false false.

Lemma row_sum : forall E c pos r K arg l m i d s, set_iter_ok E -> filled_drawn E c pos r -> assembled E c K exchange_switches arg l m ->
  nth_error l i = Some d -> describes (nsites c) (nholes c) (nbeta c) d s -> let L := between (nsites c) pos r r in
  sum_sites (csr_dim m) (fun j => csr_at m (Z.of_nat i) j) =
  sum_sites (nsites c) (fun a => sum_sites (nsites c) (fun b => only (spin_bond L s a b) (half * exchange K (number_doping L s a b) - half * exchange K (bond_doping L s a b))%Qc)).
Proof.
  intros E c pos r K arg l m i d s HE HF HA Hd Ds L. pose proof HF as (HD & HL & HM & HR & Hh & Hb & Ha).
  destruct (drawn_core _ _ _ _ _ _ _ _ _ HE HF HA) as (-> & D & R & M). fold L in M. rewrite D in *.
  transitivity (qsum (fun e => tj_by L (number_doping L) K exchange_switches s (state_of c e)) (dl c)).
  { unfold sum_sites, sites, zlen. rewrite Nat2Z.id.
    assert (G : forall (f : Z -> Qc) (g : list Z -> Qc) l0 k, (forall j e, nth_error l0 j = Some e -> f (Z.of_nat (k + j)) = g e) ->
      qsum f (map Z.of_nat (seq k (length l0))) = qsum g l0).
    { intros f g l0. induction l0 as [|e l0 IH]; intros k H; cbn [length seq map]; [reflexivity|]. rewrite !qsum_cons. f_equal.
      - rewrite <- (Nat.add_0_r k). now apply H.
      - apply IH. intros j e0 Hj. rewrite <- (H (Datatypes.S j) e0 Hj). do 2 f_equal. lia. }
    apply G. intros j e He. cbn [Nat.add].
    apply (M _ _ d e); try assumption. eapply drawn_describes; eassumption. }
  unfold tj_by, exchange_switches. cbn [s_bt s_bz s_bij s_bSD s_btN s_bV only].
  rewrite (qsum_ext _ _ (fun e => only (sameb (nsites c) (state_of c e) s) (op_static L K s) + op_flip_by L (number_doping L) K s (state_of c e))%Qc).
  2:{ intros e _. cbn [lat_size L between]. rewrite (sameb_comm _ s). ring. }
  rewrite qsum_add, (gsum_images c pos s _ HD Hh Hb) by (eapply describes_sector; exact Ds).
  assert (F : qsum (fun e => op_flip_by L (number_doping L) K s (state_of c e)) (dl c) =
     sum_sites (nsites c) (fun a => sum_sites (nsites c) (fun b => only (spin_bond L s a b) (half * exchange K (number_doping L s a b))%Qc))).
  { unfold op_flip_by, sum_sites. rewrite qsum_exchange. apply qsum_ext. intros a Ia. rewrite qsum_exchange. apply qsum_ext. intros b Ib.
    apply in_sites in Ia, Ib. cbn [lat_size L between]. destruct (spin_bond L s a b); cbn [andb only].
    - apply (gsum_images c pos _ _ HD Hh Hb). eapply describes_sector. apply (swap_describes _ _ _ d); eassumption.
    - now apply qsum_zero. }
  rewrite F. unfold op_static. change (lat_size L) with (nsites c). rewrite <- sum_sites_add. apply sum_sites_ext. intros a _. rewrite <- sum_sites_add. apply sum_sites_ext. intros b _.
  destruct (spin_bond L s a b); cbn [only]; ring.
Qed.

Lemma C103_row_sums_pf : forall E c pos r K arg l m i, set_iter_ok E -> filled_drawn E c pos r -> one_exchange c K ->
  assembled E c K (mkSwitches false true true false false false) arg l m -> 0 <= i < csr_dim m ->
  sum_sites (csr_dim m) (fun j => csr_at m i j) = 0%Qc.
Proof.
  intros E c pos r K arg l m i HE HF G HA Hi. destruct (drawn_core _ _ _ _ _ _ _ _ _ HE HF HA) as (El & D & _ & _).
  rewrite D, <- El in Hi. destruct (pick _ l i Hi) as (d & Hd). assert (Dd : describes (nsites c) (nholes c) (nbeta c) d (state_of c d)) by (rewrite El in Hd; exact (drawn_describes _ _ _ _ _ _ HF Hd)).
  rewrite <- (Z2Nat.id i) by lia. rewrite (row_sum E c pos r K arg l m _ d _ HE HF HA Hd Dd). set (L := between (nsites c) pos r r). set (s := state_of c d) in *.
  apply qsum_zero. intros a _. apply qsum_zero. intros b _. destruct (spin_bond L s a b); [|reflexivity]. cbn [only].
  replace (exchange K (number_doping L s a b)) with (exchange K (bond_doping L s a b)); [ring|].
  destruct G as [G|[G1 G2]].
  - destruct (no_hole_away L s a b) as [-> ->]; [|reflexivity]. intros z Hz. pose proof (no_holes c d s Dd G z Hz) as N. destruct (s z); [contradiction | reflexivity | reflexivity].
  - destruct (number_doping L s a b), (bond_doping L s a b); cbn [exchange]; congruence.
Qed.

(** ** lattices *)
Lemma C103_rectangle_pf : forall E c w r K S, filled c w r -> filled_drawn E c (point w) r /\ flips_agree c (point w) K S.
Proof.
  intros E c w r K S (RM & HR & Hh & Hb & Ha). split.
  - split; [now apply row_major_drawn|]. split; [now apply row_major_straight|]. split; [now apply row_major_middle|]. repeat split; assumption.
  - right. right. exists w. auto.
Qed.

Lemma ringed_onto : forall w h x y, 1 <= w -> 1 <= h -> (0 <= x < w /\ -1 <= y <= h) \/ (-1 <= x <= w /\ 0 <= y < h) ->
  exists k, 0 <= k < w * h + 2 * (w + h) /\ ringed_point w h k = (x, y).
Proof.
  intros w h x y Hw Hh B. unfold ringed_point, ring_point.
  destruct (Z.eq_dec y (-1)) as [->|]; [exists (w * h + x); destruct (Z.ltb_spec (w * h + x) (w * h)); [lia|]; replace (w * h + x - w * h) with x by lia; destruct (Z.ltb_spec x w); [split; [nia | reflexivity] | lia]|].
  destruct (Z.eq_dec x w) as [->|]; [exists (w * h + w + y); destruct (Z.ltb_spec (w * h + w + y) (w * h)); [lia|]; replace (w * h + w + y - w * h) with (w + y) by lia;
    destruct (Z.ltb_spec (w + y) w); [lia|]; destruct (Z.ltb_spec (w + y) (w + h)); [split; [nia | f_equal; lia] | lia]|].
  destruct (Z.eq_dec y h) as [->|]; [exists (w * h + w + h + (w - 1 - x)); destruct (Z.ltb_spec (w * h + w + h + (w - 1 - x)) (w * h)); [lia|]; replace (w * h + w + h + (w - 1 - x) - w * h) with (w + h + (w - 1 - x)) by lia;
    destruct (Z.ltb_spec (w + h + (w - 1 - x)) w); [lia|]; destruct (Z.ltb_spec (w + h + (w - 1 - x)) (w + h)); [lia|]; destruct (Z.ltb_spec (w + h + (w - 1 - x)) (2 * w + h)); [split; [nia | f_equal; lia] | lia]|].
  destruct (Z.eq_dec x (-1)) as [->|]; [exists (w * h + 2 * w + h + (h - 1 - y)); destruct (Z.ltb_spec (w * h + 2 * w + h + (h - 1 - y)) (w * h)); [lia|]; replace (w * h + 2 * w + h + (h - 1 - y) - w * h) with (2 * w + h + (h - 1 - y)) by lia;
    destruct (Z.ltb_spec (2 * w + h + (h - 1 - y)) w); [lia|]; destruct (Z.ltb_spec (2 * w + h + (h - 1 - y)) (w + h)); [lia|]; destruct (Z.ltb_spec (2 * w + h + (h - 1 - y)) (2 * w + h)); [lia | split; [nia | f_equal; lia]]|].
  exists (w * y + x). assert (Q : w * y + x < w * h) by nia. destruct (Z.ltb_spec (w * y + x) (w * h)); [|lia]. split; [nia|]. apply point_of. lia.
Qed.

Lemma C103_ring_pf : forall E c r, let w := nblocs_side c * nbh c in let h := nblocs_side c * nbv c in
  1 <= nbh c -> 1 <= nbv c -> 1 <= nblocs_side c -> 2 <= w -> 2 <= h ->
  build_bond_matrix_neel_embedding (nbh c) (nbv c) (nblocs_side c) = Ok (bond_matrix c) -> nsites c = mrows (bond_matrix c) -> lattice_type c = Peripheral ->
  sites_restriction c = RTuple r r -> 0 <= nholes c -> 0 <= nbeta c -> nalpha c = nsites c - nholes c - nbeta c ->
  filled_drawn E c (ringed_point w h) r.
Proof.
  intros E c r w h H1 H2 H3 Hw Hh HB HN HT HR N1 N2 N3.
  split; [exact (peri_drawn c H1 H2 H3 HB HN)|]. split; [exact (peri_straight c H1 H2 H3 HB HN Hw Hh E HT)|]. split; [|repeat split; assumption].
  intros x y Hx Hy D. pose proof (peri_n c H1 H2 H3 HB HN) as PN. fold w h in PN. rewrite PN in *.
  assert (I : forall k, 0 <= k < w * h + 2 * (w + h) -> exists a b, ringed_point w h k = (a, b) /\ ((0 <= a < w /\ -1 <= b <= h) \/ (-1 <= a <= w /\ 0 <= b < h))).
  { intros k Hk. destruct (ringed_cases c H1 H2 H3 k Hk) as [(A & q & r0 & _ & B & C & P & _)|[[A P]|[[A P]|[[A P]|[A P]]]]]; fold w h in A, P; try fold w in B; try fold h in C; rewrite P; do 2 eexists; (split; [reflexivity|]); lia. }
  destruct (I x Hx) as (a & b & Px & Bx), (I y Hy) as (a' & b' & Py & By). unfold diagonal in D. rewrite Px, Py in D. cbn [fst snd] in D.
  assert (NE : x <> y) by (intros ->; rewrite Px in Py; injection Py as -> ->; lia).
  assert (C : ((0 <= a < w /\ -1 <= b' <= h) \/ (-1 <= a <= w /\ 0 <= b' < h)) \/ ((0 <= a' < w /\ -1 <= b <= h) \/ (-1 <= a' <= w /\ 0 <= b < h))) by lia.
  destruct C as [C|C]; destruct (ringed_onto w h _ _ ltac:(lia) ltac:(lia) C) as (m & Hm & Pm); exists m; unfold path; (split; [assumption|]); (split; [assumption|]); (split; [assumption|]);
    (split; [assumption|]); unfold adjacent; rewrite Px, Py, Pm; cbn [fst snd]; lia.
Qed.

Lemma C103_clusters_pf : forall E c P iso r, let w := nblocs_side c * nbh c in
  1 <= nbh c -> 1 <= nbv c -> 1 <= nblocs_side c ->
  build_rectangular_bond_matrix (nbh c) (nbv c) (nblocs_side c) = Ok P ->
  nsites c = mrows P -> mrows (bond_matrix c) = nsites c -> mcols (bond_matrix c) = nsites c -> lattice_type c = Clusters ->
  (forall i j, 0 <= i < nsites c -> 0 <= j < nsites c -> iso i = iso j -> i = j) ->
  (forall i j, 0 <= i < nsites c -> 0 <= j < nsites c -> mat_at (bond_matrix c) i j = mat_at P (iso i) (iso j)) ->
  search_finds (nsites c) (transfer E (bond_matrix c) P) iso ->
  sites_restriction c = RTuple r r -> 0 <= nholes c -> 0 <= nbeta c -> nalpha c = nsites c - nholes c - nbeta c ->
  filled_drawn E c (fun x => point w (iso x)) r /\ same_figure (nsites c) (fun x => point w (iso x)) (point w) iso.
Proof.
  intros E c P iso r w H1 H2 H3 HP HN HR HCo HT Hinj Hiso Hf HS N1 N2 N3.
  pose proof (iso_range E c P iso Hf) as IR.
  assert (FG : same_figure (nsites c) (fun x => point w (iso x)) (point w) iso) by (split; [exact IR | left; intros x y _ _; split; reflexivity]).
  pose proof (clusters_drawn E c P iso H1 H2 H3 HP HN HR HCo Hinj Hiso Hf) as HD. fold w in HD.
  pose proof (figure_bij _ _ _ _ ltac:(apply HD) FG) as B.
  split; [|exact FG]. split; [exact HD|]. split; [exact (clusters_straight E c P iso H1 H2 H3 HP HN HR HCo Hinj Hiso Hf HT)|]. split; [|repeat split; assumption].
  intros x y Hx Hy D. set (cP := mkConf P (mrows P) 0 0 0 0 (RList []) Periodic (nbh c) (nbv c) (nblocs_side c)).
  assert (RM : row_major cP w) by (exists (nbh c), (nbv c), (nblocs_side c); repeat split; assumption).
  destruct (row_major_middle cP w RM (iso x) (iso y)) as (m & Pa & Pm & Pb & Pn & P1 & P2); [cbn [nsites cP]; rewrite <- HN; now apply IR | cbn [nsites cP]; rewrite <- HN; now apply IR | exact D|].
  cbn [nsites cP] in Pm. rewrite <- HN in Pm. destruct (B m Pm) as (_ & G1 & _ & G2). exists (back (nsites c) iso m). unfold path. rewrite G2.
  split; [assumption|]. split; [assumption|]. split; [assumption|]. split; [intros ->; now apply Pn | split; assumption].
Qed.

Lemma C103_transposed_pf : forall E E' c c' w h K S arg arg' l l' m m', set_iter_ok E -> set_iter_ok E' -> filled_whole c w -> filled_whole c' h ->
  nsites c = w * h -> same_filling c c' -> assembled E c K S arg l m -> assembled E' c' K S arg' l' m' -> same_energies m m'.
Proof.
  intros E E' c c' w h K S arg arg' l l' m m' HE HE' HF HF' HN SF HA HA'.
  destruct (C103_rectangle_pf E c w _ K S HF) as [F1 G1]. destruct (C103_rectangle_pf E' c' h _ K S HF') as [F2 G2].
  apply (C103_energies_pf E E' c c' (point w) (point h) (fun x => h * (x mod w) + x / w) K S arg arg' l l' m m'); try assumption.
  destruct HF as (RM & _). destruct HF' as (RM' & _).
  assert (W : 0 < w) by (destruct RM as (a & b & d & A1 & A2 & A3 & A4 & _); nia). assert (HH : 0 < h) by (destruct RM' as (a & b & d & A1 & A2 & A3 & A4 & _); nia).
  assert (Q : forall x, 0 <= x < nsites c -> 0 <= x mod w < w /\ 0 <= x / w < h) by (intros x Hx; rewrite HN in Hx; apply (point_bound w h x W Hx)).
  split.
  - intros x Hx. pose proof (Q x Hx). rewrite HN. nia.
  - right. intros x y Hx Hy. pose proof (Q x Hx). pose proof (Q y Hy). rewrite !point_of by lia. unfold point. cbn [fst snd]. split; reflexivity.
Qed.

(** ** the flips of the other lattices *)
Lemma find_row : forall E c pos K S arg d s, set_iter_ok E -> filled_drawn_whole E c pos -> describes (nsites c) (nholes c) (nbeta c) d s ->
  exists l m i, assembled E c K S arg l m /\ nth_error l i = Some (canon (nsites c) s) /\ describes (nsites c) (nholes c) (nbeta c) (canon (nsites c) s) s /\ (i < length l)%nat /\ csr_dim m = zlen l.
Proof.
  intros E c pos K S arg d s HE HF D. destruct (drawn_built E c pos _ K S arg HE HF) as (es & E1 & E2 & _). pose proof HF as (HD & _ & _ & _ & Hh & Hb & _).
  pose proof (describes_sector _ _ _ _ _ D) as Q. exists (dl c), (mkCsr (zlen (dl c)) es), (Z.to_nat (state_index (nsites c) (nholes c) (nbeta c) s)).
  pose proof (dl_nth c pos HD Hh Hb s Q) as N. split; [split; assumption|]. split; [exact N|]. split; [now apply canon_describes|]. split; [apply nth_error_Some; congruence | reflexivity].
Qed.

Lemma uneven : forall E c pos s d, set_iter_ok E -> filled_drawn_whole E c pos -> describes (nsites c) (nholes c) (nbeta c) d s ->
  (let L := between (nsites c) pos (zrange 0 (nsites c)) (zrange 0 (nsites c)) in
   sum_sites (nsites c) (fun a => sum_sites (nsites c) (fun b => only (spin_bond L s a b) (half * exchange ex_couplings (number_doping L s a b) - half * exchange ex_couplings (bond_doping L s a b))%Qc))) <> 0%Qc ->
  exists K arg l m i, assembled E c K (mkSwitches false true true false false false) arg l m /\ 0 <= i < csr_dim m /\ sum_sites (csr_dim m) (fun j => csr_at m i j) <> 0%Qc.
Proof.
  intros E c pos s d HE HF D N. destruct (find_row E c pos ex_couplings exchange_switches (RList []) d s HE HF D) as (l & m & i & A & Hi & Di & Li & Dm).
  exists ex_couplings, (RList []), l, m, (Z.of_nat i). split; [exact A|]. split; [rewrite Dm; unfold zlen; lia|].
  now rewrite (row_sum E c pos _ _ _ l m i _ s HE HF A Hi Di).
Qed.

Lemma ex_clusters_filled : filled_drawn_whole ex_clusters_runtime ex_clusters (fun x => point 4 (ex_iso x)).
Proof.
  split; [apply ex_clusters_drawn|]. split; [apply ex_clusters_drawn|]. split; [exact ex_clusters_middle|]. split; [vm_compute; reflexivity|]. vm_compute. intuition congruence.
Qed.

Lemma C103_clusters_refuted_pf : exists E c pos K arg l m i, set_iter_ok E /\ lattice_type c = Clusters /\ filled_drawn_whole E c pos /\
  assembled E c K (mkSwitches false true true false false false) arg l m /\ 0 <= i < csr_dim m /\ sum_sites (csr_dim m) (fun j => csr_at m i j) <> 0%Qc.
Proof.
  exists ex_clusters_runtime, ex_clusters, (fun x => point 4 (ex_iso x)).
  destruct (uneven ex_clusters_runtime ex_clusters (fun x => point 4 (ex_iso x)) ex_iso_state [0; 1; 6; 7; 2; 3; 4; 5]) as (K & arg & l & m & i & A & Hi & N).
  - intros l; exact (cpython_ok l).
  - exact ex_clusters_filled.
  - apply describesb_ok; vm_compute; reflexivity.
  - intros Q. apply (f_equal this) in Q. revert Q. vm_compute. discriminate.
  - exists K, arg, l, m, i. split; [intros l0; exact (cpython_ok l0)|]. split; [reflexivity|]. split; [exact ex_clusters_filled|]. auto.
Qed.

Lemma ex_ring_filled : filled_drawn_whole cpython (ex_ring 1 1 2 1 6) (ringed_point 2 2).
Proof.
  apply (C103_ring_pf cpython (ex_ring 1 1 2 1 6)); try reflexivity; vm_compute; congruence.
Qed.

Lemma C103_ring_refuted_pf : exists E c pos K arg l m i, set_iter_ok E /\ lattice_type c = Peripheral /\ filled_drawn_whole E c pos /\
  assembled E c K (mkSwitches false true true false false false) arg l m /\ 0 <= i < csr_dim m /\ sum_sites (csr_dim m) (fun j => csr_at m i j) <> 0%Qc.
Proof.
  exists cpython, (ex_ring 1 1 2 1 6), (ringed_point 2 2).
  destruct (uneven cpython (ex_ring 1 1 2 1 6) (ringed_point 2 2) ex_ring_state [11; 0; 6; 7; 8; 9; 10; 1; 2; 3; 4; 5]) as (K & arg & l & m & i & A & Hi & N).
  - exact cpython_ok.
  - exact ex_ring_filled.
  - apply describesb_ok; vm_compute; reflexivity.
  - intros Q. apply (f_equal this) in Q. revert Q. vm_compute. discriminate.
  - exists K, arg, l, m, i. split; [exact cpython_ok|]. split; [reflexivity|]. split; [exact ex_ring_filled|]. auto.
Qed.
