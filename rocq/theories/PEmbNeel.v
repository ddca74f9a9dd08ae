(** The embedding in a ring: the start, the dressing, the mirror. *)
From Coq Require Import ZArith List Bool QArith Qcanon Lia Permutation.
From Verif Require Import PyBase PyFacts Lattice Base Interact Ham Spin Prob Dav Files Emb Spec SpecTJ HamSpec SpinDefs ProbDefs Geometry EmbDefs.
From Verif Require Import PMat PRing PGeo FGeo PBasis PSites PSpin PProb PHam PRep PWave PVec FSites PEmb PEmbRing.
Import ListNotations.
Open Scope Z_scope.

(** ** The states of a basis *)

Lemma basis_listed : forall c l, proper c -> construct_basis c = Ok (mkBasis c l) ->
  l = dets (nsites c) (Z.to_nat (nholes c)) (Z.to_nat (nbeta c)) /\ zlen l = nb_conf c /\
  listed (nsites c) (nholes c) (nbeta c) l (fun k => state_of c (nth k l [])).
Proof.
  intros c l P B. rewrite (proper_basis c P) in B. injection B as <-. split; [reflexivity|]. split; [exact (proper_length c P)|].
  intros k d Hd. rewrite (nth_error_nth _ _ [] Hd). apply nth_error_In in Hd. apply in_dets in Hd; [|exact (proper_n c P)].
  destruct P as (A & B & _). rewrite !Z2Nat.id in Hd by assumption. destruct Hd as (s & Hs & ->).
  pose proof (canon_describes _ _ _ _ Hs) as D. apply (describes_same _ _ _ _ s); [|assumption].
  intros x Hx. symmetry. exact (state_of_describes c _ s D x Hx).
Qed.

(** the vector of one state *)
Lemma state_field : forall c l s d, proper c -> construct_basis c = Ok (mkBasis c l) -> describes (nsites c) (nholes c) (nbeta c) d s ->
  exists v p, (i <- get_index_in_basis c d ;; unit_column (nb_conf c) i) = Ok v /\ get_spins_probabilitites_lattice (mkBasis c l) v false = Ok p /\
    holds p (nsites c) (occupied s).
Proof.
  intros c l s d P B D. destruct (basis_listed c l P B) as (-> & Ln & Ls). rewrite (index_describes c d s D). cbn [bind].
  pose proof (describes_sector _ _ _ _ _ D) as Sc. pose proof (ix_range c P s Sc) as R. pose proof P as (A1 & A2 & _).
  pose proof (nth_dets (nsites c) (Z.to_nat (nholes c)) (Z.to_nat (nbeta c)) s (proper_n c P)) as N. rewrite !Z2Nat.id in N by assumption. specialize (N Sc).
  set (i := state_index (nsites c) (nholes c) (nbeta c) s) in *. set (l := dets _ _ _) in *.
  assert (Hi : (Z.to_nat i < length l)%nat) by (unfold zlen in Ln; lia).
  destruct (determinant_field c l _ (Z.to_nat i) Ls (proper_n c P) Hi) as (v & p & Ev & Ep & Hp). rewrite Z2Nat.id in Ev by lia. rewrite Ln in Ev.
  exists v, p. split; [assumption|]. split; [assumption|]. apply (holds_ext p _ _ _) with (2 := Hp). intros q x Hx. unfold occupied.
  pose proof (Ls _ _ N) as D2. rewrite (describes_unique _ _ _ _ _ _ D2 (canon_describes _ _ _ _ Sc) x Hx). reflexivity.
Qed.

(** ** The dressing *)

Lemma dress_list : forall I c l st u pos m around pR rho dim ham, listed (nsites c) (nholes c) (nbeta c) l st -> 0 <= nsites c -> nb_conf c = zlen l -> dim = zlen l ->
  frame u (nsites c) pos m around -> holds pR m rho ->
  dress_neel I (mkBasis c l) u pR dim ham =
  Ok (ham ++ flat_map (fun p => [(facing I (nsites c) pos (st (Z.to_nat (fst p))) m around rho, fst p, fst p)]) (enumerate l)).
Proof.
  intros I c l st u pos m around pR rho dim ham Ls Hn Hc -> F H. unfold dress_neel. cbn [b_conf determinants].
  apply (foldM_rows _ _ _ (fun p => [(facing I (nsites c) pos (st (Z.to_nat (fst p))) m around rho, fst p, fst p)])).
  intros h [k d] Hk. apply in_enumerate in Hk. destruct Hk as [H0 Hk]. cbn [fst].
  assert (Lk : (Z.to_nat k < length l)%nat) by (apply nth_error_Some; congruence).
  destruct (determinant_field c l st (Z.to_nat k) Ls Hn Lk) as (v & p & Ev & Ep & Hp). rewrite Z2Nat.id in Ev by assumption. rewrite Hc, Ev. cbn [bind].
  rewrite Ep. cbn [bind]. rewrite (frontier_energy_ok I u (nsites c) pos m around p pR _ rho F Hp H). cbn [bind].
  unfold add_coo, add_ham_coo. unfold zlen. destruct (Z.leb_spec 0 k); [|lia]. destruct (Z.ltb_spec k (Z.of_nat (length l))); [reflexivity | lia].
Qed.

Lemma diagonal_at : forall A (l : list A) (f : nat -> Qc) i j, 0 <= i < zlen l ->
  coo_at (flat_map (fun p => [(f (Z.to_nat (fst p)), fst p, fst p)]) (enumerate l)) i j = only (i =? j) (f (Z.to_nat i)).
Proof.
  intros A l f i j Hi. unfold coo_at.
  replace (flat_map (fun p => [(f (Z.to_nat (fst p)), fst p, fst p)]) (enumerate l)) with (map (fun k => (f (Z.to_nat k), k, k)) (map fst (enumerate l))).
  2:{ induction (enumerate l) as [|a e IH]; [reflexivity|]. cbn [map flat_map app]. now rewrite IH. }
  rewrite enumerate_fst, qsum_map. rewrite (qsum_single _ _ _ i); [|apply zrange_NoDup | apply in_zrange; lia|].
  - now rewrite Z.eqb_refl.
  - intros y _ Ny. apply Z.eqb_neq in Ny. now rewrite Ny.
Qed.

Lemma diagonal_out : forall A (l : list A) (f : nat -> Qc) i j, ~ 0 <= i < zlen l ->
  coo_at (flat_map (fun p => [(f (Z.to_nat (fst p)), fst p, fst p)]) (enumerate l)) i j = 0%Qc.
Proof.
  intros A l f i j Hi. unfold coo_at.
  replace (flat_map (fun p => [(f (Z.to_nat (fst p)), fst p, fst p)]) (enumerate l)) with (map (fun k => (f (Z.to_nat k), k, k)) (map fst (enumerate l))).
  2:{ induction (enumerate l) as [|a e IH]; [reflexivity|]. cbn [map flat_map app]. now rewrite IH. }
  rewrite enumerate_fst, qsum_map. apply qsum_zero. intros k Hk. apply in_zrange in Hk.
  assert (k <> i) by lia. apply Z.eqb_neq in H. now rewrite H.
Qed.

(** ** The mirror *)

Definition three (a b h : list Qc) : list (Z * list Qc) := [(1, a); (-1, b); (0, h)].

Lemma three_holds : forall a b h m rho, length a = Z.to_nat m -> length b = Z.to_nat m -> length h = Z.to_nat m ->
  (forall r, 0 <= r < m -> nth_error a (Z.to_nat r) = Some (rho Up r)) -> (forall r, 0 <= r < m -> nth_error b (Z.to_nat r) = Some (rho Down r)) ->
  (forall r, 0 <= r < m -> nth_error h (Z.to_nat r) = Some (rho Hole r)) -> holds (three a b h) m rho.
Proof.
  intros a b h m rho La Lb Lh Ha Hb Hh q. destruct q; [exists h | exists b | exists a]; repeat (split; [assumption || reflexivity|]); assumption.
Qed.

Lemma set_three : forall a b h m k x, 0 <= k < m -> length a = Z.to_nat m -> length b = Z.to_nat m -> length h = Z.to_nat m ->
  set_proba (three a b h) 1 k x = Ok (three (set_nth a (Z.to_nat k) x) b h) /\
  set_proba (three a b h) (-1) k x = Ok (three a (set_nth b (Z.to_nat k) x) h) /\
  set_proba (three a b h) 0 k x = Ok (three a b (set_nth h (Z.to_nat k) x)).
Proof.
  intros a b h m k x Hk La Lb Lh. unfold set_proba, three. cbn [mapM fst snd Z.eqb]. cbn [Z.eqb Pos.eqb bind].
  rewrite !py_set_ok by (unfold zlen; lia). cbn [bind]. auto.
Qed.

Lemma nth_set : forall (a : list Qc) k r x, (k < length a)%nat -> nth_error (set_nth a k x) r = if Nat.eqb k r then Some x else nth_error a r.
Proof.
  intros a k r x Hk. destruct (Nat.eqb_spec k r) as [->|N]; [now apply set_nth_same | now apply set_nth_other].
Qed.

Lemma mirror_inner : forall n m pa pb ph l a b h, (forall y, In y l -> n <= y < n + m) ->
  length a = Z.to_nat m -> length b = Z.to_nat m -> length h = Z.to_nat m ->
  exists a' b' h',
    foldM (fun pR site_R => pR <- set_proba pR 1 (site_R - n) pb ;; pR <- set_proba pR (-1) (site_R - n) pa ;; set_proba pR 0 (site_R - n) ph) (three a b h) l
      = Ok (three a' b' h') /\ length a' = Z.to_nat m /\ length b' = Z.to_nat m /\ length h' = Z.to_nat m /\
    forall r, 0 <= r < m -> nth_error a' (Z.to_nat r) = (if mem (r + n) l then Some pb else nth_error a (Z.to_nat r)) /\
      nth_error b' (Z.to_nat r) = (if mem (r + n) l then Some pa else nth_error b (Z.to_nat r)) /\
      nth_error h' (Z.to_nat r) = (if mem (r + n) l then Some ph else nth_error h (Z.to_nat r)).
Proof.
  intros n m pa pb ph l. induction l as [|y l IH]; intros a b h Hl La Lb Lh.
  - exists a, b, h. split; [reflexivity|]. split; [assumption|]. split; [assumption|]. split; [assumption|]. auto.
  - cbn [foldM]. assert (Hy : 0 <= y - n < m) by (specialize (Hl y (or_introl eq_refl)); lia).
    rewrite (proj1 (set_three a b h m (y - n) pb Hy La Lb Lh)). cbn [bind].
    rewrite (proj1 (proj2 (set_three _ b h m (y - n) pa Hy (eq_trans (set_nth_length _ _ _ _) La) Lb Lh))). cbn [bind].
    rewrite (proj2 (proj2 (set_three _ _ h m (y - n) ph Hy (eq_trans (set_nth_length _ _ _ _) La) (eq_trans (set_nth_length _ _ _ _) Lb) Lh))). cbn [bind].
    destruct (IH (set_nth a (Z.to_nat (y - n)) pb) (set_nth b (Z.to_nat (y - n)) pa) (set_nth h (Z.to_nat (y - n)) ph)) as (a' & b' & h' & E & La' & Lb' & Lh' & N);
      [intros z Hz; apply Hl; now right | now rewrite set_nth_length | now rewrite set_nth_length | now rewrite set_nth_length|].
    exists a', b', h'. split; [exact E|]. split; [assumption|]. split; [assumption|]. split; [assumption|]. intros r Hr. destruct (N r Hr) as (N1 & N2 & N3).
    assert (Q : mem (r + n) (y :: l) = (Nat.eqb (Z.to_nat (y - n)) (Z.to_nat r) || mem (r + n) l)).
    { unfold mem. cbn [existsb]. f_equal. destruct (Z.eqb_spec (r + n) y), (Nat.eqb_spec (Z.to_nat (y - n)) (Z.to_nat r)); try reflexivity; lia. }
    rewrite Q, N1, N2, N3, !nth_set by lia.
    destruct (Nat.eqb (Z.to_nat (y - n)) (Z.to_nat r)), (mem (r + n) l); auto.
Qed.

Lemma mirror_ok : forall u n pos m around pL rhoL near, frame u n pos m around -> holds pL n rhoL -> 0 <= m ->
  (forall r, 0 <= r < m -> In (near r) (u_frontier_A u) /\ forall x, 0 <= x < n -> (bondb (pos x) (around r) = true <-> x = near r)) ->
  exists pR, mirror_frontier u pL n m = Ok pR /\ holds pR m (fun q r => rhoL (flip_particle q) (near r)).
Proof.
  intros u n pos m around pL rhoL near (ND & In_ & FB & FD & Out) HL Hm Near. unfold mirror_frontier. fold (three (repeat 0%Qc (Z.to_nat m)) (repeat 0%Qc (Z.to_nat m)) (repeat 0%Qc (Z.to_nat m))).
  assert (G : forall F a b h, incl F (u_frontier_A u) -> length a = Z.to_nat m -> length b = Z.to_nat m -> length h = Z.to_nat m ->
    exists a' b' h', foldM (fun pR site_A => pa <- proba pL 1 site_A ;; pb <- proba pL (-1) site_A ;; ph <- proba pL 0 site_A ;; l <- u_bonds u site_A ;;
        foldM (fun pR site_R => pR <- set_proba pR 1 (site_R - n) pb ;; pR <- set_proba pR (-1) (site_R - n) pa ;; set_proba pR 0 (site_R - n) ph) pR l) (three a b h) F
      = Ok (three a' b' h') /\ length a' = Z.to_nat m /\ length b' = Z.to_nat m /\ length h' = Z.to_nat m /\
    forall r, 0 <= r < m -> nth_error a' (Z.to_nat r) = (if mem (near r) F then Some (rhoL Down (near r)) else nth_error a (Z.to_nat r)) /\
      nth_error b' (Z.to_nat r) = (if mem (near r) F then Some (rhoL Up (near r)) else nth_error b (Z.to_nat r)) /\
      nth_error h' (Z.to_nat r) = (if mem (near r) F then Some (rhoL Hole (near r)) else nth_error h (Z.to_nat r))).
  { induction F as [|x F IH]; intros a b h Hi La Lb Lh.
    - exists a, b, h. split; [reflexivity|]. split; [assumption|]. split; [assumption|]. split; [assumption|]. auto.
    - cbn [foldM]. assert (Hx : In x (u_frontier_A u)) by (apply Hi; now left). pose proof (In_ x Hx) as Rx.
      change (proba pL 1 x) with (proba pL (spin_code Up) x). change (proba pL (-1) x) with (proba pL (spin_code Down) x). change (proba pL 0 x) with (proba pL (spin_code Hole) x).
      rewrite !(holds_proba pL n rhoL _ x HL Rx). cbn [bind].
      destruct (FB x Hx) as (l & -> & NDl & Il). cbn [bind].
      destruct (mirror_inner n m (rhoL Up x) (rhoL Down x) (rhoL Hole x) l a b h) as (a1 & b1 & h1 & -> & La1 & Lb1 & Lh1 & N1); try assumption.
      { intros y Hy. apply Il in Hy. apply Hy. }
      cbn [bind]. destruct (IH a1 b1 h1) as (a' & b' & h' & E & La' & Lb' & Lh' & N); try assumption.
      { intros z Hz. apply Hi. now right. }
      exists a', b', h'. split; [exact E|]. split; [assumption|]. split; [assumption|]. split; [assumption|]. intros r Hr. destruct (N r Hr) as (Na & Nb & Nh). destruct (N1 r Hr) as (Ma & Mb & Mh).
      destruct (Near r Hr) as [_ U]. rewrite Na, Nb, Nh, Ma, Mb, Mh. change (mem (near r) (x :: F)) with ((near r =? x) || mem (near r) F).
      assert (Q : mem (r + n) l = (near r =? x)).
      { apply eq_true_iff_eq. rewrite mem_In, Il, Z.eqb_eq. replace (r + n - n) with r by lia. rewrite U by assumption. intuition (congruence || lia). }
      rewrite Q. destruct (Z.eqb_spec (near r) x) as [<-|]; destruct (mem (near r) F); auto. }
  destruct (G (u_frontier_A u) (repeat 0%Qc (Z.to_nat m)) (repeat 0%Qc (Z.to_nat m)) (repeat 0%Qc (Z.to_nat m))) as (a & b & h & E & La & Lb & Lh & N);
    [intros x Hx; exact Hx | apply repeat_length | apply repeat_length | apply repeat_length|].
  exists (three a b h). split; [exact E|].
  apply three_holds; try assumption; intros r Hr; destruct (N r Hr) as (N1 & N2 & N3); destruct (Near r Hr) as [I1 _]; apply mem_In in I1; rewrite I1 in *; assumption.
Qed.

(** ** The start *)

Section Start.
Variables (E : runtime) (h v s : Z).
Hypothesis HE : set_iter_ok E.
Hypothesis Hh : 1 <= h.
Hypothesis Hv : 1 <= v.
Hypothesis Hs : 1 <= s.
Let w := s * h.
Let ht := s * v.
Let m := 2 * (w + ht).

Definition ring_state : occupation := fun r => checkerboard (ring_point w ht r).

Lemma beta_parity : forall r, 0 <= r < m ->
  ((r + 1 + (if h * s <=? r then 1 else 0) + (if (h + v) * s <=? r then 1 else 0) + (if (2 * h + v) * s <=? r then 1 else 0)) mod 2 =? 1) =
  Z.odd (fst (ring_point w ht r) + snd (ring_point w ht r)).
Proof.
  intros r Hr. replace (h * s) with w by (unfold w; ring). replace ((h + v) * s) with (w + ht) by (unfold w, ht; ring).
  replace ((2 * h + v) * s) with (2 * w + ht) by (unfold w, ht; ring).
  assert (W : 1 <= w /\ 1 <= ht) by (unfold w, ht; nia). unfold m in Hr. clear - Hr W. clearbody w ht.
  assert (M : forall a, (a mod 2 =? 1) = Z.odd a) by (intros a; rewrite Zmod_odd; now destruct (Z.odd a)). rewrite M.
  assert (T : forall a b, Z.even (a - b) = true -> Z.odd a = Z.odd b).
  { intros a b Ev. apply Z.even_spec in Ev. destruct Ev as [k Hk]. replace a with (b + 2 * k) by lia. rewrite Z.odd_add_mul_2. reflexivity. }
  apply T. apply Z.even_spec. unfold ring_point.
  destruct (Z.ltb_spec r w); [|destruct (Z.ltb_spec r (w + ht)); [|destruct (Z.ltb_spec r (2 * w + ht))]]; cbn [fst snd];
    destruct (Z.leb_spec w r), (Z.leb_spec (w + ht) r), (Z.leb_spec (2 * w + ht) r); try lia.
  - exists 1. lia.
  - exists 1. lia.
  - exists (r + 2 - w - ht). lia.
  - exists (r + 3 - w - ht). lia.
Qed.

Lemma beta_is : beta_neel h v s = sites_of m ring_state Down.
Proof.
  unfold beta_neel, sites_of. replace (2 * (h + v) * s) with m by (unfold m, w, ht; ring). apply filter_ext_in. intros r Hr. apply in_zrange in Hr.
  rewrite beta_parity by assumption. unfold ring_state, checkerboard. destruct (Z.odd _); reflexivity.
Qed.

Lemma ring_no_hole : sites_of m ring_state Hole = [].
Proof.
  unfold sites_of. induction (zrange 0 m) as [|a l IH]; [reflexivity|]. cbn [filter]. unfold ring_state at 1, checkerboard.
  destruct (Z.odd _); exact IH.
Qed.

Lemma det_describes : describes m 0 (zlen (beta_neel h v s)) (det_neel E h v s) ring_state.
Proof.
  unfold det_neel. rewrite beta_is. replace (2 * (h + v) * s) with m by (unfold m, w, ht; ring).
  exists [], (sites_of m ring_state Down), (py_set_diff E (zrange 0 m) (sites_of m ring_state Down)). split; [reflexivity|]. split; [reflexivity|]. split; [reflexivity|].
  split; [constructor|]. split; [apply sites_of_NoDup|]. split; [apply (set_diff_NoDup E HE)|].
  assert (C : forall r, ring_state r = Down \/ ring_state r = Up) by (intros r; unfold ring_state, checkerboard; destruct (Z.odd _); auto).
  split; [|split].
  - intros x. split; [intros [] | intros [_ F]]. destruct (C x); congruence.
  - intros x. apply in_sites_of.
  - intros x. rewrite (in_set_diff E HE), in_zrange, in_sites_of. destruct (C x) as [Q|Q]; rewrite Q; intuition congruence.
Qed.

Lemma start_ok : exists p, neel_start E h v s = Ok p /\ holds p m (occupied ring_state).
Proof.
  unfold neel_start. destruct (outer_is h v s Hh Hv Hs) as (o & -> & Ro & Co & Go). cbn [bind].
  replace (s * h + s * v + s * h + s * v) with m in Ro by (unfold m, w, ht; ring).
  assert (M1 : 1 <= m) by (unfold m, w, ht; nia).
  unfold make_configuration. rewrite Ro. destruct (Z.eqb_spec m 0); [lia|]. cbn [restr_falsy bind].
  match goal with |- context [construct_basis ?k] => set (c := k) end.
  assert (P : proper c).
  { unfold proper, c. cbn [nholes nbeta nalpha nsites nb_conf sites_restriction].
    assert (zlen (beta_neel h v s) <= m).
    { unfold beta_neel. replace (2 * (h + v) * s) with m by (unfold m, w, ht; ring). unfold zlen.
      match goal with |- context [filter ?f (zrange 0 m)] => pose proof (NoDup_incl_length (NoDup_filter f (zrange_NoDup 0 m)) (incl_filter f (zrange 0 m))) as L end.
      rewrite zrange_length in L. lia. }
    unfold zlen in *. repeat split; lia. }
  rewrite (proper_basis c P). cbn [bind]. pose proof det_describes as D.
  destruct (state_field c _ ring_state (det_neel E h v s) P (proper_basis c P) D) as (vec & p & Ev & Ep & Hp).
  unfold bind in Ev. destruct (get_index_in_basis c (det_neel E h v s)) as [i|] eqn:Ei; [|discriminate]. cbn [bind]. rewrite Ev. cbn [bind].
  exists p. split; [exact Ep | exact Hp].
Qed.
End Start.
