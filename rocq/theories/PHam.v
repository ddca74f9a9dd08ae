(** Assembly of the Hamiltonian. *)
From Coq Require Import ZArith List Bool Lia Permutation QArith Qcanon.
From Verif Require Import PyBase PyFacts Lattice Base Interact Ham Spec SpecOps SpecTJ Geometry
  PBasis PSites PRot PMat PGeo PInter PSpin PRep FGeo FSites FInter.
Import ListNotations.
Open Scope Z_scope.

Definition coo_at (l : coo) (i j : Z) : Qc :=
  qsum (fun p => let '(x, r, k) := p in only ((r =? i) && (k =? j)) x) l.

Lemma csr_at_coo : forall m i j, csr_at m i j = coo_at (csr_entries m) i j.
Proof.
  intros m i j. unfold csr_at, coo_at. induction (csr_entries m) as [|[[x r] k] l IH]; cbn [fold_right].
  - apply Qc_is_canon. reflexivity.
  - rewrite qsum_cons, <- IH. destruct ((r =? i) && (k =? j)); cbn [only]; ring.
Qed.

Lemma coo_at_app : forall a b i j, coo_at (a ++ b) i j = (coo_at a i j + coo_at b i j)%Qc.
Proof. intros. apply qsum_app. Qed.

Lemma foldM_rows : forall A B (f : list B -> A -> res (list B)) (g : A -> list B) l b,
  (forall b x, In x l -> f b x = Ok (b ++ g x)) -> foldM f b l = Ok (b ++ flat_map g l).
Proof.
  intros A B f g l. induction l as [|x l IH]; intros b H; cbn [foldM flat_map].
  - now rewrite app_nil_r.
  - rewrite H by (left; reflexivity). cbn [bind]. rewrite IH by (intros; apply H; now right). now rewrite app_assoc.
Qed.

Lemma qsum_single : forall A (f : A -> Qc) l x, NoDup l -> In x l -> (forall y, In y l -> y <> x -> f y = 0%Qc) -> qsum f l = f x.
Proof.
  intros A f l x ND Hx H. induction ND as [|y l Hy ND IH]; [destruct Hx|]. rewrite qsum_cons. destruct Hx as [->|Hx].
  - rewrite (qsum_zero _ f l); [ring|]. intros z Hz. apply H; [now right|]. intros ->. contradiction.
  - rewrite IH; [|assumption|intros z Hz Nz; apply H; [now right | assumption]]. rewrite (H y); [ring|now left|]. intros ->. contradiction.
Qed.

Section Assembly.
Variables (E : runtime) (c : configuration) (pos : Z -> Z * Z) (r : list Z) (K : interactions).
Hypothesis HE : set_iter_ok E.
Hypothesis HD : drawn c pos.
Hypothesis HR : sites_restriction c = RTuple r r.
Hypothesis Hh : 0 <= nholes c.
Hypothesis Hb : 0 <= nbeta c.
Hypothesis Ha : nalpha c = nsites c - nholes c - nbeta c.
Let n := nsites c.
Variable L : lattice.
Hypothesis HLs : lat_size L = n.
Hypothesis HLp : forall x, 0 <= x < n -> lat_pos L x = pos x.
Hypothesis HLf : forall x, 0 <= x < n -> (lat_from L x = true <-> In x r).
Hypothesis HLt : forall x, 0 <= x < n -> (lat_to L x = true <-> In x r).

Hypothesis HL : straightness_decided E c pos.
Hypothesis HM : forall x y, 0 <= x < n -> 0 <= y < n -> diagonal (pos x) (pos y) -> exists m, path n pos x m y.
(** the class given to a flipped bond *)
Variable rule : occupation -> Z -> Z -> doping.
Hypothesis HK : forall d s, conf_describes c d s -> flips_decided E c pos d s (rule s).

Let sec := in_sector n (nholes c) (nbeta c).
Let ix := state_index n (nholes c) (nbeta c).
Definition dl : list (list Z) := dets (nsites c) (Z.to_nat (nholes c)) (Z.to_nat (nbeta c)).
Let st := state_of c.

Lemma n_nonneg : 0 <= n. Proof. apply HD. Qed.

Lemma basis_ok : construct_basis c = Ok (mkBasis c dl).
Proof. apply construct_basis_ok; assumption. Qed.

Lemma in_dl : forall d, In d dl -> conf_describes c d (st d).
Proof.
  intros d H. apply in_dets in H; [|apply n_nonneg]. rewrite !Z2Nat.id in H by assumption.
  destruct H as (s & S & ->). pose proof (canon_describes _ _ _ _ S) as D.
  eapply describes_same; [|exact D]. intros x Hx. symmetry. exact (state_of_describes c _ s D x Hx).
Qed.

Lemma dl_nth : forall s, sec s -> nth_error dl (Z.to_nat (ix s)) = Some (canon n s).
Proof.
  intros s S. pose proof (nth_dets n (Z.to_nat (nholes c)) (Z.to_nat (nbeta c)) s n_nonneg) as N.
  rewrite !Z2Nat.id in N by assumption. exact (N S).
Qed.

Lemma dl_length : zlen dl = compute_dimension (nsites c) (nalpha c) (nbeta c).
Proof.
  unfold zlen, dl. rewrite dets_length by apply n_nonneg. rewrite !Z2Nat.id by assumption.
  unfold compute_dimension. rewrite Ha.
  replace (nsites c - (nsites c - nholes c - nbeta c) - nbeta c) with (nholes c) by lia.
  f_equal. rewrite (comb_sym _ (nbeta c)). reflexivity.
Qed.

Lemma ix_range : forall s, sec s -> 0 <= ix s < zlen dl.
Proof.
  intros s S. split; [apply state_index_nonneg|]. pose proof (dl_nth s S) as N.
  assert ((Z.to_nat (ix s) < length dl)%nat) by (apply nth_error_Some; congruence).
  pose proof (state_index_nonneg n (nholes c) (nbeta c) s). unfold zlen. fold ix in H0. lia.
Qed.

Lemma ix_eqb : forall s j d, sec s -> nth_error dl (Z.to_nat j) = Some d -> 0 <= j ->
  (ix s =? j) = sameb n (st d) s.
Proof.
  intros s j d S Hd Hj. pose proof (dl_nth s S) as N. apply eq_true_iff_eq. rewrite Z.eqb_eq, sameb_iff.
  pose proof (in_dl d (nth_error_In _ _ Hd)) as D. split.
  - intros <-. rewrite N in Hd. injection Hd as <-. apply (state_of_describes c _ s). apply canon_describes, S.
  - intros Q. assert (canon n s = d).
    { apply nth_error_In in Hd. apply in_dets in Hd; [|apply n_nonneg]. rewrite !Z2Nat.id in Hd by assumption.
      destruct Hd as (s' & S' & ->). apply canon_same. intros x Hx. rewrite <- Q by assumption.
      apply (state_of_describes c _ s'); [now apply canon_describes | assumption]. }
    subst d. pose proof (dets_NoDup n (Z.to_nat (nholes c)) (Z.to_nat (nbeta c))) as ND. fold dl in ND.
    rewrite NoDup_nth_error in ND. 
    assert (Z.to_nat (ix s) = Z.to_nat j).
    { apply ND; [apply nth_error_Some; change (nth_error dl (Z.to_nat (ix s)) <> None); rewrite N; discriminate|].
      change (nth_error dl (Z.to_nat (ix s)) = nth_error dl (Z.to_nat j)). now rewrite N, Hd. }
    pose proof (ix_range s S). lia.
Qed.

Lemma index_canon : forall s, sec s -> get_index_in_basis c (canon n s) = Ok (ix s).
Proof. intros s S. apply index_describes. apply canon_describes, S. Qed.

(** entries of one row *)
Definition terms : Type := list (Qc * occupation).
Definition entries (k : Z) (ts : terms) : coo := map (fun xt => (fst xt, k, state_index (nsites c) (nholes c) (nbeta c) (snd xt))) ts.

Lemma entries_app : forall k a b, entries k (a ++ b) = entries k a ++ entries k b.
Proof. intros. apply map_app. Qed.

Definition amplitude (ts : terms) (t : occupation) : Qc := qsum (fun xt => only (sameb (nsites c) t (snd xt)) (fst xt)) ts.

Definition good (step : coo -> Z * list Z -> res coo) (op : occupation -> occupation -> Qc) : Prop :=
  forall d, In d dl -> exists ts,
    (forall ham k, 0 <= k -> nth_error dl (Z.to_nat k) = Some d -> step ham (k, d) = Ok (ham ++ entries k ts)) /\
    (forall x t, In (x, t) ts -> in_sector (nsites c) (nholes c) (nbeta c) t) /\
    (forall t, amplitude ts t = op (state_of c d) t).

Definition in_range (es : coo) : Prop := forall x i j, In (x, i, j) es -> 0 <= i < zlen dl /\ 0 <= j < zlen dl.

(** [es] is the matrix of [op] *)
Definition matrix_of (es : coo) (op : occupation -> occupation -> Qc) : Prop :=
  in_range es /\ forall i j d d', 0 <= i -> 0 <= j -> nth_error dl (Z.to_nat i) = Some d -> nth_error dl (Z.to_nat j) = Some d' ->
    coo_at es i j = op (state_of c d) (state_of c d').

Lemma finite_choice : forall (P : list Z -> terms -> Prop) l, (forall d, In d l -> exists ts, P d ts) ->
  exists f, forall d, In d l -> P d (f d).
Proof.
  intros P l. induction l as [|d l IH]; intros H.
  - exists (fun _ => []). intros d [].
  - destruct IH as (f & Hf); [intros; apply H; now right|]. destruct (H d (or_introl eq_refl)) as (ts & Hts).
    exists (fun x => if list_eq_dec Z.eq_dec x d then ts else f x). intros x Hx.
    destruct (list_eq_dec Z.eq_dec x d) as [->|N]; [assumption|]. destruct Hx as [->|Hx]; [contradiction | auto].
Qed.

Lemma good_fold : forall step op, good step op -> forall ham,
  exists es, foldM step ham (enumerate dl) = Ok (ham ++ es) /\ matrix_of es op.
Proof.
  intros step op G ham.
  destruct (finite_choice _ dl G) as (f & Hf). clear G.
  exists (flat_map (fun p => entries (fst p) (f (snd p))) (enumerate dl)).
  assert (Hin : forall k d, In (k, d) (enumerate dl) -> In d dl /\ 0 <= k < zlen dl).
  { intros k d H. apply in_enumerate in H. destruct H as [Hk H]. split; [eapply nth_error_In, H|].
    assert ((Z.to_nat k < length dl)%nat) by (apply nth_error_Some; congruence). unfold zlen. lia. }
  split; [|split].
  - apply foldM_rows. intros b [k d] H. pose proof H as H0. apply in_enumerate in H0. apply (Hf d); [apply (Hin _ _ H) | apply H0 | apply H0].
  - intros x i j H. apply in_flat_map in H. destruct H as ([k d] & H1 & H2). apply in_map_iff in H2.
    destruct H2 as ([y t] & [= <- <- <-] & H2). cbn [fst snd] in *. destruct (Hin _ _ H1) as [H3 H4].
    split; [assumption|]. apply ix_range. eapply (proj1 (proj2 (Hf d H3))), H2.
  - intros i j d d' Hi Hj Nd Nd'. unfold coo_at. rewrite qsum_flat_map.
    rewrite (qsum_single _ _ _ (i, d)).
    + cbn [fst snd]. unfold entries. rewrite qsum_map. destruct (Hf d (nth_error_In _ _ Nd)) as (_ & H1 & H2).
      rewrite <- H2. apply qsum_ext. intros [x t] Hx. cbn [fst snd]. rewrite Z.eqb_refl. cbn [andb].
      exact (f_equal (fun b => only b x) (ix_eqb t j d' (H1 x t Hx) Nd' Hj)).
    + apply enumerate_NoDup.
    + apply in_enumerate. auto.
    + intros [k e] H1 H2. unfold entries. rewrite qsum_map. apply qsum_zero. intros [x t] _. cbn [fst snd].
      destruct (Z.eqb_spec k i) as [->|]; [|reflexivity]. exfalso. apply H2. apply in_enumerate in H1. destruct H1. congruence.
Qed.

Lemma matrix_add : forall e1 e2 o1 o2, matrix_of e1 o1 -> matrix_of e2 o2 ->
  matrix_of (e1 ++ e2) (fun s t => (o1 s t + o2 s t)%Qc).
Proof.
  intros e1 e2 o1 o2 [R1 M1] [R2 M2]. split.
  - intros x i j H. apply in_app_iff in H. destruct H; eauto.
  - intros. rewrite coo_at_app. now rewrite (M1 i j d d'), (M2 i j d d').
Qed.

Lemma matrix_nil : matrix_of [] (fun _ _ => 0%Qc).
Proof. split; [intros x i j [] | reflexivity]. Qed.

Lemma matrix_ext : forall es o1 o2, (forall d t, In d dl -> o1 (state_of c d) t = o2 (state_of c d) t) -> matrix_of es o1 -> matrix_of es o2.
Proof. intros es o1 o2 H [R1 M1]. split; [assumption|]. intros. rewrite <- H; [auto|]. eapply nth_error_In. eassumption. Qed.

Lemma add_images_ok : forall A x k ham (f : A -> occupation) ps, (forall p, In p ps -> sec (f p)) ->
  add_images c x k ham (map (fun p => canon n (f p)) ps) = Ok (ham ++ entries k (map (fun p => (x, f p)) ps)).
Proof.
  intros A x k ham f ps H. unfold add_images. revert ham. induction ps as [|p ps IH]; intros ham; cbn [map foldM].
  - now rewrite app_nil_r.
  - rewrite index_canon by (apply H; now left). cbn [bind]. rewrite IH by (intros; apply H; now right).
    unfold add_ham_coo. rewrite <- app_assoc. reflexivity.
Qed.

Lemma sec_swap : forall d x y, In d dl -> 0 <= x < n -> 0 <= y < n -> sec (swap_state x y (st d)).
Proof. intros d x y Hd Hx Hy. eapply describes_sector. apply (swap_describes _ _ _ d); [assumption|assumption|]. now apply in_dl. Qed.

Lemma sec_shift : forall d h m e, In d dl -> path n pos h m e -> sec (shift_state h m e (st d)).
Proof.
  intros d h m e Hd (H1 & H2 & H3 & N & A1 & A2). eapply describes_sector.
  apply (shift_describes _ _ _ d); try assumption; try (eapply adj_ne; eassumption). now apply in_dl.
Qed.

Lemma sec_self : forall d, In d dl -> sec (st d).
Proof. intros d Hd. eapply describes_sector. now apply in_dl. Qed.

Lemma bonded_iff' : forall x y, 0 <= x < n -> 0 <= y < n -> (bonded L x y = true <-> adjacent (pos x) (pos y)).
Proof. intros x y Hx Hy. unfold bonded. rewrite (HLp x Hx), (HLp y Hy). apply bondb_iff. Qed.

(** hopping *)
Lemma good_hop : good (fun ham p => let '(ind_vect, vect) := p in
    images <- compute_hopping_integral E c vect ;; add_images c (i_t K) ind_vect ham images) (op_hop L K).
Proof.
  intros d Hd. pose proof (in_dl d Hd) as D.
  destruct (hop_pairs_ok E c pos r r d (st d) HE HD HR D) as (ND & I).
  exists (map (fun p => (i_t K, swap_state (fst p) (snd p) (st d))) (hop_pairs E c d)). split; [|split].
  - intros ham k _ _. rewrite (hopping_ok E c pos r r d (st d) HE HD HR D). cbn [bind].
    apply (add_images_ok _ _ _ _ (fun p => swap_state (fst p) (snd p) (st d))).
    intros [h e] Hp. apply I in Hp. apply sec_swap; [assumption|apply Hp|apply Hp].
  - intros x t H. apply in_map_iff in H. destruct H as ([h e] & [= <- <-] & Hp). apply I in Hp. apply sec_swap; [assumption|apply Hp|apply Hp].
  - intros t. unfold amplitude. rewrite qsum_map. cbn [fst snd]. unfold op_hop. rewrite HLs.
    rewrite (sum_pairs n _ (fun h e => lat_from L h && lat_to L e && bonded L h e && holeb (st d h) && negb (holeb (st d e)))).
    + apply sum_sites_ext. intros h _. apply sum_sites_ext. intros e _. cbn [fst snd].
      fold st n. destruct (_ && negb (holeb (st d e))); cbn [andb only]; [reflexivity|]. reflexivity.
    + assumption.
    + intros h e. rewrite I. fold n. split.
      * intros (H1 & H2 & H3 & H4 & H5 & H6 & H7). split; [assumption|]. split; [assumption|].
        rewrite !andb_true_iff, negb_true_iff, holeb_iff, HLf, HLt, bonded_iff' by assumption.
        assert (N : holeb (st d e) = false) by (destruct (holeb (st d e)) eqn:Q; [apply holeb_iff in Q; tauto | reflexivity]). auto.
      * intros (H1 & H2 & H3). rewrite !andb_true_iff, negb_true_iff, holeb_iff, HLf, HLt, bonded_iff' in H3 by assumption.
        destruct H3 as ((((A & B) & C) & F) & G). repeat (split; [assumption|]). split; [|assumption].
        intros [Q _]. rewrite Q in G. discriminate.
Qed.

(** diagonal terms *)
Lemma good_diagonal : forall (f : list Z -> res Qc) g, (forall d, In d dl -> f d = Ok (g (st d))) ->
  good (fun ham p => let '(ind_vect, vect) := p in x <- f vect ;; Ok (add_ham_coo ham x ind_vect ind_vect))
       (fun s t => only (sameb n s t) (g s)).
Proof.
  intros f g H d Hd. exists [(g (st d), st d)]. split; [|split].
  - intros ham k Hk Nk. rewrite (H d Hd). cbn [bind]. unfold add_ham_coo, entries. cbn [map fst snd]. do 4 f_equal.
    pose proof (ix_eqb (st d) k d (sec_self d Hd) Nk Hk) as Q.
    assert (sameb n (st d) (st d) = true) by (apply sameb_iff; intros x _; reflexivity).
    rewrite H0 in Q. apply Z.eqb_eq in Q. now symmetry.
  - intros x t [[= <- <-]|[]]. now apply sec_self.
  - intros t. unfold amplitude. rewrite qsum_one. cbn [fst snd]. f_equal. apply eq_true_iff_eq. fold n. rewrite !sameb_iff.
    unfold same_state. split; intros Q x Hx; symmetry; now apply Q.
Qed.

Lemma good_static : good (fun ham p => let '(ind_vect, vect) := p in
    sz <- compute_static_spin_interaction E c K vect ;; Ok (add_ham_coo ham sz ind_vect ind_vect))
  (fun s t => only (sameb n s t) (op_static L K s)).
Proof.
  apply (good_diagonal (compute_static_spin_interaction E c K) (op_static L K)). intros d Hd.
  apply (static_ok E c pos r r d (st d) HE HD HR (in_dl d Hd) L HLs HLp HLf HLt). exact HL.
Qed.

Lemma good_repulsion : good (fun ham p => let '(ind_vect, vect) := p in
    v <- compute_hole_repulsion E c K vect ;; Ok (add_ham_coo ham v ind_vect ind_vect))
  (fun s t => only (sameb n s t) (op_repulsion L K s)).
Proof.
  apply (good_diagonal (compute_hole_repulsion E c K) (op_repulsion L K)). intros d Hd.
  apply (repulsion_ok E c pos r r d (st d) HE HD HR); try assumption.
  - auto.
  - now apply in_dl.
Qed.

Lemma qdiv2 : forall x, (x / qz 2 = half * x)%Qc.
Proof.
  intros x. unfold Qcdiv. rewrite Qcmult_comm. reflexivity.
Qed.

(** spin flips *)
Lemma good_flip : good (fun ham p => let '(ind_vect, vect) := p in
    '(images_par, images_per, images_undoped) <- compute_spin_flip E c vect ;;
    ham <- add_images c (i_Jhpar K / qz 2)%Qc ind_vect ham images_par ;;
    ham <- add_images c (i_Jhper K / qz 2)%Qc ind_vect ham images_per ;;
    add_images c (i_J K / qz 2)%Qc ind_vect ham images_undoped) (op_flip_by L rule K).
Proof.
  intros d Hd. pose proof (in_dl d Hd) as D.
  destruct (spin_bonds_ok E c pos r r (st d) HE HD HR) as (ND & I).
  set (bs := fun k => filter (is_kind (rule (st d)) k) (spin_bonds E c (st d))).
  set (tm := fun k => map (fun p => ((half * exchange K k)%Qc, swap_state (fst p) (snd p) (st d))) (bs k)).
  assert (SB : forall k p, In p (bs k) -> sec (swap_state (fst p) (snd p) (st d))).
  { intros k [i j] H. apply filter_In in H. destruct H as [H _]. apply I in H. cbn [fst snd].
    apply sec_swap; [assumption|unfold n; lia|unfold n; lia]. }
  exists (tm Aligned ++ tm Beside ++ tm Away). split; [|split].
  - intros ham k _ _. rewrite (spin_flip_ok E c pos r r d (st d) HE HD HR D (rule (st d))).
    + cbn [bind]. rewrite !qdiv2. unfold flip_images, swapped. fold n.
      rewrite (add_images_ok _ _ _ _ (fun p => swap_state (fst p) (snd p) (st d)) (bs Aligned)) by apply SB. cbn [bind].
      rewrite (add_images_ok _ _ _ _ (fun p => swap_state (fst p) (snd p) (st d)) (bs Beside)) by apply SB. cbn [bind].
      rewrite (add_images_ok _ _ _ _ (fun p => swap_state (fst p) (snd p) (st d)) (bs Away)) by apply SB.
      rewrite !entries_app, <- !app_assoc. reflexivity.
    + exact (HK d (st d) D).
  - intros x t H. unfold tm in H. rewrite <- !map_app in H || idtac. rewrite !in_app_iff, !in_map_iff in H.
    destruct H as [(p & [= <- <-] & Hp)|[(p & [= <- <-] & Hp)|(p & [= <- <-] & Hp)]]; eapply SB, Hp.
  - intros t. unfold amplitude. rewrite !qsum_app. unfold tm. rewrite !qsum_map. cbn [fst snd].
    unfold bs. rewrite !qsum_filter, <- !qsum_add.
    unfold op_flip_by. rewrite HLs.
    transitivity (qsum (fun b => only (sameb n t (swap_state (fst b) (snd b) (st d))) (half * exchange K (rule (st d) (fst b) (snd b)))%Qc) (spin_bonds E c (st d))).
    + apply qsum_ext. intros [i j] _. unfold is_kind. cbn [fst snd]. fold n.
      destruct (rule (st d) i j); cbn [only]; ring.
    + rewrite (sum_spin_bonds E c pos r r (st d) HE HD HR L HLp HLf HLt).
      apply sum_sites_ext. intros i _. apply sum_sites_ext. intros j _. cbn [fst snd]. fold st n.
      destruct (spin_bond L (st d) i j); cbn [andb only]; reflexivity.
Qed.

(** next hopping *)
Lemma two_bonds_iff : forall x y, 0 <= x < n -> 0 <= y < n -> x <> y ->
  (two_bonds L x y = true <-> exists m, path n pos x m y).
Proof.
  intros x y Hx Hy N. unfold two_bonds. rewrite existsb_exists. rewrite HLs. split.
  - intros (m & Hm & H). apply in_sites in Hm. apply andb_true_iff in H. destruct H as [H1 H2].
    apply bonded_iff' in H1; [|assumption|assumption]. apply bonded_iff' in H2; [|assumption|assumption].
    exists m. repeat (split; [assumption|]). assumption.
  - intros (m & _ & Hm & _ & _ & A1 & A2). exists m. rewrite in_sites, andb_true_iff, !bonded_iff' by assumption. auto.
Qed.

Lemma lineb_lineb2 : forall x y, 0 <= x < n -> 0 <= y < n -> lineb pos x y = lineb2 (lat_pos L x) (lat_pos L y).
Proof. intros x y Hx Hy. rewrite !HLp by assumption. reflexivity. Qed.

Lemma good_next : good (fun ham p => let '(ind_vect, vect) := p in
    '(images_col, images_ortho) <- compute_next_hopping_integral E c vect ;;
    ham <- add_images c (i_tnNNN K) ind_vect ham images_col ;;
    add_images c (i_tNNN K) ind_vect ham images_ortho) (op_next_hop L K).
Proof.
  intros d Hd. pose proof (in_dl d Hd) as D.
  destruct (next_hopping_ok E c pos r r d (st d) HE HD HR D HL) as (ps & ND & I & Ec).
  set (tm := fun (x : Qc) P => map (fun p => (x, swap_state (fst p) (snd p) (st d))) (filter P ps)).
  assert (SB : forall P p, In p (filter P ps) -> sec (swap_state (fst p) (snd p) (st d))).
  { intros P [h e] H. apply filter_In in H. destruct H as [H _]. apply I in H. destruct H as (_ & _ & _ & _ & m & H).
    apply sec_swap; [assumption|apply H|apply H]. }
  exists (tm (i_tnNNN K) (fun p => lineb pos (fst p) (snd p)) ++ tm (i_tNNN K) (fun p => negb (lineb pos (fst p) (snd p)))). split; [|split].
  - intros ham k _ _. rewrite Ec. cbn [bind]. unfold swapped. fold n.
    rewrite (add_images_ok _ _ _ _ (fun p => swap_state (fst p) (snd p) (st d))) by apply SB. cbn [bind].
    rewrite (add_images_ok _ _ _ _ (fun p => swap_state (fst p) (snd p) (st d))) by apply SB.
    rewrite !entries_app, <- !app_assoc. reflexivity.
  - intros x t H. unfold tm in H. rewrite !in_app_iff, !in_map_iff in H.
    destruct H as [(p & [= <- <-] & Hp)|(p & [= <- <-] & Hp)]; eapply SB, Hp.
  - intros t. unfold amplitude. rewrite !qsum_app. unfold tm. rewrite !qsum_map. cbn [fst snd].
    rewrite !qsum_filter, <- !qsum_add. unfold op_next_hop. rewrite HLs.
    rewrite (sum_pairs n ps (fun h e => lat_from L h && lat_to L e && two_bonds L h e && holeb (st d h) && negb (holeb (st d e)))).
    + apply sum_sites_ext. intros h Hh0. apply sum_sites_ext. intros e He0. cbn [fst snd]. fold st n.
      rewrite lineb_lineb2 by assumption.
      destruct (lat_from L h && lat_to L e && two_bonds L h e && holeb (st d h) && negb (holeb (st d e))); cbn [andb only]; [|reflexivity].
      destruct (lineb2 (lat_pos L h) (lat_pos L e)); cbn [negb only]; destruct (sameb n t _); cbn [only]; ring.
    + assumption.
    + intros h e. rewrite I. fold n. split.
      * intros (H1 & H2 & H3 & H4 & m & H5). pose proof H5 as (Rh & _ & Re & Ne & _).
        split; [assumption|]. split; [assumption|].
        rewrite !andb_true_iff, negb_true_iff, holeb_iff, HLf, HLt, two_bonds_iff by assumption.
        assert (N : holeb (st d e) = false) by (destruct (holeb (st d e)) eqn:Q; [apply holeb_iff in Q; tauto | reflexivity]). eauto 10.
      * intros (H1 & H2 & H3). rewrite !andb_true_iff, negb_true_iff, holeb_iff in H3.
        destruct H3 as ((((A & B) & C) & F) & G).
        assert (Ne : h <> e) by (intros ->; rewrite F in G; discriminate).
        rewrite HLf in A by assumption. rewrite HLt in B by assumption. rewrite two_bonds_iff in C by assumption.
        split; [assumption|]. split; [assumption|]. split; [|auto]. intros Q. rewrite Q in G. discriminate.
Qed.

(** singlet displacement *)
Lemma add_singlet_ok : forall A x k ham (f g : A -> occupation) ps, (forall p, In p ps -> sec (f p) /\ sec (g p)) ->
  add_singlet_images c x k ham (map (fun p => (canon n (f p), canon n (g p))) ps)
  = Ok (ham ++ entries k (flat_map (fun p => [(x, f p); ((- x)%Qc, g p)]) ps)).
Proof.
  intros A x k ham f g ps H. unfold add_singlet_images. revert ham. induction ps as [|p ps IH]; intros ham; cbn [map foldM flat_map].
  - now rewrite app_nil_r.
  - destruct (H p (or_introl eq_refl)) as [S1 S2]. rewrite (index_canon _ S1), (index_canon _ S2). cbn [bind].
    rewrite IH by (intros; apply H; now right).
    unfold add_ham_coo. rewrite <- !app_assoc. reflexivity.
Qed.

Lemma good_singlet : good (fun ham p => let '(ind_vect, vect) := p in
    '(images_par, images_per) <- compute_singlet_displacement E c vect ;;
    ham <- add_singlet_images c (i_hSDpar K) ind_vect ham images_par ;;
    add_singlet_images c (i_hSDper K) ind_vect ham images_per) (op_singlet L K).
Proof.
  intros d Hd. pose proof (in_dl d Hd) as D.
  destruct (sd_triples_ok E c pos r r d (st d) HE HD HR D) as (ND & I).
  set (ts := sd_triples E c d (st d)) in *.
  set (f := fun t : triple => let '(h, m, e) := t in shift_state h m e (st d)).
  set (g := fun t : triple => let '(h, m, e) := t in swap_state h e (st d)).
  set (tm := fun (x : Qc) P => flat_map (fun p => [(x, f p); ((- x)%Qc, g p)]) (filter P ts)).
  assert (SB : forall P p, In p (filter P ts) -> sec (f p) /\ sec (g p)).
  { intros P [[h m] e] H. apply filter_In in H. destruct H as [H _]. apply I in H. destruct H as (_ & _ & _ & _ & _ & H).
    split; [now apply sec_shift | apply sec_swap; [assumption|apply H|apply H]]. }
  assert (EI : forall P, map (sd_image c (st d)) (filter P ts) = map (fun p => (canon n (f p), canon n (g p))) (filter P ts)).
  { intros P. apply map_ext. intros [[h m] e]. reflexivity. }
  exists (tm (i_hSDpar K) (sd_line pos) ++ tm (i_hSDper K) (fun t => negb (sd_line pos t))). split; [|split].
  - intros ham k _ _. rewrite (singlet_ok E c pos r r d (st d) HE HD HR D HL). fold ts. cbn [bind]. rewrite !EI.
    rewrite add_singlet_ok by apply SB. cbn [bind]. rewrite add_singlet_ok by apply SB.
    rewrite !entries_app, <- !app_assoc. reflexivity.
  - intros x t H. unfold tm in H. rewrite !in_app_iff, !in_flat_map in H.
    destruct H as [(p & Hp & [[= <- <-]|[[= <- <-]|[]]])|(p & Hp & [[= <- <-]|[[= <- <-]|[]]])]; eapply SB, Hp.
  - intros t. unfold amplitude. rewrite !qsum_app. unfold tm. rewrite !qsum_flat_map.
    rewrite !qsum_filter, <- !qsum_add. unfold op_singlet. rewrite HLs.
    rewrite (sum_triples n ts (fun h m e => lat_from L h && lat_to L m && lat_to L e && bonded L h m && bonded L m e && holeb (st d h) && oppositeb (st d m) (st d e))).
    + apply sum_sites_ext. intros h Hh0. apply sum_sites_ext. intros m Hm0. apply sum_sites_ext. intros e He0. fold st n.
      rewrite !qsum_cons, !qsum_nil. cbn [fst snd sd_line f g]. rewrite lineb_lineb2 by assumption.
      destruct (lat_from L h && lat_to L m && lat_to L e && bonded L h m && bonded L m e && holeb (st d h) && oppositeb (st d m) (st d e)); cbn [only]; [|reflexivity].
      destruct (lineb2 (lat_pos L h) (lat_pos L e)); cbn [negb only];
      destruct (sameb n t (shift_state h m e (st d))), (sameb n t (swap_state h e (st d))); cbn [only]; ring.
    + assumption.
    + intros h m e. rewrite I. fold n. split.
      * intros (H1 & H2 & H3 & H4 & H5 & H6). pose proof H6 as (Rh & Rm & Re & Ne & A1 & A2).
        repeat (split; [assumption|]).
        rewrite !andb_true_iff, holeb_iff, oppositeb_iff, HLf, !HLt, !bonded_iff' by assumption. auto 10.
      * intros (H1 & H2 & H3 & H4). rewrite !andb_true_iff, holeb_iff, oppositeb_iff in H4.
        destruct H4 as ((((((A & B) & C) & F) & G) & O) & Q).
        rewrite HLf in A by assumption. rewrite HLt in B by assumption. rewrite HLt in C by assumption.
        rewrite bonded_iff' in F by assumption. rewrite bonded_iff' in G by assumption.
        repeat (split; [assumption|]).
        split; [intros ->; destruct Q as [[_ Q]|[_ Q]]; congruence|]. auto.
Qed.

Lemma no_holes : nholes c <= 0 -> forall d x, In d dl -> 0 <= x < n -> holeb (st d x) = false.
Proof.
  intros H0 d x Hd Hx. destruct (holeb (st d x)) eqn:Q; [|reflexivity]. apply holeb_iff in Q.
  destruct (sec_self d Hd) as [S _]. assert (In x (sites_of n (st d) Hole)) by (apply in_sites_of; auto).
  destruct (sites_of n (st d) Hole) as [|y l]; [destruct H|]. rewrite zlen_cons in S. pose proof (zlen_nonneg _ l). lia.
Qed.

Lemma sum_sites_zero : forall m f, (forall x, 0 <= x < m -> f x = 0%Qc) -> sum_sites m f = 0%Qc.
Proof. intros m f H. apply qsum_zero. intros x Hx. apply H, in_sites, Hx. Qed.

Definition bas : basis := mkBasis c dl.

Lemma add_hopping_ok : forall ham, exists es, add_hopping_integral E ham bas K = Ok (ham ++ es) /\ matrix_of es (op_hop L K).
Proof.
  intros ham. unfold add_hopping_integral. cbn [b_conf bas determinants]. destruct (Z.ltb_spec 0 (nholes c)).
  - apply (good_fold _ _ good_hop).
  - exists []. rewrite app_nil_r. split; [reflexivity|]. apply (matrix_ext [] (fun _ _ => 0%Qc)); [|apply matrix_nil].
    intros d t Hd. symmetry. unfold op_hop. rewrite HLs. apply sum_sites_zero. intros x Hx. apply sum_sites_zero. intros y Hy.
    fold st. rewrite (no_holes H d x Hd Hx). rewrite !andb_false_r. reflexivity.
Qed.

Lemma add_next_ok : forall ham, exists es, add_next_hopping_integral E ham bas K = Ok (ham ++ es) /\ matrix_of es (op_next_hop L K).
Proof.
  intros ham. unfold add_next_hopping_integral. cbn [b_conf bas determinants]. destruct (Z.ltb_spec 0 (nholes c)).
  - apply (good_fold _ _ good_next).
  - exists []. rewrite app_nil_r. split; [reflexivity|]. apply (matrix_ext [] (fun _ _ => 0%Qc)); [|apply matrix_nil].
    intros d t Hd. symmetry. unfold op_next_hop. rewrite HLs. apply sum_sites_zero. intros x Hx. apply sum_sites_zero. intros y Hy.
    fold st. rewrite (no_holes H d x Hd Hx). rewrite !andb_false_r. reflexivity.
Qed.

Lemma switched : forall (b : bool) (f : coo -> res coo) op,
  (forall ham, exists es, f ham = Ok (ham ++ es) /\ matrix_of es op) ->
  forall ham, exists es, (if b then f ham else Ok ham) = Ok (ham ++ es) /\ matrix_of es (fun s t => only b (op s t)).
Proof.
  intros b f op H ham. destruct b.
  - destruct (H ham) as (es & E1 & M). exists es. auto.
  - exists []. rewrite app_nil_r. split; [reflexivity|]. apply matrix_nil.
Qed.

Lemma to_csr_ok : forall es, in_range es -> coo_to_csr (zlen dl) es = Ok (mkCsr (zlen dl) es).
Proof.
  intros es H. unfold coo_to_csr. assert (F : forallb (fun p : Qc * Z * Z => let '(_, r, c) := p in (0 <=? r) && (r <? zlen dl) && (0 <=? c) && (c <? zlen dl)) es = true).
  { apply forallb_forall. intros [[x i] j] Hx. apply H in Hx. rewrite !andb_true_iff, !Z.leb_le, !Z.ltb_lt. lia. }
  rewrite F. reflexivity.
Qed.

Ltac step_with H := match type of H with _ = ?r => match goal with |- context [bind ?x _] => replace x with r by (symmetry; exact H) end end; cbn [bind].

Lemma hamiltonian_ok : forall S arg, exists es, build_hamiltonian E c K bas S arg = Ok (mkCsr (zlen dl) es) /\ matrix_of es (tj_by L rule K S).
Proof.
  intros S arg. unfold build_hamiltonian. rewrite <- dl_length. cbv zeta.
  destruct (switched (s_bt S) (fun h => add_hopping_integral E h bas K) _ add_hopping_ok []) as (e1 & E1 & M1). step_with E1.
  destruct (switched (s_bz S) (fun h => add_static_spin_interaction E h bas K) _ (good_fold _ _ good_static) ([] ++ e1)) as (e2 & E2 & M2). step_with E2.
  destruct (switched (s_bij S) (fun h => add_spin_flip E h bas K) _ (good_fold _ _ good_flip) (([] ++ e1) ++ e2)) as (e3 & E3 & M3). step_with E3.
  destruct (switched (s_bSD S) (fun h => add_singlet_displacement E h bas K) _ (good_fold _ _ good_singlet) ((([] ++ e1) ++ e2) ++ e3)) as (e4 & E4 & M4). step_with E4.
  destruct (switched (s_btN S) (fun h => add_next_hopping_integral E h bas K) _ add_next_ok (((([] ++ e1) ++ e2) ++ e3) ++ e4)) as (e5 & E5 & M5). step_with E5.
  destruct (switched (s_bV S) (fun h => add_hole_repulsion E h bas K) _ (good_fold _ _ good_repulsion) ((((([] ++ e1) ++ e2) ++ e3) ++ e4) ++ e5)) as (e6 & E6 & M6). step_with E6.
  pose proof (matrix_add _ _ _ _ (matrix_add _ _ _ _ (matrix_add _ _ _ _ (matrix_add _ _ _ _ (matrix_add _ _ _ _ M1 M2) M3) M4) M5) M6) as M.
  cbn [app] in *. exists (((((e1 ++ e2) ++ e3) ++ e4) ++ e5) ++ e6). split; [apply to_csr_ok, M|].
  eapply matrix_ext; [|exact M]. intros d t Hd. cbv beta. unfold tj_by. rewrite HLs. reflexivity.
Qed.

End Assembly.
