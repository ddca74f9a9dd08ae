(** Final lemmas for C28-C35. *)
From Coq Require Import ZArith List Bool Lia Permutation QArith Qcanon.
From Verif Require Import PyBase PyFacts Lattice Base Interact Ham Spec SpecOps SpecTJ Geometry HamSpec
  PBasis PSites PRot PMat PGeo PInter PSpin PRep FGeo FBasis FSites FInter POps PHam.
Import ListNotations.
Open Scope Z_scope.

Lemma block_from_to : forall n pos r x, lat_from (between n pos r r) x = lat_to (between n pos r r) x.
Proof. reflexivity. Qed.

Lemma built : forall E c w r K S arg, set_iter_ok E -> filled c w r ->
  exists es, construct_basis c = Ok (mkBasis c (dl c)) /\
    build_hamiltonian E c K (mkBasis c (dl c)) S arg = Ok (mkCsr (zlen (dl c)) es) /\
    matrix_of c es (tj_element (between (nsites c) (point w) r r) K S).
Proof.
  intros E c w r K S arg HE (RM & HR & Hh & Hb & Ha).
  set (L := between (nsites c) (point w) r r).
  destruct (hamiltonian_ok E c (point w) r K HE (row_major_drawn c w RM) HR Hh Hb Ha L eq_refl (fun _ _ => eq_refl) (fun x _ => proj1 (between_ok (nsites c) (point w) r r x))
    (fun x _ => proj2 (between_ok (nsites c) (point w) r r x)) (row_major_straight E c w RM) (row_major_middle c w RM) (bond_doping L)) with (S := S) (arg := arg) as (es & E1 & M).
  - intros d s D i j Hij Hj A O. apply (rect_flip_class E c w r r); try assumption; try reflexivity.
    + intros. apply between_ok.
    + destruct O as [[-> _]|[-> _]]; discriminate.
    + destruct O as [[_ ->]|[_ ->]]; discriminate.
  - exists es. split; [|auto]. now apply basis_ok.
Qed.

Lemma dl_describes : forall c w r i d, filled c w r -> nth_error (dl c) i = Some d ->
  describes (nsites c) (nholes c) (nbeta c) d (state_of c d).
Proof. intros c w r i d (RM & HR & Hh & Hb & Ha) H. apply (in_dl c (point w) (row_major_drawn c w RM) Hh Hb). eapply nth_error_In, H. Qed.

Lemma core : forall E c w r K S arg l m, set_iter_ok E -> filled c w r -> assembled E c K S arg l m ->
  l = dl c /\ csr_dim m = zlen (dl c) /\ in_range c (csr_entries m) /\
  forall i j d e s t, nth_error l i = Some d -> nth_error l j = Some e ->
    describes (nsites c) (nholes c) (nbeta c) d s -> describes (nsites c) (nholes c) (nbeta c) e t ->
    csr_at m (Z.of_nat i) (Z.of_nat j) = tj_element (between (nsites c) (point w) r r) K S s t.
Proof.
  intros E c w r K S arg l m HE HF [A B]. destruct (built E c w r K S arg HE HF) as (es & E1 & E2 & R & M).
  rewrite A in E1. injection E1 as ->. rewrite B in E2. injection E2 as ->.
  split; [reflexivity|]. split; [reflexivity|]. split; [exact R|].
  intros i j d e s t Hi Hj D1 D2. rewrite csr_at_coo. cbn [csr_entries].
  rewrite (M _ _ d e); try rewrite Nat2Z.id; try lia; try assumption.
  apply (tj_ext _ _ (nsites c)); try reflexivity.
  - intros x Hx. symmetry. exact (state_of_describes c d s D1 x Hx).
  - intros x Hx. symmetry. exact (state_of_describes c e t D2 x Hx).
Qed.

Lemma out_of_range : forall es dim i j, (forall x a b, In (x, a, b) es -> 0 <= a < dim /\ 0 <= b < dim) ->
  ~ (0 <= i < dim /\ 0 <= j < dim) -> coo_at es i j = 0%Qc.
Proof.
  intros es dim i j H N. apply qsum_zero. intros [[x a] b] Hx. apply H in Hx.
  destruct (Z.eqb_spec a i), (Z.eqb_spec b j); cbn [andb only]; try reflexivity. subst. exfalso. tauto.
Qed.

Lemma pick : forall A (l : list A) i, 0 <= i < zlen l -> exists d, nth_error l (Z.to_nat i) = Some d.
Proof.
  intros A l i Hi. destruct (nth_error l (Z.to_nat i)) eqn:Q; [eauto|]. apply nth_error_None in Q. unfold zlen in Hi. lia.
Qed.

(** two matrices with the same entries in range agree everywhere *)
Lemma csr_all : forall c w r (m : csr) (P : Z -> Z -> Qc), filled c w r -> csr_dim m = zlen (dl c) -> in_range c (csr_entries m) ->
  (forall i j, ~ (0 <= i < zlen (dl c) /\ 0 <= j < zlen (dl c)) -> P i j = 0%Qc) ->
  (forall i j d e, nth_error (dl c) i = Some d -> nth_error (dl c) j = Some e ->
     csr_at m (Z.of_nat i) (Z.of_nat j) = P (Z.of_nat i) (Z.of_nat j)) ->
  forall i j, csr_at m i j = P i j.
Proof.
  intros c w r m P HF D R Z0 H i j.
  destruct (Z_le_dec 0 i), (Z_lt_dec i (zlen (dl c))), (Z_le_dec 0 j), (Z_lt_dec j (zlen (dl c)));
    try (rewrite Z0 by tauto; rewrite csr_at_coo; apply (out_of_range _ (zlen (dl c))); [exact R | tauto]).
  destruct (pick _ (dl c) i) as (d & Hd); [lia|]. destruct (pick _ (dl c) j) as (e & He); [lia|].
  rewrite <- (Z2Nat.id i), <- (Z2Nat.id j) by assumption. eapply H; eassumption.
Qed.

Lemma csr_zero : forall c (m : csr), csr_dim m = zlen (dl c) -> in_range c (csr_entries m) ->
  forall i j, ~ (0 <= i < zlen (dl c) /\ 0 <= j < zlen (dl c)) -> csr_at m i j = 0%Qc.
Proof. intros c m D R i j N. rewrite csr_at_coo. apply (out_of_range _ (zlen (dl c))); [exact R | exact N]. Qed.

(** ** C28 *)
Lemma C28_assembly_pf : forall E c w r K S arg, set_iter_ok E -> filled c w r ->
  exists l m, assembled E c K S arg l m /\ csr_dim m = Z.of_nat (length l) /\ csr_dim m = compute_dimension (nsites c) (nalpha c) (nbeta c) /\
    (forall x i j, In (x, i, j) (csr_entries m) -> 0 <= i < csr_dim m /\ 0 <= j < csr_dim m) /\
    (forall d, In d l -> exists s, describes (nsites c) (nholes c) (nbeta c) d s /\ sector (nsites c) (nholes c) (nbeta c) s).
Proof.
  intros E c w r K S arg HE HF. destruct (built E c w r K S arg HE HF) as (es & E1 & E2 & R & M).
  exists (dl c), (mkCsr (zlen (dl c)) es). split; [split; assumption|]. split; [reflexivity|]. cbn [csr_dim csr_entries].
  destruct HF as (RM & HR & Hh & Hb & Ha).
  split; [now apply (dl_length c (point w) (row_major_drawn c w RM))|]. split; [exact R|].
  intros d Hd. apply (in_dl c (point w) (row_major_drawn c w RM) Hh Hb) in Hd. exists (state_of c d). split; [assumption|]. apply sector_iff. eapply describes_sector, Hd.
Qed.

(** ** C29 *)
Lemma C29_elements_pf : forall E c w r K S arg l m i j d e s t, set_iter_ok E -> filled c w r -> assembled E c K S arg l m ->
  nth_error l i = Some d -> nth_error l j = Some e ->
  describes (nsites c) (nholes c) (nbeta c) d s -> describes (nsites c) (nholes c) (nbeta c) e t ->
  csr_at m (Z.of_nat i) (Z.of_nat j) = tj_element (between (nsites c) (point w) r r) K S s t.
Proof. intros E c w r K S arg l m i j d e s t HE HF HA. eapply core; eassumption. Qed.

(** ** C30 *)
Lemma C30_symmetric_pf : forall E c w r K S arg l m i j, set_iter_ok E -> filled c w r -> assembled E c K S arg l m ->
  csr_at m i j = csr_at m j i.
Proof.
  intros E c w r K S arg l m i j HE HF HA. destruct (core _ _ _ _ _ _ _ _ _ HE HF HA) as (-> & D & R & M).
  revert i j. apply (csr_all c w r m (fun i j => csr_at m j i) HF D R).
  - intros i j N. apply (csr_zero c m D R). tauto.
  - intros i j d e Hd He. rewrite (M i j d e _ _ Hd He (dl_describes _ _ _ _ _ HF Hd) (dl_describes _ _ _ _ _ HF He)).
    rewrite (M j i e d _ _ He Hd (dl_describes _ _ _ _ _ HF He) (dl_describes _ _ _ _ _ HF Hd)).
    apply (tj_sym _ (nsites c)); [reflexivity | intros; reflexivity].
Qed.

(** ** C34 *)
Lemma C34_order_pf : forall E E' c w r K S arg arg' l l' m m', set_iter_ok E -> set_iter_ok E' -> filled c w r ->
  assembled E c K S arg l m -> assembled E' c K S arg' l' m' ->
  l = l' /\ csr_dim m = csr_dim m' /\ forall i j, csr_at m i j = csr_at m' i j.
Proof.
  intros E E' c w r K S arg arg' l l' m m' HE HE' HF HA HA'.
  destruct (core _ _ _ _ _ _ _ _ _ HE HF HA) as (-> & D & R & M). destruct (core _ _ _ _ _ _ _ _ _ HE' HF HA') as (-> & D' & R' & M').
  split; [reflexivity|]. split; [congruence|]. apply (csr_all c w r m _ HF D R).
  - apply (csr_zero c m' D' R').
  - intros i j d e Hd He. rewrite (M i j d e _ _ Hd He (dl_describes _ _ _ _ _ HF Hd) (dl_describes _ _ _ _ _ HF He)).
    symmetry. exact (M' i j d e _ _ Hd He (dl_describes _ _ _ _ _ HF Hd) (dl_describes _ _ _ _ _ HF He)).
Qed.

(** ** C35 *)
Lemma C35_additive_pf : forall E c w r K S arg l m mt mz mij mSD mtN mV, set_iter_ok E -> filled c w r ->
  assembled E c K S arg l m ->
  assembled E c K only_t arg l mt -> assembled E c K only_z arg l mz -> assembled E c K only_ij arg l mij ->
  assembled E c K only_SD arg l mSD -> assembled E c K only_tN arg l mtN -> assembled E c K only_V arg l mV ->
  forall i j, csr_at m i j =
    (only (s_bt S) (csr_at mt i j) + only (s_bz S) (csr_at mz i j) + only (s_bij S) (csr_at mij i j)
     + only (s_bSD S) (csr_at mSD i j) + only (s_btN S) (csr_at mtN i j) + only (s_bV S) (csr_at mV i j))%Qc.
Proof.
  intros E c w r K S arg l m mt mz mij mSD mtN mV HE HF HA H1 H2 H3 H4 H5 H6.
  destruct (core _ _ _ _ _ _ _ _ _ HE HF HA) as (-> & D & R & M).
  destruct (core _ _ _ _ _ _ _ _ _ HE HF H1) as (_ & D1 & R1 & M1).
  destruct (core _ _ _ _ _ _ _ _ _ HE HF H2) as (_ & D2 & R2 & M2).
  destruct (core _ _ _ _ _ _ _ _ _ HE HF H3) as (_ & D3 & R3 & M3).
  destruct (core _ _ _ _ _ _ _ _ _ HE HF H4) as (_ & D4 & R4 & M4).
  destruct (core _ _ _ _ _ _ _ _ _ HE HF H5) as (_ & D5 & R5 & M5).
  destruct (core _ _ _ _ _ _ _ _ _ HE HF H6) as (_ & D6 & R6 & M6).
  apply (csr_all c w r m _ HF D R).
  - intros i j N. rewrite (csr_zero c mt D1 R1), (csr_zero c mz D2 R2), (csr_zero c mij D3 R3), (csr_zero c mSD D4 R4),
      (csr_zero c mtN D5 R5), (csr_zero c mV D6 R6) by assumption.
    destruct (s_bt S), (s_bz S), (s_bij S), (s_bSD S), (s_btN S), (s_bV S); reflexivity.
  - intros i j d e Hd He. pose proof (dl_describes _ _ _ _ _ HF Hd) as Dd. pose proof (dl_describes _ _ _ _ _ HF He) as De.
    rewrite (M i j d e _ _ Hd He Dd De), (M1 i j d e _ _ Hd He Dd De), (M2 i j d e _ _ Hd He Dd De), (M3 i j d e _ _ Hd He Dd De),
      (M4 i j d e _ _ Hd He Dd De), (M5 i j d e _ _ Hd He Dd De), (M6 i j d e _ _ Hd He Dd De).
    unfold tj_element. cbn [s_bt s_bz s_bij s_bSD s_btN s_bV only_t only_z only_ij only_SD only_tN only_V only lat_size between].
    destruct (s_bt S), (s_bz S), (s_bij S), (s_bSD S), (s_btN S), (s_bV S); cbn [only]; ring.
Qed.

Lemma C35_all_off_pf : forall E c w r K arg l m, set_iter_ok E -> filled c w r ->
  assembled E c K (mkSwitches false false false false false false) arg l m ->
  csr_entries m = [] /\ csr_dim m = Z.of_nat (length l).
Proof.
  intros E c w r K arg l m HE HF HA. destruct (core _ _ _ _ _ _ _ _ _ HE HF HA) as (-> & D & _).
  split; [|exact D]. destruct HA as [_ HA]. unfold build_hamiltonian in HA. cbn [s_bt s_bz s_bij s_bSD s_btN s_bV bind] in HA.
  unfold coo_to_csr in HA. cbn [forallb] in HA. injection HA as <-. reflexivity.
Qed.

Lemma C35_linear_pf : forall E c w r a b K K' S arg l m1 m2 m, set_iter_ok E -> filled c w r ->
  assembled E c K S arg l m1 -> assembled E c K' S arg l m2 -> assembled E c (combine_couplings a b K K') S arg l m ->
  forall i j, csr_at m i j = (a * csr_at m1 i j + b * csr_at m2 i j)%Qc.
Proof.
  intros E c w r a b K K' S arg l m1 m2 m HE HF H1 H2 HA.
  destruct (core _ _ _ _ _ _ _ _ _ HE HF HA) as (-> & D & R & M).
  destruct (core _ _ _ _ _ _ _ _ _ HE HF H1) as (_ & D1 & R1 & M1).
  destruct (core _ _ _ _ _ _ _ _ _ HE HF H2) as (_ & D2 & R2 & M2).
  apply (csr_all c w r m _ HF D R).
  - intros i j N. rewrite (csr_zero c m1 D1 R1), (csr_zero c m2 D2 R2) by assumption. ring.
  - intros i j d e Hd He. pose proof (dl_describes _ _ _ _ _ HF Hd) as Dd. pose proof (dl_describes _ _ _ _ _ HF He) as De.
    rewrite (M i j d e _ _ Hd He Dd De), (M1 i j d e _ _ Hd He Dd De), (M2 i j d e _ _ Hd He Dd De). apply tj_linear.
Qed.

(** ** C31 *)
Lemma whole_from : forall n pos x, 0 <= x < n -> lat_from (between n pos (zrange 0 n) (zrange 0 n)) x = true.
Proof. intros n pos x Hx. apply between_ok. now apply in_zrange. Qed.
Lemma whole_to : forall n pos x, 0 <= x < n -> lat_to (between n pos (zrange 0 n) (zrange 0 n)) x = true.
Proof. intros n pos x Hx. apply between_ok. now apply in_zrange. Qed.

(** a motion of the lattice that keeps distances along both axes, possibly exchanging them *)
Definition keeps (q : Z * Z -> Z * Z) : Prop :=
  (forall p p', Z.abs (fst (q p) - fst (q p')) = Z.abs (fst p - fst p') /\ Z.abs (snd (q p) - snd (q p')) = Z.abs (snd p - snd p')) \/
  (forall p p', Z.abs (fst (q p) - fst (q p')) = Z.abs (snd p - snd p') /\ Z.abs (snd (q p) - snd (q p')) = Z.abs (fst p - fst p')).

Lemma moved_tj : forall n pos f g q K S s s' t t', site_bij n f g -> keeps q ->
  (forall x, 0 <= x < n -> pos (f x) = q (pos x)) ->
  (forall x, 0 <= x < n -> s' (f x) = s x) -> (forall x, 0 <= x < n -> t' (f x) = t x) ->
  let L := between n pos (zrange 0 n) (zrange 0 n) in tj_element L K S s' t' = tj_element L K S s t.
Proof.
  intros n pos f g q K S s s' t t' B Q P Hs Ht L.
  apply (rel_tj L L n f g (fun p => p)); try reflexivity; try assumption; unfold L; clear Hs Ht.
  - intros x y Hx Hy. unfold bonded. cbn [lat_pos between]. rewrite !P by assumption. unfold bondb.
    destruct Q as [Q|Q]; destruct (Q (pos x) (pos y)) as [-> ->]; [reflexivity|]. f_equal. apply Z.add_comm.
  - intros x y Hx Hy. cbn [lat_pos between]. rewrite !P by assumption. apply eq_true_iff_eq. unfold lineb2. rewrite !orb_true_iff, !Z.eqb_eq.
    destruct Q as [Q|Q]; destruct (Q (pos x) (pos y)); lia.
  - intros x y z Hx Hy Hz. cbn [lat_pos between]. rewrite !P by assumption. apply eq_true_iff_eq. unfold lineb3.
    rewrite !orb_true_iff, !andb_true_iff, !Z.eqb_eq.
    destruct Q as [Q|Q]; destruct (Q (pos x) (pos y)), (Q (pos y) (pos z)); lia.
  - intros x y Hx Hy. cbn [lat_pos between]. rewrite !P by assumption. apply eq_true_iff_eq. unfold diagb. rewrite !andb_true_iff, !Z.eqb_eq.
    destruct Q as [Q|Q]; destruct (Q (pos x) (pos y)); lia.
  - intros x Hx. rewrite !whole_from by (try assumption; now apply B). reflexivity.
  - intros x Hx. rewrite !whole_to by (try assumption; now apply B). reflexivity.
Qed.

Lemma keeps_turns : forall k w, keeps (turns k w).
Proof.
  induction k as [|k IH]; intros w.
  - left. intros p p'. cbn [turns]. auto.
  - destruct (IH w) as [H|H]; [right|left]; intros p p'; cbn [turns]; unfold quarter; cbn [fst snd]; destruct (H p p'); lia.
Qed.

Lemma keeps_half : forall w h, keeps (fun p => (w - 1 - fst p, h - 1 - snd p)).
Proof. intros w h. left. intros p p'. cbn [fst snd]. lia. Qed.

Lemma index_of_state : forall E c w r K S arg l m d s, set_iter_ok E -> filled c w r -> assembled E c K S arg l m ->
  describes (nsites c) (nholes c) (nbeta c) d s ->
  exists i d', get_index_in_basis c d = Ok (Z.of_nat i) /\ nth_error l i = Some d' /\ describes (nsites c) (nholes c) (nbeta c) d' s.
Proof.
  intros E c w r K S arg l m d s HE HF HA Hd. destruct (core _ _ _ _ _ _ _ _ _ HE HF HA) as (-> & D & R & M).
  destruct HF as (RM & HR & Hh & Hb & Ha). pose proof (describes_sector _ _ _ _ _ Hd) as Sec.
  exists (Z.to_nat (state_index (nsites c) (nholes c) (nbeta c) s)), (canon (nsites c) s).
  split; [|split].
  - rewrite (index_describes c d s Hd). f_equal. rewrite Z2Nat.id; [reflexivity|]. apply state_index_nonneg.
  - apply (dl_nth c (point w) (row_major_drawn c w RM) Hh Hb). exact Sec.
  - now apply canon_describes.
Qed.

(** matrix elements of moved determinants *)
Lemma moved_entries : forall E c w K S arg l m f g q (mv : list Z -> list Z), set_iter_ok E -> filled_whole c w -> assembled E c K S arg l m ->
  site_bij (nsites c) f g -> keeps q -> (forall x, 0 <= x < nsites c -> point w (f x) = q (point w x)) ->
  (forall d s, describes (nsites c) (nholes c) (nbeta c) d s ->
     exists s', describes (nsites c) (nholes c) (nbeta c) (mv d) s' /\ forall x, 0 <= x < nsites c -> s' (f x) = s x) ->
  forall i j d e, nth_error l i = Some d -> nth_error l j = Some e ->
  exists i' j', get_index_in_basis c (mv d) = Ok i' /\ get_index_in_basis c (mv e) = Ok j' /\
    csr_at m i' j' = csr_at m (Z.of_nat i) (Z.of_nat j).
Proof.
  intros E c w K S arg l m f g q mv HE HF HA B Q P MV i j d e Hd He.
  destruct (core _ _ _ _ _ _ _ _ _ HE HF HA) as (El & D & R & M).
  assert (Dd : describes (nsites c) (nholes c) (nbeta c) d (state_of c d)) by (eapply dl_describes; [exact HF|rewrite <- El; exact Hd]).
  assert (De : describes (nsites c) (nholes c) (nbeta c) e (state_of c e)) by (eapply dl_describes; [exact HF|rewrite <- El; exact He]).
  destruct (MV _ _ Dd) as (s' & Ds & Hs). destruct (MV _ _ De) as (t' & Dt & Ht).
  destruct (index_of_state _ _ _ _ _ _ _ _ _ _ _ HE HF HA Ds) as (i' & d' & I1 & I2 & I3).
  destruct (index_of_state _ _ _ _ _ _ _ _ _ _ _ HE HF HA Dt) as (j' & e' & J1 & J2 & J3).
  exists (Z.of_nat i'), (Z.of_nat j'). split; [assumption|]. split; [assumption|].
  rewrite (M i' j' d' e' _ _ I2 J2 I3 J3), (M i j d e _ _ Hd He Dd De).
  apply (moved_tj _ _ f g q); assumption.
Qed.

Lemma sized_row_major : forall c, sized c -> row_major c (nbh c * nblocs_side c).
Proof.
  intros c (H1 & H2 & H3 & H4 & H5 & H6). exists (nbh c), (nbv c), (nblocs_side c). repeat (split; [assumption|]). split; [ring|]. auto.
Qed.

Lemma sized_n : forall c, sized c -> nsites c = nbh c * nblocs_side c * (nbv c * nblocs_side c).
Proof. intros c (H1 & H2 & H3 & H4 & H5 & H6). rewrite (rect_n c _ _ _ H1 H2 H3 H4 H5). ring. Qed.

Lemma C31_rotations_pf : forall E c K S arg l m k i j d e, set_iter_ok E ->
  sized c -> nbh c = nbv c -> filled_whole c (nbh c * nblocs_side c) -> assembled E c K S arg l m ->
  nth_error l i = Some d -> nth_error l j = Some e ->
  exists i' j', get_index_in_basis c (rotate_determinant k c d) = Ok i' /\ get_index_in_basis c (rotate_determinant k c e) = Ok j' /\
    csr_at m i' j' = csr_at m (Z.of_nat i) (Z.of_nat j).
Proof.
  intros E c K S arg l m k i j d e HE HZ SQ HF HA Hd He.
  assert (Hc : square c).
  { pose proof (sized_n c HZ) as N. destruct HZ as (H1 & H2 & H3 & _). constructor; [assumption|lia|lia|]. rewrite N, Z.pow_2_r. ring. }
  pose proof (square_side c Hc) as W. pose proof (square_n c Hc) as NN.
  apply (moved_entries E c (side c) K S arg l m (rot (side c) k) (rot (side c) (- k)) (turns (Z.to_nat (k mod 4)) (side c)) (rotate_determinant k c) HE HF HA).
  - rewrite NN. now apply rot_bij.
  - apply keeps_turns.
  - rewrite NN. apply (on_sites (side c) W). intros a b Ha Hb. rewrite rot_site, (point_site (side c) W a b) by assumption.
    destruct (turns_bound (side c) (Z.to_nat (k mod 4)) a b Ha Hb). destruct (turns (Z.to_nat (k mod 4)) (side c) (a, b)) as [a' b'].
    now apply point_site.
  - intros d0 s0 D0. exists (fun x => s0 (rot (side c) (- k) x)). split; [now apply rotate_describes|].
    intros x Hx. f_equal. rewrite rot_add by lia. rewrite Z.add_opp_diag_l. apply rot_0.
  - assumption.
  - assumption.
Qed.

Lemma C31_half_turn_pf : forall E c K S arg l m k i j d e, set_iter_ok E ->
  sized c -> k mod 4 = 2 -> filled_whole c (nbh c * nblocs_side c) -> assembled E c K S arg l m ->
  nth_error l i = Some d -> nth_error l j = Some e ->
  exists i' j', get_index_in_basis c (rotate_determinant k c d) = Ok i' /\ get_index_in_basis c (rotate_determinant k c e) = Ok j' /\
    csr_at m i' j' = csr_at m (Z.of_nat i) (Z.of_nat j).
Proof.
  intros E c K S arg l m k i j d e HE HZ Kk HF HA Hd He. pose proof (sized_n c HZ) as N. pose proof HZ as (H1 & H2 & H3 & _).
  set (w := nbh c * nblocs_side c) in *. set (h := nbv c * nblocs_side c) in *.
  assert (Hw : 0 < w) by (unfold w; nia). assert (Hh : 0 < h) by (unfold h; nia).
  apply (moved_entries E c w K S arg l m (fun x => nsites c - 1 - x) (fun x => nsites c - 1 - x)
     (fun p => (w - 1 - fst p, h - 1 - snd p)) (rotate_determinant k c) HE HF HA).
  - intros x Hx. lia.
  - apply keeps_half.
  - intros x Hx. unfold point. cbn [fst snd]. rewrite N in *. clearbody w h. clear - Hx Hw Hh.
    assert (X : x = w * (x / w) + x mod w) by (apply Z.div_mod; lia). pose proof (Z.mod_pos_bound x w Hw).
    set (a := x mod w) in *. set (b := x / w) in *. f_equal.
    + symmetry. apply Z.mod_unique with (q := h - 1 - b); lia.
    + symmetry. apply Z.div_unique with (r := w - 1 - a); lia.
  - intros d0 s0 D0. exists (fun x => s0 (nsites c - 1 - x)).
    assert (Pn : 0 < nsites c) by (rewrite N; nia).
    assert (Nn : nsites c = nbh c * nbv c * nblocs_side c ^ 2) by (rewrite N, Z.pow_2_r; unfold w, h; ring).
    rewrite (half_describes k c d0 s0 Kk Pn Nn D0). split.
    + apply canon_describes. apply (bij_sector _ _ _ s0 (fun x => nsites c - 1 - x)); [|eapply describes_sector; exact D0]. intros x Hx. lia.
    + intros x Hx. f_equal. lia.
  - assumption.
  - assumption.
Qed.

(** ** C32 *)
Lemma C32_spin_reversal_pf : forall E c w K S arg l m, set_iter_ok E -> filled_whole c w -> 0 <= nalpha c -> assembled E c K S arg l m ->
  exists c' rev l' m', reverse_spins_basis E (mkBasis c l) = Ok (mkBasis c' rev) /\ assembled E c' K S arg l' m' /\
    Permutation rev l' /\ csr_dim m' = csr_dim m /\
    forall i j d e, nth_error rev i = Some d -> nth_error rev j = Some e ->
    exists i' j', get_index_in_basis c' d = Ok i' /\ get_index_in_basis c' e = Ok j' /\
      csr_at m' i' j' = csr_at m (Z.of_nat i) (Z.of_nat j).
Proof.
  intros E c w K S arg l m HE HF Hal HA. pose proof HF as (RM & HR & Hh & Hb & Ha). pose proof (row_major_drawn c w RM) as (P0 & P1 & _).
  destruct (core _ _ _ _ _ _ _ _ _ HE HF HA) as (El & D & R & M). pose proof HA as [HB _].
  assert (Pn : 0 < nsites c).
  { destruct RM as (h & v & ss & A1 & A2 & A3 & _ & HC & HN & _). rewrite (rect_n c h v ss A1 A2 A3 HC HN). nia. }
  assert (Hc : conf_ok c) by (constructor; assumption).
  destruct (C09_reverse_spins_basis_pf E c l HE P1 Pn Ha Hh Hb Hal HR HB) as (c' & rev & E1 & N1 & N2 & N3 & N4 & ND & LL & I1 & I2).
  assert (Ec : c' = flip_conf c).
  { unfold reverse_spins_basis in E1. cbn [determinants b_conf] in E1. destruct (py_get l 0) as [d0|] eqn:Q; [|discriminate]. cbn [bind] in E1.
    unfold reverse_spins in E1 at 1. rewrite (make_flip c _ _ Hc HR) in E1. cbn [bind] in E1.
    destruct (get_indexes_of E c d0 0 0); [|discriminate]. cbn [bind] in E1. destruct (get_indexes_of E c d0 1 0); [|discriminate]. cbn [bind] in E1.
    destruct (get_indexes_of E c d0 (-1) 0); [|discriminate]. cbn [bind] in E1.
    match type of E1 with bind ?x _ = _ => destruct x end; [|discriminate]. cbn [bind] in E1. congruence. }
  assert (HF' : filled_whole c' w).
  { subst c'. split; [|split; [assumption|]]; [exact RM|]. cbn [flip_conf nholes nbeta nalpha nsites]. lia. }
  destruct (built E c' w _ K S arg HE HF') as (es & B1 & B2 & _).
  set (m' := mkCsr (zlen (dl c')) es) in *. assert (HA' : assembled E c' K S arg (dl c') m') by (split; assumption).
  destruct (core _ _ _ _ _ _ _ _ _ HE HF' HA') as (_ & D' & R' & M').
  exists c', rev, (dl c'), m'. split; [assumption|]. split; [assumption|].
  assert (LN : length rev = length (dl c')).
  { rewrite LL, El. apply Nat2Z.inj. change (zlen (dl c) = zlen (dl c')). rewrite (dl_length c (point w) (row_major_drawn c w RM) Hh Hb Ha).
    destruct HF' as (RM' & HR' & Hh' & Hb' & Ha'). rewrite (dl_length c' (point w) (row_major_drawn c' w RM') Hh' Hb' Ha'). rewrite N1, N3, N4.
    unfold compute_dimension. rewrite Ha. 
    replace (nsites c - (nsites c - nholes c - nbeta c) - nbeta c) with (nholes c) by lia.
    replace (nsites c - nbeta c - (nsites c - nholes c - nbeta c)) with (nholes c) by lia.
    f_equal. rewrite comb_sym. f_equal. lia. }
  assert (DR : forall i d, nth_error rev i = Some d -> exists d0, nth_error l i = Some d0 /\
     describes (nsites c) (nholes c) (nbeta c) d0 (state_of c d0) /\ describes (nsites c') (nholes c') (nbeta c') d (flip_state (state_of c d0))).
  { intros i d Hd. assert (Hi : (i < length l)%nat) by (rewrite <- LL; apply nth_error_Some; congruence).
    destruct (nth_error l i) as [d0|] eqn:Q; [|apply nth_error_None in Q; lia]. exists d0. split; [reflexivity|].
    assert (Dd : describes (nsites c) (nholes c) (nbeta c) d0 (state_of c d0)) by (eapply dl_describes; [exact HF|rewrite <- El; exact Q]).
    split; [exact Dd|]. destruct (I1 i d0 _ Q Dd) as (d1 & Q1 & Q2). rewrite Hd in Q1. injection Q1 as <-. rewrite N1, N2, N3. exact Q2. }
  split; [|split].
  - apply NoDup_Permutation_bis; [assumption|lia|]. intros d Hd. apply In_nth_error in Hd. destruct Hd as (i & Hd).
    destruct (DR i d Hd) as (d0 & _ & _ & Dd).
    assert (rev = map (fun d => canon (nsites c) (flip_state (state_of c d))) l).
    { clear - E1 HE Hc HR El HF. unfold reverse_spins_basis in E1. cbn [determinants b_conf] in E1.
      destruct (py_get l 0) as [d0|]; [|discriminate]. cbn [bind] in E1. destruct (reverse_spins E c d0) as [[? ?]|]; [|discriminate]. cbn [bind] in E1.
      rewrite (mapM_ok _ _ _ (fun d => canon (nsites c) (flip_state (state_of c d)))) in E1.
      - cbn [bind] in E1. congruence.
      - intros d Hd. rewrite (reverse_spins_ok E c d (state_of c d) HE Hc HR); [reflexivity|].
        rewrite El in Hd. apply In_nth_error in Hd. destruct Hd as (k & Hd). eapply dl_describes; eassumption. }
    rewrite H in Hd. rewrite nth_error_map in Hd. destruct (nth_error l i) as [d1|] eqn:Q; [|discriminate]. cbn in Hd. injection Hd as <-.
    destruct HF' as (RM' & HR' & Hh' & Hb' & Ha'). eapply nth_error_In. rewrite <- N1. apply (dl_nth c' (point w) (row_major_drawn c' w RM') Hh' Hb').
    rewrite N1, N2, N3. apply flip_sector; [assumption|]. eapply describes_sector, dl_describes; [exact HF|rewrite <- El; exact Q].
  - rewrite D, D'. rewrite <- El. unfold zlen. rewrite <- LN, LL. reflexivity.
  - intros i j d e Hd He. destruct (DR i d Hd) as (d0 & Q1 & Q2 & Q3). destruct (DR j e He) as (e0 & Q4 & Q5 & Q6).
    destruct (index_of_state _ _ _ _ _ _ _ _ _ _ _ HE HF' HA' Q3) as (i' & d' & X1 & X2 & X3).
    destruct (index_of_state _ _ _ _ _ _ _ _ _ _ _ HE HF' HA' Q6) as (j' & e' & Y1 & Y2 & Y3).
    exists (Z.of_nat i'), (Z.of_nat j'). split; [assumption|]. split; [assumption|].
    rewrite (M' i' j' d' e' _ _ X2 Y2 X3 Y3), (M i j d0 e0 _ _ Q1 Q4 Q2 Q5). rewrite N1.
    apply tj_spin_flip. intros; reflexivity.
Qed.

(** ** C33 *)
Lemma sameb_comm : forall n s t, sameb n s t = sameb n t s.
Proof. intros n s t. apply eq_true_iff_eq. rewrite !sameb_iff. split; intros H x Hx; symmetry; now apply H. Qed.

Lemma sum_images : forall c w r u x, filled c w r -> in_sector (nsites c) (nholes c) (nbeta c) u ->
  qsum (fun d => only (sameb (nsites c) (state_of c d) u) x) (dl c) = x.
Proof.
  intros c w r u x HF Hu. pose proof HF as (RM & HR & Hh & Hb & Ha).
  pose proof (dl_nth c (point w) (row_major_drawn c w RM) Hh Hb u Hu) as N. 
  rewrite (qsum_single _ _ _ (canon (nsites c) u)).
  - assert (sameb (nsites c) (state_of c (canon (nsites c) u)) u = true) as ->; [|reflexivity].
    apply sameb_iff. apply (state_of_describes c _ u). now apply canon_describes.
  - apply dets_NoDup.
  - eapply nth_error_In, N.
  - intros d Hd Nd. destruct (sameb (nsites c) (state_of c d) u) eqn:Q; [|reflexivity]. exfalso. apply Nd.
    apply sameb_iff in Q. pose proof (in_dl c (point w) (row_major_drawn c w RM) Hh Hb d Hd) as D.
    rewrite <- (canon_same _ _ _ Q). symmetry. apply in_dets in Hd; [|eapply n_nonneg, row_major_drawn; eassumption].
    destruct Hd as (s & S & ->). apply canon_same. intros y Hy. 
    rewrite !Z2Nat.id in S by assumption.
    apply (state_of_describes c _ s); [now apply canon_describes | assumption].
Qed.

Lemma C33_row_sums_pf : forall E c w r K arg l m i, set_iter_ok E -> filled c w r ->
  assembled E c K (mkSwitches false true true false false false) arg l m -> 0 <= i < csr_dim m ->
  sum_sites (csr_dim m) (fun j => csr_at m i j) = 0%Qc.
Proof.
  intros E c w r K arg l m i HE HF HA Hi. pose proof HF as (RM & HR & Hh & Hb & Ha).
  destruct (core _ _ _ _ _ _ _ _ _ HE HF HA) as (-> & D & R & M). rewrite D in *.
  destruct (pick _ (dl c) i Hi) as (d & Hd). pose proof (dl_describes _ _ _ _ _ HF Hd) as Dd.
  set (L := between (nsites c) (point w) r r) in *. set (s := state_of c d) in *.
  transitivity (qsum (fun e => tj_element L K (mkSwitches false true true false false false) s (state_of c e)) (dl c)).
  { unfold sum_sites, sites, zlen. rewrite Nat2Z.id. 
    assert (G : forall (f : Z -> Qc) (g : list Z -> Qc) l0 k, (forall j e, nth_error l0 j = Some e -> f (Z.of_nat (k + j)) = g e) ->
      qsum f (map Z.of_nat (seq k (length l0))) = qsum g l0).
    { intros f g l0. induction l0 as [|e l0 IH]; intros k H; cbn [length seq map]; [reflexivity|]. rewrite !qsum_cons. f_equal.
      - rewrite <- (Nat.add_0_r k). now apply H.
      - apply IH. intros j e0 Hj. rewrite <- (H (Datatypes.S j) e0 Hj). do 2 f_equal. lia. }
    apply G. intros j e He. cbn [Nat.add]. rewrite <- (Z2Nat.id i) by lia.
    apply (M _ _ d e); try assumption. eapply dl_describes; eassumption. }
  unfold tj_element. cbn [s_bt s_bz s_bij s_bSD s_btN s_bV only].
  rewrite (qsum_ext _ _ (fun e => only (sameb (nsites c) (state_of c e) s) (op_static L K s) + op_flip L K s (state_of c e))%Qc).
  2:{ intros e _. cbn [lat_size L between]. rewrite (sameb_comm _ s). ring. }
  rewrite qsum_add, (sum_images c w r s _ HF) by (eapply describes_sector; exact Dd).
  assert (F : qsum (fun e => op_flip L K s (state_of c e)) (dl c) =
     sum_sites (nsites c) (fun a => sum_sites (nsites c) (fun b => only (spin_bond L s a b) (half * exchange K (bond_doping L s a b))%Qc))).
  { unfold op_flip, sum_sites. rewrite qsum_exchange. apply qsum_ext. intros a Ia. rewrite qsum_exchange. apply qsum_ext. intros b Ib.
    apply in_sites in Ia, Ib. cbn [lat_size L between]. destruct (spin_bond L s a b); cbn [andb only].
    - apply (sum_images c w r _ _ HF). eapply describes_sector. apply (swap_describes _ _ _ d); eassumption.
    - apply qsum_zero. reflexivity. }
  rewrite F. unfold op_static. rewrite <- sum_sites_add. cbn [lat_size L between].
  apply qsum_zero. intros a _. rewrite <- sum_sites_add. apply qsum_zero. intros b _. destruct (spin_bond L s a b); cbn [only]; ring.
Qed.
