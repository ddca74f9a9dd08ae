(** Final lemmas for C97: motions of the lattice. *)
From Coq Require Import ZArith List Bool QArith Qcanon Lia Permutation.
From Verif Require Import PyBase PyFacts Runtimes Lattice Base Interact Ham Spin Spec SpecOps SpecTJ SpecSpin SpinDefs Geometry HamSpec SignDefs MotionDefs.
From Verif Require Import PSpin PQc PBasis PSites PRot PHam POps FGeo FSites FInter FHam PDavIter FDav FProj FSpinVal PSign FSign PSinglet FSinglet FFerro FTop Examples.
Import ListNotations.
Open Scope Z_scope.

Lemma NoDup_map_inj' : forall A B (f : A -> B) l, (forall x y, In x l -> In y l -> f x = f y -> x = y) -> NoDup l -> NoDup (map f l).
Proof.
  intros A B f l I ND. induction ND as [|x l NI ND IH]; [constructor|]. cbn [map]. constructor.
  - intros Q. apply in_map_iff in Q. destruct Q as (y & Fy & Iy). apply NI. rewrite (I x y); [assumption | now left | now right | now symmetry].
  - apply IH. intros y z Iy Iz. apply I; now right.
Qed.
Lemma point_inj : forall w x y, point w x = point w y -> x = y.
Proof.
  intros w x y H. injection H as H1 H2. destruct (Z.eq_dec w 0) as [->|N]; [now rewrite !Zmod_0_r in H1|]. rewrite (Z.div_mod x w N), (Z.div_mod y w N). congruence.
Qed.

Lemma motion_inj : forall n w f x y, motion n (point w) f -> 0 <= x < n -> 0 <= y < n -> f x = f y -> x = y.
Proof.
  intros n w f x y [_ M] Hx Hy Q. apply (point_inj w). rewrite (surjective_pairing (point w x)), (surjective_pairing (point w y)).
  destruct M as [M|M]; destruct (M x y Hx Hy) as [A B]; rewrite Q in A, B; f_equal; lia.
Qed.

(** the inverse *)
Definition back (n : Z) (f : Z -> Z) (y : Z) : Z := match find (fun x => f x =? y) (zrange 0 n) with Some x => x | None => 0 end.
Lemma motion_bij : forall n w f, motion n (point w) f -> site_bij n f (back n f).
Proof.
  intros n w f M. pose proof (motion_inj n w f) as I. pose proof (proj1 M) as R.
  assert (P : Permutation (map f (zrange 0 n)) (zrange 0 n)).
  { apply NoDup_Permutation_bis.
    - apply NoDup_map_inj'; [|apply zrange_NoDup]. intros x y Hx Hy. apply in_zrange in Hx, Hy. now apply I.
    - now rewrite map_length.
    - intros y Hy. apply in_map_iff in Hy. destruct Hy as (x & <- & Hx). apply in_zrange. apply in_zrange in Hx. now apply R. }
  assert (K : forall y, 0 <= y < n -> 0 <= back n f y < n /\ f (back n f y) = y).
  { intros y Hy. unfold back. destruct (find _ _) as [x|] eqn:Q.
    - apply find_some in Q. destruct Q as [Q1 Q2]. apply in_zrange in Q1. apply Z.eqb_eq in Q2. auto.
    - exfalso. apply in_zrange in Hy. apply (Permutation_in _ (Permutation_sym P)) in Hy. apply in_map_iff in Hy. destruct Hy as (x & Fx & Hx).
      pose proof (find_none _ _ Q x Hx) as N. cbn in N. apply Z.eqb_neq in N. contradiction. }
  intros x Hx. destruct (K x Hx) as [K1 K2]. split; [now apply R|]. split; [assumption|]. split; [|assumption].
  destruct (K (f x) (R x Hx)) as [K3 K4]. now apply (I _ _ M).
Qed.

Lemma motion_tj : forall n w f K S s s' t t', motion n (point w) f -> carried n f s s' -> carried n f t t' ->
  let L := between n (point w) (zrange 0 n) (zrange 0 n) in tj_element L K S s' t' = tj_element L K S s t.
Proof.
  intros n w f K S s s' t t' M Hs Ht L. pose proof (motion_bij n w f M) as B. destruct M as [R Q].
  apply (rel_tj L L n f (back n f) (fun p => p)); try reflexivity; try assumption; unfold L; clear Hs Ht.
  - intros x y Hx Hy. unfold bonded. cbn [lat_pos between]. unfold bondb.
    destruct Q as [Q|Q]; destruct (Q x y Hx Hy) as [-> ->]; [reflexivity|]. f_equal. apply Z.add_comm.
  - intros x y Hx Hy. cbn [lat_pos between]. apply eq_true_iff_eq. unfold lineb2. rewrite !orb_true_iff, !Z.eqb_eq.
    destruct Q as [Q|Q]; destruct (Q x y Hx Hy); lia.
  - intros x y z Hx Hy Hz. cbn [lat_pos between]. apply eq_true_iff_eq. unfold lineb3.
    rewrite !orb_true_iff, !andb_true_iff, !Z.eqb_eq.
    destruct Q as [Q|Q]; destruct (Q x y Hx Hy), (Q y z Hy Hz); lia.
  - intros x y Hx Hy. cbn [lat_pos between]. apply eq_true_iff_eq. unfold diagb. rewrite !andb_true_iff, !Z.eqb_eq.
    destruct Q as [Q|Q]; destruct (Q x y Hx Hy); lia.
  - intros x Hx. rewrite !whole_from by (try assumption; now apply R). reflexivity.
  - intros x Hx. rewrite !whole_to by (try assumption; now apply R). reflexivity.
Qed.

Lemma C97_elements_pf : forall E c w K S arg l m f i j i' j' d e d' e' s t s' t', set_iter_ok E -> filled_whole c w -> assembled E c K S arg l m ->
  motion (nsites c) (point w) f ->
  nth_error l i = Some d -> nth_error l j = Some e -> nth_error l i' = Some d' -> nth_error l j' = Some e' ->
  describes (nsites c) (nholes c) (nbeta c) d s -> describes (nsites c) (nholes c) (nbeta c) e t ->
  describes (nsites c) (nholes c) (nbeta c) d' s' -> describes (nsites c) (nholes c) (nbeta c) e' t' ->
  carried (nsites c) f s s' -> carried (nsites c) f t t' ->
  csr_at m (Z.of_nat i') (Z.of_nat j') = csr_at m (Z.of_nat i) (Z.of_nat j).
Proof.
  intros E c w K S arg l m f i j i' j' d e d' e' s t s' t' HE HF HA M Hi Hj Hi' Hj' Ds Dt Ds' Dt' Cs Ct.
  rewrite (C29_elements_pf E c w _ K S arg l m i' j' d' e' s' t' HE HF HA Hi' Hj' Ds' Dt').
  rewrite (C29_elements_pf E c w _ K S arg l m i j d e s t HE HF HA Hi Hj Ds Dt). now apply (motion_tj _ w f).
Qed.

(** the determinant which is carried to the [k]-th *)
Lemma before : forall E c w K S arg l m f, set_iter_ok E -> filled_whole c w -> assembled E c K S arg l m -> motion (nsites c) (point w) f ->
  exists tau : nat -> nat,
    (forall k d', nth_error l k = Some d' -> exists d, nth_error l (tau k) = Some d /\ carried (nsites c) f (state_of c d) (state_of c d')) /\
    (forall k i d d' s s', nth_error l k = Some d' -> nth_error l i = Some d -> describes (nsites c) (nholes c) (nbeta c) d s ->
       describes (nsites c) (nholes c) (nbeta c) d' s' -> carried (nsites c) f s s' -> tau k = i) /\
    Permutation (map tau (seq 0 (length l))) (seq 0 (length l)).
Proof.
  intros E c w K S arg l m f HE HF HA M. destruct (core _ _ _ _ _ _ _ _ _ HE HF HA) as (El & _). pose proof HF as (RM & HR & Hh & Hb & Ha).
  pose proof (motion_bij _ _ _ M) as B.
  assert (B' : site_bij (nsites c) (back (nsites c) f) f) by (intros x Hx; destruct (B x Hx) as (? & ? & ? & ?); auto).
  set (mv := fun s : occupation => fun x => s (f x)).
  assert (SM : forall s, in_sector (nsites c) (nholes c) (nbeta c) s -> in_sector (nsites c) (nholes c) (nbeta c) (mv s)) by (intros s; apply (bij_sector _ _ _ s (back (nsites c) f) f B')).
  exists (fun k => Z.to_nat (state_index (nsites c) (nholes c) (nbeta c) (mv (state_of c (nth k l []))))).
  assert (A1 : forall k d', nth_error l k = Some d' -> exists d, nth_error l (Z.to_nat (state_index (nsites c) (nholes c) (nbeta c) (mv (state_of c (nth k l []))))) = Some d /\
    describes (nsites c) (nholes c) (nbeta c) d (mv (state_of c d'))).
  { intros k d' Hk. rewrite (nth_error_nth _ _ _ Hk). rewrite El in *. pose proof (dl_describes _ _ _ _ _ HF Hk) as D.
    exists (canon (nsites c) (mv (state_of c d'))). pose proof (SM _ (describes_sector _ _ _ _ _ D)) as Q. split; [now apply (dl_nth c (point w) (row_major_drawn c w RM) Hh Hb) | now apply canon_describes]. }
  assert (A2 : forall k i d d' s s', nth_error l k = Some d' -> nth_error l i = Some d -> describes (nsites c) (nholes c) (nbeta c) d s ->
       describes (nsites c) (nholes c) (nbeta c) d' s' -> carried (nsites c) f s s' -> Z.to_nat (state_index (nsites c) (nholes c) (nbeta c) (mv (state_of c (nth k l [])))) = i).
  { intros k i d d' s s' Hk Hi Ds Ds' C. destruct (A1 k d' Hk) as (d0 & H0 & D0). rewrite El in H0, Hi, Hk.
    rewrite El. apply (dl_distinct c w _ _ _ d0 d _ s HF H0 Hi D0 Ds). intros x Hx. unfold mv.
    rewrite (describes_unique _ _ _ _ _ _ (dl_describes _ _ _ _ _ HF Hk) Ds') by (now apply B). now apply C. }
  split; [|split; [exact A2|]].
  - intros k d' Hk. destruct (A1 k d' Hk) as (d & Hd & D). exists d. split; [assumption|]. intros x Hx. rewrite El in Hd.
    rewrite (describes_unique _ _ _ _ _ _ (dl_describes _ _ _ _ _ HF Hd) D x) by assumption. reflexivity.
  - apply NoDup_Permutation_bis.
    + apply NoDup_map_inj'; [|apply seq_NoDup]. intros a b Ia Ib Q. apply in_seq in Ia, Ib.
      destruct (nth_error l a) as [da|] eqn:Qa; [|apply nth_error_None in Qa; lia]. destruct (nth_error l b) as [db|] eqn:Qb; [|apply nth_error_None in Qb; lia].
      destruct (A1 a da Qa) as (d0 & H0 & D0). destruct (A1 b db Qb) as (d1 & H1 & D1). rewrite Q in H0. rewrite H0 in H1. injection H1 as <-.
      rewrite El in Qa, Qb. apply (dl_distinct c w _ a b da db _ _ HF Qa Qb (dl_describes _ _ _ _ _ HF Qa) (dl_describes _ _ _ _ _ HF Qb)).
      intros x Hx. destruct (B x Hx) as (_ & Gx & _ & FG). rewrite <- FG. exact (describes_unique _ _ _ _ _ _ D0 D1 _ Gx).
    + now rewrite map_length.
    + intros y Hy. apply in_map_iff in Hy. destruct Hy as (k & <- & Ik). apply in_seq in Ik. apply in_seq.
      destruct (nth_error l k) as [d'|] eqn:Q; [|apply nth_error_None in Q; lia]. destruct (A1 k d' Q) as (d & Hd & _).
      assert (HB : nth_error l (Z.to_nat (state_index (nsites c) (nholes c) (nbeta c) (mv (state_of c (nth k l []))))) <> None) by congruence. apply nth_error_Some in HB. lia.
Qed.

Lemma C97_states_pf : forall E c w K S arg l m f e v, set_iter_ok E -> filled_whole c w -> assembled E c K S arg l m ->
  motion (nsites c) (point w) f -> eigenvector m e v ->
  exists v', moved c l f v v' /\ eigenvector m e v' /\ inner v' v' = inner v v.
Proof.
  intros E c w K S arg l m f e v HE HF HA M (Lv & Ev & Nv). destruct (before E c w K S arg l m f HE HF HA M) as (tau & T1 & T2 & T3).
  destruct (core _ _ _ _ _ _ _ _ _ HE HF HA) as (El & Dm & _). assert (LL : length v = length l) by (rewrite Dm, <- El in Lv; unfold zlen in Lv; lia).
  set (v' := map (fun k => nth (tau k) v 0%Qc) (seq 0 (length l))). assert (LV : length v' = length l) by (unfold v'; now rewrite map_length, seq_length).
  assert (NV : forall k, (k < length l)%nat -> nth k v' 0%Qc = nth (tau k) v 0%Qc) by (intros k Hk; unfold v'; now rewrite nth_map_seq).
  assert (ZV : zlen v' = csr_dim m) by (rewrite Dm, <- El; unfold zlen; now rewrite LV).
  assert (TB : forall k, (k < length l)%nat -> (tau k < length l)%nat).
  { intros k Hk. destruct (nth_error l k) as [d'|] eqn:Q; [|apply nth_error_None in Q; lia]. destruct (T1 k d' Q) as (d & Hd & _). apply nth_error_Some. congruence. }
  exists v'. split; [|split; [split; [exact ZV|split]|]].
  - split; [assumption|]. split; [assumption|]. intros i i' d d' s s' Hi Hi' Ds Ds' C. rewrite NV by (apply nth_error_Some; congruence). now rewrite (T2 i' i d d' s s').
  - apply eigen_stationary; [exact ZV|]. intros i Hi. rewrite LV in *. rewrite NV by assumption.
    rewrite <- (proj1 (eigen_stationary m e v Lv) Ev (tau i)) by (rewrite LL; now apply TB). rewrite LL.
    rewrite <- (qsum_perm _ (fun j => csr_at m (Z.of_nat (tau i)) (Z.of_nat j) * nth j v 0)%Qc _ _ T3), qsum_map. apply qsum_ext. intros j Hj. apply in_seq in Hj.
    rewrite NV by lia. f_equal. destruct (nth_error l i) as [d|] eqn:Qi; [|apply nth_error_None in Qi; lia]. destruct (nth_error l j) as [d'|] eqn:Qj; [|apply nth_error_None in Qj; lia].
    destruct (T1 i d Qi) as (d0 & Q0 & C0). destruct (T1 j d' Qj) as (d1 & Q1 & C1).
    pose proof Qi as Qi'. pose proof Qj as Qj'. pose proof Q0 as Q0'. pose proof Q1 as Q1'. rewrite El in Qi', Qj', Q0', Q1'.
    apply (C97_elements_pf E c w K S arg l m f (tau i) (tau j) i j d0 d1 d d' (state_of c d0) (state_of c d1) (state_of c d) (state_of c d') HE HF HA M);
      try assumption; eapply dl_describes; eassumption.
  - destruct Nv as (x & Ix & Nx). apply (In_nth _ _ 0%Qc) in Ix. destruct Ix as (k & Hk & <-).
    assert (Ik : In k (map tau (seq 0 (length l)))) by (apply (Permutation_in _ (Permutation_sym T3)); apply in_seq; lia). apply in_map_iff in Ik. destruct Ik as (j & Tj & Ij). apply in_seq in Ij.
    exists (nth j v' 0%Qc). split; [apply nth_In; lia|]. rewrite NV by lia. now rewrite Tj.
  - unfold inner. rewrite LV, LL. rewrite <- (qsum_perm _ (fun k => nth k v 0 * nth k v 0)%Qc _ _ T3), qsum_map. apply qsum_ext. intros k Hk. apply in_seq in Hk. now rewrite !NV by lia.
Qed.

(** ** the mirrors *)
Lemma point_of : forall w a b, 0 <= a < w -> point w (w * b + a) = (a, b).
Proof.
  intros w a b H. unfold point. f_equal; [symmetry; apply (Z.mod_unique_pos _ _ b); lia | symmetry; apply (Z.div_unique_pos _ _ _ a); lia].
Qed.
Lemma point_bound : forall w h x, 0 < w -> 0 <= x < w * h -> 0 <= x mod w < w /\ 0 <= x / w < h.
Proof.
  intros w h x Hw Hx. split; [apply Z.mod_pos_bound; lia|]. split; [apply Z.div_pos; lia | apply Z.div_lt_upper_bound; lia].
Qed.

Lemma C97_mirrors_pf : forall w h, 0 < w -> 0 < h ->
  motion (w * h) (point w) (mirror_across w) /\ motion (w * h) (point w) (mirror_down w h) /\ motion (w * w) (point w) (transpose_site w) /\
  (forall x, 0 <= x < w * h -> point w (mirror_across w x) = (w - 1 - fst (point w x), snd (point w x)) /\
    point w (mirror_down w h x) = (fst (point w x), h - 1 - snd (point w x))) /\
  (forall x, 0 <= x < w * w -> point w (transpose_site w x) = (snd (point w x), fst (point w x))) /\
  black (point w (mirror_across w 0)) = Z.even w /\ black (point w (mirror_down w h 0)) = Z.even h /\ black (point w (transpose_site w 0)) = false.
Proof.
  intros w h Hw Hh.
  assert (A : forall x, 0 <= x < w * h -> point w (mirror_across w x) = (w - 1 - x mod w, x / w)).
  { intros x Hx. destruct (point_bound w h x Hw Hx). unfold mirror_across. apply point_of. lia. }
  assert (B : forall x, 0 <= x < w * h -> point w (mirror_down w h x) = (x mod w, h - 1 - x / w)).
  { intros x Hx. destruct (point_bound w h x Hw Hx). unfold mirror_down. apply point_of. lia. }
  assert (C : forall x, 0 <= x < w * w -> point w (transpose_site w x) = (x / w, x mod w)).
  { intros x Hx. destruct (point_bound w w x Hw Hx). unfold transpose_site. apply point_of. lia. }
  split; [|split; [|split; [|split; [|split]]]].
  - split.
    + intros x Hx. destruct (point_bound w h x Hw Hx). unfold mirror_across. nia.
    + left. intros x y Hx Hy. rewrite !A by assumption. unfold point. cbn [fst snd]. lia.
  - split.
    + intros x Hx. destruct (point_bound w h x Hw Hx). unfold mirror_down. nia.
    + left. intros x y Hx Hy. rewrite !B by assumption. unfold point. cbn [fst snd]. lia.
  - split.
    + intros x Hx. destruct (point_bound w w x Hw Hx). unfold transpose_site. nia.
    + right. intros x y Hx Hy. rewrite !C by assumption. unfold point. cbn [fst snd]. lia.
  - intros x Hx. rewrite A, B by assumption. split; reflexivity.
  - intros x Hx. now rewrite C.
  - rewrite A, B, C by nia. unfold black. rewrite Zmod_0_l, Zdiv_0_l. cbn [fst snd]. rewrite <- (Z.succ_pred w) at 2. rewrite <- (Z.succ_pred h) at 2. rewrite !Z.even_succ.
    split; [f_equal; lia|]. split; [f_equal; lia | reflexivity].
Qed.

(** ** signs after a motion *)
Lemma sign_moved : forall n f g F, site_bij n f g -> sign_of n (fun x => F (f x)) = sign_of n F.
Proof.
  intros n f g F B. unfold sign_of. assert (P : Permutation (map f (sites n)) (sites n)).
  { apply NoDup_Permutation_bis.
    - apply NoDup_map_inj'; [|apply sites_NoDup]. intros x y Hx Hy Q. apply in_sites in Hx, Hy. destruct (B x Hx) as (_ & _ & X & _), (B y Hy) as (_ & _ & Y & _). congruence.
    - now rewrite map_length.
    - intros y Hy. apply in_map_iff in Hy. destruct Hy as (x & <- & Hx). apply in_sites. apply in_sites in Hx. now apply B. }
  assert (G : forall l, fold_right (fun x a => if F (f x) then (- a)%Qc else a) 1%Qc l = fold_right (fun x a => if F x then (- a)%Qc else a) 1%Qc (map f l)).
  { induction l as [|x l IH]; [reflexivity|]. cbn [map fold_right]. now rewrite IH. }
  rewrite G. clear G. revert P. generalize (map f (sites n)) (sites n). intros l0 l1 P. induction P as [|x l l' P IH|x y l|l1 l2 l3 P1 IH1 P2 IH2]; cbn [fold_right]; [reflexivity|now rewrite IH| |now rewrite IH1].
  destruct (F x), (F y); reflexivity.
Qed.

Lemma sign_count : forall n F, 0 <= n -> sign_of n F = minus (Z.odd (zlen (filter F (zrange 0 n)))).
Proof.
  intros n F Hn. rewrite <- sites_zrange. unfold sign_of. induction (sites n) as [|x l IH]; [reflexivity|]. cbn [fold_right filter]. destruct (F x); [|exact IH].
  rewrite IH. unfold zlen. cbn [length]. rewrite Nat2Z.inj_succ, Z.odd_succ, <- Z.negb_odd. destruct (Z.odd _); cbn; ring.
Qed.

Lemma motion_black : forall n w f x, motion n (point w) f -> 0 <= x < n -> black (point w (f x)) = xorb (black (point w x)) (black (point w (f 0))).
Proof.
  intros n w f x [R Q] Hx. assert (H0 : 0 <= 0 < n) by lia.
  assert (Z0 : point w 0 = (0, 0)) by (unfold point; now rewrite Zmod_0_l, Zdiv_0_l).
  assert (O : forall a b c d : Z, Z.abs (a - b) = Z.abs c -> Z.odd (a + d) = Z.odd (b + c + d)).
  { intros a b c d E. destruct (Z.abs_eq_or_opp (a - b)) as [E1|E1]; destruct (Z.abs_eq_or_opp c) as [E2|E2].
    - replace a with (b + c) by lia. reflexivity.
    - replace a with (b - c) by lia. replace (b - c + d) with (b + c + d + 2 * (- c)) by lia. apply Z.odd_add_mul_2.
    - replace a with (b - c) by lia. replace (b - c + d) with (b + c + d + 2 * (- c)) by lia. apply Z.odd_add_mul_2.
    - replace a with (b + c) by lia. reflexivity. }
  unfold black. rewrite <- Z.odd_add. destruct Q as [Q|Q]; destruct (Q x 0 Hx H0) as [A B]; rewrite Z0 in A, B; cbn [fst snd] in A, B; rewrite !Z.sub_0_r in A, B.
  - rewrite (O _ _ _ _ A). rewrite Z.add_comm. rewrite (O _ _ _ _ B). f_equal. ring.
  - rewrite (O _ _ _ _ A). rewrite Z.add_comm. rewrite (O _ _ _ _ B). f_equal. ring.
Qed.

Lemma sign_carried : forall n w f (p : particle) s s' (q : particle -> bool), 0 <= n -> motion n (point w) f -> carried n f s s' -> (forall x, q x = true <-> x = p) ->
  sign_of n (fun x => q (s' x) && black (point w x)) =
  (minus (Z.odd (zlen (sites_of n s p)) && black (point w (f 0%Z))) * sign_of n (fun x => q (s x) && black (point w x)))%Qc.
Proof.
  intros n w f p s s' q Hn M C Q. pose proof (motion_bij _ _ _ M) as B.
  rewrite <- (sign_moved n f (back n f) (fun x => q (s' x) && black (point w x)) B).
  rewrite (sign_ext n _ (fun x => xorb (q (s x) && black (point w (f 0))) (q (s x) && black (point w x)))).
  2:{ intros x Hx. rewrite (C x Hx), (motion_black n w f x M Hx). destruct (q (s x)), (black (point w x)), (black (point w (f 0))); reflexivity. }
  rewrite <- sign_mul. f_equal. destruct (black (point w (f 0))).
  - rewrite (sign_ext n _ (fun x => q (s x))) by (intros; apply andb_true_r). rewrite andb_true_r, sign_count by assumption. do 3 f_equal. unfold sites_of. apply filter_ext_in'. intros x _.
    apply eq_true_iff_eq. rewrite Q. symmetry. destruct (is_p (s x) p) eqn:I; [apply is_p_eq in I | apply is_p_neq in I]; split; congruence.
  - rewrite andb_false_r. rewrite (sign_ext n _ (fun _ => false)) by (intros; apply andb_false_r). apply sign_none.
Qed.

(** ** C97: parity of the only lowest state *)
Lemma parity_of : forall E c w K S arg l m f e v (F : occupation -> Qc) (b : bool), set_iter_ok E -> filled_whole c w -> assembled E c K S arg l m ->
  motion (nsites c) (point w) f -> eigenvector m e v ->
  (follows c l F v \/ follows c l F (map (fun x => - x)%Qc v)) -> (forall v', eigenvector m e v' -> exists x, v' = map (fun y => (x * y)%Qc) v) ->
  (forall s s', in_sector (nsites c) (nholes c) (nbeta c) s -> carried (nsites c) f s s' -> F s' = (minus b * F s)%Qc) ->
  moved c l f v (map (fun x => if b then (- x)%Qc else x) v).
Proof.
  intros E c w K S arg l m f e v F b HE HF HA M EV SG UN FS.
  destruct (C97_states_pf E c w K S arg l m f e v HE HF HA M EV) as (v' & MV & EV' & IN). destruct (UN v' EV') as (x & ->).
  destruct MV as (L1 & L2 & MV). pose proof EV as (Lv & Ev & y & Iy & Ny).
  assert (X2 : (x * x = 1)%Qc).
  { assert (I2 : inner (map (fun y => (x * y)%Qc) v) (map (fun y => (x * y)%Qc) v) = (x * x * inner v v)%Qc).
    { unfold inner. rewrite map_length, <- qsum_scale. apply qsum_ext. intros k _. replace (nth k (map (fun y => (x * y)%Qc) v) 0%Qc) with (x * nth k v 0)%Qc; [ring|].
      replace 0%Qc with (x * 0)%Qc at 2 by ring. symmetry. apply (map_nth (fun y => (x * y)%Qc)). }
    rewrite I2 in IN. assert (NZ : inner v v <> 0%Qc) by (intros Q; apply Ny; exact (proj1 (inner_zero v) Q y Iy)).
    assert (Q : ((x * x - 1) * inner v v)%Qc = 0%Qc) by (transitivity (x * x * inner v v - inner v v)%Qc; [ring | rewrite IN; ring]).
    apply Qcmult_integral in Q. destruct Q as [Q|Q]; [|contradiction]. transitivity (x * x - 1 + 1)%Qc; [ring | rewrite Q; ring]. }
  assert (NM : forall g k, g 0%Qc = 0%Qc -> nth k (map g v) 0%Qc = g (nth k v 0%Qc)) by (intros g k G0; rewrite <- G0 at 1; apply map_nth).
  split; [assumption|]. split; [now rewrite map_length|]. intros i i' d d' s s' Hi Hi' Ds Ds' C.
  pose proof (MV i i' d d' s s' Hi Hi' Ds Ds' C) as Q. rewrite (NM (fun y => (x * y)%Qc)) in Q by ring.
  rewrite (NM (fun y => if b then (- y)%Qc else y)) by (destruct b; ring).
  pose proof (FS s s' (describes_sector _ _ _ _ _ Ds) C) as FC.
  assert (G : (0 < x * minus b)%Qc).
  { assert (P : forall z z', (0 < F s * z)%Qc -> (0 < F s' * z')%Qc -> (x * z' = z)%Qc -> (0 < x * minus b)%Qc).
    { intros z z' P1 P2 <-. rewrite FC in P2. destruct (Qclt_le_dec 0 (x * minus b)) as [|N]; [assumption|]. exfalso.
      assert (T : (F s * (x * z') = (x * minus b) * (minus b * F s * z'))%Qc) by (transitivity ((minus b * minus b) * (F s * (x * z')))%Qc; [rewrite minus_twice; ring | ring]).
      rewrite T in P1. apply (Qclt_not_le _ _ P1). rewrite <- (Qcmult_0_l (minus b * F s * z')%Qc). apply Qcmult_le_compat_r; [assumption | now apply Qclt_le_weak]. }
    destruct SG as [SG|SG].
    - apply (P (nth i v 0%Qc) (nth i' v 0%Qc)); [exact (SG i d s Hi Ds) | exact (SG i' d' s' Hi' Ds') | exact Q].
    - apply (P (- nth i v 0)%Qc (- nth i' v 0)%Qc); [| |rewrite <- Q; ring].
      + pose proof (SG i d s Hi Ds) as T. rewrite (NM (fun x => - x)%Qc) in T by ring. exact T.
      + pose proof (SG i' d' s' Hi' Ds') as T. rewrite (NM (fun x => - x)%Qc) in T by ring. exact T. }
  assert (XB : x = minus b).
  { set (u := (x * minus b)%Qc) in *. assert (U2 : (u * u = 1)%Qc) by (unfold u; transitivity ((x * x) * (minus b * minus b))%Qc; [ring | rewrite X2, minus_twice; ring]).
    assert (U1 : u = 1%Qc).
    { assert (Z0 : ((u - 1) * (u + 1) = 0)%Qc) by (transitivity (u * u - 1)%Qc; [ring | rewrite U2; ring]). apply Qcmult_integral in Z0. destruct Z0 as [Z0|Z0].
      - transitivity (u - 1 + 1)%Qc; [ring | rewrite Z0; ring].
      - exfalso. revert G. assert (u = - (1))%Qc as -> by (transitivity (u + 1 - 1)%Qc; [ring | rewrite Z0; ring]). discriminate. }
    transitivity (u * minus b)%Qc; [unfold u; transitivity (x * (minus b * minus b))%Qc; [rewrite minus_twice; ring | ring] | rewrite U1; ring]. }
  rewrite <- Q, XB. unfold minus. destruct b; ring.
Qed.

Lemma C97_parity_pf : forall E c w K S arg l m f e v, set_iter_ok E -> filled_whole c w -> assembled E c K S arg l m ->
  nholes c = 0 -> s_bij S = true -> (0 < i_J K)%Qc -> lowest m e -> motion (nsites c) (point w) f -> eigenvector m e v ->
  moved c l f v (map (fun x => if Z.odd (nbeta c) && black (point w (f 0)) then (- x)%Qc else x) v).
Proof.
  intros E c w K S arg l m f e v HE HF HA H0 HB HJ LOW M EV.
  destruct (C90_unique_pf E c w K S arg l m e HE HF HA H0 HB HJ LOW v EV) as [SG UN].
  apply (parity_of E c w K S arg l m f e v (down_sign (nsites c) (point w)) _ HE HF HA M EV); [| exact UN |].
  - destruct SG as [SG|SG]; [left; exact SG|right]. intros k d s Hk Ds. specialize (SG k d s Hk Ds).
    replace (nth k (map (fun x => - x)%Qc v) 0%Qc) with (- nth k v 0)%Qc by (symmetry; replace 0%Qc with (- 0)%Qc at 1 by ring; apply map_nth).
    revert SG. replace (down_sign (nsites c) (point w) s * - nth k v 0)%Qc with (- (down_sign (nsites c) (point w) s * nth k v 0))%Qc by ring. generalize (down_sign (nsites c) (point w) s * nth k v 0)%Qc. intros y P. qc.
  - intros s s' [_ Sb] C. unfold down_sign. pose proof (row_major_drawn c w (proj1 HF)) as (P0 & _). rewrite (sign_carried _ w f Down s s' downb P0 M C) by (intros []; cbn; split; congruence). now rewrite Sb.
Qed.

Lemma C97_parity_holes_pf : forall E c w K S arg l m f e v, set_iter_ok E -> filled_whole c w -> assembled E c K S arg l m ->
  ferromagnetic K S -> nholes c = 0 \/ (s_bt S = true /\ i_t K <> 0%Qc) -> lowest m e -> motion (nsites c) (point w) f -> eigenvector m e v ->
  ((0 < i_t K)%Qc -> moved c l f v (map (fun x => if Z.odd (nholes c) && black (point w (f 0)) then (- x)%Qc else x) v)) /\
  ((i_t K <= 0)%Qc -> moved c l f v v).
Proof.
  intros E c w K S arg l m f e v HE HF HA FE HT LOW M EV. pose proof (row_major_drawn c w (proj1 HF)) as (P0 & _).
  destruct (C96_unique_pf E c w K S arg l m e v HE HF HA FE HT LOW EV) as [SG UN]. split; intros T.
  - apply (parity_of E c w K S arg l m f e v (hop_sign K (nsites c) (point w)) _ HE HF HA M EV); [exact SG | exact UN|].
    intros s s' [Sh _] C. unfold hop_sign. destruct (Qclt_le_dec 0 (i_t K)) as [_|N]; [|exfalso; exact (Qclt_not_le _ _ T N)].
    unfold hole_sign. rewrite (sign_carried _ w f Hole s s' holeb P0 M C) by (intros []; cbn; split; congruence). now rewrite Sh.
  - replace v with (map (fun x : Qc => if false then (- x)%Qc else x) v) at 2 by (rewrite <- (map_id v) at 2; reflexivity).
    apply (parity_of E c w K S arg l m f e v (hop_sign K (nsites c) (point w)) false HE HF HA M EV); [exact SG | exact UN|].
    intros s s' [Sh _] C. unfold hop_sign. destruct (Qclt_le_dec 0 (i_t K)) as [N|_]; [exfalso; exact (Qclt_not_le _ _ N T)|]. unfold minus. ring.
Qed.

(** four sites in a ring, three ups and one down, for the example *)
Definition lone_conf : configuration := ex_rect 1 1 2 0 1.
Definition lone_basis : list (list Z) := get [] (b <- construct_basis lone_conf ;; Ok (determinants b)).
Definition lone_ham : csr := get (mkCsr 0 []) (build_hamiltonian cpython lone_conf ex_couplings (mkBasis lone_conf lone_basis) ring_switches (RList [])).
Definition lone_state : list Qc := map qz [1; -1; -1; 1].
Lemma lone_ok : filled_whole lone_conf 2 /\ assembled cpython lone_conf ex_couplings ring_switches (RList []) lone_basis lone_ham.
Proof.
  split; [|split; vm_compute; reflexivity].
  split; [exists 1, 1, 2; vm_compute; repeat (split; [congruence|]); reflexivity|]. split; [reflexivity|]. vm_compute. intuition congruence.
Qed.
Lemma lone_eigen : eigenvector lone_ham (- qz 4) lone_state.
Proof. split; [reflexivity|]. split; [vm_compute; reflexivity|]. exists (qz 1). split; [left; reflexivity | discriminate]. Qed.
Lemma lone_lowest : lowest lone_ham (- qz 4).
Proof.
  destruct lone_ok as [F A].
  apply (C94_certificate_pf cpython lone_conf 2 _ ex_couplings ring_switches (RList []) lone_basis lone_ham (- qz 4)%Qc lone_state cpython_ok F A); [left; reflexivity | discriminate | exact lone_eigen|].
  apply follows_by; [vm_compute; discriminate | vm_compute; discriminate | intros s t; apply down_same | vm_compute; reflexivity].
Qed.
