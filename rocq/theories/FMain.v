(** The guesses of main.py, the script, and the two unused matrices. *)
From Coq Require Import String ZArith List Bool Sorted QArith Qcanon Lia.
From Verif Require Import PyBase PyFacts Lattice Base Interact Ham Spin Prob Dav Files Emb Display Main Spec SpecTJ SpinDefs ProbDefs DavDefs FilesDefs DisplayDefs MainDefs
  PBasis PMat PSpin PQc FBasis FDav FFiles FProb FDisplay FEmbFiles Examples.
Import ListNotations.
Open Scope Z_scope.

(** ** The guesses *)

Lemma set_nth_repeat : forall dim k, (k < dim)%nat -> set_nth (repeat 0%Qc dim) k 1%Qc = unit_vect dim k.
Proof.
  intros dim k H. apply (nth_ext _ _ 0%Qc 0%Qc); [now rewrite set_nth_length, repeat_length, unit_length|].
  intros i L. rewrite set_nth_length, repeat_length in L. rewrite unit_nth by assumption. apply nth_error_nth. destruct (Nat.eqb_spec i k) as [->|N].
  - apply set_nth_same. now rewrite repeat_length.
  - rewrite set_nth_other by congruence. rewrite (nth_error_nth' _ 0%Qc) by now rewrite repeat_length. now rewrite nth_repeat.
Qed.

Lemma set_one_at : forall (pre : list (list Qc)) dim m k, 0 <= k < Z.of_nat dim ->
  set_one (pre ++ repeat (repeat 0%Qc dim) (S m)) k (zlen pre) = Ok ((pre ++ [unit_vect dim (Z.to_nat k)]) ++ repeat (repeat 0%Qc dim) m).
Proof.
  intros pre dim m k H. unfold set_one.
  assert (G : py_get (pre ++ repeat (repeat 0%Qc dim) (S m)) (zlen pre) = Ok (repeat 0%Qc dim)).
  { apply py_get_nth; [apply zlen_nonneg|]. unfold zlen. rewrite Nat2Z.id, nth_error_app2, Nat.sub_diag by lia. reflexivity. }
  rewrite G. cbn [bind]. rewrite py_set_ok by (unfold zlen; rewrite repeat_length; lia). cbn [bind].
  rewrite set_nth_repeat by lia. rewrite py_set_ok.
  - unfold zlen. rewrite Nat2Z.id. rewrite <- (Nat.add_0_r (length pre)), set_nth_app2, <- app_assoc. reflexivity.
  - pose proof (zlen_nonneg _ pre). rewrite zlen_app. unfold zlen at 4. cbn [repeat length]. lia.
Qed.
Lemma set_one_past : forall (pre : list (list Qc)) k, set_one pre k (zlen pre) = Err IndexError.
Proof.
  intros pre k. unfold set_one, py_get, py_norm. pose proof (zlen_nonneg _ pre). destruct (Z.ltb_spec (zlen pre) 0); [lia|]. destruct (Z.ltb_spec (zlen pre) 0); [lia|].
  replace (nth_error pre (Z.to_nat (zlen pre))) with (@None (list Qc)); [reflexivity|]. symmetry. apply nth_error_None. unfold zlen. lia.
Qed.

Section Fill.
Variable c : configuration.
Variable idx : list Z -> nat.
Let dim := Z.to_nat (nb_conf c).
Let step := fun (g : list (list Qc)) (p : Z * list Z) => k <- compute_hash_table c (snd p) ;; set_one g k (fst p).
Lemma fill_fits : forall dets pre m, (forall d, In d dets -> compute_hash_table c d = Ok (Z.of_nat (idx d)) /\ (idx d < dim)%nat) -> (length dets <= m)%nat ->
  foldM step (pre ++ repeat (repeat 0%Qc dim) m) (combine (zrange (zlen pre) (zlen pre + zlen dets)) dets) =
    Ok (pre ++ map (fun d => unit_vect dim (idx d)) dets ++ repeat (repeat 0%Qc dim) (m - length dets)).
Proof.
  induction dets as [|d dets IH]; intros pre m H L.
  - cbn [map app length]. rewrite Nat.sub_0_r. destruct (zrange _ _); reflexivity.
  - pose proof (zlen_nonneg _ dets). rewrite zlen_cons, zrange_cons by lia. cbn [combine foldM]. destruct (H d (or_introl eq_refl)) as [Hd Ld]. cbn [length] in L.
    destruct m as [|m]; [lia|]. unfold step at 1. cbn [fst snd]. rewrite Hd. cbn [bind]. rewrite set_one_at by lia. cbn [bind]. rewrite Nat2Z.id.
    replace (zlen pre + 1) with (zlen (pre ++ [unit_vect dim (idx d)])) by (rewrite zlen_app; reflexivity).
    replace (zlen pre + (zlen dets + 1)) with (zlen (pre ++ [unit_vect dim (idx d)]) + zlen dets) by (rewrite zlen_app; change (zlen [unit_vect dim (idx d)]) with 1; lia).
    rewrite IH; [|intros; apply H; now right | lia]. f_equal. rewrite <- app_assoc. cbn [map app length Nat.sub]. reflexivity.
Qed.
Lemma fill_many : forall dets pre m, (forall d, In d dets -> compute_hash_table c d = Ok (Z.of_nat (idx d)) /\ (idx d < dim)%nat) -> (m < length dets)%nat ->
  foldM step (pre ++ repeat (repeat 0%Qc dim) m) (combine (zrange (zlen pre) (zlen pre + zlen dets)) dets) = Err IndexError.
Proof.
  induction dets as [|d dets IH]; intros pre m H L; [cbn [length] in L; lia|].
  pose proof (zlen_nonneg _ dets). rewrite zlen_cons, zrange_cons by lia. cbn [combine foldM]. destruct (H d (or_introl eq_refl)) as [Hd Ld]. cbn [length] in L.
  unfold step at 1. cbn [fst snd]. rewrite Hd. cbn [bind]. destruct m as [|m].
  - cbn [repeat]. rewrite app_nil_r, set_one_past. reflexivity.
  - rewrite set_one_at by lia. cbn [bind]. rewrite Nat2Z.id.
    replace (zlen pre + 1) with (zlen (pre ++ [unit_vect dim (idx d)])) by (rewrite zlen_app; reflexivity).
    replace (zlen pre + (zlen dets + 1)) with (zlen (pre ++ [unit_vect dim (idx d)]) + zlen dets) by (rewrite zlen_app; change (zlen [unit_vect dim (idx d)]) with 1; lia).
    apply IH; [intros; apply H; now right | lia].
Qed.
End Fill.

Lemma fits_index : forall c l d, proper c -> construct_basis c = Ok (mkBasis c l) -> fits c d ->
  exists i, compute_hash_table c d = Ok (Z.of_nat i) /\ nth_error l i = Some d /\ length l = Z.to_nat (nb_conf c).
Proof.
  intros c l d (Hh & Hb & Ha & En & Enb & _) HB (I & s & D).
  pose proof (increasing_canon _ _ _ _ _ D I) as Ed. pose proof (describes_sector _ _ _ _ _ D) as Sec.
  assert (Hn : 0 <= nsites c) by lia.
  rewrite construct_basis_ok in HB by assumption. injection HB as <-.
  exists (Z.to_nat (state_index (nsites c) (nholes c) (nbeta c) s)). pose proof (state_index_nonneg (nsites c) (nholes c) (nbeta c) s) as P.
  rewrite Ed. split; [rewrite index_of_canon by assumption; f_equal; rewrite Z2Nat.id; [reflexivity | auto]|].
  split.
  - pose proof (nth_dets (nsites c) (Z.to_nat (nholes c)) (Z.to_nat (nbeta c)) s Hn) as Q. rewrite !Z2Nat.id in Q by assumption. now apply Q.
  - pose proof (dets_length (nsites c) (Z.to_nat (nholes c)) (Z.to_nat (nbeta c)) Hn) as Q. rewrite !Z2Nat.id in Q by assumption.
    rewrite Enb. unfold compute_dimension. rewrite Ha || idtac.
    replace (nsites c - nalpha c - nbeta c) with (nholes c) by lia.
    apply Nat2Z.inj. rewrite Q, Z2Nat.id by (apply Z.mul_nonneg_nonneg; apply comb_nonneg). f_equal.
    rewrite !comb_binom' by lia. rewrite (binom_sym _ (Z.to_nat (nbeta c))) by lia. f_equal. lia.
Qed.

(** unit columns *)
Definition place (c : configuration) (d : list Z) : nat := match compute_hash_table c d with Ok k => Z.to_nat k | Err _ => O end.
Lemma place_ok : forall c l d, proper c -> construct_basis c = Ok (mkBasis c l) -> fits c d ->
  compute_hash_table c d = Ok (Z.of_nat (place c d)) /\ (place c d < Z.to_nat (nb_conf c))%nat /\ nth_error l (place c d) = Some d /\ length l = Z.to_nat (nb_conf c).
Proof.
  intros c l d P HB F. destruct (fits_index c l d P HB F) as (i & H & N & L). unfold place. rewrite H, Nat2Z.id.
  split; [reflexivity|]. split; [rewrite <- L; apply nth_error_Some; congruence | now split].
Qed.
Lemma basis_exists : forall c, proper c -> exists l, construct_basis c = Ok (mkBasis c l).
Proof. intros c (Hh & Hb & _). eexists. now apply construct_basis_ok. Qed.
Lemma enumerate_0 : forall A (l : list A), enumerate l = combine (zrange (zlen (@nil A)) (zlen (@nil A) + zlen l)) l.
Proof. reflexivity. Qed.

Lemma guess_is : forall c dets n, proper c -> (forall d, In d dets -> fits c d) -> zlen dets <= n ->
  fill_guess c dets n = Ok (map (fun d => unit_vect (Z.to_nat (nb_conf c)) (place c d)) dets ++ repeat (repeat 0%Qc (Z.to_nat (nb_conf c))) (Z.to_nat n - length dets)).
Proof.
  intros c dets n P F L. destruct (basis_exists c P) as (l & HB). unfold fill_guess. pose proof (zlen_nonneg _ dets). destruct (Z.ltb_spec n 0); [lia|].
  pose proof (fill_fits c (place c) dets [] (Z.to_nat n)) as Q. cbn [app] in Q. unfold enumerate. change (zlen (@nil (list Qc))) with 0 in Q.
  rewrite Z.add_0_l in Q. apply Q; [|unfold zlen in L; lia]. intros d I. destruct (place_ok c l d P HB (F d I)) as (H1 & H2 & _). now split.
Qed.

Lemma C82_columns_pf : forall c l dets n, proper c -> construct_basis c = Ok (mkBasis c l) -> (forall d, In d dets -> fits c d) -> zlen dets <= n ->
  exists g, fill_guess c dets n = Ok g /\ zlen g = n /\ tall (length l) g /\
    (forall i j d d', nth_error dets i = Some d -> nth_error l j = Some d' ->
       (d = d' -> nth j (nth i g []) 0%Qc = 1%Qc) /\ (d <> d' -> nth j (nth i g []) 0%Qc = 0%Qc)) /\
    forall i x, (length dets <= i)%nat -> In x (nth i g []) -> x = 0%Qc.
Proof.
  intros c l dets n P HB F L. rewrite (guess_is c dets n P F L). eexists. split; [reflexivity|].
  assert (Ll : length l = Z.to_nat (nb_conf c)).
  { destruct P as (Hh & Hb & Ha & En & Enb & _). pose proof HB as HB'. rewrite construct_basis_ok in HB' by assumption. injection HB' as <-.
    pose proof (dets_length (nsites c) (Z.to_nat (nholes c)) (Z.to_nat (nbeta c)) ltac:(lia)) as Q. rewrite !Z2Nat.id in Q by assumption.
    rewrite Enb. unfold compute_dimension. replace (nsites c - nalpha c - nbeta c) with (nholes c) by lia.
    apply Nat2Z.inj. rewrite Q, Z2Nat.id by (apply Z.mul_nonneg_nonneg; apply comb_nonneg). f_equal.
    rewrite !comb_binom' by lia. rewrite (binom_sym _ (Z.to_nat (nbeta c))) by lia. f_equal. lia. }
  unfold zlen in *. split; [rewrite app_length, map_length, repeat_length; lia|]. split.
  { rewrite Ll. apply Forall_app. split; apply Forall_forall; intros v Hv.
    - apply in_map_iff in Hv. destruct Hv as (d & <- & _). apply unit_length.
    - apply repeat_spec in Hv. subst v. apply repeat_length. }
  split.
  - intros i j d d' Hi Hj. assert (Li : (i < length dets)%nat) by (apply nth_error_Some; congruence).
    rewrite app_nth1 by now rewrite map_length. rewrite (nth_error_nth (map _ dets) i [] (x := unit_vect (Z.to_nat (nb_conf c)) (place c d))) by now rewrite nth_error_map, Hi.
    assert (Lj : (j < Z.to_nat (nb_conf c))%nat) by (rewrite <- Ll; apply nth_error_Some; congruence). rewrite unit_nth by assumption.
    destruct (place_ok c l d P HB (F d (nth_error_In _ _ Hi))) as (_ & _ & N & _).
    destruct (Nat.eqb_spec j (place c d)) as [E|E]; split; intros Q; [reflexivity | exfalso | exfalso | reflexivity].
    + subst j. congruence.
    + subst d'. apply E. assert (ND : NoDup l).
      { destruct (C01_basis_enumerates_pf c) as (l' & HB' & ND & _); [apply P | apply P | destruct P as (?&?&?&?&_); lia|]. congruence. }
      eapply (proj1 (NoDup_nth_error l)); [assumption | now rewrite Ll | congruence].
  - intros i x Li Hx. destruct (Nat.lt_ge_cases i (length dets + (Z.to_nat n - length dets))) as [T|T].
    + rewrite app_nth2 in Hx by now rewrite map_length. rewrite map_length in Hx. rewrite nth_repeat in Hx || idtac.
      assert (Q : nth (i - length dets) (repeat (repeat 0%Qc (Z.to_nat (nb_conf c))) (Z.to_nat n - length dets)) [] = repeat 0%Qc (Z.to_nat (nb_conf c))).
      { apply (repeat_spec (Z.to_nat n - length dets) (repeat 0%Qc (Z.to_nat (nb_conf c)))). apply nth_In. rewrite repeat_length. lia. }
      rewrite Q in Hx. now apply repeat_spec in Hx.
    + rewrite nth_overflow in Hx by (rewrite app_length, map_length, repeat_length; lia). destruct Hx.
Qed.

Lemma C82_orthonormal_pf : forall c dets n g, proper c -> (forall d, In d dets -> fits c d) -> zlen dets <= n -> fill_guess c dets n = Ok g ->
  forall i i' d d', nth_error dets i = Some d -> nth_error dets i' = Some d' ->
  (d = d' -> inner (nth i g []) (nth i' g []) = 1%Qc) /\ (d <> d' -> inner (nth i g []) (nth i' g []) = 0%Qc).
Proof.
  intros c dets n g P F L H i i' d d' Hi Hi'. rewrite (guess_is c dets n P F L) in H. injection H as <-. destruct (basis_exists c P) as (l & HB).
  assert (C : forall i d, nth_error dets i = Some d -> nth i (map (fun d => unit_vect (Z.to_nat (nb_conf c)) (place c d)) dets ++
      repeat (repeat 0%Qc (Z.to_nat (nb_conf c))) (Z.to_nat n - length dets)) [] = unit_vect (Z.to_nat (nb_conf c)) (place c d)).
  { intros k e Hk. rewrite app_nth1 by (rewrite map_length; apply nth_error_Some; congruence). apply nth_error_nth. now rewrite nth_error_map, Hk. }
  rewrite (C i d Hi), (C i' d' Hi'). destruct (place_ok c l d P HB (F d (nth_error_In _ _ Hi))) as (_ & L1 & N1 & _).
  destruct (place_ok c l d' P HB (F d' (nth_error_In _ _ Hi'))) as (_ & L2 & N2 & _).
  rewrite unit_inner by assumption. destruct (Nat.eqb_spec (place c d) (place c d')) as [E|E]; split; intros Q; try reflexivity; exfalso; [|congruence].
  rewrite E in N1. congruence.
Qed.

Lemma C82_too_many_pf : forall c dets n, proper c -> (forall d, In d dets -> fits c d) -> 0 <= n < zlen dets -> fill_guess c dets n = Err IndexError.
Proof.
  intros c dets n P F L. destruct (basis_exists c P) as (l & HB). unfold fill_guess. destruct (Z.ltb_spec n 0); [lia|].
  pose proof (fill_many c (place c) dets [] (Z.to_nat n)) as Q. cbn [app] in Q. unfold enumerate. change (zlen (@nil (list Qc))) with 0 in Q.
  rewrite Z.add_0_l in Q. apply Q; [|unfold zlen in L; lia]. intros d I. destruct (place_ok c l d P HB (F d I)) as (H1 & H2 & _). now split.
Qed.

(** the order of the sites in a group matters: compute_hash_table does not reorder *)
Definition square4 : configuration := ex_rect 1 1 2 0 2.
Lemma C82_order_refuted_pf : exists c l d d' s g, proper c /\ construct_basis c = Ok (mkBasis c l) /\
  describes (nsites c) (nholes c) (nbeta c) d s /\ describes (nsites c) (nholes c) (nbeta c) d' s /\ nth_error l 0 = Some d /\
  fill_guess c [d'] 1 = Ok g /\ nth 0 (nth 0 g []) 0%Qc = 0%Qc /\
  exists e s', describes (nsites c) (nholes c) (nbeta c) e s' /\ fill_guess c [e] 1 = Err IndexError.
Proof.
  exists square4, (get [] (b <- construct_basis square4 ;; Ok (determinants b))), [0; 1; 2; 3], [1; 0; 2; 3], (fun x => if x <? 2 then Down else Up),
    (get [] (fill_guess square4 [[1; 0; 2; 3]] 1)).
  split; [unfold proper; vm_compute; intuition congruence|]. split; [vm_compute; reflexivity|].
  split; [apply describesb_ok; vm_compute; reflexivity|]. split; [apply describesb_ok; vm_compute; reflexivity|].
  split; [vm_compute; reflexivity|]. split; [vm_compute; reflexivity|]. split; [vm_compute; reflexivity|].
  exists [3; 1; 0; 2], (fun x => if (x =? 3) || (x =? 1) then Down else Up). split; [apply describesb_ok; vm_compute; reflexivity | vm_compute; reflexivity].
Qed.

(** ** The configurations of main.py *)

Lemma rectangle_ok : forall h v k holes beta, 1 <= h -> 1 <= v -> 1 <= k -> exists c, rectangle h v k holes beta = Ok c /\ rectangle_of h v k holes beta c.
Proof.
  intros h v k holes beta Hh Hv Hk. destruct (rect_is h v k Hh Hv Hk) as (m & Em & (R & _)). unfold rectangle. rewrite Em. cbn [bind].
  unfold make_configuration. cbn zeta. rewrite R. assert (P : 0 < k * h * (k * v)) by nia. destruct (Z.eqb_spec (k * h * (k * v)) 0) as [E0|_]; [lia|].
  cbn [restr_falsy bind]. eexists. split; [reflexivity|]. unfold rectangle_of. cbn [bond_matrix nsites nholes nbeta nalpha nb_conf sites_restriction lattice_type nbh nbv nblocs_side].
  rewrite Em. repeat split.
Qed.
Lemma rectangle_proper : forall h v k holes beta c, rectangle_of h v k holes beta c -> 0 <= holes -> 0 <= beta -> holes + beta <= (k * h) * (k * v) -> proper c.
Proof. intros h v k holes beta c (_ & N & H & B & A & D & S & _) P1 P2 P3. unfold proper. rewrite B in D. rewrite H, B. repeat split; try assumption; lia. Qed.

Lemma mapM_some : forall A B (f : A -> res B) l, (forall x, In x l -> exists y, f x = Ok y) -> exists ys, mapM f l = Ok ys.
Proof.
  intros A B f l. induction l as [|x l IH]; intros H; [now exists []|]. destruct (H x (or_introl eq_refl)) as (y & Ey).
  destruct IH as (ys & Eys); [intros; apply H; now right|]. exists (y :: ys). cbn [mapM]. rewrite Ey. cbn [bind]. rewrite Eys. reflexivity.
Qed.

Definition state_in (h b : Z) (d : list Z) : occupation := fun x => if mem x (py_slice d 0 h) then Hole else if mem x (py_slice d h (h + b)) then Down else Up.
Definition sortedb (l : list Z) : bool := forallb (fun p => fst p <? snd p) (combine l (tl l)).
Lemma sortedb_ok : forall l, sortedb l = true -> Sorted Z.lt l.
Proof.
  induction l as [|x l IH]; intros H; [constructor|]. destruct l as [|y l]; [repeat constructor|].
  unfold sortedb in H. cbn [tl combine forallb fst snd] in H. apply andb_prop in H. destruct H as [H1 H2]. constructor; [now apply IH|]. constructor. now apply Z.ltb_lt.
Qed.
Definition fitsb (n h b : Z) (d : list Z) : bool :=
  describesb n h b d (state_in h b d) && (zlen (firstn (Z.to_nat h) d) =? h) && (zlen (firstn (Z.to_nat b) (skipn (Z.to_nat h) d)) =? b) &&
  sortedb (firstn (Z.to_nat h) d) && sortedb (firstn (Z.to_nat b) (skipn (Z.to_nat h) d)) && sortedb (skipn (Z.to_nat b) (skipn (Z.to_nat h) d)).
Lemma fitsb_ok : forall c d, fitsb (nsites c) (nholes c) (nbeta c) d = true -> fits c d /\ describes (nsites c) (nholes c) (nbeta c) d (state_in (nholes c) (nbeta c) d).
Proof.
  intros c d H. unfold fitsb in H. do 5 (apply andb_prop in H; destruct H as [H ?]).
  assert (D : describes (nsites c) (nholes c) (nbeta c) d (state_in (nholes c) (nbeta c) d)) by now apply describesb_ok.
  split; [|exact D]. split; [|eauto]. exists (firstn (Z.to_nat (nholes c)) d), (firstn (Z.to_nat (nbeta c)) (skipn (Z.to_nat (nholes c)) d)), (skipn (Z.to_nat (nbeta c)) (skipn (Z.to_nat (nholes c)) d)).
  rewrite !firstn_skipn. split; [reflexivity|]. repeat split; try (now apply sortedb_ok); apply Z.eqb_eq; assumption.
Qed.
Lemma app_eq_app_length : forall A (a b c d : list A), length a = length c -> a ++ b = c ++ d -> a = c /\ b = d.
Proof.
  intros A a. induction a as [|x a IH]; intros b [|y c] d L E; cbn [length app] in *; try discriminate; [now split|].
  injection E as -> E. injection L as L. destruct (IH b c d L E) as [-> ->]. now split.
Qed.
Lemma describes_same : forall n h b d s t, describes n h b d s -> describes n h b d t -> same_state n s t.
Proof.
  intros n h b d s t (hs & bs & us & E & Lh & Lb & _ & _ & _ & A1 & A2 & A3) (hs' & bs' & us' & E' & Lh' & Lb' & _ & _ & _ & B1 & B2 & B3) x Hx.
  assert (hs = hs' /\ bs ++ us = bs' ++ us') as [<- Q].
  { apply app_eq_app_length; [lia | congruence]. }
  assert (bs = bs' /\ us = us') as [<- <-] by (apply app_eq_app_length; [lia | assumption]).
  destruct (s x) eqn:Sx.
  - symmetry. apply B1. apply A1. now split.
  - symmetry. apply B2. apply A2. now split.
  - symmetry. apply B3. apply A3. now split.
Qed.

Definition alternatingb (c : configuration) (s : occupation) : bool :=
  forallb (fun x => forallb (fun y => (mat_at (bond_matrix c) x y =? 0) || negb (match s x, s y with Up, Up | Down, Down => true | _, _ => false end))
    (zrange 0 (nsites c))) (zrange 0 (nsites c)).
Lemma alternatingb_ok : forall c s, alternatingb c s = true <-> alternating c s.
Proof.
  intros c s. unfold alternatingb. rewrite forallb_forall. split.
  - intros H x y Hx Hy M. specialize (H x (proj2 (in_zrange _ _ _) Hx)). rewrite forallb_forall in H. specialize (H y (proj2 (in_zrange _ _ _) Hy)).
    apply orb_prop in H. destruct H as [H|H]; [apply Z.eqb_eq in H; contradiction|]. destruct (s x), (s y); try discriminate; split; intros; congruence.
  - intros H x Hx. apply forallb_forall. intros y Hy. apply in_zrange in Hx, Hy. apply orb_true_iff. destruct (Z.eqb_spec (mat_at (bond_matrix c) x y) 0) as [E|E]; [now left|].
    right. destruct (H x y Hx Hy E) as [H1 H2]. destruct (s x), (s y); try reflexivity; exfalso; [now apply H2 | now apply H1].
Qed.
Lemma alternating_ext : forall c s t, same_state (nsites c) s t -> alternating c s -> alternating c t.
Proof. intros c s t E H x y Hx Hy M. rewrite <- (E x Hx), <- (E y Hy). now apply H. Qed.

(** what the lists of main.py are, on a configuration *)
Definition listb (c : configuration) (alt : bool) (ds : list (list Z)) : bool :=
  forallb (fun d => fitsb (nsites c) (nholes c) (nbeta c) d && Bool.eqb (alternatingb c (state_in (nholes c) (nbeta c) d)) alt) ds.
Lemma listb_ok : forall c alt ds d s, listb c alt ds = true -> In d ds -> describes (nsites c) (nholes c) (nbeta c) d s ->
  fits c d /\ (alternating c s <-> alt = true).
Proof.
  intros c alt ds d s H I D. unfold listb in H. rewrite forallb_forall in H. specialize (H d I). apply andb_prop in H. destruct H as [H1 H2].
  destruct (fitsb_ok c d H1) as [F D']. split; [exact F|]. apply eqb_prop in H2. rewrite <- H2, alternatingb_ok.
  split; apply alternating_ext; eapply describes_same; eassumption.
Qed.
Lemma listb_fits : forall c alt ds d, listb c alt ds = true -> In d ds -> fits c d.
Proof.
  intros c alt ds d H I. unfold listb in H. rewrite forallb_forall in H. specialize (H d I). apply andb_prop in H. destruct H as [H1 _]. now apply fitsb_ok.
Qed.

(** conf without the dimension, to keep computations small *)
Lemma listb_rect : forall h v k holes beta c alt ds, rectangle_of h v k holes beta c ->
  listb (mkConf (get empty_mat (build_rectangular_bond_matrix h v k)) ((k * h) * (k * v)) holes beta 0 0 (RList []) Periodic 0 0 0) alt ds = listb c alt ds.
Proof. intros h v k holes beta c alt ds (M & N & H & B & _). rewrite M. unfold listb, alternatingb. cbn [get nsites nholes nbeta bond_matrix]. rewrite <- N, <- H, <- B. reflexivity. Qed.

Lemma C82_main_pf : forall c16 c18 c81, rectangle 2 2 2 4 6 = Ok c16 -> rectangle 2 1 3 2 8 = Ok c18 -> rectangle 1 2 3 2 8 = Ok c81 ->
  (forall d, In d guesses_16 -> fits c16 d /\ forall s, describes (nsites c16) (nholes c16) (nbeta c16) d s -> alternating c16 s) /\
  (forall d, In d guesses_18 -> fits c18 d /\ forall s, describes (nsites c18) (nholes c18) (nbeta c18) d s -> ~ alternating c18 s /\ alternating c81 s) /\
  NoDup guesses_16 /\ NoDup guesses_18.
Proof.
  intros c16 c18 c81 E16 E18 E81.
  destruct (rectangle_ok 2 2 2 4 6) as (c & E & R16); try lia. rewrite E16 in E. injection E as <-.
  destruct (rectangle_ok 2 1 3 2 8) as (c & E & R18); try lia. rewrite E18 in E. injection E as <-.
  destruct (rectangle_ok 1 2 3 2 8) as (c & E & R81); try lia. rewrite E81 in E. injection E as <-.
  assert (L16 : listb c16 true guesses_16 = true) by (rewrite <- (listb_rect _ _ _ _ _ _ _ _ R16); vm_compute; reflexivity).
  assert (L18 : listb c18 false guesses_18 = true) by (rewrite <- (listb_rect _ _ _ _ _ _ _ _ R18); vm_compute; reflexivity).
  assert (L81 : listb c81 true guesses_18 = true) by (rewrite <- (listb_rect _ _ _ _ _ _ _ _ R81); vm_compute; reflexivity).
  assert (ND : forall l : list (list Z), (fix nd (l : list (list Z)) := match l with [] => true | x :: l => negb (existsb (zlist_eqb x) l) && nd l end) l = true -> NoDup l).
  { induction l as [|x l IH]; intros Q; constructor; apply andb_prop in Q; destruct Q as [Q1 Q2]; [|now apply IH].
    intros I. apply negb_true_iff in Q1. assert (T : existsb (zlist_eqb x) l = true) by (apply existsb_exists; exists x; split; [assumption | now apply zlist_eqb_eq]). congruence. }
  split; [|split; [|split]].
  - intros d I. split; [now apply (listb_fits _ _ _ _ L16)|]. intros s D. destruct (listb_ok _ _ _ _ _ L16 I D) as [_ Q]. now apply Q.
  - intros d I. split; [now apply (listb_fits _ _ _ _ L18)|]. intros s D. split.
    + destruct (listb_ok _ _ _ _ _ L18 I D) as [_ Q]. rewrite Q. discriminate.
    + assert (D' : describes (nsites c81) (nholes c81) (nbeta c81) d s).
      { destruct R18 as (_ & N & H & B & _). destruct R81 as (_ & N' & H' & B' & _). rewrite N', H', B'. rewrite N, H, B in D. exact D. }
      destruct (listb_ok _ _ _ _ _ L81 I D') as [_ Q]. now apply Q.
  - apply ND. vm_compute. reflexivity.
  - apply ND. vm_compute. reflexivity.
Qed.

(** ** The script *)

Lemma guesses_fit : forall c16 c18, rectangle 2 2 2 4 6 = Ok c16 -> rectangle 2 1 3 2 8 = Ok c18 ->
  (forall d, In d guesses_16 -> fits c16 d) /\ forall d, In d guesses_18 -> fits c18 d.
Proof.
  intros c16 c18 E16 E18. destruct (rectangle_ok 1 2 3 2 8) as (c81 & E81 & _); try lia. destruct (C82_main_pf c16 c18 c81 E16 E18 E81) as (A & B & _).
  split; intros d I; [now apply A | now apply B].
Qed.
Lemma inputs_ok : exists c18, main_inputs = Ok c18 /\ rectangle 2 1 3 2 8 = Ok c18 /\ rectangle_of 2 1 3 2 8 c18.
Proof.
  unfold main_inputs.
  destruct (mapM_some _ _ (fun '(h, v, s, holes, beta) => rectangle h v s holes beta) earlier) as (ys & ->).
  { intros ((((h & v) & k) & holes) & beta) I. assert (Q : 1 <= h /\ 1 <= v /\ 1 <= k).
    { repeat (destruct I as [I|I]; [injection I as <- <- <- _ _; lia|]). destruct I. }
    destruct (rectangle_ok h v k holes beta) as (c & Hc & _); [apply Q | apply Q | apply Q|]. eauto. }
  cbn [bind]. destruct (rectangle_ok 2 2 2 4 6) as (c16 & E16 & R16); try lia. destruct (rectangle_ok 2 1 3 2 8) as (c18 & E18 & R18); try lia.
  destruct (guesses_fit _ _ E16 E18) as [F16 F18].
  assert (P16 : proper c16) by (apply (rectangle_proper _ _ _ _ _ _ R16); lia).
  assert (P18 : proper c18) by (apply (rectangle_proper _ _ _ _ _ _ R18); lia).
  rewrite E16. cbn [bind]. rewrite (guess_is c16 guesses_16 6 P16 F16) by (unfold zlen; cbn; lia). cbn [bind].
  rewrite E18. cbn [bind]. rewrite (guess_is c18 guesses_18 6 P18 F18) by (unfold zlen; cbn; lia). cbn [bind]. eauto.
Qed.

Lemma name_18 : forall c, rectangle_of 2 1 3 2 8 c -> embedding_name c (s_of (d_bools (data_18 c))) = "tJHam-1888Full.json"%string.
Proof.
  intros c (_ & N & H & B & A & _). rewrite N in A. unfold embedding_name. cbn [data_18 d_bools s_of all_on s_bt s_bz s_bij s_bSD s_btN s_bV andb]. unfold name_head.
  rewrite N, A, B. vm_compute. reflexivity.
Qed.

Lemma C83_missing_pf : forall E N rand fs e, load_data fs "tJHam-1888Full.json" = Err e -> main_script E N rand fs = (fs, Err e).
Proof.
  intros E N rand fs e H. destruct inputs_ok as (c & Hc & _). unfold main_script. rewrite Hc. unfold after_inputs. rewrite H. reflexivity.
Qed.

Lemma print_inv : forall c dc p, print_results c dc = Ok p -> exists gs ds, py_get (e_vals (dc_eig dc)) 0 = Ok (embedded_energy p) /\ isolated_energy p = embedded_energy p /\
  first_column (e_vects (dc_eig dc)) = Ok gs /\ get_most_dominant_determinants (dc_dets dc) gs 50 = Ok ds /\
  mapM (fun q => t <- get_displayable_rectangular_lattice (AsConf c) (snd q) ;; Ok (fst q, t)) ds = Ok (dominant_lines p).
Proof.
  intros c dc p H. unfold print_results in H. apply bind_ok_inv in H. destruct H as (e & H1 & H). apply bind_ok_inv in H. destruct H as (e' & H2 & H).
  apply bind_ok_inv in H. destruct H as (gs & H3 & H). apply bind_ok_inv in H. destruct H as (ds & H4 & H). apply bind_ok_inv in H. destruct H as (ls & H5 & H).
  injection H as <-. exists gs, ds. cbn [embedded_energy isolated_energy dominant_lines]. repeat split; try assumption. congruence.
Qed.

Definition ending (fs : files) (p0 : res data_computations) (ed : files * res data_computations) (c : configuration) (last : res configuration) : files * res printed :=
  match p0 with
  | Err e => (fs, Err e)
  | Ok _ => let '(fs', r) := ed in (fs', dc <- r ;; p <- print_results c dc ;; _ <- last ;; Ok p)
  end.
Lemma ending_inv : forall fs p0 ed c last fs' p, ending fs p0 ed c last = (fs', Ok p) ->
  exists dc0 dc, p0 = Ok dc0 /\ ed = (fs', Ok dc) /\ print_results c dc = Ok p.
Proof.
  intros fs p0 [fs1 r] c last fs' p H. destruct p0 as [dc0|]; [|discriminate]. cbn [ending] in H. apply pair_equal_spec in H. destruct H as [<- H].
  apply bind_ok_inv in H. destruct H as (dc & -> & H). apply bind_ok_inv in H. destruct H as (q & Hp & H). apply bind_ok_inv in H. destruct H as (c' & _ & H). injection H as ->.
  eauto.
Qed.
Lemma script_ending : forall E N rand fs c, main_inputs = Ok c -> main_script E N rand fs =
  ending fs (load_data fs "tJHam-1888Full.json") (embedding_neel E N rand fs (data_18 c) (qfrac 1 1000000) 1000 10) c (rectangle 1 2 3 2 8).
Proof.
  intros E N rand fs c H. unfold main_script. rewrite H. unfold after_inputs, ending.
  generalize (load_data fs "tJHam-1888Full.json") (embedding_neel E N rand fs (data_18 c) (qfrac 1 1000000) 1000 10) (rectangle 1 2 3 2 8). reflexivity.
Qed.

Lemma C83_script_pf : forall E N rand fs fs' p, main_script E N rand fs = (fs', Ok p) ->
  exists c dc0 dc gs, rectangle_of 2 1 3 2 8 c /\ load_data fs "tJHam-1888Full.json" = Ok dc0 /\
    embedding_neel E N rand fs (data_18 c) (qfrac 1 1000000) 1000 10 = (fs', Ok dc) /\
    nth_error (e_vals (dc_eig dc)) 0 = Some (embedded_energy p) /\ isolated_energy p = embedded_energy p /\
    nth_error (e_vects (dc_eig dc)) 0 = Some gs /\
    (forall st, listed 18 2 8 (dc_dets dc0) st -> (length gs <= length (dc_dets dc0))%nat ->
       exists idx, largest gs idx /\ length idx = Nat.min 50 (length gs) /\
         dominant_lines p = map (fun i => ((Z.of_nat i, nth i gs 0%Qc), paragraph (rectangle_lines 6 3 (st i)))) idx) /\
    forall name, name <> "Peripheral_embedding/tJHam-1888Full.json"%string -> load_data fs' name = load_data fs name.
Proof.
  intros E N rand fs fs' p H. destruct inputs_ok as (c & Hc & _ & R). pose proof (eq_trans (eq_sym (script_ending E N rand fs c Hc)) H) as H'. clear H.
  destruct (ending_inv _ _ _ _ _ _ _ H') as (dc0 & dc & L & Q & Hp). clear H'.
  destruct (C71_neel_pf _ _ _ _ _ _ _ _ _ _ Q) as (dc1 & gs1 & u & pR & e & H1 & _ & _ & _ & _ & Edc & _ & _ & Oth).
  change (d_conf (data_18 c)) with c in H1, Oth. rewrite (name_18 c R) in H1. rewrite L in H1. injection H1 as <-.
  destruct (print_inv _ _ _ Hp) as (gs & ds & P1 & P2 & P3 & P4 & P5). exists c, dc0, dc, gs. split; [exact R|]. split; [exact L|]. split; [exact Q|].
  split.
  { unfold py_get, py_norm in P1. cbn [Z.ltb Z.compare] in P1. change (Z.to_nat 0) with 0%nat in P1. destruct (nth_error (e_vals (dc_eig dc)) 0) as [x|]; [|discriminate]. now injection P1 as ->. }
  split; [exact P2|]. split.
  { destruct (e_vects (dc_eig dc)); [discriminate|]. cbn [first_column] in P3. now injection P3 as ->. }
  split.
  - intros st Ls Lg. assert (Ed : dc_dets dc = dc_dets dc0) by now rewrite Edc. rewrite Ed in P4.
    destruct (C45_most_dominant_pf gs (dc_dets dc0) 50 Lg) as (idx & La & Li & Q4). rewrite P4 in Q4. injection Q4 as ->.
    exists idx. split; [exact La|]. split; [rewrite Li; unfold kept; cbn [Z.ltb Z.compare]; lia|].
    assert (G : forall i, In i idx -> (t <- get_displayable_rectangular_lattice (AsConf c) (nth i (dc_dets dc0) []) ;; Ok ((Z.of_nat i, nth i gs 0%Qc), t)) =
      Ok ((Z.of_nat i, nth i gs 0%Qc), paragraph (rectangle_lines 6 3 (st i)))).
    { intros i Hi. assert (Il : (i < length (dc_dets dc0))%nat) by (destruct La as (_ & B & _); specialize (B i Hi); lia).
      destruct R as (_ & Nn & Hh & Hb & _ & _ & _ & _ & W1 & W2 & W3).
      rewrite (C61_rectangle_pf c (nth i (dc_dets dc0) []) (st i) 6 3); rewrite ?W1, ?W2, ?W3, ?Nn, ?Hh, ?Hb; try lia; [reflexivity|].
      apply (Ls i). now apply nth_error_nth'. }
    clear - P5 G. revert P5. generalize (dominant_lines p). induction idx as [|i idx IH]; intros ls P5; [now injection P5 as <-|].
    cbn [map mapM fst snd] in P5. rewrite (G i (or_introl eq_refl)) in P5. cbn [bind] in P5. apply bind_ok_inv in P5. destruct P5 as (ls' & P5 & P6). injection P6 as <-.
    cbn [map]. f_equal. apply IH; [intros; apply G; now right | exact P5].
  - intros name Hn. apply Oth. unfold peripheral_name. rewrite (name_18 c R). exact Hn.
Qed.

(** what the file written holds *)
Lemma C83_file_pf : forall E N rand fs fs' p, main_script E N rand fs = (fs', Ok p) ->
  exists dc, rectangle_of 2 1 3 2 8 (d_conf (dc_data dc)) /\
    (let K := d_inter (dc_data dc) in
     map this [i_t K; i_J K; i_Jhpar K; i_Jhper K; i_hSDpar K; i_hSDper K; i_tNNN K; i_tnNNN K; i_VNN K; i_VNNNper K] =
       [(-11 # 20); (123 # 1000); (39 # 250); (13 # 125); (-2 # 25); (-41 # 1000); (14 # 125); (-47 # 1000); (177 # 100); (79 # 100)]%Q) /\
    d_bools (dc_data dc) = mkBools (mkSwitches true true true true true true) false /\
    (let g := d_diag (dc_data dc) in g_nb_val g = 4 /\ g_stp g = 10000 /\ this (g_tol g) = (1 # 10000)%Q /\ g_dim_max g = 1000 /\ g_guess g = None) /\
    dc_times dc = None /\ nth_error (e_vals (dc_eig dc)) 0 = Some (embedded_energy p) /\
    (complete dc -> exists r, load_data fs' "Peripheral_embedding/tJHam-1888Full.json" = Ok r /\ reloaded dc r).
Proof.
  intros E N rand fs fs' p H. destruct inputs_ok as (c & Hc & _ & R). pose proof (eq_trans (eq_sym (script_ending E N rand fs c Hc)) H) as H'. clear H.
  destruct (ending_inv _ _ _ _ _ _ _ H') as (dc0 & dc & L & Q & Hp). clear H'.
  destruct (C71_neel_pf _ _ _ _ _ _ _ _ _ _ Q) as (dc1 & gs1 & u & pR & e & _ & _ & _ & _ & _ & Edc & _ & Own & _).
  change (d_conf (data_18 c)) with c in Own. unfold peripheral_name in Own. rewrite (name_18 c R) in Own.
  destruct (print_inv _ _ _ Hp) as (gs & ds & P1 & _). exists dc.
  assert (Ed : dc_data dc = data_18 c) by now rewrite Edc. assert (Et : dc_times dc = None) by now rewrite Edc. clear Edc. rewrite Ed.
  split; [exact R|]. split; [vm_compute; reflexivity|]. split; [reflexivity|]. split; [vm_compute; auto 10|]. split; [exact Et|]. split.
  { unfold py_get, py_norm in P1. cbn [Z.ltb Z.compare] in P1. change (Z.to_nat 0) with 0%nat in P1. destruct (nth_error (e_vals (dc_eig dc)) 0) as [x|]; [|discriminate]. now injection P1 as ->. }
  exact Own.
Qed.

(** ** The two unused matrices *)

Lemma C84_K_pf : forall dim, 2 <= dim -> exists m, build_K_matrix dim = Ok m /\ mrows m = 4 /\ mcols m = dim /\
  forall i j, 0 <= i < 4 -> 0 <= j < dim ->
  (mat_at m i j = 1 <-> i = 0 /\ j = 0 \/ i = 1 /\ j = 1 \/ i = 2 /\ j = dim - 2 \/ i = 3 /\ j = dim - 1) /\ (mat_at m i j = 0 \/ mat_at m i j = 1).
Proof.
  intros dim H. unfold build_K_matrix. destruct (mzeros_is 4 dim ltac:(lia) ltac:(lia)) as (k0 & -> & I0). cbn [bind].
  destruct (mset_is _ _ _ _ 0 0 1 I0 ltac:(lia) ltac:(lia)) as (k1 & -> & I1). cbn [bind].
  destruct (mset_is _ _ _ _ 1 1 1 I1 ltac:(lia) ltac:(lia)) as (k2 & -> & I2). cbn [bind].
  destruct (mset_is _ _ _ _ 2 (dim - 2) 1 I2 ltac:(lia) ltac:(lia)) as (k3 & -> & I3). cbn [bind].
  destruct (mset_is _ _ _ _ 3 (dim - 1) 1 I3 ltac:(lia) ltac:(lia)) as (k4 & -> & (R & C & G)). exists k4. split; [reflexivity|]. split; [exact R|]. split; [exact C|].
  intros i j Hi Hj. rewrite G by assumption.
  destruct (Z.eqb_spec i 3), (Z.eqb_spec j (dim - 1)); cbn [andb]; try lia;
  destruct (Z.eqb_spec i 2), (Z.eqb_spec j (dim - 2)); cbn [andb]; try lia;
  destruct (Z.eqb_spec i 1), (Z.eqb_spec j 1); cbn [andb]; try lia;
  destruct (Z.eqb_spec i 0), (Z.eqb_spec j 0); cbn [andb]; lia.
Qed.
Lemma C84_L_pf : forall dim, 1 <= dim -> exists m, build_L_matrix dim = Ok m /\ mrows m = dim /\ mcols m = 4 /\
  forall i j, 0 <= i < dim -> 0 <= j < 4 -> (mat_at m i j = 1 <-> i = 0 /\ j = 1 \/ i = dim - 1 /\ j = 2) /\ (mat_at m i j = 0 \/ mat_at m i j = 1).
Proof.
  intros dim H. unfold build_L_matrix. destruct (mzeros_is dim 4 ltac:(lia) ltac:(lia)) as (k0 & -> & I0). cbn [bind].
  destruct (mset_is _ _ _ _ 0 1 1 I0 ltac:(lia) ltac:(lia)) as (k1 & -> & I1). cbn [bind].
  destruct (mset_is _ _ _ _ (dim - 1) 2 1 I1 ltac:(lia) ltac:(lia)) as (k2 & -> & (R & C & G)). exists k2. split; [reflexivity|]. split; [exact R|]. split; [exact C|].
  intros i j Hi Hj. rewrite G by assumption.
  destruct (Z.eqb_spec i (dim - 1)), (Z.eqb_spec j 2); cbn [andb]; try lia; destruct (Z.eqb_spec i 0), (Z.eqb_spec j 1); cbn [andb]; lia.
Qed.
Lemma C84_small_pf : forall dim,
  (dim < 0 -> build_K_matrix dim = Err ValueError /\ build_L_matrix dim = Err ValueError) /\
  (0 <= dim < 2 -> build_K_matrix dim = Err IndexError) /\ (dim = 0 -> build_L_matrix dim = Err IndexError).
Proof.
  intros dim. split; [|split].
  - intros H. unfold build_K_matrix, build_L_matrix, mzeros. destruct (Z.ltb_spec dim 0); [|lia]. split; reflexivity.
  - intros H. assert (dim = 0 \/ dim = 1) as [->| ->] by lia; reflexivity.
  - intros ->. reflexivity.
Qed.

(** ** The configurations made and dropped before the guesses *)
Lemma mapM_from : forall A B (f : A -> res B) l ys y, mapM f l = Ok ys -> In y ys -> exists x, In x l /\ f x = Ok y.
Proof.
  intros A B f l. induction l as [|x l IH]; intros ys y H I; cbn [mapM] in H.
  - injection H as <-. destruct I.
  - apply bind_ok_inv in H. destruct H as (z & Hz & H). apply bind_ok_inv in H. destruct H as (zs & Hzs & H). injection H as <-.
    destruct I as [<-|I]; [exists x; split; [now left | assumption]|]. destruct (IH _ _ Hzs I) as (x' & I' & E'). exists x'. split; [now right | assumption].
Qed.
Definition earlier_counts : list (list Z) :=
  [[4; 1; 0; 3; 4]; [4; 1; 0; 3; 4]; [4; 0; 2; 2; 6]; [4; 2; 0; 2; 6]; [4; 3; 0; 1; 4]; [4; 0; 2; 2; 6]; [4; 0; 2; 2; 6];
   [8; 1; 0; 7; 8]; [8; 2; 0; 6; 28]; [8; 3; 0; 5; 56];
   [9; 1; 0; 8; 9]; [9; 1; 4; 4; 630]; [9; 1; 4; 4; 630]; [9; 1; 4; 4; 630]; [9; 2; 0; 7; 36]; [9; 2; 3; 4; 1260]; [9; 3; 0; 6; 84]; [9; 3; 3; 3; 1680]; [9; 0; 0; 9; 1]].
Lemma C83_earlier_pf : exists cs, mapM (fun '(h, v, s, holes, beta) => rectangle h v s holes beta) earlier = Ok cs /\
  (forall c, In c cs -> proper c) /\
  map (fun c => [nsites c; nholes c; nbeta c; nalpha c; nb_conf c]) cs =
  [[4; 1; 0; 3; 4]; [4; 1; 0; 3; 4]; [4; 0; 2; 2; 6]; [4; 2; 0; 2; 6]; [4; 3; 0; 1; 4]; [4; 0; 2; 2; 6]; [4; 0; 2; 2; 6];
   [8; 1; 0; 7; 8]; [8; 2; 0; 6; 28]; [8; 3; 0; 5; 56];
   [9; 1; 0; 8; 9]; [9; 1; 4; 4; 630]; [9; 1; 4; 4; 630]; [9; 1; 4; 4; 630]; [9; 2; 0; 7; 36]; [9; 2; 3; 4; 1260]; [9; 3; 0; 6; 84]; [9; 3; 3; 3; 1680]; [9; 0; 0; 9; 1]].
Proof.
  destruct (mapM (fun '(h, v, s, holes, beta) => rectangle h v s holes beta) earlier) as [cs|e] eqn:Q.
  - exists cs. split; [reflexivity|]. split.
    + intros c I. destruct (mapM_from _ _ _ _ _ _ Q I) as (((((h & v) & k) & holes) & beta) & Ix & Ec).
      assert (R : (1 <= h /\ 1 <= v /\ 1 <= k) /\ 0 <= holes /\ 0 <= beta /\ holes + beta <= (k * h) * (k * v)).
      { clear Ec. repeat (destruct Ix as [Ix|Ix]; [injection Ix as <- <- <- <- <-; lia|]). destruct Ix. }
      destruct R as ((R1 & R2 & R3) & R4 & R5 & R6). destruct (rectangle_ok h v k holes beta R1 R2 R3) as (c' & Ec' & Rc).
      rewrite Ec in Ec'. injection Ec' as <-. now apply (rectangle_proper _ _ _ _ _ _ Rc).
    + assert (B : match mapM (fun '(h, v, s, holes, beta) => rectangle h v s holes beta) earlier with
        | Ok cs => map (fun c => [nsites c; nholes c; nbeta c; nalpha c; nb_conf c]) cs | Err _ => [] end = earlier_counts) by (vm_compute; reflexivity).
      rewrite Q in B. exact B.
  - exfalso. assert (B : match mapM (fun '(h, v, s, holes, beta) => rectangle h v s holes beta) earlier with Ok _ => true | Err _ => false end = true) by (vm_compute; reflexivity).
    rewrite Q in B. discriminate.
Qed.
