(** Final lemmas for C121: the sign and the length of the vector in the rounded spin and probabilities. *)
From Coq Require Import ZArith List Bool Lia Permutation QArith Qcanon Lqa.
From Verif Require Import PyBase PyFacts Lattice Base Interact Spin Prob Ham Round RoundSpin RoundProb RoundDefs ScaleDefs PQc PBinary FScale.
Import ListNotations.
Open Scope Z_scope.

Section Vec.
Variables (F : floats) (s : Qc).
Hypothesis HS : rescales s F.
Notation up := (map (Qcmult s)).
Definition both (r : res (list Qc)) : res (list Qc) := w <- r ;; Ok (up w).
Lemma zlen_up : forall v, zlen (up v) = zlen v.
Proof. intros v. unfold zlen. now rewrite map_length. Qed.
Lemma get_up : forall v i, py_get (up v) i = (x <- py_get v i ;; Ok (s * x)%Qc).
Proof. intros v i. unfold py_get. rewrite zlen_up. destruct (_ <? 0); [reflexivity|]. rewrite nth_error_map. now destruct (nth_error v _). Qed.
Lemma set_nth_up : forall v k x, set_nth (up v) k (s * x)%Qc = up (set_nth v k x).
Proof. induction v as [|y v IH]; intros [|k] x; cbn [map set_nth]; try reflexivity. now rewrite IH. Qed.
Lemma set_up : forall v i x, py_set (up v) i (s * x)%Qc = both (py_set v i x).
Proof. intros v i x. unfold py_set, both. rewrite zlen_up. destruct (_ || _); [reflexivity|]. cbn [bind]. now rewrite set_nth_up. Qed.
Lemma plus_up : forall v i x, vplus_at_fl F (up v) i (s * x)%Qc = both (vplus_at_fl F v i x).
Proof. intros v i x. unfold vplus_at_fl. rewrite get_up. destruct (py_get v i) as [y|]; [|reflexivity]. cbn [bind]. now rewrite <- Qcmult_plus_distr_r, HS, set_up. Qed.
Lemma fold_up : forall A (f g : list Qc -> A -> res (list Qc)) l, (forall a x, g (up a) x = both (f a x)) -> forall a, foldM g (up a) l = both (foldM f a l).
Proof. intros A f g l H. induction l as [|x l IH]; intros a; [reflexivity|]. cbn [foldM]. rewrite H. unfold both at 1. destruct (f a x) as [a'|]; [|reflexivity]. cbn [bind]. apply IH. Qed.
Lemma zeros_up : forall v, vzeros (up v) = up (vzeros v).
Proof. intros v. unfold vzeros. rewrite !map_map. apply map_ext. intros x. ring. Qed.
Lemma spm_up : forall E c v i j, compute_S_plus_S_minus_fl F E c (up v) i j = both (compute_S_plus_S_minus_fl F E c v i j).
Proof.
  intros E c v i j. unfold compute_S_plus_S_minus_fl. rewrite zeros_up. apply fold_up. intros a x.
  destruct (get_hash_basis (nholes c) (nalpha c) (nbeta c) x) as [d|]; [|reflexivity]. cbn [bind]. destruct (compute_S_plus_S_minus_det E c d i j) as [[[|y l]|]|]; try reflexivity. cbn [bind].
  destruct (compute_hash_table c (y :: l)) as [k|]; [|reflexivity]. cbn [bind]. rewrite get_up. destruct (py_get v x) as [q|]; [|reflexivity]. cbn [bind]. apply plus_up.
Qed.
Lemma add_up : forall a b, vadd_fl F (up a) (up b) = up (vadd_fl F a b).
Proof.
  intros a b. unfold vadd_fl. revert b. induction a as [|x a IH]; intros [|y b]; cbn [map combine]; try reflexivity. cbn [fst snd]. now rewrite IH, <- Qcmult_plus_distr_r, HS.
Qed.
Lemma scale_up : forall x v, vscale_fl F x (up v) = up (vscale_fl F x v).
Proof. intros x v. unfold vscale_fl. rewrite !map_map. apply map_ext. intros y. rewrite <- HS. f_equal. ring. Qed.
Lemma S2_up : forall E c v, compute_S2_fl F E c (up v) = both (compute_S2_fl F E c v).
Proof.
  intros E c v. unfold compute_S2_fl. rewrite scale_up. apply fold_up. intros a i. apply fold_up. clear a. intros a j. rewrite !spm_up.
  destruct (compute_S_plus_S_minus_fl F E c v i j) as [p|]; [|reflexivity]. unfold both at 1. cbn [bind]. destruct (compute_S_plus_S_minus_fl F E c v j i) as [q|]; [|reflexivity]. unfold both. cbn [bind]. now rewrite !add_up.
Qed.
Lemma square_rescales : rescales (s * s)%Qc F.
Proof. intros x. rewrite <- !Qcmult_assoc. now rewrite !HS. Qed.
Lemma dot_up : forall a b, by_place F -> vdot_fl F (up a) (up b) = (s * s * vdot_fl F a b)%Qc.
Proof.
  intros a b HP. unfold vdot_fl. rewrite <- (add_all_scaled F (s * s)%Qc square_rescales), <- HP. do 2 f_equal. rewrite map_map. revert b. induction a as [|x a IH]; intros [|y b]; cbn [map combine]; try reflexivity. rewrite IH. f_equal.
  cbn [fst snd]. rewrite <- square_rescales. f_equal. ring.
Qed.
Variables (norm : list Qc -> Qc) (t : Qc) (v : list Qc).
Hypothesis Ns : s <> 0%Qc.
Hypothesis HT : (t * t = s * s)%Qc.
Hypothesis HN : norm (up v) = (t * norm v)%Qc.
Lemma square_not : (s * s)%Qc <> 0%Qc.
Proof. intros H. apply Qcmult_integral in H. tauto. Qed.
Lemma t_not : t <> 0%Qc.
Proof. intros H. rewrite H, Qcmult_0_l in HT. symmetry in HT. exact (square_not HT). Qed.
Lemma norm_up : fl F (norm (up v) * norm (up v))%Qc = (s * s * fl F (norm v * norm v))%Qc.
Proof. rewrite HN, <- square_rescales, <- HT. f_equal. ring. Qed.
Lemma ratio_up : forall x y, (s * s * x / (s * s * y) = x / y)%Qc.
Proof.
  intros x y. destruct (Qc_eq_dec y 0) as [->|Y]; [rewrite Qcmult_0_r; unfold Qcdiv; change (/ 0)%Qc with 0%Qc; rewrite !Qcmult_0_r; reflexivity|]. field. split; [exact Y | exact Ns].
Qed.
Lemma value_up : forall E c, by_place F -> compute_S2_exp_val_fl F norm E c (up v) = compute_S2_exp_val_fl F norm E c v.
Proof.
  intros E c HP. unfold compute_S2_exp_val_fl. rewrite S2_up, norm_up, HN. destruct (Qc_eq_dec (norm v) 0) as [Z|Z].
  - rewrite Z, Qcmult_0_r. reflexivity.
  - destruct (Qc_eq_dec (t * norm v) 0) as [Z'|_]; [apply Qcmult_integral in Z'; pose proof t_not; tauto|]. destruct (compute_S2_fl F E c v) as [w|]; [|reflexivity]. unfold both. cbn [bind]. now rewrite (dot_up v w HP), ratio_up.
Qed.
Lemma abs_square : forall x, (qabs x * qabs x = x * x)%Qc.
Proof. intros x. unfold qabs. destruct (qleb 0 x); ring. Qed.
Lemma proba_up : forall b spin site, proba_site_fl F b (up v) spin site = (p <- proba_site_fl F b v spin site ;; Ok (s * s * p)%Qc).
Proof.
  intros b spin site. unfold proba_site_fl. match goal with |- foldM ?f _ _ = (p <- foldM ?g _ _ ;; _) => set (f' := f); set (g' := g) end.
  assert (G : forall l a, foldM f' (s * s * a)%Qc l = (p <- foldM g' a l ;; Ok (s * s * p)%Qc)).
  { induction l as [|[k d] l IH]; intros a; [reflexivity|]. cbn [foldM]. unfold f' at 1, g' at 1. cbn [fst snd]. rewrite get_up. destruct (py_get v k) as [x|]; [|reflexivity]. cbn [bind]. destruct (get_spin_site (b_conf b) d site) as [q|]; [|reflexivity]. cbn [bind].
    rewrite !abs_square. replace (s * x * (s * x))%Qc with (s * s * (x * x))%Qc by ring. rewrite square_rescales. set (z := if (q =? spin)%Z then 1%Qc else 0%Qc).
    replace (s * s * a + s * s * fl F (x * x)%Qc * z)%Qc with (s * s * (a + fl F (x * x)%Qc * z))%Qc by ring. rewrite (square_rescales (a + fl F (x * x)%Qc * z)%Qc). apply IH. }
  rewrite <- G. f_equal. ring.
Qed.
Lemma divide_up : forall p, fdiv_fl F (s * s * p)%Qc (s * s * fl F (norm v * norm v))%Qc = fdiv_fl F p (fl F (norm v * norm v))%Qc.
Proof.
  intros p. unfold fdiv_fl. set (n := fl F (norm v * norm v)%Qc). rewrite ratio_up. unfold qeqb. destruct (Qeq_bool n 0%Qc) eqn:Z.
  - apply Qeq_bool_iff, Qc_is_canon in Z. rewrite Z, Qcmult_0_r. reflexivity.
  - destruct (Qeq_bool (s * s * n)%Qc 0%Qc) eqn:Z'; [|reflexivity]. apply Qeq_bool_iff, Qc_is_canon in Z'. apply Qcmult_integral in Z'. destruct Z' as [Z'|Z']; [exfalso; exact (square_not Z')|]. rewrite Z' in Z. discriminate.
Qed.
Lemma mapM_ext : forall A B (f g : A -> res B) l, (forall x, f x = g x) -> mapM f l = mapM g l.
Proof. intros A B f g l H. induction l as [|x l IH]; [reflexivity|]. cbn [mapM]. now rewrite H, IH. Qed.
Lemma probability_up : forall b spin rev, get_probability_spin_lattice_fl F norm b (up v) spin rev = get_probability_spin_lattice_fl F norm b v spin rev.
Proof.
  intros b spin rev. unfold get_probability_spin_lattice_fl. destruct (bad_spin spin); [reflexivity|]. apply mapM_ext. intros x. rewrite proba_up, norm_up. destruct (proba_site_fl F b v _ x) as [p|]; [|reflexivity]. cbn [bind]. apply divide_up.
Qed.
End Vec.
Lemma C121_spin_operator_pf : forall F s E c v, rescales s F -> compute_S2_fl F E c (map (Qcmult s) v) = (w <- compute_S2_fl F E c v ;; Ok (map (Qcmult s) w)).
Proof. intros F s E c v HS. now apply S2_up. Qed.
Lemma C121_spin_pf : forall F s t norm E roots c v, rescales s F -> by_place F -> s <> 0%Qc -> (t * t = s * s)%Qc -> norm (map (Qcmult s) v) = (t * norm v)%Qc ->
  compute_S2_exp_val_fl F norm E c (map (Qcmult s) v) = compute_S2_exp_val_fl F norm E c v /\
  compute_spin_number_fl F norm E roots c (map (Qcmult s) v) = compute_spin_number_fl F norm E roots c v.
Proof. intros F s t norm E roots c v HS HP Ns HT HN. pose proof (value_up F s HS norm t v Ns HT HN E c HP) as X. split; [exact X|]. unfold compute_spin_number_fl. now rewrite X. Qed.
Lemma C121_probabilities_pf : forall F s t norm b v rev, rescales s F -> s <> 0%Qc -> (t * t = s * s)%Qc -> norm (map (Qcmult s) v) = (t * norm v)%Qc ->
  get_spins_probabilitites_lattice_fl F norm b (map (Qcmult s) v) rev = get_spins_probabilitites_lattice_fl F norm b v rev.
Proof.
  intros F s t norm b v rev HS Ns HT HN. unfold get_spins_probabilitites_lattice_fl. apply mapM_ext. intros spin. now rewrite (probability_up F s HS norm t v Ns HT HN).
Qed.
Lemma C121_binary_pf : forall p e o norm E roots c b v rev, 2 <= p -> (forall (f : Qc -> Qc) q, o (map f q) = map f (o q)) ->
  (norm (map (Qcmult (power2 e)) v) = power2 e * norm v)%Qc -> (norm (map (Qcmult (- power2 e)) v) = power2 e * norm v)%Qc -> forall s, s = power2 e \/ s = (- power2 e)%Qc ->
  let F := mkFloats (binary p) o in
  compute_spin_number_fl F norm E roots c (map (Qcmult s) v) = compute_spin_number_fl F norm E roots c v /\
  get_spins_probabilitites_lattice_fl F norm b (map (Qcmult s) v) rev = get_spins_probabilitites_lattice_fl F norm b v rev.
Proof.
  intros p e o norm E roots c b v rev Hp HP N1 N2 s Hs F. destruct (C119_binary_pf p o e Hp) as [R1 R2]. fold F in R1, R2.
  assert (P : power2 e <> 0%Qc) by (intros Z; pose proof (power_pos e) as X; rewrite Z in X; discriminate X).
  assert (A : rescales s F /\ s <> 0%Qc /\ (power2 e * power2 e = s * s)%Qc /\ norm (map (Qcmult s) v) = (power2 e * norm v)%Qc).
  { destruct Hs as [-> | ->]; (split; [assumption|]); (split; [|split; [ring | assumption]]); [exact P|]. intros Z. apply P. rewrite <- (Qcopp_involutive (power2 e)), Z. reflexivity. }
  destruct A as (A1 & A2 & A3 & A4). split; [now apply (C121_spin_pf F s (power2 e)) | now apply (C121_probabilities_pf F s (power2 e))].
Qed.
