(** Final lemmas for C74 and C78: the phase diagrams, the spins of eigenvectors. *)
From Coq Require Import ZArith String List Bool Lia QArith Qcanon.
From Verif Require Import PyBase PyFacts Lattice Base Interact Ham Spin Prob Dav PQc PProb Spec SpecTJ SpinDefs Geometry HamSpec Files FHam Emb Display Post Phase.
Import ListNotations.
Open Scope Z_scope.

Lemma filled_counts : forall c w r alpha, filled c w r -> 0 <= alpha <= nsites c - nholes c ->
  filled (set_counts c alpha (nsites c - nholes c - alpha)) w r.
Proof.
  intros c w r alpha (R & S & H & B & A) Ha. split; [exact R|]. split; [exact S|]. cbn. repeat split; lia.
Qed.

Lemma comb_two : forall n k, 0 < k < n -> 2 <= comb n k.
Proof.
  intros n k H. rewrite comb_binom' by lia. destruct (Z.to_nat n) as [|m] eqn:Em; [lia|]. destruct (Z.to_nat k) as [|j] eqn:Ej; [lia|].
  rewrite binom_S. pose proof (binom_pos m j ltac:(lia)). pose proof (binom_pos m (S j) ltac:(lia)). lia.
Qed.

Definition blank (n : Z) : list (list (Qc * Qc)) := repeat (repeat (0, 0)%Qc (Z.to_nat n)) (Z.to_nat n).

Lemma mapM_const : forall A B (f : A -> res B) y l, (forall x, In x l -> f x = Ok y) -> mapM f l = Ok (repeat y (length l)).
Proof.
  induction l as [|x l IH]; intros H; [reflexivity|]. cbn [mapM length repeat]. rewrite (H x (or_introl eq_refl)). cbn [bind]. rewrite IH by (intros; apply H; right; assumption). reflexivity.
Qed.
Lemma mapM_first_error : forall A B (f : A -> res B) e x l, f x = Err e -> mapM f (x :: l) = Err e.
Proof. intros A B f e x l H. cbn [mapM]. rewrite H. reflexivity. Qed.

Lemma sector_dim : forall E c w r alpha K s, set_iter_ok E -> filled c w r -> 0 <= alpha <= nsites c - nholes c ->
  let c' := set_counts c alpha (nsites c - nholes c - alpha) in
  exists l, construct_basis c' = Ok (mkBasis c' l) /\
    exists m, build_hamiltonian E c' K (mkBasis c' l) s (RList []) = Ok m /\ csr_dim m = comb (nsites c) (nholes c) * comb (nsites c - nholes c) alpha.
Proof.
  intros E c w r alpha K s HE F Ha c'. pose proof (filled_counts c w r alpha F Ha) as F'. fold c' in F'.
  destruct (C28_assembly_pf E c' w r K s (RList []) HE F') as (l & m & [A1 A2] & _ & D & _).
  exists l. split; [exact A1|]. exists m. split; [exact A2|]. rewrite D. unfold compute_dimension. cbn.
  replace (nsites c - alpha - (nsites c - nholes c - alpha)) with (nholes c) by lia. reflexivity.
Qed.

Lemma linspace_len : forall a b n, 0 <= n -> exists x, linspace a b n = Ok x /\ zlen x = n.
Proof.
  intros a b n H. unfold linspace. destruct (Z.ltb_spec n 0); [lia|]. eexists. split; [reflexivity|]. rewrite zlen_map, zlen_zrange; lia.
Qed.

Lemma point_blank : forall E roots b K s nb_state m, build_hamiltonian E (b_conf b) K b s (RList []) = Ok m -> 2 <= nb_state -> 2 <= csr_dim m ->
  phase_point E roots b K s nb_state = Ok (0, 0)%Qc.
Proof.
  intros E roots b K s nb m H Hn Hd. unfold phase_point. rewrite H. cbn [bind]. unfold davidson_of_numbers.
  destruct (Z.ltb_spec 1 (Z.min nb (csr_dim m))); [reflexivity | lia].
Qed.
Lemma point_fails : forall E roots b K s nb_state m, build_hamiltonian E (b_conf b) K b s (RList []) = Ok m -> nb_state <= 1 \/ csr_dim m <= 1 ->
  phase_point E roots b K s nb_state = Err TypeError.
Proof.
  intros E roots b K s nb m H Hn. unfold phase_point. rewrite H. cbn [bind]. unfold davidson_of_numbers.
  destruct (Z.ltb_spec 1 (Z.min nb (csr_dim m))); [lia | reflexivity].
Qed.

Lemma sector_blank : forall E roots c w r alpha K s nb_state nb_t nb_v, set_iter_ok E -> filled c w r -> 0 < nholes c < nsites c -> 2 <= nb_state ->
  1 <= nb_t -> 0 <= nb_v -> 0 <= alpha <= nsites c - nholes c -> forall x y, linspace 0 (qz 15) nb_v = Ok x -> linspace (- qz 5)%Qc 0 nb_t = Ok y ->
  let c' := set_counts c alpha (nsites c - nholes c - alpha) in
  phase_sector E roots c' K s nb_state nb_t nb_v =
    if nb_v =? nb_t then Ok (mkPhase (append (picture c' "PhaseDiagrams") ".png") x y (blank nb_t)) else Err TypeError.
Proof.
  intros E roots c w r alpha K s nb_state nb_t nb_v HE F Hh Hs Ht Hv Ha x y X Y c'. unfold phase_sector.
  destruct (sector_dim E c w r alpha K s HE F Ha) as (l & B & _). fold c' in B. rewrite B. cbn [bind]. rewrite X. cbn [bind]. rewrite Y. cbn [bind].
  rewrite (mapM_const _ _ _ (repeat (0, 0)%Qc (Z.to_nat nb_t))).
  - cbn [bind]. rewrite zrange_length, Z.sub_0_r.
    assert (Lx : zlen x = nb_v). { destruct (linspace_len 0 (qz 15) nb_v Hv) as (x' & X' & L'). congruence. } rewrite Lx. destruct (nb_v =? nb_t); reflexivity.
  - intros iX _. rewrite (mapM_const _ _ _ (0, 0)%Qc); [rewrite zrange_length, Z.sub_0_r; reflexivity|].
    intros iY _. destruct (sector_dim E c w r alpha (phase_interactions K iX iY) s HE F Ha) as (l' & B' & m & M & D). fold c' in B', M.
    rewrite B in B'. injection B' as <-. apply (point_blank _ _ _ _ _ _ m); [exact M | exact Hs|]. rewrite D.
    pose proof (comb_two (nsites c) (nholes c) Hh). pose proof (comb_pos (nsites c - nholes c) alpha Ha). nia.
Qed.

Lemma C74_blank_pf : forall E roots d w r nb_state nb, set_iter_ok E -> filled (d_conf d) w r -> let c := d_conf d in
  0 < nholes c < nsites c -> 2 <= nb_state -> 1 <= nb ->
  exists x y c', linspace 0 (qz 15) nb = Ok x /\ linspace (- qz 5)%Qc 0 nb = Ok y /\
    save_phase_space E roots d nb_state nb nb =
      (map (fun alpha => mkPhase (append (picture (set_counts c alpha (nsites c - nholes c - alpha)) "PhaseDiagrams") ".png") x y
              (repeat (repeat (0, 0)%Qc (Z.to_nat nb)) (Z.to_nat nb))) (zrange 0 (nsites c - nholes c + 1)), Ok c') /\
    nalpha c' = nsites c - nholes c /\ nbeta c' = 0 /\ nholes c' = nholes c /\ nb_conf c' = nb_conf c.
Proof.
  intros E roots d w r nb_state nb HE F c Hh Hs Hn.
  destruct (linspace_len 0 (qz 15) nb ltac:(lia)) as (x & X & _). destruct (linspace_len (- qz 5)%Qc 0 nb ltac:(lia)) as (y & Y & _).
  exists x, y, (set_counts c (nsites c - nholes c) 0). split; [exact X|]. split; [exact Y|]. split; [|cbn; auto].
  unfold save_phase_space. fold c. set (ne := nsites c - nholes c) in *.
  set (f := fun (st : list phase_map * res configuration) (alpha : Z) => _).
  set (g := fun alpha => mkPhase _ x y _).
  assert (G : forall l maps a b, (forall alpha, In alpha l -> 0 <= alpha <= ne) ->
     fold_left f l (maps, Ok (set_counts c a b)) = (maps ++ map g l, Ok (match rev l with [] => set_counts c a b | alpha :: _ => set_counts c alpha (ne - alpha) end))).
  { induction l as [|alpha l IH]; intros maps a b Hl; [rewrite app_nil_r; reflexivity|]. cbn [fold_left map rev].
    assert (St : f (maps, Ok (set_counts c a b)) alpha = (maps ++ [g alpha], Ok (set_counts c alpha (ne - alpha)))).
    { unfold f. change (set_counts (set_counts c a b) alpha (nsites (set_counts c a b) - nholes (set_counts c a b) - alpha)) with (set_counts c alpha (nsites c - nholes c - alpha)).
      rewrite (sector_blank E roots c w r alpha _ _ nb_state nb nb HE F Hh Hs Hn ltac:(lia) (Hl alpha (or_introl eq_refl)) x y X Y).
      rewrite Z.eqb_refl. reflexivity. }
    rewrite St, IH by (intros; apply Hl; right; assumption). rewrite <- app_assoc. f_equal. f_equal.
    destruct (rev l) as [|z zs]; reflexivity. }
  assert (Ec : c = set_counts c (nalpha c) (nbeta c)) by (destruct c; reflexivity).
  rewrite Ec at 1. rewrite G by (intros alpha Ha; apply in_zrange in Ha; lia). cbn [app]. f_equal. f_equal.
  rewrite zrange_snoc by (unfold ne; lia). rewrite rev_app_distr. cbn [rev app]. f_equal. lia.
Qed.

Lemma first_fails : forall E roots d nb_state nb_t nb_v e, let c := d_conf d in 0 <= nsites c - nholes c ->
  phase_sector E roots (set_counts c 0 (nsites c - nholes c - 0)) (d_inter d) (s_of (d_bools d)) nb_state nb_t nb_v = Err e ->
  save_phase_space E roots d nb_state nb_t nb_v = ([], Err e).
Proof.
  intros E roots d nb_state nb_t nb_v e c H S. unfold save_phase_space. fold c. rewrite zrange_cons by lia. cbn [fold_left].
  set (f := fun (st : list phase_map * res configuration) (alpha : Z) => _). rewrite S.
  assert (G : forall l, fold_left f l ([], Err e) = ([], Err e)) by (induction l as [|a l IH]; [reflexivity|]; cbn [fold_left]; exact IH).
  apply G.
Qed.

Lemma C74_fails_pf : forall E roots d w r nb_state nb_t nb_v, set_iter_ok E -> filled (d_conf d) w r -> let c := d_conf d in
  nholes c <= nsites c -> 1 <= nb_t -> 0 <= nb_v -> nb_state <= 1 \/ nholes c = 0 \/ nholes c = nsites c ->
  save_phase_space E roots d nb_state nb_t nb_v = ([], Err TypeError).
Proof.
  intros E roots d w r nb_state nb_t nb_v HE F c Hh Ht Hv H. apply first_fails; [fold c; lia|]. fold c.
  assert (Ha : 0 <= 0 <= nsites c - nholes c) by lia. set (c' := set_counts c 0 _).
  destruct (linspace_len 0 (qz 15) nb_v Hv) as (x & X & _). destruct (linspace_len (- qz 5)%Qc 0 nb_t ltac:(lia)) as (y & Y & _).
  unfold phase_sector. destruct (sector_dim E c w r 0 (d_inter d) (s_of (d_bools d)) HE F Ha) as (l & B & _). fold c' in B.
  rewrite B. cbn [bind]. rewrite X. cbn [bind]. rewrite Y. cbn [bind]. rewrite zrange_cons by lia.
  rewrite (mapM_first_error _ _ _ TypeError); [reflexivity|]. apply mapM_first_error.
  destruct (sector_dim E c w r 0 (phase_interactions (d_inter d) 0 0) (s_of (d_bools d)) HE F Ha) as (l' & B' & m & M & D). fold c' in B', M.
  rewrite B in B'. injection B' as <-. apply (point_fails _ _ _ _ _ _ m M). destruct H as [H|H]; [left; exact H|]. right. rewrite D.
  destruct F as (_ & _ & Hh0 & _). fold c in Hh0.
  rewrite !comb_binom' by lia. change (Z.to_nat 0) with 0%nat. rewrite binom_0. destruct H as [H|H]; rewrite H; [change (Z.to_nat 0) with 0%nat; rewrite binom_0 | rewrite binom_diag]; lia.
Qed.

Lemma C74_sizes_pf : forall E roots d w r nb_state nb_t nb_v, set_iter_ok E -> filled (d_conf d) w r -> let c := d_conf d in
  0 < nholes c < nsites c -> 2 <= nb_state -> 1 <= nb_t -> 0 <= nb_v -> nb_v <> nb_t -> nb_v <> nb_t + 1 ->
  save_phase_space E roots d nb_state nb_t nb_v = ([], Err TypeError).
Proof.
  intros E roots d w r nb_state nb_t nb_v HE F c Hh Hs Ht Hv N _. apply first_fails; [fold c; lia|]. fold c.
  destruct (linspace_len 0 (qz 15) nb_v Hv) as (x & X & _). destruct (linspace_len (- qz 5)%Qc 0 nb_t ltac:(lia)) as (y & Y & _).
  rewrite (sector_blank E roots c w r 0 _ _ nb_state nb_t nb_v HE F Hh Hs Ht Hv ltac:(lia) x y X Y).
  destruct (Z.eqb_spec nb_v nb_t); [contradiction | reflexivity].
Qed.

(** the axes against the couplings *)
Lemma C74_axes_pf : forall K iX iY, i_J K <> 0%Qc -> let K' := phase_interactions K iX iY in
  (i_VNN K' / i_J K' = qz iX)%Qc /\ (i_t K' / i_J K' = - qz iY)%Qc /\
  (i_tNNN K' * qz 55 = - qz 13 * i_t K')%Qc /\ (i_tnNNN K' * qz 55 = qz 36 * i_t K')%Qc /\ (i_VNNNper K' * qz 177 = qz 79 * i_VNN K')%Qc /\
  i_J K' = i_J K /\ i_Jhpar K' = i_Jhpar K /\ i_Jhper K' = i_Jhper K /\ i_hSDpar K' = i_hSDpar K /\ i_hSDper K' = i_hSDper K.
Proof.
  intros K iX iY H K'. unfold K', phase_interactions. cbn.
  assert (qz 55 <> 0%Qc) by discriminate. assert (qz 177 <> 0%Qc) by discriminate.
  split; [field; exact H|]. split; [field; exact H|].
  assert (E13 : qz (-13) = (- qz 13)%Qc) by (apply Qc_is_canon; reflexivity).
  assert (E79 : qfrac 79 177 = (qz 79 / qz 177)%Qc) by (apply Qc_is_canon; reflexivity).
  rewrite E13, E79. split; [field; assumption|]. split; [field; assumption|]. split; [field; assumption|]. auto 8.
Qed.
Lemma C74_axes_refuted_pf : forall nb y, 2 <= nb -> linspace (- qz 5)%Qc 0 nb = Ok y ->
  exists iY v, nth_error y (Z.to_nat iY) = Some v /\ 0 <= iY < nb /\ forall K iX, i_J K <> 0%Qc -> (i_t (phase_interactions K iX iY) / i_J K <> v)%Qc.
Proof.
  intros nb y H Y. exists 0, (- qz 5)%Qc. unfold linspace in Y. destruct (Z.ltb_spec nb 0); [lia|]. injection Y as <-.
  split. { rewrite zrange_cons by lia. cbn [map Z.to_nat nth_error]. f_equal. destruct (nb =? 1); [reflexivity|].
    replace (qz 0) with 0%Qc by reflexivity. unfold Qcdiv. ring. }
  split; [lia|]. intros K iX HJ Q. unfold phase_interactions in Q. cbn in Q.
  assert (Z0 : (- qz 0 * i_J K / i_J K)%Qc = 0%Qc) by (replace (qz 0) with 0%Qc by reflexivity; field; exact HJ).
  unfold qz in Z0, Q. rewrite Z0 in Q. discriminate.
Qed.

(** ** C78 *)
Lemma C78_attribute_pf : forall E b vects v, In v vects -> inner v v <> 0%Qc -> compute_spin_and_multiplicity E b vects = Err AttributeError.
Proof.
  intros E b vects v Hv Hn. unfold compute_spin_and_multiplicity.
  assert (M : mapM (compute_S2_exp_val_of E (AsBasis b)) vects = Err AttributeError); [|rewrite M; reflexivity].
  induction vects as [|u vects IH]; [destruct Hv|]. cbn [mapM]. unfold compute_S2_exp_val_of at 1.
  rewrite vdot_inner by reflexivity. destruct (qeqb (inner u u) 0) eqn:Q.
  - cbn [bind]. destruct Hv as [->|Hv]; [apply qeqb_eq in Q; contradiction|]. rewrite (IH Hv). reflexivity.
  - reflexivity.
Qed.
Lemma C78_zero_pf : forall E b vects, (forall v, In v vects -> inner v v = 0%Qc) ->
  compute_spin_and_multiplicity E b vects = Ok (map (fun _ => 0%Qc) vects, map (fun _ => Some "singlet"%string) vects).
Proof.
  intros E b vects H. unfold compute_spin_and_multiplicity.
  rewrite (mapM_ok _ _ _ (fun _ => 0%Qc)).
  - cbn [bind]. f_equal. f_equal. rewrite map_map. reflexivity.
  - intros v Hv. unfold compute_S2_exp_val_of. rewrite vdot_inner by reflexivity. rewrite (proj2 (qeqb_eq _ _) (H v Hv)). reflexivity.
Qed.
