(** Symmetries of the states, over the real numbers. *)
From Coq Require Import ZArith List Bool Lia QArith Qcanon Reals Qreals Lra Lqa Psatz Permutation.
From Verif Require Import PyBase PyFacts Lattice Base Interact Ham Spin Spec SpecOps SpecTJ SpecSpin SpinDefs Geometry HamSpec EnergyDefs DrawnDefs SignDefs MotionDefs RealSum RealDefs SymDefs
  POps PSpin PQc PBasis PSites PHam FGeo FSites FInter FHam PWave PTJSpin PVec PSecSum PSpinOp PBound PAct PDavIter FSpin FSpinVal FMulti FProj PSign PSignOp PPerron PSinglet FSign FSinglet FFerro FTop PDrawn FDrawn FMotion PReal PReal2 PRealQ FReal FReal3 FReal5 FReal6.
Import ListNotations.
Open Scope R_scope.

(** ** relabelled rows *)
Definition lsum (l : list nat) (g : nat -> R) : R := fold_right (fun i a => g i + a) 0 l.
Lemma lsum_app : forall l l' g, lsum (l ++ l') g = lsum l g + lsum l' g.
Proof. unfold lsum. induction l as [|a l IH]; intros l' g; cbn [app fold_right]; [now rewrite Rplus_0_l | rewrite IH; ring]. Qed.
Lemma lsum_seq : forall n g, lsum (seq 0 n) g = rsum n g.
Proof. induction n as [|n IH]; intros g; [reflexivity|]. rewrite seq_S, lsum_app, IH. unfold lsum. cbn [fold_right rsum Nat.add]. ring. Qed.
Lemma lsum_perm : forall l l' g, Permutation l l' -> lsum l g = lsum l' g.
Proof. unfold lsum. intros l l' g H. induction H; cbn [fold_right]; [reflexivity | now rewrite IHPermutation | ring | congruence]. Qed.
Lemma lsum_map : forall t l g, lsum (map t l) g = lsum l (fun i => g (t i)).
Proof. unfold lsum. induction l as [|a l IH]; intros g; cbn [map fold_right]; [reflexivity | now rewrite IH]. Qed.
Lemma rsum_perm : forall n t g, Permutation (map t (seq 0 n)) (seq 0 n) -> rsum n (fun i => g (t i)) = rsum n g.
Proof. intros n t g H. now rewrite <- !lsum_seq, <- lsum_map, (lsum_perm _ _ g H). Qed.

Section Relabel.
Variables (m m' : csr) (n : nat) (t : nat -> nat) (s : nat -> R).
Hypothesis D : dimension m = n.
Hypothesis D' : dimension m' = n.
Hypothesis PE : Permutation (map t (seq 0 n)) (seq 0 n).
Hypothesis SQ : forall i, (i < n)%nat -> s i * s i = 1.
Hypothesis EL : forall i j, (i < n)%nat -> (j < n)%nat -> element m' i j = s i * s j * element m (t i) (t j).
Definition relabelled (v : nat -> R) (i : nat) : R := s i * v (t i).
Lemma t_range : forall i, (i < n)%nat -> (t i < n)%nat.
Proof. intros i Hi. assert (I : In (t i) (seq 0 n)) by (apply (Permutation_in _ PE), in_map, in_seq; lia). apply in_seq in I. lia. Qed.
Lemma t_onto : forall j, (j < n)%nat -> exists i, (i < n)%nat /\ t i = j.
Proof. intros j Hj. assert (I : In j (map t (seq 0 n))) by (apply (Permutation_in _ (Permutation_sym PE)), in_seq; lia). apply in_map_iff in I. destruct I as (i & Q & I). apply in_seq in I. exists i. split; [lia | exact Q]. Qed.
Lemma relabelled_dot : forall u v, dot n (relabelled u) (relabelled v) = dot n u v.
Proof.
  intros u v. unfold dot, relabelled. rewrite <- (rsum_perm n t (fun i => u i * v i) PE). apply rsum_ext. intros i Hi. transitivity (s i * s i * (u (t i) * v (t i))); [ring | rewrite SQ by assumption; ring].
Qed.
Lemma relabelled_state : forall e v, energy_state m e v -> energy_state m' e (relabelled v).
Proof.
  intros e v ((j & Hj & Nj) & V). unfold energy_state. rewrite D in Hj, V. rewrite D'. split.
  - destruct (t_onto j Hj) as (i & Hi & Qi). exists i. split; [exact Hi|]. unfold relabelled. rewrite Qi. intros Z. apply Nj. transitivity (s i * s i * v j); [rewrite SQ by exact Hi; ring|]. transitivity (s i * (s i * v j)); [ring | rewrite Z; ring].
  - intros i Hi. unfold relabelled. transitivity (s i * rsum n (fun k => element m (t i) k * v k)).
    + rewrite <- (rsum_perm n t (fun k => element m (t i) k * v k) PE), <- rsum_scale. apply rsum_ext. intros j' Hj'. rewrite EL by assumption. transitivity (s j' * s j' * (s i * (element m (t i) (t j') * v (t j')))); [ring | rewrite SQ by exact Hj'; ring].
    + rewrite V by now apply t_range. ring.
Qed.
Lemma relabelled_states : forall e v, all_states m e v -> all_states m' e (fun k => relabelled (v k)).
Proof.
  intros e v (A & B & C). unfold all_states in *. rewrite D in *. rewrite D'. split; [intros k Hk; now apply relabelled_state, A|]. split; [|exact C].
  intros k k' Hk Hk'. rewrite <- (B k k' Hk Hk'). apply relabelled_dot.
Qed.
End Relabel.

(** the only ground state is even or odd *)
Lemma parity_real : forall m n t e v (F : nat -> R) (b : bool), dimension m = n -> Permutation (map t (seq 0 n)) (seq 0 n) ->
  (forall i j, (i < n)%nat -> (j < n)%nat -> element m i j = element m (t i) (t j)) -> energy_state m e v ->
  (forall v', energy_state m e v' -> exists x, forall i, (i < dimension m)%nat -> v' i = x * v i) ->
  (forall i, (i < n)%nat -> F i * F i = 1) -> ((forall i, (i < n)%nat -> 0 < F i * v i) \/ (forall i, (i < n)%nat -> 0 < F i * - v i)) ->
  (forall i, (i < n)%nat -> F i = (if b then -1 else 1) * F (t i)) ->
  forall i, (i < n)%nat -> (if b then - v i else v i) = v (t i).
Proof.
  intros m n t e v F b D PE EL V U F2 SG FB i Hi.
  assert (V' : energy_state m e (relabelled t (fun _ => 1) v)) by (apply (relabelled_state m m n t (fun _ => 1) D D PE); [intros; ring | intros; rewrite EL by assumption; ring | exact V]).
  destruct (U _ V') as (x & X). rewrite D in X. unfold relabelled in X.
  assert (X2 : x * x = 1).
  { pose proof (relabelled_dot n t (fun _ => 1) PE (fun _ _ => Rmult_1_l 1) v v) as Q. rewrite (dot_ext n _ (fun i => x * v i) _ (fun i => x * v i)) in Q by (intros; now apply X). rewrite dot_scale2 in Q.
    pose proof (state_size m e v V) as PS. rewrite D in PS. assert (Z : (x * x - 1) * dot n v v = 0) by Lra.lra. apply Rmult_integral in Z. destruct Z; Lra.lra. }
  assert (Ti : (t i < n)%nat) by now apply (t_range m m n t). pose proof (X i Hi) as Xi. rewrite Rmult_1_l in Xi. pose proof (FB i Hi) as Fi. pose proof (F2 (t i) Ti) as Q2. rewrite Xi.
  assert (G : forall y y', 0 < F i * y -> 0 < F (t i) * y' -> y' = x * y -> x = if b then -1 else 1).
  { intros y y' G1 G2 ->. rewrite Fi in G1. set (a := F (t i) * y). assert (A1 : F (t i) * (x * y) = x * a) by (unfold a; ring). rewrite A1 in G2.
    assert (XX : x = 1 \/ x = -1) by (assert (Z : (x - 1) * (x + 1) = 0) by Lra.lra; apply Rmult_integral in Z; destruct Z; [left | right]; Lra.lra).
    destruct b; [replace (-1 * F (t i) * y) with (- a) in G1 by (unfold a; ring) | replace (1 * F (t i) * y) with a in G1 by (unfold a; ring)]; destruct XX as [-> | ->]; try reflexivity; exfalso; Lra.lra. }
  assert (XB : x = if b then -1 else 1).
  { destruct SG as [SG|SG]; [apply (G (v i) (v (t i))) | apply (G (- v i) (- v (t i)))]; try (now apply SG); rewrite Xi; ring. }
  rewrite XB. destruct b; ring.
Qed.

Lemma C110_figures_pf : forall E E' c c' pos pos' f K S arg arg' l l' m m' e v, set_iter_ok E -> set_iter_ok E' ->
  filled_drawn_whole E c pos -> filled_drawn_whole E' c' pos' -> same_filling c c' -> same_figure (nsites c) pos pos' f ->
  flips_agree c pos K S -> flips_agree c' pos' K S -> assembled E c K S arg l m -> assembled E' c' K S arg' l' m' -> all_states m e v ->
  exists v', all_states m' e v' /\ forall k, moved_real c l f (v k) (v' k).
Proof.
  intros E E' c c' pos pos' f K S arg arg' l l' m m' e v HE HE' HF HF' SF FG AG AG' HA HA' A.
  destruct (C103_figures_pf E E' c c' pos pos' f K S arg arg' l l' m m' HE HE' HF HF' SF FG AG AG' HA HA') as (El' & _ & EL & _). unfold filled_drawn_whole in *.
  destruct (mirrored_drawn E c pos _ K S arg l m HE HF HA) as (_ & D). destruct (mirrored_drawn E' c' pos' _ K S arg' l' m' HE' HF' HA') as (_ & D'). rewrite El' in D'.
  destruct (drawn_core _ _ _ _ _ _ _ _ _ HE HF HA) as (El & _). pose proof HF as (HD & _ & _ & _ & Hh & Hb & _). pose proof (figure_bij _ _ _ _ ltac:(apply HD) FG) as B.
  destruct (gbefore c pos f _ HD Hh Hb B) as (tau & T1 & T2 & T3). rewrite <- El in T1, T2, T3.
  assert (DD : forall k d, nth_error l k = Some d -> describes (nsites c) (nholes c) (nbeta c) d (state_of c d)) by (intros k d H; rewrite El in H; exact (drawn_describes _ _ _ _ _ _ HF H)).
  exists (fun k => relabelled tau (fun _ => 1) (v k)). split.
  - apply (relabelled_states m m' (length l)); try assumption; [intros; ring|]. intros i j Hi Hj. rewrite Rmult_1_l, Rmult_1_l. unfold element. f_equal.
    destruct (nth_error l i) as [d'|] eqn:Qi; [|apply nth_error_None in Qi; lia]. destruct (nth_error l j) as [e'|] eqn:Qj; [|apply nth_error_None in Qj; lia].
    destruct (T1 i d' Qi) as (d0 & Q0 & C0). destruct (T1 j e' Qj) as (d1 & Q1 & C1).
    exact (EL (tau i) (tau j) i j d0 d1 d' e' _ _ _ _ Q0 Q1 Qi Qj (DD _ _ Q0) (DD _ _ Q1) (DD _ _ Qi) (DD _ _ Qj) C0 C1).
  - intros k i i' d d' s s' Hi Hi' Ds Ds' C. unfold relabelled. rewrite (T2 i' i d d' s s') by assumption. ring.
Qed.
Lemma C110_hops_pf : forall E c w r K S arg arg' l l' m m' e v, set_iter_ok E -> filled c w r ->
  assembled E c K S arg l m -> assembled E c (opposite_t K) S arg' l' m' -> all_states m e v ->
  exists v', all_states m' e v' /\ forall k, signed_real c l (hole_sign (nsites c) (point w)) (v k) (v' k).
Proof.
  intros E c w r K S arg arg' l l' m m' e v HE HF HA HA' A. destruct (mirrored_filled E c w r K S arg l m HE HF HA) as (_ & D). destruct (mirrored_filled E c w r _ S arg' l' m' HE HF HA') as (_ & D').
  destruct (core _ _ _ _ _ _ _ _ _ HE HF HA) as (El & _). destruct (core _ _ _ _ _ _ _ _ _ HE HF HA') as (El' & _). rewrite El', <- El in D'.
  assert (DD : forall k d, nth_error l k = Some d -> describes (nsites c) (nholes c) (nbeta c) d (state_of c d)) by (intros k d H; rewrite El in H; exact (dl_describes _ _ _ _ _ HF H)).
  set (s := fun i => real (hole_sign (nsites c) (point w) (state_of c (nth i l [])))).
  exists (fun k => relabelled (fun i => i) s (v k)). split.
  - apply (relabelled_states m m' (length l)); try assumption.
    + rewrite map_id. reflexivity.
    + intros i Hi. unfold s. rewrite <- real_mul. unfold hole_sign. rewrite sign_square. apply real_1.
    + intros i j Hi Hj. destruct (nth_error l i) as [d|] eqn:Qi; [|apply nth_error_None in Qi; lia]. destruct (nth_error l j) as [d'|] eqn:Qj; [|apply nth_error_None in Qj; lia].
      unfold s. rewrite (nth_error_nth _ _ [] Qi), (nth_error_nth _ _ [] Qj). unfold element. rewrite <- !real_mul. f_equal.
      exact (C88_elements_pf E c w r K S arg arg' l l' m m' i j d d' _ _ HE HF HA HA' Qi Qj (DD _ _ Qi) (DD _ _ Qj)).
  - intros k i d x Qi Dx. unfold relabelled, s. rewrite (nth_error_nth _ _ [] Qi). f_equal. f_equal. unfold hole_sign. apply sign_ext. intros y Hy. now rewrite (describes_unique _ _ _ _ _ _ (DD _ _ Qi) Dx y Hy).
Qed.

(** ** reversal of the spins *)
Section Reverse.
Variables (c c' : configuration) (l l' : list (list Z)).
Hypothesis P : proper c.
Hypothesis P' : proper c'.
Hypothesis Hn : nsites c' = nsites c.
Hypothesis Hh : nholes c' = nholes c.
Hypothesis Hb : nbeta c' = nalpha c.
Hypothesis HB : construct_basis c = Ok (mkBasis c l).
Hypothesis HB' : construct_basis c' = Ok (mkBasis c' l').
Definition back_to (i : nat) : nat := Z.to_nat (state_index (nsites c) (nholes c) (nbeta c) (flip_state (row c' l' i))).
Lemma flip_sector : forall i, (i < length l')%nat -> in_sector (nsites c) (nholes c) (nbeta c) (flip_state (row c' l' i)).
Proof.
  intros i Hi. destruct (row_ok c' l' P' HB' i Hi) as (S & _). rewrite Hn, Hh, Hb in S. pose proof P as (_ & _ & _ & A & _). pose proof (proper_n c P) as N0. apply (flip_in (nsites c) (nholes c) N0) in S.
  replace (nbeta c) with (nsites c - nholes c - nalpha c)%Z by lia. exact S.
Qed.
Lemma back_row : forall i, (i < length l')%nat -> (back_to i < length l)%nat /\ same_state (nsites c) (row c l (back_to i)) (flip_state (row c' l' i)).
Proof.
  intros i Hi. destruct (sector_row c l P HB _ (flip_sector i Hi)) as (k & Hk & SS). unfold back_to. rewrite (state_index_same _ _ _ _ _ SS). destruct (row_ok c l P HB k Hk) as (_ & I). rewrite I, Nat2Z.id.
  split; [exact Hk|]. intros x Hx. symmetry. now apply SS.
Qed.
Lemma back_inj : forall i j, (i < length l')%nat -> (j < length l')%nat -> back_to i = back_to j -> i = j.
Proof.
  intros i j Hi Hj Q. destruct (back_row i Hi) as (_ & S1). destruct (back_row j Hj) as (_ & S2). rewrite Q in S1.
  assert (SS : same_state (nsites c') (row c' l' i) (row c' l' j)).
  { intros x Hx. rewrite Hn in Hx. pose proof (S1 x Hx) as Q1. rewrite (S2 x Hx) in Q1. unfold flip_state in Q1. destruct (row c' l' i x), (row c' l' j x); cbn in Q1; congruence. }
  destruct (row_ok c' l' P' HB' i Hi) as (_ & I1). destruct (row_ok c' l' P' HB' j Hj) as (_ & I2). rewrite (state_index_same _ _ _ _ _ SS) in I1. lia.
Qed.
Lemma back_le : (length l' <= length l)%nat.
Proof.
  assert (I : incl (map back_to (seq 0 (length l'))) (seq 0 (length l))) by (intros y Hy; apply in_map_iff in Hy; destruct Hy as (k & <- & Ik); apply in_seq in Ik; apply in_seq; pose proof (proj1 (back_row k ltac:(lia))); lia).
  apply NoDup_incl_length in I; [rewrite map_length, !seq_length in I; exact I|]. apply NoDup_map_inj'; [|apply seq_NoDup]. intros a b Ia Ib. apply in_seq in Ia, Ib. apply back_inj; lia.
Qed.
Lemma back_is : forall i i' d d' s s', nth_error l i = Some d -> nth_error l' i' = Some d' -> describes (nsites c) (nholes c) (nbeta c) d s -> describes (nsites c') (nholes c') (nbeta c') d' s' ->
  (forall x, (0 <= x < nsites c)%Z -> s' x = match s x with Up => Down | Down => Up | Hole => Hole end) -> back_to i' = i.
Proof.
  intros i i' d d' s s' Qi Qi' Ds Ds' F. assert (Hi : (i < length l)%nat) by (apply nth_error_Some; congruence). assert (Hi' : (i' < length l')%nat) by (apply nth_error_Some; congruence).
  pose proof (row_describes c l P i d s Qi Ds) as S1. pose proof (row_describes c' l' P' i' d' s' Qi' Ds') as S2. unfold back_to.
  assert (SS : same_state (nsites c) (flip_state (row c' l' i')) (row c l i)).
  { intros x Hx. unfold flip_state. rewrite (S2 x) by (rewrite Hn; exact Hx). rewrite (F x Hx), (S1 x Hx). now destruct (s x). }
  rewrite (state_index_same _ _ _ _ _ SS). destruct (row_ok c l P HB i Hi) as (_ & I). now rewrite I, Nat2Z.id.
Qed.
End Reverse.

Lemma reverse_perm : forall c c' l l', proper c -> proper c' -> nsites c' = nsites c -> nholes c' = nholes c -> nbeta c' = nalpha c ->
  construct_basis c = Ok (mkBasis c l) -> construct_basis c' = Ok (mkBasis c' l') ->
  length l' = length l /\ Permutation (map (back_to c c' l') (seq 0 (length l))) (seq 0 (length l)).
Proof.
  intros c c' l l' P P' Hn Hh Hb HB HB'. pose proof P as (_ & _ & _ & A & _). pose proof P' as (_ & _ & _ & A' & _).
  assert (Q : length l' = length l) by (apply Nat.le_antisymm; [exact (back_le c c' l l' P P' Hn Hh Hb HB HB') | apply (back_le c' c l' l P' P); try assumption; lia]).
  split; [exact Q|]. apply NoDup_Permutation_bis.
  - apply NoDup_map_inj'; [|apply seq_NoDup]. intros a b Ia Ib. apply in_seq in Ia, Ib. apply (back_inj c c' l l' P P' Hn Hh Hb HB HB'); lia.
  - now rewrite map_length.
  - intros y Hy. apply in_map_iff in Hy. destruct Hy as (k & <- & Ik). apply in_seq in Ik. apply in_seq. pose proof (proj1 (back_row c c' l l' P P' Hn Hh Hb HB HB' k ltac:(lia))). lia.
Qed.
Lemma reverse_element : forall E c c' w K S arg arg' l l' m m', set_iter_ok E -> filled_whole c w -> filled_whole c' w -> proper c -> proper c' ->
  nsites c' = nsites c -> nholes c' = nholes c -> nbeta c' = nalpha c -> assembled E c K S arg l m -> assembled E c' K S arg' l' m' ->
  forall i j, (i < length l')%nat -> (j < length l')%nat -> element m' i j = element m (back_to c c' l' i) (back_to c c' l' j).
Proof.
  intros E c c' w K S arg arg' l l' m m' HE HF HF' P P' Hn Hh Hb HA HA' i j Hi Hj. unfold element. f_equal. pose proof (proj1 HA) as HB. pose proof (proj1 HA') as HB'.
  destruct (back_row c c' l l' P P' Hn Hh Hb HB HB' i Hi) as (L1 & S1). destruct (back_row c c' l l' P P' Hn Hh Hb HB HB' j Hj) as (L2 & S2).
  destruct (describes_row c' l' P' HB' i Hi) as (d & Qd & Dd). destruct (describes_row c' l' P' HB' j Hj) as (e & Qe & De).
  destruct (describes_row c l P HB _ L1) as (d1 & Qd1 & Dd1). destruct (describes_row c l P HB _ L2) as (e1 & Qe1 & De1).
  rewrite (C29_elements_pf E c' w _ K S arg' l' m' i j d e _ _ HE HF' HA' Qd Qe Dd De). rewrite (C29_elements_pf E c w _ K S arg l m _ _ d1 e1 _ _ HE HF HA Qd1 Qe1 Dd1 De1). rewrite Hn.
  rewrite <- (tj_spin_flip _ K S (row c' l' i) (row c' l' j)) by reflexivity. apply (tj_ext _ _ (nsites c)); try reflexivity; assumption.
Qed.
Lemma C110_reversal_pf : forall E c c' w K S arg arg' l l' m m' e v, set_iter_ok E -> filled_whole c w -> filled_whole c' w -> proper c -> proper c' ->
  nsites c' = nsites c -> nholes c' = nholes c -> nbeta c' = nalpha c -> assembled E c K S arg l m -> assembled E c' K S arg' l' m' -> all_states m e v ->
  exists v', all_states m' e v' /\ forall k, reversed_real c c' l l' (v k) (v' k).
Proof.
  intros E c c' w K S arg arg' l l' m m' e v HE HF HF' P P' Hn Hh Hb HA HA' A. destruct (mirrored_filled E c w _ K S arg l m HE HF HA) as (_ & D). destruct (mirrored_filled E c' w _ K S arg' l' m' HE HF' HA') as (_ & D').
  destruct (reverse_perm c c' l l' P P' Hn Hh Hb (proj1 HA) (proj1 HA')) as (LL & PE). exists (fun k => relabelled (back_to c c' l') (fun _ => 1) (v k)). split.
  - apply (relabelled_states m m' (length l)); try assumption; [congruence | intros; ring|]. intros i j Hi Hj. rewrite (reverse_element E c c' w K S arg arg' l l' m m'); try assumption; [ring | lia | lia].
  - intros k i i' d d' s s' Qi Qi' Ds Ds' F. unfold relabelled. rewrite (back_is c c' l l' P P' Hn (proj1 HA) i i' d d' s s' Qi Qi' Ds Ds' F). ring.
Qed.

(** ** parities of the ground state *)
Lemma follows_rows : forall c l f v, proper c -> construct_basis c = Ok (mkBasis c l) -> (forall s t, same_state (nsites c) s t -> f s = f t) ->
  (follows_real c l f v <-> forall i, (i < length l)%nat -> 0 < real (f (row c l i)) * v i).
Proof.
  intros c l f v P HB FS. split.
  - intros H i Hi. destruct (describes_row c l P HB i Hi) as (d & Qd & Dd). exact (H i d _ Qd Dd).
  - intros H k d s Qd Ds. rewrite <- (FS _ _ (row_describes c l P k d s Qd Ds)). apply H. apply nth_error_Some. congruence.
Qed.
Lemma moved_rows : forall c l f w v v' tau K S arg m E, set_iter_ok E -> filled_whole c w -> assembled E c K S arg l m -> motion (nsites c) (point w) f ->
  (forall k i d d' s s', nth_error l k = Some d' -> nth_error l i = Some d -> describes (nsites c) (nholes c) (nbeta c) d s -> describes (nsites c) (nholes c) (nbeta c) d' s' -> carried (nsites c) f s s' -> tau k = i) ->
  (forall i, (i < length l)%nat -> v' i = v (tau i)) -> moved_real c l f v v'.
Proof.
  intros c l f w v v' tau K S arg m E HE HF HA M T2 H i i' d d' s s' Hi Hi' Ds Ds' C. rewrite H by (apply nth_error_Some; congruence). now rewrite (T2 i' i d d' s s').
Qed.
Lemma motion_parity : forall E c w K S arg l m f e v (F : occupation -> Qc) (b : bool), set_iter_ok E -> filled_whole c w -> proper c -> assembled E c K S arg l m -> motion (nsites c) (point w) f ->
  energy_state m e v -> (follows_real c l F v \/ follows_real c l F (fun i => - v i)) -> (forall v', energy_state m e v' -> exists x, forall i, (i < dimension m)%nat -> v' i = x * v i) ->
  (forall s, (F s * F s)%Qc = 1%Qc) -> (forall s t, same_state (nsites c) s t -> F s = F t) ->
  (forall s s', in_sector (nsites c) (nholes c) (nbeta c) s -> carried (nsites c) f s s' -> F s' = (PSign.minus b * F s)%Qc) ->
  moved_real c l f v (fun i => if b then - v i else v i).
Proof.
  intros E c w K S arg l m f e v F b HE HF P HA M V SG U F2 FS FB. destruct (mirrored_filled E c w _ K S arg l m HE HF HA) as (_ & D). pose proof (proj1 HA) as HB.
  destruct (before E c w K S arg l m f HE HF HA M) as (tau & T1 & T2 & T3). destruct (core _ _ _ _ _ _ _ _ _ HE HF HA) as (El & _).
  assert (DD : forall k d, nth_error l k = Some d -> describes (nsites c) (nholes c) (nbeta c) d (state_of c d)) by (intros k d H; rewrite El in H; exact (dl_describes _ _ _ _ _ HF H)).
  apply (moved_rows c l f w v _ tau K S arg m E); try assumption.
  apply (parity_real m (length l) tau e v (fun i => real (F (row c l i))) b D T3); try assumption.
  - intros i j Hi Hj. unfold element. f_equal. destruct (nth_error l i) as [d'|] eqn:Qi; [|apply nth_error_None in Qi; lia]. destruct (nth_error l j) as [e'|] eqn:Qj; [|apply nth_error_None in Qj; lia].
    destruct (T1 i d' Qi) as (d0 & Q0 & C0). destruct (T1 j e' Qj) as (d1 & Q1 & C1).
    exact (C97_elements_pf E c w K S arg l m f (tau i) (tau j) i j d0 d1 d' e' _ _ _ _ HE HF HA M Q0 Q1 Qi Qj (DD _ _ Q0) (DD _ _ Q1) (DD _ _ Qi) (DD _ _ Qj) C0 C1).
  - intros i _. rewrite <- real_mul, F2. apply real_1.
  - destruct SG as [SG|SG]; [left | right]; exact (proj1 (follows_rows c l F _ P HB FS) SG).
  - intros i Hi. destruct (nth_error l i) as [d'|] eqn:Qi; [|apply nth_error_None in Qi; lia]. destruct (T1 i d' Qi) as (d0 & Q0 & C0).
    rewrite (FS _ _ (row_describes c l P i d' _ Qi (DD _ _ Qi))), (FS _ _ (row_describes c l P _ d0 _ Q0 (DD _ _ Q0))).
    rewrite (FB _ _ (describes_sector _ _ _ _ _ (DD _ _ Q0)) C0), real_mul. f_equal. destruct b; cbn [PSign.minus]; [rewrite real_opp, real_1; Lra.lra | apply real_1].
Qed.
Lemma ground_down : forall E c w K S arg l m e v, set_iter_ok E -> filled_whole c w -> assembled E c K S arg l m -> nholes c = 0%Z -> s_bij S = true -> (0 < i_J K)%Qc -> ground_energy m e -> energy_state m e v ->
  (follows_real c l (down_sign (nsites c) (point w)) v \/ follows_real c l (down_sign (nsites c) (point w)) (fun i => - v i)) /\ forall v', energy_state m e v' -> exists x, forall i, (i < dimension m)%nat -> v' i = x * v i.
Proof.
  intros E c w K S arg l m e v HE HF HA H0 HB HJ G V. assert (J1 : (0 <= i_J K)%Qc) by now apply Qclt_le_weak.
  apply (ground_signed E c w (zrange 0 (nsites c)) K S arg l m (down_sign (nsites c) (point w)) HE HF HA) with (e := e) (v := v); try assumption;
    [intros; apply sign_square | intros; now apply down_same | now apply (marshall_signs E c w K S arg l m) | now apply (indices_linked E c w K S arg l m)].
Qed.
Lemma C110_parity_pf : forall E c w K S arg l m f e v, set_iter_ok E -> filled_whole c w -> proper c -> assembled E c K S arg l m ->
  nholes c = 0%Z -> s_bij S = true -> (0 < i_J K)%Qc -> motion (nsites c) (point w) f -> ground_energy m e -> energy_state m e v ->
  moved_real c l f v (fun i => if Z.odd (nbeta c) && black (point w (f 0%Z)) then - v i else v i).
Proof.
  intros E c w K S arg l m f e v HE HF P HA H0 HB HJ M G V. destruct (ground_down E c w K S arg l m e v HE HF HA H0 HB HJ G V) as [SG U].
  apply (motion_parity E c w K S arg l m f e v (down_sign (nsites c) (point w)) (Z.odd (nbeta c) && black (point w (f 0%Z)))); try assumption; [intros; apply sign_square | intros; now apply down_same|].
  intros s s' [_ Sb] C. unfold down_sign. pose proof (row_major_drawn c w (proj1 HF)) as (P0 & _). rewrite (sign_carried _ w f Down s s' downb P0 M C) by (intros []; cbn; split; congruence). now rewrite Sb.
Qed.
Lemma C110_parity_holes_pf : forall E c w K S arg l m f e v, set_iter_ok E -> filled_whole c w -> proper c -> assembled E c K S arg l m ->
  ferromagnetic K S -> nholes c = 0%Z \/ (s_bt S = true /\ i_t K <> 0%Qc) -> motion (nsites c) (point w) f -> ground_energy m e -> energy_state m e v ->
  ((0 < i_t K)%Qc -> moved_real c l f v (fun i => if Z.odd (nholes c) && black (point w (f 0%Z)) then - v i else v i)) /\
  ((i_t K <= 0)%Qc -> moved_real c l f v v).
Proof.
  intros E c w K S arg l m f e v HE HF P HA FE HT M G V. pose proof FE as (UF & _). pose proof (row_major_drawn c w (proj1 HF)) as (P0 & _).
  destruct (ground_signed E c w (zrange 0 (nsites c)) K S arg l m (hop_sign K (nsites c) (point w)) HE HF HA) with (e := e) (v := v) as [SG U]; try assumption;
    [intros; apply hop_square | intros; now apply hop_same | | now apply (hops_linked E c w K S arg l m)|].
  { intros i j d d' s t NE Hi Hj Ds Dt. now apply (C95_elements_pf E c w _ K S arg l m i j d d' s t HE HF HA). }
  split; intros T.
  - apply (motion_parity E c w K S arg l m f e v (hop_sign K (nsites c) (point w)) (Z.odd (nholes c) && black (point w (f 0%Z)))); try assumption; [intros; apply hop_square | intros; now apply hop_same|].
    intros s s' [Sh _] C. unfold hop_sign. destruct (Qclt_le_dec 0 (i_t K)) as [_|N]; [|exfalso; exact (Qclt_not_le _ _ T N)].
    unfold hole_sign. rewrite (sign_carried _ w f Hole s s' holeb P0 M C) by (intros []; cbn; split; congruence). now rewrite Sh.
  - change (moved_real c l f v (fun i => if false then - v i else v i)).
    apply (motion_parity E c w K S arg l m f e v (hop_sign K (nsites c) (point w)) false); try assumption; [intros; apply hop_square | intros; now apply hop_same|].
    intros s s' [Sh _] C. unfold hop_sign. destruct (Qclt_le_dec 0 (i_t K)) as [N|_]; [exfalso; exact (Qclt_not_le _ _ N T)|]. unfold PSign.minus. ring.
Qed.
Lemma C110_reversed_parity_pf : forall E c w K S arg l m e v, set_iter_ok E -> filled_whole c w -> proper c -> assembled E c K S arg l m ->
  nholes c = 0%Z -> nalpha c = nbeta c -> s_bij S = true -> (0 < i_J K)%Qc -> ground_energy m e -> energy_state m e v ->
  reversed_real c c l l v (fun i => if Z.odd (nbeta c) then - v i else v i).
Proof.
  intros E c w K S arg l m e v HE HF P HA H0 Hab HB HJ G V. destruct (ground_down E c w K S arg l m e v HE HF HA H0 HB HJ G V) as [SG U].
  destruct (mirrored_filled E c w _ K S arg l m HE HF HA) as (_ & D). pose proof (proj1 HA) as HC. pose proof P as (A1 & A2 & A3 & A4 & _).
  destruct (reverse_perm c c l l P P eq_refl eq_refl (eq_sym Hab) HC HC) as (_ & PE). pose proof HF as (RM & _). destruct (rows_of c w RM) as (hh & Hhh & Hw & HN).
  intros i i' d d' s s' Qi Qi' Ds Ds' F. rewrite <- (back_is c c l l P P eq_refl HC i i' d d' s s' Qi Qi' Ds Ds' F). assert (Hi' : (i' < length l)%nat) by (apply nth_error_Some; congruence).
  apply (parity_real m (length l) (back_to c c l) e v (fun i => real (down_sign (nsites c) (point w) (row c l i))) (Z.odd (nbeta c)) D PE); try assumption.
  - intros p q Hp Hq. apply (reverse_element E c c w K S arg arg l l m m); try assumption; try reflexivity. now symmetry.
  - intros p _. rewrite <- real_mul. unfold down_sign. rewrite sign_square. apply real_1.
  - assert (FS : forall s t, same_state (nsites c) s t -> down_sign (nsites c) (point w) s = down_sign (nsites c) (point w) t) by (intros; now apply down_same).
    destruct SG as [SG|SG]; [left | right]; exact (proj1 (follows_rows c l _ _ P HC FS) SG).
  - intros p Hp. destruct (back_row c c l l P P eq_refl eq_refl (eq_sym Hab) HC HC p Hp) as (_ & SS). rewrite (down_same _ _ _ _ SS).
    assert (Q : (down_sign (nsites c) (point w) (row c l p) * down_sign (nsites c) (point w) (flip_state (row c l p)))%Qc = PSign.minus (Z.odd (nbeta c))).
    { unfold down_sign. rewrite sign_mul. rewrite <- (sign_pairs (fun y => black (point w y)) (nbeta c) A2).
      - replace (2 * nbeta c)%Z with (nsites c) by lia. apply sign_ext. intros y Hy. destruct (describes_row c l P HC p Hp) as (d0 & _ & D0). pose proof (no_holes c _ _ D0 H0 y Hy) as NH.
        unfold flip_state. destruct (row c l p y); [congruence| |]; cbn [flip_particle downb andb xorb]; now destruct (black (point w y)).
      - intros y Hy. pose proof (point_colours w (nbeta c) (2 * y) Hw ltac:(lia)) as Q. unfold partner in Q. rewrite Z.even_mul in Q. exact Q. }
    apply (f_equal real) in Q. rewrite real_mul in Q. set (a := real (down_sign (nsites c) (point w) (row c l p))) in *. set (b := real (down_sign (nsites c) (point w) (flip_state (row c l p)))) in *.
    assert (B2 : b * b = 1) by (unfold b; rewrite <- real_mul; unfold down_sign; rewrite sign_square; apply real_1).
    assert (MM : real (PSign.minus (Z.odd (nbeta c))) = if Z.odd (nbeta c) then -1 else 1) by (destruct (Z.odd (nbeta c)); cbn [PSign.minus]; [rewrite real_opp, real_1; Lra.lra | apply real_1]).
    rewrite MM in Q. rewrite <- Q. transitivity (a * (b * b)); [rewrite B2; ring | ring].
Qed.
