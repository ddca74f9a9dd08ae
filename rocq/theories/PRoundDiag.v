(** The entries on the diagonal of the rounded Hamiltonian. *)
From Coq Require Import ZArith List Bool Lia Permutation QArith Qcanon Lqa.
From Verif Require Import PyBase PyFacts Lattice Base Interact Ham Round Spec SpecOps SpecTJ SpinDefs Geometry HamSpec SignDefs EnergyDefs RangeDefs RoundDefs.
From Verif Require Import PSpin PQc PBasis PSites PRep PMat PGeo PInter PHam POps FGeo FSites FInter FHam PSecSum PBound PDavIter PDav FDav FSpinVal PSign PSignOp PPerron FSign FMotion PEnergy FEnergy PRange FRange PTrace FTrace PLowest PRound PRound2 FRound FRound2 PRoundSym FRoundSym.
Import ListNotations.
Open Scope Z_scope.

(** ** each place receives as many entries as in a run where all values are one *)
Definition unit_couplings : interactions := mkInter 1 (qz 2) (qz 2) (qz 2) 1 1 1 1 0 0.
Definition units : values := mirror_values unit_couplings (fun _ => Ok 1%Qc) (fun _ => Ok 1%Qc).
Definition unit_beside (x _y _z : Qc) : Prop := x = 1%Qc.

Section Units.
Variables (E : runtime) (c : configuration) (l : list (list Z)) (V : values).
Let b := mkBasis c l.
Lemma unit_singlets : forall x y x' y' k images h h' h'', x = 1%Qc -> y = 1%Qc -> lock unit_beside h h' h'' ->
  locked unit_beside (with_singlets c x y k h images) (with_singlets c x' y' k h' images) (with_singlets c x' y' k h'' images).
Proof.
  intros x y x' y' k images h h' h'' H1 H2 Hl. unfold with_singlets. apply locked_fold; [|exact Hl]. intros a a' a'' [t1 t2] _ Ha.
  apply locked_same. intros i _. apply locked_same. intros j _. apply locked_ok. apply lock_add; [|exact H2]. now apply lock_add.
Qed.
Lemma unit_diagonal : forall f h h' h'', lock unit_beside h h' h'' ->
  locked unit_beside (foldM (diagonal_step (fun _ => Ok 1%Qc)) h (enumerate l)) (foldM (diagonal_step f) h' (enumerate l)) (foldM (diagonal_step f) h'' (enumerate l)).
Proof.
  intros f. apply locked_fold. intros a a' a'' [k d] _ Ha. unfold diagonal_step. intros o Q. destruct (f d) as [x|]; [|discriminate]. cbn [bind] in *. injection Q as <-.
  eexists. eexists. split; [reflexivity|]. split; [reflexivity|]. apply lock_add; [exact Ha | reflexivity].
Qed.
Ltac one := apply Qc_is_canon; vm_compute; reflexivity.
Lemma locked_units : forall S, locked unit_beside (build_with E units b S) (build_with E V b S) (build_with E V b S).
Proof.
  intros S. unfold build_with. cbn [b_conf determinants b].
  apply locked_bind.
  { destruct (s_bt S), (0 <? nholes c); try (apply locked_ok; constructor). apply locked_fold; [|constructor].
    intros a a' a'' [k d] _ Ha. apply locked_same. intros im _. apply locked_images; [one | exact Ha]. }
  intros h h' h'' Hl. apply locked_bind.
  { destruct (s_bz S); [|now apply locked_ok]. now apply unit_diagonal. }
  clear h h' h'' Hl. intros h h' h'' Hl. apply locked_bind.
  { destruct (s_bij S); [|now apply locked_ok]. apply locked_fold; [|exact Hl]. intros a a' a'' [k d] _ Ha. unfold flip_with. apply locked_same. intros [[p q] o] _.
    apply locked_bind; [apply locked_images; [one | exact Ha]|]. intros. apply locked_bind; [apply locked_images; [one | assumption]|]. intros. apply locked_images; [one | assumption]. }
  clear h h' h'' Hl. intros h h' h'' Hl. apply locked_bind.
  { destruct (s_bSD S); [|now apply locked_ok]. apply locked_fold; [|exact Hl]. intros a a' a'' [k d] _ Ha. unfold singlet_with. apply locked_same. intros [p q] _.
    apply locked_bind; [apply unit_singlets; [one | one | exact Ha]|]. intros. apply unit_singlets; [one | one | assumption]. }
  clear h h' h'' Hl. intros h h' h'' Hl. apply locked_bind.
  { destruct (s_btN S), (0 <? nholes c); try now apply locked_ok. apply locked_fold; [|exact Hl]. intros a a' a'' [k d] _ Ha. apply locked_same. intros [p q] _.
    apply locked_bind; [apply locked_images; [one | exact Ha]|]. intros. apply locked_images; [one | assumption]. }
  clear h h' h'' Hl. intros h h' h'' Hl. destruct (s_bV S); [|now apply locked_ok]. now apply unit_diagonal.
Qed.
End Units.
Lemma total_ones : forall l, (forall x, In x l -> x = 1%Qc) -> total l = qz (Z.of_nat (length l)).
Proof.
  intros l H. unfold total. induction l as [|x l IH]; [reflexivity|]. rewrite qsum_cons, IH by (intros; apply H; now right). rewrite (H x) by now left. cbn [length]. rewrite Nat2Z.inj_succ.
  apply Qc_eq_this. rewrite this_add, !this_qz. change (this 1%Qc) with (inject_Z 1). rewrite <- inject_Z_plus. unfold Z.succ. rewrite Z.add_comm. reflexivity.
Qed.
Lemma crossings_same : forall L K s, op_crossings L K s s = 0%Qc.
Proof.
  intros L K s. unfold op_crossings. apply sum_sites_zero. intros i Hi. apply sum_sites_zero. intros j Hj. apply sum_sites_zero. intros k Hk.
  destruct (_ && _ && _ && _ && _ && _ && _) eqn:Q; [|reflexivity]. cbn [only]. rewrite !andb_true_iff in Q. destruct Q as [[_ Q1] Q2].
  assert (X : forall t, t i = s j \/ t i = s k -> sameb (lat_size L) s t = false).
  { intros t T. destruct (sameb (lat_size L) s t) eqn:Q; [|reflexivity]. exfalso. apply sameb_same in Q. specialize (Q i Hi). rewrite Q in Q1. destruct T as [T|T]; rewrite T in Q1; destruct (s j), (s k); discriminate. }
  rewrite !X; [cbn [only]; ring | right; unfold swap_state; now rewrite Z.eqb_refl | left; unfold shift_state; now rewrite Z.eqb_refl].
Qed.
Definition on (x : bool) : nat := if x then 1%nat else 0%nat.
Lemma diagonal_length : forall E c w r V S es i d, set_iter_ok E -> filled c w r -> build_with E V (mkBasis c (dl c)) S = Ok es -> nth_error (dl c) i = Some d ->
  length (at_place es (Z.of_nat i) (Z.of_nat i)) = (on (s_bz S) + on (s_bV S))%nat.
Proof.
  intros E c w r V S es i d HE HC B N.
  destruct (mirror_ok E c w r unit_couplings HE HC (fun _ => Ok 1%Qc) (fun _ => Ok 1%Qc) (fun _ => 1%Qc) (fun _ => 1%Qc) S (fun _ _ => eq_refl) (fun _ _ => eq_refl)) as (e1 & B1 & _ & H).
  rewrite mirror_with in B1. destruct (locked_units E c (dl c) V S es B) as (e1' & h'' & Q1 & _ & L). change units with (mirror_values unit_couplings (fun _ => Ok 1%Qc) (fun _ => Ok 1%Qc)) in Q1. rewrite B1 in Q1. injection Q1 as <-.
  destruct (lock_places _ _ _ _ (Z.of_nat i) (Z.of_nat i) L) as (ps & A1 & A & _ & D). rewrite A, map_length. rewrite <- (Nat2Z.id i) in N. specialize (H (Z.of_nat i) (Z.of_nat i) d d (Zle_0_nat i) (Zle_0_nat i) N N).
  rewrite total_at, A1, total_ones, map_length in H by (intros x Hx; apply in_map_iff in Hx; destruct Hx as ([[x1 y1] z1] & <- & I); exact (D x1 y1 z1 I)).
  unfold mirror_element in H. rewrite hop_same, flip_same, crossings_same, next_hop_same, (same_refl (between (nsites c) (point w) r r)) in H. apply Nat2Z.inj, qz_inj. rewrite H.
  destruct (s_bt S), (s_bz S), (s_bij S), (s_bSD S), (s_btN S), (s_bV S); cbn [only on Nat.add]; apply Qc_is_canon; reflexivity.
Qed.

(** ** the two values on the diagonal *)
Lemma appended : forall A (step : coo -> A -> res coo) l, (forall h x h', step h x = Ok h' -> exists g, h' = h ++ g) -> forall h h', foldM step h l = Ok h' -> exists G, h' = h ++ G.
Proof.
  intros A step l H. induction l as [|x l IH]; intros h h' Q; cbn [foldM] in Q; [injection Q as <-; exists []; now rewrite app_nil_r|].
  destruct (step h x) as [h1|] eqn:Q1; [|discriminate]. cbn [bind] in Q. destruct (H _ _ _ Q1) as (g & ->). destruct (IH _ _ Q) as (G & ->). exists (g ++ G). now rewrite app_assoc.
Qed.
Lemma appended_if : forall A (x : bool) (step : coo -> A -> res coo) l h h', (forall h x h', step h x = Ok h' -> exists g, h' = h ++ g) -> (if x then foldM step h l else Ok h) = Ok h' -> exists G, h' = h ++ G.
Proof. intros A [] step l h h' H Q; [now apply (appended A step l H)|]. injection Q as <-. exists []. now rewrite app_nil_r. Qed.
Lemma images_app : forall c x k images h h', add_images c x k h images = Ok h' -> exists g, h' = h ++ g.
Proof. intros c x k images h h' Q. destruct (images_shape _ _ _ _ _ _ Q) as (g & A & _). eauto. Qed.
Lemma singlets_app : forall c x y k images h h', with_singlets c x y k h images = Ok h' -> exists g, h' = h ++ g.
Proof. intros c x y k images h h' Q. destruct (singlets_shape _ _ _ _ _ _ _ Q) as (g & A & _). eauto. Qed.
Lemma hop_app : forall E c V h x h', hop_with E c V h x = Ok h' -> exists g, h' = h ++ g.
Proof. intros E c V h [k d] h' Q. unfold hop_with in Q. destruct (compute_hopping_integral E c d); [|discriminate]. exact (images_app _ _ _ _ _ _ Q). Qed.
Lemma flip_app : forall E c V h x h', flip_with E c V h x = Ok h' -> exists g, h' = h ++ g.
Proof.
  intros E c V h [k d] h' Q. unfold flip_with in Q. destruct (compute_spin_flip E c d) as [[[p q] u]|]; [|discriminate]. cbn [bind] in Q.
  destruct (add_images c _ k h p) as [h1|] eqn:Q1; [|discriminate]. cbn [bind] in Q. destruct (add_images c _ k h1 q) as [h2|] eqn:Q2; [|discriminate]. cbn [bind] in Q.
  destruct (images_app _ _ _ _ _ _ Q1) as (g1 & ->). destruct (images_app _ _ _ _ _ _ Q2) as (g2 & ->). destruct (images_app _ _ _ _ _ _ Q) as (g3 & ->). exists (g1 ++ g2 ++ g3). now rewrite !app_assoc.
Qed.
Lemma singlet_app : forall E c V h x h', singlet_with E c V h x = Ok h' -> exists g, h' = h ++ g.
Proof.
  intros E c V h [k d] h' Q. unfold singlet_with in Q. destruct (compute_singlet_displacement E c d) as [[p q]|]; [|discriminate]. cbn [bind] in Q.
  destruct (with_singlets c _ _ k h p) as [h1|] eqn:Q1; [|discriminate]. cbn [bind] in Q.
  destruct (singlets_app _ _ _ _ _ _ _ Q1) as (g1 & ->). destruct (singlets_app _ _ _ _ _ _ _ Q) as (g2 & ->). exists (g1 ++ g2). now rewrite !app_assoc.
Qed.
Lemma next_app : forall E c V h x h', next_with E c V h x = Ok h' -> exists g, h' = h ++ g.
Proof.
  intros E c V h [k d] h' Q. unfold next_with in Q. destruct (compute_next_hopping_integral E c d) as [[p q]|]; [|discriminate]. cbn [bind] in Q.
  destruct (add_images c _ k h p) as [h1|] eqn:Q1; [|discriminate]. cbn [bind] in Q.
  destruct (images_app _ _ _ _ _ _ Q1) as (g1 & ->). destruct (images_app _ _ _ _ _ _ Q) as (g2 & ->). exists (g1 ++ g2). now rewrite !app_assoc.
Qed.
(** the diagonal stage writes one value at each place of the diagonal *)
Lemma diagonal_wrote : forall f l h h', foldM (diagonal_step f) h l = Ok h' -> NoDup (map fst l) -> exists G, h' = h ++ G /\
  (forall x i j, In (x, i, j) G -> In i (map fst l)) /\ forall k d, In (k, d) l -> exists x, f d = Ok x /\ at_place G k k = [x].
Proof.
  intros f l. induction l as [|[k d] l IH]; intros h h' Q ND; cbn [foldM] in Q; [injection Q as <-; exists []; rewrite app_nil_r; split; [reflexivity|]; split; [intros ? ? ? [] | intros ? ? []]|].
  unfold diagonal_step in Q at 1. destruct (f d) as [x|] eqn:Fd; [|discriminate]. cbn [bind] in Q. inversion ND as [|? ? N1 N2]; subst. destruct (IH _ _ Q N2) as (G & -> & R & P). exists ((x, k, k) :: G).
  split; [unfold add_ham_coo; now rewrite <- app_assoc|]. split; [intros y i j [[= <- <- <-]|I]; [now left | right; now apply (R y i j)]|].
  intros k' d' [[= <- <-]|I].
  - exists x. split; [exact Fd|]. change ((x, k, k) :: G) with ([(x, k, k)] ++ G). rewrite at_app. assert (Z : at_place G k k = []).
    { destruct (at_place G k k) as [|y g] eqn:QG; [reflexivity|]. exfalso. apply N1. apply (R y k k). apply at_in. rewrite QG. now left. }
    rewrite Z. unfold at_place. cbn [filter]. now rewrite !Z.eqb_refl.
  - destruct (P k' d' I) as (y & Fy & A). exists y. split; [exact Fy|]. change ((x, k, k) :: G) with ([(x, k, k)] ++ G). rewrite at_app, A. unfold at_place. cbn [filter].
    destruct (Z.eqb_spec k k') as [<-|]; [|reflexivity]. exfalso. apply N1. apply in_map_iff. exists (k, d'). auto.
Qed.
Lemma diagonal_places : forall E c w r V S es i d, set_iter_ok E -> filled c w r -> build_with E V (mkBasis c (dl c)) S = Ok es -> nth_error (dl c) i = Some d ->
  exists a b, (if s_bz S then exists x, v_s V d = Ok x /\ a = [x] else a = []) /\ (if s_bV S then exists x, v_v V d = Ok x /\ b = [x] else b = []) /\ at_place es (Z.of_nat i) (Z.of_nat i) = a ++ b.
Proof.
  intros E c w r V S es i d HE HC B N. pose proof (diagonal_length E c w r V S es i d HE HC B N) as LN. rename B into Q.
  assert (In_i : In (Z.of_nat i, d) (enumerate (dl c))).
  { rewrite (enumerate_seq _ _ d). apply in_map_iff. exists i. rewrite (nth_error_nth _ _ _ N). split; [reflexivity|]. apply in_seq. assert (nth_error (dl c) i <> None) by congruence. apply nth_error_Some in H. lia. }
  assert (DG : forall (x : bool) f h h', (if x then foldM (diagonal_step f) h (enumerate (dl c)) else Ok h) = Ok h' -> exists G a, h' = h ++ G /\ (if x then exists y, f d = Ok y /\ a = [y] else a = []) /\ at_place G (Z.of_nat i) (Z.of_nat i) = a).
  { intros [] f h h' Q0; [|injection Q0 as <-; exists [], []; rewrite app_nil_r; auto]. destruct (diagonal_wrote f _ _ _ Q0 (enumerate_once _ _)) as (G & -> & _ & P). destruct (P _ _ In_i) as (y & Fy & A). exists G, [y]. split; [reflexivity|]. split; [eauto | exact A]. }
  unfold build_with in Q. cbn [b_conf determinants] in Q.
  destruct (if s_bt S then _ else _) as [h1|] eqn:Q1 in Q; [|discriminate]. cbn [bind] in Q.
  destruct (if s_bz S then _ else _) as [h2|] eqn:Q2 in Q; [|discriminate]. cbn [bind] in Q.
  destruct (if s_bij S then _ else _) as [h3|] eqn:Q3 in Q; [|discriminate]. cbn [bind] in Q.
  destruct (if s_bSD S then _ else _) as [h4|] eqn:Q4 in Q; [|discriminate]. cbn [bind] in Q.
  destruct (if s_btN S then _ else _) as [h5|] eqn:Q5 in Q; [|discriminate]. cbn [bind] in Q. clear Q1.
  assert (Q5' : (if s_btN S && (0 <? nholes c) then foldM (next_with E c V) h4 (enumerate (dl c)) else Ok h4) = Ok h5) by (destruct (s_btN S), (0 <? nholes c); exact Q5).
  destruct (DG _ _ _ _ Q2) as (G2 & a & -> & Ha & A2). destruct (appended_if _ _ _ _ _ _ (flip_app E c V) Q3) as (G3 & ->). destruct (appended_if _ _ _ _ _ _ (singlet_app E c V) Q4) as (G4 & ->).
  destruct (appended_if _ _ _ _ _ _ (next_app E c V) Q5') as (G5 & ->). destruct (DG _ _ _ _ Q) as (G6 & b & -> & Hb & A6).
  exists a, b. split; [exact Ha|]. split; [exact Hb|].
  assert (La : length a = on (s_bz S)) by (destruct (s_bz S); [destruct Ha as (y & _ & ->) | subst a]; reflexivity).
  assert (Lb : length b = on (s_bV S)) by (destruct (s_bV S); [destruct Hb as (y & _ & ->) | subst b]; reflexivity).
  rewrite !at_app, A2, A6, !app_length in LN. rewrite !at_app, A2, A6.
  destruct (at_place h1 (Z.of_nat i) (Z.of_nat i)); [|cbn [length] in LN; lia]. destruct (at_place G3 (Z.of_nat i) (Z.of_nat i)); [|cbn [length] in LN; lia].
  destruct (at_place G4 (Z.of_nat i) (Z.of_nat i)); [|cbn [length] in LN; lia]. destruct (at_place G5 (Z.of_nat i) (Z.of_nat i)); [|cbn [length] in LN; lia].
  cbn [app]. now rewrite !app_nil_r.
Qed.
