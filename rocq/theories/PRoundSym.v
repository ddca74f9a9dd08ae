(** The entries at two opposite places of the rounded Hamiltonian are the same lists. *)
From Coq Require Import ZArith List Bool Lia Permutation QArith Qcanon Lqa.
From Verif Require Import PyBase PyFacts Lattice Base Interact Ham Round Spec SpecOps SpecTJ SpinDefs Geometry HamSpec SignDefs EnergyDefs RangeDefs RoundDefs.
From Verif Require Import PSpin PQc PBasis PSites PRep PMat PGeo PInter PHam POps FGeo FSites FInter FHam PSecSum PBound PDavIter PDav FDav FSpinVal PSign PSignOp PPerron FSign FMotion PEnergy FEnergy PRange FRange PRound PRound2 FRound FRound2.
Import ListNotations.
Open Scope Z_scope.

(** ** an assembly with any values *)
Record values : Type := mkValues { v_t : Qc; v_par : Qc; v_per : Qc; v_J : Qc; v_sp : Qc; v_sm : Qc; v_op : Qc; v_om : Qc; v_tn : Qc; v_tN : Qc; v_s : list Z -> res Qc; v_v : list Z -> res Qc }.
Definition with_singlets (c : configuration) (x y : Qc) (k : Z) (ham : coo) (images : list (det * det)) : res coo :=
  foldM (fun ham im => let '(t1, t2) := im in i1 <- get_index_in_basis c t1 ;; i2 <- get_index_in_basis c t2 ;; Ok (add_ham_coo (add_ham_coo ham x k i1) y k i2)) ham images.
Definition hop_with (E : runtime) (c : configuration) (V : values) (ham : coo) (p : Z * list Z) : res coo :=
  let '(k, d) := p in im <- compute_hopping_integral E c d ;; add_images c (v_t V) k ham im.
Definition flip_with (E : runtime) (c : configuration) (V : values) (ham : coo) (p : Z * list Z) : res coo :=
  let '(k, d) := p in
  '(par, per, und) <- compute_spin_flip E c d ;; ham <- add_images c (v_par V) k ham par ;; ham <- add_images c (v_per V) k ham per ;; add_images c (v_J V) k ham und.
Definition singlet_with (E : runtime) (c : configuration) (V : values) (ham : coo) (p : Z * list Z) : res coo :=
  let '(k, d) := p in
  '(par, per) <- compute_singlet_displacement E c d ;; ham <- with_singlets c (v_sp V) (v_sm V) k ham par ;; with_singlets c (v_op V) (v_om V) k ham per.
Definition next_with (E : runtime) (c : configuration) (V : values) (ham : coo) (p : Z * list Z) : res coo :=
  let '(k, d) := p in
  '(col, ortho) <- compute_next_hopping_integral E c d ;; ham <- add_images c (v_tn V) k ham col ;; add_images c (v_tN V) k ham ortho.
Definition build_with (E : runtime) (V : values) (b : basis) (S : switches) : res coo :=
  let c := b_conf b in
  ham <- (if s_bt S then if 0 <? nholes c then foldM (hop_with E c V) [] (enumerate (determinants b)) else Ok [] else Ok []) ;;
  ham <- (if s_bz S then foldM (diagonal_step (v_s V)) ham (enumerate (determinants b)) else Ok ham) ;;
  ham <- (if s_bij S then foldM (flip_with E c V) ham (enumerate (determinants b)) else Ok ham) ;;
  ham <- (if s_bSD S then foldM (singlet_with E c V) ham (enumerate (determinants b)) else Ok ham) ;;
  ham <- (if s_btN S then if 0 <? nholes c then foldM (next_with E c V) ham (enumerate (determinants b)) else Ok ham else Ok ham) ;;
  (if s_bV S then foldM (diagonal_step (v_v V)) ham (enumerate (determinants b)) else Ok ham).

Definition rounded_values (F : floats) (E : runtime) (c : configuration) (K : interactions) : values :=
  mkValues (i_t K) (fl F (i_Jhpar K / qz 2)%Qc) (fl F (i_Jhper K / qz 2)%Qc) (fl F (i_J K / qz 2)%Qc) (i_hSDpar K) (- i_hSDpar K)%Qc (i_hSDper K) (- i_hSDper K)%Qc (i_tnNNN K) (i_tNNN K)
    (compute_static_spin_interaction_fl F E c K) (compute_hole_repulsion_fl F E c K).
Definition exact_values (E : runtime) (c : configuration) (K : interactions) : values :=
  mkValues (i_t K) (i_Jhpar K / qz 2)%Qc (i_Jhper K / qz 2)%Qc (i_J K / qz 2)%Qc (i_hSDpar K) (- i_hSDpar K)%Qc (i_hSDper K) (- i_hSDper K)%Qc (i_tnNNN K) (i_tNNN K)
    (compute_static_spin_interaction E c K) (compute_hole_repulsion E c K).
Definition mirror_values (M : interactions) (fs fv : list Z -> res Qc) : values :=
  mkValues (i_t M) (i_Jhpar M / qz 2)%Qc (i_Jhper M / qz 2)%Qc (i_J M / qz 2)%Qc (i_hSDpar M) (i_hSDpar M) (i_hSDper M) (i_hSDper M) (i_tnNNN M) (i_tNNN M) fs fv.
Lemma rounded_with : forall F E c l K S, entries_fl F E (mkBasis c l) K S = build_with E (rounded_values F E c K) (mkBasis c l) S. Proof. reflexivity. Qed.
Lemma exact_with : forall E c l K S, entries_of E (mkBasis c l) K S = build_with E (exact_values E c K) (mkBasis c l) S. Proof. reflexivity. Qed.
Lemma mirror_with : forall E c l M fs fv S, build_mirror E M fs fv (mkBasis c l) S = build_with E (mirror_values M fs fv) (mkBasis c l) S. Proof. reflexivity. Qed.

(** ** the values replaced by codes *)
Definition codes : values := mkValues (qz 1) (qz 2) (qz 3) (qz 4) (qz 5) (qz 6) (qz 7) (qz 8) (qz 9) (qz 10) (fun _ => Ok (qz 0)) (fun _ => Ok (qz 0)).
Definition is (k : Z) (x : Qc) : bool := Qeq_bool (this x) (this (qz k)).
Lemma is_iff : forall k x, is k x = true <-> x = qz k.
Proof. intros k x. unfold is. rewrite Qeq_bool_iff. split; [apply Qc_is_canon | now intros ->]. Qed.
Definition decode (V : values) (x : Qc) : Qc :=
  if is 1 x then v_t V else if is 2 x then v_par V else if is 3 x then v_per V else if is 4 x then v_J V else if is 5 x then v_sp V else if is 6 x then v_sm V else
  if is 7 x then v_op V else if is 8 x then v_om V else if is 9 x then v_tn V else if is 10 x then v_tN V else 0%Qc.

Section Decode.
Variables (E : runtime) (c : configuration) (l : list (list Z)) (V : values).
Let b := mkBasis c l.
Definition decoded (x y _z : Qc) : Prop := x = qz 0 \/ y = decode V x.
Lemma locked_singlets : forall x y x' y' k images h h' h'', decoded x x' x' -> decoded y y' y' -> lock decoded h h' h'' ->
  locked decoded (with_singlets c x y k h images) (with_singlets c x' y' k h' images) (with_singlets c x' y' k h'' images).
Proof.
  intros x y x' y' k images h h' h'' H1 H2 Hl. unfold with_singlets. apply locked_fold; [|exact Hl]. intros a a' a'' [t1 t2] _ Ha.
  apply locked_same. intros i _. apply locked_same. intros j _. apply locked_ok. apply lock_add; [|exact H2]. now apply lock_add.
Qed.
Lemma locked_zero : forall f h h' h'', lock decoded h h' h'' ->
  locked decoded (foldM (diagonal_step (fun _ => Ok (qz 0))) h (enumerate l)) (foldM (diagonal_step f) h' (enumerate l)) (foldM (diagonal_step f) h'' (enumerate l)).
Proof.
  intros f. apply locked_fold. intros a a' a'' [k d] _ Ha. unfold diagonal_step. intros o Q. destruct (f d) as [x|]; [|discriminate]. cbn [bind] in *. injection Q as <-.
  eexists. eexists. split; [reflexivity|]. split; [reflexivity|]. apply lock_add; [exact Ha | now left].
Qed.
Ltac same := right; vm_compute; reflexivity.
Lemma locked_codes : forall S, locked decoded (build_with E codes b S) (build_with E V b S) (build_with E V b S).
Proof.
  intros S. unfold build_with. cbn [b_conf determinants b].
  apply locked_bind.
  { destruct (s_bt S), (0 <? nholes c); try (apply locked_ok; constructor). apply locked_fold; [|constructor].
    intros a a' a'' [k d] _ Ha. apply locked_same. intros im _. apply locked_images; [same | exact Ha]. }
  intros h h' h'' Hl. apply locked_bind.
  { destruct (s_bz S); [|now apply locked_ok]. now apply locked_zero. }
  clear h h' h'' Hl. intros h h' h'' Hl. apply locked_bind.
  { destruct (s_bij S); [|now apply locked_ok]. apply locked_fold; [|exact Hl]. intros a a' a'' [k d] _ Ha. unfold flip_with. apply locked_same. intros [[p q] o] _.
    apply locked_bind; [apply locked_images; [same | exact Ha]|]. intros. apply locked_bind; [apply locked_images; [same | assumption]|]. intros. apply locked_images; [same | assumption]. }
  clear h h' h'' Hl. intros h h' h'' Hl. apply locked_bind.
  { destruct (s_bSD S); [|now apply locked_ok]. apply locked_fold; [|exact Hl]. intros a a' a'' [k d] _ Ha. unfold singlet_with. apply locked_same. intros [p q] _.
    apply locked_bind; [apply locked_singlets; [same | same | exact Ha]|]. intros. apply locked_singlets; [same | same | assumption]. }
  clear h h' h'' Hl. intros h h' h'' Hl. apply locked_bind.
  { destruct (s_btN S), (0 <? nholes c); try now apply locked_ok. apply locked_fold; [|exact Hl]. intros a a' a'' [k d] _ Ha. apply locked_same. intros [p q] _.
    apply locked_bind; [apply locked_images; [same | exact Ha]|]. intros. apply locked_images; [same | assumption]. }
  clear h h' h'' Hl. intros h h' h'' Hl. destruct (s_bV S); [|now apply locked_ok]. now apply locked_zero.
Qed.
End Decode.

(** ** the order of the codes in one place *)
Lemma at_app : forall a b i j, at_place (a ++ b) i j = at_place a i j ++ at_place b i j.
Proof. intros. unfold at_place. now rewrite filter_app, map_app. Qed.
Definition in_row (k : Z) (g : coo) : Prop := forall x i j, In (x, i, j) g -> i = k.
Lemma at_other : forall g k i j, in_row k g -> i <> k -> at_place g i j = [].
Proof.
  intros g k i j H N. unfold at_place. induction g as [|[[x r] q] g IH]; [reflexivity|]. cbn [filter]. rewrite (H x r q) by now left. destruct (Z.eqb_spec k i); [congruence|]. cbn [andb]. apply IH. intros y i' j' I. apply (H y i' j'). now right.
Qed.
Lemma stage_shape : forall A (step : coo -> Z * A -> res coo) (P : Z -> Z -> list Qc -> Prop) l, (forall i j, P i j []) ->
  (forall h k d h', In (k, d) l -> step h (k, d) = Ok h' -> exists g, h' = h ++ g /\ in_row k g /\ forall j, P k j (at_place g k j)) ->
  NoDup (map fst l) -> forall h h', foldM step h l = Ok h' -> exists G, h' = h ++ G /\ (forall x i j, In (x, i, j) G -> In i (map fst l)) /\ forall i j, P i j (at_place G i j).
Proof.
  intros A step P l P0. induction l as [|[k d] l IH]; intros H ND h h' Q; cbn [foldM] in Q.
  - injection Q as <-. exists []. rewrite app_nil_r. split; [reflexivity|]. split; [intros ? ? ? []|]. intros. apply P0.
  - destruct (step h (k, d)) as [h1|] eqn:Q1; [|discriminate]. cbn [bind] in Q. inversion ND as [|? ? N1 N2]; subst.
    destruct (H h k d h1 (or_introl eq_refl) Q1) as (g & -> & Rg & Pg). destruct (IH (fun h k d h' I => H h k d h' (or_intror I)) N2 _ _ Q) as (G & -> & RG & PG).
    exists (g ++ G). split; [now rewrite app_assoc|]. split.
    + intros x i j I. apply in_app_iff in I. destruct I as [I|I]; [left; symmetry; now apply (Rg x i j) | right; now apply (RG x i j)].
    + intros i j. rewrite at_app. destruct (Z.eq_dec i k) as [->|N].
      * assert (Z : at_place G k j = []).
        { unfold at_place. destruct (filter _ G) as [|[[x r] q] f] eqn:Qf; [reflexivity|]. exfalso. assert (I : In (x, r, q) (filter (fun p => let '(_, r, c) := p in (r =? k) && (c =? j)) G)) by (rewrite Qf; now left).
          apply filter_In in I. destruct I as [I B]. apply andb_true_iff in B. destruct B as [B _]. apply Z.eqb_eq in B. subst r. apply N1. exact (RG x k q I). }
        rewrite Z, app_nil_r. apply Pg.
      * rewrite (at_other g k i j Rg N). apply PG.
Qed.
Lemma enumerate_once : forall A (l : list A), NoDup (map fst (enumerate l)).
Proof. intros. rewrite enumerate_fst. apply zrange_NoDup. Qed.
Lemma at_in : forall g i j x, In x (at_place g i j) -> In (x, i, j) g.
Proof.
  intros g i j x H. unfold at_place in H. apply in_map_iff in H. destruct H as ([[y r] q] & <- & I). apply filter_In in I. destruct I as [I B]. apply andb_true_iff in B. destruct B as [B1 B2].
  apply Z.eqb_eq in B1. apply Z.eqb_eq in B2. subst. exact I.
Qed.
Lemma all_repeat : forall (x : Qc) l, (forall y, In y l -> y = x) -> exists k, l = repeat x k.
Proof. intros x l H. exists (length l). apply Forall_eq_repeat. apply Forall_forall. intros y I. symmetry. now apply H. Qed.
Lemma images_shape : forall c x k images h h', add_images c x k h images = Ok h' -> exists g, h' = h ++ g /\ in_row k g /\ forall j, exists a, at_place g k j = repeat x a.
Proof.
  intros c x k images h h' Q. assert (G : exists g, h' = h ++ g /\ forall y i j, In (y, i, j) g -> i = k /\ y = x).
  { revert h Q. unfold add_images. induction images as [|t images IH]; intros h Q; cbn [foldM] in Q; [injection Q as <-; exists []; rewrite app_nil_r; split; [reflexivity | intros ? ? ? []]|].
    destruct (get_index_in_basis c t) as [q|]; [|discriminate]. cbn [bind] in Q. destruct (IH _ Q) as (g & -> & H). exists ((x, k, q) :: g). split; [unfold add_ham_coo; now rewrite <- app_assoc|].
    intros y i j [[= <- <- <-]|I]; [auto | exact (H y i j I)]. }
  destruct G as (g & -> & H). exists g. split; [reflexivity|]. split; [intros y i j I; apply (H y i j I)|]. intros j. apply all_repeat. intros y I. apply at_in in I. apply (H _ _ _ I).
Qed.
Lemma singlets_shape : forall c x y k images h h', with_singlets c x y k h images = Ok h' -> exists g, h' = h ++ g /\ in_row k g /\ forall j z, In z (at_place g k j) -> z = x \/ z = y.
Proof.
  intros c x y k images h h' Q. assert (G : exists g, h' = h ++ g /\ forall z i j, In (z, i, j) g -> i = k /\ (z = x \/ z = y)).
  { revert h Q. unfold with_singlets. induction images as [|[t1 t2] images IH]; intros h Q; cbn [foldM] in Q; [injection Q as <-; exists []; rewrite app_nil_r; split; [reflexivity | intros ? ? ? []]|].
    destruct (get_index_in_basis c t1) as [q1|]; [|discriminate]. cbn [bind] in Q. destruct (get_index_in_basis c t2) as [q2|]; [|discriminate]. cbn [bind] in Q.
    destruct (IH _ Q) as (g & -> & H). exists ((x, k, q1) :: (y, k, q2) :: g). split; [unfold add_ham_coo; now rewrite <- !app_assoc|].
    intros z i j [[= <- <- <-]|[[= <- <- <-]|I]]; [auto | auto | exact (H z i j I)]. }
  destruct G as (g & -> & H). exists g. split; [reflexivity|]. split; [intros z i j I; apply (H z i j I)|]. intros j z I. apply at_in in I. apply (H _ _ _ I).
Qed.

Definition is_hop (_ _ : Z) (q : list Qc) : Prop := exists a, q = repeat (qz 1) a.
Definition is_diagonal (i j : Z) (q : list Qc) : Prop := i <> j -> q = [].
Definition is_flip (_ _ : Z) (q : list Qc) : Prop := exists a b d, q = repeat (qz 2) a ++ repeat (qz 3) b ++ repeat (qz 4) d.
Definition is_singlet (_ _ : Z) (q : list Qc) : Prop := exists a b, q = a ++ b /\ (forall x, In x a -> x = qz 5 \/ x = qz 6) /\ (forall x, In x b -> x = qz 7 \/ x = qz 8).
Definition is_next (_ _ : Z) (q : list Qc) : Prop := exists a b, q = repeat (qz 9) a ++ repeat (qz 10) b.

Section Shapes.
Variables (E : runtime) (c : configuration) (l : list (list Z)).
Let stage (step : coo -> Z * list Z -> res coo) (P : Z -> Z -> list Qc -> Prop) : Prop :=
  forall h h', foldM step h (enumerate l) = Ok h' -> exists G, h' = h ++ G /\ forall i j, P i j (at_place G i j).
Lemma stage_of : forall (step : coo -> Z * list Z -> res coo) (P : Z -> Z -> list Qc -> Prop), (forall i j, P i j []) -> (forall h k d h', step h (k, d) = Ok h' -> exists g, h' = h ++ g /\ in_row k g /\ forall j, P k j (at_place g k j)) -> stage step P.
Proof.
  intros step P P0 H h h' Q. destruct (stage_shape _ step P (enumerate l) P0 (fun h k d h' _ => H h k d h') (enumerate_once _ l) h h' Q) as (G & A & _ & B). eauto.
Qed.
Lemma stage_hop : stage (hop_with E c codes) is_hop.
Proof.
  apply stage_of; [intros; now exists 0%nat|]. intros h k d h' Q. unfold hop_with in Q. destruct (compute_hopping_integral E c d) as [im|]; [|discriminate]. exact (images_shape _ _ _ _ _ _ Q).
Qed.
Lemma stage_diagonal : stage (diagonal_step (fun _ => Ok (qz 0))) is_diagonal.
Proof.
  apply stage_of; [now intros ? ? _|]. intros h k d h' Q. cbn in Q. injection Q as <-. exists [(qz 0, k, k)]. split; [reflexivity|]. split; [intros x i j [[= <- <- <-]|[]]; reflexivity|].
  intros j N. unfold at_place. cbn [filter]. destruct (Z.eqb_spec k j); [contradiction|]. now rewrite andb_false_r.
Qed.
Lemma stage_flip : stage (flip_with E c codes) is_flip.
Proof.
  apply stage_of; [intros; now exists 0%nat, 0%nat, 0%nat|]. intros h k d h' Q. unfold flip_with in Q. destruct (compute_spin_flip E c d) as [[[par per] und]|]; [|discriminate]. cbn [bind] in Q.
  destruct (add_images c (v_par codes) k h par) as [h1|] eqn:Q1; [|discriminate]. cbn [bind] in Q. destruct (add_images c (v_per codes) k h1 per) as [h2|] eqn:Q2; [|discriminate]. cbn [bind] in Q.
  destruct (images_shape _ _ _ _ _ _ Q1) as (g1 & -> & R1 & P1). destruct (images_shape _ _ _ _ _ _ Q2) as (g2 & -> & R2 & P2). destruct (images_shape _ _ _ _ _ _ Q) as (g3 & -> & R3 & P3).
  exists (g1 ++ g2 ++ g3). split; [now rewrite !app_assoc|]. split.
  - intros x i j I. rewrite !in_app_iff in I. destruct I as [I|[I|I]]; eauto.
  - intros j. destruct (P1 j) as (a & A). destruct (P2 j) as (b & B). destruct (P3 j) as (e & D). exists a, b, e. rewrite !at_app, A, B, D. reflexivity.
Qed.
Lemma stage_singlet : stage (singlet_with E c codes) is_singlet.
Proof.
  apply stage_of; [intros; exists [], []; repeat split; intros ? []|]. intros h k d h' Q. unfold singlet_with in Q. destruct (compute_singlet_displacement E c d) as [[par per]|]; [|discriminate]. cbn [bind] in Q.
  destruct (with_singlets c (v_sp codes) (v_sm codes) k h par) as [h1|] eqn:Q1; [|discriminate]. cbn [bind] in Q.
  destruct (singlets_shape _ _ _ _ _ _ _ Q1) as (g1 & -> & R1 & P1). destruct (singlets_shape _ _ _ _ _ _ _ Q) as (g2 & -> & R2 & P2).
  exists (g1 ++ g2). split; [now rewrite !app_assoc|]. split.
  - intros x i j I. rewrite !in_app_iff in I. destruct I as [I|I]; eauto.
  - intros j. exists (at_place g1 k j), (at_place g2 k j). split; [apply at_app|]. split; [apply P1 | apply P2].
Qed.
Lemma stage_next : stage (next_with E c codes) is_next.
Proof.
  apply stage_of; [intros; now exists 0%nat, 0%nat|]. intros h k d h' Q. unfold next_with in Q. destruct (compute_next_hopping_integral E c d) as [[col ortho]|]; [|discriminate]. cbn [bind] in Q.
  destruct (add_images c (v_tn codes) k h col) as [h1|] eqn:Q1; [|discriminate]. cbn [bind] in Q.
  destruct (images_shape _ _ _ _ _ _ Q1) as (g1 & -> & R1 & P1). destruct (images_shape _ _ _ _ _ _ Q) as (g2 & -> & R2 & P2).
  exists (g1 ++ g2). split; [now rewrite !app_assoc|]. split.
  - intros x i j I. rewrite !in_app_iff in I. destruct I as [I|I]; eauto.
  - intros j. destruct (P1 j) as (a & A). destruct (P2 j) as (b & B). exists a, b. rewrite !at_app, A, B. reflexivity.
Qed.
Lemma stage_off : forall (b : bool) step (P : Z -> Z -> list Qc -> Prop) h h', (forall i j, P i j []) -> stage step P -> (if b then foldM step h (enumerate l) else Ok h) = Ok h' -> exists G, h' = h ++ G /\ forall i j, P i j (at_place G i j).
Proof. intros [] step P h h' P0 H Q; [now apply H|]. injection Q as <-. exists []. rewrite app_nil_r. split; [reflexivity | intros; apply P0]. Qed.
Lemma hop0 : forall i j, is_hop i j []. Proof. intros. now exists 0%nat. Qed.
Lemma diagonal0 : forall i j, is_diagonal i j []. Proof. now intros i j _. Qed.
Lemma flip0 : forall i j, is_flip i j []. Proof. intros. now exists 0%nat, 0%nat, 0%nat. Qed.
Lemma singlet0 : forall i j, is_singlet i j []. Proof. intros. exists [], []. repeat split; intros ? []. Qed.
Lemma next0 : forall i j, is_next i j []. Proof. intros. now exists 0%nat, 0%nat. Qed.

Lemma codes_shape : forall S es i j, build_with E codes (mkBasis c l) S = Ok es -> i <> j ->
  exists q1 q2 q3 q4, at_place es i j = q1 ++ q2 ++ q3 ++ q4 /\ is_hop i j q1 /\ is_flip i j q2 /\ is_singlet i j q3 /\ is_next i j q4.
Proof.
  intros S es i j Q N. unfold build_with in Q. cbn [b_conf determinants] in Q.
  destruct (if s_bt S then _ else _) as [h1|] eqn:Q1 in Q; [|discriminate]. cbn [bind] in Q.
  destruct (if s_bz S then _ else _) as [h2|] eqn:Q2 in Q; [|discriminate]. cbn [bind] in Q.
  destruct (if s_bij S then _ else _) as [h3|] eqn:Q3 in Q; [|discriminate]. cbn [bind] in Q.
  destruct (if s_bSD S then _ else _) as [h4|] eqn:Q4 in Q; [|discriminate]. cbn [bind] in Q.
  destruct (if s_btN S then _ else _) as [h5|] eqn:Q5 in Q; [|discriminate]. cbn [bind] in Q.
  assert (Q1' : (if s_bt S && (0 <? nholes c) then foldM (hop_with E c codes) [] (enumerate l) else Ok []) = Ok h1) by (destruct (s_bt S), (0 <? nholes c); exact Q1).
  assert (Q5' : (if s_btN S && (0 <? nholes c) then foldM (next_with E c codes) h4 (enumerate l) else Ok h4) = Ok h5) by (destruct (s_btN S), (0 <? nholes c); exact Q5).
  destruct (stage_off _ _ _ _ _ hop0 stage_hop Q1') as (G1 & -> & P1). destruct (stage_off _ _ _ _ _ diagonal0 stage_diagonal Q2) as (G2 & -> & P2).
  destruct (stage_off _ _ _ _ _ flip0 stage_flip Q3) as (G3 & -> & P3). destruct (stage_off _ _ _ _ _ singlet0 stage_singlet Q4) as (G4 & -> & P4).
  destruct (stage_off _ _ _ _ _ next0 stage_next Q5') as (G5 & -> & P5). destruct (stage_off _ _ _ _ _ diagonal0 stage_diagonal Q) as (G6 & -> & P6).
  exists (at_place G1 i j), (at_place G3 i j), (at_place G4 i j), (at_place G5 i j). split; [|auto]. rewrite !at_app, (P2 i j N), (P6 i j N). cbn [app]. rewrite !app_nil_r, <- !app_assoc. reflexivity.
Qed.
Lemma no_zero : forall S es i j x, build_with E codes (mkBasis c l) S = Ok es -> i <> j -> In x (at_place es i j) -> x <> qz 0.
Proof.
  intros S es i j x Q N I. destruct (codes_shape S es i j Q N) as (q1 & q2 & q3 & q4 & A & (a & ->) & (b1 & b2 & b3 & ->) & (s1 & s2 & -> & B1 & B2) & (d1 & d2 & ->)). rewrite A in I. rewrite !in_app_iff in I.
  repeat match goal with H : _ \/ _ |- _ => destruct H | H : In x (repeat _ _) |- _ => apply repeat_spec in H; subst x | H : In x s1 |- _ => apply B1 in H | H : In x s2 |- _ => apply B2 in H end; subst; discriminate.
Qed.
(** the entries of any assembly are those codes, replaced by their values *)
Lemma run_decodes : forall V S es, build_with E V (mkBasis c l) S = Ok es -> exists es0, build_with E codes (mkBasis c l) S = Ok es0 /\
  forall i j, i <> j -> at_place es i j = map (decode V) (at_place es0 i j).
Proof.
  intros V S es Q. destruct (locked_codes E c l V S es Q) as (es0 & h'' & Q0 & _ & L). exists es0. split; [exact Q0|]. intros i j N.
  destruct (lock_places _ _ _ _ i j L) as (ps & A & B & _ & D). rewrite A, B, map_map. apply map_ext_in. intros [[x y] z] I. cbn [fst snd].
  destruct (D x y z I) as [Z|Z]; [|exact Z]. exfalso. apply (no_zero S es0 i j x Q0 N); [|exact Z]. rewrite A. apply in_map_iff. exists (x, y, z). auto.
Qed.
End Shapes.

(** ** counts *)
Definition count (k : Z) (l : list Qc) : nat := length (filter (is k) l).
Lemma count_app : forall k a b, count k (a ++ b) = (count k a + count k b)%nat.
Proof. intros. unfold count. now rewrite filter_app, app_length. Qed.
Lemma count_repeat : forall k k' a, count k (repeat (qz k') a) = if k =? k' then a else 0%nat.
Proof.
  intros k k' a. unfold count. assert (B : is k (qz k') = (k =? k')).
  { apply eq_true_iff_eq. rewrite is_iff, Z.eqb_eq. split; [|now intros ->]. intros H. assert (H' : this (qz k') == this (qz k)) by now rewrite H. rewrite !this_qz in H'. apply (proj1 (inject_Z_injective _ _)) in H'. congruence. }
  induction a as [|a IH]; cbn [repeat filter]; [now destruct (k =? k')|]. rewrite B. destruct (k =? k') eqn:Q; cbn [length]; [now rewrite IH | exact IH].
Qed.
Lemma total_weights : forall f l (w : list (Z * Qc)), (forall x, f x = qsum (fun p => only (is (fst p) x) (snd p)) w) ->
  total (map f l) = qsum (fun p => (qz (Z.of_nat (count (fst p) l)) * snd p)%Qc) w.
Proof.
  intros f l w H. induction l as [|x l IH].
  - unfold total. cbn [map]. rewrite qsum_nil. symmetry. apply qsum_zero. intros p _. unfold count. cbn. change (qz 0) with 0%Qc. ring.
  - cbn [map]. unfold total in *. rewrite qsum_cons, IH, H, <- qsum_add. apply qsum_ext. intros p _. unfold count. cbn [filter]. destruct (is (fst p) x); cbn [only length]; [|ring].
    rewrite Nat2Z.inj_succ. assert (Q : qz (Z.succ (Z.of_nat (length (filter (is (fst p)) l)))) = (qz (Z.of_nat (length (filter (is (fst p)) l))) + 1)%Qc).
    { apply Qc_eq_this. rewrite this_add, !this_qz. change (this 1%Qc) with (inject_Z 1). rewrite <- inject_Z_plus. reflexivity. }
    rewrite Q. ring.
Qed.
Lemma qz_inj : forall a b, qz a = qz b -> a = b.
Proof. intros a b H. assert (H' : this (qz a) == this (qz b)) by now rewrite H. rewrite !this_qz in H'. now apply (proj1 (inject_Z_injective _ _)) in H'. Qed.

(** one coupling at a time *)
Definition only_t : interactions := mkInter 1 0 0 0 0 0 0 0 0 0.
Definition only_J : interactions := mkInter 0 (qz 2) 0 0 0 0 0 0 0 0.
Definition only_par : interactions := mkInter 0 0 (qz 2) 0 0 0 0 0 0 0.
Definition only_per : interactions := mkInter 0 0 0 (qz 2) 0 0 0 0 0 0.
Definition only_sp : interactions := mkInter 0 0 0 0 1 0 0 0 0 0.
Definition only_so : interactions := mkInter 0 0 0 0 0 1 0 0 0 0.
Definition only_tN : interactions := mkInter 0 0 0 0 0 0 1 0 0 0.
Definition only_tn : interactions := mkInter 0 0 0 0 0 0 0 1 0 0.

Section Counts.
Variables (E : runtime) (c : configuration) (w : Z) (r : list Z) (S : switches) (es0 : coo).
Hypothesis HE : set_iter_ok E.
Hypothesis HC : filled c w r.
Hypothesis B0 : build_with E codes (mkBasis c (dl c)) S = Ok es0.
Let L := between (nsites c) (point w) r r.
Variables (i j : Z) (d e : list Z).
Hypothesis Hi : 0 <= i.
Hypothesis Hj : 0 <= j.
Hypothesis Nij : i <> j.
Hypothesis Nd : nth_error (dl c) (Z.to_nat i) = Some d.
Hypothesis Ne : nth_error (dl c) (Z.to_nat j) = Some e.

(** the mirror at [i, j] and at [j, i] *)
Lemma mirror_total : forall M, total (map (decode (mirror_values M (fun _ => Ok (qz 0)) (fun _ => Ok (qz 0)))) (at_place es0 i j)) = mirror_element c w r M (fun _ => 0%Qc) (fun _ => 0%Qc) S (state_of c d) (state_of c e).
Proof.
  intros M. destruct (mirror_ok E c w r M HE HC (fun _ => Ok (qz 0)) (fun _ => Ok (qz 0)) (fun _ => 0%Qc) (fun _ => 0%Qc) S (fun _ _ => eq_refl) (fun _ _ => eq_refl)) as (es & B & _ & H).
  rewrite mirror_with in B. destruct (run_decodes E c (dl c) _ S es B) as (es1 & B1 & D). rewrite B0 in B1. injection B1 as <-. rewrite <- (D i j Nij), <- total_at. exact (H i j d e Hi Hj Nd Ne).
Qed.
Lemma exact_total : forall K, total (map (decode (exact_values E c K)) (at_place es0 i j)) = tj_element L K S (state_of c d) (state_of c e).
Proof.
  intros K. destruct (built E c w r K S (RList []) HE HC) as (es & E1 & E2 & R0 & M0). rewrite build_split in E2. destruct (entries_of E (mkBasis c (dl c)) K S) as [h0|] eqn:Q0; [|discriminate]. cbn [bind] in E2. unfold coo_to_csr in E2.
  destruct (forallb _ h0) in E2; [|discriminate]. injection E2 as _ Q2. subst h0. rewrite exact_with in Q0. destruct (run_decodes E c (dl c) _ S es Q0) as (es1 & B1 & D). rewrite B0 in B1. injection B1 as <-. rewrite <- (D i j Nij), <- total_at. exact (M0 i j d e Hi Hj Nd Ne).
Qed.
End Counts.

(** ** an image is not reached in both ways *)
Section Ways.
Variables (L : lattice) (n : Z).
Hypothesis HS : lat_size L = n.
Lemma ways_apart : forall s t h m e h' m' e', 0 <= h < n -> 0 <= m < n -> 0 <= e < n -> 0 <= h' < n -> 0 <= e' < n ->
  sd_cond L s h m e = true -> sd_cond L s h' m' e' = true -> sameb n t (shift_state h m e s) = true -> sameb n t (swap_state h' e' s) = true -> False.
Proof.
  intros s t h m e h' m' e' Hh Hm He Hh' He' C C' A B. unfold sd_cond in *. rewrite !andb_true_iff, !holeb_iff, !oppositeb_iff in *.
  destruct C as ((((((_ & _) & _) & B1) & B2) & O) & P). destruct C' as ((((((_ & _) & _) & _) & _) & O') & P').
  assert (N1 : h <> m) by (intros ->; rewrite bonded_irrefl in B1; discriminate). assert (N2 : m <> e) by (intros ->; rewrite bonded_irrefl in B2; discriminate).
  rewrite !sameb_iff in A, B.
  assert (X1 := A h Hh). assert (X2 := A e He). assert (Y1 := B h Hh). assert (Y2 := B e He). unfold shift_state, swap_state in *.
  assert (N3 : h <> e) by (intros ->; destruct P as [[_ Q]|[_ Q]]; congruence).
  repeat match goal with H : context [?a =? ?b] |- _ => destruct (Z.eqb_spec a b); try lia end; subst; destruct P as [[P1 P2]|[P1 P2]], P' as [[P3 P4]|[P3 P4]]; congruence.
Qed.
Lemma one_way : forall s t,
  (forall h m e, 0 <= h < n -> 0 <= m < n -> 0 <= e < n -> sd_cond L s h m e = true -> sameb n t (swap_state h e s) = false) \/
  (forall h m e, 0 <= h < n -> 0 <= m < n -> 0 <= e < n -> sd_cond L s h m e = true -> sameb n t (shift_state h m e s) = false).
Proof.
  intros s t. destruct (existsb (fun h => existsb (fun m => existsb (fun e => sd_cond L s h m e && sameb n t (swap_state h e s)) (sites n)) (sites n)) (sites n)) eqn:Q.
  - right. apply existsb_exists in Q. destruct Q as (h' & Ih & Q). apply existsb_exists in Q. destruct Q as (m' & Im & Q). apply existsb_exists in Q. destruct Q as (e' & Ie & Q).
    apply andb_true_iff in Q. destruct Q as [Q1 Q2]. intros h m e Hh Hm He C. apply not_true_iff_false. intros A.
    apply (ways_apart s t h m e h' m' e'); try assumption; [now apply in_sites in Ih | now apply in_sites in Ie].
  - left. intros h m e Hh Hm He C. apply not_true_iff_false. intros A. apply not_true_iff_false in Q. apply Q.
    apply existsb_exists. exists h. split; [now apply in_sites|]. apply existsb_exists. exists m. split; [now apply in_sites|]. apply existsb_exists. exists e. split; [now apply in_sites|]. now rewrite C, A.
Qed.
Lemma sum_sites_opp : forall k f, (- sum_sites k f)%Qc = sum_sites k (fun x => (- f x)%Qc).
Proof.
  intros k f. assert (Z : (sum_sites k f + sum_sites k (fun x => (- f x)%Qc) = 0)%Qc) by (rewrite <- sum_sites_add; apply sum_sites_zero; intros; ring).
  transitivity (- sum_sites k f + (sum_sites k f + sum_sites k (fun x => (- f x)%Qc)))%Qc; [rewrite Z; ring | ring].
Qed.
Lemma crossings_one_way : forall K s t, op_crossings L K s t = op_singlet L K s t \/ op_crossings L K s t = (- op_singlet L K s t)%Qc.
Proof.
  intros K s t. destruct (one_way s t) as [H|H]; [left|right]; unfold op_crossings, op_singlet; rewrite HS; cbv zeta.
  - apply sum_sites_ext. intros h Hh. apply sum_sites_ext. intros m Hm. apply sum_sites_ext. intros e He. specialize (H h m e Hh Hm He). unfold sd_cond in H.
    destruct (lat_from L h && _ && _ && _ && _ && _ && _); cbn [only]; [|reflexivity]. rewrite H by reflexivity. cbn [only]. ring.
  - rewrite sum_sites_opp. apply sum_sites_ext. intros h Hh. rewrite sum_sites_opp. apply sum_sites_ext. intros m Hm. rewrite sum_sites_opp. apply sum_sites_ext. intros e He. specialize (H h m e Hh Hm He). unfold sd_cond in H.
    destruct (lat_from L h && _ && _ && _ && _ && _ && _); cbn [only]; [|ring]. rewrite H by reflexivity. cbn [only]. ring.
Qed.
Lemma only_zero : forall b, only b 0%Qc = 0%Qc. Proof. now intros []. Qed.
Lemma hop_zero : forall K s t, i_t K = 0%Qc -> op_hop L K s t = 0%Qc.
Proof. intros K s t H. unfold op_hop. apply sum_sites_zero. intros. apply sum_sites_zero. intros. rewrite H. apply only_zero. Qed.
Lemma next_zero : forall K s t, i_tnNNN K = 0%Qc -> i_tNNN K = 0%Qc -> op_next_hop L K s t = 0%Qc.
Proof. intros K s t H H'. unfold op_next_hop. apply sum_sites_zero. intros. apply sum_sites_zero. intros. rewrite H, H'. destruct (lineb2 _ _); apply only_zero. Qed.
Lemma flip_zero : forall K s t, i_Jhpar K = 0%Qc -> i_Jhper K = 0%Qc -> i_J K = 0%Qc -> op_flip L K s t = 0%Qc.
Proof.
  intros K s t H1 H2 H3. unfold op_flip. apply sum_sites_zero. intros x _. apply sum_sites_zero. intros y _. assert (Q : exchange K (bond_doping L s x y) = 0%Qc) by (destruct (bond_doping L s x y); assumption).
  rewrite Q, Qcmult_0_r. apply only_zero.
Qed.
Lemma static_zero : forall K s, i_Jhpar K = 0%Qc -> i_Jhper K = 0%Qc -> i_J K = 0%Qc -> op_static L K s = 0%Qc.
Proof.
  intros K s H1 H2 H3. unfold op_static. apply sum_sites_zero. intros x _. apply sum_sites_zero. intros y _. assert (Q : exchange K (bond_doping L s x y) = 0%Qc) by (destruct (bond_doping L s x y); assumption).
  rewrite Q, Qcmult_0_r. change (- 0)%Qc with 0%Qc. apply only_zero.
Qed.
Lemma repulsion_zero : forall K s, i_VNN K = 0%Qc -> i_VNNNper K = 0%Qc -> op_repulsion L K s = 0%Qc.
Proof. intros K s H1 H2. unfold op_repulsion. apply sum_sites_zero. intros x _. apply sum_sites_zero. intros y _. rewrite H1, H2, !only_zero. reflexivity. Qed.
End Ways.

Section Equal.
Variables (E : runtime) (c : configuration) (w : Z) (r : list Z) (S : switches) (es0 : coo).
Hypothesis HE : set_iter_ok E.
Hypothesis HC : filled c w r.
Hypothesis B0 : build_with E codes (mkBasis c (dl c)) S = Ok es0.
Let L := between (nsites c) (point w) r r.
Lemma mirror_sym : forall M s t, mirror_element c w r M (fun _ => 0%Qc) (fun _ => 0%Qc) S s t = mirror_element c w r M (fun _ => 0%Qc) (fun _ => 0%Qc) S t s.
Proof.
  intros M s t. unfold mirror_element. fold L.
  rewrite (hop_sym L (nsites c) eq_refl (fun _ _ => eq_refl)), (flip_sym L (nsites c) eq_refl), (crossings_sym L (nsites c) eq_refl (fun _ _ => eq_refl)), (next_sym L (nsites c) eq_refl (fun _ _ => eq_refl)), !only_zero. reflexivity.
Qed.
Lemma total_decode : forall V l, total (map (decode V) l) =
  (qz (Z.of_nat (count 1 l)) * v_t V + qz (Z.of_nat (count 2 l)) * v_par V + qz (Z.of_nat (count 3 l)) * v_per V + qz (Z.of_nat (count 4 l)) * v_J V
   + qz (Z.of_nat (count 5 l)) * v_sp V + qz (Z.of_nat (count 6 l)) * v_sm V + qz (Z.of_nat (count 7 l)) * v_op V + qz (Z.of_nat (count 8 l)) * v_om V
   + qz (Z.of_nat (count 9 l)) * v_tn V + qz (Z.of_nat (count 10 l)) * v_tN V)%Qc.
Proof.
  intros V l. rewrite (total_weights _ _ [(1, v_t V); (2, v_par V); (3, v_per V); (4, v_J V); (5, v_sp V); (6, v_sm V); (7, v_op V); (8, v_om V); (9, v_tn V); (10, v_tN V)]).
  - rewrite !qsum_cons, qsum_nil. cbn [fst snd]. ring.
  - intros x. rewrite !qsum_cons, qsum_nil. cbn [fst snd]. unfold decode.
    repeat match goal with |- context [if is ?k x then _ else _] => destruct (is k x) eqn:?;
      [match goal with H : is k x = true |- _ => apply is_iff in H; subst x end; repeat match goal with |- context [is ?a (qz ?b)] => let v := eval vm_compute in (is a (qz b)) in change (is a (qz b)) with v end; cbn [only]; ring|] end.
    cbn [only]. ring.
Qed.

Lemma half_zero : (0 / qz 2)%Qc = 0%Qc. Proof. apply Qc_is_canon. reflexivity. Qed.
(** lists with the same totals have the same counts *)
Lemma same_counts : forall p q, let n k l := Z.of_nat (count k l) in
  (forall M, total (map (decode (mirror_values M (fun _ => Ok (qz 0)) (fun _ => Ok (qz 0)))) p) = total (map (decode (mirror_values M (fun _ => Ok (qz 0)) (fun _ => Ok (qz 0)))) q)) ->
  (forall K, total (map (decode (exact_values E c K)) p) = total (map (decode (exact_values E c K)) q)) ->
  n 1 p = n 1 q /\ n 2 p = n 2 q /\ n 3 p = n 3 q /\ n 4 p = n 4 q /\ n 9 p = n 9 q /\ n 10 p = n 10 q /\
  n 5 p + n 6 p = n 5 q + n 6 q /\ n 7 p + n 8 p = n 7 q + n 8 q /\ n 5 p - n 6 p = n 5 q - n 6 q /\ n 7 p - n 8 p = n 7 q - n 8 q.
Proof.
  intros p q n M X. unfold n.
  assert (A : forall a b, qz (a + b) = (qz a + qz b)%Qc) by (intros a b; apply Qc_eq_this; rewrite this_add, !this_qz, <- inject_Z_plus; reflexivity).
  assert (O : forall a, qz (- a) = (- qz a)%Qc) by (intros a; assert (Z : (qz (- a) + qz a = 0)%Qc) by (rewrite <- A, Z.add_opp_diag_l; reflexivity); transitivity (qz (- a) + qz a + - qz a)%Qc; [ring | rewrite Z; ring]).
  repeat split; apply qz_inj; rewrite <- ?Z.add_opp_r, ?A, ?O;
  [specialize (M only_t) | specialize (M only_par) | specialize (M only_per) | specialize (M only_J) | specialize (M only_tn) | specialize (M only_tN) | specialize (M only_sp) | specialize (M only_so) | specialize (X only_sp) | specialize (X only_so)];
  try rewrite !total_decode in M; try rewrite !total_decode in X;
  unfold mirror_values, exact_values, only_t, only_par, only_per, only_J, only_tn, only_tN, only_sp, only_so in M, X; cbn [v_t v_par v_per v_J v_sp v_sm v_op v_om v_tn v_tN i_t i_J i_Jhpar i_Jhper i_hSDpar i_hSDper i_tNNN i_tnNNN] in M, X;
  rewrite ?half_zero, ?half_two in M; rewrite ?half_zero, ?half_two in X.
  1-8: match type of M with (?a' = ?b') => transitivity a'; [ring | transitivity b'; [exact M | ring]] end.
  all: match type of X with (?a' = ?b') => transitivity a'; [ring | transitivity b'; [exact X | ring]] end.
Qed.
Definition at_ (i j : Z) (k : Z) : Z := Z.of_nat (count k (at_place es0 i j)).
Lemma one_sign : forall i j d e, 0 <= i -> 0 <= j -> i <> j -> nth_error (dl c) (Z.to_nat i) = Some d -> nth_error (dl c) (Z.to_nat j) = Some e ->
  (at_ i j 5 = 0 \/ at_ i j 6 = 0) /\ (at_ i j 7 = 0 \/ at_ i j 8 = 0).
Proof.
  intros i j d e Hi Hj N Nd Ne.
  assert (A : forall a b, qz (a + b) = (qz a + qz b)%Qc) by (intros a b; apply Qc_eq_this; rewrite this_add, !this_qz, <- inject_Z_plus; reflexivity).
  assert (C : forall a b x y : Z, (qz a * 1 + qz b * 1 = qz x)%Qc -> a + b = x) by (intros a b x y Q; apply qz_inj; rewrite A, <- Q; ring).
  assert (G : forall K a b, i_t K = 0%Qc -> i_tnNNN K = 0%Qc -> i_tNNN K = 0%Qc -> i_Jhpar K = 0%Qc -> i_Jhper K = 0%Qc -> i_J K = 0%Qc -> i_VNN K = 0%Qc -> i_VNNNper K = 0%Qc ->
    total (map (decode (mirror_values K (fun _ => Ok (qz 0)) (fun _ => Ok (qz 0)))) (at_place es0 i j)) = (qz a + qz b)%Qc ->
    total (map (decode (exact_values E c K)) (at_place es0 i j)) = (qz a + - qz b)%Qc -> a = 0 \/ b = 0).
  { intros K a b K1 K2 K3 K4 K5 K6 K7 K8 M X. rewrite (mirror_total E c w r S es0 HE HC B0 i j d e Hi Hj N Nd Ne) in M. rewrite (exact_total E c w r S es0 HE HC B0 i j d e Hi Hj N Nd Ne) in X.
    unfold mirror_element in M. unfold tj_element in X. fold L in M, X. rewrite (hop_zero L _ _ _ K1), (next_zero L _ _ _ K2 K3), (flip_zero L _ _ _ K4 K5 K6) in M, X. rewrite (static_zero L _ _ K4 K5 K6), (repulsion_zero L _ _ K7 K8) in X.
    rewrite ?only_zero in M, X. destruct (crossings_one_way L (nsites c) eq_refl K (state_of c d) (state_of c e)) as [Q|Q]; rewrite Q in M; clear Q; set (o := op_singlet _ _ _ _) in *; clearbody o.
    - right. assert (Z : (qz b + qz b = 0)%Qc) by (transitivity ((qz a + qz b) - (qz a + - qz b))%Qc; [ring|]; rewrite <- M, <- X; ring). rewrite <- A in Z. apply (qz_inj _ 0) in Z. lia.
    - left. assert (Z : (qz a + qz a = 0)%Qc) by (transitivity ((qz a + qz b) + (qz a + - qz b))%Qc; [ring|]; rewrite <- M, <- X; destruct (s_bSD S); cbn [only]; ring). rewrite <- A in Z. apply (qz_inj _ 0) in Z. lia. }
  split; [apply (G only_sp) | apply (G only_so)]; try reflexivity; rewrite total_decode;
  unfold mirror_values, exact_values, only_sp, only_so; cbn [v_t v_par v_per v_J v_sp v_sm v_op v_om v_tn v_tN i_t i_J i_Jhpar i_Jhper i_hSDpar i_hSDper i_tNNN i_tnNNN]; rewrite ?half_zero; unfold at_; ring.
Qed.
Lemma two_codes : forall k k' a, k <> k' -> (forall x, In x a -> x = qz k \/ x = qz k') -> count k a = 0%nat \/ count k' a = 0%nat -> a = repeat (qz k) (count k a) ++ repeat (qz k') (count k' a).
Proof.
  intros k k' a N H Z. assert (D : forall q q', q <> q' -> (forall x, In x a -> x = qz q \/ x = qz q') -> count q' a = 0%nat -> a = repeat (qz q) (count q a)).
  { intros q q' Nq Hq Zq. assert (R : forall x, In x a -> x = qz q).
    { intros x I. destruct (Hq x I) as [X|X]; [exact X|]. exfalso. unfold count in Zq. apply length_zero_iff_nil in Zq. assert (I' : In x (filter (is q') a)) by (apply filter_In; split; [exact I | now apply is_iff]). rewrite Zq in I'. destruct I'. }
    destruct (all_repeat _ _ R) as (m & ->). rewrite count_repeat, Z.eqb_refl. reflexivity. }
  destruct Z as [Z|Z].
  - rewrite Z. cbn [repeat app]. apply (D k' k); auto. intros x I. destruct (H x I); auto.
  - rewrite Z. cbn [repeat]. rewrite app_nil_r. now apply (D k k').
Qed.
Lemma none : forall k a b l, k <> a -> k <> b -> (forall x, In x l -> x = qz a \/ x = qz b) -> count k l = 0%nat.
Proof.
  intros k a b l N1 N2 H. unfold count. apply length_zero_iff_nil. destruct (filter (is k) l) as [|x f] eqn:Q; [reflexivity|]. exfalso. assert (I : In x (filter (is k) l)) by (rewrite Q; now left).
  apply filter_In in I. destruct I as [I B]. apply is_iff in B. destruct (H x I) as [X|X]; rewrite B in X; apply qz_inj in X; contradiction.
Qed.
Definition spread (q : Z -> nat) : list Qc :=
  repeat (qz 1) (q 1) ++ repeat (qz 2) (q 2) ++ repeat (qz 3) (q 3) ++ repeat (qz 4) (q 4) ++ repeat (qz 5) (q 5) ++ repeat (qz 6) (q 6) ++ repeat (qz 7) (q 7) ++ repeat (qz 8) (q 8) ++ repeat (qz 9) (q 9) ++ repeat (qz 10) (q 10).
Lemma place_spread : forall i j d e, 0 <= i -> 0 <= j -> i <> j -> nth_error (dl c) (Z.to_nat i) = Some d -> nth_error (dl c) (Z.to_nat j) = Some e ->
  at_place es0 i j = spread (fun k => count k (at_place es0 i j)).
Proof.
  intros i j d e Hi Hj N Nd Ne. destruct (one_sign i j d e Hi Hj N Nd Ne) as [O1 O2]. unfold at_ in O1, O2.
  destruct (codes_shape E c (dl c) S es0 i j B0 N) as (q1 & q2 & q3 & q4 & A & (a & ->) & (b1 & b2 & b3 & ->) & (s1 & s2 & -> & B1 & B2) & (d1 & d2 & ->)).
  rewrite A in *. clear A.
  assert (Q : forall k, count k (repeat (qz 1) a ++ (repeat (qz 2) b1 ++ repeat (qz 3) b2 ++ repeat (qz 4) b3) ++ (s1 ++ s2) ++ repeat (qz 9) d1 ++ repeat (qz 10) d2) =
    ((if (k =? 1)%Z then a else 0) + ((if (k =? 2)%Z then b1 else 0) + ((if (k =? 3)%Z then b2 else 0) + (if (k =? 4)%Z then b3 else 0))) + ((count k s1 + count k s2) + ((if (k =? 9)%Z then d1 else 0) + (if (k =? 10)%Z then d2 else 0))))%nat).
  { intros k. rewrite !count_app, !count_repeat. lia. }
  assert (Z1 : forall k, k <> 5 -> k <> 6 -> count k s1 = 0%nat) by (intros k K1 K2; exact (none k 5 6 s1 K1 K2 B1)).
  assert (Z2 : forall k, k <> 7 -> k <> 8 -> count k s2 = 0%nat) by (intros k K1 K2; exact (none k 7 8 s2 K1 K2 B2)).
  unfold spread. rewrite !Q in *. cbn [Z.eqb Pos.eqb] in *. rewrite !(Z1 1), !(Z1 2), !(Z1 3), !(Z1 4), !(Z1 7), !(Z1 8), !(Z1 9), !(Z1 10), !(Z2 1), !(Z2 2), !(Z2 3), !(Z2 4), !(Z2 5), !(Z2 6), !(Z2 9), !(Z2 10) in * by discriminate.
  rewrite ?Nat.add_0_r in *. cbn [Nat.add] in *.
  assert (S1 : s1 = repeat (qz 5) (count 5 s1) ++ repeat (qz 6) (count 6 s1)) by (apply two_codes; [discriminate | exact B1 | lia]).
  assert (S2 : s2 = repeat (qz 7) (count 7 s2) ++ repeat (qz 8) (count 8 s2)) by (apply two_codes; [discriminate | exact B2 | lia]).
  rewrite S1 at 1. rewrite S2 at 1. rewrite <- !app_assoc. reflexivity.
Qed.
End Equal.
Lemma spread_ext : forall q q', (forall k, 1 <= k <= 10 -> q k = q' k) -> spread q = spread q'.
Proof. intros q q' H. unfold spread. rewrite !H by lia. reflexivity. Qed.

(** places of two runs *)
Lemma places_same : forall E E' c w r S es es' i j i' j' d e d' e', set_iter_ok E -> set_iter_ok E' -> filled c w r ->
  build_with E codes (mkBasis c (dl c)) S = Ok es -> build_with E' codes (mkBasis c (dl c)) S = Ok es' -> i <> j -> i' <> j' -> 0 <= i -> 0 <= j -> 0 <= i' -> 0 <= j' ->
  nth_error (dl c) (Z.to_nat i) = Some d -> nth_error (dl c) (Z.to_nat j) = Some e -> nth_error (dl c) (Z.to_nat i') = Some d' -> nth_error (dl c) (Z.to_nat j') = Some e' ->
  (forall M, mirror_element c w r M (fun _ => 0%Qc) (fun _ => 0%Qc) S (state_of c d) (state_of c e) = mirror_element c w r M (fun _ => 0%Qc) (fun _ => 0%Qc) S (state_of c d') (state_of c e')) ->
  (forall K, tj_element (between (nsites c) (point w) r r) K S (state_of c d) (state_of c e) = tj_element (between (nsites c) (point w) r r) K S (state_of c d') (state_of c e')) ->
  at_place es i j = at_place es' i' j'.
Proof.
  intros E E' c w r S es es' i j i' j' d e d' e' HE HE' HC B B' N N' Hi Hj Hi' Hj' Nd Ne Nd' Ne' M X.
  rewrite (place_spread E c w r S es HE HC B i j d e Hi Hj N Nd Ne), (place_spread E' c w r S es' HE' HC B' i' j' d' e' Hi' Hj' N' Nd' Ne').
  destruct (same_counts E c (at_place es i j) (at_place es' i' j')) as (C1 & C2 & C3 & C4 & C9 & C10 & P1 & P2 & D1 & D2).
  - intros I. rewrite (mirror_total E c w r S es HE HC B i j d e Hi Hj N Nd Ne), (mirror_total E' c w r S es' HE' HC B' i' j' d' e' Hi' Hj' N' Nd' Ne'). apply M.
  - intros K. rewrite (exact_total E c w r S es HE HC B i j d e Hi Hj N Nd Ne). change (decode (exact_values E c K)) with (decode (exact_values E' c K)). rewrite (exact_total E' c w r S es' HE' HC B' i' j' d' e' Hi' Hj' N' Nd' Ne'). apply X.
  - apply spread_ext. intros k Hk. assert (K : k = 1 \/ k = 2 \/ k = 3 \/ k = 4 \/ k = 5 \/ k = 6 \/ k = 7 \/ k = 8 \/ k = 9 \/ k = 10) by lia.
    repeat (destruct K as [->|K]; [lia|]). subst k. lia.
Qed.
