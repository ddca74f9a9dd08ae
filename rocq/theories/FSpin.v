(** Final lemmas for C36-C40. *)
From Coq Require Import String ZArith List Bool Lia Permutation Sorted QArith Qcanon Qround.
From Verif Require Import PyBase PyFacts Runtimes Lattice Base Interact Ham Spin Spec SpecOps SpecTJ SpecSpin SpinDefs Geometry HamSpec
  PBasis PSites PRot PInter PSpin POps PHam FBasis FSites FInter FHam FDyn PWave PTJSpin PVec PSecSum PSpinOp PBound PAct Examples.
Import ListNotations.
Open Scope Z_scope.

(** ** C36 *)
Lemma C36_conserved_pf : forall E c w K S arg l m v, set_iter_ok E -> filled_whole c w -> proper c -> holes_in_order E c ->
  s_bz S = s_bij S -> assembled E c K S arg l m -> length v = length l ->
  exists v', compute_S2 E c v = Ok v' /\ compute_S2 E c (times m v) = Ok (times m v').
Proof.
  intros E c w K S arg l m v HE HF P HO Q HA Lv. apply (commute E c w K S arg l m HE HF P HA HO Q).
  destruct (core _ _ _ _ _ _ _ _ _ HE HF HA) as (-> & _). unfold zlen. rewrite Lv. apply (proper_length c P).
Qed.

(** ** C37 *)
Lemma basis_is : forall c l, proper c -> construct_basis c = Ok (mkBasis c l) -> l = dets (nsites c) (Z.to_nat (nholes c)) (Z.to_nat (nbeta c)).
Proof. intros c l P H. rewrite (proper_basis c P) in H. now injection H as <-. Qed.

Lemma C37_squared_pf : forall E c l v psi, set_iter_ok E -> proper c -> holes_in_order E c ->
  construct_basis c = Ok (mkBasis c l) -> on_lattice (nsites c) psi -> amplitudes c l v psi ->
  exists v', compute_S2 E c v = Ok v' /\ amplitudes c l v' (S_squared (nsites c) psi).
Proof.
  intros E c l v psi HE P HO HB O A. rewrite (basis_is c l P HB) in *. apply (amplitudes_iff c P v psi O) in A. destruct A as [Lv V].
  destruct (S2_ok E c HE P HO v Lv) as (v' & E1 & L1 & V1). exists v'. split; [exact E1|].
  apply (amplitudes_iff c P _ _ (squared_on c psi O)). split; [unfold zlen in *; congruence|].
  intros s Hs. rewrite V1 by assumption. apply squared_sector; try assumption. apply wave_on.
Qed.

Lemma C37_ladder_form_pf : forall n psi t, on_lattice n psi ->
  S_squared n psi t = (S_minus n (S_plus n psi) t + total_z n t * (total_z n t + 1) * psi t)%Qc.
Proof.
  intros n psi t O. rewrite squared_form, sm_sp by assumption. rewrite total_num. set (a := num n t Up). set (d := num n t Down).
  transitivity (half * (a + d) * psi t + half * (a - d) * (half * (a - d)) * psi t + flips n psi t)%Qc; [ring|].
  transitivity ((half + half) * d * psi t + flips n psi t + half * (a - d) * (half * (a - d) + 1) * psi t)%Qc; [ring|]. rewrite half_half. ring.
Qed.

Lemma C37_pair_pf : forall E c l v psi i j, set_iter_ok E -> proper c -> holes_in_order E c ->
  construct_basis c = Ok (mkBasis c l) -> on_lattice (nsites c) psi -> amplitudes c l v psi -> 0 <= i < nsites c -> 0 <= j < nsites c ->
  exists v', compute_S_plus_S_minus E c v i j = Ok v' /\
    amplitudes c l v' (fun t => only (samep (t i) Up && samep (t j) Down) (psi (put i Down (put j Up t)))).
Proof.
  intros E c l v psi i j HE P HO HB O A Hi Hj. rewrite (basis_is c l P HB) in *. apply (amplitudes_iff c P v psi O) in A. destruct A as [Lv V].
  destruct (spm_ok E c HE P HO v i j Lv Hi Hj) as (u & E1 & L1 & V1). exists u. split; [exact E1|].
  apply (amplitudes_iff c P).
  - intros s t H. rewrite (H i Hi), (H j Hj). f_equal. apply O. now repeat apply put_same.
  - split; [unfold zlen in *; congruence|]. intros s Hs. rewrite V1 by assumption. destruct (_ && _) eqn:Q; [|reflexivity]. cbn [only].
    apply andb_true_iff in Q. destruct Q as [Q1 Q2]. apply samep_iff in Q1, Q2.
    rewrite V by (now apply swap_sector). apply O. intros x Hx. unfold swap_state, put.
    destruct (Z.eqb_spec x i), (Z.eqb_spec x j); subst; congruence.
Qed.

Lemma C37_every_vector_pf : forall c l v, proper c -> construct_basis c = Ok (mkBasis c l) -> length v = length l ->
  exists psi, on_lattice (nsites c) psi /\ amplitudes c l v psi.
Proof.
  intros c l v P HB Lv. rewrite (basis_is c l P HB) in *. exists (wave_of c v). split; [apply wave_on|].
  apply (amplitudes_iff c P _ _ (wave_on c v)). split; [|reflexivity]. unfold zlen. rewrite Lv. now apply proper_length.
Qed.

(** up to eight sites CPython lists sets of sites in increasing order *)
Definition own_slot (t : slots) : Prop := (zlen t = 8 \/ zlen t = 32 \/ zlen t = 64) /\ forall i y, nth_error t i = Some (Some y) -> y = Z.of_nat i /\ y < 8.

Lemma elements_sorted : forall t k, (forall i y, nth_error t i = Some (Some y) -> y = k + Z.of_nat i) ->
  Sorted Z.lt (elements t) /\ (forall y, In y (elements t) -> k <= y < k + zlen t).
Proof.
  intros t. induction t as [|o t IH]; intros k H; [split; [constructor | contradiction]|].
  destruct (IH (k + 1)) as [S I].
  { intros i y Hy. rewrite (H (Datatypes.S i) y Hy). lia. }
  unfold elements in *. cbn [flat_map]. destruct o as [x|]; cbn [app].
  - pose proof (H 0%nat x eq_refl). split.
    + constructor; [exact S|]. destruct (flat_map _ t) as [|y l] eqn:Q; constructor. specialize (I y (or_introl eq_refl)). lia.
    + intros y [<-|Hy]; [rewrite zlen_cons; pose proof (zlen_nonneg _ t); lia|]. specialize (I y Hy). rewrite zlen_cons. lia.
  - split; [exact S|]. intros y Hy. specialize (I y Hy). rewrite zlen_cons. lia.
Qed.

Lemma land_small : forall x m, (m = 7 \/ m = 31 \/ m = 63) -> 0 <= x < 8 -> Z.land x m = x.
Proof.
  intros x m [->|[->| ->]] Hx; [change 7 with (Z.ones 3) | change 31 with (Z.ones 5) | change 63 with (Z.ones 6)]; rewrite Z.land_ones by lia; apply Z.mod_small; lia.
Qed.

Lemma nth_slot : forall (t : slots) i, nth i t None = match nth_error t i with Some o => o | None => None end.
Proof. intros t. induction t as [|o t IH]; intros [|i]; cbn; auto. Qed.

Lemma insert_own : forall t x, own_slot t -> 0 <= x < 8 -> insert_slot t x = set_nth t (Z.to_nat x) (Some x).
Proof.
  intros t x [L H] Hx. unfold insert_slot. rewrite land_small by lia. replace (100 + Datatypes.length t)%nat with (Datatypes.S (99 + Datatypes.length t)) by lia.
  cbn [find_slot].
  assert (PR : forall k, probe k t x x = Some x).
  { intros k. destruct k; cbn [probe]; rewrite nth_slot; destruct (nth_error t (Z.to_nat x)) as [[y|]|] eqn:Q; try reflexivity;
      (destruct (H _ _ Q) as [-> _]; rewrite Z2Nat.id by lia; now rewrite Z.eqb_refl). }
  rewrite PR. reflexivity.
Qed.

Lemma insert_slot_own : forall t x, own_slot t -> 0 <= x < 8 -> own_slot (insert_slot t x).
Proof.
  intros t x HO Hx. rewrite insert_own by assumption. destruct HO as [L H]. split; [unfold zlen in *; now rewrite set_nth_length|].
  intros i y Hy. destruct (Nat.eq_dec i (Z.to_nat x)) as [->|N].
  - rewrite set_nth_same in Hy by (unfold zlen in L; lia). injection Hy as <-. lia.
  - rewrite set_nth_other in Hy by congruence. now apply H.
Qed.

Lemma elements_bound : forall t, own_slot t -> zlen (elements t) <= 8.
Proof.
  intros t HO. assert (ND : NoDup (elements t)).
  { destruct (elements_sorted t 0) as [S _]; [intros i y Hy; destruct HO as [_ H]; apply H in Hy; lia|].
    apply Sorted_StronglySorted in S; [|intros x y z; lia]. induction S as [|x l S IH F]; constructor; [|assumption].
    intros Hx. rewrite Forall_forall in F. specialize (F x Hx). lia. }
  assert (IN : incl (elements t) (zrange 0 8)).
  { intros y Hy. apply in_zrange. unfold elements in Hy. apply in_flat_map in Hy. destruct Hy as (o & Ho & Hy). destruct o as [z|]; [|contradiction].
    destruct Hy as [->|[]]. apply In_nth_error in Ho. destruct Ho as (i & Ho). destruct HO as [_ H]. apply H in Ho. lia. }
  pose proof (NoDup_incl_length ND IN) as Q. unfold zlen. replace 8 with (Z.of_nat (Datatypes.length (zrange 0 8))) by reflexivity. lia.
Qed.

Lemma elements_small : forall t y, own_slot t -> In y (elements t) -> 0 <= y < 8.
Proof.
  intros t y [_ H] Hy. unfold elements in Hy. apply in_flat_map in Hy. destruct Hy as (o & Ho & Hy). destruct o as [z|]; [|contradiction].
  destruct Hy as [->|[]]. apply In_nth_error in Ho. destruct Ho as (i & Ho). apply H in Ho. lia.
Qed.

Lemma fold_own : forall l t, own_slot t -> (forall x, In x l -> 0 <= x < 8) -> own_slot (fold_left insert_slot l t).
Proof.
  intros l. induction l as [|x l IH]; intros t HO H; [exact HO|]. cbn [fold_left]. apply IH; [apply insert_slot_own; [assumption | apply H; now left] | intros; apply H; now right].
Qed.

Lemma empty_own : forall k, k = 8%nat \/ k = 32%nat \/ k = 64%nat -> own_slot (repeat None k).
Proof.
  intros k Hk. split; [unfold zlen; rewrite repeat_length; lia|]. intros i y Hy. apply nth_error_In in Hy. apply repeat_spec in Hy. discriminate.
Qed.

Lemma set_add_own : forall t x, own_slot t -> 0 <= x < 8 -> own_slot (set_add t x).
Proof.
  intros t x HO Hx. pose proof (insert_slot_own t x HO Hx) as H1. unfold set_add. cbv zeta. destruct (_ && _) eqn:Q; [|assumption].
  apply andb_true_iff in Q. destruct Q as [_ Q]. apply Z.leb_le in Q. pose proof (elements_bound _ H1) as B. destruct HO as [L _].
  apply fold_own; [|intros y Hy; now apply (elements_small _ _ H1)]. apply empty_own.
  set (u := zlen (elements (insert_slot t x))) in *.
  assert (U : 5 <= u) by lia. assert (u = 5 \/ u = 6 \/ u = 7 \/ u = 8) as [V|[V|[V|V]]] by lia; rewrite V; vm_compute; auto.
Qed.

Lemma table_own : forall l t, own_slot t -> (forall x, In x l -> 0 <= x < 8) -> own_slot (fold_left set_add l t).
Proof.
  intros l. induction l as [|x l IH]; intros t HO H; [exact HO|]. cbn [fold_left]. apply IH; [apply set_add_own; [assumption | apply H; now left] | intros; apply H; now right].
Qed.

Lemma set_add_keeps : forall t x y, own_slot t -> 0 <= x < 8 -> (In y (elements (set_add t x)) <-> y = x \/ In y (elements t)).
Proof.
  assert (IN : forall t y, own_slot t -> 0 <= y < 8 -> (In y (elements t) <-> nth_error t (Z.to_nat y) = Some (Some y))).
  { intros t y [L H] Hy. unfold elements. rewrite in_flat_map. split.
    - intros (o & Ho & Q). destruct o as [z|]; [|contradiction]. destruct Q as [->|[]]. apply In_nth_error in Ho. destruct Ho as (i & Ho).
      pose proof (H _ _ Ho). replace (Z.to_nat y) with i by lia. exact Ho.
    - intros Q. exists (Some y). split; [eapply nth_error_In, Q | now left]. }
  assert (INS : forall t x y, own_slot t -> 0 <= x < 8 -> (In y (elements (insert_slot t x)) <-> y = x \/ In y (elements t))).
  { intros t x y HO Hx. pose proof (insert_slot_own t x HO Hx) as HO'.
    assert (D : 0 <= y < 8 -> (In y (elements (insert_slot t x)) <-> y = x \/ In y (elements t))).
    { intros Hy. rewrite !IN by assumption. rewrite insert_own by assumption. destruct HO as [L _]. destruct (Z.eq_dec y x) as [->|N].
      - rewrite set_nth_same by (unfold zlen in L; lia). tauto.
      - rewrite set_nth_other by lia. tauto. }
    split; intros Q.
    - apply D; [now apply (elements_small _ _ HO') | assumption].
    - apply D; [destruct Q as [->|Q]; [assumption | now apply (elements_small _ _ HO)] | assumption]. }
  assert (FOLD : forall l t y, own_slot t -> (forall x, In x l -> 0 <= x < 8) -> (In y (elements (fold_left insert_slot l t)) <-> In y l \/ In y (elements t))).
  { intros l. induction l as [|x l IH]; intros t y HO H; cbn [fold_left In]; [tauto|].
    assert (Hx : 0 <= x < 8) by (apply H; now left). rewrite IH by (try (now apply insert_slot_own); intros; apply H; now right).
    rewrite INS by assumption. intuition congruence. }
  intros t x y HO Hx. pose proof (insert_slot_own t x HO Hx) as H1. unfold set_add. cbv zeta. destruct (_ && _) eqn:Q; [|now apply INS].
  apply andb_true_iff in Q. destruct Q as [_ Q]. apply Z.leb_le in Q. pose proof (elements_bound _ H1) as B. pose proof HO as [L _].
  set (k := Z.to_nat _). assert (OW : own_slot (repeat None k)).
  { apply empty_own. unfold k. set (u := zlen (elements (insert_slot t x))) in *.
    assert (U : 5 <= u) by lia. assert (u = 5 \/ u = 6 \/ u = 7 \/ u = 8) as [V|[V|[V|V]]] by lia; rewrite V; vm_compute; auto. }
  rewrite FOLD by (try assumption; intros z Hz; now apply (elements_small _ _ H1)). rewrite INS by assumption.
  assert (EM : forall j, elements (repeat None j) = []) by (intros j; induction j; [reflexivity | assumption]). rewrite EM. cbn [In]. tauto.
Qed.

Lemma table_keeps : forall l t y, own_slot t -> (forall x, In x l -> 0 <= x < 8) -> (In y (elements (fold_left set_add l t)) <-> In y l \/ In y (elements t)).
Proof.
  intros l. induction l as [|x l IH]; intros t y HO H; cbn [fold_left In]; [tauto|].
  assert (Hx : 0 <= x < 8) by (apply H; now left). rewrite IH by (try (now apply set_add_own); intros; apply H; now right).
  rewrite set_add_keeps by assumption. intuition congruence.
Qed.

Lemma cpython_small : forall l, (forall x, In x l -> 0 <= x < 8) -> Sorted Z.lt (set_iter cpython l).
Proof.
  intros l H. cbn [set_iter cpython]. unfold cpython_order. cbv zeta.
  assert (OW : own_slot (fold_left set_add l (repeat None 8))) by (apply table_own; [apply empty_own; auto | assumption]).
  assert (S : Sorted Z.lt (table_order l)) by (apply (elements_sorted _ 0); intros i y Hy; destruct OW as [_ OW]; apply OW in Hy; lia).
  assert (zsort (table_order l) = zsort (nodup Z.eq_dec l)) as Q.
  { apply sorted_perm_eq; try apply zsort_sorted. eapply Permutation_trans; [apply zsort_perm|]. eapply Permutation_trans; [|apply Permutation_sym, zsort_perm].
    apply NoDup_Permutation; [|apply NoDup_nodup|].
    - apply Sorted_StronglySorted in S; [|intros x y z; lia]. induction S as [|x l' S IH F]; constructor; [|assumption].
      intros Hx. rewrite Forall_forall in F. specialize (F x Hx). lia.
    - intros y. rewrite nodup_In. unfold table_order. rewrite table_keeps by (try assumption; apply empty_own; auto). cbn. tauto. }
  assert (zlist_eqb (zsort (table_order l)) (zsort (nodup Z.eq_dec l)) = true) as -> by (now apply zlist_eqb_eq). exact S.
Qed.

Lemma C37_eight_sites_pf : forall c, nsites c <= 8 -> holes_in_order cpython c.
Proof. intros c H. right. intros l Hl. apply cpython_small. intros x Hx. specialize (Hl x Hx). lia. Qed.
