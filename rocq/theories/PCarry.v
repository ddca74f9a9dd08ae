(** Operators that carry wave functions from one number of downs to another: the ladder, the flip of all spins, and their products. *)
From Coq Require Import ZArith List Bool Lia QArith Qcanon Psatz.
From Verif Require Import PyBase PyFacts Lattice Base Interact Ham Spin Spec SpecOps SpecTJ SpecSpin SpinDefs Geometry HamSpec SignDefs
  POps PSpin PQc PBasis PSites PHam FGeo FSites FInter FHam PWave PTJSpin PVec PSecSum PSpinOp PBound PAct PDavIter FSpin FSpinVal FMulti PSign PSignOp FSign PSinglet FSinglet FFerro.
Import ListNotations.
Open Scope Z_scope.

Section Carry.
Variables (n h : Z) (L : lattice) (K : interactions) (S : switches) (p : Z -> Z * Z).
Hypothesis Hn : 0 <= n.
Hypothesis Hh : 0 <= h.
Hypothesis HS : lat_size L = n.
Hypothesis HQ : s_bz S = s_bij S.
Hypothesis FT : forall x, 0 <= x < lat_size L -> lat_from L x = lat_to L x.
Notation f := (hop_sign K n p).
Definition signs_ge (b : Z) (psi : wave) : Prop := forall s, in_sector n h b s -> (0 <= f s * psi s)%Qc.
Definition size (b : Z) (psi : wave) : Qc := ssum n h b (fun t => (psi t * psi t)%Qc).

Definition carries (b b' : Z) (T : wave -> wave) : Prop :=
  (forall psi, on_lattice n psi -> on_lattice n (T psi)) /\
  (forall x y psi phi t, in_sector n h b' t -> T (fun s => (x * psi s + y * phi s)%Qc) t = (x * T psi t + y * T phi t)%Qc) /\
  (forall psi phi, (forall s, in_sector n h b s -> psi s = phi s) -> forall t, in_sector n h b' t -> T psi t = T phi t) /\
  (forall psi t, on_lattice n psi -> in_sector n h b' t -> w_tj L n K S (T psi) t = T (w_tj L n K S psi) t) /\
  (forall psi t, on_lattice n psi -> in_sector n h b' t -> S_squared n (T psi) t = T (S_squared n psi) t) /\
  (forall psi, signs_ge b psi -> signs_ge b' (T psi)) /\
  (forall psi, positive n h K p b psi -> positive n h K p b' (T psi)).
Definition keeps_size (b b' : Z) (T : wave -> wave) : Prop := exists d, (0 < d)%Qc /\ forall psi, on_lattice n psi -> (d * size b psi <= size b' (T psi))%Qc.

Lemma tj_on : forall psi, on_lattice n psi -> on_lattice n (w_tj L n K S psi).
Proof. intros psi O. assert (KS : keeps_spin n (w_tj L n K S)) by (apply ks_tj; assumption). now apply KS. Qed.

Lemma carry_id : forall b, carries b b (fun psi => psi) /\ keeps_size b b (fun psi => psi).
Proof.
  intros b. split; [repeat (split; [now auto|]); auto|]. exists 1%Qc. split; [reflexivity|]. intros psi _. rewrite Qcmult_1_l. apply Qcle_refl.
Qed.
Lemma carry_step : forall b b' b'' T T', carries b b' T -> carries b' b'' T' -> carries b b'' (fun psi => T' (T psi)).
Proof.
  intros b b' b'' T T' (A1 & A2 & A3 & A4 & A5 & A6 & A7) (B1 & B2 & B3 & B4 & B5 & B6 & B7). split; [auto|]. split.
  { intros x y psi phi t Ht. rewrite <- B2 by assumption. apply B3; [|assumption]. intros s Hs. now apply A2. }
  split; [intros psi phi Q t Ht; apply B3; [|assumption]; intros s Hs; now apply A3|].
  split; [intros psi t O Ht; rewrite B4 by auto; apply B3; [|assumption]; intros s Hs; now apply A4|].
  split; [intros psi t O Ht; rewrite B5 by auto; apply B3; [|assumption]; intros s Hs; now apply A5|]. split; auto.
Qed.
Lemma size_step : forall b b' b'' T T', carries b b' T -> keeps_size b b' T -> keeps_size b' b'' T' -> keeps_size b b'' (fun psi => T' (T psi)).
Proof.
  intros b b' b'' T T' (A1 & _) (d & D & H) (d' & D' & H'). exists (d' * d)%Qc. split; [rewrite <- (Qcmult_0_l d); now apply Qcmult_lt_compat_r|].
  intros psi O. apply Qcle_trans with (d' * size b' (T psi))%Qc; [|now auto]. rewrite <- Qcmult_assoc, !(Qcmult_comm d'). apply Qcmult_le_compat_r; [now auto | now apply Qclt_le_weak].
Qed.

(** the ladder *)
Lemma lowered_size : forall b, 0 <= b -> b < n - h - b -> keeps_size b (b + 1) (S_minus n).
Proof.
  intros b Hb Hab. exists (qz (n - h - b - b)). split; [apply Qclt_this; rewrite this_qz; change (this 0%Qc) with (inject_Z 0); rewrite <- Zlt_Qlt; lia|]. intros psi O. unfold size.
  set (N2 := ssum n h b (fun t => (psi t * psi t)%Qc)).
  assert (A1 : ssum n h b (fun t => (psi t * S_plus n (S_minus n psi) t)%Qc) = ssum n h (b + 1) (fun u => (S_minus n psi u * S_minus n psi u)%Qc)).
  { apply (ladder_square n h b (b + 1) Down Up psi); try assumption; try lia; [discriminate| |].
    + intros; now apply put_down_sector.
    + intros i s Hi Q Sc. replace b with (b + 1 - 1) by lia. now apply put_up_sector. }
  assert (A2 : (0 <= ssum n h b (fun t => psi t * S_minus n (S_plus n psi) t))%Qc).
  { destruct (squared_square n h b Hn Hh Hb psi O) as [Q _].
    erewrite ssum_ext; [exact Q | assumption | assumption | assumption|]. intros s Hs. cbv beta. f_equal.
    rewrite (C37_ladder_form_pf n psi s O). rewrite total_num. destruct (num_of n h b Hn s Hs) as [-> ->]. unfold mz. ring. }
  assert (A3 : (ssum n h b (fun t => psi t * S_plus n (S_minus n psi) t) = ssum n h b (fun t => psi t * S_minus n (S_plus n psi) t) + qz (n - h - b - b) * N2)%Qc).
  { unfold N2. rewrite <- ssum_scale, <- ssum_add. apply ssum_ext; try assumption. intros s Hs. rewrite sp_sm, sm_sp by assumption.
    destruct (num_of n h b Hn s Hs) as [-> ->]. rewrite (qz_sub (n - h - b) b). ring. }
  rewrite <- A1, A3. rewrite <- (Qcplus_0_l (qz (n - h - b - b) * N2)%Qc) at 1. apply Qcplus_le_compat; [assumption | apply Qcle_refl].
Qed.
Lemma lowered_carries : forall b, 0 <= b -> carries b (b + 1) (S_minus n).
Proof.
  intros b Hb. assert (KS : keeps_spin n (w_tj L n K S)) by (apply ks_tj; assumption). destruct KS as (K1 & K2 & K3).
  split; [intros psi; now apply (ladder_on n Down Up)|]. split.
  { intros x y psi phi t _. unfold S_minus, sum_sites. rewrite <- !qsum_scale, <- qsum_add. apply qsum_ext. intros i _. destruct (samep (t i) Down); cbn [only]; ring. }
  split; [intros psi phi Q t Ht; now apply (in_sector_on n h b)|].
  split; [intros psi t O _; now apply K3|]. split; [intros psi t O _; now apply squared_lowered|]. split; [|intros psi; now apply positive_lowered].
  intros psi H t Ht.
  assert (G : (f t * S_minus n psi t)%Qc = qsum (fun x => only (samep (t x) Down) (f t * psi (put x Up t)))%Qc (sites n)).
  { unfold S_minus, sum_sites. rewrite <- qsum_scale. apply qsum_ext. intros x _. destruct (samep (t x) Down); cbn [only]; ring. }
  rewrite G. apply qsum_nonneg. intros x Ix. apply in_sites in Ix. destruct (samep (t x) Down) eqn:Qx; cbn [only]; [|apply Qcle_refl]. apply samep_iff in Qx.
  rewrite (hop_holes K n p t (put x Up t)); [apply H; replace b with (b + 1 - 1) by lia; now apply put_up_sector|].
  intros y Hy. unfold put. destruct (Z.eqb_spec y x) as [->|]; [now rewrite Qx | reflexivity].
Qed.

(** the flip of all spins *)
Definition flipped (psi : wave) : wave := fun t => psi (flip_state t).
Lemma flipped_carries : forall b, 0 <= b -> 0 <= n - h - b -> carries b (n - h - b) flipped.
Proof.
  intros b Hb Ha. assert (FI : forall t, in_sector n h (n - h - b) t -> in_sector n h b (flip_state t)) by (intros t Ht; replace b with (n - h - (n - h - b)) by lia; now apply flip_in).
  split; [intros psi O; now apply flipped_on|]. split; [reflexivity|]. split; [intros psi phi Q t Ht; apply Q; now apply FI|]. split.
  { intros psi t O Ht. unfold flipped. pose proof (flipped_on n psi O) as O'. pose proof flip_twice as FF. pose proof (flip_same n) as FS.
    rewrite <- (act n h (n - h - b)), <- (act n h b); try assumption; [|now apply FI].
    transitivity (ssum n h (n - h - b) (fun u => only true (tj_element L K S t u * psi (flip_state u))%Qc)); [reflexivity|].
    rewrite (ssum_move n h (n - h - b) h b flip_state flip_state (fun _ => true) (fun _ => true)); try assumption; try (intros; reflexivity).
    - apply ssum_ext; try assumption. intros u _. cbn [only]. f_equal.
      + rewrite <- (tj_spin_flip L K S t (flip_state u) FT). apply (tj_ext L L n); try assumption; try reflexivity; [intros x Hx; apply FT; now rewrite HS | intros x Hx; reflexivity | intros x Hx; symmetry; apply FF].
      + apply O. intros x _. apply FF.
    - intros u u' H. f_equal; [|now apply O'].
      apply (tj_ext L L n); try assumption; try reflexivity; [intros x Hx; apply FT; now rewrite HS | intros x Hx; reflexivity | intros x Hx; symmetry; now apply H].
    - intros u Hu _. split; [now apply FI|]. split; [reflexivity | intros x _; apply FF].
    - intros u Hu _. split; [now apply flip_in|]. split; [reflexivity | intros x _; apply FF]. }
  split; [intros psi t O Ht; now apply flipped_squared|]. split; [|intros psi; now apply positive_flipped].
  intros psi H t Ht. rewrite (hop_holes K n p t (flip_state t)) by (intros x _; unfold flip_state; now destruct (t x)). apply H. now apply FI.
Qed.
Lemma flipped_size : forall b, 0 <= b -> 0 <= n - h - b -> keeps_size b (n - h - b) flipped.
Proof.
  intros b Hb Ha. exists 1%Qc. split; [reflexivity|]. intros psi O. rewrite Qcmult_1_l. unfold size, flipped.
  assert (FI : forall t, in_sector n h (n - h - b) t -> in_sector n h b (flip_state t)) by (intros t Ht; replace b with (n - h - (n - h - b)) by lia; now apply flip_in).
  pose proof (ssum_move n h b h (n - h - b) flip_state flip_state (fun _ => true) (fun _ => true) (fun t => (psi t * psi t)%Qc) Hn Hh Hb Hh Ha (flip_same n) (flip_same n) (fun _ _ _ => eq_refl) (fun _ _ _ => eq_refl)) as Q.
  cbn [only] in Q. rewrite Q; [apply Qcle_refl| | |].
  - intros s t H. now rewrite (O s t H).
  - intros s Hs _. split; [now apply flip_in|]. split; [reflexivity | intros x _; apply flip_twice].
  - intros t Ht _. split; [now apply FI|]. split; [reflexivity | intros x _; apply flip_twice].
Qed.

(** from one number of downs to another *)
Lemma carry_all : forall b b', 0 <= b <= n - h -> 0 <= b' <= n - h -> exists T, carries b b' T.
Proof.
  intros b b' B B'. apply (all_reached n h (fun k => exists T, carries b k T) b b' B B').
  - intros k Hk _ (T & C). eexists. apply (carry_step b k (k + 1) T (S_minus n) C). now apply lowered_carries.
  - intros k Hk Hk' (T & C). eexists. apply (carry_step b k (n - h - k) T flipped C). now apply flipped_carries.
  - exists (fun psi => psi). apply carry_id.
Qed.
Lemma carry_up : forall a b a' b', 0 <= b -> 0 <= a -> 0 <= b' -> 0 <= a' -> a = n - h - b -> a' = n - h - b' -> Z.min a b <= Z.min a' b' -> exists T, carries b b' T /\ keeps_size b b' T.
Proof.
  intros a b a' b' B A B' A' Ea Ea' Hm. apply (sectors_reached (fun k => exists T, carries b k T /\ keeps_size b k T) n h a b a' b' B A B' A' Ea Ea' Hm).
  - intros k Hk Hk' (T & C & Z). eexists. split; [apply (carry_step b k (k + 1) T (S_minus n) C); now apply lowered_carries | apply (size_step b k (k + 1) T (S_minus n) C Z); now apply lowered_size].
  - intros k Hk Hk' (T & C & Z). eexists. split; [apply (carry_step b k (n - h - k) T flipped C); now apply flipped_carries | apply (size_step b k (n - h - k) T flipped C Z); now apply flipped_size].
  - exists (fun psi => psi). apply carry_id.
Qed.
End Carry.
