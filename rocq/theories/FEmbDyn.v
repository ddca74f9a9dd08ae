(** Final lemmas for C77: the sectors of the exchanges of the dynamic embedding. *)
From Coq Require Import ZArith List Bool Lia QArith Qcanon.
From Verif Require Import PyBase PyFacts Lattice Base Interact Ham Spin Prob Dav Files Emb Spec SpecTJ PEmbTurn.
Import ListNotations.
Open Scope Z_scope.

Lemma make_counts : forall bm h b r lt x v s c', make_configuration bm h b r lt x v s = Ok c' ->
  nholes c' = h /\ nbeta c' = b /\ nalpha c' = mrows bm - h - b.
Proof.
  intros bm h b r lt x v s c' H. unfold make_configuration in H. destruct (mrows bm =? 0); [discriminate|].
  apply bind_ok_inv in H. destruct H as (r' & _ & H). injection H as <-. repeat split.
Qed.

Lemma C77_exchange_pf : forall c cn spin new pA pB,
  In spin [-1; 0; 1] -> In new [-1; 0; 1] -> spin <> new ->
  mrows (bond_matrix c) = nholes c + nbeta c + nalpha c -> mrows (bond_matrix cn) = nholes cn + nbeta cn + nalpha cn ->
  nholes cn = nholes c -> nbeta cn = nbeta c -> nalpha cn = nalpha c ->
  perturbed_A c spin new = Ok pA -> perturbed_B c cn spin new = Ok pB ->
  (nholes pA = nholes c + (if new =? 0 then 1 else 0) - (if spin =? 0 then 1 else 0) /\
   nbeta pA = nbeta c + (if new =? -1 then 1 else 0) - (if spin =? -1 then 1 else 0) /\
   nalpha pA = nalpha c + (if new =? 1 then 1 else 0) - (if spin =? 1 then 1 else 0)) /\
  (nholes pA + nholes pB = nholes c + nholes cn /\ nbeta pA + nbeta pB = nbeta c + nbeta cn /\ nalpha pA + nalpha pB = nalpha c + nalpha cn).
Proof.
  intros c cn spin new pA pB Hs Hn D Mc Mn H1 H2 H3 A B.
  unfold perturbed_A in A. apply make_counts in A. destruct A as (A1 & A2 & A3).
  unfold perturbed_B in B. apply bind_ok_inv in B. destruct B as (r & _ & B). apply make_counts in B. destruct B as (B1 & B2 & B3).
  rewrite A1, A2, A3, B1, B2, B3, Mc, Mn. clear A1 A2 A3 B1 B2 B3. unfold count_of.
  cbn [In] in Hs, Hn.
  destruct Hs as [<-|[<-|[<-|[]]]]; destruct Hn as [<-|[<-|[<-|[]]]]; try congruence;
    rewrite ?Z.eqb_refl; change (0 =? -1) with false; change (-1 =? 0) with false; change (0 =? 1) with false; change (1 =? 0) with false; change (-1 =? 1) with false; change (1 =? -1) with false; cbv iota; lia.
Qed.

Lemma remember_keys : forall m key x, In key (map fst m) -> exists r, remember m key x = Ok r /\ forall m', r = Some m' -> map fst m' = map fst m.
Proof.
  induction m as [|[k l] m IH]; intros key x H; [destruct H|]. cbn [remember].
  destruct (key_eqb k key) eqn:Q.
  - eexists. split; [reflexivity|]. intros m' E. destruct (pair_mem x l); [discriminate|]. injection E as <-. reflexivity.
  - destruct H as [H|H].
    + cbn [fst] in H. subst k. unfold key_eqb in Q. rewrite !Z.eqb_refl in Q. discriminate.
    + destruct (IH key x H) as (r & -> & F). cbn [bind]. eexists. split; [reflexivity|]. intros m' E. destruct r as [m0|]; [|discriminate]. injection E as <-.
      cbn [map fst]. f_equal. now apply F.
Qed.

Lemma C77_register_pf : forall c cn spin new pA pB m x,
  In spin [-1; 0; 1] -> In new [-1; 0; 1] -> spin <> new ->
  mrows (bond_matrix c) = nholes c + nbeta c + nalpha c -> mrows (bond_matrix cn) = nholes cn + nbeta cn + nalpha cn ->
  nholes cn = nholes c -> nbeta cn = nbeta c -> nalpha cn = nalpha c ->
  perturbed_A c spin new = Ok pA -> perturbed_B c cn spin new = Ok pB -> map fst m = map fst (empty_memory c) ->
  exists r, remember m (get_id pA, get_id pB) x = Ok r /\ forall m', r = Some m' -> map fst m' = map fst (empty_memory c).
Proof.
  intros c cn spin new pA pB m x Hs Hn D Mc Mn H1 H2 H3 A B K.
  destruct (C77_exchange_pf _ _ _ _ _ _ Hs Hn D Mc Mn H1 H2 H3 A B) as ((A1 & A2 & _) & (B1 & B2 & _)).
  rewrite <- K. apply remember_keys. rewrite K.
  assert (E : (get_id pA, get_id pB) = ((nholes pA, nbeta pA), (2 * nholes c - nholes pA, 2 * nbeta c - nbeta pA))) by (unfold get_id; f_equal; f_equal; lia).
  rewrite E, A1, A2. clear - Hs Hn D. unfold empty_memory. rewrite map_map. cbn [map In fst].
  assert (X : forall a b d e a' b' d' e' : Z, a = a' -> b = b' -> d = d' -> e = e' -> ((a, b), (d, e)) = ((a', b'), (d', e'))) by (intros; congruence).
  cbn [In] in Hs, Hn.
  destruct Hs as [<-|[<-|[<-|[]]]]; destruct Hn as [<-|[<-|[<-|[]]]]; try congruence; cbn -[Z.mul Z.add Z.sub];
    change (0 + -1) with (-1); change (1 + -1) with 0; change (-1 + 0) with (-1); change (-1 + 1) with 0; change (0 + 1) with 1; change (1 + 0) with 1; cbn -[Z.mul Z.add Z.sub].
  - right; right; left. apply X; lia.
  - right; right; right; right; left. apply X; lia.
  - right; right; right; left. apply X; lia.
  - right; right; right; right; right; left. apply X; lia.
  - right; left. apply X; lia.
  - left. apply X; lia.
Qed.

Lemma C77_reversed_pf : forall c cn pA pB,
  mrows (bond_matrix c) = nholes c + nbeta c + nalpha c -> mrows (bond_matrix cn) = nholes cn + nbeta cn + nalpha cn ->
  nholes cn = nholes c -> nbeta cn = nalpha c -> nalpha cn = nbeta c -> nalpha c <> nbeta c ->
  perturbed_A c (-1) 0 = Ok pA -> perturbed_B c cn (-1) 0 = Ok pB ->
  nbeta pA + nbeta pB <> nbeta c + nbeta cn.
Proof.
  intros c cn pA pB Mc Mn H1 H2 H3 D A B.
  unfold perturbed_A in A. apply make_counts in A. destruct A as (A1 & A2 & A3).
  unfold perturbed_B in B. apply bind_ok_inv in B. destruct B as (r & _ & B). apply make_counts in B. destruct B as (B1 & B2 & B3).
  rewrite A2, B2. unfold count_of. change (-1 =? -1) with true. change (-1 =? 0) with false. cbv iota. lia.
Qed.
