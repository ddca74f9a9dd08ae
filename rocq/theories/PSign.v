(** Signs of occupations. *)
From Coq Require Import ZArith List Bool QArith Qcanon Lia.
From Verif Require Import PyBase Interact Spec SpecOps SpecTJ SignDefs PSpin PQc.
Import ListNotations.
Open Scope Z_scope.

Lemma in_sites : forall n x, In x (sites n) <-> 0 <= x < n.
Proof.
  intros n x. unfold sites. rewrite in_map_iff. split.
  - intros (k & <- & I). apply in_seq in I. lia.
  - intros H. exists (Z.to_nat x). split; [lia | apply in_seq; lia].
Qed.
Lemma sites_NoDup : forall n, NoDup (sites n).
Proof. intros n. unfold sites. apply FinFun.Injective_map_NoDup; [intros a b H; lia | apply seq_NoDup]. Qed.

Lemma sign_ext : forall n f g, (forall x, 0 <= x < n -> f x = g x) -> sign_of n f = sign_of n g.
Proof.
  intros n f g H. unfold sign_of. assert (G : forall x, In x (sites n) -> f x = g x) by (intros x I; apply H, in_sites, I). clear H.
  induction (sites n) as [|a l IH]; [reflexivity|]. cbn [fold_right]. rewrite IH, (G a) by (intros; try apply G; cbn; auto). reflexivity.
Qed.
Lemma sign_mul : forall n f g, (sign_of n f * sign_of n g)%Qc = sign_of n (fun x => xorb (f x) (g x)).
Proof. intros n f g. unfold sign_of. induction (sites n) as [|a l IH]; [cbn; ring|]. cbn [fold_right]. rewrite <- IH. destruct (f a), (g a); cbn [xorb]; ring. Qed.
Lemma sign_none : forall n, sign_of n (fun _ => false) = 1%Qc.
Proof. intros n. unfold sign_of. induction (sites n); auto. Qed.
Lemma sign_square : forall n f, (sign_of n f * sign_of n f)%Qc = 1%Qc.
Proof. intros n f. rewrite sign_mul. rewrite (sign_ext _ _ (fun _ => false)); [apply sign_none|]. intros x _. apply xorb_nilpotent. Qed.
Lemma sign_cases : forall n f, sign_of n f = 1%Qc \/ sign_of n f = (- (1))%Qc.
Proof.
  intros n f. unfold sign_of. induction (sites n) as [|a l IH]; [now left|]. cbn [fold_right]. destruct (f a); [|assumption].
  destruct IH as [->| ->]; [now right | left; ring].
Qed.
Definition minus (b : bool) : Qc := if b then (- (1))%Qc else 1%Qc.
Lemma sign_point : forall n h b, 0 <= h < n -> sign_of n (fun x => (x =? h) && b) = minus b.
Proof.
  intros n h b H. unfold sign_of. apply in_sites in H. pose proof (sites_NoDup n) as ND. induction (sites n) as [|a l IH]; [destruct H|].
  inversion ND as [|? ? NI ND']; subst. cbn [fold_right]. destruct (Z.eqb_spec a h) as [->|Q].
  - cbn [andb]. assert (E : fold_right (fun x a => if (x =? h) && b then (- a)%Qc else a) 1%Qc l = 1%Qc).
    { clear - NI. induction l as [|y l IH]; [reflexivity|]. cbn [fold_right]. destruct (Z.eqb_spec y h) as [->|]; [exfalso; apply NI; now left|]. cbn [andb]. apply IH. intros I. apply NI. now right. }
    rewrite E. unfold minus. destruct b; reflexivity.
  - cbn [andb]. apply IH; [destruct H; [congruence | assumption] | assumption].
Qed.
Lemma sign_two : forall n h e b b', 0 <= h < n -> 0 <= e < n -> sign_of n (fun x => xorb ((x =? h) && b) ((x =? e) && b')) = (minus b * minus b')%Qc.
Proof. intros n h e b b' H1 H2. rewrite <- sign_mul. rewrite !sign_point by assumption. reflexivity. Qed.
Lemma minus_twice : forall b, (minus b * minus b)%Qc = 1%Qc.
Proof. intros []; unfold minus; ring. Qed.
Lemma minus_other : forall b, (minus b * minus (negb b))%Qc = (- (1))%Qc.
Proof. intros []; unfold minus; cbn [negb]; ring. Qed.

Lemma bond_black : forall p q, bondb p q = true -> black q = negb (black p).
Proof.
  intros [a b] [c d] H. unfold bondb in H. apply Z.eqb_eq in H. unfold black. cbn [fst snd] in *.
  replace (c + d) with ((a + b) + ((c - a) + (d - b))) by ring. rewrite Z.odd_add.
  assert (O : Z.odd ((c - a) + (d - b)) = true) by (assert (Q : (c - a) + (d - b) = 1 \/ (c - a) + (d - b) = -1) by lia; destruct Q as [-> | ->]; reflexivity).
  rewrite O. now destruct (Z.odd (a + b)).
Qed.

(** a hole jumps *)
Section Signs.
Variable n : Z.
Variable p : Z -> Z * Z.
Notation hs := (hole_sign n p).
Notation ds := (down_sign n p).

Lemma hole_same : forall s t, same_state n s t -> hs s = hs t.
Proof. intros s t H. apply sign_ext. intros x Hx. now rewrite (H x Hx). Qed.
Lemma down_same : forall s t, same_state n s t -> ds s = ds t.
Proof. intros s t H. apply sign_ext. intros x Hx. now rewrite (H x Hx). Qed.

Lemma hole_swap : forall s h e, 0 <= h < n -> 0 <= e < n -> h <> e -> holeb (s h) = true -> holeb (s e) = false ->
  (hs s * hs (swap_state h e s))%Qc = (minus (black (p h)) * minus (black (p e)))%Qc.
Proof.
  intros s h e Hh He N H1 H2. unfold hole_sign. rewrite sign_mul. rewrite <- (sign_two n h e) by assumption. apply sign_ext. intros x Hx. unfold swap_state.
  destruct (Z.eqb_spec x h) as [->|].
  - destruct (Z.eqb_spec h e) as [|_]; [congruence|]. rewrite H1, H2. cbn [andb xorb]. now destruct (black (p h)).
  - destruct (Z.eqb_spec x e) as [->|].
    + rewrite H1, H2. cbn [andb xorb]. reflexivity.
    + cbn [andb xorb]. apply xorb_nilpotent.
Qed.
Lemma hole_swap_spins : forall s i j, 0 <= i < n -> 0 <= j < n -> holeb (s i) = holeb (s j) -> (hs s * hs (swap_state i j s))%Qc = 1%Qc.
Proof.
  intros s i j Hi Hj H. unfold hole_sign. rewrite sign_mul. rewrite (sign_ext _ _ (fun _ => false)); [apply sign_none|]. intros x Hx. unfold swap_state.
  destruct (Z.eqb_spec x i) as [->|]; [rewrite H; apply xorb_nilpotent|]. destruct (Z.eqb_spec x j) as [->|]; [rewrite H; apply xorb_nilpotent | apply xorb_nilpotent].
Qed.
Lemma hole_shift : forall s h m e, 0 <= h < n -> 0 <= m < n -> 0 <= e < n -> h <> m -> h <> e -> m <> e -> holeb (s h) = true -> holeb (s m) = false -> holeb (s e) = false ->
  (hs s * hs (shift_state h m e s))%Qc = (minus (black (p h)) * minus (black (p e)))%Qc.
Proof.
  intros s h m e Hh Hm He N1 N2 N3 H1 H2 H3. unfold hole_sign. rewrite sign_mul. rewrite <- (sign_two n h e) by assumption. apply sign_ext. intros x Hx. unfold shift_state.
  destruct (Z.eqb_spec x h) as [->|].
  - destruct (Z.eqb_spec h e) as [|_]; [congruence|]. rewrite H1, H2. cbn [andb xorb]. now destruct (black (p h)).
  - destruct (Z.eqb_spec x m) as [->|].
    + destruct (Z.eqb_spec m e) as [|_]; [congruence|]. rewrite H2, H3. reflexivity.
    + destruct (Z.eqb_spec x e) as [->|].
      * rewrite H1, H3. reflexivity.
      * cbn [andb xorb]. apply xorb_nilpotent.
Qed.
Lemma down_swap : forall s i j, 0 <= i < n -> 0 <= j < n -> i <> j -> oppositeb (s i) (s j) = true ->
  (ds s * ds (swap_state i j s))%Qc = (minus (black (p i)) * minus (black (p j)))%Qc.
Proof.
  intros s i j Hi Hj N H. unfold down_sign. rewrite sign_mul. rewrite <- (sign_two n i j) by assumption. apply sign_ext. intros x Hx. unfold swap_state.
  destruct (Z.eqb_spec x i) as [->|].
  - destruct (Z.eqb_spec i j) as [|_]; [congruence|]. destruct (s i), (s j); try discriminate H; cbn [downb andb xorb]; now destruct (black (p i)).
  - destruct (Z.eqb_spec x j) as [->|].
    + destruct (s i), (s j); try discriminate H; cbn [downb andb xorb]; now destruct (black (p j)).
    + cbn [andb xorb]. apply xorb_nilpotent.
Qed.
End Signs.
