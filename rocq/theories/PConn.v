(** Spins exchanged along bonds reach every state of a sector without holes. *)
From Coq Require Import ZArith List Bool QArith Qcanon Lia Relations.
From Verif Require Import PyBase PyFacts Lattice Base Spec SpecOps SpecTJ Interact PSpin PBasis PAct.
Import ListNotations.
Open Scope Z_scope.

Section Grid.
Variable w h : Z.
Hypothesis Hw : 1 <= w.
Hypothesis Hh : 0 <= h.
Let n := h * w.
Let L := between n (point w) (zrange 0 n) (zrange 0 n).

Lemma closer : forall x y, 0 <= x < n -> 0 <= y < n -> x <> y ->
  exists z, 0 <= z < n /\ bonded L x z = true /\
    Z.abs (z mod w - y mod w) + Z.abs (z / w - y / w) < Z.abs (x mod w - y mod w) + Z.abs (x / w - y / w).
Proof.
  intros x y Hx Hy N. unfold n in *.
  pose proof (Z.div_mod x w ltac:(lia)) as Ex. pose proof (Z.mod_pos_bound x w ltac:(lia)) as Bx.
  pose proof (Z.div_mod y w ltac:(lia)) as Ey. pose proof (Z.mod_pos_bound y w ltac:(lia)) as By.
  set (a := x mod w) in *. set (b := x / w) in *. set (c := y mod w) in *. set (d := y / w) in *.
  assert (Rb : 0 <= b < h) by nia. assert (Rd : 0 <= d < h) by nia.
  assert (P : forall r q, 0 <= r < w -> (w * q + r) mod w = r /\ (w * q + r) / w = q).
  { intros r q Hr. split; [symmetry; apply (Z.mod_unique_pos _ _ q); lia | symmetry; apply (Z.div_unique_pos _ _ _ r); lia]. }
  assert (B : forall r q, 0 <= r < w -> Z.abs (a - r) + Z.abs (b - q) = 1 -> bonded L x (w * q + r) = true).
  { intros r q Hr D. unfold bonded, L, between. cbn [lat_pos]. unfold bondb, point. cbn [fst snd]. destruct (P r q Hr) as [-> ->]. fold a b. now apply Z.eqb_eq. }
  destruct (Z.lt_trichotomy b d) as [Q|[Q|Q]].
  - exists (w * (b + 1) + a). destruct (P a (b + 1) Bx) as [-> ->]. split; [nia|]. split; [apply B; lia | lia].
  - destruct (Z.lt_trichotomy a c) as [Q2|[Q2|Q2]].
    + exists (w * b + (a + 1)). destruct (P (a + 1) b ltac:(lia)) as [-> ->]. split; [nia|]. split; [apply B; lia | lia].
    + exfalso. apply N. rewrite Ex, Ey, Q, Q2. reflexivity.
    + exists (w * b + (a - 1)). destruct (P (a - 1) b ltac:(lia)) as [-> ->]. split; [nia|]. split; [apply B; lia | lia].
  - exists (w * (b - 1) + a). destruct (P a (b - 1) Bx) as [-> ->]. split; [nia|]. split; [apply B; lia | lia].
Qed.

(** one exchange, or nothing *)
Definition move (s t : occupation) : Prop :=
  same_state n s t \/ exists i j, 0 <= i < n /\ 0 <= j < n /\ spin_bond L s i j = true /\ same_state n t (swap_state i j s).
Definition reach : occupation -> occupation -> Prop := clos_refl_trans occupation move.
Definition full (s : occupation) : Prop := forall x, 0 <= x < n -> s x <> Hole.

Lemma reach_same : forall s t, same_state n s t -> reach s t.
Proof. intros s t H. apply rt_step. now left. Qed.
Lemma swap_full : forall s x y, 0 <= x < n -> 0 <= y < n -> full s -> full (swap_state x y s).
Proof. intros s x y Hx Hy F z Hz. unfold swap_state. destruct (z =? x); [now apply F|]. destruct (z =? y); now apply F. Qed.

Lemma from_to : forall x, 0 <= x < n -> lat_from L x = true /\ lat_to L x = true.
Proof. intros x Hx. cbn [L between lat_from lat_to]. assert (I : existsb (Z.eqb x) (zrange 0 n) = true) by (apply existsb_exists; exists x; split; [apply in_zrange; lia | apply Z.eqb_refl]). auto. Qed.
Lemma bond_sym : forall x y, bonded L x y = bonded L y x.
Proof. intros. unfold bonded, bondb. f_equal. lia. Qed.

Lemma reach_bond : forall s x y, 0 <= x < n -> 0 <= y < n -> bonded L x y = true -> full s -> reach s (swap_state x y s).
Proof.
  intros s x y Hx Hy B F. destruct (particle_eq_dec (s x) (s y)) as [Q|Q].
  - apply reach_same. intros z Hz. unfold swap_state. destruct (Z.eqb_spec z x) as [->|]; [assumption|]. destruct (Z.eqb_spec z y) as [->|]; [now symmetry | reflexivity].
  - assert (O : oppositeb (s x) (s y) = true /\ oppositeb (s y) (s x) = true) by (pose proof (F x Hx); pose proof (F y Hy); destruct (s x), (s y); try congruence; auto).
    destruct O as [O1 O2]. destruct (from_to x Hx) as [A1 A2]. destruct (from_to y Hy) as [A3 A4].
    assert (D : x <> y) by (intros ->; congruence). apply rt_step. right. destruct (Z.lt_trichotomy x y) as [G|[G|G]]; [|contradiction|].
    + exists x, y. split; [assumption|]. split; [assumption|]. split; [|intros z _; reflexivity]. unfold spin_bond. rewrite (proj2 (Z.ltb_lt _ _) G), A1, A4, B, O1. reflexivity.
    + exists y, x. split; [assumption|]. split; [assumption|]. split.
      * unfold spin_bond. rewrite (proj2 (Z.ltb_lt _ _) G), A3, A2, bond_sym, B, O2. reflexivity.
      * intros z _. unfold swap_state. destruct (Z.eqb_spec z x) as [->|]; [now destruct (Z.eqb_spec x y)|]. destruct (z =? y); reflexivity.
Qed.

Lemma reach_swap_fuel : forall k s x y, 0 <= x < n -> 0 <= y < n -> full s ->
  Z.abs (x mod w - y mod w) + Z.abs (x / w - y / w) <= Z.of_nat k -> reach s (swap_state x y s).
Proof.
  induction k as [|k IH]; intros s x y Hx Hy F D.
  - destruct (Z.eq_dec x y) as [->|N].
    + apply reach_same. intros z _. unfold swap_state. now destruct (Z.eqb_spec z y) as [->|].
    + destruct (closer x y Hx Hy N) as (z & _ & _ & C). lia.
  - destruct (Z.eq_dec x y) as [->|N].
    + apply reach_same. intros z _. unfold swap_state. now destruct (Z.eqb_spec z y) as [->|].
    + destruct (closer x y Hx Hy N) as (z & Hz & B & C). destruct (Z.eq_dec z y) as [->|Nz]; [now apply reach_bond|].
      assert (Nx : x <> z). { intros ->. unfold bonded, bondb in B. apply Z.eqb_eq in B. lia. }
      eapply rt_trans; [apply (reach_bond s x z Hx Hz B F)|].
      eapply rt_trans; [apply (IH (swap_state x z s) z y Hz Hy (swap_full _ _ _ Hx Hz F)); lia|].
      eapply rt_trans; [apply (reach_bond _ x z Hx Hz B); apply swap_full; [assumption | assumption | now apply swap_full]|].
      apply reach_same. intros u _. unfold swap_state.
      repeat (match goal with |- context [?p =? ?q] => destruct (Z.eqb_spec p q); subst end; try congruence; try reflexivity).
Qed.
Lemma reach_swap : forall s x y, 0 <= x < n -> 0 <= y < n -> full s -> reach s (swap_state x y s).
Proof. intros s x y Hx Hy F. apply (reach_swap_fuel (Z.to_nat (Z.abs (x mod w - y mod w) + Z.abs (x / w - y / w)))); try assumption. lia. Qed.

(** disagreements *)
Definition differ (s t : occupation) (x : Z) : bool := negb (samep (s x) (t x)).
Lemma filter_less : forall (f g : Z -> bool) l x, (forall y, f y = true -> g y = true) -> In x l -> g x = true -> f x = false -> (length (filter f l) < length (filter g l))%nat.
Proof.
  intros f g l x H. assert (LE : forall l, (length (filter f l) <= length (filter g l))%nat).
  { induction l0 as [|a l0 IH]; [reflexivity|]. cbn [filter]. destruct (f a) eqn:Q; [rewrite (H a Q); cbn; lia|]. destruct (g a); cbn; lia. }
  induction l as [|a l IH]; intros I G F; [destruct I|]. cbn [filter]. destruct I as [->|I].
  - rewrite G, F. cbn. specialize (LE l). lia.
  - specialize (IH I G F). destruct (f a) eqn:Q; [rewrite (H a Q); cbn; lia|]. destruct (g a); cbn; lia.
Qed.

Lemma samep_true : forall p q, samep p q = true <-> p = q.
Proof. intros p q. unfold samep. destruct (particle_eq_dec p q); split; congruence. Qed.

Lemma reach_sector_fuel : forall k s t b, (length (filter (differ s t) (zrange 0 n)) <= k)%nat -> full s -> full t ->
  in_sector n 0 b s -> in_sector n 0 b t -> reach s t.
Proof.
  induction k as [|k IH]; intros s t b HK Fs Ft Ss St.
  - apply reach_same. intros x Hx. destruct (differ s t x) eqn:Q; [|unfold differ in Q; apply negb_false_iff in Q; now apply samep_true].
    exfalso. assert (I : In x (filter (differ s t) (zrange 0 n))) by (apply filter_In; split; [apply in_zrange; lia | assumption]).
    destruct (filter (differ s t) (zrange 0 n)); [destruct I | cbn in HK; lia].
  - (* a down of t which is up in s, or nothing *)
    destruct (existsb (fun x => samep (s x) Up && samep (t x) Down) (zrange 0 n)) eqn:Q1.
    + apply existsb_exists in Q1. destruct Q1 as (x & Ix & Q1). apply andb_prop in Q1. destruct Q1 as [A1 A2]. apply samep_true in A1, A2. apply in_zrange in Ix.
      destruct (existsb (fun x => samep (s x) Down && samep (t x) Up) (zrange 0 n)) eqn:Q2.
      * apply existsb_exists in Q2. destruct Q2 as (y & Iy & Q2). apply andb_prop in Q2. destruct Q2 as [B1 B2]. apply samep_true in B1, B2. apply in_zrange in Iy.
        assert (N : x <> y) by congruence. assert (Hx : 0 <= x < n) by lia. assert (Hy : 0 <= y < n) by lia.
        eapply rt_trans; [apply (reach_swap s x y Hx Hy Fs)|]. apply (IH _ _ b).
        -- assert (LT : (length (filter (differ (swap_state x y s) t) (zrange 0 n)) < length (filter (differ s t) (zrange 0 n)))%nat).
           { apply (filter_less _ _ _ x).
             - intros z D. unfold differ, swap_state in *. destruct (Z.eqb_spec z x) as [Ez|_]; [subst z; rewrite B1, A2 in D; discriminate D|].
               destruct (Z.eqb_spec z y) as [Ez|_]; [subst z; rewrite A1, B2 in D; discriminate D | assumption].
             - apply in_zrange. lia.
             - unfold differ. rewrite A1, A2. reflexivity.
             - unfold differ, swap_state. rewrite Z.eqb_refl, B1, A2. reflexivity. }
           lia.
        -- now apply swap_full.
        -- assumption.
        -- apply PAct.swap_in; assumption.
        -- assumption.
      * exfalso. rewrite <- not_true_iff_false, existsb_exists in Q2.
        assert (LE : incl (sites_of n s Down) (sites_of n t Down)).
        { intros y Iy. apply in_sites_of in Iy. destruct Iy as [Iy Dy]. apply in_sites_of. split; [assumption|].
          destruct (t y) eqn:Qt; [exfalso; now apply (Ft y) | reflexivity | exfalso]. apply Q2. exists y. split; [apply in_zrange; lia|]. rewrite Dy, Qt. reflexivity. }
        pose proof (fun l' => NoDup_length_incl (l' := l') (sites_of_NoDup n s Down)) as NL. destruct Ss as [_ Ss], St as [_ St].
        specialize (NL (sites_of n t Down) ltac:(unfold zlen in *; lia) LE x). rewrite !in_sites_of in NL. destruct NL as [_ NL]; [split; [lia | assumption]|]. congruence.
    + apply reach_same. rewrite <- not_true_iff_false, existsb_exists in Q1.
      assert (LE : incl (sites_of n t Down) (sites_of n s Down)).
      { intros y Iy. apply in_sites_of in Iy. destruct Iy as [Iy Dy]. apply in_sites_of. split; [assumption|].
        destruct (s y) eqn:Qs; [exfalso; now apply (Fs y) | reflexivity | exfalso]. apply Q1. exists y. split; [apply in_zrange; lia|]. rewrite Dy, Qs. reflexivity. }
      pose proof (fun l' => NoDup_length_incl (l' := l') (sites_of_NoDup n t Down)) as NL. destruct Ss as [_ Ss], St as [_ St].
      specialize (NL (sites_of n s Down) ltac:(unfold zlen in *; lia) LE). intros x Hx. pose proof (Fs x Hx) as F1. pose proof (Ft x Hx) as F2.
      destruct (s x) eqn:E1, (t x) eqn:E2; try congruence; exfalso.
      * specialize (NL x). rewrite !in_sites_of in NL. destruct NL as [_ NL]; [auto|]. congruence.
      * apply Q1. exists x. split; [apply in_zrange; lia|]. rewrite E1, E2. reflexivity.
Qed.

Lemma reach_sector : forall s t b, in_sector n 0 b s -> in_sector n 0 b t -> reach s t.
Proof.
  assert (F : forall s b, in_sector n 0 b s -> full s).
  { intros s b [H _] x Hx E. assert (I : In x (sites_of n s Hole)) by (apply in_sites_of; auto). destruct (sites_of n s Hole); [destruct I | unfold zlen in H; cbn in H; lia]. }
  intros s t b Hs Ht. eapply reach_sector_fuel; try eassumption; eauto.
Qed.
End Grid.
