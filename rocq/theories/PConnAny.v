(** Exchanges of any two different neighbours reach every state of a sector. *)
From Coq Require Import ZArith List Bool QArith Qcanon Lia Relations.
From Verif Require Import PyBase PyFacts Lattice Base Spec SpecOps SpecTJ Interact PSpin PBasis PSites PAct PConn.
Import ListNotations.
Open Scope Z_scope.

Section Grid.
Variable w h : Z.
Hypothesis Hw : 1 <= w.
Hypothesis Hh : 0 <= h.
Let n := h * w.
Let L := between n (point w) (zrange 0 n) (zrange 0 n).

(** two different neighbours exchanged, or nothing *)
Definition step (s t : occupation) : Prop :=
  same_state n s t \/ exists x y, 0 <= x < n /\ 0 <= y < n /\ bonded L x y = true /\ s x <> s y /\ same_state n t (swap_state x y s).
Definition path : occupation -> occupation -> Prop := clos_refl_trans occupation step.

Lemma path_same : forall s t, same_state n s t -> path s t.
Proof. intros s t H. apply rt_step. now left. Qed.
Lemma path_bond : forall s x y, 0 <= x < n -> 0 <= y < n -> bonded L x y = true -> path s (swap_state x y s).
Proof.
  intros s x y Hx Hy B. destruct (particle_eq_dec (s x) (s y)) as [Q|Q].
  - apply path_same. intros z Hz. unfold swap_state. destruct (Z.eqb_spec z x) as [->|]; [assumption|]. destruct (Z.eqb_spec z y) as [->|]; [now symmetry | reflexivity].
  - apply rt_step. right. exists x, y. repeat (split; [assumption|]). intros z _. reflexivity.
Qed.
Lemma path_swap_fuel : forall k s x y, 0 <= x < n -> 0 <= y < n ->
  Z.abs (x mod w - y mod w) + Z.abs (x / w - y / w) <= Z.of_nat k -> path s (swap_state x y s).
Proof.
  induction k as [|k IH]; intros s x y Hx Hy D; (destruct (Z.eq_dec x y) as [->|N]; [apply path_same; intros z _; unfold swap_state; now destruct (Z.eqb_spec z y) as [->|]|]);
    destruct (closer w h Hw Hh x y Hx Hy N) as (z & Hz & B & C); [lia|].
  destruct (Z.eq_dec z y) as [->|Nz]; [now apply path_bond|].
  assert (Nx : x <> z). { intros ->. unfold bonded, bondb in B. apply Z.eqb_eq in B. lia. }
  eapply rt_trans; [apply (path_bond s x z Hx Hz B)|].
  eapply rt_trans; [apply (IH (swap_state x z s) z y Hz Hy); lia|].
  eapply rt_trans; [apply (path_bond _ x z Hx Hz B)|].
  apply path_same. intros u _. unfold swap_state.
  repeat (match goal with |- context [?p =? ?q] => destruct (Z.eqb_spec p q); subst end; try congruence; try reflexivity).
Qed.
Lemma path_swap : forall s x y, 0 <= x < n -> 0 <= y < n -> path s (swap_state x y s).
Proof. intros s x y Hx Hy. apply (path_swap_fuel (Z.to_nat (Z.abs (x mod w - y mod w) + Z.abs (x / w - y / w)))); try assumption. lia. Qed.

(** as many particles of each kind *)
Lemma same_counts : forall hh b s t p, in_sector n hh b s -> in_sector n hh b t -> length (sites_of n s p) = length (sites_of n t p).
Proof.
  intros hh b s t p [A1 A2] [B1 B2]. assert (N0 : 0 <= n) by (unfold n; nia). pose proof (sites_partition n s N0) as Q1. pose proof (sites_partition n t N0) as Q2. unfold zlen in *. destruct p; lia.
Qed.

Lemma path_sector_fuel : forall k s t hh b, (length (filter (differ s t) (zrange 0 n)) <= k)%nat -> in_sector n hh b s -> in_sector n hh b t -> path s t.
Proof.
  induction k as [|k IH]; intros s t hh b HK Ss St.
  - apply path_same. intros x Hx. destruct (differ s t x) eqn:Q; [|unfold differ in Q; apply negb_false_iff in Q; now apply samep_true].
    exfalso. assert (I : In x (filter (differ s t) (zrange 0 n))) by (apply filter_In; split; [apply in_zrange; lia | assumption]).
    destruct (filter (differ s t) (zrange 0 n)); [destruct I | cbn in HK; lia].
  - destruct (filter (differ s t) (zrange 0 n)) as [|x q] eqn:Q; [apply (IH s t hh b); try assumption; rewrite Q; cbn; lia|].
    assert (I : In x (filter (differ s t) (zrange 0 n))) by (rewrite Q; now left). rewrite <- Q in HK. clear Q q. apply filter_In in I. destruct I as [Ix Dx]. apply in_zrange in Ix.
    assert (Nx : s x <> t x) by (intros E; unfold differ in Dx; apply negb_true_iff in Dx; rewrite (proj2 (samep_true _ _) E) in Dx; discriminate Dx).
    destruct (existsb (fun y => samep (s y) (t x) && differ s t y) (zrange 0 n)) eqn:Q1.
    + apply existsb_exists in Q1. destruct Q1 as (y & Iy & Q1). apply andb_prop in Q1. destruct Q1 as [A1 A2]. apply samep_true in A1. apply in_zrange in Iy.
      assert (NE : x <> y) by congruence.
      eapply rt_trans; [apply (path_swap s x y Ix Iy)|]. apply (IH _ _ hh b); [|apply PAct.swap_in; assumption | assumption].
      assert (LT : (length (filter (differ (swap_state x y s) t) (zrange 0 n)) < length (filter (differ s t) (zrange 0 n)))%nat).
      { apply (filter_less w h _ _ _ x).
        - intros z D. unfold differ, swap_state in D. destruct (Z.eqb_spec z x) as [Ez|_]; [rewrite Ez; assumption|]. destruct (Z.eqb_spec z y) as [Ez|_]; [rewrite Ez; assumption | exact D].
        - apply in_zrange. lia.
        - assumption.
        - unfold differ, swap_state. rewrite Z.eqb_refl, A1. apply negb_false_iff. now apply samep_true. }
      lia.
    + exfalso. rewrite <- not_true_iff_false, existsb_exists in Q1.
      assert (LE : incl (sites_of n s (t x)) (sites_of n t (t x))).
      { intros y Iy. apply in_sites_of in Iy. destruct Iy as [Iy Dy]. apply in_sites_of. split; [assumption|].
        destruct (particle_eq_dec (t y) (t x)) as [E|E]; [assumption|]. exfalso. apply Q1. exists y. split; [apply in_zrange; lia|]. rewrite (proj2 (samep_true _ _) Dy). cbn [andb]. unfold differ. apply negb_true_iff.
        apply not_true_iff_false. intros F. apply samep_true in F. congruence. }
      assert (LN : (length (sites_of n t (t x)) <= length (sites_of n s (t x)))%nat) by (rewrite (same_counts hh b s t (t x) Ss St); apply Nat.le_refl).
      pose proof (NoDup_length_incl (sites_of_NoDup n s (t x)) LN LE x) as NL.
      rewrite !in_sites_of in NL. destruct NL as [_ NL]; [auto|]. congruence.
Qed.
Lemma path_sector : forall s t hh b, in_sector n hh b s -> in_sector n hh b t -> path s t.
Proof. intros. eapply path_sector_fuel; [apply Nat.le_refl | eassumption | eassumption]. Qed.
End Grid.
