(** The t-J operator with another rule for the flips, and the transport of states along a relabelling. *)
From Coq Require Import ZArith List Bool QArith Qcanon Lia Permutation.
From Verif Require Import PyBase PyFacts Lattice Base Interact Ham Spec SpecOps SpecTJ SpinDefs Geometry HamSpec.
From Verif Require Import PSpin PQc PBasis PSites PRot PHam POps FDav PDavIter FSign.
Import ListNotations.
Open Scope Z_scope.

Section Rule.
Variables (L : lattice) (n : Z) (rule : occupation -> Z -> Z -> doping).
Hypothesis HS : lat_size L = n.
Hypothesis Hft : forall x, 0 <= x < n -> lat_from L x = lat_to L x.
Hypothesis HR : forall s t i j, (forall z, 0 <= z < n -> holeb (s z) = holeb (t z)) -> rule s i j = rule t i j.

Lemma by_split : forall K S s t, tj_by L rule K S s t = (tj_element L K S s t + only (s_bij S) (op_flip_by L rule K s t - op_flip L K s t))%Qc.
Proof. intros K S s t. unfold tj_by, tj_element. destruct (s_bij S); cbn [only]; ring. Qed.

Lemma flip_by_sym : forall K s t, op_flip_by L rule K s t = op_flip_by L rule K t s.
Proof.
  assert (G : forall s t i j, 0 <= i < n -> 0 <= j < n -> spin_bond L s i j && sameb n t (swap_state i j s) = true ->
     spin_bond L t i j && sameb n s (swap_state i j t) = true /\ rule s i j = rule t i j).
  { intros s t i j Hi Hj H. apply andb_true_iff in H. destruct H as [A Q]. apply sameb_iff in Q. pose proof Q as Q0.
    apply swap_back in Q; [|assumption|assumption]. destruct Q as (Q & Q1 & Q2).
    unfold spin_bond in *. rewrite !andb_true_iff in A. destruct A as ((((A1 & A2) & A3) & A4) & A5). split.
    - rewrite !andb_true_iff, Q1, Q2, oppositeb_sym, sameb_iff. repeat (split; [assumption || auto|]).
      intros z Hz. rewrite (Q z Hz). apply swap_sym.
    - apply HR. intros z Hz. destruct (opp_no_hole _ _ A5) as [N1 N2].
      rewrite (Q0 z Hz). unfold swap_state. destruct (Z.eqb_spec z i) as [->|]; [congruence|].
      destruct (Z.eqb_spec z j) as [->|]; congruence. }
  intros K s t. unfold op_flip_by. rewrite HS. apply sum_sites_ext. intros i Hi. apply sum_sites_ext. intros j Hj.
  destruct (spin_bond L s i j && sameb n t (swap_state i j s)) eqn:Q.
  - destruct (G s t i j Hi Hj Q) as [-> ->]. reflexivity.
  - destruct (spin_bond L t i j && sameb n s (swap_state i j t)) eqn:Q'; [|reflexivity].
    destruct (G t s i j Hi Hj Q') as [Q'' _]. congruence.
Qed.

Lemma by_sym : forall K S s t, tj_by L rule K S s t = tj_by L rule K S t s.
Proof. intros K S s t. rewrite !by_split, (flip_by_sym K s t), (flip_sym L n HS K s t), (tj_sym L n HS Hft K S s t). reflexivity. Qed.

Lemma flip_by_ext : forall K s s' t t', same_state n s s' -> same_state n t t' -> op_flip_by L rule K s' t' = op_flip_by L rule K s t.
Proof.
  intros K s s' t t' Qs Qt. unfold op_flip_by. rewrite HS. apply sum_sites_ext. intros i Hi. apply sum_sites_ext. intros j Hj.
  rewrite (HR s' s) by (intros z Hz; now rewrite (Qs z Hz)). unfold spin_bond. rewrite (Qs i Hi), (Qs j Hj).
  rewrite (sameb_ext n t t' (swap_state i j s) (swap_state i j s')); [reflexivity | assumption|].
  intros z Hz. unfold swap_state. destruct (z =? i); [now apply Qs|]. destruct (z =? j); now apply Qs.
Qed.
End Rule.

Lemma doping_rule : forall L n, lat_size L = n -> forall s t i j, (forall z, 0 <= z < n -> holeb (s z) = holeb (t z)) -> bond_doping L s i j = bond_doping L t i j.
Proof. intros L n H s t i j. now apply doping_holes. Qed.

Lemma by_ext : forall L n rule, lat_size L = n -> (forall x, 0 <= x < n -> lat_from L x = lat_to L x) ->
  (forall s t i j, (forall z, 0 <= z < n -> holeb (s z) = holeb (t z)) -> rule s i j = rule t i j) ->
  forall K S s s' t t', same_state n s s' -> same_state n t t' -> tj_by L rule K S s' t' = tj_by L rule K S s t.
Proof.
  intros L n rule HS Hft HR K S s s' t t' Qs Qt. rewrite !by_split, (flip_by_ext L n rule HS HR K s s' t t' Qs Qt).
  rewrite (tj_ext L L n K S s s' t t') by (assumption || (intros; reflexivity)).
  replace (op_flip L K s' t') with (op_flip L K s t); [reflexivity|]. symmetry.
  exact (flip_by_ext L n (bond_doping L) HS (doping_rule L n HS) K s s' t t' Qs Qt).
Qed.

Lemma number_holes : forall L n, lat_size L = n -> forall s t i j, (forall z, 0 <= z < n -> holeb (s z) = holeb (t z)) -> number_doping L s i j = number_doping L t i j.
Proof.
  intros L n HS s t i j H. unfold number_doping. cbv zeta. rewrite HS.
  rewrite (existsb_sites_ext _ (hole_near L s i j) (hole_near L t i j)) by (intros z Hz; unfold hole_near; now rewrite H).
  match goal with |- context [if existsb ?P _ then Aligned else if existsb (hole_near L t i j) _ then _ else _] => 
    rewrite (existsb_sites_ext n P (fun z => lat_from L z && holeb (t z) && (bonded L z i && (Z.abs (z - i) =? Z.abs (j - i)) || bonded L z j && (Z.abs (z - j) =? Z.abs (j - i))))) by (intros z Hz; now rewrite H) end.
  reflexivity.
Qed.

Lemma no_hole_away : forall L s i j, (forall z, 0 <= z < lat_size L -> holeb (s z) = false) -> bond_doping L s i j = Away /\ number_doping L s i j = Away.
Proof.
  intros L s i j H. assert (N : forall P, (forall z, 0 <= z < lat_size L -> P z = false) -> existsb P (sites (lat_size L)) = false).
  { intros P HP. apply not_true_iff_false. intros Q. apply existsb_exists in Q. destruct Q as (z & Hz & Pz). apply in_sites in Hz. rewrite HP in Pz by assumption. discriminate. }
  unfold bond_doping, number_doping. cbv zeta. rewrite !N; [split; reflexivity | | |]; intros z Hz; unfold hole_near; rewrite H by assumption; now rewrite andb_false_r.
Qed.

Lemma by_same : forall L rule K S s t, s_bij S = false \/ (forall i j, 0 <= i < lat_size L -> 0 <= j < lat_size L -> spin_bond L s i j = true -> exchange K (rule s i j) = exchange K (bond_doping L s i j)) ->
  tj_by L rule K S s t = tj_element L K S s t.
Proof.
  intros L rule K S s t H. rewrite by_split. destruct H as [->|H]; [cbn [only]; ring|].
  replace (op_flip_by L rule K s t) with (op_flip L K s t); [destruct (s_bij S); cbn [only]; ring|].
  unfold op_flip, op_flip_by. apply sum_sites_ext. intros i Hi. apply sum_sites_ext. intros j Hj.
  destruct (spin_bond L s i j) eqn:Q; [|reflexivity]. rewrite (H i j Hi Hj Q). reflexivity.
Qed.

(** states carried by a relabelling of the basis *)
Lemma transport : forall m m' N (tau : nat -> nat) e v, csr_dim m = Z.of_nat N -> csr_dim m' = Z.of_nat N -> Permutation (map tau (seq 0 N)) (seq 0 N) ->
  (forall i j, (i < N)%nat -> (j < N)%nat -> csr_at m' (Z.of_nat i) (Z.of_nat j) = csr_at m (Z.of_nat (tau i)) (Z.of_nat (tau j))) ->
  eigenvector m e v -> let v' := map (fun k => nth (tau k) v 0%Qc) (seq 0 N) in eigenvector m' e v' /\ inner v' v' = inner v v.
Proof.
  intros m m' N tau e v D D' T A (Lv & Ev & Nv) v'. assert (LL : length v = N) by (rewrite D in Lv; unfold zlen in Lv; lia).
  assert (LV : length v' = N) by (unfold v'; now rewrite map_length, seq_length).
  assert (NV : forall k, (k < N)%nat -> nth k v' 0%Qc = nth (tau k) v 0%Qc) by (intros k Hk; unfold v'; now rewrite nth_map_seq).
  assert (ZV : zlen v' = csr_dim m') by (rewrite D'; unfold zlen; now rewrite LV).
  assert (TB : forall k, (k < N)%nat -> (tau k < N)%nat).
  { intros k Hk. assert (I : In (tau k) (map tau (seq 0 N))) by (apply in_map, in_seq; lia). apply (Permutation_in _ T) in I. apply in_seq in I. lia. }
  split; [split; [exact ZV|split]|].
  - apply eigen_stationary; [exact ZV|]. intros i Hi. rewrite LV in *. rewrite NV by assumption.
    rewrite <- (proj1 (eigen_stationary m e v Lv) Ev (tau i)) by (rewrite LL; now apply TB). rewrite LL.
    rewrite <- (qsum_perm _ (fun j => csr_at m (Z.of_nat (tau i)) (Z.of_nat j) * nth j v 0)%Qc _ _ T), qsum_map. apply qsum_ext. intros j Hj. apply in_seq in Hj.
    rewrite NV by lia. rewrite A by lia. reflexivity.
  - destruct Nv as (x & Ix & Nx). apply (In_nth _ _ 0%Qc) in Ix. destruct Ix as (k & Hk & <-).
    assert (Ik : In k (map tau (seq 0 N))) by (apply (Permutation_in _ (Permutation_sym T)); apply in_seq; lia). apply in_map_iff in Ik. destruct Ik as (j & Tj & Ij). apply in_seq in Ij.
    exists (nth j v' 0%Qc). split; [apply nth_In; lia|]. rewrite NV by lia. now rewrite Tj.
  - unfold inner. rewrite LV, LL. rewrite <- (qsum_perm _ (fun k => nth k v 0 * nth k v 0)%Qc _ _ T), qsum_map. apply qsum_ext. intros k Hk. apply in_seq in Hk. now rewrite !NV by lia.
Qed.
