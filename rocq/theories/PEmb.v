(** Fields and the energy of a frontier. *)
From Coq Require Import ZArith List Bool QArith Qcanon Lia Permutation.
From Verif Require Import PyBase PyFacts Lattice Base Interact Ham Spin Prob Dav Files Emb Spec SpecTJ SpinDefs ProbDefs Geometry EmbDefs.
From Verif Require Import PMat PSpin PProb PGeo PHam PRep PWave FProb.
Import ListNotations.
Open Scope Z_scope.

Lemma holds_proba : forall p n rho q x, holds p n rho -> 0 <= x < n -> proba p (spin_code q) x = Ok (rho q x).
Proof.
  intros p n rho q x H Hx. destruct (H q) as (l & D & L & N). unfold proba. rewrite D. cbn [bind].
  apply py_get_nth; [lia|]. now apply N.
Qed.

Lemma qsum_only_list : forall (f : Z -> Qc) (P : Z -> bool) l n m, NoDup l -> (forall y, In y l <-> n <= y < n + m /\ P (y - n) = true) ->
  qsum (fun y => f (y - n)) l = sum_sites m (fun r => only (P r) (f r)).
Proof.
  intros f P l n m ND I. rewrite <- qsum_zrange. rewrite <- qsum_filter. rewrite <- (qsum_map _ _ f (fun y => y - n)).
  apply qsum_perm. apply NoDup_Permutation.
  - apply FinFun.Injective_map_NoDup; [intros a b E; lia | assumption].
  - apply NoDup_filter, zrange_NoDup.
  - intros r. rewrite in_map_iff, filter_In, in_zrange. split.
    + intros (y & <- & Hy). apply I in Hy. split; [lia | apply Hy].
    + intros [Hr Pr]. exists (r + n). split; [lia|]. apply I. replace (r + n - n) with r by lia. split; [lia | assumption].
Qed.

Lemma qsum_sub : forall (f : Z -> Qc) l n, NoDup l -> (forall x, In x l -> 0 <= x < n) -> (forall x, 0 <= x < n -> ~ In x l -> f x = 0%Qc) ->
  qsum f l = sum_sites n f.
Proof.
  intros f l n ND I Z0. rewrite (sum_sites_ext n f (fun x => only (mem x l) (f x))).
  - rewrite <- qsum_zrange, <- qsum_filter. apply qsum_perm. apply NoDup_Permutation; [assumption | apply NoDup_filter, zrange_NoDup|].
    intros x. rewrite filter_In, in_zrange, mem_In. split; [auto | tauto].
  - intros x Hx. destruct (mem x l) eqn:M; [reflexivity|]. apply Z0; [assumption | now apply mem_false].
Qed.

Lemma dbl_half : forall J : Qc, (J / qz 2 = half * J)%Qc.
Proof. intros J. apply qdiv2. Qed.

(** ** The energy *)

Definition frame (u : surroundings) (n : Z) (pos : Z -> Z * Z) (m : Z) (around : Z -> Z * Z) : Prop :=
  NoDup (u_frontier_A u) /\ (forall x, In x (u_frontier_A u) -> 0 <= x < n) /\
  (forall x, In x (u_frontier_A u) -> exists l, u_bonds u x = Ok l /\ NoDup l /\
     forall y, In y l <-> n <= y < n + m /\ bondb (pos x) (around (y - n)) = true) /\
  (forall x, In x (u_frontier_A u) -> exists l, u_diagonals u x = Ok l /\ NoDup l /\
     forall y, In y l <-> n <= y < n + m /\ diagb (pos x) (around (y - n)) = true) /\
  (forall x r, 0 <= x < n -> 0 <= r < m -> ~ In x (u_frontier_A u) -> bondb (pos x) (around r) = false /\ diagb (pos x) (around r) = false).

Definition occupied (s : occupation) : field := fun q x => only (samep (s x) q) 1%Qc.

Lemma bonds_ok : forall I pa pb ph pR n m rho P l intr, holds pR m rho -> NoDup l -> (forall y, In y l <-> n <= y < n + m /\ P (y - n) = true) ->
  add_bonds I pa pb ph pR n intr l =
  Ok (intr + sum_sites m (fun r => only (P r) (- (half * i_J I) * (pa * rho Down r + pb * rho Up r) + i_VNN I * ph * rho Hole r)))%Qc.
Proof.
  intros I pa pb ph pR n m rho P l intr H ND Il. unfold add_bonds.
  rewrite <- (qsum_only_list (fun r => - (half * i_J I) * (pa * rho Down r + pb * rho Up r) + i_VNN I * ph * rho Hole r)%Qc P l n m ND Il).
  apply (foldM_sum _ _ (fun y => - (half * i_J I) * (pa * rho Down (y - n)%Z + pb * rho Up (y - n)%Z) + i_VNN I * ph * rho Hole (y - n)%Z)%Qc).
  intros y a Hy. apply Il in Hy. destruct Hy as [Hy _].
  change 1 with (spin_code Up). change (-1) with (spin_code Down). change 0 with (spin_code Hole).
  rewrite (holds_proba pR m rho Up (y - n) H) by lia. rewrite (holds_proba pR m rho Down (y - n) H) by lia.
  rewrite (holds_proba pR m rho Hole (y - n) H) by lia. cbn [bind]. rewrite dbl_half. reflexivity.
Qed.

Lemma diags_ok : forall I ph pR n m rho P l intr, holds pR m rho -> NoDup l -> (forall y, In y l <-> n <= y < n + m /\ P (y - n) = true) ->
  add_diagonals I ph pR n intr l = Ok (intr + sum_sites m (fun r => only (P r) (i_VNNNper I * ph * rho Hole r)))%Qc.
Proof.
  intros I ph pR n m rho P l intr H ND Il. unfold add_diagonals.
  rewrite <- (qsum_only_list (fun r => i_VNNNper I * ph * rho Hole r)%Qc P l n m ND Il).
  apply (foldM_sum _ _ (fun y => i_VNNNper I * ph * rho Hole (y - n)%Z)%Qc).
  intros y a Hy. apply Il in Hy. destruct Hy as [Hy _].
  change 0 with (spin_code Hole). rewrite (holds_proba pR m rho Hole (y - n) H) by lia. reflexivity.
Qed.

Lemma samep_hole : forall p, samep p Hole = holeb p.
Proof. intros []; reflexivity. Qed.

Lemma frontier_energy_ok : forall I u n pos m around pA pR s rho, frame u n pos m around ->
  holds pA n (occupied s) -> holds pR m rho ->
  frontier_energy I (u_bonds u) (u_diagonals u) pA pR n (u_frontier_A u) = Ok (facing I n pos s m around rho).
Proof.
  intros I u n pos m around pA pR s rho (ND & In_ & FB & FD & Out) HA HR. unfold frontier_energy, facing.
  set (g := fun x => sum_sites m (fun r =>
    only (bondb (pos x) (around r))
         (only (samep (s x) Up) (- (half * i_J I) * rho Down r) + only (samep (s x) Down) (- (half * i_J I) * rho Up r)
          + only (holeb (s x)) (i_VNN I * rho Hole r))
    + only (diagb (pos x) (around r) && holeb (s x)) (i_VNNNper I * rho Hole r))%Qc).
  change (sum_sites n (fun x => _)) with (sum_sites n g).
  rewrite (foldM_sum _ _ g).
  - f_equal. rewrite (qsum_sub g (u_frontier_A u) n ND In_); [ring|].
    intros x Hx Nx. unfold g. apply sum_zero. intros r Hr. destruct (Out x r Hx Hr Nx) as [-> ->]. cbn [only andb]. ring.
  - intros x a Hx. pose proof (In_ x Hx) as Rx.
    change 1 with (spin_code Up) at 1. change (-1) with (spin_code Down). change 0 with (spin_code Hole) at 1.
    rewrite !(holds_proba pA n (occupied s) _ x HA Rx). cbn [bind].
    destruct (FB x Hx) as (lb & -> & NDb & Ib). cbn [bind].
    rewrite (bonds_ok I _ _ _ pR n m rho (fun r => bondb (pos x) (around r)) lb a HR NDb Ib). cbn [bind].
    destruct (FD x Hx) as (ld & -> & NDd & Id). cbn [bind].
    rewrite (diags_ok I _ pR n m rho (fun r => diagb (pos x) (around r)) ld _ HR NDd Id). f_equal.
    unfold g. rewrite <- Qcplus_assoc, <- POps.sum_sites_add. f_equal. apply sum_sites_ext. intros r Hr.
    unfold occupied. destruct (bondb (pos x) (around r)), (diagb (pos x) (around r)), (s x);
      repeat match goal with |- context [samep ?a ?b] => let r := eval vm_compute in (samep a b) in change (samep a b) with r end;
      cbn [only holeb andb]; ring.
Qed.

(** the field of a determinant *)
Lemma unit_ok : forall n k, 0 <= k < n -> unit_column n k = Ok (set_nth (repeat 0%Qc (Z.to_nat n)) (Z.to_nat k) 1%Qc).
Proof. intros n k Hk. unfold unit_column. apply py_set_ok. unfold zlen. rewrite repeat_length. lia. Qed.

Lemma unit_nth : forall n k j, (k < n)%nat -> nth j (set_nth (repeat 0%Qc n) k 1%Qc) 0%Qc = only (Nat.eqb j k) 1%Qc.
Proof.
  intros n k j Hk. destruct (Nat.eqb_spec j k) as [->|Nj]; cbn [only].
  - apply nth_error_nth. apply set_nth_same. now rewrite repeat_length.
  - destruct (Nat.lt_ge_cases j n) as [L|L].
    + apply nth_error_nth. rewrite set_nth_other by congruence. now apply nth_error_repeat.
    + apply nth_overflow. rewrite set_nth_length, repeat_length. lia.
Qed.

Lemma unit_sum : forall n k (f : nat -> Qc), (k < n)%nat -> qsum (fun j => only (Nat.eqb j k) (f j)) (seq 0 n) = f k.
Proof.
  intros n k f Hk. rewrite (qsum_single _ _ (seq 0 n) k); [now rewrite Nat.eqb_refl | apply seq_NoDup | apply in_seq; lia|].
  intros y _ Ny. apply Nat.eqb_neq in Ny. now rewrite Ny.
Qed.

Lemma spins_ok : forall c l st v, listed (nsites c) (nholes c) (nbeta c) l st -> length v = length l -> inner v v <> 0%Qc -> 0 <= nsites c ->
  exists p, get_spins_probabilitites_lattice (mkBasis c l) v false = Ok p /\ holds p (nsites c) (fun q x => weight st v q x / inner v v)%Qc.
Proof.
  intros c l st v D L N0 Hn. unfold get_spins_probabilitites_lattice, mapM.
  pose proof (probability_ok c l st v Down D L N0) as P1. pose proof (probability_ok c l st v Hole D L N0) as P2.
  pose proof (probability_ok c l st v Up D L N0) as P3. cbn [spin_code] in P1, P2, P3. rewrite P1, P2, P3. cbn [bind].
  eexists. split; [reflexivity|]. intros q.
  exists (map (fun x => weight st v q x / inner v v)%Qc (zrange 0 (nsites c))). split; [destruct q; reflexivity|].
  split; [rewrite map_length, zrange_length; f_equal; lia|]. intros x Hx. rewrite nth_error_map, zrange_nth by assumption. reflexivity.
Qed.

Lemma holds_ext : forall p n r1 r2, (forall q x, 0 <= x < n -> r1 q x = r2 q x) -> holds p n r1 -> holds p n r2.
Proof.
  intros p n r1 r2 E H q. destruct (H q) as (l & D & L & N). exists l. split; [assumption|]. split; [assumption|].
  intros x Hx. rewrite <- E by assumption. now apply N.
Qed.

Lemma determinant_field : forall c l st k, listed (nsites c) (nholes c) (nbeta c) l st -> 0 <= nsites c -> (k < length l)%nat ->
  exists v p, unit_column (zlen l) (Z.of_nat k) = Ok v /\ get_spins_probabilitites_lattice (mkBasis c l) v false = Ok p /\
    holds p (nsites c) (occupied (st k)).
Proof.
  intros c l st k D Hn Hk. rewrite unit_ok by (unfold zlen; lia). unfold zlen. rewrite !Nat2Z.id. eexists.
  set (v := set_nth (repeat 0%Qc (length l)) k 1%Qc).
  assert (Lv : length v = length l) by (unfold v; now rewrite set_nth_length, repeat_length).
  assert (Nv : inner v v = 1%Qc).
  { unfold inner. rewrite Lv. rewrite (qsum_ext _ _ (fun j => only (Nat.eqb j k) 1%Qc)); [now apply unit_sum|].
    intros j _. unfold v. rewrite unit_nth by assumption. destruct (Nat.eqb j k); cbn [only]; ring. }
  destruct (spins_ok c l st v D Lv) as (p & Ep & Hp); [rewrite Nv; discriminate | assumption|].
  exists p. split; [reflexivity|]. split; [exact Ep|]. apply (holds_ext p _ _ _) with (2 := Hp).
  intros q x Hx. rewrite Nv. unfold weight. rewrite Lv.
  rewrite (qsum_ext _ _ (fun j => only (Nat.eqb j k) (only (samep (st j x) q) 1%Qc))).
  - rewrite (unit_sum _ k (fun j => only (samep (st j x) q) 1%Qc)) by assumption. unfold occupied. unfold Qcdiv. change (/ 1)%Qc with 1%Qc. ring.
  - intros j _. unfold v. rewrite unit_nth by assumption. destruct (Nat.eqb j k), (samep (st j x) q); cbn [only]; ring.
Qed.
