(** The spin operators on wave functions, and what commutes with them. *)
From Coq Require Import ZArith List Bool Lia Permutation QArith Qcanon.
From Verif Require Import PyBase PyFacts Interact Spec SpecOps SpecTJ SpecSpin PBasis PSites PRot PSpin POps.
Import ListNotations.
Open Scope Z_scope.

Lemma samep_iff : forall p q, samep p q = true <-> p = q.
Proof. intros p q. unfold samep. destruct (particle_eq_dec p q); intuition congruence. Qed.

Lemma only_0 : forall b, only b 0%Qc = 0%Qc.
Proof. now intros []. Qed.

Lemma sum_zero : forall n f, (forall x, 0 <= x < n -> f x = 0%Qc) -> sum_sites n f = 0%Qc.
Proof. intros n f H. apply qsum_zero. intros x Hx. apply H. now apply in_sites. Qed.

Lemma sum_delta : forall n k x, 0 <= k < n -> sum_sites n (fun j => only (j =? k) x) = x.
Proof.
  intros n k x Hk. unfold sum_sites. assert (In k (sites n)) by (now apply in_sites).
  assert (ND : NoDup (sites n)) by apply sites_NoDup. induction ND as [|y l Hy ND IH]; [contradiction|].
  rewrite qsum_cons. destruct H as [->|H].
  - rewrite Z.eqb_refl. rewrite qsum_zero; [cbn [only]; ring|]. intros z Hz. destruct (Z.eqb_spec z k); [congruence | reflexivity].
  - rewrite IH by assumption. destruct (Z.eqb_spec y k); [congruence|]. cbn [only]. ring.
Qed.

Lemma sum_pairs_split : forall n (F : Z -> Z -> Qc), (forall i, 0 <= i < n -> F i i = 0%Qc) ->
  sum_sites n (fun i => sum_sites n (fun j => only (i <? j) (F i j + F j i)%Qc)) = sum_sites n (fun i => sum_sites n (F i)).
Proof.
  intros n F H.
  transitivity (sum_sites n (fun i => sum_sites n (fun j => only (i <? j) (F i j))) + sum_sites n (fun i => sum_sites n (fun j => only (j <? i) (F i j))))%Qc.
  - rewrite (sum_swap n (fun i j => only (j <? i) (F i j))), <- sum_sites_add. apply sum_sites_ext. intros i _. rewrite <- sum_sites_add.
    apply sum_sites_ext. intros j _. destruct (i <? j); cbn [only]; ring.
  - rewrite <- sum_sites_add. apply sum_sites_ext. intros i Hi. rewrite <- sum_sites_add. apply sum_sites_ext. intros j Hj.
    destruct (Z.ltb_spec i j), (Z.ltb_spec j i); cbn [only]; try lia; try ring. assert (j = i) as -> by lia. rewrite H by assumption. ring.
Qed.

(** ** Ladder operators *)
Definition ladder (n : Z) (p q : particle) (psi : wave) : wave :=
  fun t => sum_sites n (fun i => only (samep (t i) p) (psi (put i q t))).

Lemma put_same : forall n s t i p, same_state n s t -> same_state n (put i p s) (put i p t).
Proof. intros n s t i p H x Hx. unfold put. destruct (x =? i); [reflexivity | now apply H]. Qed.

Lemma ladder_on : forall n p q psi, on_lattice n psi -> on_lattice n (ladder n p q psi).
Proof.
  intros n p q psi H s t Q. unfold ladder. apply sum_sites_ext. intros i Hi. rewrite (Q i Hi). f_equal. apply H. now apply put_same.
Qed.

Lemma sz_on : forall n psi, on_lattice n psi -> on_lattice n (S_z n psi).
Proof.
  intros n psi H s t Q. unfold S_z, total_z. rewrite (H s t Q). f_equal. apply sum_sites_ext. intros i Hi. now rewrite (Q i Hi).
Qed.

Lemma ladder_two : forall n p q psi t, on_lattice n psi -> p <> q ->
  ladder n q p (ladder n p q psi) t =
  (sum_sites n (fun i => only (samep (t i) q) 1) * psi t +
   sum_sites n (fun i => sum_sites n (fun j => only (samep (t i) q && samep (t j) p) (psi (swap_state i j t)))))%Qc.
Proof.
  intros n p q psi t H N. unfold ladder at 1.
  transitivity (sum_sites n (fun i => psi t * only (samep (t i) q) 1 + sum_sites n (fun j => only (samep (t i) q && samep (t j) p) (psi (swap_state i j t))))%Qc).
  2:{ rewrite sum_sites_add, sum_sites_scale. f_equal. ring. }
  apply sum_sites_ext. intros i Hi. destruct (samep (t i) q) eqn:Q; cbn [andb only].
  2:{ rewrite sum_zero by reflexivity. ring. }
  apply samep_iff in Q. unfold ladder.
  transitivity (sum_sites n (fun j => only (j =? i) (psi t) + only (samep (t j) p) (psi (swap_state i j t)))%Qc).
  2:{ rewrite sum_sites_add, sum_delta by assumption. ring. }
  apply sum_sites_ext. intros j Hj. unfold put at 1. destruct (Z.eqb_spec j i) as [->|Nj].
  - assert (samep p p = true) as -> by (now apply samep_iff). assert (samep (t i) p = false) as ->.
    { destruct (samep (t i) p) eqn:Q'; [|reflexivity]. apply samep_iff in Q'. congruence. }
    cbn [only]. transitivity (psi t); [|ring]. apply H. intros x Hx. unfold put. destruct (Z.eqb_spec x i); congruence.
  - cbn [only]. destruct (samep (t j) p) eqn:Q'; cbn [only]; [|ring]. apply samep_iff in Q'. transitivity (psi (swap_state i j t)); [|ring].
    apply H. intros x Hx. unfold put, swap_state. destruct (Z.eqb_spec x j), (Z.eqb_spec x i); subst; congruence.
Qed.

Definition num (n : Z) (t : occupation) (p : particle) : Qc := sum_sites n (fun i => only (samep (t i) p) 1%Qc).
Definition flips (n : Z) (psi : wave) (t : occupation) : Qc :=
  sum_sites n (fun i => sum_sites n (fun j => only (samep (t i) Up && samep (t j) Down) (psi (swap_state i j t)))).

Lemma sp_sm : forall n psi t, on_lattice n psi -> S_plus n (S_minus n psi) t = (num n t Up * psi t + flips n psi t)%Qc.
Proof. intros n psi t H. apply (ladder_two n Down Up psi t H). discriminate. Qed.

Lemma sm_sp : forall n psi t, on_lattice n psi -> S_minus n (S_plus n psi) t = (num n t Down * psi t + flips n psi t)%Qc.
Proof.
  intros n psi t H. etransitivity; [apply (ladder_two n Up Down psi t H); discriminate|]. f_equal. unfold flips. rewrite sum_swap.
  apply sum_sites_ext. intros i Hi. apply sum_sites_ext. intros j Hj. rewrite andb_comm.
  f_equal. apply H. intros x Hx. apply swap_sym.
Qed.

Lemma half_half : (half + half)%Qc = 1%Qc.
Proof. apply Qc_is_canon. reflexivity. Qed.

Lemma total_num : forall n t, total_z n t = (half * (num n t Up - num n t Down))%Qc.
Proof.
  intros n t. unfold total_z, num.
  transitivity (half * (sum_sites n (fun i => only (samep (t i) Up) 1%Qc) + (-(1)) * sum_sites n (fun i => only (samep (t i) Down) 1%Qc)))%Qc; [|ring].
  rewrite <- (sum_sites_scale n _ (-(1))%Qc), <- sum_sites_add, <- sum_sites_scale. apply sum_sites_ext. intros i _.
  destruct (t i); cbn; ring.
Qed.

Lemma sz_commutator : forall n psi t, on_lattice n psi ->
  S_z n psi t = (half * (S_plus n (S_minus n psi) t + (-(1)) * S_minus n (S_plus n psi) t))%Qc.
Proof. intros n psi t H. rewrite sp_sm, sm_sp by assumption. unfold S_z. rewrite total_num. ring. Qed.

(** the form used by the program *)
Lemma squared_form : forall n psi t, on_lattice n psi ->
  S_squared n psi t =
  ((half * (num n t Up + num n t Down) + (half * (num n t Up - num n t Down)) * (half * (num n t Up - num n t Down))) * psi t + flips n psi t)%Qc.
Proof.
  intros n psi t H. unfold S_squared. rewrite sp_sm, sm_sp by assumption. unfold S_z. rewrite total_num.
  transitivity (half * (num n t Up + num n t Down) * psi t + (half + half) * flips n psi t
    + half * (num n t Up - num n t Down) * (half * (num n t Up - num n t Down) * psi t))%Qc; [ring|]. rewrite half_half. ring.
Qed.

(** ** Operators that commute with the ladders *)
Definition keeps_spin (n : Z) (O : wave -> wave) : Prop :=
  (forall psi, on_lattice n psi -> on_lattice n (O psi)) /\
  (forall psi phi t, (forall s, psi s = phi s) -> O psi t = O phi t) /\
  forall psi t, on_lattice n psi -> O (S_plus n psi) t = S_plus n (O psi) t /\ O (S_minus n psi) t = S_minus n (O psi) t.

Lemma ladder_ext : forall n p q psi phi t, (forall s, psi s = phi s) -> ladder n p q psi t = ladder n p q phi t.
Proof. intros n p q psi phi t H. apply sum_sites_ext. intros i _. now rewrite H. Qed.

Lemma ladder_add : forall n p q psi phi t, ladder n p q (fun s => (psi s + phi s)%Qc) t = (ladder n p q psi t + ladder n p q phi t)%Qc.
Proof.
  intros. unfold ladder. rewrite <- sum_sites_add. apply sum_sites_ext. intros i _. destruct (samep (t i) p); cbn [only]; ring.
Qed.

Lemma ladder_scale : forall n p q x psi t, ladder n p q (fun s => (x * psi s)%Qc) t = (x * ladder n p q psi t)%Qc.
Proof.
  intros. unfold ladder. rewrite <- sum_sites_scale. apply sum_sites_ext. intros i _. destruct (samep (t i) p); cbn [only]; ring.
Qed.

Lemma ladder_sum : forall n m p q (psi : Z -> wave) t, ladder n p q (fun s => sum_sites m (fun k => psi k s)) t = sum_sites m (fun k => ladder n p q (psi k) t).
Proof.
  intros. unfold ladder. unfold sum_sites at 3. unfold sum_sites at 3. rewrite qsum_exchange. apply sum_sites_ext. intros i _.
  destruct (samep (t i) p); cbn [only]; [reflexivity|]. symmetry. apply qsum_zero. reflexivity.
Qed.

Lemma ks_add : forall n O O', keeps_spin n O -> keeps_spin n O' -> keeps_spin n (fun psi s => (O psi s + O' psi s)%Qc).
Proof.
  intros n O O' (A & B & C) (A' & B' & C'). split; [|split].
  - intros psi H s t Q. now rewrite (A psi H s t Q), (A' psi H s t Q).
  - intros psi phi t H. now rewrite (B _ _ t H), (B' _ _ t H).
  - intros psi t H. destruct (C psi t H) as [-> ->], (C' psi t H) as [-> ->]. split; symmetry; apply ladder_add.
Qed.

Lemma ks_scale : forall n x O, keeps_spin n O -> keeps_spin n (fun psi s => (x * O psi s)%Qc).
Proof.
  intros n x O (A & B & C). split; [|split].
  - intros psi H s t Q. now rewrite (A psi H s t Q).
  - intros psi phi t H. now rewrite (B _ _ t H).
  - intros psi t H. destruct (C psi t H) as [-> ->]. split; symmetry; apply ladder_scale.
Qed.

Lemma ks_zero : forall n, keeps_spin n (fun _ _ => 0%Qc).
Proof.
  intros n. split; [|split]; [intros psi H s t Q; reflexivity | reflexivity |].
  intros psi t H. split; symmetry; apply sum_zero; intros; apply only_0.
Qed.

Lemma ks_only : forall n b O, (b = true -> keeps_spin n O) -> keeps_spin n (fun psi s => only b (O psi s)).
Proof. intros n [|] O H; cbn [only]; [now apply H | apply ks_zero]. Qed.

Lemma ks_sum : forall n m (O : Z -> wave -> wave), (forall k, 0 <= k < m -> keeps_spin n (O k)) ->
  keeps_spin n (fun psi s => sum_sites m (fun k => O k psi s)).
Proof.
  intros n m O H. split; [|split].
  - intros psi Hp s t Q. apply sum_sites_ext. intros k Hk. destruct (H k Hk) as (A & _). apply (A psi Hp s t Q).
  - intros psi phi t Q. apply sum_sites_ext. intros k Hk. destruct (H k Hk) as (_ & B & _). apply (B _ _ t Q).
  - intros psi t Hp. split.
    + transitivity (sum_sites m (fun k => ladder n Up Down (O k psi) t)); [|symmetry; apply ladder_sum].
      apply sum_sites_ext. intros k Hk. destruct (H k Hk) as (_ & _ & C). apply (C psi t Hp).
    + transitivity (sum_sites m (fun k => ladder n Down Up (O k psi) t)); [|symmetry; apply ladder_sum].
      apply sum_sites_ext. intros k Hk. destruct (H k Hk) as (_ & _ & C). apply (C psi t Hp).
Qed.

Lemma ks_ext : forall n O O', (forall psi t, on_lattice n psi -> O psi t = O' psi t) -> (forall psi phi t, (forall s, psi s = phi s) -> O' psi t = O' phi t) ->
  keeps_spin n O -> keeps_spin n O'.
Proof.
  intros n O O' E X (A & B & C). split; [|split; [exact X|]].
  - intros psi H s t Q. rewrite <- !E by assumption. now apply A.
  - intros psi t H.
    assert (H1 : on_lattice n (S_plus n psi)) by (now apply (ladder_on n Up Down)).
    assert (H2 : on_lattice n (S_minus n psi)) by (now apply (ladder_on n Down Up)).
    rewrite <- !E by assumption. destruct (C psi t H) as [-> ->]. split; [apply (ladder_ext n Up Down) | apply (ladder_ext n Down Up)]; intros s; apply E; assumption.
Qed.

(** sites relabelled, with a factor that sees only the holes *)
Definition sees_holes (n : Z) (f : occupation -> Qc) : Prop :=
  forall s t, (forall z, 0 <= z < n -> holeb (s z) = holeb (t z)) -> f s = f t.

Lemma ks_move : forall n f pi rho, sees_holes n f -> site_bij n pi rho ->
  keeps_spin n (fun psi s => (f s * psi (fun z => s (pi z)))%Qc).
Proof.
  intros n f pi rho F B. split; [|split].
  - intros psi H s t Q. f_equal.
    + apply F. intros z Hz. now rewrite (Q z Hz).
    + apply H. intros x Hx. apply Q. now apply B.
  - intros psi phi t H. now rewrite H.
  - assert (G : forall p q psi t, p <> Hole -> q <> Hole -> on_lattice n psi ->
      (f t * ladder n p q psi (fun z => t (pi z)))%Qc = ladder n p q (fun s => (f s * psi (fun z => s (pi z)))%Qc) t).
    { intros p q psi t Np Nq H. unfold ladder. rewrite <- sum_sites_scale.
      rewrite <- (sum_reindex n pi rho (fun i => only (samep (t i) p) (f (put i q t) * psi (fun z => put i q t (pi z)))%Qc) B).
      apply sum_sites_ext. intros i Hi. destruct (samep (t (pi i)) p) eqn:Q; cbn [only]; [|ring]. apply samep_iff in Q. f_equal.
      - apply F. intros z Hz. unfold put. destruct (Z.eqb_spec z (pi i)) as [->|]; [|reflexivity]. rewrite Q. destruct p, q; (reflexivity || congruence).
      - apply H. intros x Hx. unfold put. destruct (Z.eqb_spec x i) as [->|Nx]; [now rewrite Z.eqb_refl|].
        destruct (Z.eqb_spec (pi x) (pi i)) as [Q'|]; [|reflexivity]. exfalso. apply Nx.
        destruct (B x Hx) as (_ & _ & R1 & _), (B i Hi) as (_ & _ & R2 & _). congruence. }
    intros psi t H. split; apply G; (assumption || discriminate).
Qed.

(** what commutes with the ladders commutes with the square *)
Lemma ks_squared : forall n O, keeps_spin n O -> (forall psi phi x y t, O (fun s => (x * psi s + y * phi s)%Qc) t = (x * O psi t + y * O phi t)%Qc) ->
  forall psi t, on_lattice n psi -> O (S_squared n psi) t = S_squared n (O psi) t.
Proof.
  intros n O KO Lin psi t H. destruct KO as (A & B & C).
  assert (P1 : forall phi, on_lattice n phi -> on_lattice n (S_plus n phi)) by (intros; now apply (ladder_on n Up Down)).
  assert (P2 : forall phi, on_lattice n phi -> on_lattice n (S_minus n phi)) by (intros; now apply (ladder_on n Down Up)).
  assert (PM : forall phi s, on_lattice n phi -> O (S_plus n (S_minus n phi)) s = S_plus n (S_minus n (O phi)) s).
  { intros phi s Hp. destruct (C (S_minus n phi) s (P2 _ Hp)) as [-> _]. apply (ladder_ext n Up Down). intros u. apply (C phi u Hp). }
  assert (MP : forall phi s, on_lattice n phi -> O (S_minus n (S_plus n phi)) s = S_minus n (S_plus n (O phi)) s).
  { intros phi s Hp. destruct (C (S_plus n phi) s (P1 _ Hp)) as [_ ->]. apply (ladder_ext n Down Up). intros u. apply (C phi u Hp). }
  assert (ZZ : forall phi s, on_lattice n phi -> O (S_z n phi) s = S_z n (O phi) s).
  { intros phi s Hp. rewrite (sz_commutator n (O phi) s (A _ Hp)), <- PM, <- MP by assumption.
    rewrite (B (S_z n phi) (fun u => (half * S_plus n (S_minus n phi) u + (- half) * S_minus n (S_plus n phi) u)%Qc)).
    - rewrite Lin. ring.
    - intros u. rewrite sz_commutator by assumption. ring. }
  unfold S_squared at 2. rewrite <- PM, <- MP by assumption.
  assert (S_z n (S_z n (O psi)) t = O (S_z n (S_z n psi)) t) as ->.
  { rewrite ZZ by (now apply sz_on). unfold S_z at 1 3. f_equal. symmetry. now apply ZZ. }
  rewrite (B (S_squared n psi) (fun u => (half * (fun v => (1 * S_plus n (S_minus n psi) v + 1 * S_minus n (S_plus n psi) v)%Qc) u + 1 * S_z n (S_z n psi) u)%Qc)).
  - rewrite Lin, Lin. ring.
  - intros u. unfold S_squared. ring.
Qed.
