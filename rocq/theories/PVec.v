(** Vectors over the determinants of a sector. *)
From Coq Require Import ZArith List Bool Lia Permutation QArith Qcanon.
From Verif Require Import PyBase PyFacts Lattice Base Interact Spin Spec SpecOps SpecTJ SpecSpin SpinDefs
  PBasis PSites PRot PSpin POps PHam FBasis FSites PWave.
Import ListNotations.
Open Scope Z_scope.

(** entry of a vector *)
Definition vat (v : list Qc) (k : Z) : Qc := nth (Z.to_nat k) v 0%Qc.

Lemma vat_get : forall v k, 0 <= k < zlen v -> py_get v k = Ok (vat v k).
Proof.
  intros v k H. apply py_get_nth; [lia|]. unfold vat. apply nth_error_nth'. unfold zlen in H. lia.
Qed.

Lemma vat_ext : forall u v, length u = length v -> (forall k, 0 <= k < zlen u -> vat u k = vat v k) -> u = v.
Proof.
  intros u v L H. apply nth_ext with (d := 0%Qc) (d' := 0%Qc); [assumption|]. intros k Hk.
  specialize (H (Z.of_nat k)). unfold vat in H. rewrite Nat2Z.id in H. apply H. unfold zlen. lia.
Qed.

Lemma vat_set : forall v i x k, 0 <= i < zlen v -> 0 <= k -> vat (set_nth v (Z.to_nat i) x) k = if k =? i then x else vat v k.
Proof.
  intros v i x k Hi Hk. unfold vat, zlen in *. destruct (Z.eqb_spec k i) as [->|N].
  - apply nth_error_nth. apply set_nth_same. lia.
  - destruct (nth_error v (Z.to_nat k)) as [y|] eqn:Q.
    + rewrite (nth_error_nth v _ _ Q). apply nth_error_nth. rewrite set_nth_other; [assumption | lia].
    + apply nth_error_None in Q. rewrite !nth_overflow; [reflexivity | assumption | rewrite set_nth_length; assumption].
Qed.

Lemma vat_scale : forall x v k, vat (vscale x v) k = (x * vat v k)%Qc.
Proof.
  intros x v k. unfold vat, vscale. replace 0%Qc with (x * 0)%Qc at 1 by ring. apply (map_nth (fun y => (x * y)%Qc)).
Qed.

Lemma vscale_length : forall x v, length (vscale x v) = length v.
Proof. intros. apply map_length. Qed.

Lemma vadd_length : forall u v, length u = length v -> length (vadd u v) = length u.
Proof. intros u v H. unfold vadd. rewrite map_length, combine_length. lia. Qed.

Lemma vat_add : forall u v k, length u = length v -> vat (vadd u v) k = (vat u k + vat v k)%Qc.
Proof.
  intros u v k. unfold vat. generalize (Z.to_nat k). revert v. induction u as [|x u IH]; intros [|y v] m H; try discriminate; unfold vadd; cbn [combine map].
  - destruct m; cbn [nth]; ring.
  - destruct m; cbn [nth fst snd]; [reflexivity|]. apply IH. now injection H.
Qed.

Lemma vzeros_length : forall v, length (vzeros v) = length v.
Proof. intros. apply map_length. Qed.
Lemma vat_zeros : forall v k, vat (vzeros v) k = 0%Qc.
Proof. intros v k. unfold vat, vzeros. apply (map_nth (fun _ => 0%Qc) v 0%Qc). Qed.

(** [vdot] as a sum *)
Lemma vdot_sum : forall u v, length u = length v -> vdot u v = sum_sites (zlen u) (fun k => (vat u k * vat v k)%Qc).
Proof.
  intros u v H. unfold vdot, sum_sites, sites, zlen. rewrite Nat2Z.id, qsum_map.
  assert (G : forall k (a b : list Qc), length a = length b ->
    fold_right (fun p acc => (fst p * snd p + acc)%Qc) 0%Qc (combine a b) = qsum (fun i => (nth (i - k) a 0 * nth (i - k) b 0)%Qc) (seq k (length a))).
  { intros k a. revert k. induction a as [|x a IH]; intros k [|y b] L; try discriminate; [reflexivity|].
    cbn [combine fold_right length seq fst snd]. rewrite qsum_cons, Nat.sub_diag. cbn [nth]. f_equal.
    rewrite (IH (Datatypes.S k) b) by (injection L; auto). apply qsum_ext. intros i Hi. apply in_seq in Hi.
    replace (i - k)%nat with (Datatypes.S (i - Datatypes.S k)) by lia. reflexivity. }
  rewrite (G 0%nat u v H). apply qsum_ext. intros i _. unfold vat. rewrite Nat2Z.id, Nat.sub_0_r. reflexivity.
Qed.

(** a loop that adds into a vector *)
Lemma plus_fold : forall (dest : Z -> option Z) (val : Z -> Qc) inds acc,
  (forall ind i, In ind inds -> dest ind = Some i -> 0 <= i < zlen acc) ->
  exists u, foldM (fun a ind => match dest ind with Some i => vplus_at a i (val ind) | None => Ok a end) acc inds = Ok u /\
    length u = length acc /\
    forall k, 0 <= k -> vat u k = (vat acc k + qsum (fun ind => only (match dest ind with Some i => i =? k | None => false end) (val ind)) inds)%Qc.
Proof.
  intros dest val inds. induction inds as [|ind inds IH]; intros acc H; cbn [foldM].
  - exists acc. split; [reflexivity|]. split; [reflexivity|]. intros k Hk. rewrite qsum_nil. ring.
  - destruct (dest ind) as [i|] eqn:Q.
    + assert (Hi : 0 <= i < zlen acc) by (apply (H ind i); [now left | assumption]).
      unfold vplus_at at 1. rewrite vat_get by assumption. cbn [bind]. rewrite py_set_ok by assumption. cbn [bind].
      destruct (IH (set_nth acc (Z.to_nat i) (vat acc i + val ind)%Qc)) as (u & E & L & V).
      { intros ind' i' Hin Q'. unfold zlen. rewrite set_nth_length. apply (H ind' i'); [now right | assumption]. }
      exists u. split; [exact E|]. split; [now rewrite L, set_nth_length|]. intros k Hk. rewrite V, vat_set, qsum_cons, Q by assumption.
      rewrite (Z.eqb_sym i k). destruct (Z.eqb_spec k i) as [->|]; cbn [only]; ring.
    + cbn [bind]. destruct (IH acc) as (u & E & L & V); [intros ind' i' Hin; apply H; now right|].
      exists u. split; [exact E|]. split; [exact L|]. intros k Hk. rewrite V, qsum_cons, Q by assumption. cbn [only]. ring.
Qed.

Lemma foldM_ext : forall A B (f g : B -> A -> res B) l b, (forall b x, In x l -> f b x = g b x) -> foldM f b l = foldM g b l.
Proof.
  intros A B f g l. induction l as [|x l IH]; intros b H; [reflexivity|]. cbn [foldM]. rewrite H by (now left).
  destruct (g b x); cbn [bind]; [|reflexivity]. apply IH. intros; apply H. now right.
Qed.

Section Sector.
Variable c : configuration.
Hypothesis P : proper c.
Let n := nsites c.
Let sec := in_sector n (nholes c) (nbeta c).
Let ix := state_index n (nholes c) (nbeta c).
Let ls := dets n (Z.to_nat (nholes c)) (Z.to_nat (nbeta c)).

Lemma proper_n : 0 <= nsites c.
Proof. destruct P as (A & B & C & D & _). lia. Qed.
Lemma proper_unrestricted : unrestricted c.
Proof. apply P. Qed.
Lemma proper_basis : construct_basis c = Ok (mkBasis c (dets (nsites c) (Z.to_nat (nholes c)) (Z.to_nat (nbeta c)))).
Proof. destruct P as (A & B & C & D & _). apply construct_basis_ok; assumption. Qed.
Lemma proper_conf : nb_conf c = comb (nsites c) (nholes c) * comb (nsites c - nholes c) (nbeta c).
Proof.
  destruct P as (A & B & C & D & F & _). rewrite F. unfold compute_dimension.
  replace (nsites c - nalpha c - nbeta c) with (nholes c) by lia. symmetry. apply conf_comb; lia.
Qed.
Lemma proper_length : zlen (dets (nsites c) (Z.to_nat (nholes c)) (Z.to_nat (nbeta c))) = nb_conf c.
Proof.
  destruct P as (A & B & _). unfold zlen. rewrite dets_length by apply proper_n. rewrite !Z2Nat.id by assumption. symmetry. apply proper_conf.
Qed.

Lemma ix_range : forall s, in_sector (nsites c) (nholes c) (nbeta c) s -> 0 <= state_index (nsites c) (nholes c) (nbeta c) s < nb_conf c.
Proof. intros s H. split; [apply state_index_nonneg|]. rewrite proper_conf. apply state_index_bound; [apply proper_n | assumption]. Qed.

Lemma ix_onto : forall k, 0 <= k < nb_conf c -> exists s, in_sector (nsites c) (nholes c) (nbeta c) s /\ state_index (nsites c) (nholes c) (nbeta c) s = k /\
  get_hash_basis (nholes c) (nalpha c) (nbeta c) k = Ok (canon (nsites c) s) /\
  nth_error (dets (nsites c) (Z.to_nat (nholes c)) (Z.to_nat (nbeta c))) (Z.to_nat k) = Some (canon (nsites c) s).
Proof.
  intros k Hk. pose proof proper_n as Hn. pose proof P as (A & B & C & D & _).
  destruct (C04_hash_basis_pf c _ (Z.to_nat k) A B C D proper_basis) as (d & Nd & Hd).
  { pose proof proper_length as PL. unfold zlen in PL. lia. }
  rewrite Z2Nat.id in Hd by lia. pose proof Nd as Hin. apply nth_error_In in Hin. apply in_dets in Hin; [|assumption].
  rewrite !Z2Nat.id in Hin by assumption. destruct Hin as (s & Hs & ->). exists s. split; [assumption|].
  pose proof (nth_dets (nsites c) (Z.to_nat (nholes c)) (Z.to_nat (nbeta c)) s Hn) as N. rewrite !Z2Nat.id in N by assumption. specialize (N Hs).
  split; [|auto].
  pose proof (dets_NoDup (nsites c) (Z.to_nat (nholes c)) (Z.to_nat (nbeta c))) as ND. rewrite NoDup_nth_error in ND.
  pose proof (state_index_nonneg (nsites c) (nholes c) (nbeta c) s).
  assert (Z.to_nat (state_index (nsites c) (nholes c) (nbeta c) s) = Z.to_nat k); [|lia].
  apply ND; [|congruence]. apply nth_error_Some. congruence.
Qed.

(** the wave function of a vector *)
Definition wave_of (v : list Qc) : wave := fun s => vat v (state_index (nsites c) (nholes c) (nbeta c) s).

Lemma wave_on : forall v, on_lattice (nsites c) (wave_of v).
Proof. intros v s t H. unfold wave_of. f_equal. now apply state_index_same. Qed.

Lemma amplitudes_iff : forall v psi, on_lattice (nsites c) psi ->
  (amplitudes c (dets (nsites c) (Z.to_nat (nholes c)) (Z.to_nat (nbeta c))) v psi <->
   zlen v = nb_conf c /\ forall s, in_sector (nsites c) (nholes c) (nbeta c) s -> wave_of v s = psi s).
Proof.
  intros v psi O. pose proof P as (A & B & C & D & _). unfold amplitudes. split.
  - intros [L H]. assert (zlen v = nb_conf c) as Lv by (unfold zlen; rewrite L; apply proper_length).
    split; [assumption|]. intros s S.
    pose proof (nth_dets (nsites c) (Z.to_nat (nholes c)) (Z.to_nat (nbeta c)) s proper_n) as N. rewrite !Z2Nat.id in N by assumption. specialize (N S).
    unfold wave_of, vat. apply nth_error_nth. apply (H _ (canon (nsites c) s)); [exact N | now apply canon_describes].
  - intros [L H]. split.
    + apply Nat2Z.inj. change (zlen v = zlen (dets (nsites c) (Z.to_nat (nholes c)) (Z.to_nat (nbeta c)))). now rewrite L, proper_length.
    + intros k d s Nd Dd.
      assert (Hk : 0 <= Z.of_nat k < nb_conf c).
      { rewrite <- proper_length. unfold zlen. assert (k < length (dets (nsites c) (Z.to_nat (nholes c)) (Z.to_nat (nbeta c))))%nat by (apply nth_error_Some; congruence). lia. }
      destruct (ix_onto _ Hk) as (t & Ht & Kt & _ & Nt). rewrite Nat2Z.id in Nt. rewrite Nd in Nt. injection Nt as ->.
      pose proof (describes_unique _ _ _ _ _ _ Dd (canon_describes _ _ _ _ Ht)) as Q.
      rewrite (O s t Q), <- (H t Ht). unfold wave_of. rewrite Kt. unfold vat. rewrite Nat2Z.id. apply nth_error_nth'.
      unfold zlen in L. lia.
Qed.

(** a sum over the indexes of states *)
Lemma sum_one : forall (f : Z -> Qc) u, in_sector (nsites c) (nholes c) (nbeta c) u ->
  (forall s, in_sector (nsites c) (nholes c) (nbeta c) s -> ~ same_state (nsites c) s u -> f (state_index (nsites c) (nholes c) (nbeta c) s) = 0%Qc) ->
  qsum f (zrange 0 (nb_conf c)) = f (state_index (nsites c) (nholes c) (nbeta c) u).
Proof.
  intros f u Hu H. apply qsum_single; [apply zrange_NoDup | apply in_zrange; now apply ix_range|].
  intros k Hk N. apply in_zrange in Hk. destruct (ix_onto k Hk) as (s & Hs & <- & _). apply H; [assumption|].
  intros Q. apply N. now apply state_index_same.
Qed.
Lemma sum_none : forall (f : Z -> Qc),
  (forall s, in_sector (nsites c) (nholes c) (nbeta c) s -> f (state_index (nsites c) (nholes c) (nbeta c) s) = 0%Qc) ->
  qsum f (zrange 0 (nb_conf c)) = 0%Qc.
Proof.
  intros f H. apply qsum_zero. intros k Hk. apply in_zrange in Hk. destruct (ix_onto k Hk) as (s & Hs & <- & _). now apply H.
Qed.
End Sector.
