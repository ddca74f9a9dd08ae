(** Matrices between the sectors, over the real numbers. *)
From Coq Require Import ZArith List Bool Lia QArith Qcanon Reals Qreals Lra Lqa Psatz.
From Verif Require Import PyBase PyFacts Lattice Base Interact Ham Spin Spec SpecOps SpecTJ SpecSpin SpinDefs Geometry HamSpec EnergyDefs DrawnDefs SignDefs RealSum RealDefs
  PSpin PQc PBasis PSites PHam FGeo FSites FInter FHam PWave PTJSpin PVec PSecSum PSpinOp PBound PAct PDavIter FSpin FSpinVal FMulti FProj PSign PSignOp PPerron PSinglet FSign FSinglet FFerro FTop PCarry PReal PReal2 PRealQ FReal FReal3 FReal5.
Import ListNotations.
Open Scope R_scope.

(** ** rows of a basis *)
Section Rows.
Variables (c : configuration) (l : list (list Z)).
Hypothesis P : proper c.
Hypothesis HB : construct_basis c = Ok (mkBasis c l).
Definition row (i : nat) : occupation := stt (nholes c) (nbeta c) (nth i l []).
Lemma row_ok : forall i, (i < length l)%nat -> in_sector (nsites c) (nholes c) (nbeta c) (row i) /\ state_index (nsites c) (nholes c) (nbeta c) (row i) = Z.of_nat i.
Proof.
  intros i Hi. pose proof (basis_is c l P HB) as El. assert (Li : (0 <= Z.of_nat i < nb_conf c)%Z) by (rewrite <- (proper_length c P), <- El; unfold zlen; lia).
  destruct (ix_onto c P (Z.of_nat i) Li) as (s & Hs & Is & _ & N). rewrite Nat2Z.id, <- El in N. pose proof P as (A & B & _).
  assert (Q : nth i l [] = canon (nsites c) s) by now apply nth_error_nth. assert (SS : same_state (nsites c) (row i) s) by (unfold row; rewrite Q; now apply stt_canon).
  split; [|rewrite <- Is; now apply state_index_same]. apply (in_sector_same (nsites c) (nholes c) (nbeta c) s); [|assumption]. intros x Hx. symmetry. now apply SS.
Qed.
Lemma row_describes : forall i d s, nth_error l i = Some d -> describes (nsites c) (nholes c) (nbeta c) d s -> same_state (nsites c) (row i) s.
Proof. intros i d s Q D. unfold row. rewrite (nth_error_nth l i [] Q). pose proof P as (A & B & _). now apply stt_describes. Qed.
Lemma describes_row : forall i, (i < length l)%nat -> exists d, nth_error l i = Some d /\ describes (nsites c) (nholes c) (nbeta c) d (row i).
Proof.
  intros i Hi. destruct (row_ok i Hi) as (S & I). pose proof (basis_is c l P HB) as El. pose proof P as (A & B & _).
  pose proof (nth_dets (nsites c) (Z.to_nat (nholes c)) (Z.to_nat (nbeta c)) (row i) (proper_n c P)) as N. rewrite !Z2Nat.id in N by assumption. specialize (N S). rewrite <- El, I, Nat2Z.id in N.
  exists (canon (nsites c) (row i)). split; [assumption | now apply canon_describes].
Qed.
Lemma sector_row : forall s, in_sector (nsites c) (nholes c) (nbeta c) s -> exists i, (i < length l)%nat /\ same_state (nsites c) s (row i).
Proof.
  intros s Hs. pose proof (basis_is c l P HB) as El. pose proof P as (A & B & _).
  pose proof (nth_dets (nsites c) (Z.to_nat (nholes c)) (Z.to_nat (nbeta c)) s (proper_n c P)) as N. rewrite !Z2Nat.id in N by assumption. specialize (N Hs). rewrite <- El in N.
  exists (Z.to_nat (state_index (nsites c) (nholes c) (nbeta c) s)). split; [apply nth_error_Some; congruence|]. intros x Hx. symmetry. unfold row. rewrite (nth_error_nth l _ [] N). now apply stt_canon.
Qed.
Lemma wave_row : forall v i, (i < length l)%nat -> wave_of c v (row i) = nth i v 0%Qc.
Proof. intros v i Hi. destruct (row_ok i Hi) as (_ & I). unfold wave_of, vat. now rewrite I, Nat2Z.id. Qed.
Lemma wave_units : forall v s, length v = length l -> in_sector (nsites c) (nholes c) (nbeta c) s ->
  wave_of c v s = qsum (fun j => (nth j v 0 * wave_of c (unit_column (length l) j) s)%Qc) (seq 0 (length l)).
Proof.
  intros v s Lv Hs. destruct (sector_row s Hs) as (i & Hi & SS). rewrite (wave_on c v s (row i) SS), wave_row by assumption.
  rewrite (qsum_ext _ _ (fun j => if Nat.eqb i j then nth j v 0%Qc else 0%Qc)); [now rewrite (qsum_delta _ i (fun j => nth j v 0%Qc))|].
  intros j Hj. rewrite (wave_on c _ s (row i) SS), wave_row, unit_column_at by assumption. destruct (Nat.eqb i j); ring.
Qed.
Lemma conf_length : forall v : list Qc, length v = length l <-> zlen v = nb_conf c.
Proof. intros v. pose proof (basis_is c l P HB) as El. pose proof (proper_length c P) as Q. rewrite <- El in Q. unfold zlen in *. lia. Qed.
End Rows.

Lemma rect_commute : forall N N' A A' X, (forall i j, (i < N')%nat -> (j < N)%nat -> rsum N' (fun k => A' i k * X k j) = rsum N (fun k => X i k * A k j)) ->
  forall v i, (i < N')%nat -> rsum N' (fun k => A' i k * rsum N (fun j => X k j * v j)) = rsum N (fun j => X i j * rsum N (fun k => A j k * v k)).
Proof.
  intros N N' A A' X H v i Hi. transitivity (rsum N (fun j => rsum N' (fun k => A' i k * X k j) * v j)).
  - rewrite (rsum_ext N' _ (fun k => rsum N (fun j => A' i k * X k j * v j))) by (intros; rewrite <- rsum_scale; apply rsum_ext; intros; ring). rewrite rsum_exchange. apply rsum_ext. intros j _.
    rewrite Rmult_comm, <- rsum_scale. apply rsum_ext. intros. ring.
  - rewrite (rsum_ext N _ (fun j => rsum N (fun k => X i k * A k j) * v j)) by (intros j Hj; now rewrite H).
    rewrite (rsum_ext N (fun j => X i j * _) (fun k => rsum N (fun j => X i k * A k j * v j))) by (intros; rewrite <- rsum_scale; apply rsum_ext; intros; ring). rewrite rsum_exchange. apply rsum_ext. intros j _.
    rewrite Rmult_comm, <- rsum_scale. apply rsum_ext. intros. ring.
Qed.

Section Between.
Variables (E : runtime) (c c' : configuration) (w : Z) (K : interactions) (S : switches) (arg arg' : restriction) (l l' : list (list Z)) (m m' : csr).
Hypothesis HE : set_iter_ok E.
Hypothesis HF : filled_whole c w.
Hypothesis HF' : filled_whole c' w.
Hypothesis P : proper c.
Hypothesis P' : proper c'.
Hypothesis Hn : nsites c' = nsites c.
Hypothesis Hh : nholes c' = nholes c.
Hypothesis HA : assembled E c K S arg l m.
Hypothesis HA' : assembled E c' K S arg' l' m'.
Local Notation n := (nsites c).
Local Notation h := (nholes c).
Local Notation N := (length l).
Local Notation N' := (length l').
Local Notation LL := (between n (point w) (zrange 0 n) (zrange 0 n)).
Local Notation f := (hop_sign K n (point w)).
Variable T : wave -> wave.
Hypothesis CT : carries n h LL K S (point w) (nbeta c) (nbeta c') T.
Let HB : construct_basis c = Ok (mkBasis c l) := proj1 HA.
Let HB' : construct_basis c' = Ok (mkBasis c' l') := proj1 HA'.

Definition xq (i j : nat) : Qc := T (wave_of c (unit_column N j)) (row c' l' i).
Definition go (v : nat -> R) (i : nat) : R := rsum N (fun j => real (xq i j) * v j).
Definition gone (v : list Qc) : list Qc := map (fun i => T (wave_of c v) (row c' l' i)) (seq 0 N').

Lemma row_in : forall i, (i < N')%nat -> in_sector n h (nbeta c') (row c' l' i).
Proof. intros i Hi. destruct (row_ok c' l' P' HB' i Hi) as (Q & _). now rewrite Hn, Hh in Q. Qed.
Lemma carried_sum : forall (u : nat -> wave) (x : nat -> Qc) js t, in_sector n h (nbeta c') t -> T (fun s => qsum (fun j => (x j * u j s)%Qc) js) t = qsum (fun j => (x j * T (u j) t)%Qc) js.
Proof.
  intros u x js t Ht. destruct CT as (_ & C2 & C3 & _). induction js as [|j js IH].
  - rewrite qsum_nil. rewrite (C3 _ (fun s => (0 * u 0%nat s + 0 * u 0%nat s)%Qc)) by (assumption || (intros; rewrite qsum_nil; ring)). rewrite C2 by assumption. ring.
  - rewrite qsum_cons, <- IH. rewrite (C3 _ (fun s => (x j * u j s + 1 * qsum (fun j => (x j * u j s)%Qc) js)%Qc)) by (assumption || (intros; rewrite qsum_cons; ring)). rewrite C2 by assumption. ring.
Qed.
Lemma gone_at : forall v i, length v = N -> (i < N')%nat -> T (wave_of c v) (row c' l' i) = qsum (fun j => (xq i j * nth j v 0)%Qc) (seq 0 N).
Proof.
  intros v i Lv Hi. pose proof (row_in i Hi) as Ht. transitivity (T (fun s => qsum (fun j => (nth j v 0 * wave_of c (unit_column N j) s)%Qc) (seq 0 N)) (row c' l' i)).
  - destruct CT as (_ & _ & C3 & _). apply C3; [|assumption]. intros s Hs. now apply (wave_units c l P HB).
  - rewrite carried_sum by assumption. apply qsum_ext. intros j _. unfold xq. cbv beta. apply Qcmult_comm.
Qed.
Lemma gone_length : forall v, length (gone v) = N'.
Proof. intros. unfold gone. now rewrite map_length, seq_length. Qed.
Lemma gone_nth : forall v i, (i < N')%nat -> nth i (gone v) 0%Qc = T (wave_of c v) (row c' l' i).
Proof. intros v i Hi. unfold gone. now rewrite (nth_map_seq (fun i => T (wave_of c v) (row c' l' i))). Qed.
Lemma gone_wave : forall v t, in_sector n h (nbeta c') t -> wave_of c' (gone v) t = T (wave_of c v) t.
Proof.
  intros v t Ht. rewrite <- Hn, <- Hh in Ht. destruct (sector_row c' l' P' HB' t Ht) as (i & Hi & SS). rewrite (wave_on c' _ _ _ SS), (wave_row c' l' P' HB') by assumption. rewrite gone_nth by assumption.
  destruct CT as (C1 & _). symmetry. apply (C1 _ (wave_on c v)). now rewrite <- Hn.
Qed.
Lemma go_reals : forall v i, length v = N -> (i < N')%nat -> reals (gone v) i = go (reals v) i.
Proof. intros v i Lv Hi. unfold reals at 1. rewrite gone_nth, gone_at, real_sum by assumption. apply rsum_ext. intros j _. now rewrite real_mul. Qed.
Lemma go_unit : forall i j, (i < N')%nat -> reals (gone (unit_column N j)) i = real (xq i j).
Proof. intros i j Hi. unfold reals. now rewrite gone_nth. Qed.

Lemma gone_times : forall v, length v = N -> times m' (gone v) = gone (times m v).
Proof.
  intros v Lv. apply nth_ext with (d := 0%Qc) (d' := 0%Qc); [rewrite times_len, !gone_length; reflexivity|]. intros i Hi. rewrite times_len, gone_length in Hi.
  rewrite <- (wave_row c' l' P' HB' _ i Hi). rewrite gone_nth by assumption. destruct CT as (C1 & _ & C3 & C4 & _). pose proof (row_in i Hi) as Ht. destruct (row_ok c' l' P' HB' i Hi) as (Ht' & _).
  rewrite (times_wave E c' w K S arg' l' m' HE HF' P' HA' (gone v) (T (wave_of c v)) (row c' l' i)).
  - rewrite Hn. rewrite C4 by (assumption || apply wave_on). apply C3; [|assumption]. intros s Hs. symmetry. apply (times_wave E c w K S arg l m HE HF P HA); [now apply (conf_length c l P HB) | apply wave_on | reflexivity | assumption].
  - apply (conf_length c' l' P' HB'). apply gone_length.
  - rewrite Hn. apply C1, wave_on.
  - intros t Ht2. apply gone_wave. now rewrite <- Hn, <- Hh.
  - assumption.
Qed.
Lemma go_times : forall v i, (i < N')%nat -> actR N' (element m') (go v) i = go (actR N (element m) v) i.
Proof.
  intros v i Hi. apply (rect_commute N N' (element m) (element m') (fun i j => real (xq i j))); [|assumption]. clear v i Hi. intros i j Hi Hj.
  pose proof (gone_times (unit_column N j) (unit_column_length N j)) as Q. apply (f_equal (fun v => reals v i)) in Q. rewrite go_reals in Q by (rewrite ?times_len, ?unit_column_length; auto).
  unfold reals at 1 in Q. rewrite times_real in Q by (rewrite gone_length; exact Hi). rewrite gone_length in Q.
  transitivity (actR N' (element m') (reals (gone (unit_column N j))) i); [apply rsum_ext; intros k Hk; now rewrite go_unit|]. rewrite Q. unfold go. apply rsum_ext. intros k Hk. f_equal.
  unfold reals. rewrite times_real by (rewrite unit_column_length; exact Hk). rewrite unit_column_length. unfold actR. rewrite (rsum_single N _ j Hj).
  - unfold reals. rewrite unit_column_at, Nat.eqb_refl, real_1 by exact Hj. ring.
  - intros q Hq Dq. unfold reals. rewrite unit_column_at by exact Hq. destruct (Nat.eqb_spec q j); [contradiction | rewrite real_0; ring].
Qed.
Lemma go_spin : holes_in_order E c -> forall v i, (i < N')%nat -> actR N' (spin_element E c' N') (go v) i = go (actR N (spin_element E c N) v) i.
Proof.
  intros HO v i Hi. assert (HO' : holes_in_order E c') by (unfold holes_in_order in *; rewrite Hn, Hh; exact HO).
  apply (rect_commute N N' (spin_element E c N) (spin_element E c' N') (fun i j => real (xq i j))); [|assumption]. clear v i Hi. intros i j Hi Hj.
  destruct (spin_column E c l HE P HO HB j) as (u & Qu & Lu & Su).
  destruct (S2_ok E c' HE P' HO' (gone (unit_column N j)) (proj1 (conf_length c' l' P' HB' _) (gone_length _))) as (u' & Qu' & Lu' & Vu'). rewrite gone_length in Lu'.
  destruct (S2_ok E c HE P HO (unit_column N j) (proj1 (conf_length c l P HB _) (unit_column_length N j))) as (u2 & Qu2 & _ & Vu). rewrite Qu in Qu2. injection Qu2 as <-.
  assert (Q : u' = gone u).
  { apply nth_ext with (d := 0%Qc) (d' := 0%Qc); [now rewrite gone_length|]. intros k Hk. rewrite Lu' in Hk. rewrite <- (wave_row c' l' P' HB' _ k Hk), gone_nth by assumption. destruct CT as (C1 & _ & C3 & _ & C5 & _).
    pose proof (row_in k Hk) as Ht. destruct (row_ok c' l' P' HB' k Hk) as (Ht' & _). rewrite Vu' by assumption.
    rewrite (squared_sector c' _ (T (wave_of c (unit_column N j)))); try assumption.
    - rewrite Hn, C5 by (assumption || apply wave_on). apply C3; [|assumption]. intros s Hs. symmetry. now apply Vu.
    - apply wave_on.
    - rewrite Hn. apply C1, wave_on.
    - intros t Ht2. apply gone_wave. now rewrite <- Hn, <- Hh. }
  pose proof (spin_acts E c' l' HE P' HO' HB' _ _ (gone_length _) Qu' i Hi) as A. rewrite Q, go_reals in A by assumption.
  transitivity (actR N' (spin_element E c' N') (reals (gone (unit_column N j))) i); [apply rsum_ext; intros k Hk; now rewrite go_unit|]. rewrite <- A. unfold go. apply rsum_ext. intros k Hk. now rewrite Su.
Qed.
Lemma go_positive : forall v, follows_real c l f v -> follows_real c' l' (hop_sign K (nsites c') (point w)) (go v).
Proof.
  intros v FO i d t Qd Dt. rewrite Hn. assert (Hi : (i < N')%nat) by (apply nth_error_Some; congruence). pose proof (row_in i Hi) as Ht.
  assert (Ft : f t = f (row c' l' i)) by (apply hop_same; intros x Hx; symmetry; apply (row_describes c' l' P' i d t Qd Dt); now rewrite Hn). rewrite Ft. set (a := f (row c' l' i)).
  destruct CT as (C1 & C2 & C3 & _ & _ & C6 & C7).
  set (b := fun j => f (row c l j)).
  assert (F : forall j, (j < N)%nat -> 0 < real (b j) * v j) by (intros j Hj; destruct (describes_row c l P HB j Hj) as (d' & Q' & D'); exact (FO j d' _ Q' D')).
  assert (G : forall j, (j < N)%nat -> (0 <= a * xq i j * b j)%Qc).
  { intros j Hj. assert (SG : signs_ge n h K (point w) (nbeta c) (fun s => (b j * wave_of c (unit_column N j) s + 0 * 0)%Qc)).
    { intros s Hs. destruct (sector_row c l P HB s Hs) as (k & Hk & SS). rewrite (wave_on c _ _ _ SS), (wave_row c l P HB), unit_column_at by assumption. rewrite (hop_same K n (point w) s _ SS).
      destruct (Nat.eqb_spec k j) as [->|]; [fold (b j); replace (b j * (b j * 1 + 0 * 0))%Qc with (b j * b j)%Qc by ring; unfold b; rewrite hop_square; discriminate|].
      replace (f (row c l k) * (b j * 0 + 0 * 0))%Qc with 0%Qc by ring. apply Qcle_refl. }
    apply C6 in SG. specialize (SG _ Ht). fold a in SG. rewrite (C2 (b j) 0%Qc (wave_of c (unit_column N j)) (fun _ => 0%Qc)) in SG by assumption. fold (xq i j) in SG.
    replace (a * xq i j * b j)%Qc with (a * (b j * xq i j + 0 * T (fun _ => 0%Qc) (row c' l' i)))%Qc by ring. exact SG. }
  assert (PZ : (0 < qsum (fun j => a * xq i j * b j) (seq 0 N))%Qc).
  { assert (PO : positive n h K (point w) (nbeta c) f) by (intros s Hs; rewrite hop_square; reflexivity). apply C7 in PO. specialize (PO _ Ht). fold a in PO.
    assert (Q : T f (row c' l' i) = qsum (fun j => (b j * xq i j)%Qc) (seq 0 N)).
    { transitivity (T (fun s => qsum (fun j => (b j * wave_of c (unit_column N j) s)%Qc) (seq 0 N)) (row c' l' i)); [|now apply carried_sum]. apply C3; [|assumption]. intros s Hs.
      destruct (sector_row c l P HB s Hs) as (k & Hk & SS). rewrite (hop_same K n (point w) s _ SS). fold (b k).
      rewrite (qsum_ext _ _ (fun j => if Nat.eqb k j then b j else 0%Qc)); [now rewrite (qsum_delta _ k b)|].
      intros j Hj. rewrite (wave_on c _ s _ SS), (wave_row c l P HB), unit_column_at by assumption. destruct (Nat.eqb k j); ring. }
    rewrite Q, <- qsum_scale in PO. erewrite qsum_ext; [exact PO|]. intros j _. cbv beta. ring. }
  apply real_lt in PZ. rewrite real_0, real_sum in PZ.
  assert (Q : real a * go v i = rsum N (fun j => real (a * xq i j * b j)%Qc * (real (b j) * v j))).
  { unfold go. rewrite <- rsum_scale. apply rsum_ext. intros j _. rewrite !real_mul. assert (B2 : real (b j) * real (b j) = 1) by (rewrite <- real_mul; unfold b; rewrite hop_square; apply real_1).
    transitivity (real a * (real (xq i j) * v j) * (real (b j) * real (b j))); [rewrite B2; ring | ring]. }
  rewrite Q. assert (X : exists j, (j < N)%nat /\ 0 < real (a * xq i j * b j)%Qc).
  { assert (DE : forall k, (exists j, (j < k)%nat /\ 0 < real (a * xq i j * b j)%Qc) \/ rsum k (fun j => real (a * xq i j * b j)%Qc) <= 0).
    { induction k as [|k [(j & Hj & IH)|IH]]; [right; cbn; Lra.lra | left; exists j; split; [lia | assumption]|]. destruct (Rle_lt_dec (real (a * xq i k * b k)%Qc) 0); [right; cbn [rsum]; Lra.lra | left; exists k; split; [lia | assumption]]. }
    destruct (DE N) as [X|X]; [exact X | Lra.lra]. }
  destruct X as (j & Hj & Pj). pose proof (F j Hj) as Fj.
  apply Rlt_le_trans with (real (a * xq i j * b j)%Qc * (real (b j) * v j)); [now apply Rmult_lt_0_compat|]. apply (rsum_one N (fun j => real (a * xq i j * b j)%Qc * (real (b j) * v j)) j Hj).
  intros k Hk. apply Rmult_le_pos; [rewrite <- real_0; apply real_le; now apply G | apply Rlt_le; now apply F].
Qed.
Lemma go_size : keeps_size n h (nbeta c) (nbeta c') T -> exists d, 0 < d /\ forall v, d * dot N v v <= dot N' (go v) (go v).
Proof.
  intros (d & D & H). exists (real d). split; [rewrite <- real_0; now apply real_lt|]. intros v.
  set (M := fun i j => rsum N' (fun k => real (xq k i) * real (xq k j)) - real d * (if Nat.eqb i j then 1 else 0)).
  assert (FM : forall u, form N M u = dot N' (go u) (go u) - real d * dot N u u).
  { intros u. unfold form. transitivity (dot N u (fun i => 1 * rsum N' (fun k => go u k * real (xq k i)) + (- real d) * u i)).
    - apply dot_ext; [reflexivity|]. intros i Hi. unfold actR, M.
      transitivity (rsum N (fun j => rsum N' (fun k => real (xq k i) * real (xq k j)) * u j) + - real d * rsum N (fun j => (if Nat.eqb i j then 1 else 0) * u j)); [rewrite <- rsum_scale, <- rsum_add; apply rsum_ext; intros; ring|].
      f_equal; [|f_equal; rewrite (rsum_single N _ i Hi); [rewrite Nat.eqb_refl; ring | intros j _ Dj; destruct (Nat.eqb_spec i j); [congruence | ring]]].
      rewrite Rmult_1_l. rewrite (rsum_ext N _ (fun j => rsum N' (fun k => real (xq k i) * real (xq k j) * u j))) by (intros; rewrite Rmult_comm, <- rsum_scale; apply rsum_ext; intros; ring).
      rewrite rsum_exchange. apply rsum_ext. intros k _. unfold go. rewrite Rmult_comm, <- rsum_scale. apply rsum_ext. intros. ring.
    - rewrite dot_lin. replace (dot N' (go u) (go u) - real d * dot N u u) with (dot N' (go u) (go u) + - real d * dot N u u) by ring. f_equal. rewrite Rmult_1_l. unfold dot at 1. rewrite (rsum_ext N _ (fun i => rsum N' (fun k => u i * (go u k * real (xq k i))))) by (intros; now rewrite <- rsum_scale).
      rewrite rsum_exchange. unfold dot. apply rsum_ext. intros k _. unfold go at 3. rewrite <- rsum_scale. apply rsum_ext. intros. ring. }
  assert (Q : 0 <= form N M v); [|rewrite FM in Q; Lra.lra]. apply dense.
  - intros i j _ _. unfold M. rewrite (Nat.eqb_sym i j). f_equal. apply rsum_ext. intros. ring.
  - intros u Lu. fold (reals u). change (fun i => real (nth i u 0%Qc)) with (reals u). rewrite FM. specialize (H (wave_of c u) (wave_on c u)). unfold size in H.
    rewrite <- (inner_ssum c u u P) in H by now apply (conf_length c l P HB).
    assert (G : ssum n h (nbeta c') (fun t => (T (wave_of c u) t * T (wave_of c u) t)%Qc) = inner (gone u) (gone u)).
    { rewrite (inner_ssum c' _ _ P') by (apply (conf_length c' l' P' HB'); apply gone_length). rewrite Hn, Hh. pose proof P as (A1 & A2 & _). pose proof P' as (B1 & B2 & _). apply ssum_ext; try assumption; [apply (proper_n c P)|].
      intros s Hs. now rewrite gone_wave. }
    rewrite G in H. apply real_le in H. rewrite real_mul, (inner_real N), (inner_real N') in H by (assumption || apply gone_length).
    rewrite (dot_ext N' (reals (gone u)) (go (reals u)) (reals (gone u)) (go (reals u))) in H by (intros; now apply go_reals). Lra.lra.
Qed.
End Between.
