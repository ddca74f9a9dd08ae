(** Symmetric matrices of real numbers: comparison of levels, and matrices whose elements off the diagonal are not positive. *)
From Coq Require Import Reals Lra Lia Psatz Arith Relations.
From Verif Require Import RealSum PReal.
Open Scope R_scope.

(** ** fewer equations than unknowns *)
Lemma underdetermined : forall k (w : nat -> nat -> R), exists c, (exists i, (i < S k)%nat /\ c i <> 0) /\ forall i, (i < k)%nat -> dot (S k) (w i) c = 0.
Proof.
  induction k as [|k IH]; intros w; [exists (fun _ => 1); split; [exists 0%nat; split; [lia | lra] | intros; lia]|].
  assert (D : forall m, (m <= S k)%nat -> (exists p, (p < m)%nat /\ w p (S k) <> 0) \/ forall p, (p < m)%nat -> w p (S k) = 0).
  { induction m as [|m IHm]; intros Hm; [right; intros; lia|]. destruct IHm as [(j & Hj & N)|IHm]; [lia | left; exists j; split; [lia | assumption]|].
    destruct (Req_dec (w m (S k)) 0) as [Z|N]; [|left; exists m; split; [lia | assumption]]. right. intros j Hj. destruct (Nat.eq_dec j m) as [->|]; [assumption | apply IHm; lia]. }
  destruct (D (S k) (le_n _)) as [(p & Hp & Np)|Z].
  - set (q := w p (S k)) in *. set (s := fun i => if Nat.eqb i p then k else i).
    destruct (IH (fun i j => w (s i) j - w (s i) (S k) / q * w p j)) as (c & (i0 & Hi0 & N0) & Hc).
    set (last := - (dot (S k) (w p) c / q)). exists (fun j => if Nat.eqb j (S k) then last else c j). split.
    { exists i0. split; [lia|]. destruct (Nat.eqb_spec i0 (S k)); [lia | exact N0]. }
    assert (X : forall i, dot (S (S k)) (w i) (fun j => if Nat.eqb j (S k) then last else c j) = dot (S k) (w i) c + w i (S k) * last).
    { intros i. unfold dot. change (rsum (S (S k)) ?f) with (rsum (S k) f + f (S k)). cbv beta. rewrite Nat.eqb_refl. f_equal. apply rsum_ext. intros j Hj. destruct (Nat.eqb_spec j (S k)); [lia | reflexivity]. }
    assert (Y : forall i, (i < k)%nat -> dot (S k) (w (s i)) c + w (s i) (S k) * last = 0).
    { intros i Hi. rewrite <- (Hc i Hi). unfold last. transitivity (dot (S k) c (fun j => 1 * w (s i) j + - (w (s i) (S k) / q) * w p j)).
      - rewrite dot_lin, (dot_sym (S k) c (w (s i))), (dot_sym (S k) c (w p)). field. exact Np.
      - rewrite dot_sym. apply dot_ext; [intros; ring | reflexivity]. }
    intros i Hi. rewrite X. destruct (Nat.eq_dec i p) as [->|D1]; [unfold last; fold q; field; exact Np|].
    destruct (Nat.eq_dec i k) as [->|D2].
    + specialize (Y p ltac:(lia)). unfold s in Y. rewrite Nat.eqb_refl in Y. exact Y.
    + specialize (Y i ltac:(lia)). unfold s in Y. destruct (Nat.eqb_spec i p); [contradiction | exact Y].
  - exists (unit_at (S k)). split; [exists (S k); split; [lia | rewrite unit_self; lra]|]. intros i Hi. rewrite dot_unit by lia. apply Z. lia.
Qed.

(** ** comparison of the levels, rank by rank *)
Lemma weyl : forall n A A' e v e' v' d, (forall i j, (i < n)%nat -> (j < n)%nat -> A i j = A j i) -> (forall i j, (i < n)%nat -> (j < n)%nat -> A' i j = A' j i) ->
  orthonormal n n v -> (forall j i, (j < n)%nat -> (i < n)%nat -> actR n A (v j) i = e j * v j i) -> (forall i j, (i <= j)%nat -> (j < n)%nat -> e i <= e j) ->
  orthonormal n n v' -> (forall j i, (j < n)%nat -> (i < n)%nat -> actR n A' (v' j) i = e' j * v' j i) -> (forall i j, (i <= j)%nat -> (j < n)%nat -> e' i <= e' j) ->
  (forall u, form n A' u <= form n A u + d * dot n u u) -> forall k, (k < n)%nat -> e' k <= e k + d.
Proof.
  intros n A A' e v e' v' d S S' O V I O' V' I' H k Hk.
  destruct (underdetermined k (fun i j => dot n (v' i) (v j))) as (c & (i0 & Hi0 & N0) & Hc).
  set (u := fun i => rsum (Datatypes.S k) (fun j => c j * v j i)).
  assert (Cu : forall j, (j < n)%nat -> dot n (v j) u = if Nat.ltb j (Datatypes.S k) then c j else 0).
  { intros j Hj. unfold u. rewrite dot_sum. destruct (Nat.ltb_spec j (Datatypes.S k)) as [L|L].
    - rewrite (rsum_single _ _ j L); [rewrite (O j j Hj Hj), Nat.eqb_refl; ring|]. intros i Hi D. rewrite (O j i) by lia. destruct (Nat.eqb_spec j i); [congruence | ring].
    - apply rsum_zero. intros i Hi. rewrite (O j i) by lia. destruct (Nat.eqb_spec j i); [lia | ring]. }
  assert (Cu' : forall i, (i < k)%nat -> dot n (v' i) u = 0).
  { intros i Hi. rewrite <- (Hc i Hi). unfold u. rewrite dot_sum. apply rsum_ext. intros. ring. }
  assert (P : 0 < dot n u u).
  { rewrite (parseval n v u O). assert (Q : dot n (v i0) u * dot n (v i0) u <= rsum n (fun j => dot n (v j) u * dot n (v j) u)) by (apply (rsum_one n (fun j => dot n (v j) u * dot n (v j) u)); [lia | intros; apply Rle_0_sqr]).
    rewrite (Cu i0 ltac:(lia)) in Q at 1 2. destruct (Nat.ltb_spec i0 (Datatypes.S k)); [|lia]. nra. }
  assert (F : form n A u <= e k * dot n u u).
  { rewrite (form_levels n A S e v O V), (parseval n v u O), <- rsum_scale. apply rsum_le. intros j Hj. destruct (Nat.ltb_spec j (Datatypes.S k)) as [L|L].
    - apply Rmult_le_compat_r; [apply Rle_0_sqr | apply I; lia].
    - rewrite (Cu j Hj). destruct (Nat.ltb_spec j (Datatypes.S k)); [lia | lra]. }
  assert (F' : e' k * dot n u u <= form n A' u).
  { rewrite (form_levels n A' S' e' v' O' V'), (parseval n v' u O'), <- rsum_scale. apply rsum_le. intros j Hj. destruct (Nat.ltb_spec j k) as [L|L].
    - rewrite (Cu' j L). lra.
    - apply Rmult_le_compat_r; [apply Rle_0_sqr | apply I'; lia]. }
  specialize (H u). apply Rmult_le_reg_r with (dot n u u); [exact P|]. lra.
Qed.

(** ** elements off the diagonal not positive *)
Section Perron.
Variable n : nat.
Variable a : nat -> nat -> R.
Hypothesis sym : forall i j, (i < n)%nat -> (j < n)%nat -> a i j = a j i.
Hypothesis off : forall i j, (i < n)%nat -> (j < n)%nat -> i <> j -> a i j <= 0.

Lemma form_abs : forall v, form n a (fun i => Rabs (v i)) <= form n a v.
Proof.
  intros v. unfold form, dot, actR. apply rsum_le. intros i Hi. rewrite <- !rsum_scale. apply rsum_le. intros j Hj.
  destruct (Nat.eq_dec i j) as [->|D]; [pose proof (Rsqr_abs (v j)) as Q; unfold Rsqr in Q; apply Req_le; transitivity (a j j * (Rabs (v j) * Rabs (v j))); [ring | rewrite <- Q; ring]|].
  pose proof (off i j Hi Hj D). pose proof (Rle_abs (v i * v j)) as Q. rewrite Rabs_mult in Q. nra.
Qed.
Lemma dot_abs : forall v, dot n (fun i => Rabs (v i)) (fun i => Rabs (v i)) = dot n v v.
Proof. intros v. apply rsum_ext. intros i _. pose proof (Rsqr_abs (v i)) as Q. unfold Rsqr in Q. lra. Qed.

Variable e : R.
Hypothesis low : forall v, e * dot n v v <= form n a v.
Definition stationary (v : nat -> R) : Prop := forall i, (i < n)%nat -> actR n a v i = e * v i.
Lemma stationary_form : forall v, stationary v -> form n a v = e * dot n v v.
Proof. intros v H. unfold form. rewrite <- dot_scale. apply dot_ext; [reflexivity | exact H]. Qed.
Lemma stationary_lin : forall x y u v, stationary u -> stationary v -> stationary (fun j => x * u j + y * v j).
Proof. intros x y u v Hu Hv i Hi. rewrite actR_lin, (Hu i Hi), (Hv i Hi). ring. Qed.
Lemma abs_stationary : forall v, stationary v -> stationary (fun i => Rabs (v i)).
Proof. intros v H. unfold stationary. apply (lowest_eigen n a sym e _ low). rewrite dot_abs, <- (stationary_form v H). apply form_abs. Qed.

Lemma zero_spreads : forall w i j, stationary w -> (forall k, (k < n)%nat -> 0 <= w k) -> (i < n)%nat -> (j < n)%nat -> w i = 0 -> i <> j -> a i j < 0 -> w j = 0.
Proof.
  intros w i j Hw P Hi Hj Z D L. pose proof (Hw i Hi) as E. rewrite Z in E.
  assert (Q : - (a i j * w j) = 0).
  { apply (rsum_nonneg_zero n (fun k => - (a i k * w k)) j Hj).
    - intros k Hk. destruct (Nat.eq_dec i k) as [<-|Dk]; [rewrite Z; lra|]. pose proof (off i k Hi Hk Dk). pose proof (P k Hk). nra.
    - rewrite rsum_opp. unfold actR in E. rewrite E. lra. }
  assert (Q2 : a i j * w j = 0) by lra. apply Rmult_integral in Q2. destruct Q2; [lra | assumption].
Qed.
Definition linked (i j : nat) : Prop := (i < n)%nat /\ (j < n)%nat /\ i <> j /\ a i j < 0.
Hypothesis connected : forall i j, (i < n)%nat -> (j < n)%nat -> clos_refl_trans nat linked i j.
Lemma all_zero : forall w i, stationary w -> (forall k, (k < n)%nat -> 0 <= w k) -> (i < n)%nat -> w i = 0 -> forall j, (j < n)%nat -> w j = 0.
Proof.
  intros w i Hw P Hi Z j Hj. specialize (connected i j Hi Hj). apply clos_rt_rt1n_iff in connected. revert Z. induction connected as [i|i k j (H1 & H2 & H3 & H4) R0 IH]; [auto|].
  intros Z. apply IH; try assumption. now apply (zero_spreads w i k).
Qed.
Lemma one_zero : forall v i, stationary v -> (i < n)%nat -> v i = 0 -> forall j, (j < n)%nat -> v j = 0.
Proof.
  intros v i Hv Hi Z j Hj. pose proof (all_zero _ i (abs_stationary v Hv) (fun k _ => Rabs_pos (v k)) Hi) as A. cbv beta in A. rewrite Z, Rabs_R0 in A. specialize (A eq_refl j Hj).
  destruct (Req_dec (v j) 0) as [Q|Q]; [exact Q|]. now apply Rabs_no_R0 in Q.
Qed.
Lemma one_sign : forall v, stationary v -> (exists i, (i < n)%nat /\ v i <> 0) -> (forall i, (i < n)%nat -> 0 < v i) \/ (forall i, (i < n)%nat -> v i < 0).
Proof.
  intros v Hv (k & Hk & Nk). assert (NZ : forall i, (i < n)%nat -> v i <> 0) by (intros i Hi Z; apply Nk; now apply (one_zero v i)).
  pose proof (stationary_lin 1 1 _ _ Hv (abs_stationary v Hv)) as S1. destruct (Rlt_le_dec 0 (v k)) as [P|P].
  - left. intros i Hi. destruct (Rlt_le_dec 0 (v i)) as [Q|Q]; [exact Q|]. exfalso. pose proof (one_zero _ i S1 Hi) as A. cbv beta in A. rewrite (Rabs_left1 (v i)) in A by lra.
    specialize (A ltac:(ring) k Hk). cbv beta in A. rewrite (Rabs_pos_eq (v k)) in A by lra. lra.
  - right. intros i Hi. destruct (Rlt_le_dec (v i) 0) as [Q|Q]; [exact Q|]. exfalso. pose proof (one_zero _ k S1 Hk) as A. cbv beta in A. rewrite (Rabs_left1 (v k)) in A by lra.
    specialize (A ltac:(ring) i Hi). cbv beta in A. rewrite (Rabs_pos_eq (v i)) in A by lra. apply (NZ i Hi). lra.
Qed.
Lemma one_state : forall u v, stationary u -> stationary v -> (exists i, (i < n)%nat /\ v i <> 0) -> exists x, forall i, (i < n)%nat -> u i = x * v i.
Proof.
  intros u v Hu Hv (k & Hk & Nk). exists (u k / v k). intros i Hi. pose proof (stationary_lin (v k) (- u k) _ _ Hu Hv) as S1.
  pose proof (one_zero _ k S1 Hk) as A. cbv beta in A. specialize (A ltac:(ring) i Hi). cbv beta in A.
  apply Rmult_eq_reg_l with (v k); [|exact Nk]. transitivity (u k * v i); [lra | field; exact Nk].
Qed.
End Perron.

(** a stationary state without negative amplitudes is a lowest one, if it vanishes nowhere *)
Lemma positive_lowest : forall n a e w, (forall i j, (i < n)%nat -> (j < n)%nat -> a i j = a j i) -> (forall i j, (i < n)%nat -> (j < n)%nat -> i <> j -> a i j <= 0) ->
  (forall i, (i < n)%nat -> actR n a w i = e * w i) -> (forall i, (i < n)%nat -> 0 < w i) -> forall u, e * dot n u u <= form n a u.
Proof.
  intros n a e w sym off Hw P u. destruct n as [|n]; [cbn; lra|].
  destruct (lowest_exists (S n) a sym ltac:(lia)) as (e0 & v & Nv & Ev & Lv).
  assert (Q : e <= e0).
  { pose proof (abs_stationary (S n) a sym off e0 Lv v Ev) as Av. set (p := fun i => Rabs (v i)) in *.
    assert (E1 : dot (S n) w (actR (S n) a p) = e0 * dot (S n) w p) by (rewrite <- dot_scale; apply dot_ext; [reflexivity | exact Av]).
    assert (E2 : dot (S n) p (actR (S n) a w) = e * dot (S n) w p) by (rewrite (dot_sym (S n) w p), <- dot_scale; apply dot_ext; [reflexivity | exact Hw]).
    rewrite (swap_sides (S n) a sym w p), E2 in E1.
    assert (Pos : 0 < dot (S n) w p).
    { destruct (Rlt_le_dec 0 (dot (S n) w p)) as [X|X]; [exact X|]. exfalso.
      assert (Z : forall i, (i < S n)%nat -> v i = 0).
      { intros i Hi. pose proof (rsum_nonneg_zero (S n) (fun i => w i * p i) i Hi) as Y. cbv beta in Y. specialize (Y ltac:(intros k Hk; apply Rmult_le_pos; [apply Rlt_le; now apply P | apply Rabs_pos]) X).
        apply Rmult_integral in Y. destruct Y as [Y|Y]; [pose proof (P i Hi); lra|]. unfold p in Y. destruct (Req_dec (v i) 0) as [V|V]; [exact V | now apply Rabs_no_R0 in V]. }
      assert (dot (S n) v v = 0) by (apply rsum_zero; intros; rewrite Z by assumption; ring). lra. }
    apply Rmult_eq_reg_r in E1; lra. }
  pose proof (Lv u). pose proof (dot_nonneg (S n) u). nra.
Qed.
