(** Final lemmas for C107: the values of modified_davidson_algorithm and the real energies. *)
From Coq Require Import ZArith List Bool Lia QArith Qcanon Reals Qreals Lra Lqa Psatz.
From Verif Require Import PyBase PyFacts Lattice Base Interact Ham Dav Files Spec SpecOps SpecTJ SpinDefs Geometry HamSpec DrawnDefs SignDefs DavDefs VarDefs LevelDefs RealSum RealDefs
  PSpin PQc PBasis PDavIter PLevels PDav PFiles FHam FSign FDav FProj FVar FLevels FFiles FDrawn PReal PReal2 PRealQ FReal.
Import ListNotations.
Open Scope R_scope.

Lemma dense_at : forall m i j, (0 <= csr_dim m)%Z -> (i < dimension m)%nat -> (j < dimension m)%nat -> nth j (nth i (csr_dense m) []) 0%Qc = csr_at m (Z.of_nat i) (Z.of_nat j).
Proof.
  intros m i j D Hi Hj. unfold csr_dense. rewrite (nth_map_in _ _ _ _ _ 0%Z) by (rewrite zrange_length; unfold dimension in *; lia).
  rewrite (nth_map_in _ _ _ _ _ 0%Z) by (rewrite zrange_length; unfold dimension in *; lia).
  rewrite zrange_seq by assumption. fold (dimension m). rewrite !(nth_map_in _ _ _ _ _ 0%nat) by (rewrite seq_length; assumption). now rewrite !seq_nth by assumption.
Qed.
Lemma dense_row : forall m i x, (0 <= csr_dim m)%Z -> (i < dimension m)%nat -> length x = dimension m -> real (inner (nth i (csr_dense m) []) x) = actR (dimension m) (element m) (reals x) i.
Proof.
  intros m i x D Hi Lx. pose proof (dense_square m) as SQ. unfold square in SQ. rewrite Forall_forall in SQ. assert (L : length (csr_dense m) = dimension m) by apply dense_length.
  rewrite (inner_real (dimension m)) by (try assumption; rewrite SQ by (apply nth_In; rewrite L; exact Hi); exact L).
  apply rsum_ext. intros j Hj. unfold reals at 1. rewrite dense_at by assumption. reflexivity.
Qed.
Lemma residual_real : forall m l x, (0 <= csr_dim m)%Z -> length x = dimension m -> let g := fun i => actR (dimension m) (element m) (reals x) i - real l * reals x i in
  real (inner (residual (csr_dense m) l x) (residual (csr_dense m) l x)) = dot (dimension m) g g.
Proof.
  intros m l x D Lx g. assert (L : length (csr_dense m) = dimension m) by apply dense_length.
  assert (LR : length (residual (csr_dense m) l x) = dimension m) by (unfold residual; now rewrite map_length, seq_length).
  rewrite (inner_real (dimension m)) by assumption. apply rsum_ext. intros i Hi.
  assert (R : reals (residual (csr_dense m) l x) i = - g i).
  { unfold reals, residual. rewrite L. rewrite (nth_map_seq (fun i => l * nth i x 0 - inner (nth i (csr_dense m) []) x)%Qc) by exact Hi. rewrite real_sub, real_mul, dense_row by assumption. unfold g, reals. ring. }
  rewrite R. ring.
Qed.
Lemma mean_dense : forall m x, (0 <= csr_dim m)%Z -> length x = dimension m -> real (mean (csr_dense m) x) = form (dimension m) (element m) (reals x).
Proof.
  intros m x D Lx. assert (L : length (csr_dense m) = dimension m) by apply dense_length. unfold mean. rewrite (inner_real (dimension m)); [|exact Lx | unfold image; now rewrite map_length].
  apply dot_ext; [reflexivity|]. intros i Hi. unfold reals at 1. rewrite image_nth by (rewrite L; exact Hi). now apply dense_row.
Qed.

(** a vector of small residual is near a level *)
Lemma near_square : forall m e v x u t, mirrored m -> all_states m e v -> (0 < dimension m)%nat ->
  (let g := fun i => actR (dimension m) (element m) u i - x * u i in dot (dimension m) g g <= t) -> exists j, (j < dimension m)%nat /\ (e j - x) * (e j - x) * dot (dimension m) u u <= t.
Proof.
  intros m e v x u t M A Hn H. cbv zeta in H. set (g := fun i => _) in H. pose proof (dot_nonneg (dimension m) g) as G0. destruct (Req_dec (dot (dimension m) u u) 0) as [Z|Z]; [exists 0%nat; split; [exact Hn|]; rewrite Z; Lra.lra|].
  pose proof (dot_nonneg (dimension m) u) as U0. assert (UP : 0 < dot (dimension m) u u) by Lra.lra. assert (Q0 : 0 <= t / dot (dimension m) u u) by (apply Rmult_le_pos; [Lra.lra | apply Rlt_le, Rinv_0_lt_compat, UP]).
  destruct (states_parts m e v A) as (O & V & I). destruct (near_level (dimension m) (element m) (element_sym m M) e v O V x u (sqrt (t / dot (dimension m) u u))) as (j & Hj & B).
  - apply sqrt_pos.
  - assert (D : forall n, (forall i, (i < n)%nat -> u i = 0) \/ exists i, (i < n)%nat /\ u i <> 0).
    { induction n as [|n [IH|(i & Hi & N)]]; [left; intros; lia| |right; exists i; split; [lia | assumption]]. destruct (Req_dec (u n) 0) as [Y|Y]; [left | right; exists n; split; [lia | assumption]].
      intros i Hi. destruct (Nat.eq_dec i n) as [->|]; [assumption | apply IH; lia]. }
    destruct (D (dimension m)) as [Y|Y]; [|exact Y]. exfalso. apply Z. apply rsum_zero. intros i Hi. rewrite (Y i Hi). ring.
  - fold g. rewrite sqrt_sqrt by exact Q0. replace (t / dot (dimension m) u u * dot (dimension m) u u) with t by (field; exact Z). exact H.
  - exists j. split; [exact Hj|]. assert (S : (e j - x) * (e j - x) <= t / dot (dimension m) u u).
    { rewrite <- (sqrt_sqrt _ Q0). pose proof (Rsqr_abs (e j - x)) as Q. unfold Rsqr in Q. rewrite Q. apply Rmult_le_compat; try apply Rabs_pos; exact B. }
    apply Rmult_le_compat_r with (r := dot (dimension m) u u) in S; [|Lra.lra]. replace (t / dot (dimension m) u u * dot (dimension m) u u) with t in S by (field; exact Z). exact S.
Qed.

Lemma C107_near_pf : forall E c pos r K S arg l m e v N nb guess stp tol dim_max vals vects k x y, set_iter_ok E -> filled_drawn E c pos r -> assembled E c K S arg l m -> all_states m e v ->
  qr_shape N -> norm_above N -> tall (length l) guess -> (0 <= nb)%Z -> (0 <= dim_max)%Z -> (0 < length l)%nat ->
  modified_davidson_algorithm N (csr_dense m) nb guess stp tol dim_max = Ok (true, vals, vects) -> nth_error vals k = Some x -> nth_error vects k = Some y ->
  exists j, (j < length l)%nat /\ (e j - real x) * (e j - real x) * real (inner y y) <= real tol * real tol.
Proof.
  intros E c pos r K S arg l m e v N nb guess stp tol dim_max vals vects k x y HE HF HA A HQ HN T Hnb Hdm Hl H Hx Hy. destruct (mirrored_drawn E c pos r K S arg l m HE HF HA) as (M & D).
  assert (L : length (csr_dense m) = length l) by (rewrite <- D; apply dense_length). rewrite <- L in T.
  pose proof (C47_true_residual_pf N (csr_dense m) nb guess stp tol dim_max vals vects HQ HN (dense_square m) T Hnb Hdm H k x y Hx Hy) as R.
  pose proof (davidson_tall N (csr_dense m) nb guess stp tol dim_max true vals vects HQ (dense_square m) T Hnb Hdm H) as TV. unfold tall in TV. rewrite Forall_forall in TV.
  assert (Ly : length y = dimension m) by (rewrite D, <- L; apply TV; eapply nth_error_In; eassumption).
  apply real_le in R. rewrite (residual_real m x y (proj1 M) Ly), real_mul in R. rewrite <- D in Hl |- *. rewrite (inner_real (dimension m)) by assumption. now apply (near_square m e v).
Qed.
Lemma C107_unit_pf : forall E c pos r K S arg l m e v N nb guess stp tol dim_max vals vects k x, set_iter_ok E -> filled_drawn E c pos r -> assembled E c K S arg l m -> all_states m e v ->
  qr_shape N -> qr_orthonormal N -> eigh_unit N -> norm_above N -> tall (length l) guess -> (0 <= nb)%Z -> (0 <= dim_max)%Z -> (0 < length l)%nat ->
  (2 <= Z.min nb (if dim_max =? 0 then Z.of_nat (length l) else dim_max))%Z \/ DavDefs.orthonormal guess ->
  modified_davidson_algorithm N (csr_dense m) nb guess stp tol dim_max = Ok (true, vals, vects) -> nth_error vals k = Some x ->
  exists j, (j < length l)%nat /\ Rabs (e j - real x) <= Rabs (real tol).
Proof.
  intros E c pos r K S arg l m e v N nb guess stp tol dim_max vals vects k x HE HF HA A HQ HO HU HN T Hnb Hdm Hl Hs H Hx. destruct (mirrored_drawn E c pos r K S arg l m HE HF HA) as (M & D).
  assert (L : length (csr_dense m) = length l) by (rewrite <- D; apply dense_length). pose proof T as T'. rewrite <- L in T', Hs.
  destruct (unit_found N (csr_dense m) nb guess stp tol dim_max vals vects HQ HO HU HN (dense_square m) T' Hnb Hdm Hs H k x Hx) as (y & Hy & _ & Uy & _).
  destruct (C107_near_pf E c pos r K S arg l m e v N nb guess stp tol dim_max vals vects k x y HE HF HA A HQ HN T Hnb Hdm Hl H Hx Hy) as (j & Hj & B). exists j. split; [exact Hj|].
  rewrite Uy, real_1, Rmult_1_r in B. now apply Rsqr_le_abs_0.
Qed.

(** ** rank by rank *)
Lemma rank_bound : forall n k (Z : list (list Qc)), length Z = S k -> tall n Z -> DavDefs.orthonormal Z -> (k < n)%nat.
Proof.
  intros n k Z LZ TZ OZ. destruct (Nat.lt_ge_cases k (n)) as [Lt|Ge]; [exact Lt|]. exfalso.
  destruct (underdetermined (n) (fun i p => reals (nth p Z []) i)) as (d & (i0 & Hi0 & N0) & Hd).
  unfold tall in TZ. rewrite Forall_forall in TZ. assert (Lz : forall p, (p < S k)%nat -> length (nth p Z []) = n) by (intros p Hp; apply TZ, nth_In; lia).
  assert (Q : dot (S (n)) d d = 0).
  { transitivity (rsum (S (n)) (fun p => rsum (S (n)) (fun q => d p * d q * dot (n) (reals (nth p Z [])) (reals (nth q Z []))))).
    - apply rsum_ext. intros p Hp. rewrite (rsum_single (S (n)) _ p Hp).
    + rewrite <- (inner_real (n)) by (apply Lz; lia). rewrite OZ by lia. rewrite Nat.eqb_refl, real_1. ring.
    + intros q Hq Dq. rewrite <- (inner_real (n)) by (apply Lz; lia). rewrite OZ by lia. destruct (Nat.eqb_spec p q); [congruence | rewrite real_0; ring].
    - apply rsum_zero. intros p Hp. transitivity (rsum (n) (fun i => d p * reals (nth p Z []) i * dot (S (n)) (fun q => reals (nth q Z []) i) d)).
    + rewrite (rsum_ext (S (n)) _ (fun q => rsum (n) (fun i => d p * reals (nth p Z []) i * (reals (nth q Z []) i * d q)))).
      * rewrite rsum_exchange. apply rsum_ext. intros i _. unfold dot. now rewrite rsum_scale.
      * intros q _. unfold dot. rewrite <- rsum_scale. apply rsum_ext. intros. ring.
    + apply rsum_zero. intros i Hi. rewrite (Hd i Hi). ring. }
  assert (Q1 : d i0 * d i0 <= dot (S (n)) d d) by (apply (rsum_one _ (fun i => d i * d i)); [exact Hi0 | intros; apply Rle_0_sqr]). Lra.nra.
Qed.
Lemma ritz : forall m e v k x (Z : list (list Qc)), mirrored m -> all_states m e v -> length Z = S k -> tall (dimension m) Z -> DavDefs.orthonormal Z ->
  (forall d, length d = S k -> (mean (csr_dense m) (blend (dimension m) Z d) <= x * inner d d)%Qc) -> (k < dimension m)%nat /\ e k <= real x.
Proof.
  intros m e v k x Z M A LZ TZ OZ H. pose proof (rank_bound (dimension m) k Z LZ TZ OZ) as Hk. split; [exact Hk|]. set (n := dimension m) in *. set (z := fun p => reals (nth p Z [])). unfold tall in TZ. rewrite Forall_forall in TZ.
  assert (Lz : forall p, (p < S k)%nat -> length (nth p Z []) = n) by (intros p Hp; apply TZ, nth_In; lia).
  assert (Oz : forall p q, (p < S k)%nat -> (q < S k)%nat -> dot n (z p) (z q) = if Nat.eqb p q then 1 else 0).
  { intros p q Hp Hq. unfold z. rewrite <- (inner_real n) by now apply Lz. rewrite OZ by lia. destruct (Nat.eqb p q); [apply real_1 | apply real_0]. }
  set (X := fun (d : nat -> R) i => rsum (S k) (fun p => d p * z p i)).
  set (B := fun p q => real x * (if Nat.eqb p q then 1 else 0) - dot n (z p) (actR n (element m) (z q))).
  assert (AX : forall d i, actR n (element m) (X d) i = rsum (S k) (fun q => d q * actR n (element m) (z q) i)).
  { intros d i. unfold actR, X. rewrite (rsum_ext (S k) _ (fun q => rsum n (fun j => d q * (element m i j * z q j)))) by (intros; now rewrite rsum_scale).
    rewrite rsum_exchange. apply rsum_ext. intros j _. rewrite <- rsum_scale. apply rsum_ext. intros. ring. }
  assert (FB : forall d, form (S k) B d = real x * dot (S k) d d - form n (element m) (X d)).
  { intros d. assert (F1 : dot (S k) d d = rsum (S k) (fun p => rsum (S k) (fun q => d p * d q * (if Nat.eqb p q then 1 else 0)))).
    { apply rsum_ext. intros p Hp. rewrite (rsum_single (S k) _ p Hp); [rewrite Nat.eqb_refl; ring|]. intros q _ Dq. destruct (Nat.eqb_spec p q); [congruence | ring]. }
    assert (F2 : form n (element m) (X d) = rsum (S k) (fun p => rsum (S k) (fun q => d p * d q * dot n (z p) (actR n (element m) (z q))))).
    { transitivity (rsum n (fun i => rsum (S k) (fun p => rsum (S k) (fun q => d p * d q * (z p i * actR n (element m) (z q) i))))).
      - apply rsum_ext. intros i _. rewrite AX. unfold X at 1. rewrite Rmult_comm, <- rsum_scale. apply rsum_ext. intros p _. rewrite Rmult_comm, <- rsum_scale. apply rsum_ext. intros q _. ring.
      - rewrite rsum_exchange. apply rsum_ext. intros p _. rewrite rsum_exchange. apply rsum_ext. intros q _. unfold dot. now rewrite rsum_scale. }
    rewrite F1, F2. rewrite <- rsum_scale, <- rsum_sub. apply rsum_ext. intros p _. unfold actR at 1. rewrite <- !rsum_scale, <- rsum_sub. apply rsum_ext. intros q _. unfold B. ring. }
  assert (PB : forall d, 0 <= form (S k) B d).
  { intros d. apply dense.
    - intros p q Hp Hq. unfold B. rewrite (swap_sides n (element m) (element_sym m M) (z p) (z q)), (Nat.eqb_sym p q). reflexivity.
    - intros l Ll. rewrite FB. specialize (H l Ll). apply real_le in H. rewrite (mean_dense m _ (proj1 M)) in H by apply blend_length. rewrite real_mul, (inner_real (S k)) in H by assumption.
      assert (Q : form n (element m) (reals (blend n Z l)) = form n (element m) (X (fun i => real (nth i l 0%Qc)))).
      { assert (Y : forall i, (i < n)%nat -> reals (blend n Z l) i = X (fun i => real (nth i l 0%Qc)) i).
        { intros i Hi. unfold reals. rewrite blend_nth by exact Hi. rewrite LZ, real_sum. apply rsum_ext. intros p _. now rewrite real_mul. }
        unfold form. apply dot_ext; [exact Y|]. intros i _. apply actR_ext. exact Y. }
      fold n in H. rewrite Q in H. unfold reals in H. Lra.lra. }
  destruct (states_parts m e v A) as (O & V & I). fold n in O, V, I.
  destruct (underdetermined k (fun i p => dot n (v i) (z p))) as (d & (i0 & Hi0 & N0) & Hd). set (u := X d).
  assert (U0 : forall i, (i < k)%nat -> dot n (v i) u = 0) by (intros i Hi; rewrite <- (Hd i Hi); unfold u, X; rewrite dot_sum; apply rsum_ext; intros; ring).
  assert (UU : dot n u u = dot (S k) d d).
  { unfold u at 2. unfold X. rewrite dot_sum. apply rsum_ext. intros p Hp. f_equal. unfold u, X. rewrite (dot_sym n _ (z p)), dot_sum. rewrite (rsum_single (S k) _ p Hp); [rewrite (Oz p p Hp Hp), Nat.eqb_refl; ring|].
    intros q Hq Dq. rewrite (Oz p q Hp Hq). destruct (Nat.eqb_spec p q); [congruence | ring]. }
  assert (P : 0 < dot n u u).
  { rewrite UU. assert (Q : d i0 * d i0 <= dot (S k) d d) by (apply (rsum_one (S k) (fun i => d i * d i)); [exact Hi0 | intros; apply Rle_0_sqr]). Lra.nra. }
  pose proof (PB d) as Q. rewrite FB in Q. fold u in Q. rewrite <- UU in Q.
  assert (LO : e k * dot n u u <= form n (element m) u).
  { rewrite (form_levels n (element m) (element_sym m M) e v O V u), (parseval n v u O), <- rsum_scale. apply rsum_le. intros j Hj. destruct (Nat.lt_ge_cases j k) as [Lt|Ge].
    - rewrite (U0 j Lt). Lra.lra.
    - apply Rmult_le_compat_r; [apply Rle_0_sqr | now apply I]. }
  apply Rmult_le_reg_r with (dot n u u); Lra.lra.
Qed.

Lemma mean_csr : forall m x, (0 <= csr_dim m)%Z -> length x = dimension m -> mean (csr_dense m) x = csr_mean m x.
Proof. intros m x D Lx. apply real_inj. rewrite mean_dense, mean_real, Lx by assumption. reflexivity. Qed.
Lemma C107_ritz_pf : forall E c pos r K S arg l m e v k x Z, set_iter_ok E -> filled_drawn E c pos r -> assembled E c K S arg l m -> all_states m e v ->
  length Z = Datatypes.S k -> tall (length l) Z -> DavDefs.orthonormal Z ->
  (forall d, length d = Datatypes.S k -> (csr_mean m (blend (length l) Z d) <= x * inner d d)%Qc) -> (k < length l)%nat /\ e k <= real x.
Proof.
  intros E c pos r K S arg l m e v k x Z HE HF HA A LZ TZ OZ H. destruct (mirrored_drawn E c pos r K S arg l m HE HF HA) as (M & D). rewrite <- D in *.
  apply (ritz m e v k x Z M A LZ TZ OZ). intros d Ld. rewrite (mean_csr m _ (proj1 M)) by apply blend_length. now apply H.
Qed.

(** columns picked from others *)
Definition scatter (js : list nat) (d : list Qc) (n : nat) : list Qc :=
  map (fun j => qsum (fun p => if Nat.eqb (nth p js 0%nat) j then nth p d 0%Qc else 0%Qc) (seq 0 (length js))) (seq 0 n).
Lemma blend_scatter : forall dim Y js d, (forall j, In j js -> (j < length Y)%nat) -> blend dim (map (fun j => nth j Y []) js) d = blend dim Y (scatter js d (length Y)).
Proof.
  intros dim Y js d B. apply (nth_ext _ _ 0%Qc 0%Qc); [now rewrite !blend_length|]. intros i Hi. rewrite blend_length in Hi. rewrite !blend_nth by assumption. rewrite map_length.
  symmetry. rewrite (qsum_ext _ _ (fun j => qsum (fun p => (if Nat.eqb (nth p js 0%nat) j then nth p d 0 * nth i (nth j Y []) 0 else 0)%Qc) (seq 0 (length js)))).
  - rewrite qsum_exchange. apply qsum_ext. intros p Hp. apply in_seq in Hp. rewrite (qsum_delta (length Y) (nth p js 0%nat) (fun j => nth p d 0 * nth i (nth j Y []) 0)%Qc) by (apply B, nth_In; lia).
    now rewrite (nth_map_in _ _ (fun j => nth j Y []) js p 0%nat) by lia.
  - intros j Hj. apply in_seq in Hj. unfold scatter. rewrite (nth_map_seq (fun j => qsum _ _)) by lia. rewrite Qcmult_comm, <- qsum_scale. apply qsum_ext. intros p _. destruct (Nat.eqb (nth p js 0%nat) j); ring.
Qed.
Lemma scatter_off : forall js d n j, (j < n)%nat -> ~ In j js -> nth j (scatter js d n) 0%Qc = 0%Qc.
Proof.
  intros js d n j Hj NI. unfold scatter. rewrite (nth_map_seq (fun j => qsum _ _)) by exact Hj. apply qsum_zero. intros p Hp. apply in_seq in Hp. destruct (Nat.eqb_spec (nth p js 0%nat) j) as [Q|]; [|reflexivity].
  exfalso. apply NI. rewrite <- Q. apply nth_In. lia.
Qed.

(** the values found with the matrix [m] and the levels of a matrix [m0] near it *)
Lemma step_near : forall m m0 e v N nb tol dim_max K eps delta k l, mirrored m0 -> all_states m0 e v -> dimension m0 = dimension m ->
  (forall y, length y = dimension m -> (mean (csr_dense m0) y <= mean (csr_dense m) y + delta * inner y y)%Qc) -> tall (dimension m) K -> DavDefs.orthonormal K -> (0 <= nb)%Z ->
  diagonalised eps (projected (csr_dense m) K) (eigh N (projected (csr_dense m) K)) -> value_at (dav_step N (csr_dense m) nb tol dim_max K) k l -> (k < dimension m)%nat /\ e k <= real (l + eps + delta)%Qc.
Proof.
  intros m m0 e v N nb tol dim_max K eps delta k l M A DD NR TK OK Hnb D V. assert (LA : length (csr_dense m) = dimension m) by apply dense_length. set (H := csr_dense m) in *. pose proof (dense_square m) as SA. fold H in SA.
  rewrite <- LA in TK. destruct (step_found _ _ _ _ _ _ _ _ _ _ SA TK Hnb D eq_refl V) as (idx & vects & SM & (i & Hi & ->) & _).
  destruct (eigh N (projected H K)) as [vals ys] eqn:EQ. cbn [fst snd] in *. set (l := nth i vals 0%Qc).
  destruct D as (L1 & L2 & TY & OY & D). cbn [fst snd] in *. assert (LP : length (projected H K) = length K) by (unfold projected; apply map_length). rewrite LP in *.
  assert (Lk : (k < length idx)%nat) by (apply nth_error_Some; congruence). pose proof SM as (ND & BD & _).
  set (js := firstn (S k) idx). assert (Lj : length js = S k) by (unfold js; rewrite firstn_length; lia).
  assert (Bj : forall j, In j js -> (j < length ys)%nat) by (intros j I; rewrite L2, <- L1; apply BD; unfold js in I; rewrite <- (firstn_skipn (S k) idx); apply in_or_app; now left).
  assert (NDj : NoDup js) by now apply first_distinct.
  set (Z0 := map (fun j => nth j (map (blend (dimension m) K) ys) []) js).
  assert (Zp : forall p, (p < S k)%nat -> nth p Z0 [] = blend (dimension m) K (nth (nth p js 0%nat) ys [])).
  { intros p Hp. unfold Z0. rewrite (nth_map_in _ _ _ _ _ 0%nat) by lia. apply nth_map_in. apply Bj, nth_In. lia. }
  assert (Ly : forall j, In j js -> length (nth j ys []) = length K) by (intros j I; unfold tall in TY; rewrite Forall_forall in TY; apply TY, nth_In, Bj, I).
  assert (IB : forall u w, length u = length K -> length w = length K -> inner (blend (dimension m) K u) (blend (dimension m) K w) = inner u w).
  { intros u w Lu Lw. rewrite LA in TK. rewrite (inner_blend (dimension m)) by apply blend_length. unfold inner at 2. rewrite Lu. apply qsum_ext. intros p Hp. apply in_seq in Hp.
    rewrite inner_sym by (rewrite blend_length; symmetry; unfold tall in TK; rewrite Forall_forall in TK; apply TK, nth_In; lia). rewrite (ortho_coeff (dimension m) K u p) by (assumption || lia). ring. }
  pose proof (ritz m0 e v k (l + eps + delta)%Qc Z0 M A) as RZ. rewrite DD in RZ. apply RZ; clear RZ.
  - unfold Z0. now rewrite map_length.
  - apply Forall_forall. intros t It. destruct (In_nth _ _ [] It) as (p & Hp & <-). unfold Z0 in Hp. rewrite map_length in Hp. rewrite Zp by lia. apply blend_length.
  - intros p q Hp Hq. unfold Z0 in Hp, Hq. rewrite map_length in Hp, Hq. rewrite !Zp by lia. rewrite IB by (apply Ly, nth_In; lia). rewrite OY by (apply Bj, nth_In; lia).
    destruct (Nat.eqb_spec p q) as [->|NE]; [now rewrite Nat.eqb_refl|]. destruct (Nat.eqb_spec (nth p js 0%nat) (nth q js 0%nat)) as [Q|]; [|reflexivity]. exfalso. apply NE. apply (proj1 (NoDup_nth js 0%nat) NDj); assumption.
  - intros d Ld. rewrite Qcmult_plus_distr_l.
    assert (UZ : inner (blend (dimension m) Z0 d) (blend (dimension m) Z0 d) = inner d d).
    { apply unit_blend.
      + apply Forall_forall. intros t It. destruct (In_nth _ _ [] It) as (p & Hp & <-). unfold Z0 in Hp. rewrite map_length in Hp. rewrite Zp by lia. apply blend_length.
      + intros p q Hp Hq. unfold Z0 in Hp, Hq. rewrite map_length in Hp, Hq. rewrite !Zp by lia. rewrite IB by (apply Ly, nth_In; lia). rewrite OY by (apply Bj, nth_In; lia).
        destruct (Nat.eqb_spec p q) as [->|NE]; [now rewrite Nat.eqb_refl|]. destruct (Nat.eqb_spec (nth p js 0%nat) (nth q js 0%nat)) as [Q|]; [|reflexivity]. exfalso. apply NE. apply (proj1 (NoDup_nth js 0%nat) NDj); assumption.
      + unfold Z0. now rewrite map_length, Lj. }
    eapply Qcle_trans; [apply NR, blend_length|]. rewrite UZ. apply Qcplus_le_compat; [|apply Qcle_refl].
    unfold Z0. rewrite blend_scatter by (rewrite map_length; exact Bj). rewrite map_length. set (g := scatter js d (length ys)).
    assert (Lg : length g = length K) by (unfold g, scatter; rewrite map_length, seq_length; exact L2).
    rewrite <- (blend_blend (dimension m) K ys g TY). rewrite <- LA. change (csr_dense m) with H. rewrite <- mean_projected by (try assumption; apply blend_length). destruct (D g Lg) as [D1 _]. eapply Qcle_trans; [exact D1|].
    assert (GG : inner g g = inner d d).
    { rewrite <- UZ. unfold Z0. rewrite blend_scatter by (rewrite map_length; exact Bj). rewrite map_length. fold g. rewrite <- (blend_blend (dimension m) K ys g TY). rewrite IB by apply blend_length. symmetry. apply unit_blend; [assumption | assumption | lia]. }
    rewrite <- GG. rewrite Qcmult_plus_distr_l. apply Qcplus_le_compat; [|apply Qcle_refl]. unfold inner. rewrite Lg. apply (weighted_le (length K) (fun k => nth k vals 0%Qc) (fun k => nth k g 0%Qc)).
    intros j Hj NZ. apply (ranked_before vals idx k i j SM Hi). destruct (in_dec Nat.eq_dec j js) as [I|I]; [exact I|]. exfalso. apply NZ. apply scatter_off; [rewrite L2; exact Hj | exact I].
Qed.
Lemma step_real : forall m e v N nb tol dim_max K eps k l, mirrored m -> all_states m e v -> tall (dimension m) K -> DavDefs.orthonormal K -> (0 <= nb)%Z ->
  diagonalised eps (projected (csr_dense m) K) (eigh N (projected (csr_dense m) K)) -> value_at (dav_step N (csr_dense m) nb tol dim_max K) k l -> (k < dimension m)%nat /\ e k <= real (l + eps)%Qc.
Proof.
  intros m e v N nb tol dim_max K eps k l M A TK OK Hnb D V. rewrite <- (Qcplus_0_r (l + eps)%Qc). apply (step_near m m e v N nb tol dim_max K eps 0%Qc k l M A); try assumption; [reflexivity|].
  intros y _. rewrite Qcmult_0_l, Qcplus_0_r. apply Qcle_refl.
Qed.
Lemma C107_levels_pf : forall E c pos r K S arg l m e v N nb guess stp tol dim_max eps found vals vects k x, set_iter_ok E -> filled_drawn E c pos r -> assembled E c K S arg l m -> all_states m e v ->
  let dm := (if dim_max =? 0 then Z.of_nat (length l) else dim_max)%Z in
  let K0 := dav_first N (csr_dense m) (Z.min nb dm) guess in
  qr_shape N -> tall (length l) K0 -> (1 <= nb)%Z -> (1 <= dm)%Z -> well_diagonalised N (csr_dense m) (Z.min nb dm) tol dm K0 eps ->
  modified_davidson_algorithm N (csr_dense m) nb guess stp tol dim_max = Ok (found, vals, vects) -> nth_error vals k = Some x -> (k < length l)%nat /\ e k <= real x + real eps.
Proof.
  intros E c pos r K S arg l m e v N nb guess stp tol dim_max eps found vals vects k x HE HF HA A dm K0 HQ T Hnb Hdm HW H Hk. destruct (mirrored_drawn E c pos r K S arg l m HE HF HA) as (M & D).
  assert (L : length (csr_dense m) = length l) by (rewrite <- D; apply dense_length). assert (Hn0 : (0 <= Z.min nb dm)%Z) by lia. rewrite <- L in T.
  destruct (C47_budget_pf _ _ _ _ _ _ _ _ _ _ H) as (i & K1 & S0 & F1 & F2). rewrite L in S0, F1, F2. fold dm in S0, F1, F2. fold K0 in S0.
  pose proof (search_tall _ _ _ _ _ _ _ _ HQ (dense_square m) T Hn0 S0) as TK. destruct (HW _ _ S0) as (O & AC & _). rewrite <- real_add, <- D.
  apply (step_real m e v N (Z.min nb dm) tol dm K1 eps k x M A); try assumption; [rewrite D, <- L; exact TK|].
  exists vals, vects. split; [|exact Hk]. destruct found; [left; apply F1; reflexivity | right; apply F2; reflexivity].
Qed.
