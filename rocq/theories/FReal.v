(** Final lemmas for C104, C105: all the states of the assembled matrix have real energies; sum, range and comparison of these energies. *)
From Coq Require Import ZArith List Bool Lia QArith Qcanon Reals Qreals Lra Lqa Psatz.
From Verif Require Import PyBase PyFacts Lattice Base Interact Ham Spec SpecOps SpecTJ SpinDefs Geometry HamSpec EnergyDefs RangeDefs TraceDefs ShiftDefs DrawnDefs SignDefs RealSum RealDefs
  PSpin PBasis FHam FSign FEnergy FRange FTrace FShift FDrawn PReal PReal2 PRealQ.
Import ListNotations.
Open Scope R_scope.

(** ** matrices with equal elements across the diagonal *)
Definition mirrored (m : csr) : Prop := (0 <= csr_dim m)%Z /\ forall i j, csr_at m i j = csr_at m j i.
Lemma element_sym : forall m, mirrored m -> forall i j, (i < dimension m)%nat -> (j < dimension m)%nat -> element m i j = element m j i.
Proof. intros m (_ & S) i j _ _. unfold element. now rewrite S. Qed.
Lemma mirrored_drawn : forall E c pos r K S arg l m, set_iter_ok E -> filled_drawn E c pos r -> assembled E c K S arg l m -> mirrored m /\ dimension m = length l.
Proof.
  intros E c pos r K S arg l m HE HF HA. destruct (C103_assembly_pf E c pos r K S arg HE HF) as (l' & m' & (A & B) & D & _ & _ & Sy). destruct HA as (A' & B').
  rewrite A in A'. injection A' as <-. rewrite B in B'. injection B' as <-. unfold mirrored, dimension. rewrite D. split; [split; [lia | exact Sy] | lia].
Qed.
Lemma mirrored_filled : forall E c w r K S arg l m, set_iter_ok E -> filled c w r -> assembled E c K S arg l m -> mirrored m /\ dimension m = length l.
Proof. intros E c w r K S arg l m HE HF. apply mirrored_drawn with (pos := point w) (r := r); [exact HE|]. now apply (C103_rectangle_pf E c w r K S). Qed.

Lemma states_parts : forall m e v, all_states m e v -> orthonormal (dimension m) (dimension m) v /\ (forall j i, (j < dimension m)%nat -> (i < dimension m)%nat -> actR (dimension m) (element m) (v j) i = e j * v j i) /\
  forall i j, (i <= j)%nat -> (j < dimension m)%nat -> e i <= e j.
Proof. intros m e v (V & O & I). split; [exact O|]. split; [|exact I]. intros j i Hj Hi. destruct (V j Hj) as (_ & G). now apply G. Qed.
Lemma states_exist : forall m, mirrored m -> exists e v, all_states m e v.
Proof.
  intros m M. destruct (spectral (dimension m) (element m) (element_sym m M)) as (e & v & O & V & I). exists e, v. split; [|split; [exact O | exact I]].
  intros k Hk. split; [|intros i Hi; now apply V]. pose proof (O k k Hk Hk) as Q. rewrite Nat.eqb_refl in Q.
  assert (D : forall n, (forall i, (i < n)%nat -> v k i = 0) \/ exists i, (i < n)%nat /\ v k i <> 0).
  { induction n as [|n [IH|(i & Hi & N)]]; [left; intros; lia| |right; exists i; split; [lia | assumption]]. destruct (Req_dec (v k n) 0) as [Z|Z]; [left | right; exists n; split; [lia | assumption]].
    intros i Hi. destruct (Nat.eq_dec i n) as [->|]; [assumption | apply IH; lia]. }
  destruct (D (dimension m)) as [Z|X]; [|exact X]. exfalso. assert (dot (dimension m) (v k) (v k) = 0) by (apply rsum_zero; intros i Hi; rewrite (Z i Hi); ring). lra.
Qed.
Lemma states_found : forall m e v x u, mirrored m -> all_states m e v -> energy_state m x u -> exists k, (k < dimension m)%nat /\ e k = x.
Proof.
  intros m e v x u M A ((i & Hi & Nu) & Eu). destruct (states_parts m e v A) as (O & V & I). exact (all_found (dimension m) (element m) (element_sym m M) e v O V x u i Hi Nu Eu).
Qed.
Lemma states_compare : forall m m' e v e' v' d, mirrored m -> mirrored m' -> dimension m' = dimension m -> all_states m e v -> all_states m' e' v' ->
  (forall u, form (dimension m) (element m') u <= form (dimension m) (element m) u + d * dot (dimension m) u u) -> forall k, (k < dimension m)%nat -> e' k <= e k + d.
Proof.
  intros m m' e v e' v' d M M' D A A' H. destruct (states_parts m e v A) as (O & V & I). destruct (states_parts m' e' v' A') as (O' & V' & I'). pose proof (element_sym m M) as S. pose proof (element_sym m' M') as S'.
  rewrite D in O', V', I', S'. exact (weyl (dimension m) (element m) (element m') e v e' v' d S S' O V I O' V' I' H).
Qed.
Lemma states_unique : forall m e v e' v', mirrored m -> all_states m e v -> all_states m e' v' -> forall k, (k < dimension m)%nat -> e k = e' k.
Proof.
  intros m e v e' v' M A A' k Hk. pose proof (states_compare m m e v e' v' 0 M M eq_refl A A' ltac:(intros; lra) k Hk). pose proof (states_compare m m e' v' e v 0 M M eq_refl A' A ltac:(intros; lra) k Hk). lra.
Qed.

(** the lowest energy *)
Lemma state_size : forall m x u, energy_state m x u -> 0 < dot (dimension m) u u.
Proof.
  intros m x u ((i & Hi & Nu) & _). assert (Q : u i * u i <= dot (dimension m) u u) by (apply (rsum_one (dimension m) (fun i => u i * u i)); [exact Hi | intros; apply Rle_0_sqr]). nra.
Qed.
Lemma state_form : forall m x u, energy_state m x u -> form (dimension m) (element m) u = x * dot (dimension m) u u.
Proof. intros m x u (_ & Eu). unfold form. rewrite <- dot_scale. apply dot_ext; [reflexivity | exact Eu]. Qed.
Lemma bounded_state : forall m b x u, (forall u, b * dot (dimension m) u u <= form (dimension m) (element m) u) -> energy_state m x u -> b <= x.
Proof. intros m b x u H Eu. specialize (H u). rewrite (state_form m x u Eu) in H. pose proof (state_size m x u Eu). apply Rmult_le_reg_r with (dot (dimension m) u u); lra. Qed.
Lemma bounded_above : forall m b x u, (forall u, form (dimension m) (element m) u <= b * dot (dimension m) u u) -> energy_state m x u -> x <= b.
Proof. intros m b x u H Eu. specialize (H u). rewrite (state_form m x u Eu) in H. pose proof (state_size m x u Eu). apply Rmult_le_reg_r with (dot (dimension m) u u); lra. Qed.
Lemma ground_first : forall m e v, mirrored m -> all_states m e v -> (0 < dimension m)%nat -> ground_energy m (e 0%nat).
Proof.
  intros m e v M A Hn. split; [exists (v 0%nat); now apply A|]. intros x u Eu. destruct (states_found m e v x u M A Eu) as (k & Hk & <-). apply A; [lia | exact Hk].
Qed.
Lemma ground_unique : forall m e e', ground_energy m e -> ground_energy m e' -> e = e'.
Proof. intros m e e' ((v & V) & L) ((v' & V') & L'). pose proof (L _ _ V'). pose proof (L' _ _ V). lra. Qed.
Lemma ground_exists : forall m, mirrored m -> (0 < dimension m)%nat -> exists e, ground_energy m e.
Proof. intros m M Hn. destruct (states_exist m M) as (e & v & A). exists (e 0%nat). now apply (ground_first m e v). Qed.
Lemma ground_form : forall m e, mirrored m -> ground_energy m e -> forall u, e * dot (dimension m) u u <= form (dimension m) (element m) u.
Proof.
  intros m e M G u. destruct (states_exist m M) as (es & v & A). destruct (states_parts m es v A) as (O & V & I).
  rewrite (form_levels _ _ (element_sym m M) es v O V u), (parseval _ v u O), <- rsum_scale. apply rsum_le. intros k Hk. apply Rmult_le_compat_r; [apply Rle_0_sqr|].
  destruct G as (_ & L). apply (L _ (v k)). now apply A.
Qed.
Lemma form_ground : forall m e v, (forall u, e * dot (dimension m) u u <= form (dimension m) (element m) u) -> energy_state m e v -> ground_energy m e.
Proof. intros m e v H V. split; [now exists v|]. intros x u Eu. exact (bounded_state m e x u H Eu). Qed.

(** means of rational vectors bound those of real ones *)
Lemma means_le : forall m m' d, mirrored m -> mirrored m' -> csr_dim m = csr_dim m' -> (forall u, zlen u = csr_dim m -> (csr_mean m u <= csr_mean m' u + d * inner u u)%Qc) ->
  forall u, form (dimension m) (element m) u <= form (dimension m) (element m') u + real d * dot (dimension m) u u.
Proof.
  intros m m' d (D & S) (_ & S') DD H u. set (n := dimension m). set (M := fun i j => element m' i j + real d * (if Nat.eqb i j then 1 else 0) - element m i j).
  assert (FM : forall u, form n M u = form n (element m') u + real d * dot n u u - form n (element m) u).
  { intros v. unfold form. transitivity (dot n v (fun i => 1 * (1 * actR n (element m') v i + real d * v i) + (- 1) * actR n (element m) v i)); [|rewrite dot_lin, dot_lin; ring]. apply dot_ext; [reflexivity|]. intros i Hi. unfold actR, M.
    transitivity (rsum n (fun j => element m' i j * v j) + real d * rsum n (fun j => (if Nat.eqb i j then 1 else 0) * v j) + - (1) * rsum n (fun j => element m i j * v j)); [rewrite <- !rsum_scale, <- !rsum_add; apply rsum_ext; intros; ring|].
    rewrite (rsum_single n (fun j => (if Nat.eqb i j then 1 else 0) * v j) i Hi); [rewrite Nat.eqb_refl; ring|]. intros j _ Dj. destruct (Nat.eqb_spec i j); [congruence | ring]. }
  assert (P : 0 <= form n M u); [|rewrite FM in P; lra]. apply dense.
  - intros i j _ _. unfold M, element. rewrite S, S', (Nat.eqb_sym i j). reflexivity.
  - intros l L. rewrite FM. specialize (H l). assert (Z : zlen l = csr_dim m) by (unfold zlen; rewrite L; unfold n, dimension; lia). specialize (H Z). apply real_le in H.
    rewrite real_add, real_mul, (inner_real n) in H by assumption. rewrite !mean_real, L in H. unfold reals in H. lra.
Qed.
Lemma lowest_form : forall m b, mirrored m -> lowest m b -> forall u, real b * dot (dimension m) u u <= form (dimension m) (element m) u.
Proof. intros m b (D & S) L. now apply mean_ge. Qed.
Lemma eigen_real : forall m e v, (0 <= csr_dim m)%Z -> zlen v = csr_dim m -> (eigenvector m e v <-> energy_state m (real e) (reals v)).
Proof.
  intros m e v D Lv. assert (Ln : length v = dimension m) by (unfold dimension, zlen in *; lia).
  assert (T : forall i, (i < length v)%nat -> rsum (dimension m) (fun j => element m i j * reals v j) = real (qsum (fun j => csr_at m (Z.of_nat i) (Z.of_nat j) * nth j v 0)%Qc (seq 0 (length v)))).
  { intros i Hi. rewrite real_sum, Ln. apply rsum_ext. intros j _. unfold element, reals. now rewrite real_mul. }
  split.
  - intros (_ & Ev & x & Ix & Nx). rewrite (eigen_stationary m e v Lv) in Ev. split.
    + destruct (In_nth _ _ 0%Qc Ix) as (k & Hk & <-). exists k. split; [lia|]. intros Q. apply Nx. apply real_inj. unfold reals in Q. now rewrite Q, real_0.
    + intros i Hi. rewrite <- Ln in Hi. rewrite T by assumption. rewrite (Ev i Hi), real_mul. reflexivity.
  - intros ((k & Hk & Nk) & Ev). split; [exact Lv|]. split.
    + apply (eigen_stationary m e v Lv). intros i Hi. apply real_inj. rewrite <- T by assumption. rewrite real_mul. apply Ev. lia.
    + exists (nth k v 0%Qc). split; [apply nth_In; lia|]. intros Q. apply Nk. unfold reals. now rewrite Q, real_0.
Qed.

(** ** C104 *)
Lemma C104_states_pf : forall E c pos r K S arg l m, set_iter_ok E -> filled_drawn E c pos r -> assembled E c K S arg l m ->
  dimension m = length l /\ (exists e v, all_states m e v) /\
  (forall e v x u, all_states m e v -> energy_state m x u -> exists k, (k < dimension m)%nat /\ e k = x) /\
  (forall e v e' v' k, all_states m e v -> all_states m e' v' -> (k < dimension m)%nat -> e k = e' k).
Proof.
  intros E c pos r K S arg l m HE HF HA. destruct (mirrored_drawn E c pos r K S arg l m HE HF HA) as (M & D). split; [exact D|]. split; [now apply states_exist|]. split.
  - intros e v x u. now apply states_found.
  - intros e v e' v' k A A' Hk. exact (states_unique m e v e' v' M A A' k Hk).
Qed.
Lemma C104_rational_pf : forall m e v, (0 <= csr_dim m)%Z -> zlen v = csr_dim m -> (eigenvector m e v <-> energy_state m (real e) (reals v)).
Proof. exact eigen_real. Qed.
Lemma C104_ground_pf : forall E c pos r K S arg l m, set_iter_ok E -> filled_drawn E c pos r -> assembled E c K S arg l m -> (0 < length l)%nat ->
  exists e, ground_energy m e /\ (forall e', ground_energy m e' -> e' = e) /\
    (forall x, lowest m x <-> real x <= e) /\
    (forall u, e * rsum (dimension m) (fun i => u i * u i) <= rsum (dimension m) (fun i => u i * rsum (dimension m) (fun j => element m i j * u j))).
Proof.
  intros E c pos r K S arg l m HE HF HA Hl. destruct (mirrored_drawn E c pos r K S arg l m HE HF HA) as (M & D). rewrite <- D in Hl. destruct (ground_exists m M Hl) as (e & G).
  exists e. split; [exact G|]. split; [intros e' G'; exact (ground_unique m e' e G' G)|]. split; [|exact (ground_form m e M G)].
  intros x. split.
  - intros L. destruct G as ((v & V) & _). apply (bounded_state m (real x) e v); [now apply lowest_form | exact V].
  - intros Hx u Lu. apply real_le_inv. assert (Lu' : length u = dimension m) by (unfold dimension, zlen in *; lia). rewrite real_mul, mean_real, (inner_real (dimension m)), Lu' by assumption.
    pose proof (ground_form m e M G (reals u)) as Q. pose proof (dot_nonneg (dimension m) (reals u)). nra.
Qed.
Lemma C104_sum_pf : forall E c w K S arg l m e v, set_iter_ok E -> filled_whole c w -> assembled E c K S arg l m -> one_exchange c K \/ s_bz S = false -> all_states m e v ->
  let h := (nsites c / w)%Z in
  rsum (dimension m) e = real (csr_trace m) /\
  IZR (nsites c * (nsites c - 1)) * rsum (dimension m) e = IZR (csr_dim m) * real (mean_energy K S (nholes c) (nalpha c) (nbeta c) (grid_bonds w h) (grid_diagonals w h)).
Proof.
  intros E c w K S arg l m e v HE HF HA HJ A h. destruct (mirrored_filled E c w _ K S arg l m HE HF HA) as (M & D). destruct (states_parts m e v A) as (O & V & I).
  assert (T : rsum (dimension m) e = real (csr_trace m)).
  { rewrite <- (trace_levels (dimension m) (element m) (element_sym m M) e v O V). unfold csr_trace, sum_sites, sites. rewrite qsum_map. fold (dimension m). rewrite real_sum. reflexivity. }
  split; [exact T|]. rewrite T. pose proof (C101_trace_pf E c w K S arg l m HE HF HA HJ) as Q. cbv zeta in Q. fold h in Q. apply (f_equal real) in Q. rewrite !real_mul, !real_qz in Q. exact Q.
Qed.
