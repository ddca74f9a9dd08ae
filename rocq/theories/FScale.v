(** Final lemmas for C119: the rounded Hamiltonian in other units of energy. *)
From Coq Require Import ZArith List Bool Lia Permutation QArith Qcanon Lqa.
From Verif Require Import PyBase PyFacts Runtimes Lattice Base Interact Ham Round Spec SpecOps SpecTJ SpinDefs Geometry HamSpec SignDefs EnergyDefs RangeDefs RoundDefs MotionDefs GridDefs OneDefs ScaleDefs Examples.
From Verif Require Import PSpin PQc PBasis PSites PRot PRep PMat PGeo PInter PHam POps PRange PWave FGeo FSites FInter FHam FMotion PEnergy FEnergy PRound PRound2 PBinary FRound FRound2 PRoundSym FRoundSym PRoundMove PRoundDiag FRoundMove PPerron FDav PGrid FGrid.
Import ListNotations.
Open Scope Z_scope.

(** ** the nearest number of [p] bits is unique *)
Lemma even_has : forall p y, even_bits p y -> has_bits p y.
Proof. intros p y (z & e & _ & B & ->). exists z, e. split; [apply B | reflexivity]. Qed.
Lemma even_room : forall p z, 2 <= p -> Z.even z = true -> Z.abs z < 2 ^ p -> Z.abs (z + 1) < 2 ^ p /\ Z.abs (z - 1) < 2 ^ p.
Proof.
  intros p z Hp Hz B. apply Z.even_spec in Hz. destruct Hz as (k & ->). replace (2 ^ p) with (2 * 2 ^ (p - 1)) in * by (rewrite <- Z.pow_succ_r by lia; f_equal; lia). lia.
Qed.
Lemma even_gap : forall z z' k e (P : Qc) y y', (0 < P)%Qc -> 0 <= e -> Z.even z = true -> Z.even z' = true -> k = z' * 2 ^ e - z \/ k = z' - z * 2 ^ e -> (y < y')%Qc -> (y' - y)%Qc = (qz k * P)%Qc -> (qz 2 * P <= y' - y)%Qc.
Proof.
  intros z z' k e P y y' HP He Ez Ez' Hk L D. rewrite D. apply (proj1 (PBinary.mul_le _ _ _ HP)). apply (proj2 (PBinary.qz_le _ _)).
  assert (Pk : 0 < k).
  { destruct (Z_lt_le_dec 0 k) as [G|G]; [exact G|]. exfalso. apply (proj2 (PBinary.qz_le _ _)) in G. apply (proj1 (PBinary.mul_le _ _ _ HP)) in G. rewrite <- D in G. change (qz 0) with 0%Qc in G. rewrite Qcmult_0_l in G. clear - L G. qc. }
  apply Z.even_spec in Ez, Ez'. destruct Ez as (a & ->). destruct Ez' as (b & ->). destruct Hk as [-> | ->].
  - replace (2 * b * 2 ^ e - 2 * a) with (2 * (b * 2 ^ e - a)) in * by ring. lia.
  - replace (2 * b - 2 * a * 2 ^ e) with (2 * (b - a * 2 ^ e)) in * by ring. lia.
Qed.
Lemma no_tie : forall p x y y', 2 <= p -> even_bits p y -> even_bits p y' -> (y < y')%Qc -> (x - y = y' - x)%Qc -> (forall v, has_bits p v -> (SignDefs.magnitude (y - x) <= SignDefs.magnitude (v - x))%Qc) -> False.
Proof.
  intros p x y y' Hp (z & e & Ez & Bz & Ey) (z' & e' & Ez' & Bz' & Ey') L M H.
  assert (Ma : (x - y <= y' - x)%Qc) by (rewrite M; apply Qcle_refl). assert (Mb : (y' - x <= x - y)%Qc) by (rewrite M; apply Qcle_refl).
  assert (My : SignDefs.magnitude (y - x) = (x - y)%Qc) by (apply magnitude_unique; [clear - L Ma Mb; qc | right; ring]).
  assert (G : forall v, has_bits p v -> (y < v)%Qc -> (v < y')%Qc -> False).
  { intros v Hv L1 L2. specialize (H v Hv). rewrite My in H. destruct (PPerron.magnitude_cases (v - x)) as [[_ C]|[_ C]]; rewrite C in H; clear - H L1 L2 Ma Mb; qc. }
  pose proof (power_pos e) as P1. pose proof (power_pos e') as P2.
  assert (S1 : (y' <= y + power2 e)%Qc).
  { destruct (Qclt_le_dec (y + power2 e)%Qc y') as [B|B]; [|exact B]. exfalso. apply (G (y + power2 e)%Qc); [|clear - P1; qc | exact B].
    exists (z + 1), e. split; [apply even_room; [assumption | assumption | apply Bz]|]. rewrite Ey, qz_add. change (qz 1) with 1%Qc. ring. }
  assert (S2 : (y' - power2 e' <= y)%Qc).
  { destruct (Qclt_le_dec y (y' - power2 e')%Qc) as [B|B]; [|exact B]. exfalso. apply (G (y' - power2 e')%Qc); [|exact B | clear - P2; qc].
    exists (z' - 1), e'. split; [apply even_room; [assumption | assumption | apply Bz']|]. rewrite Ey'. unfold Z.sub. rewrite qz_add, qz_neg. change (qz 1) with 1%Qc. ring. }
  destruct (Z_le_dec e e') as [O|O].
  - assert (W : (qz 2 * power2 e <= y' - y)%Qc).
    { apply (even_gap z z' (z' * 2 ^ (e' - e) - z) (e' - e)); try assumption; [lia | now left|]. rewrite Ey, Ey'. replace e' with ((e' - e) + e) at 1 by lia. rewrite power_add, (power_nat (e' - e)) by lia. unfold Z.sub at 2. rewrite qz_add, PBinary.qz_mul, qz_neg. ring. }
    clear - W S1 P1. rewrite Qcle_this, ?Qclt_this in *. rewrite ?this_mul, ?this_sub, ?this_add, ?this_qz in *. change (inject_Z 2) with (2#1)%Q in W. rewrite this_0 in P1. lra.
  - assert (W : (qz 2 * power2 e' <= y' - y)%Qc).
    { apply (even_gap z z' (z' - z * 2 ^ (e - e')) (e - e')); try assumption; [lia | now right|]. rewrite Ey, Ey'. replace e with ((e - e') + e') at 1 by lia. rewrite power_add, (power_nat (e - e')) by lia. unfold Z.sub at 2. rewrite qz_add, qz_neg, PBinary.qz_mul. ring. }
    clear - W S2 P2. rewrite Qcle_this, ?Qclt_this in *. rewrite ?this_mul, ?this_sub, ?this_add, ?this_qz in *. change (inject_Z 2) with (2#1)%Q in W. rewrite this_0 in P2. lra.
Qed.
Lemma C119_nearest_pf : forall p x y y', 2 <= p -> nearest_to p x y -> nearest_to p x y' -> y = y'.
Proof.
  intros p x y y' Hp [B N] [B' N']. destruct (N _ B') as [M1 T1]. destruct (N' _ B) as [M2 T2]. assert (M : SignDefs.magnitude (y - x) = SignDefs.magnitude (y' - x)) by (apply Qcle_antisym; assumption).
  destruct (T1 (eq_sym M)) as [Q|Ev]; [now symmetry|]. destruct (T2 M) as [Q|Ev']; [exact Q|].
  destruct (Qc_eq_dec y y') as [Q|Q]; [exact Q|]. exfalso.
  assert (O : (x - y = y' - x)%Qc).
  { assert (C : (y - x = y' - x)%Qc \/ (y - x = - (y' - x))%Qc).
    { destruct (PPerron.magnitude_cases (y - x)) as [[_ C1]|[_ C1]], (PPerron.magnitude_cases (y' - x)) as [[_ C2]|[_ C2]]; rewrite C1, C2 in M.
      - now left.
      - now right.
      - right. rewrite <- M. ring.
      - left. rewrite <- (Qcopp_involutive (y - x)), M. ring. }
    destruct C as [C|C]; [exfalso; apply Q; replace y with ((y - x) + x)%Qc by ring; rewrite C; ring|]. replace (x - y)%Qc with (- (y - x))%Qc by ring. rewrite C. ring. }
  destruct (Qclt_le_dec y y') as [L|L].
  - apply (no_tie p x y y' Hp Ev Ev' L O). intros v Hv. apply N, Hv.
  - assert (L' : (y' < y)%Qc) by (apply Qcle_lt_or_eq in L; destruct L as [L|L]; [exact L | congruence]).
    apply (no_tie p x y' y Hp Ev' Ev L'); [|intros v Hv; apply N', Hv]. replace (x - y')%Qc with (- (y' - x))%Qc by ring. rewrite <- O. ring.
Qed.

(** ** powers of two *)
Definition sign_power (s : Qc) : Prop := exists e, s = power2 e \/ s = (- power2 e)%Qc.
Lemma bits_scale : forall p s y, sign_power s -> (has_bits p y -> has_bits p (s * y)%Qc) /\ (even_bits p y -> even_bits p (s * y)%Qc).
Proof.
  intros p s y (e & [-> | ->]); split.
  - intros (z & k & B & ->). exists z, (e + k). split; [exact B|]. rewrite power_add. ring.
  - intros (z & k & B1 & B2 & ->). exists z, (e + k). split; [exact B1|]. split; [exact B2|]. rewrite power_add. ring.
  - intros (z & k & B & ->). exists (- z), (e + k). split; [now rewrite Z.abs_opp|]. rewrite power_add, qz_neg. ring.
  - intros (z & k & B1 & B2 & ->). exists (- z), (e + k). split; [now rewrite Z.even_opp|]. split; [now rewrite Z.abs_opp|]. rewrite power_add, qz_neg. ring.
Qed.
Lemma sign_inverse : forall s, sign_power s -> exists r, sign_power r /\ (r * s = 1)%Qc.
Proof.
  intros s (e & [-> | ->]); [exists (power2 (- e)) | exists (- power2 (- e))%Qc]; (split; [exists (- e); tauto|]).
  - rewrite Qcmult_comm. apply power_inv.
  - rewrite <- (power_inv e). ring.
Qed.
Lemma sign_magnitude : forall s, sign_power s -> exists M, (0 < M)%Qc /\ forall x, SignDefs.magnitude (s * x) = (SignDefs.magnitude x * M)%Qc.
Proof.
  intros s (e & [-> | ->]); exists (power2 e); (split; [apply power_pos|]); intros x.
  - now rewrite Qcmult_comm, magnitude_power.
  - replace (- power2 e * x)%Qc with (- (x * power2 e))%Qc by ring. now rewrite magnitude_opp, magnitude_power.
Qed.
Lemma nearest_scale : forall p s x y, sign_power s -> nearest_to p x y -> nearest_to p (s * x)%Qc (s * y)%Qc.
Proof.
  intros p s x y Hs [B N]. destruct (sign_inverse s Hs) as (r & Hr & I). destruct (sign_magnitude s Hs) as (M & PM & HM). split; [now apply bits_scale|]. intros y' B'.
  destruct (N (r * y')%Qc) as [N1 N2]; [now apply bits_scale|].
  assert (Y : y' = (s * (r * y'))%Qc) by (replace (s * (r * y'))%Qc with (r * s * y')%Qc by ring; rewrite I; ring). set (v := (r * y')%Qc) in *. rewrite Y.
  replace (s * y - s * x)%Qc with (s * (y - x))%Qc by ring. replace (s * v - s * x)%Qc with (s * (v - x))%Qc by ring. rewrite !HM. split; [now apply (proj1 (PBinary.mul_le _ _ _ PM))|]. intros Q.
  destruct N2 as [-> | Ev]; [|now left | right; now apply bits_scale]. apply Qcle_antisym; apply (proj2 (PBinary.mul_le _ _ _ PM)); rewrite Q; apply Qcle_refl.
Qed.
Lemma C119_binary_pf : forall p o e, 2 <= p -> rescales (power2 e) (mkFloats (binary p) o) /\ rescales (- power2 e)%Qc (mkFloats (binary p) o).
Proof.
  intros p o e Hp. split; intros x; cbn [fl]; apply (C119_nearest_pf p _ _ _ Hp (C111_nearest_pf p _ Hp)); apply nearest_scale; try (now apply C111_nearest_pf); exists e; tauto.
Qed.

(** ** the Hamiltonian *)
Section Scale.
Variables (F : floats) (s : Qc) (K : interactions).
Hypothesis HS : rescales s F.
Lemma class_scaled : forall k, class_coupling (scaled s K) k = (s * class_coupling K k)%Qc.
Proof. now intros []. Qed.
Lemma static_scaled : forall E c d x, compute_static_spin_interaction_fl F E c K d = Ok x -> compute_static_spin_interaction_fl F E c (scaled s K) d = Ok (s * x)%Qc.
Proof.
  intros E c d x. unfold compute_static_spin_interaction_fl. destruct (build_bond_list E (bond_matrix c) (sites_restriction c)) as [bl|]; [|discriminate]. cbn [bind].
  match goal with |- foldM ?f _ _ = _ -> foldM ?k _ _ = _ => set (ex := f); set (ro := k) end.
  assert (G : forall a, foldM ex a bl = Ok x -> foldM ro (s * a)%Qc bl = Ok (s * x)%Qc).
  2: { intros Q. apply G in Q. change (qz 0) with 0%Qc in *. now rewrite Qcmult_0_r in Q. }
  induction bl as [|[b0 b1] bl IH]; intros a Q.
  - cbn [foldM] in *. now injection Q as <-.
  - cbn [foldM] in *. unfold ex at 1 in Q. unfold ro at 1. cbv beta iota in *.
    destruct (get_spin_site c d b0) as [s0|]; [|discriminate]. cbn [bind] in *. destruct (get_spin_site c d b1) as [s1|]; [|discriminate]. cbn [bind] in *.
    destruct (s0 * s1 =? 0); cbn [negb] in *; [cbn [bind] in *; now apply IH|].
    destruct (static_class E c d (Z.min b0 b1) (Z.max b0 b1)) as [kk|]; [|discriminate]. cbn [bind] in *. rewrite class_scaled. rewrite <- Qcmult_assoc, HS, <- Qcmult_plus_distr_r, HS. now apply IH.
Qed.
Lemma repulsion_scaled : forall E c d x, compute_hole_repulsion_fl F E c K d = Ok x -> compute_hole_repulsion_fl F E c (scaled s K) d = Ok (s * x)%Qc.
Proof.
  intros E c d x. unfold compute_hole_repulsion_fl. destruct (1 <? nholes c).
  - destruct (get_indexes_of E c d 0 0) as [hs|]; [|discriminate]. cbn [bind]. destruct (foldM _ ([], []) _) as [[p q]|]; [|discriminate]. cbn [bind]. intros [= <-]. cbn [scaled i_VNN i_VNNNper].
    rewrite !(Qcmult_assoc (qz _) s), !(Qcmult_comm (qz _) s), <- !(Qcmult_assoc s), !HS, <- Qcmult_plus_distr_r, HS. reflexivity.
  - intros [= <-]. change (qz 0) with 0%Qc. now rewrite Qcmult_0_r.
Qed.
Lemma add_scaled : forall l a, fold_left (fun a y => fl F (a + y)%Qc) (map (Qcmult s) l) (s * a)%Qc = (s * fold_left (fun a y => fl F (a + y)%Qc) l a)%Qc.
Proof. induction l as [|x l IH]; intros a; cbn [map fold_left]; [reflexivity|]. now rewrite <- Qcmult_plus_distr_r, HS, IH. Qed.
Lemma add_all_scaled : forall l, add_all F (map (Qcmult s) l) = (s * add_all F l)%Qc.
Proof. intros [|x l]; cbn [map add_all]; [change (qz 0) with 0%Qc; ring | apply add_scaled]. Qed.
Lemma decode_scaled : forall E c x, decode (rounded_values F E c (scaled s K)) x = (s * decode (rounded_values F E c K) x)%Qc.
Proof.
  assert (D : forall x, fl F (s * x / qz 2)%Qc = (s * fl F (x / qz 2))%Qc) by (intros x; unfold Qcdiv; rewrite <- Qcmult_assoc; apply HS).
  intros E c x. unfold decode. cbn [v_t v_par v_per v_J v_sp v_sm v_op v_om v_tn v_tN rounded_values scaled i_t i_J i_Jhpar i_Jhper i_hSDpar i_hSDper i_tNNN i_tnNNN].
  repeat match goal with |- context [if ?t then _ else _] => destruct t end; try reflexivity; try apply D; ring.
Qed.
End Scale.
Lemma C119_scaled_pf : forall F s E c w r K S arg arg' l l' m m' i j, (forall q, Permutation q (add_order F q)) -> by_place F -> rescales s F -> set_iter_ok E -> filled c w r ->
  assembled_fl F E c K S arg l m -> assembled_fl F E c (scaled s K) S arg' l' m' -> csr_at m' i j = (s * csr_at m i j)%Qc.
Proof.
  intros F s E c w r K S arg arg' l l' m m' i j HO HP HS HE HC HA HA'.
  destruct (fl_entries _ _ _ _ _ _ _ _ _ _ HO HE HC HA) as (es & B & El & D & R & H). destruct (fl_entries _ _ _ _ _ _ _ _ _ _ HO HE HC HA') as (es' & B' & El' & D' & R' & H').
  rewrite B in B'. injection B' as <-.
  destruct (Z_le_dec 0 i), (Z_lt_dec i (zlen (dl c))), (Z_le_dec 0 j), (Z_lt_dec j (zlen (dl c)));
    try (rewrite (csr_zero c m D R), (csr_zero c m' D' R') by tauto; ring).
  destruct (Z.eq_dec i j) as [<-|N].
  - destruct (pick _ (dl c) i) as (d & Hd); [lia|]. rewrite <- (Z2Nat.id i) by assumption.
    destruct (fl_diagonal _ _ _ _ _ _ _ _ _ _ _ _ HO HE HC HA ltac:(rewrite El; exact Hd)) as (a & b & A & Bb & ->). destruct (fl_diagonal _ _ _ _ _ _ _ _ _ _ _ _ HO HE HC HA' ltac:(rewrite El'; exact Hd)) as (a' & b' & A' & Bb' & ->).
    rewrite <- (add_all_scaled F s HS), <- HP, map_app. do 2 f_equal. f_equal.
    + destruct (s_bz S); [|now subst]. destruct A as (x & A1 & ->). destruct A' as (x' & A1' & ->). rewrite (static_scaled F s K HS _ _ _ _ A1) in A1'. now injection A1' as <-.
    + destruct (s_bV S); [|now subst]. destruct Bb as (x & A1 & ->). destruct Bb' as (x' & A1' & ->). rewrite (repulsion_scaled F s K HS _ _ _ _ A1) in A1'. now injection A1' as <-.
  - rewrite H, H' by lia. rewrite <- (add_all_scaled F s HS), <- HP, map_map. do 2 f_equal. apply map_ext. intros x. now apply decode_scaled.
Qed.
Lemma C119_units_pf : forall p e o E c w r K S arg arg' l l' m m' i j, 2 <= p -> (forall q, Permutation q (o q)) -> (forall (f : Qc -> Qc) q, o (map f q) = map f (o q)) -> set_iter_ok E -> filled c w r ->
  assembled_fl (mkFloats (binary p) o) E c K S arg l m -> assembled_fl (mkFloats (binary p) o) E c (scaled (power2 e) K) S arg' l' m' -> csr_at m' i j = (power2 e * csr_at m i j)%Qc.
Proof. intros p e o E c w r K S arg arg' l l' m m' i j Hp HO HP HE HC HA HA'. apply (C119_scaled_pf (mkFloats (binary p) o) _ E c w r K S arg arg' l l' m m'); try assumption. apply (C119_binary_pf p o e Hp). Qed.
Lemma C119_signs_pf : forall p o E c w r K S arg arg' l l' m m' i j, 2 <= p -> (forall q, Permutation q (o q)) -> (forall (f : Qc -> Qc) q, o (map f q) = map f (o q)) -> set_iter_ok E -> filled c w r ->
  assembled_fl (mkFloats (binary p) o) E c K S arg l m -> assembled_fl (mkFloats (binary p) o) E c (scaled (- (1)) K) S arg' l' m' -> csr_at m' i j = (- csr_at m i j)%Qc.
Proof.
  intros p o E c w r K S arg arg' l l' m m' i j Hp HO HP HE HC HA HA'. rewrite (C119_scaled_pf (mkFloats (binary p) o) (- (1))%Qc E c w r K S arg arg' l l' m m'); try assumption; [ring|].
  pose proof (proj2 (C119_binary_pf p o 0 Hp)) as X. now rewrite power_0 in X.
Qed.
(** ** other factors *)
Definition long : Qc := qz (2 ^ 51 - 1).
Definition long_couplings : interactions := mkInter 0 long long long 0 0 0 0 0 0.
Definition long_ham (K : interactions) : csr := match build_hamiltonian_fl binary64 cpython chain K (mkBasis chain chain_basis) chain_switches (RList []) with Ok m => m | Err _ => mkCsr 0 [] end.
Lemma C119_triple_refuted_pf : exists E c w K S l m m' i, set_iter_ok E /\ filled_whole c w /\ single_exchange K /\ has_bits 53 (i_J K) /\ has_bits 53 (qz 3 * i_J K)%Qc /\
  assembled_fl binary64 E c K S (RList []) l m /\ assembled_fl binary64 E c (scaled (qz 3) K) S (RList []) l m' /\ csr_at m' i i <> (qz 3 * csr_at m i i)%Qc.
Proof.
  exists cpython, chain, 5, long_couplings, chain_switches, chain_basis, (long_ham long_couplings), (long_ham (scaled (qz 3) long_couplings)), 4. split; [exact cpython_ok|]. split; [exact chain_filled|]. split; [split; reflexivity|].
  split; [exists (2 ^ 51 - 1), 0; split; [reflexivity | apply Qc_is_canon; reflexivity]|]. split; [exists (3 * (2 ^ 51 - 1)), 0; split; [reflexivity | apply Qc_is_canon; reflexivity]|].
  split; [split; [vm_compute; reflexivity|]; unfold long_ham; destruct (build_hamiltonian_fl _ _ _ _ _ _ _) eqn:Q; [reflexivity | vm_compute in Q; discriminate]|].
  split; [split; [vm_compute; reflexivity|]; unfold long_ham; destruct (build_hamiltonian_fl _ _ _ _ _ _ _) eqn:Q; [reflexivity | vm_compute in Q; discriminate]|].
  intros H. apply (f_equal this) in H. vm_compute in H. discriminate.
Qed.
