(** The rounding of [Round] gives the nearest number with [p] bits. *)
From Coq Require Import ZArith List Bool Lia QArith Qpower Qcanon Lqa Permutation.
From Verif Require Import PyBase PyFacts Lattice Base Interact Ham Spin Round SpecTJ SignDefs RangeDefs RoundDefs PQc PPerron PRange FDav.
Open Scope Z_scope.

(** ** integers *)
Lemma nearest_spec : forall a b, 0 < b -> let q := nearest_even a b in
  2 * Z.abs (q * b - a) <= b /\ forall z, Z.abs (q * b - a) <= Z.abs (z * b - a) /\ (Z.abs (z * b - a) = Z.abs (q * b - a) -> z = q \/ Z.even q = true).
Proof.
  intros a b Hb. unfold nearest_even. pose proof (Z.div_mod a b ltac:(lia)) as E. pose proof (Z.mod_pos_bound a b Hb) as R.
  set (q := a / b) in *. set (r := a mod b) in *. clearbody q r. cbv zeta.
  assert (M : forall z, z < q -> z * b - a <= - b - r) by (intros; nia). assert (M' : forall z, q + 1 < z -> 2 * b - r <= z * b - a) by (intros; nia).
  assert (A0 : q * b - a = - r) by nia. assert (A1 : (q + 1) * b - a = b - r) by nia.
  assert (T : forall z, z < q \/ z = q \/ z = q + 1 \/ q + 1 < z) by lia.
  destruct (Z.ltb_spec (2 * r) b); [|destruct (Z.ltb_spec b (2 * r)); [|destruct (Z.even q) eqn:EV]].
  - split; [lia|]. intros z. destruct (T z) as [X|[->|[->|X]]]; [specialize (M z X)| | |specialize (M' z X)]; lia.
  - split; [lia|]. intros z. destruct (T z) as [X|[->|[->|X]]]; [specialize (M z X)| | |specialize (M' z X)]; lia.
  - split; [lia|]. intros z. split; [destruct (T z) as [X|[->|[->|X]]]; [specialize (M z X)| | |specialize (M' z X)]; lia | auto].
  - split; [lia|]. intros z. split; [destruct (T z) as [X|[->|[->|X]]]; [specialize (M z X)| | |specialize (M' z X)]; lia|].
    right. replace (q + 1) with (Z.succ q) by lia. rewrite Z.even_succ, <- Z.negb_even, EV. reflexivity.
Qed.
Lemma scale_ok : forall p m b l l', 1 <= p -> 0 <= l -> 0 <= l' -> 0 < b -> 0 < m ->
  let k := p - 1 - (l - l') in
  (b * 2 ^ l <= m * 2 ^ l' -> 2 ^ (p - 1) * (b * 2 ^ Z.max (- k) 0) <= m * 2 ^ Z.max k 0) /\
  (m * 2 ^ l' < 2 * (b * 2 ^ l) -> m * 2 ^ Z.max k 0 < 2 ^ p * (b * 2 ^ Z.max (- k) 0)).
Proof.
  intros p m b l l' Hp Hl Hl' Hb Hm k. assert (P : forall e, 0 <= e -> 0 < 2 ^ e) by (intros; apply Z.pow_pos_nonneg; lia).
  assert (Q : 2 ^ p = 2 * 2 ^ (p - 1)) by (rewrite <- Z.pow_succ_r by lia; f_equal; lia). rewrite Q.
  destruct (Z.le_gt_cases 0 k) as [Hk|Hk].
  - rewrite (Z.max_l k 0), (Z.max_r (- k) 0) by lia. rewrite Z.pow_0_r, Z.mul_1_r.
    assert (X : 2 ^ k * 2 ^ l = 2 ^ (p - 1) * 2 ^ l') by (rewrite <- !Z.pow_add_r by lia; f_equal; unfold k; lia).
    pose proof (P k Hk). pose proof (P l Hl). pose proof (P l' Hl'). pose proof (P (p - 1) ltac:(lia)).
    split; intros Hx; [apply (Z.mul_le_mono_pos_r _ _ (2 ^ l)); [assumption|] | apply (Z.mul_lt_mono_pos_r (2 ^ l)); [assumption|]]; rewrite <- (Z.mul_assoc m), X; nia.
  - rewrite (Z.max_r k 0), (Z.max_l (- k) 0) by lia. rewrite Z.pow_0_r, Z.mul_1_r.
    assert (X : 2 ^ (p - 1) * 2 ^ (- k) * 2 ^ l' = 2 ^ l) by (rewrite <- !Z.pow_add_r by lia; f_equal; unfold k; lia).
    pose proof (P (- k) ltac:(lia)). pose proof (P l Hl). pose proof (P l' Hl'). pose proof (P (p - 1) ltac:(lia)).
    split; intros Hx; [apply (Z.mul_le_mono_pos_r _ _ (2 ^ l')); [assumption|] | apply (Z.mul_lt_mono_pos_r (2 ^ l')); [assumption|]].
    + replace (2 ^ (p - 1) * (b * 2 ^ (- k)) * 2 ^ l') with (b * (2 ^ (p - 1) * 2 ^ (- k) * 2 ^ l')) by ring. rewrite X. exact Hx.
    + replace (2 * 2 ^ (p - 1) * (b * 2 ^ (- k)) * 2 ^ l') with (2 * (b * (2 ^ (p - 1) * 2 ^ (- k) * 2 ^ l'))) by ring. rewrite X. exact Hx.
Qed.

(** ** powers of 2 *)
Lemma this_div : forall a b, 0 < b -> (this (qz a / qz b)%Qc == inject_Z a / inject_Z b)%Q.
Proof.
  intros a b Hb. unfold Qcdiv. rewrite this_mul, this_qz. unfold Qdiv. apply Qmult_comp; [reflexivity|]. unfold Qcinv. cbn [this Q2Qc]. rewrite Qred_correct. apply Qinv_comp. apply this_qz.
Qed.
Lemma pow_q : forall e, 0 <= e -> (inject_Z (2 ^ e) == Qpower (2 # 1) e)%Q.
Proof. intros e He. rewrite Zpower_Qpower by exact He. reflexivity. Qed.
Lemma two_not : ~ ((2 # 1) == 0)%Q. Proof. discriminate. Qed.
Lemma this_power : forall e, (this (power2 e) == Qpower (2 # 1) e)%Q.
Proof.
  intros e. unfold power2. destruct (Z.leb_spec 0 e).
  - rewrite this_qz. now apply pow_q.
  - change 1%Qc with (qz 1). rewrite this_div by (apply Z.pow_pos_nonneg; lia). rewrite pow_q by lia. rewrite Qpower_opp. change (inject_Z 1) with 1%Q. unfold Qdiv. rewrite Qinv_involutive. ring.
Qed.
Lemma power_add : forall a b, power2 (a + b) = (power2 a * power2 b)%Qc.
Proof. intros a b. apply Qc_eq_this. rewrite this_mul, !this_power. apply Qpower_plus, two_not. Qed.
Lemma power_0 : power2 0 = 1%Qc. Proof. apply Qc_is_canon. reflexivity. Qed.
Lemma power_nat : forall e, 0 <= e -> power2 e = qz (2 ^ e).
Proof. intros e He. unfold power2. destruct (Z.leb_spec 0 e); [reflexivity | lia]. Qed.
Lemma power_inv : forall k, (power2 k * power2 (- k) = 1)%Qc.
Proof. intros k. rewrite <- power_add, Z.add_opp_diag_r. apply power_0. Qed.
Lemma power_pos : forall e, (0 < power2 e)%Qc.
Proof. intros e. rewrite Qclt_this, this_power. apply Qpower_0_lt. reflexivity. Qed.
Lemma qz_mul : forall a b, qz (a * b) = (qz a * qz b)%Qc.
Proof. intros. apply Qc_eq_this. rewrite this_mul, !this_qz, inject_Z_mult. reflexivity. Qed.
Lemma qz_sub : forall a b, qz (a - b) = (qz a - qz b)%Qc.
Proof. intros. apply Qc_eq_this. rewrite this_sub, !this_qz. unfold Qminus. rewrite <- inject_Z_opp, <- inject_Z_plus. reflexivity. Qed.
Lemma qz_le : forall a b, (qz a <= qz b)%Qc <-> a <= b.
Proof. intros a b. rewrite Qcle_this, !this_qz, <- Zle_Qle. reflexivity. Qed.
Lemma qz_lt : forall a b, (qz a < qz b)%Qc <-> a < b.
Proof. intros a b. rewrite Qclt_this, !this_qz, <- Zlt_Qlt. reflexivity. Qed.
Lemma qz_not0 : forall a, 0 < a -> qz a <> 0%Qc.
Proof. intros a Ha E. change 0%Qc with (qz 0) in E. assert (qz a <= qz 0)%Qc by (rewrite E; apply Qcle_refl). apply (proj1 (qz_le _ _)) in H. lia. Qed.
Lemma magnitude_qz : forall a, magnitude (qz a) = qz (Z.abs a).
Proof.
  intros a. apply magnitude_unique; [apply (proj2 (qz_le 0 _)); lia|]. destruct (Z.abs_spec a) as [[_ ->]|[_ ->]]; [now left|]. right. apply Qc_eq_this. rewrite this_opp, !this_qz, <- inject_Z_opp, Z.opp_involutive. reflexivity.
Qed.
Lemma mul_le : forall a b c, (0 < c)%Qc -> (a <= b)%Qc <-> (a * c <= b * c)%Qc.
Proof.
  intros a b c Hc. split; intros H; [now apply Qcmult_le_compat_r; [|apply Qclt_le_weak]|].
  destruct (Qclt_le_dec b a) as [X|X]; [|exact X]. exfalso. apply (Qcmult_lt_compat_r _ _ c Hc) in X. revert H. now apply Qclt_not_le.
Qed.

(** ** the parts of a rounded number *)
Lemma binary_parts : forall p x, 1 <= p -> x <> 0%Qc -> exists s k q, (s = 1 \/ s = -1) /\
  let y := (qz s * x * power2 k)%Qc in
  (qz (2 ^ (p - 1)) <= y)%Qc /\ (y < qz (2 ^ p))%Qc /\ binary p x = (qz s * (qz q * power2 (- k)))%Qc /\ 2 ^ (p - 1) <= q <= 2 ^ p /\
  (qz 2 * magnitude (qz q - y) <= 1)%Qc /\
  forall z, (magnitude (qz q - y) <= magnitude (qz z - y))%Qc /\ (magnitude (qz z - y) = magnitude (qz q - y) -> z = q \/ Z.even q = true).
Proof.
  intros p x Hp Nx. unfold binary. set (a := Qnum (this x)). set (b := Zpos (Qden (this x))).
  assert (Na : a <> 0). { intros E. apply Nx. apply Qc_eq_this. rewrite this_0. unfold Qeq. cbn. fold a. lia. }
  destruct (Z.eqb_spec (Z.abs a) 0) as [X|_]; [lia|]. assert (Hm : 0 < Z.abs a) by lia. set (m := Z.abs a) in *. assert (Hb : 0 < b) by (unfold b; lia).
  pose proof (Z.log2_spec m Hm) as [L1 L2]. pose proof (Z.log2_spec b Hb) as [L3 L4]. pose proof (Z.log2_nonneg m) as L5. pose proof (Z.log2_nonneg b) as L6.
  set (l := Z.log2 m) in *. set (l' := Z.log2 b) in *. rewrite Z.pow_succ_r in L2, L4 by assumption.
  set (e := if b * 2 ^ l <=? m * 2 ^ l' then l - l' else l - l' - 1). set (k := p - 1 - e). set (N := m * 2 ^ Z.max k 0). set (D := b * 2 ^ Z.max (- k) 0). set (q := nearest_even N D).
  assert (P : forall t, 0 <= t -> 0 < 2 ^ t) by (intros; apply Z.pow_pos_nonneg; lia).
  assert (HD : 0 < D) by (unfold D; pose proof (P (Z.max (- k) 0) ltac:(lia)); nia).
  pose proof (P l L5) as P1. pose proof (P l' L6) as P2.
  assert (B1 : 2 ^ (p - 1) * D <= N /\ N < 2 ^ p * D).
  { unfold N, D, k, e. destruct (Z.leb_spec (b * 2 ^ l) (m * 2 ^ l')) as [T|T].
    - destruct (scale_ok p m b l l' Hp L5 L6 Hb Hm) as [S1 S2]. split; [apply S1, T | apply S2]. nia.
    - destruct (scale_ok p m b l (l' + 1) Hp L5 ltac:(lia) Hb Hm) as [S1 S2]. replace (l - (l' + 1)) with (l - l' - 1) in * by lia. rewrite Z.pow_add_r, Z.pow_1_r in S1, S2 by lia. split; [apply S1 | apply S2]; nia. }
  destruct (nearest_spec N D HD) as [Q1 Q2]. fold q in Q1, Q2.
  assert (Hq : 2 ^ (p - 1) <= q <= 2 ^ p) by (destruct B1; split; nia).
  assert (S : Z.sgn a = 1 \/ Z.sgn a = -1) by lia. exists (Z.sgn a), k, q. split; [exact S|]. cbv zeta.
  assert (Hx : x = (qz (Z.sgn a) * (qz m / qz b))%Qc).
  { apply Qc_eq_this. rewrite this_mul, this_div, this_qz by exact Hb.
    assert (T : (this x == inject_Z a / inject_Z b)%Q) by (unfold a, b; rewrite <- Qmake_Qdiv; destruct (this x); reflexivity). rewrite T.
    assert (T2 : (inject_Z a == inject_Z (Z.sgn a) * inject_Z m)%Q) by (rewrite <- inject_Z_mult; unfold m; rewrite <- (Z.abs_sgn a) at 1; rewrite Z.mul_comm; reflexivity). rewrite T2 at 1. unfold Qdiv. now rewrite Qmult_assoc. }
  assert (SS : (qz (Z.sgn a) * qz (Z.sgn a) = 1)%Qc) by (rewrite <- qz_mul; replace (Z.sgn a * Z.sgn a) with 1 by (destruct S as [-> | ->]; reflexivity); reflexivity).
  assert (Pk : power2 k = (qz (2 ^ Z.max k 0) / qz (2 ^ Z.max (- k) 0))%Qc).
  { unfold power2. destruct (Z.leb_spec 0 k); [rewrite (Z.max_l k 0), (Z.max_r (- k) 0) by lia | rewrite (Z.max_r k 0), (Z.max_l (- k) 0) by lia]; rewrite Z.pow_0_r; change (qz 1) with 1%Qc; [field; discriminate | reflexivity]. }
  assert (N1 : qz (2 ^ Z.max k 0) <> 0%Qc) by (apply qz_not0, P; lia). assert (N2 : qz (2 ^ Z.max (- k) 0) <> 0%Qc) by (apply qz_not0, P; lia). assert (N3 : qz b <> 0%Qc) by (now apply qz_not0).
  assert (Hy : (qz (Z.sgn a) * x * power2 k = qz N / qz D)%Qc).
  { rewrite Hx. rewrite !Qcmult_assoc, SS, Pk. unfold N, D. rewrite !qz_mul. field. auto. }
  rewrite Hy. set (y := (qz N / qz D)%Qc). assert (PD : (0 < qz D)%Qc) by (apply (qz_lt 0); exact HD). assert (yD : (y * qz D = qz N)%Qc) by (unfold y; field; now apply qz_not0).
  assert (Dist : forall z, (magnitude (qz z - y) * qz D = qz (Z.abs (z * D - N)))%Qc).
  { intros z. rewrite <- magnitude_qz, qz_sub, qz_mul, <- yD. replace (qz z * qz D - y * qz D)%Qc with ((qz z - y) * qz D)%Qc by ring. rewrite magnitude_product. f_equal. symmetry. rewrite magnitude_qz. f_equal. lia. }
  split; [|split; [|split; [|split; [exact Hq|split]]]].
  - apply (mul_le _ _ _ PD). rewrite yD, <- qz_mul. apply (proj2 (qz_le _ _)), B1.
  - destruct (Qclt_le_dec y (qz (2 ^ p))) as [T|T]; [exact T|]. exfalso. apply (mul_le _ _ _ PD) in T. rewrite yD, <- qz_mul in T. apply (proj1 (qz_le _ _)) in T. lia.
  - transitivity (qz (Z.sgn a) * (qz q * (qz (2 ^ Z.max (- k) 0) / qz (2 ^ Z.max k 0))))%Qc; [rewrite !qz_mul; field; exact N1|]. do 2 f_equal.
    transitivity ((power2 k * power2 (- k)) * (qz (2 ^ Z.max (- k) 0) / qz (2 ^ Z.max k 0)))%Qc; [rewrite power_inv; ring|]. rewrite Pk. field. auto.
  - apply (mul_le _ _ _ PD). rewrite <- Qcmult_assoc, Dist, Qcmult_1_l, <- qz_mul. apply (proj2 (qz_le _ _)). exact Q1.
  - intros z. destruct (Q2 z) as [Z1 Z2]. split.
    + apply (mul_le _ _ _ PD). rewrite !Dist. now apply (proj2 (qz_le _ _)).
    + intros E. apply Z2. assert (X : qz (Z.abs (z * D - N)) = qz (Z.abs (q * D - N))) by (rewrite <- !Dist; now rewrite E). apply Z.le_antisymm; apply (proj1 (qz_le _ _)); rewrite X; apply Qcle_refl.
Qed.

Lemma sign_square : forall s, s = 1 \/ s = -1 -> (qz s * qz s = 1)%Qc.
Proof. intros s [-> | ->]; apply Qc_is_canon; reflexivity. Qed.
Lemma sign_magnitude : forall s x, s = 1 \/ s = -1 -> magnitude (qz s * x) = magnitude x.
Proof. intros s x H. rewrite magnitude_product, magnitude_qz. replace (Z.abs s) with 1 by lia. change (qz 1) with 1%Qc. ring. Qed.
Lemma magnitude_power : forall x k, magnitude (x * power2 k) = (magnitude x * power2 k)%Qc.
Proof. intros x k. rewrite magnitude_product. f_equal. apply magnitude_unique; [apply Qclt_le_weak, power_pos | now left]. Qed.
Lemma magnitude_self : forall x, (0 <= x)%Qc -> magnitude x = x.
Proof. intros x H. apply magnitude_unique; [exact H | now left]. Qed.

(** distances are distances between multiples of the last bit *)
Lemma unscale : forall s k x v, s = 1 \/ s = -1 -> (v - x)%Qc = (qz s * ((qz s * v * power2 k - qz s * x * power2 k) * power2 (- k)))%Qc.
Proof.
  intros s k x v Hs. transitivity ((qz s * qz s) * (power2 k * power2 (- k)) * (v - x))%Qc; [rewrite (sign_square s Hs), power_inv; ring | ring].
Qed.
Lemma distance : forall s k x v, s = 1 \/ s = -1 -> magnitude (v - x) = (magnitude (qz s * v * power2 k - qz s * x * power2 k) * power2 (- k))%Qc.
Proof. intros s k x v Hs. rewrite (unscale s k x v Hs), sign_magnitude, magnitude_power by exact Hs. reflexivity. Qed.

Lemma binary_0 : forall p, binary p 0%Qc = 0%Qc. Proof. reflexivity. Qed.
Lemma two_p : forall p, 1 <= p -> 2 ^ p = 2 * 2 ^ (p - 1).
Proof. intros p Hp. rewrite <- Z.pow_succ_r by lia. f_equal. lia. Qed.

Lemma binary_error : forall p x, 1 <= p -> (magnitude (binary p x - x) <= 1 / qz (2 ^ p) * magnitude x)%Qc.
Proof.
  intros p x Hp. destruct (Qc_eq_dec x 0) as [->|Nx].
  { rewrite binary_0. change (magnitude (0 - 0)) with 0%Qc. change (magnitude 0) with 0%Qc. rewrite Qcmult_0_r. apply Qcle_refl. }
  destruct (binary_parts p x Hp Nx) as (s & k & q & Hs & B1 & _ & Eq & _ & Hd & _).
  pose proof (power_pos (- k)) as P. assert (PP : 0 < 2 ^ (p - 1)) by (apply Z.pow_pos_nonneg; lia).
  rewrite (distance s k x _ Hs), Eq. replace (qz s * (qz s * (qz q * power2 (- k))) * power2 k)%Qc with (qz s * qz s * (power2 k * power2 (- k)) * qz q)%Qc by ring. rewrite (sign_square s Hs), power_inv, !Qcmult_1_l.
  set (y := (qz s * x * power2 k)%Qc) in *. assert (X : magnitude x = (y * power2 (- k))%Qc).
  { replace x with (qz s * (y * power2 (- k)))%Qc by (unfold y; transitivity ((qz s * qz s) * (power2 k * power2 (- k)) * x)%Qc; [ring | rewrite (sign_square s Hs), power_inv; ring]). rewrite sign_magnitude, magnitude_power by exact Hs. f_equal.
    apply magnitude_self. eapply Qcle_trans; [|exact B1]. apply (proj2 (qz_le 0 _)). lia. }
  rewrite X. replace (1 / qz (2 ^ p) * (y * power2 (- k)))%Qc with (1 / qz (2 ^ p) * y * power2 (- k))%Qc by ring. apply (proj1 (mul_le _ _ _ P)).
  assert (P2 : (0 < qz (2 ^ p))%Qc) by (apply (proj2 (qz_lt 0 _)); rewrite two_p by exact Hp; lia). apply (proj2 (mul_le _ _ _ P2)).
  replace (1 / qz (2 ^ p) * y * qz (2 ^ p))%Qc with y by (field; apply qz_not0; rewrite two_p by exact Hp; lia). eapply Qcle_trans; [|exact B1].
  rewrite two_p, qz_mul by exact Hp. replace (magnitude (qz q - y) * (qz 2 * qz (2 ^ (p - 1))))%Qc with ((qz 2 * magnitude (qz q - y)) * qz (2 ^ (p - 1)))%Qc by ring.
  eapply Qcle_trans; [apply Qcmult_le_compat_r; [exact Hd | apply (proj2 (qz_le 0 _)); lia]|]. rewrite Qcmult_1_l. apply Qcle_refl.
Qed.
Lemma C111_binary_pf : forall p o, 1 <= p -> (forall l, Permutation l (o l)) -> rounds (1 / qz (2 ^ p))%Qc (mkFloats (binary p) o).
Proof.
  intros p o Hp Ho. split; [|split; [intros x; now apply binary_error | exact Ho]]. rewrite <- power_0. apply Qclt_le_weak. rewrite power_0.
  replace (1 / qz (2 ^ p))%Qc with (power2 (- p)); [apply power_pos|]. unfold power2. destruct (Z.leb_spec 0 (- p)); [lia|]. now rewrite Z.opp_involutive.
Qed.

(** ** nearest *)
Lemma C111_nearest_pf : forall p x, 2 <= p -> nearest_to p x (binary p x).
Proof.
  intros p x Hp. destruct (Qc_eq_dec x 0) as [->|Nx].
  { rewrite binary_0. split.
    - exists 0, 0. split; [cbn; apply Z.pow_pos_nonneg; lia | apply Qc_is_canon; reflexivity].
    - intros y' _. replace (magnitude (0 - 0)) with 0%Qc by (apply Qc_is_canon; reflexivity). split; [apply magnitude_nonneg|]. intros E. left.
      replace (y' - 0)%Qc with y' in E by ring. destruct (magnitude_cases y') as [[_ Q]|[_ Q]]; rewrite E in Q; [now symmetry|]. replace y' with (- - y')%Qc by ring. rewrite <- Q. ring. }
  destruct (binary_parts p x ltac:(lia) Nx) as (s & k & q & Hs & B1 & B2 & Eq & Hq & Hd & Hn).
  assert (PP : 0 < 2 ^ (p - 1)) by (apply Z.pow_pos_nonneg; lia). pose proof (two_p p ltac:(lia)) as TP. set (y := (qz s * x * power2 k)%Qc) in *. cbv zeta in *. pose proof (power_pos (- k)) as P.
  assert (Sq : (qz s * binary p x * power2 k)%Qc = qz q).
  { rewrite Eq. replace (qz s * (qz s * (qz q * power2 (- k))) * power2 k)%Qc with (qz s * qz s * (power2 k * power2 (- k)) * qz q)%Qc by ring. rewrite (sign_square s Hs), power_inv. ring. }
  assert (Norm : exists z e, Z.abs z < 2 ^ p /\ 2 ^ (p - 1) <= Z.abs z /\ binary p x = (qz z * power2 e)%Qc /\ (Z.even q = true -> Z.even z = true)).
  { destruct (Z.eq_dec q (2 ^ p)) as [Q|Q].
    - exists (s * 2 ^ (p - 1)), (- k + 1). split; [destruct Hs as [-> | ->]; lia|]. split; [destruct Hs as [-> | ->]; lia|]. split.
      + rewrite Eq, Q, power_add, TP, !qz_mul. change (power2 1) with (qz 2). ring.
      + intros _. rewrite Z.even_mul, Z.even_pow by lia. now rewrite orb_true_r.
    - exists (s * q), (- k). split; [destruct Hs as [-> | ->]; lia|]. split; [destruct Hs as [-> | ->]; lia|]. split; [rewrite Eq, qz_mul; ring|]. intros E. now rewrite Z.even_mul, E, orb_true_r. }
  destruct Norm as (z0 & e0 & Z1 & Z2 & Z3 & Z4). split; [exists z0, e0; auto|].
  assert (Ev : Z.even q = true -> even_bits p (binary p x)) by (intros E; exists z0, e0; auto).
  intros y' (z & e & Hz & Ey). rewrite !(distance s k x _ Hs). fold y. rewrite Sq.
  set (v := (qz s * y' * power2 k)%Qc).
  assert (Cancel : forall a b, (a * power2 (- k) = b * power2 (- k))%Qc -> a = b).
  { intros a b H. replace a with (a * power2 (- k) * power2 k)%Qc by (rewrite <- Qcmult_assoc, (Qcmult_comm _ (power2 k)), power_inv; ring). rewrite H, <- Qcmult_assoc, (Qcmult_comm _ (power2 k)), power_inv. ring. }
  assert (Goal : (magnitude (qz q - y) <= magnitude (v - y))%Qc /\ (magnitude (v - y) = magnitude (qz q - y) -> v = qz q \/ Z.even q = true)).
  { destruct (Z.le_gt_cases 0 (e + k)) as [He|He].
    - assert (V : v = qz (s * z * 2 ^ (e + k))) by (unfold v; rewrite Ey, !qz_mul, <- power_nat, power_add by exact He; ring). rewrite V. destruct (Hn (s * z * 2 ^ (e + k))) as [H1 H2]. split; [exact H1|]. intros E. destruct (H2 E) as [->|]; auto.
    - assert (V : v = (qz (s * z) * power2 (e + k))%Qc) by (unfold v; rewrite Ey, !qz_mul, power_add; ring).
      assert (Lt : (v < qz (2 ^ (p - 1)))%Qc).
      { destruct (Qclt_le_dec v (qz (2 ^ (p - 1)))) as [T|T]; [exact T|]. exfalso. rewrite V in T. apply (proj1 (mul_le _ _ _ (power_pos (- (e + k))))) in T. rewrite <- Qcmult_assoc, power_inv, Qcmult_1_r in T.
        rewrite power_nat, <- qz_mul in T by lia. apply (proj1 (qz_le _ _)) in T.
        assert (2 <= 2 ^ (- (e + k))) by (change 2 with (2 ^ 1) at 1; apply Z.pow_le_mono_r; lia).
        assert (s * z < 2 ^ p) by (destruct Hs as [-> | ->]; lia). nia. }
      destruct (Hn (2 ^ (p - 1))) as [H1 _]. assert (X : (magnitude (qz (2 ^ (p - 1)) - y) < magnitude (v - y))%Qc).
      { rewrite <- (magnitude_opp (qz _ - y)), <- (magnitude_opp (v - y)). rewrite !magnitude_self; qc. }
      split; [apply Qclt_le_weak; eapply Qcle_lt_trans; eassumption|]. intros E. exfalso. rewrite E in X. eapply Qclt_not_le; eassumption. }
  destruct Goal as [G1 G2]. split; [now apply (proj1 (mul_le _ _ _ P))|]. intros E. apply Cancel in E. destruct (G2 E) as [V|V]; [left | right; auto].
  assert (T : forall a b, (qz s * a * power2 k = qz s * b * power2 k)%Qc -> a = b).
  { intros a b H. transitivity (qz s * (qz s * a * power2 k) * power2 (- k))%Qc; [transitivity (qz s * qz s * (power2 k * power2 (- k)) * a)%Qc; [rewrite (sign_square s Hs), power_inv; ring | ring]|]. rewrite H.
    transitivity (qz s * qz s * (power2 k * power2 (- k)) * b)%Qc; [ring | rewrite (sign_square s Hs), power_inv; ring]. }
  apply T. rewrite Sq. exact V.
Qed.
