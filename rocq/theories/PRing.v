(** The matrices of the lattice with a ring and of two juxtaposed blocks. *)
From Coq Require Import ZArith List Bool Lia.
From Verif Require Import PyBase PyFacts Lattice Spec PMat.
Import ListNotations.
Open Scope Z_scope.

Definition hits (r c : Z -> Z) (K i j : Z) : bool := existsb (fun q => (i =? r q) && (j =? c q)) (zrange 0 K).

Lemma hits_iff : forall r c K i j, hits r c K i j = true <-> exists q, 0 <= q < K /\ i = r q /\ j = c q.
Proof.
  intros. unfold hits. rewrite existsb_exists. split.
  - intros (q & Hq & E). apply in_zrange in Hq. apply andb_true_iff in E. destruct E as [A B].
    apply Z.eqb_eq in A, B. eauto.
  - intros (q & Hq & -> & ->). exists q. rewrite in_zrange, !Z.eqb_refl. auto.
Qed.

Lemma b2z_iff : forall a b, (a = true <-> b = true) -> b2z a = b2z b.
Proof. intros [] [] H; simpl; try reflexivity; exfalso; intuition congruence. Qed.

Lemma loop_is : forall (r c : Z -> Z) K R C m,
  0 <= K -> is_mat m R C (fun _ _ => 0) -> (forall q, 0 <= q < K -> 0 <= r q < R /\ 0 <= c q < C) ->
  exists m', foldM (fun m q => mset m (r q) (c q) 1) m (zrange 0 K) = Ok m' /\
    is_mat m' R C (fun i j => b2z (hits r c K i j)).
Proof.
  intros r c K R C m HK Im HB.
  apply (foldM_range mat (fun k m => is_mat m R C (fun i j => b2z (hits r c k i j)))).
  - assumption.
  - exact Im.
  - intros k acc Hk I. destruct (HB k Hk) as [H1 H2].
    destruct (mset_is acc R C _ (r k) (c k) 1 I H1 H2) as (m' & E & I').
    exists m'. split; [exact E|]. eapply is_mat_ext; [exact I'|]. cbv beta. intros i j Hi Hj.
    unfold hits. rewrite zrange_snoc by lia. rewrite existsb_app. cbn [existsb]. rewrite orb_false_r.
    destruct ((i =? r k) && (j =? c k)); [now rewrite orb_true_r | now rewrite orb_false_r].
Qed.

Lemma mul_unique : forall w a b c d, 0 <= b < w -> 0 <= d < w -> w * a + b = w * c + d -> a = c /\ b = d.
Proof. intros w a b c d Hb Hd E. destruct (Z.lt_trichotomy a c) as [L|[L|L]]; [nia | subst; lia | nia]. Qed.

Section Ring.
Variables h v s : Z.
Hypothesis Hh : 1 <= h.
Hypothesis Hv : 1 <= v.
Hypothesis Hs : 1 <= s.
Let w := s * h.
Let ht := s * v.
Let N := w * ht.

Let wp : 1 <= w. Proof. subst w. nia. Qed.
Let hp : 1 <= ht. Proof. subst ht. nia. Qed.
Let np : 1 <= N. Proof. subst N. nia. Qed.

Lemma T_is : exists m, build_T_matrix h v s = Ok m /\
  is_mat m N (w + ht + w + ht) (fun x k => b2z (adjb (point w x) (ring_point w ht k))).
Proof.
  unfold build_T_matrix.
  assert (E1 : h * s = w) by (subst w; ring). assert (E2 : v * s = ht) by (subst ht; ring).
  assert (E3 : h * v * s ^ 2 = N) by (subst N w ht; rewrite Z.pow_2_r; ring).
  assert (E4 : forall q, q * h * s = q * w) by (intros; rewrite <- Z.mul_assoc, E1; reflexivity).
  rewrite !E4, !E1, !E2, !E3.
  destruct (mzeros_is ((ht - 1) * w) w) as (z1 & Ez1 & I1); [nia | lia |]. rewrite Ez1. cbn [bind].
  destruct (mconcat0_is (meye w) z1 w ((ht - 1) * w) w _ _ (meye_is w ltac:(lia)) I1) as (t1 & Et1 & It1); [lia | nia |].
  rewrite Et1. cbn [bind]. replace (w + (ht - 1) * w) with N in It1 by (subst N; ring).
  destruct (mzeros_is N ht) as (z2 & Ez2 & I2); [lia | lia |]. rewrite Ez2. cbn [bind].
  destruct (loop_is (fun q => (q + 1) * h * s - 1) (fun q => q) ht N ht z2) as (c2 & Ec2 & Ic2);
    [lia | exact I2 | intros q Hq; rewrite E4; subst N; nia |].
  rewrite Ec2. cbn [bind].
  destruct (mconcat1_is t1 c2 N w ht _ _ It1 Ic2) as (t2 & Et2 & It2); [lia | lia |]. rewrite Et2. cbn [bind].
  destruct (mzeros_is w w) as (z3 & Ez3 & I3); [lia | lia |]. rewrite Ez3. cbn [bind].
  destruct (loop_is (fun q => w - 1 - q) (fun q => q) w w w z3) as (c3 & Ec3 & Ic3);
    [lia | exact I3 | intros q Hq; lia |].
  rewrite Ec3. cbn [bind].
  destruct (mconcat0_is z1 c3 ((ht - 1) * w) w w _ _ I1 Ic3) as (d3 & Ed3 & Id3); [nia | lia |].
  rewrite Ed3. cbn [bind]. replace ((ht - 1) * w + w) with N in Id3 by (subst N; ring).
  destruct (mconcat1_is t2 d3 N (w + ht) w _ _ It2 Id3) as (t3 & Et3 & It3); [lia | lia |]. rewrite Et3. cbn [bind].
  destruct (loop_is (fun q => (ht - q - 1) * h * s) (fun q => q) ht N ht z2) as (c4 & Ec4 & Ic4);
    [lia | exact I2 | intros q Hq; rewrite E4; subst N; nia |].
  rewrite Ec4. cbn [bind].
  destruct (mconcat1_is t3 c4 N (w + ht + w) ht _ _ It3 Ic4) as (t4 & Et4 & It4); [lia | lia |].
  exists t4. split; [exact Et4|]. eapply is_mat_ext; [exact It4|]. cbv beta. intros x k Hx Hk.
  unfold ring_point, point. clear - wp hp Hx Hk E4. assert (EN : N = w * ht) by reflexivity. clearbody N w ht.
  pose proof (Z.div_mod x w ltac:(lia)) as Dx. pose proof (Z.mod_pos_bound x w ltac:(lia)) as Mx.
  assert (Qx : 0 <= x / w < ht) by (split; [apply Z.div_pos; lia | apply Z.div_lt_upper_bound; lia]).
  set (q := x / w) in *. set (r := x mod w) in *. clearbody q r.
  destruct (Z.ltb_spec k w); [|destruct (Z.ltb_spec k (w + ht)); [|destruct (Z.ltb_spec k (2 * w + ht))]].
  - destruct (Z.ltb_spec k (w + ht + w)); [|lia]. destruct (Z.ltb_spec k (w + ht)); [|lia]. destruct (Z.ltb_spec k w); [|lia].
    destruct (Z.ltb_spec x w).
    + assert (q = 0) by nia. apply b2z_iff. rewrite Z.eqb_eq, adjb_iff. unfold adjacent. cbn [fst snd]. lia.
    + assert (q <> 0) by nia. assert (adjb (r, q) (k, -1) = false) as ->; [|reflexivity].
      apply not_true_is_false. rewrite adjb_iff. unfold adjacent. cbn [fst snd]. lia.
  - destruct (Z.ltb_spec k (w + ht + w)); [|lia]. destruct (Z.ltb_spec k (w + ht)); [|lia]. destruct (Z.ltb_spec k w); [lia|].
    apply b2z_iff. rewrite hits_iff, adjb_iff. unfold adjacent. cbn [fst snd]. split.
    + intros (y & Hy & Ex & <-). rewrite E4 in Ex.
      destruct (mul_unique w q r (k - w) (w - 1)); try lia; nia.
    + intros A. exists (k - w). rewrite E4. split; [lia|]. split; [|reflexivity].
      assert (q = k - w) by lia. assert (r = w - 1) by lia. nia.
  - destruct (Z.ltb_spec k (w + ht + w)); [|lia]. destruct (Z.ltb_spec k (w + ht)); [lia|].
    destruct (Z.ltb_spec x ((ht - 1) * w)).
    + assert (q < ht - 1) by nia.
      assert (adjb (r, q) (w - 1 - (k - (w + ht)), ht) = false) as ->; [|reflexivity].
      apply not_true_is_false. rewrite adjb_iff. unfold adjacent. cbn [fst snd]. lia.
    + assert (q = ht - 1) by nia. apply b2z_iff. rewrite hits_iff, adjb_iff. unfold adjacent. cbn [fst snd]. split.
      * intros (y & Hy & Ex & Ey). assert (w * q = (ht - 1) * w) by (subst q; ring). lia.
      * intros A. exists (k - (w + ht)). assert (w * q = (ht - 1) * w) by (subst q; ring). split; [lia|]. split; [lia|reflexivity].
  - destruct (Z.ltb_spec k (w + ht + w)); [lia|].
    apply b2z_iff. rewrite hits_iff, adjb_iff. unfold adjacent. cbn [fst snd]. split.
    + intros (y & Hy & Ex & Ey). rewrite E4 in Ex.
      destruct (mul_unique w q r (ht - y - 1) 0); lia.
    + intros A. exists (k - (w + ht + w)). rewrite E4. split; [lia|]. split; [|reflexivity].
      assert (r = 0) by lia. assert (q = ht - 1 - (k - (2 * w + ht))) by lia. nia.
Qed.

Lemma outer_is : exists m, build_bond_matrix_neel_outer_lattice h v s = Ok m /\
  is_mat m (w + ht + w + ht) (w + ht + w + ht)
    (fun i j => b2z (adjb (ring_point w ht i) (ring_point w ht j))).
Proof.
  unfold build_bond_matrix_neel_outer_lattice.
  assert (E1 : h * s = w) by (subst w; ring). assert (E2 : v * s = ht) by (subst ht; ring).
  assert (E3 : (h + 2 * v) * s = ht + w + ht) by (subst w ht; ring).
  assert (E4 : (h + v) * s = w + ht) by (subst w ht; ring).
  assert (E5 : (2 * h + v) * s = w + ht + w) by (subst w ht; ring).
  rewrite !E1, !E2, !E3, !E4, !E5.
  destruct (build_J_is w wp) as (Jh & EJh & IJh). destruct (build_J_is ht hp) as (Jv & EJv & IJv).
  rewrite EJh, EJv. cbn [bind].
  destruct (mzeros_is (ht + w + ht) w) as (z1 & Ez1 & I1); [lia | lia |]. rewrite Ez1. cbn [bind].
  destruct (mconcat0_is Jh z1 _ _ _ _ _ IJh I1) as (r1 & Er1 & Ir1); [lia | lia |]. rewrite Er1. cbn [bind].
  destruct (mzeros_is w ht) as (za & Eza & Ia); [lia | lia |]. rewrite Eza. cbn [bind].
  destruct (mzeros_is (w + ht) ht) as (zb & Ezb & Ib); [lia | lia |]. rewrite Ezb. cbn [bind].
  destruct (mconcat0_is za Jv _ _ _ _ _ Ia IJv) as (c1 & Ec1 & Ic1); [lia | lia |]. rewrite Ec1. cbn [bind].
  destruct (mconcat0_is c1 zb _ _ _ _ _ Ic1 Ib) as (c2 & Ec2 & Ic2); [lia | lia |]. rewrite Ec2. cbn [bind].
  replace (w + (ht + w + ht)) with (w + ht + w + ht) in Ir1 by lia.
  replace (w + ht + (w + ht)) with (w + ht + w + ht) in Ic2 by lia.
  destruct (mconcat1_is r1 c2 _ _ _ _ _ Ir1 Ic2) as (r2 & Er2 & Ir2); [lia | lia |]. rewrite Er2. cbn [bind].
  destruct (mzeros_is (w + ht) w) as (zc & Ezc & Izc); [lia | lia |]. rewrite Ezc. cbn [bind].
  destruct (mzeros_is ht w) as (zd & Ezd & Izd); [lia | lia |]. rewrite Ezd. cbn [bind].
  destruct (mconcat0_is zc Jh _ _ _ _ _ Izc IJh) as (c3 & Ec3 & Ic3); [lia | lia |]. rewrite Ec3. cbn [bind].
  destruct (mconcat0_is c3 zd _ _ _ _ _ Ic3 Izd) as (c4 & Ec4 & Ic4); [lia | lia |]. rewrite Ec4. cbn [bind].
  destruct (mconcat1_is r2 c4 _ _ _ _ _ Ir2 Ic4) as (r3 & Er3 & Ir3); [lia | lia |]. rewrite Er3. cbn [bind].
  destruct (mzeros_is (w + ht + w) ht) as (ze & Eze & Ize); [lia | lia |]. rewrite Eze. cbn [bind].
  destruct (mconcat0_is ze Jv _ _ _ _ _ Ize IJv) as (c5 & Ec5 & Ic5); [lia | lia |]. rewrite Ec5. cbn [bind].
  destruct (mconcat1_is r3 c5 _ _ _ _ _ Ir3 Ic5) as (r4 & Er4 & Ir4); [lia | lia |].
  exists r4. split; [exact Er4|]. eapply is_mat_ext; [exact Ir4|]. cbv beta. intros i j Hi Hj.
  clear - wp hp Hi Hj. unfold ring_point, adjb.
  destruct (Z.ltb_spec i w); [|destruct (Z.ltb_spec i (w + ht)); [|destruct (Z.ltb_spec i (2 * w + ht))]];
  (destruct (Z.ltb_spec j w); [|destruct (Z.ltb_spec j (w + ht)); [|destruct (Z.ltb_spec j (2 * w + ht))]]); cbn [fst snd];
  repeat match goal with |- context [?a <? ?b] => destruct (Z.ltb_spec a b); try lia end;
  try (apply b2z_iff; rewrite !Z.eqb_eq; lia);
  match goal with |- 0 = b2z (?a =? ?b) => destruct (Z.eqb_spec a b); [lia | reflexivity] end.
Qed.

Lemma ringed_is : exists m, build_bond_matrix_neel_embedding h v s = Ok m /\
  is_mat m (N + 2 * (w + ht)) (N + 2 * (w + ht))
    (fun i j => b2z (adjb (ringed_point w ht i) (ringed_point w ht j))).
Proof.
  unfold build_bond_matrix_neel_embedding.
  destruct (rect_is h v s Hh Hv Hs) as (b & Eb & Ib). fold w ht N in Ib. rewrite Eb. cbn [bind].
  destruct outer_is as (o & Eo & Io). rewrite Eo. cbn [bind].
  destruct T_is as (t & Et & It). rewrite Et. cbn [bind].
  destruct (mconcat0_is b (mtrans t) _ _ _ _ _ Ib (mtrans_is _ _ _ _ It)) as (l & El & Il); [lia | lia |].
  rewrite El. cbn [bind].
  destruct (mconcat0_is t o _ _ _ _ _ It Io) as (r & Er & Ir); [lia | lia |]. rewrite Er. cbn [bind].
  destruct (mconcat1_is l r _ _ _ _ _ Il Ir) as (m & Em & Im); [lia | lia |].
  exists m. split; [exact Em|].
  replace (N + 2 * (w + ht)) with (N + (w + ht + w + ht)) by lia.
  eapply is_mat_ext; [exact Im|]. cbv beta. intros i j Hi Hj. unfold ringed_point. fold N.
  destruct (Z.ltb_spec i N); destruct (Z.ltb_spec j N); try reflexivity. now rewrite adjb_sym.
Qed.

Lemma U_is : exists m, build_U_matrix h v s = Ok m /\
  is_mat m N N (fun i j => b2z (adjb (w + i mod w, i / w) (point w j))).
Proof.
  unfold build_U_matrix.
  assert (E1 : forall q, q * h * s = q * w) by (intros; subst w; ring).
  assert (E3 : h * v * s ^ 2 = N) by (subst N w ht; rewrite Z.pow_2_r; ring).
  assert (E2 : v * s = ht) by (subst ht; ring).
  rewrite E3, E2. destruct (mzeros_is N N) as (z & Ez & Iz); [lia | lia |]. rewrite Ez. cbn [bind].
  destruct (loop_is (fun q => q * h * s) (fun q => (q + 1) * h * s - 1) ht N N z) as (m & Em & Im);
    [lia | exact Iz | intros q Hq; rewrite !E1; subst N; nia |].
  exists m. split; [exact Em|]. eapply is_mat_ext; [exact Im|]. cbv beta. intros i j Hi Hj. unfold point.
  pose proof (Z.div_mod i w ltac:(lia)). pose proof (Z.mod_pos_bound i w ltac:(lia)).
  pose proof (Z.div_mod j w ltac:(lia)). pose proof (Z.mod_pos_bound j w ltac:(lia)).
  assert (0 <= i / w < ht) by (split; [apply Z.div_pos; lia | apply Z.div_lt_upper_bound; subst N; lia]).
  apply b2z_iff. rewrite hits_iff, adjb_iff. unfold adjacent. cbn [fst snd]. split.
  - intros (q & Hq & Ei & Ej). rewrite E1 in Ei, Ej.
    destruct (mul_unique w (i / w) (i mod w) q 0); try lia.
    destruct (mul_unique w (j / w) (j mod w) q (w - 1)); lia.
  - intros A. exists (i / w). rewrite !E1. split; [lia|].
    assert (A1 : i mod w = 0) by lia. assert (A2 : j mod w = w - 1) by lia. assert (A3 : j / w = i / w) by lia.
    rewrite A1 in *. rewrite A2, A3 in *. lia.
Qed.

Lemma blocks_is : exists m, build_bond_matrix_block_embedding h v s = Ok m /\
  is_mat m (2 * N) (2 * N) (fun i j => b2z (adjb (blocks_point w ht i) (blocks_point w ht j))).
Proof.
  unfold build_bond_matrix_block_embedding.
  destruct (rect_is h v s Hh Hv Hs) as (b & Eb & Ib). fold w ht N in Ib. rewrite Eb. cbn [bind].
  destruct U_is as (u & Eu & Iu). rewrite Eu. cbn [bind].
  destruct (mconcat1_is b (mtrans u) _ _ _ _ _ Ib (mtrans_is _ _ _ _ Iu)) as (r0 & E0 & I0); [lia | lia |]. rewrite E0. cbn [bind].
  destruct (mconcat1_is u b _ _ _ _ _ Iu Ib) as (r1 & Er1 & I1); [lia | lia |]. rewrite Er1. cbn [bind].
  destruct (mconcat0_is r0 r1 _ _ _ _ _ I0 I1) as (m & Em & Im); [lia | lia |].
  exists m. split; [exact Em|]. replace (2 * N) with (N + N) by lia.
  eapply is_mat_ext; [exact Im|]. cbv beta. intros i j Hi Hj. unfold blocks_point. fold N.
  destruct (Z.ltb_spec i N); destruct (Z.ltb_spec j N); try reflexivity.
  - now rewrite adjb_sym.
  - unfold adjb, point. cbn [fst snd]. f_equal. f_equal. lia.
Qed.

(** row by row numbering of the two blocks *)
Definition relabel (x : Z) : Z :=
  let p := blocks_point w ht x in snd p * (2 * w) + fst p.

Lemma blocks_bound : forall x, 0 <= x < 2 * N ->
  0 <= fst (blocks_point w ht x) < 2 * w /\ 0 <= snd (blocks_point w ht x) < ht.
Proof.
  intros x Hx. unfold blocks_point, point. fold N. destruct (Z.ltb_spec x N); cbn [fst snd].
  - pose proof (Z.mod_pos_bound x w ltac:(lia)).
    assert (0 <= x / w < ht) by (split; [apply Z.div_pos; lia | apply Z.div_lt_upper_bound; subst N; lia]). lia.
  - pose proof (Z.mod_pos_bound (x - N) w ltac:(lia)).
    assert (0 <= (x - N) / w < ht) by (split; [apply Z.div_pos; lia | apply Z.div_lt_upper_bound; subst N; lia]). lia.
Qed.

Lemma relabel_point : forall x, 0 <= x < 2 * N -> point (2 * w) (relabel x) = blocks_point w ht x /\ 0 <= relabel x < 2 * N.
Proof.
  intros x Hx. destruct (blocks_bound x Hx) as [B1 B2]. unfold relabel, point.
  destruct (blocks_point w ht x) as [a b]. cbn [fst snd] in *. split.
  - f_equal.
    + rewrite Z.add_comm, Z_mod_plus_full. now apply Z.mod_small.
    + rewrite Z.add_comm, Z_div_plus_full by lia. rewrite Z.div_small; lia.
  - subst N. nia.
Qed.
End Ring.
