(** Final lemmas for C38-C40. *)
From Coq Require Import String ZArith List Bool Lia Permutation Sorted QArith Qcanon Qround Lqa.
From Verif Require Import PyBase PyFacts Runtimes Lattice Base Interact Ham Spin Spec SpecOps SpecTJ SpecSpin SpinDefs Geometry HamSpec
  PBasis PSites PRot PInter PSpin POps PHam FBasis FSites FInter FHam FDyn PWave PTJSpin PVec PSecSum PSpinOp PBound PAct PQc FSpin Examples.
Import ListNotations.
Open Scope Z_scope.

(** ** C38 *)
Lemma inner_vdot : forall u v, length u = length v -> vdot u v = inner u v.
Proof.
  intros u v H. rewrite vdot_sum by assumption. unfold inner, sum_sites, sites, zlen, vat. rewrite Nat2Z.id, qsum_map.
  apply qsum_ext. intros k _. now rewrite Nat2Z.id.
Qed.

Lemma qsum_squares_zero : forall A (f : A -> Qc) l, qsum (fun x => (f x * f x)%Qc) l = 0%Qc -> forall x, In x l -> f x = 0%Qc.
Proof.
  intros A f l. induction l as [|y l IH]; intros H x Hx; [contradiction|]. rewrite qsum_cons in H.
  pose proof (square_nonneg (f y)) as N1. pose proof (qsum_nonneg _ (fun x => (f x * f x)%Qc) l (fun x _ => square_nonneg (f x))) as N2.
  assert (Z1 : (f y * f y = 0)%Qc).
  { apply Qcle_antisym; [|assumption]. rewrite <- H. rewrite <- (Qcplus_0_r (f y * f y)) at 1. apply Qcplus_le_compat; [apply Qcle_refl | assumption]. }
  destruct Hx as [<-|Hx].
  - now destruct (Qcmult_integral _ _ Z1).
  - apply IH; [|assumption]. rewrite Z1, Qcplus_0_l in H. exact H.
Qed.

Lemma inner_zero : forall v, inner v v = 0%Qc <-> (forall x, In x v -> x = 0%Qc).
Proof.
  intros v. split.
  - intros H x Hx. apply (In_nth _ _ 0%Qc) in Hx. destruct Hx as (k & Hk & <-).
    apply (qsum_squares_zero _ (fun k => nth k v 0%Qc) _ H). apply in_seq. lia.
  - intros H. apply qsum_zero. intros k Hk. apply in_seq in Hk. rewrite (H (nth k v 0%Qc)) by (apply nth_In; lia). ring.
Qed.

Lemma C38_zero_pf : forall E c v, (forall x, In x v -> x = 0%Qc) -> compute_S2_exp_val E c v = Ok 0%Qc.
Proof.
  intros E c v H. unfold compute_S2_exp_val. rewrite inner_vdot by reflexivity. destruct (Qc_eq_dec _ 0) as [_|N]; [reflexivity|].
  exfalso. apply N. now apply inner_zero.
Qed.

Lemma C38_value_pf : forall E c l v, set_iter_ok E -> proper c -> holes_in_order E c -> construct_basis c = Ok (mkBasis c l) ->
  length v = length l -> (exists x, In x v /\ x <> 0%Qc) ->
  exists v' x, compute_S2 E c v = Ok v' /\ compute_S2_exp_val E c v = Ok x /\ inner v v <> 0%Qc /\ (x * inner v v)%Qc = inner v v'.
Proof.
  intros E c l v HE P HO HB Lv (y & Hy & Ny). rewrite (basis_is c l P HB) in Lv.
  assert (Lz : zlen v = nb_conf c) by (unfold zlen; rewrite Lv; now apply proper_length).
  destruct (S2_ok E c HE P HO v Lz) as (v' & E1 & L1 & _).
  assert (N : inner v v <> 0%Qc) by (intros Q; apply Ny; now apply (proj1 (inner_zero v) Q)).
  exists v', (inner v v' / inner v v)%Qc. split; [exact E1|]. split; [|split; [exact N|]].
  - unfold compute_S2_exp_val. cbv zeta. rewrite inner_vdot by reflexivity. destruct (Qc_eq_dec _ 0) as [Q|_]; [contradiction|]. rewrite E1. cbn [bind].
    now rewrite inner_vdot by (symmetry; assumption).
  - rewrite Qcmult_comm. now apply Qcmult_div_r.
Qed.

Lemma inner_nonneg : forall v, (0 <= inner v v)%Qc.
Proof. intros v. apply qsum_nonneg. intros; apply square_nonneg. Qed.

Lemma inner_ssum : forall c u v, proper c -> zlen u = nb_conf c -> zlen v = nb_conf c ->
  inner u v = ssum (nsites c) (nholes c) (nbeta c) (fun s => (wave_of c u s * wave_of c v s)%Qc).
Proof. intros c u v P Lu Lv. rewrite <- inner_vdot by (unfold zlen in *; lia). now apply vdot_ssum. Qed.

Lemma C38_symmetric_pf : forall E c l u v u' v', set_iter_ok E -> proper c -> holes_in_order E c -> construct_basis c = Ok (mkBasis c l) ->
  length u = length l -> length v = length l -> compute_S2 E c u = Ok u' -> compute_S2 E c v = Ok v' -> inner u v' = inner v u'.
Proof.
  intros E c l u v u' v' HE P HO HB Lu Lv E1 E2. rewrite (basis_is c l P HB) in *. pose proof P as (A & B & C & D & _). pose proof (proper_n c P) as Hn.
  assert (Lu' : zlen u = nb_conf c) by (unfold zlen; rewrite Lu; now apply proper_length).
  assert (Lv' : zlen v = nb_conf c) by (unfold zlen; rewrite Lv; now apply proper_length).
  destruct (S2_ok E c HE P HO u Lu') as (u1 & Q1 & L1 & V1). rewrite E1 in Q1. injection Q1 as <-.
  destruct (S2_ok E c HE P HO v Lv') as (v1 & Q2 & L2 & V2). rewrite E2 in Q2. injection Q2 as <-.
  rewrite !(inner_ssum c) by (try assumption; unfold zlen in *; congruence).
  rewrite (ssum_ext _ _ _ Hn A B _ (fun s => (wave_of c u s * S_squared (nsites c) (wave_of c v) s)%Qc)) by (intros s Hs; now rewrite V2).
  rewrite (ssum_ext _ _ _ Hn A B (fun s => (wave_of c v s * wave_of c u' s)%Qc) (fun s => (wave_of c v s * S_squared (nsites c) (wave_of c u) s)%Qc)) by (intros s Hs; now rewrite V1).
  apply squared_sym; try assumption; try lia; apply wave_on.
Qed.

Lemma C38_bounds_pf : forall E c l v x, set_iter_ok E -> proper c -> holes_in_order E c -> construct_basis c = Ok (mkBasis c l) ->
  length v = length l -> (exists x, In x v /\ x <> 0%Qc) -> compute_S2_exp_val E c v = Ok x ->
  let m := (half * qz (Z.abs (nalpha c - nbeta c)))%Qc in let j := (half * qz (nalpha c + nbeta c))%Qc in
  (m * (m + 1) <= x)%Qc /\ (x <= j * (j + 1))%Qc.
Proof.
  intros E c l v x HE P HO HB Lv NZ Ex m j.
  destruct (C38_value_pf E c l v HE P HO HB Lv NZ) as (v' & x' & E1 & E2 & N & Q). rewrite Ex in E2. injection E2 as <-.
  rewrite (basis_is c l P HB) in Lv. assert (Lz : zlen v = nb_conf c) by (unfold zlen; rewrite Lv; now apply proper_length).
  destruct (S2_ok E c HE P HO v Lz) as (v1 & Q1 & L1 & V1). rewrite E1 in Q1. injection Q1 as <-.
  pose proof P as (A & B & C & D & _). pose proof (proper_n c P) as Hn. assert (Ha : 0 <= nsites c - nholes c - nbeta c) by lia.
  set (psi := wave_of c v) in *. pose proof (wave_on c v : on_lattice _ psi) as O.
  assert (N2 : inner v v = ssum (nsites c) (nholes c) (nbeta c) (fun t => (psi t * psi t)%Qc)) by (now apply inner_ssum).
  assert (NX : (x * inner v v)%Qc = ssum (nsites c) (nholes c) (nbeta c) (fun t => (psi t * S_squared (nsites c) psi t)%Qc)).
  { rewrite Q. rewrite (inner_ssum c v v' P Lz) by (unfold zlen in *; congruence). apply ssum_ext; try assumption. intros s Hs. now rewrite V1. }
  assert (Pos : (0 < inner v v)%Qc).
  { destruct (Qclt_le_dec 0 (inner v v)) as [L|L]; [assumption|]. exfalso. apply N. apply Qcle_antisym; [assumption | apply inner_nonneg]. }
  destruct (squared_square (nsites c) (nholes c) (nbeta c) Hn A B psi O) as [S1 S2].
  pose proof (squared_upper (nsites c) (nholes c) (nbeta c) Hn A B psi O) as S3.
  set (mz := mz (nsites c) (nholes c) (nbeta c)) in *. set (fl := full (nsites c) (nholes c) (nbeta c)) in *.
  assert (Lin : forall k, ssum (nsites c) (nholes c) (nbeta c) (fun t => (psi t * (S_squared (nsites c) psi t - k * psi t))%Qc) = ((x - k) * inner v v)%Qc).
  { intros k. transitivity (x * inner v v + (- k) * inner v v)%Qc; [|ring]. rewrite NX, N2. rewrite <- ssum_scale, <- ssum_add.
    apply ssum_ext; try assumption. intros; ring. }
  rewrite Lin in S1, S2. rewrite <- NX, <- N2 in S3.
  assert (Div : forall y, (0 <= y * inner v v)%Qc -> (0 <= y)%Qc).
  { intros y Hy. apply Qcnot_lt_le. intros Ly. assert (y * inner v v < 0 * inner v v)%Qc by (now apply Qcmult_lt_compat_r).
    rewrite Qcmult_0_l in H. exact (Qclt_not_le _ _ H Hy). }
  apply Div in S1, S2.
  assert (J : j = fl). { unfold j, fl, full. rewrite <- qz_add. do 2 f_equal. lia. }
  assert (M : m = mz \/ m = (- mz)%Qc).
  { unfold m, mz, PBound.mz. destruct (Z.le_gt_cases (nbeta c) (nalpha c)).
    - left. rewrite Z.abs_eq by lia. rewrite <- D. f_equal. apply qz_sub.
    - right. rewrite Z.abs_neq by lia. rewrite <- D. replace (- (nalpha c - nbeta c)) with (nbeta c - nalpha c) by lia. rewrite qz_sub. ring. }
  split.
  - apply Qcle_minus_iff. destruct M as [-> | ->]; [exact S1|].
    replace (- mz * (- mz + 1))%Qc with (mz * (mz - 1))%Qc by ring. exact S2.
  - rewrite J. apply Qcle_minus_iff. apply Div. replace ((fl * (fl + 1) + - x) * inner v v)%Qc with (fl * (fl + 1) * inner v v + - (x * inner v v))%Qc by ring.
    now apply -> Qcle_minus_iff.
Qed.

Lemma C38_polarised_pf : forall E c l v, set_iter_ok E -> proper c -> holes_in_order E c -> construct_basis c = Ok (mkBasis c l) ->
  length v = length l -> (exists x, In x v /\ x <> 0%Qc) -> nalpha c = 0 \/ nbeta c = 0 ->
  let j := (half * qz (nalpha c + nbeta c))%Qc in compute_S2_exp_val E c v = Ok (j * (j + 1))%Qc.
Proof.
  intros E c l v HE P HO HB Lv NZ Pol j. destruct (C38_value_pf E c l v HE P HO HB Lv NZ) as (v' & x & E1 & E2 & _).
  rewrite E2. f_equal. destruct (C38_bounds_pf E c l v x HE P HO HB Lv NZ E2) as [L1 L2].
  apply Qcle_antisym; [exact L2|]. pose proof P as (_ & B & C & _). replace (Z.abs (nalpha c - nbeta c)) with (nalpha c + nbeta c) in L1 by lia. exact L1.
Qed.

(** ** C39 *)
Lemma total_sector : forall c s, proper c -> in_sector (nsites c) (nholes c) (nbeta c) s -> total_z (nsites c) s = (half * qz (nalpha c - nbeta c))%Qc.
Proof.
  intros c s P Hs. rewrite total_num. rewrite (num_up c P s Hs), (num_down c s Hs), qz_sub. reflexivity.
Qed.

Lemma half_is : forall k, (qz k / qz 2)%Qc = (half * qz k)%Qc.
Proof. intros k. unfold Qcdiv. replace (/ qz 2)%Qc with half by (apply Qc_is_canon; reflexivity). apply Qcmult_comm. Qed.

Lemma C39_spin_z_pf : forall c l v psi, proper c -> construct_basis c = Ok (mkBasis c l) -> on_lattice (nsites c) psi -> amplitudes c l v psi ->
  exists sz v', compute_spin_z c v = (sz, v') /\ sz = (half * qz (nalpha c - nbeta c))%Qc /\ amplitudes c l v' (S_z (nsites c) psi) /\
    forall k d s, nth_error l k = Some d -> describes (nsites c) (nholes c) (nbeta c) d s -> total_z (nsites c) s = sz.
Proof.
  intros c l v psi P HB O A. rewrite (basis_is c l P HB) in *. apply (amplitudes_iff c P v psi O) in A. destruct A as [Lv V].
  eexists _, _. split; [reflexivity|]. rewrite half_is. split; [reflexivity|]. split.
  - apply (amplitudes_iff c P); [now apply sz_on|]. split; [unfold zlen in *; now rewrite vscale_length|].
    intros s Hs. unfold S_z. rewrite (total_sector c s P Hs), <- (V s Hs). unfold wave_of. apply vat_scale.
  - intros k d s _ D. apply total_sector; [assumption|]. eapply describes_sector, D.
Qed.

(** a loop that overwrites every entry *)
Lemma set_fold : forall (f : Z -> Qc) inds acc, NoDup inds -> (forall k, In k inds -> 0 <= k < zlen acc) ->
  exists u, foldM (fun a k => py_set a k (f k)) acc inds = Ok u /\ length u = length acc /\
    forall k, 0 <= k < zlen acc -> vat u k = if mem k inds then f k else vat acc k.
Proof.
  intros f inds. induction inds as [|i inds IH]; intros acc ND H; cbn [foldM].
  - exists acc. split; [reflexivity|]. split; [reflexivity|]. reflexivity.
  - inversion ND as [|? ? Hi ND']. subst. assert (Bi : 0 <= i < zlen acc) by (apply H; now left). rewrite py_set_ok by assumption. cbn [bind].
    destruct (IH (set_nth acc (Z.to_nat i) (f i)) ND') as (u & E1 & L1 & V1).
    { intros k Hk. unfold zlen. rewrite set_nth_length. apply H. now right. }
    exists u. split; [exact E1|]. rewrite set_nth_length in L1. split; [exact L1|]. intros k Hk. rewrite V1 by (unfold zlen in *; now rewrite set_nth_length).
    rewrite vat_set by (assumption || lia). unfold mem. cbn [existsb]. destruct (Z.eqb_spec k i) as [->|N]; cbn [orb]; [|reflexivity].
    destruct (existsb (Z.eqb i) inds) eqn:Q; [|reflexivity]. exfalso. apply Hi. now apply mem_In.
Qed.

Lemma spin_code_half : forall p, (qz (spin_code p) / qz 2)%Qc = spin_of p.
Proof. intros []; apply Qc_is_canon; reflexivity. Qed.

Lemma C39_two_sites_pf : forall c l v psi i j, proper c -> construct_basis c = Ok (mkBasis c l) -> on_lattice (nsites c) psi -> amplitudes c l v psi ->
  0 <= i < nsites c -> 0 <= j < nsites c ->
  exists v', compute_spins_z_two_bodies c v i j = Ok v' /\ amplitudes c l v' (fun t => (spin_of (t i) * spin_of (t j) * psi t)%Qc).
Proof.
  intros c l v psi i j P HB O A Hi Hj. rewrite (basis_is c l P HB) in *. apply (amplitudes_iff c P v psi O) in A. destruct A as [Lv V].
  set (f := fun k => match get_hash_basis (nholes c) (nalpha c) (nbeta c) k with
     | Ok d => (vat v k * (spin_of (state_of c d i) * spin_of (state_of c d j)))%Qc | Err _ => 0%Qc end).
  destruct (set_fold f (zrange 0 (nb_conf c)) v) as (u & E1 & L1 & V1).
  { apply zrange_NoDup. }
  { intros k Hk. apply in_zrange in Hk. now rewrite Lv. }
  exists u. split.
  - unfold compute_spins_z_two_bodies. rewrite <- E1. apply foldM_ext. intros a k Hk. apply in_zrange in Hk.
    rewrite vat_get by (now rewrite Lv). cbn [bind]. unfold f. destruct (ix_onto c P k Hk) as (s & Hs & Ks & G & _). rewrite G. cbn [bind].
    pose proof (canon_describes _ _ _ _ Hs) as D. unfold compute_spins_z_two_bodies_det. rewrite !(spin_site_ok c _ s _ D) by assumption. cbn [bind].
    rewrite !spin_code_half, !(state_of_describes c _ s D) by assumption. reflexivity.
  - apply (amplitudes_iff c P).
    + intros s t H. rewrite (H i Hi), (H j Hj). f_equal. now apply O.
    + split; [unfold zlen in *; congruence|]. intros s Hs. pose proof (ix_range c P s Hs) as R. unfold wave_of. rewrite V1 by (now rewrite Lv).
      assert (mem (state_index (nsites c) (nholes c) (nbeta c) s) (zrange 0 (nb_conf c)) = true) as -> by (apply mem_In; now apply in_zrange).
      unfold f. destruct (ix_onto c P _ R) as (s' & Hs' & Ks & G & _). rewrite G.
      apply (state_index_inj _ _ _ _ _ (proper_n c P) Hs' Hs) in Ks. pose proof (canon_describes _ _ _ _ Hs') as D.
      rewrite !(state_of_describes c _ s' D) by assumption. rewrite (Ks i Hi), (Ks j Hj). change (vat v (state_index (nsites c) (nholes c) (nbeta c) s)) with (wave_of c v s).
      rewrite V by assumption. ring.
Qed.

Lemma C39_outside_pf : forall c l v i j, proper c -> construct_basis c = Ok (mkBasis c l) -> length v = length l -> l <> [] ->
  ~ (0 <= i < nsites c /\ 0 <= j < nsites c) -> compute_spins_z_two_bodies c v i j = Err ValueError.
Proof.
  intros c l v i j P HB Lv NE NR. rewrite (basis_is c l P HB) in *.
  assert (Lz : zlen v = nb_conf c) by (unfold zlen; rewrite Lv; now apply proper_length).
  assert (Pos : 0 < nb_conf c). { rewrite <- Lz. unfold zlen. rewrite Lv. destruct (dets _ _ _); [congruence|]. cbn [length]. lia. }
  unfold compute_spins_z_two_bodies. rewrite zrange_cons by assumption. cbn [foldM]. rewrite vat_get by lia. cbn [bind].
  destruct (ix_onto c P 0) as (s & Hs & _ & G & _); [lia|]. rewrite G. cbn [bind]. pose proof (canon_describes _ _ _ _ Hs) as D.
  unfold compute_spins_z_two_bodies_det.
  destruct (Z_lt_dec i 0) as [Q|Q]; [rewrite (spin_site_err c _ s i D) by lia; reflexivity|].
  destruct (Z_lt_dec i (nsites c)) as [Q'|Q']; [|rewrite (spin_site_err c _ s i D) by lia; reflexivity].
  rewrite (spin_site_ok c _ s i D) by lia. cbn [bind]. rewrite (spin_site_err c _ s j D) by lia. reflexivity.
Qed.

Lemma C39_all_pairs_pf : forall c l v (r : Z -> Z -> list Qc) k, proper c -> construct_basis c = Ok (mkBasis c l) -> length v = length l -> (k < length v)%nat ->
  (forall i j, 0 <= i < nsites c -> 0 <= j < nsites c -> compute_spins_z_two_bodies c v i j = Ok (r i j)) ->
  sum_sites (nsites c) (fun i => sum_sites (nsites c) (fun j => nth k (r i j) 0%Qc)) =
  (half * qz (nalpha c - nbeta c) * (half * qz (nalpha c - nbeta c)) * nth k v 0)%Qc.
Proof.
  intros c l v r k P HB Lv Hk HR. pose proof (basis_is c l P HB) as El.
  destruct (C37_every_vector_pf c l v P HB Lv) as (psi & O & A).
  assert (Hk' : 0 <= Z.of_nat k < nb_conf c) by (rewrite <- (proper_length c P); unfold zlen; rewrite <- El, <- Lv; lia).
  destruct (ix_onto c P _ Hk') as (s & Hs & Ks & _ & Ns). rewrite Nat2Z.id, <- El in Ns. pose proof (canon_describes _ _ _ _ Hs) as D.
  assert (Vk : nth k v 0%Qc = psi s) by (destruct A as [_ A]; apply nth_error_nth; now apply (A k (canon (nsites c) s))).
  transitivity (sum_sites (nsites c) (fun i => sum_sites (nsites c) (fun j => psi s * (spin_of (s i) * spin_of (s j))))%Qc).
  - apply sum_sites_ext. intros i Hi. apply sum_sites_ext. intros j Hj.
    destruct (C39_two_sites_pf c l v psi i j P HB O A Hi Hj) as (v' & E1 & _ & A'). rewrite (HR i j Hi Hj) in E1. injection E1 as <-.
    rewrite (nth_error_nth _ _ _ (A' k _ s Ns D)). ring.
  - rewrite Vk, <- (total_sector c s P Hs). unfold total_z.
    transitivity (sum_sites (nsites c) (fun i => (psi s * sum_sites (nsites c) (fun j => spin_of (s j))) * spin_of (s i))%Qc).
    + apply sum_sites_ext. intros i _. rewrite <- (Qcmult_comm (spin_of (s i))), Qcmult_assoc, <- sum_sites_scale. apply sum_sites_ext. intros; ring.
    + rewrite sum_sites_scale. ring.
Qed.

(** ** C40 *)
Lemma C40_exact_pf : forall E c v roots s k a b, compute_S2_exp_val E c v = Ok (s * (s + 1))%Qc -> 0 <= k -> s = (half * qz k)%Qc ->
  roots (s * (s + 1))%Qc = (a, b) -> (a + b = - (1))%Qc -> (a * b = - (s * (s + 1)))%Qc ->
  compute_spin_number E roots c v = Ok (Some s).
Proof.
  intros E c v roots s k a b Ev Hk Es R Sum Prod. unfold compute_spin_number. rewrite Ev, R.
  assert (Fact : ((a - s) * (a + s + 1) = 0)%Qc).
  { assert (B : b = (- (1) - a)%Qc) by (rewrite <- Sum; ring). rewrite B in Prod. transitivity (- (a * (- (1) - a)) - s * (s + 1))%Qc; [ring|]. rewrite Prod. ring. }
  assert (S0 : (0 <= s)%Qc).
  { rewrite Es. assert (inject_Z 0 <= inject_Z k)%Q by (now rewrite <- Zle_Qle). change (inject_Z 0) with 0%Q in H. qc. }
  assert (Fin : (qz (round0 (qz 2 * s)) / qz 2)%Qc = s).
  { rewrite half_is. replace (qz 2 * s)%Qc with (qz k). 
    - rewrite (round_near (qz k) k); [now symmetry | qc | qc].
    - rewrite Es. apply Qc_eq_this. qc. change (inject_Z 2) with 2%Q. ring. }
  apply Qcmult_integral in Fact. destruct Fact as [F|F].
  - assert (a = s) as -> by (rewrite <- (Qcplus_0_r s), <- F; ring). destruct (Qclt_le_dec s 0) as [L|_]; [exfalso; exact (Qclt_not_le _ _ L S0)|]. now rewrite Fin.
  - assert (Ea : a = (- (s + 1))%Qc) by (apply (f_equal (fun z => (z - (s + 1))%Qc)) in F; transitivity (a + s + 1 - (s + 1))%Qc; [ring|]; rewrite F; ring).
    assert (Eb : b = s) by (rewrite Ea in Sum; transitivity (- (s + 1) + b + (s + 1))%Qc; [ring|]; rewrite Sum; ring).
    rewrite Ea, Eb. destruct (Qclt_le_dec _ 0) as [_|L]; [now rewrite Fin|]. exfalso. qc.
Qed.

Lemma C40_rounded_pf : forall E c v roots x s k a b, compute_S2_exp_val E c v = Ok x -> 0 <= k -> s = (half * qz k)%Qc ->
  roots x = (a, b) ->
  (0 <= a /\ s - qfrac 1 4 < a /\ a < s + qfrac 1 4)%Qc \/ (a < 0 /\ s - qfrac 1 4 < b /\ b < s + qfrac 1 4)%Qc ->
  compute_spin_number E roots c v = Ok (Some s).
Proof.
  intros E c v roots x s k a b Ev Hk Es R H. unfold compute_spin_number. rewrite Ev, R.
  assert (G : forall y, (s - qfrac 1 4 < y)%Qc -> (y < s + qfrac 1 4)%Qc -> (qz (round0 (qz 2 * y)) / qz 2)%Qc = s).
  { intros y Y1 Y2. rewrite half_is. rewrite (round_near (qz 2 * y) k); [now symmetry | |]; rewrite Es in *; qc; change (inject_Z 2) with 2%Q in *; lra. }
  destruct H as [(H0 & H1 & H2)|(H0 & H1 & H2)]; destruct (Qclt_le_dec a 0) as [L|L].
  - exfalso. exact (Qclt_not_le _ _ L H0).
  - now rewrite G.
  - now rewrite G.
  - exfalso. exact (Qclt_not_le _ _ H0 L).
Qed.

Lemma C40_nearest_pf : forall E c v roots x a b, compute_S2_exp_val E c v = Ok x -> roots x = (a, b) ->
  exists k r, compute_spin_number E roots c v = Ok (Some (half * qz k)%Qc) /\ (r = a /\ 0 <= a \/ r = b /\ a < 0)%Qc /\
    (r - qfrac 1 4 <= half * qz k)%Qc /\ (half * qz k <= r + qfrac 1 4)%Qc.
Proof.
  intros E c v roots x a b Ev R. unfold compute_spin_number. rewrite Ev, R.
  assert (G : forall r, (r - qfrac 1 4 <= half * qz (round0 (qz 2 * r)))%Qc /\ (half * qz (round0 (qz 2 * r)) <= r + qfrac 1 4)%Qc).
  { intros r. pose proof (round_half (qz 2 * r)) as [A B]. split; qc; change (inject_Z 2) with 2%Q in *; lra. }
  destruct (Qclt_le_dec a 0) as [L|L]; rewrite half_is.
  - exists (round0 (qz 2 * b)), b. split; [reflexivity|]. split; [auto | apply G].
  - exists (round0 (qz 2 * a)), a. split; [reflexivity|]. split; [auto | apply G].
Qed.

Lemma C40_failure_pf : forall E c v roots, compute_S2_exp_val E c v = Err IndexError ->
  compute_spin_number E roots c v = Ok None /\ compute_spin_multiplicity None = Some "-"%string.
Proof. intros E c v roots H. unfold compute_spin_number. rewrite H. auto. Qed.

Lemma mult_is : forall k, (qz 2 * (half * qz k) + 1)%Qc = qz (k + 1).
Proof.
  intros k. rewrite qz_add. replace (qz 1) with 1%Qc by reflexivity. f_equal. transitivity (qz 2 * half * qz k)%Qc; [ring|].
  replace (qz 2 * half)%Qc with 1%Qc by (apply Qc_is_canon; reflexivity). ring.
Qed.

Lemma qz_lt : forall a b, a < b -> (qz a < qz b)%Qc.
Proof. intros a b H. rewrite Qclt_this, !this_qz. now rewrite <- Zlt_Qlt. Qed.

Lemma qz_neq : forall a b, qz a <> qz b -> a <> b.
Proof. intros a b H ->. now apply H. Qed.

Lemma C40_names_pf : forall k, 0 <= k -> compute_spin_multiplicity (Some (half * qz k)%Qc) = Some (multiplicity_name k).
Proof.
  intros k Hk. unfold compute_spin_multiplicity. cbv zeta. rewrite mult_is.
  repeat (match goal with |- context [Qc_eq_dec (qz (k + 1)) (qz ?j)] => let Q := fresh "Q" in destruct (Qc_eq_dec (qz (k + 1)) (qz j)) as [Q|Q];
    [apply qz_inj in Q; replace k with (j - 1) by lia; reflexivity | apply qz_neq in Q] end).
  assert (5 <= k) by lia.
  destruct (Qclt_le_dec (qz 5) (qz (k + 1))) as [_|L]; [|exfalso; apply (Qcle_not_lt _ _ L); apply qz_lt; lia].
  unfold multiplicity_name. rewrite nth_overflow; [reflexivity|]. cbn [length]. lia.
Qed.

Lemma C40_no_name_pf : forall k, k < 0 -> compute_spin_multiplicity (Some (half * qz k)%Qc) = None.
Proof.
  intros k Hk. unfold compute_spin_multiplicity. cbv zeta. rewrite mult_is.
  repeat (match goal with |- context [Qc_eq_dec (qz (k + 1)) (qz ?j)] => let Q := fresh "Q" in destruct (Qc_eq_dec (qz (k + 1)) (qz j)) as [Q|Q];
    [exfalso; apply qz_inj in Q; lia|] end).
  destruct (Qclt_le_dec (qz 5) (qz (k + 1))) as [L|_]; [|reflexivity]. exfalso. apply (Qclt_not_le _ _ L). apply Qclt_le_weak, qz_lt. lia.
Qed.

(** ** Refutations *)
Definition unit_at (n k : Z) : list Qc := map (fun i => if i =? k then 1%Qc else 0%Qc) (zrange 0 n).
Definition ex_9_2 : configuration := ex_rect 1 1 3 2 1.
Definition ex_10_2 : configuration := ex_rect 5 2 1 2 1.

Lemma C36_unequal_switches_refuted_pf : exists E c w K S arg l m v v',
  set_iter_ok E /\ filled_whole c w /\ proper c /\ holes_in_order E c /\ assembled E c K S arg l m /\ length v = length l /\
  compute_S2 E c v = Ok v' /\ compute_S2 E c (times m v) <> Ok (times m v').
Proof.
  exists cpython, ex22, 2, ex_couplings, only_ij, (RList []). eexists _, _, (unit_at 12 0), _.
  split; [exact cpython_ok|]. split.
  { split; [exists 1, 1, 2; vm_compute; repeat (split; [congruence|]); reflexivity|]. split; [reflexivity|]. vm_compute. intuition congruence. }
  split; [unfold proper; vm_compute; intuition congruence|]. split; [apply C37_eight_sites_pf; vm_compute; congruence|].
  split; [split; [vm_compute; reflexivity|]; vm_compute; reflexivity|]. split; [reflexivity|]. split; [vm_compute; reflexivity|]. vm_compute. discriminate.
Qed.

Lemma C37_two_holes_refuted_pf : exists E c l v, set_iter_ok E /\ proper c /\ construct_basis c = Ok (mkBasis c l) /\ length v = length l /\
  compute_S2 E c v = Err IndexError.
Proof.
  exists cpython, ex_9_2. eexists _, (unit_at 252 251). split; [exact cpython_ok|]. split; [unfold proper; vm_compute; intuition congruence|].
  split; [vm_compute; reflexivity|]. split; [reflexivity | vm_compute; reflexivity].
Qed.

Lemma C37_wrong_index_refuted_pf : exists E c d i j e k e', set_iter_ok E /\ proper c /\
  get_hash_basis (nholes c) (nalpha c) (nbeta c) 176 = Ok d /\ compute_S_plus_S_minus_det E c d i j = Ok (Some e) /\
  compute_hash_table c e = Ok k /\ get_hash_basis (nholes c) (nalpha c) (nbeta c) k = Ok e' /\
  firstn 2 e = [8; 2] /\ firstn 2 e' = [8; 9].
Proof.
  exists cpython, ex_10_2. eexists _, 0, 1, _, _, _. split; [exact cpython_ok|]. split; [unfold proper; vm_compute; intuition congruence|].
  split; [vm_compute; reflexivity|]. split; [vm_compute; reflexivity|]. split; [vm_compute; reflexivity|]. split; [vm_compute; reflexivity|].
  vm_compute. auto.
Qed.

Lemma C40_negative_root_refuted_pf : exists E c v roots a b, set_iter_ok E /\ proper c /\ compute_S2_exp_val E c v = Ok 0%Qc /\ roots 0%Qc = (a, b) /\
  (qfrac (-1) 1000000 < a)%Qc /\ (a < 0)%Qc /\ b = (- (1))%Qc /\
  compute_spin_number E roots c v = Ok (Some (- (1))%Qc) /\ compute_spin_multiplicity (Some (- (1))%Qc) = None.
Proof.
  exists cpython, (ex_rect 1 1 2 2 1), (vadd (unit_at 12 0) (vscale (- (1))%Qc (unit_at 12 1))), (fun _ => (qfrac (-1) 1000001, (- (1))%Qc)). eexists _, _.
  split; [exact cpython_ok|]. split; [unfold proper; vm_compute; intuition congruence|]. split; [apply sameq_ok; vm_compute; reflexivity|]. split; [reflexivity|].
  split; [reflexivity|]. split; [reflexivity|]. split; [reflexivity|]. split; [|vm_compute; reflexivity].
  assert (compute_S2_exp_val cpython (ex_rect 1 1 2 2 1) (vadd (unit_at 12 0) (vscale (- (1))%Qc (unit_at 12 1))) = Ok 0%Qc) as Q by (apply sameq_ok; vm_compute; reflexivity).
  unfold compute_spin_number. rewrite Q. destruct (Qclt_le_dec _ 0) as [_|L]; [|exfalso; vm_compute in L; now apply L]. do 2 f_equal. apply Qc_is_canon. reflexivity.
Qed.
