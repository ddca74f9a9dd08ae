(** The matrix acts on vectors as the t-J operator acts on wave functions. *)
From Coq Require Import ZArith List Bool Lia Permutation QArith Qcanon.
From Verif Require Import PyBase PyFacts Lattice Base Interact Ham Spin Spec SpecOps SpecTJ SpecSpin SpinDefs Geometry HamSpec
  PBasis PSites PRot PInter PSpin POps PHam FBasis FSites FHam FDyn PWave PTJSpin PVec PSecSum PSpinOp PBound.
Import ListNotations.
Open Scope Z_scope.

(** sums over positions and over the listed elements *)
Lemma qsum_nth : forall A (f : nat -> Qc) (g : A -> Qc) l k, (forall j e, nth_error l j = Some e -> f (k + j)%nat = g e) ->
  qsum f (seq k (length l)) = qsum g l.
Proof.
  intros A f g l. induction l as [|e l IH]; intros k H; cbn [length seq]; [reflexivity|]. rewrite !qsum_cons. f_equal.
  - rewrite <- (Nat.add_0_r k). now apply H.
  - apply IH. intros j e0 Hj. rewrite <- (H (Datatypes.S j) e0 Hj). f_equal. lia.
Qed.

Section Act.
Variables (n h b : Z) (L : lattice) (K : interactions) (S : switches).
Hypothesis Hn : 0 <= n.
Hypothesis Hh : 0 <= h.
Hypothesis Hb : 0 <= b.
Hypothesis HS : lat_size L = n.
Variable psi : wave.
Hypothesis O : on_lattice n psi.

(** the sum picks one state *)
Lemma pick_state : forall u x, in_sector n h b u -> ssum n h b (fun t => (only (sameb n t u) x * psi t)%Qc) = (x * psi u)%Qc.
Proof.
  intros u x Hu. unfold ssum. rewrite (qsum_single _ _ _ (canon n u)).
  - assert (sameb n (stt h b (canon n u)) u = true) as -> by (apply sameb_iff; now apply stt_canon). cbn [only].
    f_equal. apply O. now apply stt_canon.
  - apply dets_NoDup.
  - apply in_slist; eauto.
  - intros d Hd Nd. destruct (sameb n (stt h b d) u) eqn:Q; [|cbn [only]; ring]. exfalso. apply Nd.
    apply sameb_iff in Q. destruct (in_slist_st n h b Hn Hh Hb d Hd) as [_ <-]. now apply canon_same.
Qed.

Lemma pick_only : forall (p : bool) u x, (p = true -> in_sector n h b u) ->
  ssum n h b (fun t => (only (p && sameb n t u) x * psi t)%Qc) = only p (x * psi u)%Qc.
Proof.
  intros p u x H. destruct p; cbn [andb].
  - cbn [only]. apply pick_state. now apply H.
  - apply ssum_zero; try assumption. intros s _. cbn [only]. ring.
Qed.

Lemma sum_out : forall m (G : Z -> occupation -> Qc),
  ssum n h b (fun t => (sum_sites m (fun i => G i t) * psi t)%Qc) = sum_sites m (fun i => ssum n h b (fun t => (G i t * psi t)%Qc)).
Proof.
  intros m G. rewrite <- ssum_sites. apply ssum_ext; try assumption. intros s _. rewrite Qcmult_comm, <- sum_sites_scale.
  apply sum_sites_ext. intros i _. ring.
Qed.

Lemma swap_in : forall s i j, 0 <= i < n -> 0 <= j < n -> in_sector n h b s -> in_sector n h b (swap_state i j s).
Proof. intros s i j Hi Hj Hs. eapply describes_sector. apply (swap_describes _ _ _ (canon n s)); try assumption. now apply canon_describes. Qed.

Lemma shift_in : forall s i j k, 0 <= i < n -> 0 <= j < n -> 0 <= k < n -> i <> j -> i <> k -> j <> k -> in_sector n h b s -> in_sector n h b (shift_state i j k s).
Proof.
  intros s i j k Hi Hj Hk N1 N2 N3 Hs. eapply describes_sector. apply (shift_describes _ _ _ (canon n s)); try assumption. now apply canon_describes.
Qed.

Lemma act_switch : forall (p : bool) (G : occupation -> Qc) x, ssum n h b (fun t => (G t * psi t)%Qc) = x ->
  ssum n h b (fun t => (only p (G t) * psi t)%Qc) = only p x.
Proof. intros [] G x H; cbn [only]; [exact H|]. apply ssum_zero; try assumption. intros; ring. Qed.

Lemma act_add : forall (F G : occupation -> Qc) x y, ssum n h b (fun t => (F t * psi t)%Qc) = x -> ssum n h b (fun t => (G t * psi t)%Qc) = y ->
  ssum n h b (fun t => ((F t + G t) * psi t)%Qc) = (x + y)%Qc.
Proof. intros F G x y <- <-. rewrite <- ssum_add. apply ssum_ext; try assumption. intros; ring. Qed.

Lemma act : forall s, in_sector n h b s -> ssum n h b (fun t => (tj_element L K S s t * psi t)%Qc) = w_tj L n K S psi s.
Proof.
  intros s Hs. unfold tj_element, w_tj.
  repeat apply act_add; apply act_switch.
  - unfold op_hop, w_hop. rewrite HS, sum_out. apply sum_sites_ext. intros i Hi. rewrite sum_out. apply sum_sites_ext. intros j Hj.
    apply pick_only. intros _. now apply swap_in.
  - rewrite HS. unfold w_static. rewrite <- pick_state by exact Hs. apply ssum_ext; try assumption. intros t _. now rewrite sameb_comm.
  - unfold op_flip, w_flip. rewrite HS, sum_out. apply sum_sites_ext. intros i Hi. rewrite sum_out. apply sum_sites_ext. intros j Hj.
    apply pick_only. intros _. now apply swap_in.
  - unfold op_singlet, w_singlet. rewrite HS, sum_out. apply sum_sites_ext. intros i Hi. rewrite sum_out. apply sum_sites_ext. intros m Hm.
    rewrite sum_out. apply sum_sites_ext. intros e He. destruct (_ && _ && _ && _ && _ && holeb (s i) && _) eqn:Q; cbn [only].
    2:{ apply ssum_zero; try assumption. intros; ring. }
    rewrite !andb_true_iff in Q. destruct Q as [[_ Q1] Q2].
    assert (i <> m) by (intros ->; destruct (s m); discriminate). assert (i <> e) by (intros ->; destruct (s e), (s m); discriminate).
    assert (m <> e) by (intros ->; destruct (s e); discriminate).
    set (x := if lineb2 (lat_pos L i) (lat_pos L e) then i_hSDpar K else i_hSDper K).
    transitivity (ssum n h b (fun t => (only (sameb n t (shift_state i m e s)) x * psi t)%Qc) + (-(1)) * ssum n h b (fun t => (only (sameb n t (swap_state i e s)) x * psi t)%Qc))%Qc.
    + rewrite <- ssum_scale, <- ssum_add. apply ssum_ext; try assumption. intros t _. destruct (sameb n t (shift_state i m e s)), (sameb n t (swap_state i e s)); cbn [only]; ring.
    + rewrite !pick_state by (first [now apply shift_in | now apply swap_in]). ring.
  - unfold op_next_hop, w_next. rewrite HS, sum_out. apply sum_sites_ext. intros i Hi. rewrite sum_out. apply sum_sites_ext. intros j Hj.
    apply pick_only. intros _. now apply swap_in.
  - rewrite HS. unfold w_repulsion. rewrite <- pick_state by exact Hs. apply ssum_ext; try assumption. intros t _. now rewrite sameb_comm.
Qed.
End Act.

Section Vectors.
Variables (E : runtime) (c : configuration) (w : Z) (K : interactions) (S : switches) (arg : restriction) (l : list (list Z)) (m : csr).
Hypothesis HE : set_iter_ok E.
Hypothesis HF : filled_whole c w.
Hypothesis P : proper c.
Hypothesis HA : assembled E c K S arg l m.
Local Notation n := (nsites c).
Local Notation sec := (in_sector (nsites c) (nholes c) (nbeta c)).
Local Notation LL := (between (nsites c) (point w) (zrange 0 (nsites c)) (zrange 0 (nsites c))).

Lemma slist_nth : forall s, sec s -> nth_error (slist n (nholes c) (nbeta c)) (Z.to_nat (state_index n (nholes c) (nbeta c) s)) = Some (canon n s).
Proof.
  intros s Hs. pose proof P as (A & B & _). pose proof (nth_dets n (Z.to_nat (nholes c)) (Z.to_nat (nbeta c)) s (proper_n c P)) as N.
  rewrite !Z2Nat.id in N by assumption. now apply N.
Qed.

Lemma vat_wave : forall v j e, nth_error (slist n (nholes c) (nbeta c)) j = Some e -> nth j v 0%Qc = wave_of c v (stt (nholes c) (nbeta c) e).
Proof.
  intros v j e Hj. pose proof P as (A & B & _). pose proof (proper_n c P) as Hn.
  destruct (in_slist_st n (nholes c) (nbeta c) Hn A B e (nth_error_In _ _ Hj)) as [S1 S2].
  pose proof (slist_nth _ S1) as Q. rewrite S2 in Q. unfold wave_of, vat. f_equal.
  pose proof (dets_NoDup n (Z.to_nat (nholes c)) (Z.to_nat (nbeta c))) as ND. rewrite NoDup_nth_error in ND. apply ND.
  - apply nth_error_Some. unfold slist in Hj. congruence.
  - unfold slist in *. congruence.
Qed.

Lemma vdot_ssum : forall u v, zlen u = nb_conf c -> zlen v = nb_conf c ->
  vdot u v = ssum n (nholes c) (nbeta c) (fun s => (wave_of c u s * wave_of c v s)%Qc).
Proof.
  intros u v Lu Lv. assert (LE : length u = length v) by (unfold zlen in *; lia). rewrite vdot_sum by assumption. unfold sum_sites, sites. rewrite qsum_map.
  unfold zlen. rewrite Nat2Z.id. unfold ssum.
  assert (LS : length u = length (slist n (nholes c) (nbeta c))).
  { apply Nat2Z.inj. change (zlen u = zlen (slist n (nholes c) (nbeta c))). rewrite Lu. symmetry. now apply proper_length. }
  rewrite LS. apply qsum_nth. intros j e Hj. unfold vat. rewrite Nat2Z.id. cbn [Nat.add]. now rewrite !(vat_wave _ j e Hj).
Qed.

Lemma times_length : forall v, length (times m v) = length v.
Proof. intros v. unfold times. now rewrite map_length, seq_length. Qed.

Lemma times_sum : forall v s, zlen v = nb_conf c -> sec s ->
  wave_of c (times m v) s = ssum n (nholes c) (nbeta c) (fun t => (tj_element LL K S s t * wave_of c v t)%Qc).
Proof.
  intros v s Lv Hs. destruct (core _ _ _ _ _ _ _ _ _ HE HF HA) as (-> & D & R & M).
  pose proof P as (A & B & _). pose proof (proper_n c P) as Hn. pose proof (ix_range c P s Hs) as Rg.
  set (k := state_index n (nholes c) (nbeta c) s) in *.
  assert (LS : length v = length (slist n (nholes c) (nbeta c))).
  { apply Nat2Z.inj. change (zlen v = zlen (slist n (nholes c) (nbeta c))). rewrite Lv. symmetry. now apply proper_length. }
  unfold wave_of at 1. fold k. unfold vat, times.
  assert (Hk : (Z.to_nat k < length v)%nat) by (unfold zlen in Lv; lia).
  set (f := fun i => qsum (fun j => (csr_at m (Z.of_nat i) (Z.of_nat j) * nth j v 0)%Qc) (seq 0 (length v))).
  rewrite (nth_indep _ _ (f 0%nat)) by (now rewrite map_length, seq_length).
  rewrite (map_nth f), seq_nth by assumption. unfold f. cbn [Nat.add]. unfold ssum. rewrite LS. apply qsum_nth. intros j e Hj. cbn [Nat.add].
  rewrite (vat_wave v j e Hj). f_equal.
  apply (M (Z.to_nat k) j (canon n s) e); [now apply slist_nth | exact Hj | now apply canon_describes|].
  destruct (in_slist_st n (nholes c) (nbeta c) Hn A B e (nth_error_In _ _ Hj)) as [S1 S2]. rewrite <- S2 at 1. now apply canon_describes.
Qed.

Lemma times_wave : forall v psi s, zlen v = nb_conf c -> on_lattice n psi -> (forall t, sec t -> wave_of c v t = psi t) -> sec s ->
  wave_of c (times m v) s = w_tj LL n K S psi s.
Proof.
  intros v psi s Lv O H Hs. pose proof P as (A & B & _). pose proof (proper_n c P) as Hn.
  rewrite times_sum by assumption. rewrite <- (act n (nholes c) (nbeta c)); try assumption; [|reflexivity].
  apply ssum_ext; try assumption. intros t Ht. now rewrite H.
Qed.

Lemma squared_sector : forall psi phi, on_lattice n psi -> on_lattice n phi -> (forall t, sec t -> psi t = phi t) ->
  forall s, sec s -> S_squared n psi s = S_squared n phi s.
Proof.
  intros psi phi O1 O2 H s Hs. rewrite !squared_form by assumption. rewrite (H s Hs). f_equal. unfold flips.
  apply sum_sites_ext. intros i Hi. apply sum_sites_ext. intros j Hj. f_equal. apply H. now apply swap_in.
Qed.

Lemma tj_on : forall psi, s_bz S = s_bij S -> on_lattice n psi -> on_lattice n (w_tj LL n K S psi).
Proof. intros psi Q O. apply (ks_tj LL n K S); assumption || reflexivity. Qed.

Lemma squared_on : forall psi, on_lattice n psi -> on_lattice n (S_squared n psi).
Proof.
  intros psi O s t H. unfold S_squared. f_equal; [f_equal; f_equal|].
  - apply (ladder_on n Up Down); [apply (ladder_on n Down Up); assumption | assumption].
  - apply (ladder_on n Down Up); [apply (ladder_on n Up Down); assumption | assumption].
  - apply sz_on; [now apply sz_on | assumption].
Qed.

Lemma commute : holes_in_order E c -> s_bz S = s_bij S -> forall v, zlen v = nb_conf c ->
  exists v', compute_S2 E c v = Ok v' /\ compute_S2 E c (times m v) = Ok (times m v').
Proof.
  intros HO Q v Lv. destruct (S2_ok E c HE P HO v Lv) as (v' & E1 & L1 & V1). exists v'. split; [exact E1|].
  assert (Lt : zlen (times m v) = nb_conf c) by (unfold zlen in *; now rewrite times_length).
  destruct (S2_ok E c HE P HO (times m v) Lt) as (u & E2 & L2 & V2). rewrite E2. f_equal.
  assert (L1' : zlen v' = nb_conf c) by (unfold zlen in *; congruence).
  apply vat_ext.
  - rewrite times_length. rewrite L2, times_length. congruence.
  - intros k Hk. assert (Hk' : 0 <= k < nb_conf c) by (rewrite <- Lt; unfold zlen in *; congruence).
    destruct (ix_onto c P k Hk') as (s & Hs & <- & _). change (wave_of c u s = wave_of c (times m v') s).
    rewrite V2 by assumption. rewrite (times_wave v' (S_squared n (wave_of c v)) s L1' (squared_on _ (wave_on c v)) V1 Hs).
    rewrite tj_squared by (first [assumption | reflexivity | apply wave_on]).
    apply squared_sector; try assumption.
    + apply wave_on.
    + apply tj_on; [assumption | apply wave_on].
    + intros t Ht. apply times_wave; try assumption; [apply wave_on | reflexivity].
Qed.
End Vectors.
