(** Final lemmas for C81: the multiplets of spin. *)
From Coq Require Import ZArith List Bool Lia Permutation QArith Qcanon.
From Verif Require Import PyBase PyFacts Lattice Base Interact Ham Spin Spec SpecOps SpecTJ SpecSpin SpinDefs Geometry HamSpec
  PBasis PSites PRot PInter PSpin POps PHam FBasis FSites FHam FDyn PWave PTJSpin PVec PSecSum PSpinOp PBound PAct PQc FSpin Runtimes Examples FInter.
Import ListNotations.
Open Scope Z_scope.

(** a vector for every wave function *)
Lemma vector_exists : forall c psi, proper c -> on_lattice (nsites c) psi ->
  exists v, amplitudes c (slist (nsites c) (nholes c) (nbeta c)) v psi.
Proof.
  intros c psi P O. exists (map (fun d => psi (stt (nholes c) (nbeta c) d)) (slist (nsites c) (nholes c) (nbeta c))). split; [apply map_length|].
  intros k d s Hk D. rewrite nth_error_map, Hk. cbn [option_map]. f_equal. apply O. pose proof P as (A & B & _). now apply stt_describes.
Qed.

Section Waves.
Variables (n h : Z) (L : lattice) (K : interactions) (S : switches).
Hypothesis Hn : 0 <= n.
Hypothesis Hh : 0 <= h.
Hypothesis HS : lat_size L = n.
Hypothesis HQ : s_bz S = s_bij S.
Hypothesis FT : forall x, 0 <= x < lat_size L -> lat_from L x = lat_to L x.

Definition energy (b : Z) (e : Qc) : Prop :=
  exists psi, on_lattice n psi /\ (forall s, in_sector n h b s -> w_tj L n K S psi s = (e * psi s)%Qc) /\ exists s, in_sector n h b s /\ psi s <> 0%Qc.

Lemma in_sector_same : forall b s t, same_state n s t -> in_sector n h b s -> in_sector n h b t.
Proof.
  intros b s t H Q. apply sector_num in Q. apply sector_num. unfold num in *. destruct Q as [<- <-].
  split; apply sum_sites_ext; intros i Hi; now rewrite (H i Hi).
Qed.

Lemma ssum_square_zero : forall b psi, 0 <= b -> on_lattice n psi -> (ssum n h b (fun t => (psi t * psi t)%Qc) <= 0)%Qc -> forall s, in_sector n h b s -> psi s = 0%Qc.
Proof.
  intros b psi Hb O Q s Hs. destruct (Qc_eq_dec (psi s) 0) as [|N]; [assumption|]. exfalso.
  assert (G : (psi s * psi s <= ssum n h b (fun t => psi t * psi t))%Qc).
  { unfold ssum. assert (I : In (canon n s) (slist n h b)) by (apply in_slist; eauto).
    rewrite (O s (stt h b (canon n s))) by (intros x Hx; symmetry; now apply stt_canon).
    revert I. generalize (slist n h b) (canon n s). clear. induction l as [|d l IH]; intros d0 []; subst; rewrite qsum_cons.
    - rewrite <- (Qcplus_0_r (psi (stt h b d0) * psi (stt h b d0))%Qc) at 1. apply Qcplus_le_compat; [apply Qcle_refl|].
      apply qsum_nonneg. intros; apply square_nonneg.
    - rewrite <- (Qcplus_0_l (psi (stt h b d0) * psi (stt h b d0))%Qc). apply Qcplus_le_compat; [apply square_nonneg | now apply IH]. }
  assert (Z0 : (psi s * psi s)%Qc = 0%Qc) by (apply Qcle_antisym; [now apply Qcle_trans with (1 := G) | apply square_nonneg]).
  apply Qcmult_integral in Z0. tauto.
Qed.

(** [S-] on a state of the sector with more ups than downs *)
Lemma lowered_nonzero : forall b psi, 0 <= b -> b < n - h - b -> on_lattice n psi ->
  (forall t, in_sector n h (b + 1) t -> S_minus n psi t = 0%Qc) -> forall s, in_sector n h b s -> psi s = 0%Qc.
Proof.
  intros b psi Hb Hab O H0. apply ssum_square_zero; [assumption | assumption|].
  set (N2 := ssum n h b (fun t => (psi t * psi t)%Qc)).
  assert (A1 : ssum n h b (fun t => (psi t * S_plus n (S_minus n psi) t)%Qc) = 0%Qc).
  { transitivity (ssum n h (b + 1) (fun u => (S_minus n psi u * S_minus n psi u)%Qc)).
    - apply (ladder_square n h b (b + 1) Down Up psi); try assumption; try lia; [discriminate| |].
      + intros; now apply put_down_sector.
      + intros i s Hi Q Sc. replace b with (b + 1 - 1) by lia. now apply put_up_sector.
    - apply ssum_zero; try assumption; [lia|]. intros s Hs. rewrite (H0 s Hs). ring. }
  assert (A2 : (0 <= ssum n h b (fun t => psi t * S_minus n (S_plus n psi) t))%Qc).
  { destruct (squared_square n h b Hn Hh Hb psi O) as [Q _].
    erewrite ssum_ext; [exact Q | assumption | assumption | assumption|]. intros s Hs. cbv beta. f_equal.
    rewrite (C37_ladder_form_pf n psi s O). rewrite total_num. destruct (num_of n h b Hn s Hs) as [-> ->]. unfold mz. ring. }
  assert (A3 : (ssum n h b (fun t => psi t * S_plus n (S_minus n psi) t) = ssum n h b (fun t => psi t * S_minus n (S_plus n psi) t) + qz (n - h - b - b) * N2)%Qc).
  { unfold N2. rewrite <- ssum_scale, <- ssum_add. apply ssum_ext; try assumption. intros s Hs. rewrite sp_sm, sm_sp by assumption.
    destruct (num_of n h b Hn s Hs) as [-> ->]. rewrite (qz_sub (n - h - b) b). ring. }
  rewrite A1 in A3.
  destruct (Qclt_le_dec 0 N2) as [Lt|]; [|assumption]. exfalso.
  assert (P : (0 < qz (n - h - b - b) * N2)%Qc).
  { rewrite <- (Qcmult_0_l N2). apply Qcmult_lt_compat_r; [assumption|]. apply Qclt_this. rewrite this_qz. change (this 0%Qc) with (inject_Z 0). rewrite <- Zlt_Qlt. lia. }
  apply (Qclt_not_le _ _ P). rewrite <- (Qcplus_0_l (qz (n - h - b - b) * N2)%Qc). rewrite A3 at 2. apply Qcplus_le_compat; [assumption | apply Qcle_refl].
Qed.

Lemma in_sector_on : forall b psi phi, (forall s, in_sector n h b s -> psi s = phi s) -> forall t, in_sector n h (b + 1) t -> S_minus n psi t = S_minus n phi t.
Proof.
  intros b psi phi H t Ht. unfold S_minus. apply sum_sites_ext. intros i Hi. destruct (samep (t i) Down) eqn:Q; [|reflexivity]. cbn [only].
  apply H. apply samep_iff in Q. replace b with (b + 1 - 1) by lia. now apply put_up_sector.
Qed.

Lemma lowered_some : forall b psi s, 0 <= b -> b < n - h - b -> on_lattice n psi -> in_sector n h b s -> psi s <> 0%Qc ->
  exists t, in_sector n h (b + 1) t /\ S_minus n psi t <> 0%Qc.
Proof.
  intros b psi s Hb Hab O Hs N.
  destruct (existsb (fun d => negb (if Qc_eq_dec (S_minus n psi (stt h (b + 1) d)) 0 then true else false)) (slist n h (b + 1))) eqn:Q.
  - apply existsb_exists in Q. destruct Q as (d & Hd & Q). destruct (Qc_eq_dec _ 0) as [|Nd]; [discriminate|]. exists (stt h (b + 1) d). split; [|assumption].
    apply (in_slist_st n h (b + 1)); try assumption; lia.
  - exfalso. apply N. apply (lowered_nonzero b psi Hb Hab O); [|assumption]. intros t Ht.
    destruct (Qc_eq_dec (S_minus n psi t) 0) as [|Nt]; [assumption|]. exfalso.
    assert (X : existsb (fun d => negb (if Qc_eq_dec (S_minus n psi (stt h (b + 1) d)) 0 then true else false)) (slist n h (b + 1)) = true).
    { apply existsb_exists. exists (canon n t). split; [apply in_slist; try lia; eauto|].
      destruct (Qc_eq_dec _ 0) as [Z0|]; [|reflexivity]. exfalso. apply Nt. rewrite <- Z0.
      apply (ladder_on n Down Up); [assumption|]. intros x Hx. symmetry. apply stt_canon; try assumption; lia. }
    congruence.
Qed.

Lemma lowered_tj : forall b psi e, on_lattice n psi -> (forall s, in_sector n h b s -> w_tj L n K S psi s = (e * psi s)%Qc) ->
  forall t, in_sector n h (b + 1) t -> w_tj L n K S (S_minus n psi) t = (e * S_minus n psi t)%Qc.
Proof.
  intros b psi e O He t Ht. assert (KS' : keeps_spin n (w_tj L n K S)) by (apply ks_tj; assumption). destruct KS' as (K1 & K2 & K3).
  destruct (K3 psi t O) as [_ ->]. rewrite (in_sector_on b _ (fun u => (e * psi u)%Qc) He t Ht). apply (ladder_scale n Down Up).
Qed.

Lemma energy_lowered : forall b e, 0 <= b -> b < n - h - b -> energy b e -> energy (b + 1) e.
Proof.
  intros b e Hb Hab (psi & O & He & s & Hs & N).
  exists (S_minus n psi). split; [now apply (ladder_on n Down Up)|]. split; [now apply lowered_tj | now apply lowered_some with (s := s)].
Qed.

Lemma flip_in : forall b s, in_sector n h b s -> in_sector n h (n - h - b) (flip_state s).
Proof.
  intros b s Hs. pose proof (num_of n h b Hn s Hs) as [U D]. apply sector_num in Hs. apply sector_num. destruct Hs as [<- _].
  assert (F : forall p, num n (flip_state s) p = num n s (flip_particle p)).
  { intros p. unfold num. apply sum_sites_ext. intros i _. unfold flip_state. destruct (s i), p; reflexivity. }
  rewrite !F. cbn [flip_particle]. auto.
Qed.

Lemma flip_twice : forall t x, flip_state (flip_state t) x = t x.
Proof. intros t x. unfold flip_state. now destruct (t x). Qed.
Lemma flip_same : forall s t, same_state n s t -> same_state n (flip_state s) (flip_state t).
Proof. intros s t H x Hx. unfold flip_state. now rewrite (H x Hx). Qed.
Lemma flipped_on : forall psi, on_lattice n psi -> on_lattice n (fun t => psi (flip_state t)).
Proof. intros psi O u t H. apply O. now apply flip_same. Qed.

Lemma flipped_tj : forall b psi e, 0 <= b -> 0 <= n - h - b -> on_lattice n psi -> (forall s, in_sector n h b s -> w_tj L n K S psi s = (e * psi s)%Qc) ->
  forall t, in_sector n h (n - h - b) t -> w_tj L n K S (fun t => psi (flip_state t)) t = (e * psi (flip_state t))%Qc.
Proof.
  intros b psi e Hb Ha O He t Ht. pose proof flip_twice as FF. pose proof flip_same as FS. pose proof (flipped_on psi O) as O'. rewrite <- He.
  2:{ replace b with (n - h - (n - h - b)) by lia. now apply flip_in. }
  rewrite <- (act n h (n - h - b)), <- (act n h b); try assumption.
  2:{ replace b with (n - h - (n - h - b)) by lia. now apply flip_in. }
  transitivity (ssum n h (n - h - b) (fun u => only true (tj_element L K S t u * psi (flip_state u))%Qc)); [reflexivity|].
  rewrite (ssum_move n h (n - h - b) h b flip_state flip_state (fun _ => true) (fun _ => true)); try assumption; try (intros; reflexivity).
  - apply ssum_ext; try assumption. intros u _. cbn [only]. f_equal.
    + rewrite <- (tj_spin_flip L K S t (flip_state u) FT). apply (tj_ext L L n); try assumption; try reflexivity; [intros x Hx; apply FT; now rewrite HS | intros x Hx; reflexivity | intros x Hx; symmetry; apply FF].
    + apply O. intros x _. apply FF.
  - intros u u' H. f_equal; [|now apply O'].
    apply (tj_ext L L n); try assumption; try reflexivity; [intros x Hx; apply FT; now rewrite HS | intros x Hx; reflexivity | intros x Hx; symmetry; now apply H].
  - intros u Hu _. split; [replace b with (n - h - (n - h - b)) by lia; now apply flip_in|]. split; [reflexivity | intros x _; apply FF].
  - intros u Hu _. split; [now apply flip_in|]. split; [reflexivity | intros x _; apply FF].
Qed.

Lemma energy_flipped : forall b e, 0 <= b -> 0 <= n - h - b -> energy b e -> energy (n - h - b) e.
Proof.
  intros b e Hb Ha (psi & O & He & s & Hs & N).
  exists (fun t => psi (flip_state t)). split; [now apply flipped_on|]. split; [now apply flipped_tj|].
  exists (flip_state s). split; [now apply flip_in|]. intros Q. apply N. rewrite <- Q. apply O. intros x _. symmetry. apply flip_twice.
Qed.
End Waves.

Section Vectors.
Variables (E : runtime) (c : configuration) (w : Z) (K : interactions) (S : switches) (arg : restriction) (l : list (list Z)) (m : csr).
Hypothesis HE : set_iter_ok E.
Hypothesis HF : filled_whole c w.
Hypothesis P : proper c.
Hypothesis HA : assembled E c K S arg l m.
Hypothesis HQ : s_bz S = s_bij S.
Local Notation LL := (between (nsites c) (point w) (zrange 0 (nsites c)) (zrange 0 (nsites c))).

Lemma lattice_symmetric : forall x, 0 <= x < lat_size LL -> lat_from LL x = lat_to LL x.
Proof. reflexivity. Qed.

Lemma dim_is : csr_dim m = nb_conf c.
Proof. destruct (core _ _ _ _ _ _ _ _ _ HE HF HA) as (_ & D & _). rewrite D. apply (proper_length c P). Qed.

Lemma energy_of_vector : forall e v, eigenvector m e v -> energy (nsites c) (nholes c) LL K S (nbeta c) e.
Proof.
  intros e v (Lv & Ev & x & Ix & Nx). rewrite dim_is in Lv. exists (wave_of c v). split; [apply wave_on|]. split.
  - intros s Hs. rewrite <- (times_wave E c w K S arg l m HE HF P HA v (wave_of c v) s Lv (wave_on c v)) by (auto || reflexivity).
    rewrite Ev. unfold wave_of. change (map (fun x => (e * x)%Qc) v) with (vscale e v). apply vat_scale.
  - apply (In_nth _ _ 0%Qc) in Ix. destruct Ix as (k & Hk & <-). unfold zlen in Lv. destruct (ix_onto c P (Z.of_nat k) ltac:(lia)) as (s & Hs & Is & _).
    exists s. split; [assumption|]. unfold wave_of. rewrite Is. unfold vat. rewrite Nat2Z.id. exact Nx.
Qed.

Lemma vector_of_energy : forall e, energy (nsites c) (nholes c) LL K S (nbeta c) e -> exists v, eigenvector m e v.
Proof.
  intros e (psi & O & He & s0 & Hs0 & N0). destruct (vector_exists c psi P O) as (v & A). exists v.
  apply (amplitudes_iff c P v psi O) in A. destruct A as [Lv V]. split; [now rewrite dim_is|]. split.
  - change (map (fun x => (e * x)%Qc) v) with (vscale e v). apply vat_ext; [now rewrite times_length, vscale_length|].
    intros k Hk. assert (Hk' : 0 <= k < nb_conf c) by (rewrite <- Lv; unfold zlen in *; now rewrite times_length in Hk).
    destruct (ix_onto c P k Hk') as (s & Hs & <- & _). rewrite vat_scale. change (wave_of c (times m v) s = (e * wave_of c v s)%Qc).
    rewrite (times_wave E c w K S arg l m HE HF P HA v psi s Lv O V Hs), V by assumption. now apply He.
  - exists (wave_of c v s0). split; [|now rewrite V]. unfold wave_of, vat. apply nth_In. pose proof (ix_range c P s0 Hs0). unfold zlen in Lv. lia.
Qed.
End Vectors.

Lemma C81_lowered_pf : forall E c c' w K S arg arg' l l' m m' v v' psi, set_iter_ok E -> filled_whole c w -> filled_whole c' w -> proper c -> proper c' ->
  nsites c' = nsites c -> nholes c' = nholes c -> nbeta c' = nbeta c + 1 -> s_bz S = s_bij S ->
  assembled E c K S arg l m -> assembled E c' K S arg' l' m' ->
  on_lattice (nsites c) psi -> amplitudes c l v psi -> amplitudes c' l' v' (S_minus (nsites c) psi) ->
  exists phi, on_lattice (nsites c) phi /\ amplitudes c l (times m v) phi /\ amplitudes c' l' (times m' v') (S_minus (nsites c) phi).
Proof.
  intros E c c' w K S arg arg' l l' m m' v v' psi HE HF HF' P P' Hn Hh Hb HQ HA HA' O A A'.
  assert (Hl : l = slist (nsites c) (nholes c) (nbeta c)) by (apply (basis_is c l P); apply HA).
  assert (Hl' : l' = slist (nsites c') (nholes c') (nbeta c')) by (apply (basis_is c' l' P'); apply HA').
  rewrite Hl in A. rewrite Hl' in A'. apply (amplitudes_iff c P v psi O) in A. destruct A as [Lv V].
  assert (OS : on_lattice (nsites c') (S_minus (nsites c) psi)) by (rewrite Hn; now apply (ladder_on (nsites c) Down Up)).
  apply (amplitudes_iff c' P' v' _ OS) in A'. destruct A' as [Lv' V'].
  set (L := between (nsites c) (point w) (zrange 0 (nsites c)) (zrange 0 (nsites c))).
  assert (KS : keeps_spin (nsites c) (w_tj L (nsites c) K S)) by (apply ks_tj; (assumption || reflexivity)). destruct KS as (K1 & _ & K3).
  exists (w_tj L (nsites c) K S psi). split; [now apply K1|]. split.
  - rewrite Hl. apply (amplitudes_iff c P); [now apply K1|]. split; [unfold zlen in *; now rewrite times_length|].
    intros s Hs. now apply (times_wave E c w K S arg l m).
  - rewrite Hl'. apply (amplitudes_iff c' P'); [rewrite Hn; apply (ladder_on (nsites c) Down Up); now apply K1|]. split; [unfold zlen in *; now rewrite times_length|].
    intros s Hs. rewrite (times_wave E c' w K S arg' l' m' HE HF' P' HA' v' _ s Lv' OS V' Hs). rewrite Hn. now apply K3.
Qed.

Lemma C81_energies_pf : forall E c c' w K S arg arg' l l' m m' e v, set_iter_ok E -> filled_whole c w -> filled_whole c' w -> proper c -> proper c' ->
  nsites c' = nsites c -> nholes c' = nholes c -> Z.min (nalpha c) (nbeta c) <= Z.min (nalpha c') (nbeta c') -> s_bz S = s_bij S ->
  assembled E c K S arg l m -> assembled E c' K S arg' l' m' -> eigenvector m e v -> exists v', eigenvector m' e v'.
Proof.
  intros E c c' w K S arg arg' l l' m m' e v HE HF HF' P P' Hn Hh Hm HQ HA HA' Hv.
  apply (vector_of_energy E c' w K S arg' l' m' HE HF' P' HA'). rewrite Hn, Hh.
  pose proof (energy_of_vector E c w K S arg l m HE HF P HA e v Hv) as En.
  set (L := between (nsites c) (point w) (zrange 0 (nsites c)) (zrange 0 (nsites c))) in *.
  pose proof P as (A1 & A2 & A3 & A4 & _). pose proof P' as (B1 & B2 & B3 & B4 & _). rewrite Hn, Hh in B4. pose proof (proper_n c P) as N0.
  set (n := nsites c) in *. set (h := nholes c) in *.
  assert (FT : forall x, 0 <= x < lat_size L -> lat_from L x = lat_to L x) by reflexivity.
  assert (F : forall b, 0 <= b -> 0 <= n - h - b -> energy n h L K S b e -> energy n h L K S (n - h - b) e).
  { intros b Hb Hb'. apply energy_flipped; (assumption || reflexivity). }
  assert (E1 : energy n h L K S (Z.min (nalpha c) (nbeta c)) e).
  { destruct (Z.min_spec (nalpha c) (nbeta c)) as [[_ ->]|[_ ->]]; [|exact En]. rewrite A4. apply F; [assumption | lia | exact En]. }
  set (b0 := Z.min (nalpha c) (nbeta c)) in *. set (b1 := Z.min (nalpha c') (nbeta c')) in *.
  assert (B0 : 0 <= b0) by lia.
  assert (I : forall k, b0 + Z.of_nat k <= b1 -> energy n h L K S (b0 + Z.of_nat k) e).
  { induction k as [|k IH]; intros Hk; [now rewrite Z.add_0_r|]. rewrite Nat2Z.inj_succ, <- Z.add_1_r, Z.add_assoc.
    apply energy_lowered; try assumption; try lia; [reflexivity|]. apply IH. lia. }
  specialize (I (Z.to_nat (b1 - b0)) ltac:(lia)). rewrite Z2Nat.id in I by lia. replace (b0 + (b1 - b0)) with b1 in I by lia.
  subst b1. destruct (Z.min_spec (nalpha c') (nbeta c')) as [[_ Q]|[_ Q]]; rewrite Q in I; [|exact I].
  replace (nbeta c') with (n - h - nalpha c') by lia. apply F; [assumption | lia | exact I].
Qed.

Lemma C81_injective_pf : forall c c' l l' v v' psi, proper c -> proper c' ->
  nsites c' = nsites c -> nholes c' = nholes c -> nbeta c' = nbeta c + 1 -> nbeta c < nalpha c ->
  construct_basis c = Ok (mkBasis c l) -> construct_basis c' = Ok (mkBasis c' l') ->
  on_lattice (nsites c) psi -> amplitudes c l v psi -> amplitudes c' l' v' (S_minus (nsites c) psi) ->
  (forall x, In x v' -> x = 0%Qc) -> forall x, In x v -> x = 0%Qc.
Proof.
  intros c c' l l' v v' psi P P' Hn Hh Hb Hab HB HB' O A A' H0 x Hx.
  rewrite (basis_is c l P HB) in A. rewrite (basis_is c' l' P' HB') in A'.
  apply (amplitudes_iff c P v psi O) in A. destruct A as [Lv V].
  assert (OS : on_lattice (nsites c') (S_minus (nsites c) psi)) by (rewrite Hn; now apply (ladder_on (nsites c) Down Up)).
  apply (amplitudes_iff c' P' v' _ OS) in A'. destruct A' as [Lv' V'].
  apply (In_nth _ _ 0%Qc) in Hx. destruct Hx as (k & Hk & <-). unfold zlen in Lv. destruct (ix_onto c P (Z.of_nat k) ltac:(lia)) as (s & Hs & Is & _).
  replace (nth k v 0%Qc) with (wave_of c v s) by (unfold wave_of, vat; now rewrite Is, Nat2Z.id). rewrite V by assumption.
  pose proof P as (A1 & A2 & A3 & A4 & _).
  apply (lowered_nonzero (nsites c) (nholes c) (proper_n c P) A1 (nbeta c) psi); try assumption; [lia|]. intros t Ht.
  rewrite <- Hn, <- Hh, <- Hb in Ht. rewrite <- V' by assumption. apply H0. unfold wave_of, vat. apply nth_In. pose proof (ix_range c' P' t Ht). unfold zlen in Lv'. lia.
Qed.

(** two sites without holes: the singlet has no partner with two ups *)
Definition pair_ham (b : Z) : csr :=
  get (mkCsr 0 []) (bs <- construct_basis (ex_rect 2 1 1 0 b) ;; build_hamiltonian cpython (ex_rect 2 1 1 0 b) ex_couplings bs (mkSwitches true true true true true true) (RList [])).
Definition pair_basis (b : Z) : list (list Z) := get [] (bs <- construct_basis (ex_rect 2 1 1 0 b) ;; Ok (determinants bs)).
Lemma pair_ok : forall b, 0 <= b <= 1 -> filled_whole (ex_rect 2 1 1 0 b) 2 /\ proper (ex_rect 2 1 1 0 b) /\
  assembled cpython (ex_rect 2 1 1 0 b) ex_couplings (mkSwitches true true true true true true) (RList []) (pair_basis b) (pair_ham b).
Proof.
  intros b Hb. assert (b = 0 \/ b = 1) as [->| ->] by lia.
  all: split; [split; [exists 2, 1, 1; vm_compute; repeat (split; [congruence|]); reflexivity|]; split; [reflexivity|]; vm_compute; intuition congruence|].
  all: split; [unfold proper; vm_compute; intuition congruence | split; vm_compute; reflexivity].
Qed.
Lemma no_singlet : forall m' e v', csr_dim m' = 1 -> csr_at m' 0 0 <> e -> ~ eigenvector m' e v'.
Proof.
  intros m' e v' D N (Lv & Ev & x & Ix & Nx). rewrite D in Lv. destruct v' as [|y [|z v']]; try discriminate; [|unfold zlen in Lv; cbn [length] in Lv; lia].
  destruct Ix as [->|[]]. unfold times in Ev. cbn [length seq map] in Ev. rewrite qsum_cons, qsum_nil in Ev. cbn [nth] in Ev. change (Z.of_nat 0) with 0 in Ev.
  assert (Q : ((csr_at m' 0 0 - e) * x = 0)%Qc).
  { apply (f_equal (fun l => nth 0 l 0%Qc)) in Ev. cbn [nth] in Ev. transitivity (csr_at m' 0 0 * x + 0 - e * x)%Qc; [ring|]. rewrite Ev. ring. }
  apply Qcmult_integral in Q. destruct Q as [Q|Q]; [|contradiction]. apply N. transitivity (csr_at m' 0 0 - e + e)%Qc; [ring|]. rewrite Q. ring.
Qed.

Lemma C81_converse_refuted_pf : exists E c c' w K S arg arg' l l' m m' e v, set_iter_ok E /\ filled_whole c w /\ filled_whole c' w /\ proper c /\ proper c' /\
  nsites c' = nsites c /\ nholes c' = nholes c /\ Z.min (nalpha c') (nbeta c') < Z.min (nalpha c) (nbeta c) /\ s_bz S = s_bij S /\
  assembled E c K S arg l m /\ assembled E c' K S arg' l' m' /\ eigenvector m e v /\ ~ exists v', eigenvector m' e v'.
Proof.
  destruct (pair_ok 1 ltac:(lia)) as (F1 & P1 & A1). destruct (pair_ok 0 ltac:(lia)) as (F0 & P0 & A0).
  exists cpython, (ex_rect 2 1 1 0 1), (ex_rect 2 1 1 0 0), 2, ex_couplings, (mkSwitches true true true true true true), (RList []), (RList []),
    (pair_basis 1), (pair_basis 0), (pair_ham 1), (pair_ham 0), (nth 0 (times (pair_ham 1) [1%Qc; (- (1))%Qc]) 0%Qc), [1%Qc; (- (1))%Qc].
  split; [exact cpython_ok|]. split; [exact F1|]. split; [exact F0|]. split; [exact P1|]. split; [exact P0|].
  split; [reflexivity|]. split; [reflexivity|]. split; [reflexivity|]. split; [reflexivity|]. split; [exact A1|]. split; [exact A0|]. split.
  - split; [vm_compute; reflexivity|]. split; [|exists 1%Qc; split; [left; reflexivity | discriminate]]. vm_compute. reflexivity.
  - intros (v' & Hv). revert Hv. apply no_singlet; [vm_compute; reflexivity|]. intros Q. vm_compute in Q. discriminate.
Qed.
