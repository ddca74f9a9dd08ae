(** The matrix of any drawn lattice acts on vectors as the t-J operator acts on wave functions. *)
From Coq Require Import ZArith List Bool Lia Permutation QArith Qcanon.
From Verif Require Import PyBase PyFacts Lattice Base Interact Ham Spin Spec SpecOps SpecTJ SpecSpin SpinDefs Geometry HamSpec DrawnDefs
  PBasis PSites PRot PInter PSpin POps PHam FBasis FSites FHam FDyn PWave PTJSpin PVec PSecSum PSpinOp PBound PAct FDrawn.
Import ListNotations.
Open Scope Z_scope.

Section Vectors.
Variables (E : runtime) (c : configuration) (pos : Z -> Z * Z) (K : interactions) (S : switches) (arg : restriction) (l : list (list Z)) (m : csr).
Hypothesis HE : set_iter_ok E.
Hypothesis HF : filled_drawn_whole E c pos.
Hypothesis HG : flips_agree c pos K S.
Hypothesis P : proper c.
Hypothesis HA : assembled E c K S arg l m.
Local Notation n := (nsites c).
Local Notation sec := (in_sector (nsites c) (nholes c) (nbeta c)).
Local Notation LL := (between (nsites c) pos (zrange 0 (nsites c)) (zrange 0 (nsites c))).

Lemma dtimes_sum : forall v s, zlen v = nb_conf c -> sec s ->
  wave_of c (times m v) s = ssum n (nholes c) (nbeta c) (fun t => (tj_element LL K S s t * wave_of c v t)%Qc).
Proof.
  intros v s Lv Hs. destruct (drawn_core _ _ _ _ _ _ _ _ _ HE HF HA) as (El & _).
  assert (M := fun i j d e s t => C103_elements_pf E c pos _ K S arg l m i j d e s t HE HF HA HG). rewrite El in M. clear El.
  pose proof P as (A & B & _). pose proof (proper_n c P) as Hn. pose proof (ix_range c P s Hs) as Rg.
  set (k := state_index n (nholes c) (nbeta c) s) in *.
  assert (LS : length v = length (slist n (nholes c) (nbeta c))).
  { apply Nat2Z.inj. change (zlen v = zlen (slist n (nholes c) (nbeta c))). rewrite Lv. symmetry. now apply proper_length. }
  unfold wave_of at 1. fold k. unfold vat, times.
  assert (Hk : (Z.to_nat k < length v)%nat) by (unfold zlen in Lv; lia).
  set (f := fun i => qsum (fun j => (csr_at m (Z.of_nat i) (Z.of_nat j) * nth j v 0)%Qc) (seq 0 (length v))).
  rewrite (nth_indep _ _ (f 0%nat)) by (now rewrite map_length, seq_length).
  rewrite (map_nth f), seq_nth by assumption. unfold f. cbn [Nat.add]. unfold ssum. rewrite LS. apply qsum_nth. intros j e Hj. cbn [Nat.add].
  rewrite (vat_wave c P v j e Hj). f_equal.
  apply (M (Z.to_nat k) j (canon n s) e); [now apply (slist_nth c P) | exact Hj | now apply canon_describes|].
  destruct (in_slist_st n (nholes c) (nbeta c) Hn A B e (nth_error_In _ _ Hj)) as [S1 S2]. rewrite <- S2 at 1. now apply canon_describes.
Qed.

Lemma dtimes_wave : forall v psi s, zlen v = nb_conf c -> on_lattice n psi -> (forall t, sec t -> wave_of c v t = psi t) -> sec s ->
  wave_of c (times m v) s = w_tj LL n K S psi s.
Proof.
  intros v psi s Lv O H Hs. pose proof P as (A & B & _). pose proof (proper_n c P) as Hn.
  rewrite dtimes_sum by assumption. rewrite <- (act n (nholes c) (nbeta c)); try assumption; [|reflexivity].
  apply ssum_ext; try assumption. intros t Ht. now rewrite H.
Qed.

Lemma dtj_on : forall psi, s_bz S = s_bij S -> on_lattice n psi -> on_lattice n (w_tj LL n K S psi).
Proof. intros psi Q O. apply (ks_tj LL n K S); assumption || reflexivity. Qed.

Lemma dcommute : holes_in_order E c -> s_bz S = s_bij S -> forall v, zlen v = nb_conf c ->
  exists v', compute_S2 E c v = Ok v' /\ compute_S2 E c (times m v) = Ok (times m v').
Proof.
  intros HO Q v Lv. destruct (S2_ok E c HE P HO v Lv) as (v' & E1 & L1 & V1). exists v'. split; [exact E1|].
  assert (Lt : zlen (times m v) = nb_conf c) by (unfold zlen in *; now rewrite times_length).
  destruct (S2_ok E c HE P HO (times m v) Lt) as (u & E2 & L2 & V2). rewrite E2. f_equal.
  assert (L1' : zlen v' = nb_conf c) by (unfold zlen in *; congruence).
  apply vat_ext.
  - rewrite times_length. rewrite L2, times_length. congruence.
  - intros k Hk. assert (Hk' : 0 <= k < nb_conf c) by (rewrite <- Lt; unfold zlen in *; congruence).
    destruct (ix_onto c P k Hk') as (s & Hs & <- & _). change (wave_of c u s = wave_of c (times m v') s).
    rewrite V2 by assumption. rewrite (dtimes_wave v' (S_squared n (wave_of c v)) s L1' (squared_on c _ (wave_on c v)) V1 Hs).
    rewrite tj_squared by (first [assumption | reflexivity | apply wave_on]).
    apply squared_sector; try assumption.
    + apply wave_on.
    + apply dtj_on; [assumption | apply wave_on].
    + intros t Ht. apply dtimes_wave; try assumption; [apply wave_on | reflexivity].
Qed.
End Vectors.

Lemma C103_spin_pf : forall E c pos K S arg l m v, set_iter_ok E -> filled_drawn_whole E c pos -> flips_agree c pos K S -> proper c -> holes_in_order E c ->
  s_bz S = s_bij S -> assembled E c K S arg l m -> length v = length l ->
  exists v', compute_S2 E c v = Ok v' /\ compute_S2 E c (times m v) = Ok (times m v').
Proof.
  intros E c pos K S arg l m v HE HF HG P HO Q HA Lv. apply (dcommute E c pos K S arg l m HE HF HG P HA HO Q).
  destruct (drawn_core _ _ _ _ _ _ _ _ _ HE HF HA) as (-> & _). unfold zlen. rewrite Lv. apply (proper_length c P).
Qed.
