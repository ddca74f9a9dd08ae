(** Final lemmas for C101: sum of the energies. *)
From Coq Require Import ZArith List Bool QArith Qcanon Lia.
From Verif Require Import PyBase PyFacts Runtimes Lattice Base Interact Ham Spec SpecOps SpecTJ SpinDefs Geometry HamSpec SignDefs EnergyDefs TraceDefs.
From Verif Require Import PSpin PQc PBasis PSites PHam POps FGeo FBasis FSites FInter FHam PSecSum PBound PSign PSignOp PPerron FSign FMotion PEnergy FEnergy PRange FRange PTrace.
Import ListNotations.
Open Scope Z_scope.

Section Diagonal.
Variable L : lattice.
Let n := lat_size L.
Lemma hop_same : forall K s, op_hop L K s s = 0%Qc.
Proof.
  intros K s. unfold op_hop. apply sum_sites_zero. intros i Hi. apply sum_sites_zero. intros j Hj. destruct (_ && _ && _ && _ && _ && _) eqn:Q; [|reflexivity]. exfalso.
  rewrite !andb_true_iff in Q. destruct Q as [[[_ Q1] Q2] Q]. apply sameb_same in Q. specialize (Q i Hi). unfold swap_state in Q. rewrite Z.eqb_refl in Q. rewrite Q in Q1. rewrite Q1 in Q2. discriminate.
Qed.
Lemma next_hop_same : forall K s, op_next_hop L K s s = 0%Qc.
Proof.
  intros K s. unfold op_next_hop. apply sum_sites_zero. intros i Hi. apply sum_sites_zero. intros j Hj. destruct (_ && _ && _ && _ && _ && _) eqn:Q; [|reflexivity]. exfalso.
  rewrite !andb_true_iff in Q. destruct Q as [[[_ Q1] Q2] Q]. apply sameb_same in Q. specialize (Q i Hi). unfold swap_state in Q. rewrite Z.eqb_refl in Q. rewrite Q in Q1. rewrite Q1 in Q2. discriminate.
Qed.
Lemma singlet_same : forall K s, op_singlet L K s s = 0%Qc.
Proof.
  intros K s. unfold op_singlet. apply sum_sites_zero. intros i Hi. apply sum_sites_zero. intros j Hj. apply sum_sites_zero. intros k Hk.
  destruct (_ && _ && _ && _ && _ && _ && _) eqn:Q; [|reflexivity]. cbn [only]. rewrite !andb_true_iff in Q. destruct Q as [[_ Q1] Q2].
  assert (X : forall t, t i = s j \/ t i = s k -> sameb (lat_size L) s t = false).
  { intros t T. destruct (sameb (lat_size L) s t) eqn:Q; [|reflexivity]. exfalso. apply sameb_same in Q. specialize (Q i Hi). rewrite Q in Q1. destruct T as [T|T]; rewrite T in Q1; destruct (s j), (s k); discriminate. }
  rewrite !X; [cbn [only]; ring | right; unfold swap_state; now rewrite Z.eqb_refl | left; unfold shift_state; now rewrite Z.eqb_refl].
Qed.
Lemma diagonal_is : forall K S s, tj_element L K S s s = (only (s_bz S) (op_static L K s) + only (s_bV S) (op_repulsion L K s))%Qc.
Proof.
  intros K S s. unfold tj_element. rewrite hop_same, flip_same, singlet_same, next_hop_same, same_refl. destruct (s_bt S), (s_bz S), (s_bij S), (s_bSD S), (s_btN S), (s_bV S); cbn [only]; ring.
Qed.
End Diagonal.

Section Trace.
Variables (c : configuration) (w : Z).
Hypothesis HF : filled_whole c w.
Let n := nsites c.
Let v := nsites c / w.
Let L := between n (point w) (zrange 0 n) (zrange 0 n).
Let over := ssum n (nholes c) (nbeta c).
Let count := zlen (slist n (nholes c) (nbeta c)).

Lemma taken : forall x, 0 <= x < n -> existsb (Z.eqb x) (zrange 0 n) = true.
Proof. intros x Hx. apply existsb_exists. exists x. split; [now apply in_zrange | apply Z.eqb_refl]. Qed.
Lemma facts : 0 < w /\ 0 < v /\ n = w * v /\ 0 <= nholes c /\ 0 <= nbeta c /\ nalpha c = n - nholes c - nbeta c.
Proof. destruct (shape c w _ HF) as (A & B & C). destruct HF as (_ & _ & D). repeat split; try assumption; apply D. Qed.

Lemma static_sum : forall K, one_exchange c K -> (qz (n * (n - 1)) * over (op_static L K) = qz count * (- (i_J K) * qz (grid_bonds w v * (nalpha c * nbeta c))))%Qc.
Proof.
  intros K HJ. destruct facts as (Hw & Hv & HN & Hh & Hb & Ha). assert (Hn : 0 <= n) by nia.
  unfold over. rewrite (ssum_ext n _ _ Hn Hh Hb _ (fun s => sum_sites n (fun i => sum_sites n (fun j => (- (half * i_J K)) * only ((i <? j) && bondb (point w i) (point w j)) (only (oppositeb (s i) (s j)) 1)))%Qc)).
  - rewrite ssum_sites. transitivity (sum_sites n (fun i => sum_sites n (fun j => only ((i <? j) && bondb (point w i) (point w j)) (- (half * i_J K) * (qz count * qz (2 * (nalpha c * nbeta c))))))%Qc).
    + unfold sum_sites at 1. rewrite <- qsum_scale. apply qsum_ext. intros i Hi. apply in_sites in Hi. rewrite ssum_sites. unfold sum_sites. rewrite <- qsum_scale. apply qsum_ext. intros j Hj. apply in_sites in Hj.
      rewrite ssum_scale. destruct (Z.ltb_spec i j); cbn [andb only].
      * destruct (bondb (point w i) (point w j)); cbn [only].
        -- fold (pairs n (nholes c) (nbeta c) oppositeb i j).
           pose proof (pairs_total n (nholes c) (nbeta c) Hn Hh Hb oppositeb ltac:(intros [] []; reflexivity) (qz (2 * ((n - nholes c - nbeta c) * nbeta c))) i j Hi Hj ltac:(lia) ltac:(intros s Sc; now apply opposite_pairs)) as P.
           fold count in P. rewrite <- Ha in P. rewrite <- P. ring.
        -- rewrite ssum_zero by (try assumption; reflexivity). ring.
      * rewrite ssum_zero by (try assumption; reflexivity). ring.
    + rewrite HN, count_bonds by assumption. rewrite !qz_mul. replace (qz 2) with (1 + 1)%Qc by (apply Qc_is_canon; reflexivity).
      transitivity ((half + half) * (qz (grid_bonds w v) * (- i_J K) * (qz count * (qz (nalpha c) * qz (nbeta c)))))%Qc; [ring|]. replace (half + half)%Qc with 1%Qc by (apply Qc_is_canon; reflexivity). ring.
  - intros s Sc. unfold op_static. cbn [lat_size L between]. apply sum_sites_ext. intros i Hi. apply sum_sites_ext. intros j Hj. unfold spin_bond. cbn [lat_from lat_to lat_pos L between bonded].
    unfold bonded. cbn [lat_pos L between]. rewrite !taken by assumption. rewrite !andb_true_r. destruct ((i <? j) && bondb (point w i) (point w j)); cbn [andb only]; [|ring]. destruct (oppositeb (s i) (s j)); cbn [only]; [|ring].
    assert (X : exchange K (bond_doping L s i j) = i_J K).
    { destruct HJ as [H0|[J1 J2]]; [|now destruct (bond_doping L s i j)]. rewrite away; [reflexivity|]. cbn [lat_size L between]. eapply no_holes; [apply canon_describes; eassumption | exact H0]. }
    fold L. rewrite X. ring.
Qed.

Lemma repulsion_sum : forall K, (qz (n * (n - 1)) * over (op_repulsion L K) =
  qz count * ((i_VNN K * qz (grid_bonds w v) + i_VNNNper K * qz (grid_diagonals w v)) * qz (nholes c * (nholes c - 1))))%Qc.
Proof.
  intros K. destruct facts as (Hw & Hv & HN & Hh & Hb & Ha). assert (Hn : 0 <= n) by nia.
  set (k := (qz count * qz (nholes c * (nholes c - 1)))%Qc).
  assert (G : forall g x, (qz (n * (n - 1)) * over (fun s => sum_sites n (fun i => sum_sites n (fun j => x * only ((i <? j) && g i j) (only (holeb (s i) && holeb (s j)) 1)))) =
    x * sum_sites n (fun i => sum_sites n (fun j => only ((i <? j) && g i j) k)))%Qc).
  { intros g x. unfold over. rewrite ssum_sites. unfold sum_sites at 1 3. rewrite <- !qsum_scale. apply qsum_ext. intros i Hi. apply in_sites in Hi. rewrite ssum_sites. unfold sum_sites. rewrite <- !qsum_scale.
    apply qsum_ext. intros j Hj. apply in_sites in Hj. rewrite ssum_scale. destruct (Z.ltb_spec i j); cbn [andb only].
    - destruct (g i j); cbn [only].
      + pose proof (pairs_total n (nholes c) (nbeta c) Hn Hh Hb (fun p q => holeb p && holeb q) ltac:(intros [] []; reflexivity) (qz (nholes c * (nholes c - 1))) i j Hi Hj ltac:(lia) ltac:(intros s Sc; eapply hole_pairs; eassumption)) as P.
        fold count in P. fold k in P. rewrite <- P. unfold pairs. ring.
      + rewrite ssum_zero by (try assumption; reflexivity). ring.
    - rewrite ssum_zero by (try assumption; reflexivity). ring. }
  transitivity (qz (n * (n - 1)) * over (fun s => sum_sites n (fun i => sum_sites n (fun j => i_VNN K * only ((i <? j) && bondb (point w i) (point w j)) (only (holeb (s i) && holeb (s j)) 1))) +
     sum_sites n (fun i => sum_sites n (fun j => i_VNNNper K * only ((i <? j) && diagb (point w i) (point w j)) (only (holeb (s i) && holeb (s j)) 1)))))%Qc.
  - f_equal. unfold over. apply ssum_ext; try assumption. intros s Sc. unfold op_repulsion. cbn [lat_size L between]. rewrite <- sum_sites_add. apply sum_sites_ext. intros i Hi. rewrite <- sum_sites_add. apply sum_sites_ext. intros j Hj.
    unfold bonded. cbn [lat_from lat_pos L between]. rewrite !taken by assumption. rewrite !andb_true_r.
    destruct (i <? j), (holeb (s i)), (holeb (s j)), (bondb (point w i) (point w j)), (diagb (point w i) (point w j)); cbn [andb only]; ring.
  - unfold over. rewrite ssum_add, Qcmult_plus_distr_r. fold over. rewrite !G. rewrite HN, count_bonds, count_diagonals by assumption. unfold k. ring.
Qed.

Lemma diagonal_sum : forall K S, one_exchange c K \/ s_bz S = false ->
  (qz (n * (n - 1)) * over (fun s => tj_element L K S s s) = qz count * mean_energy K S (nholes c) (nalpha c) (nbeta c) (grid_bonds w v) (grid_diagonals w v))%Qc.
Proof.
  intros K S HJ. destruct facts as (Hw & Hv & HN & Hh & Hb & Ha). assert (Hn : 0 <= n) by nia.
  unfold over. rewrite (ssum_ext n _ _ Hn Hh Hb _ (fun s => only (s_bz S) (op_static L K s) + only (s_bV S) (op_repulsion L K s))%Qc) by (intros; apply diagonal_is).
  rewrite ssum_add, !Qcmult_plus_distr_r. unfold mean_energy. rewrite Qcmult_plus_distr_r. f_equal.
  - destruct (s_bz S); cbn [only]; [|rewrite ssum_zero by (try assumption; reflexivity); ring]. destruct HJ as [HJ|]; [|discriminate]. exact (static_sum K HJ).
  - destruct (s_bV S); cbn [only]; [|rewrite ssum_zero by (try assumption; reflexivity); ring]. exact (repulsion_sum K).
Qed.
End Trace.

Lemma trace_is : forall N m, csr_dim m = Z.of_nat N -> csr_trace m = sumN N (fun i => csr_at m (Z.of_nat i) (Z.of_nat i)).
Proof. intros N m D. unfold csr_trace, sum_sites, sites, sumN. rewrite D, Nat2Z.id, qsum_map. reflexivity. Qed.

Lemma C101_trace_pf : forall E c w K S arg l m, set_iter_ok E -> filled_whole c w -> assembled E c K S arg l m -> one_exchange c K \/ s_bz S = false ->
  let v := nsites c / w in
  (qz (nsites c * (nsites c - 1)) * csr_trace m = qz (csr_dim m) * mean_energy K S (nholes c) (nalpha c) (nbeta c) (grid_bonds w v) (grid_diagonals w v))%Qc.
Proof.
  intros E c w K S arg l m HE HF HA HJ v. pose proof (diagonal_sum c w HF K S HJ) as G. destruct (core _ _ _ _ _ _ _ _ _ HE HF HA) as (El & D & _ & M).
  fold v in G. rewrite D. refine (eq_trans _ G). f_equal. rewrite (trace_is (length (dl c)) m) by exact D. unfold sumN, ssum. apply over_list. intros j e He.
  assert (De := dl_describes _ _ _ _ _ HF He). rewrite (M j j e e _ _ ltac:(now rewrite El) ltac:(now rewrite El) De De). reflexivity.
Qed.

Lemma C101_levels_pf : forall m es, all_levels m es -> qsum fst es = csr_trace m.
Proof.
  intros m es (Ln & EV & O). assert (D : csr_dim m = Z.of_nat (length es)) by (rewrite <- Ln; reflexivity).
  rewrite (trace_is (length es) m D). symmetry.
  set (at_ := fun k => nth k es (0%Qc, [])).
  assert (At : forall k, (k < length es)%nat -> nth_error es k = Some (at_ k)) by (intros k Hk; unfold at_; now apply nth_error_nth').
  assert (V : forall k, (k < length es)%nat -> eigenvector m (fst (at_ k)) (snd (at_ k))) by (intros k Hk; apply EV; rewrite <- surjective_pairing; eapply nth_error_In, At, Hk).
  assert (Lv : forall k, (k < length es)%nat -> length (snd (at_ k)) = length es) by (intros k Hk; destruct (V k Hk) as (Z0 & _); rewrite D in Z0; unfold zlen in Z0; lia).
  refine (eq_trans (sum_of_values (length es) (fun i j => csr_at m (Z.of_nat i) (Z.of_nat j)) (fun k i => nth i (snd (at_ k)) 0%Qc) (fun k => fst (at_ k)) (fun k => inner (snd (at_ k)) (snd (at_ k))) _ _ _) _).
  - intros k Hk Z0. pose proof (inner_positive _ _ _ (V k Hk)) as P. rewrite Z0 in P. discriminate P.
  - intros k l Hk Hl. transitivity (inner (snd (at_ k)) (snd (at_ l))); [unfold inner, sumN; now rewrite Lv|].
    destruct (Nat.eqb_spec k l) as [->|N]; [reflexivity|]. exact (O k l _ _ N (At k Hk) (At l Hl)).
  - intros k i Hk Hi. destruct (V k Hk) as (Z0 & T & _). apply (eigen_stationary m _ _ Z0) with (i := i) in T; [|now rewrite Lv]. rewrite Lv in T by assumption. exact T.
  - unfold sumN. apply over_list. intros j e He. f_equal. specialize (At j ltac:(apply nth_error_Some; congruence)). congruence.
Qed.

Lemma C101_energies_pf : forall E c w K S arg l m es, set_iter_ok E -> filled_whole c w -> assembled E c K S arg l m -> one_exchange c K \/ s_bz S = false -> all_levels m es ->
  let v := nsites c / w in
  (qz (nsites c * (nsites c - 1)) * qsum fst es = qz (csr_dim m) * mean_energy K S (nholes c) (nalpha c) (nbeta c) (grid_bonds w v) (grid_diagonals w v))%Qc.
Proof. intros E c w K S arg l m es HE HF HA HJ HL v. rewrite (C101_levels_pf m es HL). now apply (C101_trace_pf E c w K S arg l m). Qed.
