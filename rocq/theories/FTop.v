(** Final lemmas for C96: the only lowest state without frustration. *)
From Coq Require Import ZArith List Bool QArith Qcanon Lia Relations.
From Verif Require Import PyBase PyFacts Runtimes Lattice Base Interact Ham Spin Spec SpecOps SpecTJ SpecSpin SpinDefs Geometry HamSpec SignDefs.
From Verif Require Import PSpin PQc PBasis PSites PHam FGeo FSites FInter FHam PWave PTJSpin PVec PSecSum PSpinOp PBound PAct PDavIter FSpin FSpinVal FMulti FProj FDav PSign PSignOp PPerron FSign PConnAny PSinglet FSinglet FFerro Examples.
Import ListNotations.
Open Scope Z_scope.

Section Signs.
Variables (c : configuration) (l : list (list Z)) (m : csr) (f : occupation -> Qc).
Hypothesis f_square : forall s, (f s * f s)%Qc = 1%Qc.
Let sg := sign_at f c l.
Let N := length l.
Let a := fun i j => (sg i * sg j * csr_at m (Z.of_nat i) (Z.of_nat j))%Qc.

Lemma sg_sq : forall k, (sg k * sg k)%Qc = 1%Qc.
Proof. intros. apply f_square. Qed.
Lemma mean_signed : forall v, length v = N -> csr_mean m v = mean_of N a (fun k => sg k * nth k v 0)%Qc.
Proof.
  intros v L. unfold csr_mean, inner, mean_of, act, sumN. rewrite L. apply qsum_ext. intros i Hi. apply in_seq in Hi. rewrite times_at by lia. rewrite L.
  rewrite <- !qsum_scale. apply qsum_ext. intros j _. unfold a.
  transitivity ((sg i * sg i) * (sg j * sg j) * (nth i v 0 * (csr_at m (Z.of_nat i) (Z.of_nat j) * nth j v 0)))%Qc; [rewrite !sg_sq; ring | ring].
Qed.
Lemma size_signed : forall v, length v = N -> inner v v = size_of N (fun k => sg k * nth k v 0)%Qc.
Proof.
  intros v L. unfold inner, size_of, sumN. rewrite L. apply qsum_ext. intros i _. transitivity ((sg i * sg i) * (nth i v 0 * nth i v 0))%Qc; [rewrite sg_sq; ring | ring].
Qed.
Lemma eigen_signed : forall e v, length v = N -> zlen v = csr_dim m -> times m v = map (fun x => (e * x)%Qc) v -> stationary N a e (fun k => sg k * nth k v 0)%Qc.
Proof.
  intros e v L Lm H i Hi. apply (eigen_stationary m e v Lm) with (i := i) in H; [|now rewrite L]. rewrite L in H.
  transitivity (sg i * qsum (fun j => csr_at m (Z.of_nat i) (Z.of_nat j) * nth j v 0)%Qc (seq 0 N))%Qc; [|fold N in H; rewrite H; ring].
  unfold act, sumN. rewrite <- qsum_scale. apply qsum_ext. intros j _. unfold a.
  transitivity ((sg j * sg j) * (sg i * (csr_at m (Z.of_nat i) (Z.of_nat j) * nth j v 0)))%Qc; [ring | rewrite sg_sq; ring].
Qed.
End Signs.

(** signs which make all elements negative, and states all linked: one lowest state *)
Lemma unique_signed : forall E c w r K S arg l m e f, set_iter_ok E -> filled c w r -> assembled E c K S arg l m ->
  (forall s, (f s * f s)%Qc = 1%Qc) -> (forall s t, same_state (nsites c) s t -> f s = f t) ->
  (forall i j d d' s t, i <> j -> nth_error l i = Some d -> nth_error l j = Some d' -> describes (nsites c) (nholes c) (nbeta c) d s -> describes (nsites c) (nholes c) (nbeta c) d' t ->
     (f s * f t * csr_at m (Z.of_nat i) (Z.of_nat j) <= 0)%Qc) ->
  (forall i j, (i < length l)%nat -> (j < length l)%nat -> clos_refl_trans nat (linked (length l) (fun i j => sign_at f c l i * sign_at f c l j * csr_at m (Z.of_nat i) (Z.of_nat j))%Qc) i j) ->
  lowest m e -> forall v, eigenvector m e v ->
  (follows c l f v \/ follows c l f (map (fun x => - x)%Qc v)) /\ forall v', eigenvector m e v' -> exists x, v' = map (fun y => (x * y)%Qc) v.
Proof.
  intros E c w r K S arg l m e f HE HF HA F2 FS OFF CON LOW v (Lv & Ev & Nv).
  destruct (core _ _ _ _ _ _ _ _ _ HE HF HA) as (El & Dm & _). assert (Dl : csr_dim m = zlen l) by (now rewrite El).
  set (sg := sign_at f c l) in *. set (a := fun i j => (sg i * sg j * csr_at m (Z.of_nat i) (Z.of_nat j))%Qc) in *.
  assert (SQ : forall k, (sg k * sg k)%Qc = 1%Qc) by (intros; apply F2).
  assert (SY : forall i j, (i < length l)%nat -> (j < length l)%nat -> a i j = a j i) by (intros i j _ _; unfold a; rewrite (C30_symmetric_pf E c w r K S arg l m (Z.of_nat i) (Z.of_nat j) HE HF HA); ring).
  assert (ST0 : forall k, (k < length l)%nat -> exists d, nth_error l k = Some d /\ describes (nsites c) (nholes c) (nbeta c) d (state_of c d) /\ sg k = f (state_of c d)).
  { intros k Hk. destruct (nth_error l k) as [d|] eqn:Q; [|apply nth_error_None in Q; lia]. exists d. split; [reflexivity|].
    split; [rewrite El in Q; exact (dl_describes _ _ _ _ _ HF Q)|]. unfold sg, sign_at. now rewrite (nth_error_nth _ _ _ Q). }
  assert (OF : forall i j, (i < length l)%nat -> (j < length l)%nat -> i <> j -> (a i j <= 0)%Qc).
  { intros i j Hi Hj D. destruct (ST0 i Hi) as (d & Qd & Dd & Ed). destruct (ST0 j Hj) as (d' & Qe & De & Ee). unfold a. rewrite Ed, Ee. now apply (OFF i j d d'). }
  assert (LOW2 : forall u, (e * size_of (length l) u <= mean_of (length l) a u)%Qc).
  { intros u. set (x := map (fun k => (sg k * u k)%Qc) (seq 0 (length l))). assert (Lx : length x = length l) by (unfold x; now rewrite map_length, seq_length).
    assert (Nx : forall k, (k < length l)%nat -> (sg k * nth k x 0)%Qc = u k) by (intros k Hk; unfold x; rewrite nth_map_seq by assumption; rewrite Qcmult_assoc, SQ; ring).
    specialize (LOW x ltac:(rewrite Dl; unfold zlen; now rewrite Lx)). rewrite (size_signed c l f F2 x Lx), (mean_signed c l m f F2 x Lx) in LOW. fold sg in LOW. fold a in LOW.
    replace (size_of (length l) u) with (size_of (length l) (fun k => sg k * nth k x 0)%Qc); [replace (mean_of (length l) a u) with (mean_of (length l) a (fun k => sg k * nth k x 0)%Qc); [exact LOW|]|].
    - unfold mean_of, act. apply sum_ext. intros i Hi. rewrite (Nx i Hi). f_equal. apply sum_ext. intros j Hj. now rewrite (Nx j Hj).
    - apply sum_ext. intros i Hi. now rewrite (Nx i Hi). }
  assert (LL : length v = length l) by (rewrite Dl in Lv; unfold zlen in Lv; lia).
  pose proof (eigen_signed c l m f F2 e v LL Lv Ev) as ST. fold sg in ST. fold a in ST.
  assert (NZ : exists i, (i < length l)%nat /\ (sg i * nth i v 0)%Qc <> 0%Qc).
  { destruct Nv as (x & Ix & Nx). apply (In_nth _ _ 0%Qc) in Ix. destruct Ix as (k & Hk & <-). exists k. split; [lia|]. intros Q. apply Nx.
    transitivity (sg k * (sg k * nth k v 0))%Qc; [rewrite Qcmult_assoc, SQ; ring | rewrite Q; ring]. }
  assert (SGN : forall k d s, nth_error l k = Some d -> describes (nsites c) (nholes c) (nbeta c) d s -> (k < length l)%nat /\ f s = sg k).
  { intros k d s Hk Ds. split; [apply nth_error_Some; congruence|]. unfold sg, sign_at. rewrite (nth_error_nth _ _ _ Hk). apply FS.
    rewrite El in Hk. apply (describes_unique _ _ _ _ _ _ Ds (dl_describes _ _ _ _ _ HF Hk)). }
  split.
  - destruct (one_sign (length l) a SY OF e LOW2 CON _ ST NZ) as [P|P]; [left|right]; intros k d s Hk Ds; destruct (SGN k d s Hk Ds) as [B Q]; rewrite Q; specialize (P k B); [exact P|].
    replace (nth k (map (fun x => - x)%Qc v) 0%Qc) with (- nth k v 0)%Qc by (symmetry; replace 0%Qc with (- 0)%Qc at 1 by ring; apply map_nth).
    cbv beta in P. revert P. replace (sg k * - nth k v 0)%Qc with (- (sg k * nth k v 0))%Qc by ring. generalize (sg k * nth k v 0)%Qc. intros y P. qc.
  - intros v' (Lv' & Ev' & _). assert (LL' : length v' = length l) by (rewrite Dl in Lv'; unfold zlen in Lv'; lia).
    pose proof (eigen_signed c l m f F2 e v' LL' Lv' Ev') as ST'. fold sg in ST'. fold a in ST'.
    destruct (one_state (length l) a SY OF e LOW2 CON _ _ ST' ST NZ) as (x & Hx). exists x.
    apply nth_ext with (d := 0%Qc) (d' := (x * 0)%Qc); [now rewrite map_length, LL, LL'|]. intros k Hk. rewrite (map_nth (fun y => (x * y)%Qc)).
    specialize (Hx k ltac:(lia)). transitivity (sg k * (sg k * nth k v' 0))%Qc; [rewrite Qcmult_assoc, SQ; ring|]. rewrite Hx.
    transitivity ((sg k * sg k) * (x * nth k v 0))%Qc; [ring | rewrite SQ; ring].
Qed.

Lemma hops_linked : forall E c w K S arg l m, set_iter_ok E -> filled_whole c w -> assembled E c K S arg l m -> ferromagnetic K S -> nholes c = 0 \/ (s_bt S = true /\ i_t K <> 0%Qc) ->
  forall i j, (i < length l)%nat -> (j < length l)%nat ->
  clos_refl_trans nat (linked (length l) (fun i j => sign_at (hop_sign K (nsites c) (point w)) c l i * sign_at (hop_sign K (nsites c) (point w)) c l j * csr_at m (Z.of_nat i) (Z.of_nat j))%Qc) i j.
Proof.
  intros E c w K S arg l m HE HF HA (U & HB & J1 & J2 & J3) HT. pose proof HF as (RM & _ & _ & Hb & _). destruct (rows_of c w RM) as (h & Hh & Hw & HN).
  destruct (core _ _ _ _ _ _ _ _ _ HE HF HA) as (El & _).
  set (f := hop_sign K (nsites c) (point w)). set (a := fun i j => (_ * csr_at m (Z.of_nat i) (Z.of_nat j))%Qc).
  assert (SGN : forall k d s, nth_error l k = Some d -> describes (nsites c) (nholes c) (nbeta c) d s -> sign_at f c l k = f s).
  { intros k d s Hk Ds. symmetry. unfold sign_at. rewrite (nth_error_nth _ _ _ Hk). apply hop_same. rewrite El in Hk. apply (describes_unique _ _ _ _ _ _ Ds (dl_describes _ _ _ _ _ HF Hk)). }
  assert (R : forall s t, path w h s t -> forall i j d e, nth_error l i = Some d -> nth_error l j = Some e ->
     describes (nsites c) (nholes c) (nbeta c) d s -> describes (nsites c) (nholes c) (nbeta c) e t -> clos_refl_trans nat (linked (length l) a) i j).
  { intros s t Q. apply clos_rt_rt1n_iff in Q. induction Q as [s|s u t M Q IH]; intros i j d e Hi Hj Ds De.
    - rewrite El in Hi, Hj. rewrite (dl_distinct c w _ i j d e s s HF Hi Hj Ds De (fun x _ => eq_refl)). apply rt_refl.
    - unfold step in M. cbv zeta in M. rewrite <- HN in M. destruct M as [M|(x & y & Hx & Hy & B & Dxy & M)].
      + apply (IH i j d e Hi Hj); [exact (PBasis.describes_same _ _ _ _ _ _ M Ds) | exact De].
      + pose proof (describes_sector _ _ _ _ _ Ds) as Ss.
        assert (Su : in_sector (nsites c) (nholes c) (nbeta c) u).
        { eapply describes_sector. apply (PBasis.describes_same _ _ _ _ (swap_state x y s) u); [intros z Hz; symmetry; now apply M|]. apply canon_describes. apply PAct.swap_in; assumption. }
        assert (K1 : exists k, nth_error l k = Some (canon (nsites c) u)).
        { rewrite El. unfold dl. eexists. pose proof (in_sector_nonneg _ _ _ _ Su) as [P1 P2]. rewrite <- (Z2Nat.id (nholes c)), <- (Z2Nat.id (nbeta c)) in Su by lia.
          apply (nth_dets (nsites c) (Z.to_nat (nholes c)) (Z.to_nat (nbeta c)) u); [rewrite HN; nia | exact Su]. }
        destruct K1 as (k & Hk). pose proof (canon_describes _ _ _ _ Su) as Du.
        apply (rt_trans _ _ _ k); [|exact (IH k j _ _ Hk Hj Du De)].
        destruct (Nat.eq_dec i k) as [->|D]; [apply rt_refl|]. apply rt_step.
        assert (Bi : (i < length l)%nat) by (apply nth_error_Some; congruence). assert (Bk : (k < length l)%nat) by (apply nth_error_Some; congruence).
        split; [assumption|]. split; [assumption|]. split; [assumption|]. unfold a. fold f. rewrite (SGN i d s Hi Ds), (SGN k _ u Hk Du).
        rewrite (C29_elements_pf E c w _ K S arg l m i k d _ s u HE HF HA Hi Hk Ds Du).
        assert (ND : ~ same_state (nsites c) s u) by (intros Q1; apply D; rewrite El in Hi, Hk; exact (dl_distinct _ _ _ _ _ _ _ _ _ HF Hi Hk Ds Du Q1)).
        apply (tj_hop_negative (between (nsites c) (point w) (zrange 0 (nsites c)) (zrange 0 (nsites c))) K S s u x y U ND); try assumption.
        * intros z Hz. cbn [between lat_from lat_to lat_size] in *. assert (I : existsb (Z.eqb z) (zrange 0 (nsites c)) = true) by (apply existsb_exists; exists z; split; [apply in_zrange; lia | apply Z.eqb_refl]). auto.
        * intros Q1. destruct HT as [H0|HT]; [|exact HT]. exfalso. pose proof (no_holes c d s Ds H0) as NH. pose proof (NH x Hx). pose proof (NH y Hy). destruct (s x), (s y); try congruence; discriminate Q1.
        * auto. }
  intros i j Hi Hj. destruct (nth_error l i) as [d|] eqn:Qi; [|apply nth_error_None in Qi; lia]. destruct (nth_error l j) as [e|] eqn:Qj; [|apply nth_error_None in Qj; lia].
  pose proof Qi as Qi'. pose proof Qj as Qj'. rewrite El in Qi', Qj'. pose proof (dl_describes _ _ _ _ _ HF Qi') as Di. pose proof (dl_describes _ _ _ _ _ HF Qj') as Dj.
  apply (R (state_of c d) (state_of c e)) with (d := d) (e := e); try assumption.
  apply (path_sector w h Hw Hh _ _ (nholes c) (nbeta c)); rewrite <- HN; eapply describes_sector; eassumption.
Qed.

Lemma C96_unique_pf : forall E c w K S arg l m e v, set_iter_ok E -> filled_whole c w -> assembled E c K S arg l m ->
  ferromagnetic K S -> nholes c = 0 \/ (s_bt S = true /\ i_t K <> 0%Qc) -> lowest m e -> eigenvector m e v ->
  (follows c l (hop_sign K (nsites c) (point w)) v \/ follows c l (hop_sign K (nsites c) (point w)) (map (fun x => - x)%Qc v)) /\
  forall v', eigenvector m e v' -> exists x, v' = map (fun y => (x * y)%Qc) v.
Proof.
  intros E c w K S arg l m e v HE HF HA FE HT LOW EV. pose proof FE as (U & _).
  apply (unique_signed E c w _ K S arg l m e (hop_sign K (nsites c) (point w)) HE HF HA); try assumption; [intros; apply hop_square | intros; now apply hop_same | |].
  - intros i j d d' s t NE Hi Hj Ds Dt. now apply (C95_elements_pf E c w _ K S arg l m i j d d' s t HE HF HA).
  - now apply (hops_linked E c w K S arg l m HE HF HA).
Qed.

Lemma eigen_opposite : forall m e v, eigenvector m e v -> eigenvector m e (map (fun x => - x)%Qc v).
Proof.
  intros m e v (Lv & Ev & x & Ix & Nx). assert (NM : forall k, nth k (map (fun x => - x)%Qc v) 0%Qc = (- nth k v 0)%Qc) by (intros k; replace 0%Qc with (- 0)%Qc at 1 by ring; apply map_nth).
  split; [now rewrite zlen_map|]. split.
  - apply (eigen_stationary m e (map (fun x => - x)%Qc v)); [now rewrite zlen_map|]. rewrite map_length. pose proof (proj1 (eigen_stationary m e v Lv) Ev) as G. intros i Hi. specialize (G i Hi). rewrite NM.
    transitivity (- (1) * (e * nth i v 0))%Qc; [|ring]. rewrite <- G, <- qsum_scale. apply qsum_ext. intros j _. rewrite NM. ring.
  - exists (- x)%Qc. split; [apply in_map_iff; now exists x|]. intros Q. apply Nx. transitivity (- (- x))%Qc; [ring | rewrite Q; ring].
Qed.

Lemma C96_spin_pf : forall E c w K S arg l m e v, set_iter_ok E -> filled_whole c w -> proper c -> holes_in_order E c -> assembled E c K S arg l m ->
  ferromagnetic K S -> nholes c = 0 \/ (s_bt S = true /\ i_t K <> 0%Qc) -> s_bz S = true -> lowest m e -> eigenvector m e v ->
  let j := (half * qz (nsites c - nholes c))%Qc in
  compute_S2 E c v = Ok (map (fun y => (j * (j + 1) * y)%Qc) v).
Proof.
  intros E c w K S arg l m e v HE HF P HO HA FE HT HZ LOW EV j. pose proof FE as (U & HB & _).
  destruct (C96_unique_pf E c w K S arg l m e v HE HF HA FE HT LOW EV) as [SG UN].
  assert (G : exists v', eigenvector m e v' /\ compute_S2 E c v' = Ok (map (fun y => (j * (j + 1) * y)%Qc) v')).
  { destruct SG as [SG|SG].
    - destruct (C95_sectors_pf E c c w K S arg arg l l m m e v HE HF HF P P HO eq_refl eq_refl (eq_trans HZ (eq_sym HB)) U HA HA EV SG) as (v' & A & _ & B & _). eauto.
    - destruct (C95_sectors_pf E c c w K S arg arg l l m m e _ HE HF HF P P HO eq_refl eq_refl (eq_trans HZ (eq_sym HB)) U HA HA (eigen_opposite m e v EV) SG) as (v' & A & _ & B & _). eauto. }
  destruct G as (v' & EV' & S2'). destruct (C96_unique_pf E c w K S arg l m e v' HE HF HA FE HT LOW EV') as [_ UN']. destruct (UN' v EV) as (x & ->).
  assert (Lv' : zlen v' = nb_conf c) by (rewrite <- (dim_is E c w K S arg l m HE HF P HA); apply EV').
  rewrite (S2_scaled E c HE P HO v' _ x Lv' S2'). f_equal. rewrite !map_map. apply map_ext. intros y. ring.
Qed.

(** for the example *)
Lemma this_list : forall l l' : list Qc, map this l = map this l' -> l = l'.
Proof. induction l as [|x l IH]; intros [|y l'] Q; try discriminate; [reflexivity|]. cbn [map] in Q. injection Q as Q1 Q2. f_equal; [apply Qc_is_canon; now rewrite Q1 | now apply IH]. Qed.
Definition ferro_state1 : list Qc := map qz [1; 1; 1; -1; -1; -1; -1; -1; -1; 1; 1; 1].
Lemma ferro_eigen1 : eigenvector (ferro_ham 1) (- qz 3) ferro_state1.
Proof. split; [vm_compute; reflexivity|]. split; [apply this_list; vm_compute; reflexivity|]. exists (qz 1). split; [left; reflexivity | discriminate]. Qed.
Lemma ferro_follows1 : follows (ferro_conf 1) (ferro_basis 1) (hop_sign ferro_couplings (nsites (ferro_conf 1)) (point 2)) ferro_state1.
Proof. apply follows_by; [vm_compute; discriminate | vm_compute; discriminate | intros s t; apply hop_same | vm_compute; reflexivity]. Qed.
Lemma ferro_lowest1 : lowest (ferro_ham 1) (- qz 3).
Proof.
  destruct (ferro_ok 1 ltac:(lia)) as (F1 & _ & A1).
  exact (C95_lowest_pf cpython (ferro_conf 1) 2 _ ferro_couplings ferro_switches (RList []) (ferro_basis 1) (ferro_ham 1) (- qz 3)%Qc ferro_state1 cpython_ok F1 A1 ferro_unfrustrated ferro_eigen1 ferro_follows1).
Qed.
Lemma ferro_magnetic : ferromagnetic ferro_couplings ferro_switches.
Proof. split; [exact ferro_unfrustrated|]. split; [reflexivity|]. repeat split. Qed.
