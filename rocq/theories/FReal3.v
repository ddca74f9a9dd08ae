(** Final lemmas for C106: signs and uniqueness of the ground state, without asking for rational amplitudes. *)
From Coq Require Import ZArith List Bool Lia QArith Qcanon Reals Qreals Lra Lqa Psatz Relations.
From Verif Require Import PyBase PyFacts Lattice Base Interact Ham Spec SpecOps SpecTJ SpinDefs Geometry HamSpec EnergyDefs RangeDefs TraceDefs ShiftDefs DrawnDefs SignDefs RealSum RealDefs
  PSpin PBasis PHam FSites FSpin PSign PSignOp PPerron FHam FSign FFerro FTop PReal PReal2 PRealQ FReal.
Import ListNotations.
Open Scope R_scope.

Lemma state_lin : forall m e x y u v, (exists i, (i < dimension m)%nat /\ x * u i + y * v i <> 0) -> energy_state m e u -> energy_state m e v -> energy_state m e (fun i => x * u i + y * v i).
Proof.
  intros m e x y u v N (_ & U) (_ & V). split; [exact N|]. intros i Hi. transitivity (x * rsum (dimension m) (fun j => element m i j * u j) + y * rsum (dimension m) (fun j => element m i j * v j)).
  - rewrite <- !rsum_scale, <- rsum_add. apply rsum_ext. intros. ring.
  - rewrite (U i Hi), (V i Hi). ring.
Qed.

Section Signed.
Variables (E : runtime) (c : configuration) (w : Z) (r : list Z) (K : interactions) (S : switches) (arg : restriction) (l : list (list Z)) (m : csr) (f : occupation -> Qc).
Hypothesis HE : set_iter_ok E.
Hypothesis HF : filled c w r.
Hypothesis HA : assembled E c K S arg l m.
Hypothesis F2 : forall s, (f s * f s)%Qc = 1%Qc.
Hypothesis FS : forall s t, same_state (nsites c) s t -> f s = f t.
Hypothesis OFF : forall i j d d' s t, i <> j -> nth_error l i = Some d -> nth_error l j = Some d' -> describes (nsites c) (nholes c) (nbeta c) d s -> describes (nsites c) (nholes c) (nbeta c) d' t ->
     (f s * f t * csr_at m (Z.of_nat i) (Z.of_nat j) <= 0)%Qc.
Let N := length l.
Let sg := sign_at f c l.
Let s := fun k => real (sg k).
Let a := fun i j => s i * s j * element m i j.

Lemma dim_l : dimension m = N.
Proof. now apply (mirrored_filled E c w r K S arg l m). Qed.
Lemma mirr : mirrored m.
Proof. now apply (mirrored_filled E c w r K S arg l m). Qed.
Lemma ss : forall k, s k * s k = 1.
Proof. intros k. unfold s. rewrite <- real_mul. unfold sg, sign_at. now rewrite F2, real_1. Qed.
Lemma picked : forall k, (k < N)%nat -> exists d, nth_error l k = Some d /\ describes (nsites c) (nholes c) (nbeta c) d (state_of c d) /\ sg k = f (state_of c d).
Proof.
  intros k Hk. destruct (nth_error l k) as [d|] eqn:Q; [|apply nth_error_None in Q; unfold N in Hk; lia]. exists d. split; [reflexivity|].
  destruct (core _ _ _ _ _ _ _ _ _ HE HF HA) as (El & _). split; [rewrite El in Q; exact (dl_describes _ _ _ _ _ HF Q)|]. unfold sg, sign_at. now rewrite (nth_error_nth _ _ _ Q).
Qed.
Lemma sg_of : forall k d x, nth_error l k = Some d -> describes (nsites c) (nholes c) (nbeta c) d x -> (k < N)%nat /\ f x = sg k.
Proof.
  intros k d x Hk Ds. split; [apply nth_error_Some; congruence|]. unfold sg, sign_at. rewrite (nth_error_nth _ _ _ Hk). apply FS.
  destruct (core _ _ _ _ _ _ _ _ _ HE HF HA) as (El & _). rewrite El in Hk. apply (describes_unique _ _ _ _ _ _ Ds (dl_describes _ _ _ _ _ HF Hk)).
Qed.
Lemma ra_sym : forall i j, (i < N)%nat -> (j < N)%nat -> a i j = a j i.
Proof. intros i j Hi Hj. unfold a. rewrite (element_sym m mirr i j) by (rewrite dim_l; assumption). ring. Qed.
Lemma ra_real : forall i j, a i j = real (sg i * sg j * csr_at m (Z.of_nat i) (Z.of_nat j))%Qc.
Proof. intros. unfold a, s, element. now rewrite !real_mul. Qed.
Lemma ra_off : forall i j, (i < N)%nat -> (j < N)%nat -> i <> j -> a i j <= 0.
Proof.
  intros i j Hi Hj D. rewrite ra_real, <- real_0. apply real_le. destruct (picked i Hi) as (d & Qd & Dd & ->). destruct (picked j Hj) as (d' & Qd' & Dd' & ->). now apply (OFF i j d d').
Qed.
Lemma ra_stat : forall e v, energy_state m e v -> forall i, (i < N)%nat -> actR N a (fun k => s k * v k) i = e * (s i * v i).
Proof.
  intros e v (_ & V) i Hi. rewrite dim_l in V. unfold actR, a. transitivity (s i * rsum N (fun j => element m i j * v j)); [|rewrite (V i Hi); ring].
  rewrite <- rsum_scale. apply rsum_ext. intros j _. transitivity (s j * s j * (s i * element m i j * v j)); [ring | rewrite ss; ring].
Qed.
Lemma ra_form : forall u, form N a (fun k => s k * u k) = form N (element m) u.
Proof.
  intros u. unfold form, dot, actR. apply rsum_ext. intros i _. rewrite <- !rsum_scale. apply rsum_ext. intros j _. unfold a. transitivity (s i * s i * (s j * s j) * (u i * (element m i j * u j))); [ring | rewrite !ss; ring].
Qed.
Lemma ra_dot : forall u, dot N (fun k => s k * u k) (fun k => s k * u k) = dot N u u.
Proof. intros u. unfold dot. apply rsum_ext. intros i _. transitivity (s i * s i * (u i * u i)); [ring | rewrite ss; ring]. Qed.
Lemma ra_back : forall u k, s k * (s k * u k) = u k.
Proof. intros u k. rewrite <- Rmult_assoc, ss. ring. Qed.
Lemma ra_low : forall e, ground_energy m e -> forall u, e * dot N u u <= form N a u.
Proof.
  intros e G u. pose proof (ground_form m e mirr G (fun k => s k * u k)) as Q. rewrite dim_l, ra_dot, <- ra_form in Q. eapply Rle_trans; [exact Q|]. apply Req_le.
  unfold form. apply dot_ext; [intros; apply ra_back|]. intros i _. apply actR_ext. intros j _. apply ra_back.
Qed.
Lemma follows_iff : forall v, (forall k, (k < N)%nat -> 0 < s k * v k) <-> follows_real c l f v.
Proof.
  intros v. split.
  - intros H k d x Hk Ds. destruct (sg_of k d x Hk Ds) as (B & ->). now apply H.
  - intros H k Hk. destruct (picked k Hk) as (d & Qd & Dd & Es). unfold s. rewrite Es. now apply (H k d).
Qed.

Lemma signed_is_ground : forall e v, energy_state m e v -> follows_real c l f v \/ follows_real c l f (fun i => - v i) -> ground_energy m e.
Proof.
  assert (P : forall e v, energy_state m e v -> follows_real c l f v -> ground_energy m e).
  { intros e v V F. apply (form_ground m e v); [|exact V]. intros u. rewrite dim_l, <- ra_dot, <- ra_form. apply (positive_lowest N a e (fun k => s k * v k) ra_sym ra_off); [now apply ra_stat | now apply follows_iff]. }
  intros e v V [F|F]; [now apply (P e v)|]. apply (P e (fun i => - v i)); [|exact F]. destruct V as ((i & Hi & Ni) & V). split; [exists i; split; [exact Hi | lra]|].
  intros j Hj. transitivity (- (1) * rsum (dimension m) (fun k => element m j k * v k)); [rewrite <- rsum_scale; apply rsum_ext; intros; ring | rewrite (V j Hj); ring].
Qed.

Hypothesis CON : forall i j, (i < N)%nat -> (j < N)%nat -> clos_refl_trans nat (PPerron.linked N (fun i j => sg i * sg j * csr_at m (Z.of_nat i) (Z.of_nat j))%Qc) i j.
Lemma ra_linked : forall i j, (i < N)%nat -> (j < N)%nat -> clos_refl_trans nat (PReal2.linked N a) i j.
Proof.
  intros i j Hi Hj. pose proof (CON i j Hi Hj) as C. clear Hi Hj. induction C as [x y (Hx & Hy & D & L)| |x y z _ IH1 _ IH2]; [apply rt_step|apply rt_refl|exact (rt_trans _ _ _ _ _ IH1 IH2)].
  split; [exact Hx|]. split; [exact Hy|]. split; [exact D|]. rewrite ra_real, <- real_0. now apply real_lt.
Qed.
Lemma ground_signed : forall e v, ground_energy m e -> energy_state m e v ->
  (follows_real c l f v \/ follows_real c l f (fun i => - v i)) /\ forall v', energy_state m e v' -> exists x, forall i, (i < dimension m)%nat -> v' i = x * v i.
Proof.
  intros e v G V. pose proof (ra_stat e v V) as ST.
  assert (NZ : exists i, (i < N)%nat /\ s i * v i <> 0).
  { destruct V as ((i & Hi & Ni) & _). rewrite dim_l in Hi. exists i. split; [exact Hi|]. intros Q. apply Ni. rewrite <- (ra_back v i), Q. ring. }
  split.
  - destruct (PReal2.one_sign N a ra_sym ra_off e (ra_low e G) ra_linked _ ST NZ) as [P|P]; [left|right]; apply follows_iff; intros k Hk; specialize (P k Hk); cbv beta in P; lra.
  - intros v' V'. destruct (PReal2.one_state N a ra_sym ra_off e (ra_low e G) ra_linked _ _ (ra_stat e v' V') ST NZ) as (x & Hx). exists x. intros i Hi. rewrite dim_l in Hi.
    rewrite <- (ra_back v' i), (Hx i Hi). transitivity (s i * s i * (x * v i)); [ring | rewrite ss; ring].
Qed.
Lemma one_signed : (0 < length l)%nat -> one_ground_state c l m f.
Proof.
  intros Hl. assert (Hd : (0 < dimension m)%nat) by (rewrite dim_l; exact Hl). destruct (ground_exists m mirr Hd) as (e & G). pose proof G as ((v & V) & _).
  assert (UQ : forall e' v', energy_state m e' v' -> follows_real c l f v' -> e' = e) by (intros e' v' V' F'; apply (ground_unique m); [apply (signed_is_ground e' v' V'); now left | exact G]).
  destruct (ground_signed e v G V) as [[P|P] U].
  - exists e, v. split; [exact G|]. split; [exact V|]. split; [exact P|]. split; [exact U | exact UQ].
  - assert (V' : energy_state m e (fun i => - v i)).
    { destruct V as ((i & Hi & Ni) & V). split; [exists i; split; [exact Hi | Lra.lra]|]. intros j Hj. transitivity (- (1) * rsum (dimension m) (fun k => element m j k * v k)); [rewrite <- rsum_scale; apply rsum_ext; intros; ring | rewrite (V j Hj); ring]. }
    exists e, (fun i => - v i). split; [exact G|]. split; [exact V'|]. split; [exact P|]. split; [|exact UQ]. intros v' W. destruct (U v' W) as (x & X). exists (- x). intros i Hi. rewrite (X i Hi). ring.
Qed.
End Signed.

(** ** C106 *)
Lemma marshall_signs : forall E c w K S arg l m, set_iter_ok E -> filled_whole c w -> assembled E c K S arg l m -> nholes c = 0%Z -> (0 <= i_J K)%Qc ->
  forall i j d d' s t, i <> j -> nth_error l i = Some d -> nth_error l j = Some d' -> describes (nsites c) (nholes c) (nbeta c) d s -> describes (nsites c) (nholes c) (nbeta c) d' t ->
     (down_sign (nsites c) (point w) s * down_sign (nsites c) (point w) t * csr_at m (Z.of_nat i) (Z.of_nat j) <= 0)%Qc.
Proof.
  intros E c w K S arg l m HE HF HA H0 J1 i j d d' s t D Hi Hj Ds Dt.
  destruct (C89_elements_pf E c w _ K S arg l m i j d d' s t HE HF HA (or_introl H0) J1 D Hi Hj Ds Dt) as [P Q]. rewrite Q. apply real_le in P. apply real_le_inv. rewrite real_opp, real_0 in *. Lra.lra.
Qed.
Lemma C106_signs_pf : forall E c w K S arg l m, set_iter_ok E -> filled_whole c w -> assembled E c K S arg l m -> (0 < length l)%nat ->
  nholes c = 0%Z -> s_bij S = true -> (0 < i_J K)%Qc -> one_ground_state c l m (down_sign (nsites c) (point w)).
Proof.
  intros E c w K S arg l m HE HF HA Hl H0 HB HJ. assert (J1 : (0 <= i_J K)%Qc) by now apply Qclt_le_weak.
  apply (one_signed E c w (zrange 0 (nsites c)) K S arg l m); try assumption; [intros; apply sign_square | intros; now apply down_same | now apply (marshall_signs E c w K S arg l m) | now apply (indices_linked E c w K S arg l m)].
Qed.
Lemma C106_ferro_pf : forall E c w K S arg l m, set_iter_ok E -> filled_whole c w -> assembled E c K S arg l m -> (0 < length l)%nat ->
  ferromagnetic K S -> nholes c = 0%Z \/ (s_bt S = true /\ i_t K <> 0%Qc) -> one_ground_state c l m (hop_sign K (nsites c) (point w)).
Proof.
  intros E c w K S arg l m HE HF HA Hl FE HT. pose proof FE as (U & _).
  apply (one_signed E c w (zrange 0 (nsites c)) K S arg l m); try assumption; [intros; apply hop_square | intros; now apply hop_same | | now apply (hops_linked E c w K S arg l m)].
  intros i j d d' s t NE Hi Hj Ds Dt. now apply (C95_elements_pf E c w _ K S arg l m i j d d' s t HE HF HA).
Qed.
