(** All the perturbators of one determinant. *)
From Coq Require Import ZArith List Bool QArith Qcanon Lia Permutation.
From Verif Require Import PyBase PyFacts Lattice Base Interact Ham Spin Prob Dav Files Emb Spec SpecOps SpecTJ HamSpec SpinDefs ProbDefs Geometry EmbDefs DynDefs.
From Verif Require Import PBasis PVec PMat PRing PGeo FGeo PRot PSites PSpin PProb PHam PRep PWave PDav FSites FProb FHam PEmb PEmbRing PEmbNeel FEmb PEmbBlock PEmbPerm PEmbTurn FEmbBlock FEmbDrop FEmbDyn PEmbCount PEmbNear PEmbCoupled PEmbAdd PEmbExch.
Import ListNotations.
Open Scope Z_scope.

Section Second.
Variables (E : runtime) (I : interactions) (c : configuration) (l : list (list Z)) (st : nat -> occupation) (r : bool) (nb : basis).
Variables (u : surroundings) (full : configuration) (single : bool) (thr energy : Qc) (gs : vect).
Hypothesis HE : set_iter_ok E.
Hypothesis HZ : sized c.
Hypothesis P : proper c.
Hypothesis HF : numbering_found E (nbh c) (nbv c) (nblocs_side c).
Hypothesis HBas : construct_basis c = Ok (mkBasis c l).
Hypothesis Ls : listed (nsites c) (nholes c) (nbeta c) l st.
Hypothesis Bal : r = true -> nalpha c = nbeta c.
Hypothesis Hnb : neighbor_basis E (mkBasis c l) r = Ok nb.
Hypothesis HS : block_surroundings E c (b_conf nb) = Ok (u, full).
Hypothesis Hgs : length gs = length l.
Let cn := b_conf nb.
Let N := nsites c.
Let sec := in_sector N (nholes c) (nbeta c).
Let ix := state_index N (nholes c) (nbeta c).
Let w := nblocs_side c * nbh c.
Let ht := nblocs_side c * nbv c.
Let dim := zlen gs.
Let Y := mkDyn c nb u full single thr energy gs dim.
Variables (rots : list Z) (ixr : Z -> occupation -> Z) (stR : Z -> Z -> occupation).
Hypothesis Hrots : rots = if single then [0] else zrange 0 4.
Hypothesis R1 : forall d s rt, In rt rots -> describes N (nholes c) (nbeta c) d s -> (if single then get_index_in_basis c d else rotated_index c d rt) = Ok (ixr rt s).
Hypothesis R2 : forall rt s, In rt rots -> sec s -> 0 <= ixr rt s < dim.
Hypothesis R3 : forall rt s i, In rt rots -> sec s -> 0 <= i < dim -> (ixr rt s = i <-> same_state N s (stR rt i)).
Hypothesis R4 : forall rt i, In rt rots -> 0 <= i < dim -> sec (stR rt i).

(** the state of the block *)
Variables (det_A : list Z) (s : occupation).
Hypothesis DA : describes N (nholes c) (nbeta c) det_A s.
Hypothesis HD : forall v, In v (words (Z.to_nat (2 * N))) -> lent_by w ht (length gs) st s (spelt v) = true -> (qz 2 * energy)%Qc <> pair_energy w ht I (spelt v).

Let V (p : occupation) (i j : Z) : Qc := qsum (fun rt => mediated w ht I thr energy st gs p (stR rt i) (stR rt j)) rots.

Lemma n_is : N = w * ht.
Proof. destruct HZ as (H1 & H2 & H3 & HB & HM & _). exact (size_is c H1 H2 H3 HB HM). Qed.

Lemma n_pos : 1 <= N.
Proof. exact (N_one c HZ). Qed.

Lemma s_sec : sec s.
Proof. exact (describes_sector _ _ _ _ _ DA). Qed.

Lemma dim_is : dim = zlen l.
Proof. unfold dim, zlen. now rewrite Hgs. Qed.

(** ** Names of the perturbators in the register *)

Definition tag (p : occupation) : ((Z * Z) * (Z * Z)) * (Z * Z) :=
  (((cnt N p Hole, cnt N p Down), (cnt N (after N p) Hole, cnt N (after N p) Down)),
   (state_index N (cnt N p Hole) (cnt N p Down) p, state_index N (cnt N (after N p) Hole) (cnt N (after N p) Down) (after N p))).

Lemma tag_inj : forall p q, tag p = tag q -> same_state (2 * N) p q.
Proof.
  intros p q H. unfold tag in H. injection H as H1 H2 H3 H4 H5 H6. rewrite <- H1, <- H2 in H5. rewrite <- H3, <- H4 in H6. pose proof n_pos as NP.
  apply state_index_inj in H5; [|lia | apply sector_cnt; auto | apply sector_cnt; auto]. apply state_index_inj in H6; [|lia | apply sector_cnt; auto | apply sector_cnt; auto].
  intros x Hx. destruct (Z_lt_le_dec x N) as [L|L]; [apply H5; lia|]. specialize (H6 (x - N) ltac:(lia)). unfold after in H6. now replace (N + (x - N)) with x in H6 by lia.
Qed.

Lemma tag_same : forall p q, same_state (2 * N) p q -> tag p = tag q.
Proof.
  intros p q H. pose proof n_pos as NP.
  assert (A : same_state N p q) by (intros x Hx; apply H; lia). assert (B : same_state N (after N p) (after N q)) by (intros x Hx; unfold after; apply H; lia).
  unfold tag. rewrite !(cnt_same N p q) by assumption. rewrite !(cnt_same N (after N p) (after N q)) by assumption. now rewrite (state_index_same N _ _ p q A), (state_index_same N _ _ _ _ B).
Qed.

Variable ham0 : coo.

Definition inv (ps : list (list particle)) (x : coo * memory) : Prop :=
  map fst (snd x) = map fst (empty_memory c) /\ NoDup ps /\ (forall v, In v ps -> In v (words (Z.to_nat (2 * N)))) /\
  (forall key y, fst (fst key) = nholes c - 1 -> (In y (lookup (snd x) key) <-> exists v, In v ps /\ tag (spelt v) = (key, y))) /\
  (forall i j, 0 <= i < dim -> 0 <= j < dim -> coo_at (fst x) i j = (coo_at ham0 i j + qsum (fun v => V (spelt v) i j) ps)%Qc).

Definition step_ok (f : coo * memory -> res (coo * memory)) (W : list particle -> Prop) : Prop :=
  forall ps x, inv ps x -> exists ps' x', f x = Ok x' /\ inv ps' x' /\ forall v, In v ps' <-> In v ps \/ W v.

Lemma step_ext : forall f W W', (forall v, W v <-> W' v) -> step_ok f W -> step_ok f W'.
Proof.
  intros f W W' H F ps x J. destruct (F ps x J) as (ps' & x' & A & B & C). exists ps', x'. split; [assumption|]. split; [assumption|]. intros v. now rewrite C, H.
Qed.

Lemma step_id : forall f, (forall x, f x = Ok x) -> step_ok f (fun _ => False).
Proof. intros f F ps x J. exists ps, x. split; [apply F|]. split; [assumption|]. intros v. tauto. Qed.

Lemma step_fold : forall A (f : coo * memory -> A -> res (coo * memory)) (W : A -> list particle -> Prop) m,
  (forall a, In a m -> step_ok (fun x => f x a) (W a)) -> step_ok (fun x => foldM f x m) (fun v => exists a, In a m /\ W a v).
Proof.
  intros A f W m. induction m as [|a m IH]; intros H.
  - intros ps x J. exists ps, x. split; [reflexivity|]. split; [assumption|]. intros v. split; [now left | intros [X|(a & [] & _)]; assumption].
  - intros ps x J. destruct (H a (or_introl eq_refl) ps x J) as (p1 & x1 & F1 & J1 & C1).
    destruct (IH (fun b Hb => H b (or_intror Hb)) p1 x1 J1) as (p2 & x2 & F2 & J2 & C2).
    exists p2, x2. split; [cbn [foldM]; rewrite F1; exact F2|]. split; [assumption|]. intros v. rewrite C2, C1. cbn [In]. split.
    + intros [[X|X]|(b & Hb & X)]; [now left | right; exists a; auto | right; exists b; auto].
    + intros [X|(b & [<-|Hb] & X)]; [left; now left | left; now right | right; exists b; auto].
Qed.

(** ** One neighbouring site *)

Lemma sB_sec : forall t y po pn b' h', sec t -> 0 <= y < N -> t y = pn -> h' = nholes c - one (is_p pn Hole) + one (is_p po Hole) -> b' = nbeta c - one (is_p pn Down) + one (is_p po Down) ->
  in_sector N h' b' (put y po t).
Proof.
  intros t y po pn b' h' St Hy Q -> ->. apply sector_cnt. destruct (proj1 (sector_cnt _ _ _ _) St) as [S1 S2]. rewrite !cnt_put by assumption. rewrite Q. lia.
Qed.

Lemma near_facts : (forall x, In x (u_frontier_A u) -> 0 <= x < N) /\ (forall x, In x (u_frontier_B u) -> N <= x < 2 * N) /\ u_frontier_B u <> [] /\
  nholes (u_conf u) = nholes c + nholes cn /\
  (forall x y, 0 <= x < N -> N <= y < 2 * N -> close_sites w ht x y = true -> In x (u_frontier_A u) /\ In y (u_frontier_B u)).
Proof.
  pose proof HZ as (H1 & H2 & H3 & HB & HM & _). destruct (cn_facts E c l r nb HE HZ P HBas Bal Hnb) as (C1 & _).
  destruct (block_near E c (b_conf nb) HE H1 H2 H3 HB HM C1 u full HS) as (bm & _ & PU & _ & F1 & _ & F2 & _ & F3 & F4).
  split; [exact F1|]. split; [exact F2|]. split; [exact F3|]. split; [|exact F4]. destruct PU as (_ & _ & U & _). exact U.
Qed.

Lemma lent_here : forall a y t pn p, 0 <= a < N -> N <= y < 2 * N -> s a = Hole -> sec t -> t (y - N) = pn -> pn <> Hole -> close_sites w ht a y = true ->
  same_state (2 * N) p (join_states N (put a pn s) (put (y - N) Hole t)) -> lent_by w ht (length gs) st s p = true.
Proof.
  intros a y t pn p Ha Hy Sa St Ty Np Cl Sp. unfold lent_by. apply existsb_exists. pose proof (ix_in c l P HBas t St) as B. exists (Z.to_nat (ix t)).
  split; [apply in_seq; rewrite Hgs; unfold zlen in B; fold N ix in B; lia|].
  destruct (st_ix c l st P HBas Ls t _ St B) as [Q _]. specialize (Q eq_refl). fold N ix in Q.
  unfold lent. rewrite <- n_is. apply existsb_exists. exists a. split; [apply in_sites; lia|]. apply existsb_exists. exists (y - N). split; [apply in_sites; lia|].
  rewrite Sa. rewrite <- (Q (y - N)) by lia. rewrite Ty. replace (N + (y - N)) with y by lia. rewrite Cl.
  assert (X : sameb (2 * N) p (swap_state a y (join_states N s (st (Z.to_nat (ix t))))) = true).
  { apply sameb_iff. intros x Hx. rewrite (Sp x Hx). unfold swap_state, join_states, put.
    destruct (Z.ltb_spec x N) as [L|L].
    - destruct (Z.eqb_spec x a) as [->|]; [|destruct (Z.eqb_spec x y); [lia | reflexivity]]. destruct (Z.ltb_spec y N); [lia|]. rewrite <- (Q (y - N)) by lia. now rewrite Ty.
    - destruct (Z.eqb_spec x a); [lia|]. destruct (Z.eqb_spec x y) as [Q1|Q1]; destruct (Z.eqb_spec (x - N) (y - N)); try lia.
      + destruct (Z.ltb_spec a N); [congruence | lia].
      + rewrite (Q (x - N)) by lia. reflexivity. }
  rewrite X. destruct pn; try congruence; reflexivity.
Qed.

Lemma mediated_is : forall p si sj, mediated w ht I thr energy st gs p si sj = mediated_J c thr energy (pair_energy w ht I p) gs st (jump w ht I p) si sj.
Proof. intros p si sj. unfold mediated, mediated_J. rewrite <- n_is. reflexivity. Qed.

(** what the dictionary of one perturbator adds *)
Lemma hole_coupled : forall pA pB dA dB sA sB pn v d ham, pn <> Hole ->
  nsites pA = N -> unrestricted pA -> nholes pA = nholes c - 1 -> nbeta pA = nbeta c + one (is_p pn Down) -> conf_describes pA dA sA ->
  nsites pB = N -> unrestricted pB -> nholes pB = nholes c + 1 -> nbeta pB = nbeta c - one (is_p pn Down) -> nalpha pB = N - nholes pB - nbeta pB -> conf_describes pB dB sB ->
  same_state (2 * N) (spelt v) (join_states N sA sB) -> describes (2 * N) (2 * nholes c) (2 * nbeta c) d (spelt v) ->
  In v (words (Z.to_nat (2 * N))) -> lent_by w ht (length gs) st s (spelt v) = true ->
  exists m h, coupled E I cn pA pB u dA dB d = Ok m /\
    foldM (add_coupling c single thr energy (pair_energy w ht I (spelt v)) gs dim) ham (pairs_of m) = Ok h /\
    forall i j, 0 <= i < dim -> 0 <= j < dim -> coo_at h i j = (coo_at ham i j + V (spelt v) i j)%Qc.
Proof.
  intros pA pB dA dB sA sB pn v d ham Np A1 A2 A3 A4 DdA B1 B2 B3 B4 B5 DdB Sv Dv Wv Lv.
  pose proof n_pos as NP. pose proof HZ as (H1 & H2 & H3 & HB & HM & _). destruct (cn_facts E c l r nb HE HZ P HBas Bal Hnb) as (C1 & C2 & C3 & C4 & C5 & C6). fold cn N in C1, C2, C3, C4, C5, C6.
  unfold coupled. set (dn := nalpha pB + nbeta pB - nalpha cn - nbeta cn). set (dm := nalpha pB - nbeta pB - nalpha cn + nbeta cn).
  assert (D1 : dn = -1) by (unfold dn; lia). rewrite D1. change (Z.max (-1) 0 * dm) with (spin_code Hole).
  assert (D2 : Z.min 0 (-1) * dm = spin_code pn) by (change (Z.min 0 (-1)) with (-1); unfold dm; destruct pn; cbn [is_p one spin_code] in *; try congruence; lia). rewrite D2.
  destruct (indexes_unrestricted E pB dB sB Hole 0 HE B2 DdB) as (lB & -> & _ & IB & _). destruct (indexes_unrestricted E pA dA sA pn 0 HE A2 DdA) as (lA & -> & _ & IA & _).
  cbn [bind]. change (reverse_interactions (-1)) with (Ok (mkSwitches true false false true true false)). cbn [bind]. rewrite A1 in IA |- *. rewrite B1 in IB.
  assert (V1 : same_state N (spelt v) sA) by (intros x Hx; rewrite (Sv x) by lia; apply join_first; assumption).
  assert (V2 : same_state N (after N (spelt v)) sB) by (intros x Hx; unfold after; rewrite (Sv (N + x)) by lia; apply (join_second N sA sB); assumption).
  pose proof (dictionary E I c cn u full HE H1 H2 H3 HB HM C1 HF HS C3 C4 pn (spelt v) Np) as DD. fold w ht in DD. rewrite <- n_is in DD. cbv beta in DD.
  destruct (proj1 (sector_cnt _ _ _ _) (describes_sector _ _ _ _ _ DdA)) as [SA1 SA2]. rewrite A1 in SA1, SA2.
  destruct (DD ltac:(rewrite (cnt_same N _ _ Hole V1); lia) ltac:(rewrite (cnt_same N _ _ Down V1); lia) lA lB) with (d := d) as (m & Em & L1 & L2 & L3 & L4).
  - intros x. rewrite IA. split; intros [Hx Q]; (split; [assumption|]); rewrite <- Q; [apply V1 | symmetry; apply V1]; assumption.
  - intros x. rewrite IB. split; intros [Hx Q]; (split; [assumption|]); rewrite <- Q; [apply V2 | symmetry; apply V2]; assumption.
  - exact Dv.
  - rewrite Em.
    destruct (all_pairs c single thr energy (pair_energy w ht I (spelt v)) gs dim st (jump w ht I (spelt v)) m rots ixr stR) with (ham := ham) as (h & Eh & Hh); try assumption; try reflexivity.
    + fold N. lia.
    + intros Q. apply (HD _ Wv Lv). replace (qz 2 * energy)%Qc with (qz 2 * energy - pair_energy w ht I (spelt v) + pair_energy w ht I (spelt v))%Qc by ring. rewrite Q. ring.
    + intros t St. rewrite dim_is. exact (ix_in c l P HBas t St).
    + intros k Hk. rewrite dim_is in Hk. exact (proj1 (st_sec c l st P HBas Ls k Hk)).
    + intros t k St Hk. rewrite dim_is in Hk. exact (st_ix c l st P HBas Ls t k St Hk).
    + exists m, h. split; [reflexivity|]. split; [exact Eh|]. intros i j Hi Hj. rewrite (Hh i j Hi Hj). f_equal. unfold V. apply qsum_ext. intros rt _. symmetry. apply mediated_is.
Qed.

Lemma site_step : forall a pn pA pB t det_B y, 0 <= a < N -> s a <> pn ->
  perturbed_A c (spin_code (s a)) (spin_code pn) = Ok pA -> perturbed_B c cn (spin_code (s a)) (spin_code pn) = Ok pB ->
  sec t -> describes N (nholes c) (nbeta c) det_B t -> N <= y < 2 * N -> close_sites w ht a y = true ->
  step_ok (fun x => dynamic_site E I Y pA pB (canon N (put a pn s)) (spin_code (s a)) (spin_code pn) det_B x y)
          (fun v => s a = Hole /\ t (y - N) = pn /\ v = spell (2 * N) (join_states N (put a pn s) (put (y - N) (s a) t))).
Proof.
  intros a pn pA pB t det_B y Ha Dn EA EB St Dt Hy Cl. pose proof n_pos as NP. pose proof HZ as (H1 & H2 & H3 & HB & HM & _).
  destruct (exchanged E c l r nb HE HZ P HBas Bal Hnb (s a) pn Dn) as (pA' & pB' & EA' & EB' & (A1 & A2 & A3 & A4) & (B1 & B2 & B3 & B4 & B5)). fold cn N in A1, B1, B5, EB'.
  rewrite EA in EA'. injection EA' as <-. rewrite EB in EB'. injection EB' as <-.
  destruct (cn_facts E c l r nb HE HZ P HBas Bal Hnb) as (C1 & C2 & C3 & C4 & C5 & C6). fold cn N in C1, C2, C3, C4, C5, C6.
  intros ps [ham mem] J. assert (DB : conf_describes cn det_B t) by (unfold conf_describes; now rewrite C1, C3, C4).
  unfold dynamic_site. unfold Y. cbn [y_conf y_neighbor y_sur y_full y_single y_threshold y_energy y_gs y_dim]. fold cn N.
  rewrite (spin_site_ok cn det_B t (y - N) DB) by lia. cbn [bind]. rewrite code_eqb.
  assert (IP : forall p q, is_p p q = true <-> p = q) by (intros [] []; cbn; split; congruence).
  destruct (is_p (t (y - N)) pn) eqn:Q; cbn [negb].
  2:{ exists ps, (ham, mem). split; [reflexivity|]. split; [assumption|]. intros v. split; [now left|]. intros [X|(_ & X & _)]; [assumption|]. apply IP in X. congruence. }
  apply IP in Q.
  set (sA := put a pn s). set (sB := put (y - N) (s a) t).
  assert (SA : in_sector N (nholes pA) (nbeta pA) sA).
  { rewrite A3, A4. apply sector_cnt. destruct (proj1 (sector_cnt _ _ _ _) s_sec) as [S1 S2]. unfold sA. rewrite !cnt_put by assumption. lia. }
  assert (SB : in_sector N (nholes pB) (nbeta pB) sB) by (apply (sB_sec t (y - N) (s a) pn); try assumption; lia).
  rewrite (perturb_ok E cn pB det_B t (y - N) pn (s a)); try assumption; try (unfold unrestricted; rewrite C1; exact C6); try (rewrite C1; assumption || lia); try congruence.
  cbn [bind]. rewrite C1. fold sB.
  assert (GA : compute_hash_table pA (canon N sA) = Ok (state_index N (nholes pA) (nbeta pA) sA)) by (rewrite <- A1; apply index_of_canon; rewrite A1; exact SA).
  assert (GB : compute_hash_table pB (canon N sB) = Ok (state_index N (nholes pB) (nbeta pB) sB)) by (rewrite <- B1; apply index_of_canon; rewrite B1; exact SB).
  rewrite GA, GB. cbn [bind].
  set (key := (Emb.get_id pA, Emb.get_id pB)). set (val := (state_index N (nholes pA) (nbeta pA) sA, state_index N (nholes pB) (nbeta pB) sB)).
  pose proof J as (J1 & J2 & J3 & J4 & J5). cbn [fst snd] in J1, J4, J5.
  destruct (remember_ok mem key val) as (rm & Erm & Hrm); [exact (known_key E c l r nb HE HZ P HBas Bal Hnb pA pB (s a) pn Dn EA EB mem J1)|].
  rewrite Erm. cbn [bind]. set (v0 := spell (2 * N) (join_states N sA sB)).
  assert (Sv : same_state (2 * N) (spelt v0) (join_states N sA sB)) by (apply spelt_spell; lia).
  assert (TG : tag (spelt v0) = (key, val)).
  { rewrite (tag_same _ _ Sv). unfold tag. rewrite !(cnt_same N _ _ _ (join_first N sA sB)), !(cnt_same N _ _ _ (join_second N sA sB)).
    rewrite (state_index_same N _ _ _ _ (join_first N sA sB)), (state_index_same N _ _ _ _ (join_second N sA sB)).
    destruct (proj1 (sector_cnt _ _ _ _) SA) as [-> ->]. destruct (proj1 (sector_cnt _ _ _ _) SB) as [-> ->]. reflexivity. }
  assert (Wv : In v0 (words (Z.to_nat (2 * N)))) by (apply spell_in; lia).
  assert (DdA : conf_describes pA (canon N sA) sA) by (unfold conf_describes; rewrite A1; now apply canon_describes).
  assert (DdB : conf_describes pB (canon N sB) sB) by (unfold conf_describes; rewrite B1; now apply canon_describes).
  assert (DEC : s a = Hole \/ s a <> Hole) by (destruct (s a); [left; reflexivity | right; discriminate | right; discriminate]).
  destruct rm as [mem'|].
  2:{ exists ps, (ham, mem). split; [reflexivity|]. split; [assumption|]. intros v. split; [now left|]. intros [X|(Sa & _ & ->)]; [assumption|].
      assert (K : fst (fst key) = nholes c - 1).
      { cbn [key fst Emb.get_id]. rewrite A3, Sa. rewrite Sa in Dn. destruct pn; cbn [is_p one]; congruence || lia. }
      apply (J4 key val K) in Hrm. destruct Hrm as (v & Hv & Tv). rewrite <- TG in Tv. apply tag_inj in Tv. fold sA sB v0.
      assert (v = v0) by (apply (spelt_inj (2 * N)); try assumption; [lia | now apply J3]). now subst v. }
  destruct Hrm as (R0 & RK & RL).
  destruct (extend_ok E pA pB (canon N sA) (canon N sB) sA sB HE A2 B2) as (d & Ed & Dd); try assumption; try lia.
  rewrite Ed. cbn [bind].
  rewrite A1, B1 in Dd. replace (nholes pA + nholes pB) with (2 * nholes c) in Dd by lia. replace (nbeta pA + nbeta pB) with (2 * nbeta c) in Dd by lia. replace (N + N) with (2 * N) in Dd by lia.
  assert (Dv : describes (2 * N) (2 * nholes c) (2 * nbeta c) d (spelt v0)) by (eapply describes_same; [|exact Dd]; intros x Hx; symmetry; now apply Sv).
  assert (EN : compute_energy E full I d = Ok (pair_energy w ht I (spelt v0))).
  { apply (energy_ok E I c cn u full HE H1 H2 H3 HB HM C1 HF HS C3 C4). fold w ht. rewrite <- n_is. exact Dv. }
  rewrite EN. cbn [bind]. destruct DEC as [Sa|Sa].
  - assert (Np : pn <> Hole) by congruence.
    assert (K : fst (fst key) = nholes c - 1) by (cbn [key fst Emb.get_id]; rewrite A3, Sa; destruct pn; cbn [is_p one]; congruence || lia).
    assert (Lv : lent_by w ht (length gs) st s (spelt v0) = true).
    { apply (lent_here a y t pn); try assumption. unfold sB in Sv. rewrite Sa in Sv. exact Sv. }
    destruct (hole_coupled pA pB (canon N sA) (canon N sB) sA sB pn v0 d ham Np) as (m & h & Em & Eh & Hh); try assumption;
      try (rewrite ?A3, ?A4, ?B3, ?B4, Sa; destruct pn; cbn [is_p one]; congruence || lia).
    rewrite Em. cbn [bind]. rewrite Eh. cbn [bind].
    assert (NI : ~ In v0 ps) by (intros X; apply R0; apply (J4 key val K); exists v0; auto).
    exists (ps ++ [v0]), (h, mem'). split; [reflexivity|]. split.
    + unfold inv. cbn [fst snd]. split; [congruence|]. split; [apply NoDup_app'; [assumption | constructor; [now intros [] | constructor] |]; intros z Hz [<-|[]]; contradiction|].
      split; [intros v Hv; apply in_app_iff in Hv; destruct Hv as [Hv|[<-|[]]]; auto|]. split.
      * intros key' y' Hk. rewrite RL, (J4 key' y' Hk). split.
        -- intros [(v & Hv & T)|[-> ->]]; [exists v | exists v0]; (split; [apply in_app_iff; cbn [In]; tauto | assumption]).
        -- intros (v & Hv & T). apply in_app_iff in Hv. destruct Hv as [Hv|[<-|[]]]; [left; exists v; auto|]. right. rewrite TG in T. injection T as <- <-. auto.
      * intros i j Hi Hj. rewrite (Hh i j Hi Hj), (J5 i j Hi Hj), qsum_app, qsum_one. ring.
    + intros v. rewrite in_app_iff. cbn [In]. fold sA sB v0. split; [intros [X|[<-|[]]]; auto | intros [X|(_ & _ & ->)]; auto].
  - destruct near_facts as (F1 & F2 & _ & F3 & _).
    assert (Em : coupled E I cn pA pB u (canon N sA) (canon N sB) d = Ok []).
    { apply (coupled_empty E I cn pA pB u (canon N sA) (canon N sB) sA sB d N HE); try assumption; try lia.
      - pose proof P as (P1 & _). lia.
      - replace (nholes pA + nholes pB) with (2 * nholes c) by lia. replace (nbeta pA + nbeta pB) with (2 * nbeta c) by lia. exact Dd.
      - intros x Hx. apply F1 in Hx. lia.
      - intros x Hx. apply F2 in Hx. lia.
      - rewrite B3, B4, C3, C4. destruct (s a), pn; cbn [is_p one]; try congruence; lia. }
    rewrite Em. cbn [bind pairs_of foldM]. exists ps, (ham, mem'). split; [reflexivity|]. split; [|intros v; split; [now left | intros [X|(X & _)]; [assumption | contradiction]]].
    unfold inv. cbn [fst snd]. split; [congruence|]. split; [assumption|]. split; [assumption|]. split; [|assumption].
    intros key' y' Hk. rewrite RL, <- (J4 key' y' Hk). split; [|now left]. intros [X|[-> ->]]; [assumption|]. exfalso. cbn [key fst Emb.get_id] in Hk. rewrite A3 in Hk. destruct (s a), pn; cbn [is_p one] in Hk; try congruence; lia.
Qed.

(** ** The loops *)

Lemma around : forall a, 0 <= a < N -> exists near far,
  get_neighbors E a (bond_matrix (u_conf u)) (RList (u_frontier_B u)) = Ok near /\ get_second_neighbors E a (bond_matrix (u_conf u)) (RList (u_frontier_B u)) = Ok far /\
  forall y, In y (near ++ far) <-> N <= y < 2 * N /\ close_sites w ht a y = true.
Proof.
  intros a Ha. pose proof n_pos as NP. pose proof HZ as (H1 & H2 & H3 & HB & HM & _). destruct (cn_facts E c l r nb HE HZ P HBas Bal Hnb) as (C1 & _).
  destruct (block_near E c (b_conf nb) HE H1 H2 H3 HB HM C1 u full HS) as (bm & EB & PU & _ & _ & _ & F2 & _ & F3 & F4).
  destruct (conf_straight E c (b_conf nb) H1 H2 H3 HB HM HF _ _ bm EB PU) as [FD _]. fold w ht in FD, F4. destruct PU as (_ & U2 & _). fold N in U2, F2, F4.
  destruct (d_neighbors E (u_conf u) (blocks_point w ht) HE FD a (RList (u_frontier_B u))) as (near & En & _ & In1); [lia | exact Logic.I|].
  destruct (second_ok E (u_conf u) (blocks_point w ht) HE FD a (RList (u_frontier_B u))) as (far & Ef & _ & In2); [lia | exact Logic.I|].
  exists near, far. split; [assumption|]. split; [assumption|].
  assert (AL : forall y, allowed (nsites (u_conf u)) (RList (u_frontier_B u)) y <-> In y (u_frontier_B u)) by (intros y; destruct (u_frontier_B u); [congruence | reflexivity]).
  intros y. rewrite in_app_iff, In1, In2, !AL, U2.
  assert (CI : N <= y < 2 * N -> (close_sites w ht a y = true <-> adjacent (blocks_point w ht a) (blocks_point w ht y) \/ exists m, path (2 * N) (blocks_point w ht) a m y)).
  { intros Hy. pose proof (close_iff c a y) as CL. fold w ht in CL. rewrite <- n_is in CL. apply CL; lia. }
  split.
  - intros [(By & Fy & Ad)|(Fy & m & Pm)]; pose proof (F2 y Fy) as Hy; (split; [assumption|]); apply (CI Hy); [now left | right; now exists m].
  - intros [Hy Cl]. destruct (F4 a y Ha Hy Cl) as [_ Fy]. apply (CI Hy) in Cl. destruct Cl as [Ad|Pm]; [left | right].
    + split; [lia|]. split; assumption.
    + split; assumption.
Qed.

Definition lent_with (a : Z) (pn : particle) (v : list particle) : Prop :=
  s a = Hole /\ exists t y, sec t /\ N <= y < 2 * N /\ close_sites w ht a y = true /\ t (y - N) = pn /\ v = spell (2 * N) (join_states N (put a pn s) (put (y - N) Hole t)).

Lemma exchange_step : forall a pn, 0 <= a < N -> s a <> pn ->
  step_ok (fun x => dynamic_exchange E I Y det_A a (spin_code (s a)) x (spin_code pn)) (lent_with a pn).
Proof.
  intros a pn Ha Dn. pose proof n_pos as NP. destruct (cn_facts E c l r nb HE HZ P HBas Bal Hnb) as (C1 & C2 & C3 & C4 & C5 & C6). fold cn N in C1, C2, C3, C4, C5, C6.
  unfold dynamic_exchange, Y. cbn [y_conf y_neighbor y_sur]. fold cn.
  destruct (Z.leb_spec (count_of cn (spin_code pn)) 0) as [Z0|Z1].
  - apply (step_ext _ (fun _ => False)); [|apply step_id; reflexivity]. intros v. split; [intros []|]. intros (_ & t & y & St & Hy & _ & Ty & _).
    assert (K : 1 <= cnt N t pn).
    { unfold cnt, zlen. assert (X : In (y - N) (sites_of N t pn)) by (unfold sites_of; apply filter_In; split; [apply in_zrange; lia | rewrite Ty; now destruct pn]).
      destruct (sites_of N t pn); [destruct X|]. cbn [length]. lia. }
    destruct (proj1 (sector_cnt _ _ _ _) St) as [S1 S2]. pose proof (cnt_total N t ltac:(lia)) as T. unfold count_of in Z0. destruct pn; cbn [spin_code Z.eqb Pos.eqb] in Z0; lia.
  - destruct (exchanged E c l r nb HE HZ P HBas Bal Hnb (s a) pn Dn) as (pA & pB & EA & EB & (A1 & A2 & A3 & A4) & _). fold cn in EB. fold N in A1. rewrite EA, EB. cbn [bind].
    rewrite (perturb_ok E c pA det_A s a (s a) pn HE); try assumption; try reflexivity.
    2:{ apply P. }
    2:{ rewrite A3, A4. apply sector_cnt. destruct (proj1 (sector_cnt _ _ _ _) s_sec) as [S1 S2]. fold N. rewrite !cnt_put by assumption. lia. }
    cbn [bind]. fold N. destruct (around a Ha) as (near & far & -> & -> & IN). cbn [bind].
    fold Y.
    assert (STEP : step_ok (fun x => foldM (fun x det_B => foldM (dynamic_site E I Y pA pB (canon N (put a pn s)) (spin_code (s a)) (spin_code pn) det_B) x (near ++ far)) x (determinants nb))
              (fun v => exists det_B, In det_B (determinants nb) /\ exists y, In y (near ++ far) /\
                 (s a = Hole /\ state_of cn det_B (y - N) = pn /\ v = spell (2 * N) (join_states N (put a pn s) (put (y - N) (s a) (state_of cn det_B)))))).
    { apply (step_fold _ (fun x det_B => foldM (dynamic_site E I Y pA pB (canon N (put a pn s)) (spin_code (s a)) (spin_code pn) det_B) x (near ++ far))).
      intros det_B HBd. destruct (nb_sound E c l st r nb HE HZ P HBas Ls Bal Hnb det_B HBd) as (t & St & Dt). fold N in Dt.
      assert (Sd : same_state N (state_of cn det_B) t) by (rewrite <- C1; apply state_of_describes; unfold conf_describes; now rewrite C1, C3, C4).
      assert (Dd : describes N (nholes c) (nbeta c) det_B (state_of cn det_B)) by (eapply describes_same; [|exact Dt]; intros x Hx; symmetry; now apply Sd).
      apply (step_fold _ (dynamic_site E I Y pA pB (canon N (put a pn s)) (spin_code (s a)) (spin_code pn) det_B)).
      intros y Hy. apply IN in Hy. destruct Hy as [Hy Cl]. apply site_step; try assumption. exact (describes_sector _ _ _ _ _ Dd). }
    eapply step_ext; [|exact STEP]. intros v. unfold lent_with. split.
    + intros (det_B & HBd & y & Hy & Sa & Ty & ->). split; [assumption|]. apply IN in Hy. destruct Hy as [Hy Cl].
      destruct (nb_sound E c l st r nb HE HZ P HBas Ls Bal Hnb det_B HBd) as (t & St & Dt). fold N in Dt.
      assert (Sd : same_state N (state_of cn det_B) t) by (rewrite <- C1; apply state_of_describes; unfold conf_describes; now rewrite C1, C3, C4).
      exists t, y. split; [assumption|]. split; [assumption|]. split; [assumption|]. split; [rewrite <- Ty; symmetry; apply Sd; lia|].
      apply spell_same. intros x Hx. unfold join_states, put. destruct (Z.ltb_spec x N); [reflexivity|]. rewrite Sa. destruct (Z.eqb_spec (x - N) (y - N)); [reflexivity|]. apply Sd. lia.
    + intros (Sa & t & y & St & Hy & Cl & Ty & ->). destruct (nb_complete E c l st r nb HE HZ P HBas Ls Bal Hnb t St) as (det_B & HBd & Dt). fold N in Dt.
      assert (Sd : same_state N (state_of cn det_B) t) by (rewrite <- C1; apply state_of_describes; unfold conf_describes; now rewrite C1, C3, C4).
      exists det_B. split; [assumption|]. exists y. split; [apply IN; auto|]. split; [assumption|]. split; [rewrite <- Ty; apply Sd; lia|].
      apply spell_same. intros x Hx. unfold join_states, put. destruct (Z.ltb_spec x N); [reflexivity|]. rewrite Sa. destruct (Z.eqb_spec (x - N) (y - N)); [reflexivity|]. symmetry. apply Sd. lia.
Qed.

Lemma part_step : forall a, 0 <= a < N -> 
  step_ok (fun x => spin <- get_spin_site c det_A a ;; foldM (dynamic_exchange E I Y det_A a spin) x (filter (fun z => negb (z =? spin)) [-1; 0; 1]))
          (fun v => exists pn, s a <> pn /\ lent_with a pn v).
Proof.
  intros a Ha. rewrite (spin_site_ok c det_A s a DA Ha). cbn [bind].
  assert (M : filter (fun z => negb (z =? spin_code (s a))) [-1; 0; 1] = map spin_code (filter (fun p => negb (is_p p (s a))) [Down; Hole; Up])) by now destruct (s a).
  rewrite M. eapply step_ext; [|apply (step_fold _ (dynamic_exchange E I Y det_A a (spin_code (s a))) (fun z v => exists pn, z = spin_code pn /\ s a <> pn /\ lent_with a pn v))].
  - intros v. split.
    + intros (z & _ & pn & _ & H). now exists pn.
    + intros (pn & D & H). exists (spin_code pn). split; [|now exists pn]. apply in_map. apply filter_In. split; [destruct pn; cbn; auto|]. destruct (s a), pn; cbn; congruence.
  - intros z Hz. apply in_map_iff in Hz. destruct Hz as (pn & <- & Hp). apply filter_In in Hp. destruct Hp as [_ Hp].
    assert (D : s a <> pn) by (intros X; rewrite X in Hp; destruct pn; discriminate).
    eapply step_ext; [|exact (exchange_step a pn Ha D)]. intros v. split; [intros H; now exists pn|]. intros (pn' & Q & _ & H). assert (pn = pn') by (destruct pn, pn'; cbn in Q; congruence). now subst pn'.
Qed.

Lemma empty_lookup : forall key, lookup (empty_memory c) key = [].
Proof. intros key. unfold empty_memory. cbn [map lookup]. repeat (destruct (key_eqb _ _); [reflexivity|]). reflexivity. Qed.

Lemma dynamic_part_ok : exists h, dynamic_part E I Y ham0 det_A = Ok h /\
  forall i j, 0 <= i < dim -> 0 <= j < dim ->
    coo_at h i j = (coo_at ham0 i j + sum_states (2 * N) (fun p => only (lent_by w ht (length gs) st s p) (V p i j)))%Qc.
Proof.
  pose proof n_pos as NP. destruct near_facts as (F1 & F2 & _ & _ & F4).
  assert (I0 : inv [] (ham0, empty_memory c)).
  { unfold inv. cbn [fst snd]. split; [reflexivity|]. split; [constructor|]. split; [intros v []|]. split.
    - intros key y _. rewrite empty_lookup. split; [intros [] | intros (v & [] & _)].
    - intros i j _ _. rewrite qsum_nil. ring. }
  pose proof (step_fold _ (fun x a => spin <- get_spin_site c det_A a ;; foldM (dynamic_exchange E I Y det_A a spin) x (filter (fun z => negb (z =? spin)) [-1; 0; 1]))
                (fun a v => exists pn, s a <> pn /\ lent_with a pn v) (u_frontier_A u) (fun a Ha => part_step a (F1 a Ha))) as ST.
  destruct (ST [] _ I0) as (ps & [h mem] & EF & (_ & N1 & W1 & _ & H1) & IP). cbn [fst] in H1.
  exists h. split; [unfold dynamic_part, Y; cbn [y_conf y_sur]; fold Y; rewrite EF; reflexivity|]. intros i j Hi Hj. rewrite (H1 i j Hi Hj). f_equal.
  unfold sum_states. rewrite <- (qsum_filter _ (fun v => V (spelt v) i j) (fun v => lent_by w ht (length gs) st s (spelt v))). apply qsum_perm.
  apply NoDup_Permutation; [assumption | apply NoDup_filter, words_NoDup|]. intros v. rewrite filter_In. split.
  - intros Hv. split; [now apply W1|]. apply IP in Hv. destruct Hv as [[]|(a & Ha & pn & Dn & Sa & t & y & St & Hy & Cl & Ty & ->)].
    apply (lent_here a y t pn); try assumption; [now apply F1 | congruence | apply spelt_spell; lia].
  - intros [Wv Lv]. apply IP. right. unfold lent_by in Lv. apply existsb_exists in Lv. destruct Lv as (k & Hk & Lv). unfold lent in Lv. rewrite <- n_is in Lv.
    apply existsb_exists in Lv. destruct Lv as (a & Ha & Lv). apply existsb_exists in Lv. destruct Lv as (b & Hb & Lv). apply in_sites in Ha, Hb.
    rewrite !andb_true_iff in Lv. destruct Lv as [[[L1 L2] L3] L4]. apply sameb_iff in L4.
    assert (Sa : s a = Hole) by (destruct (s a); [reflexivity | discriminate | discriminate]).
    assert (Tb : st k b <> Hole) by (destruct (st k b); [discriminate | discriminate | discriminate]).
    apply in_seq in Hk. destruct (st_sec c l st P HBas Ls (Z.of_nat k)) as [Sk _]; [unfold zlen; lia|]. rewrite Nat2Z.id in Sk.
    exists a. destruct (F4 a (N + b) Ha ltac:(lia) L3) as [Fa _]. split; [assumption|]. exists (st k b). split; [congruence|]. split; [assumption|].
    exists (st k), (N + b). replace (N + b - N) with b by lia. split; [assumption|]. split; [lia|]. split; [assumption|]. split; [reflexivity|].
    rewrite <- (spell_spelt (2 * N) v) at 1; [|lia | assumption]. apply spell_same. intros x Hx. rewrite (L4 x Hx). unfold swap_state, join_states, put.
    destruct (Z.ltb_spec x N).
    + destruct (Z.eqb_spec x a) as [Q|Q].
      * destruct (Z.ltb_spec (N + b) N); [lia|]. now replace (N + b - N) with b by lia.
      * destruct (Z.eqb_spec x (N + b)); [lia | reflexivity].
    + destruct (Z.eqb_spec x a); [lia|]. destruct (Z.eqb_spec x (N + b)); destruct (Z.eqb_spec (x - N) b); try lia; [|reflexivity]. destruct (Z.ltb_spec a N); [assumption | lia].
Qed.
End Second.
