(** Proofs of C57, C69: the block beside another block. *)
From Coq Require Import ZArith List Bool QArith Qcanon Lia Permutation.
From Verif Require Import PyBase PyFacts Lattice Base Interact Ham Spin Prob Dav Files Emb Spec SpecTJ HamSpec SpinDefs ProbDefs Geometry EmbDefs.
From Verif Require Import PBasis PVec PMat PRing PGeo FGeo PRot PSpin PProb PHam PRep PWave PDav FSites FProb PEmb PEmbRing PEmbNeel FEmb PEmbBlock PEmbPerm FHam PEmbTurn.
Import ListNotations.
Open Scope Z_scope.

Lemma C70_wave_pf : forall c l st v r, listed (nsites c) (nholes c) (nbeta c) l st -> length v = length l -> inner v v <> 0%Qc -> 0 <= nsites c ->
  exists p, get_spins_probabilitites_lattice (mkBasis c l) v r = Ok p /\
    holds p (nsites c) (fun q x => weight st v (if r : bool then flip_particle q else q) x / inner v v)%Qc.
Proof.
  intros c l st v r Ls L N0 Hn. destruct r; [|exact (spins_ok c l st v Ls L N0 Hn)].
  unfold get_spins_probabilitites_lattice, mapM.
  pose proof (C42_reverse_pf (mkBasis c l) v Down) as A. pose proof (C42_reverse_pf (mkBasis c l) v Hole) as B. pose proof (C42_reverse_pf (mkBasis c l) v Up) as C.
  pose proof (probability_ok c l st v Down Ls L N0) as P1. pose proof (probability_ok c l st v Hole Ls L N0) as P2.
  pose proof (probability_ok c l st v Up Ls L N0) as P3. cbn [spin_code flip_particle] in *. rewrite A, B, C, P1, P2, P3. cbn [bind].
  eexists. split; [reflexivity|]. intros q.
  exists (map (fun x => weight st v (flip_particle q) x / inner v v)%Qc (zrange 0 (nsites c))). split; [destruct q; reflexivity|].
  split; [rewrite map_length, zrange_length; f_equal; lia|]. intros x Hx. rewrite nth_error_map, zrange_nth by assumption. reflexivity.
Qed.

(** ** C69 *)

Lemma neighbor_exists : forall E c l r, set_iter_ok E -> sized c -> proper c -> construct_basis c = Ok (mkBasis c l) ->
  exists nb, neighbor_basis E (mkBasis c l) r = Ok nb /\ nsites (b_conf nb) = nsites c.
Proof.
  intros E c l r HE HZ P B. destruct r; [|exists (mkBasis c l); split; reflexivity]. pose proof (sized_n c HZ) as N.
  destruct HZ as (H1 & H2 & H3 & _ & M & _). destruct P as (P1 & P2 & P3 & P4 & _ & R).
  destruct (C09_reverse_spins_basis_pf E c l HE (eq_sym M) ltac:(rewrite N; nia) P4 P1 P2 P3 R B) as (c' & l' & Q & Nn & _).
  exists (mkBasis c' l'). split; [exact Q | exact Nn].
Qed.

Lemma C69_neighbor_pf : forall E c l st r, set_iter_ok E -> sized c -> proper c -> construct_basis c = Ok (mkBasis c l) ->
  listed (nsites c) (nholes c) (nbeta c) l st ->
  exists nb, neighbor_basis E (mkBasis c l) r = Ok nb /\ length (determinants nb) = length l /\
    nsites (b_conf nb) = nsites c /\ nholes (b_conf nb) = nholes c /\ nbeta (b_conf nb) = (if r : bool then nalpha c else nbeta c) /\
    listed (nsites c) (nholes c) (if r then nalpha c else nbeta c) (determinants nb) (fun k => if r then flip_state (st k) else st k).
Proof.
  intros E c l st r HE HZ P B Ls. destruct r; [|exists (mkBasis c l); repeat (split; [reflexivity|]); exact Ls]. pose proof (sized_n c HZ) as N.
  destruct HZ as (H1 & H2 & H3 & _ & M & _). destruct P as (P1 & P2 & P3 & P4 & _ & R).
  destruct (C09_reverse_spins_basis_pf E c l HE (eq_sym M) ltac:(rewrite N; nia) P4 P1 P2 P3 R B) as (c' & l' & Q & N1 & N2 & N3 & _ & _ & L & I & _).
  exists (mkBasis c' l'). split; [exact Q|]. cbn [b_conf determinants]. split; [assumption|]. split; [assumption|]. split; [assumption|]. split; [assumption|].
  intros k d' Hd'. assert (Lk : (k < length l)%nat) by (rewrite <- L; apply nth_error_Some; congruence).
  destruct (nth_error l k) as [d|] eqn:Hd; [|apply nth_error_None in Hd; lia]. destruct (I k d _ Hd (Ls k d Hd)) as (d2 & Hd2 & D). congruence.
Qed.

Section Static.
Variables (E : runtime) (I : interactions) (c : configuration) (l : list (list Z)) (st : nat -> occupation).
Variables (y : dynamics) (pos : Z -> Z * Z) (m : Z) (around : Z -> Z * Z) (pR : list (Z * list Qc)) (rho : field).
Hypothesis Ls : listed (nsites c) (nholes c) (nbeta c) l st.
Hypothesis Hn : 0 <= nsites c.
Hypothesis Hc : nb_conf c = zlen l.
Hypothesis Hd : y_dim y = zlen l.
Hypothesis F : frame (y_sur y) (nsites c) pos m around.
Hypothesis H : holds pR m rho.
Let en (k : Z) : Qc := facing I (nsites c) pos (st (Z.to_nat k)) m around rho.

Lemma static_list : forall g ham, (forall b k d, In (k, d) (enumerate l) -> add_static c (y_single y) (y_dim y) b (en k) k d = Ok (b ++ g (k, d))) ->
  dress_blocks E I (mkBasis c l) false y pR ham = Ok (ham ++ flat_map g (enumerate l)).
Proof.
  intros g ham Hg. unfold dress_blocks. cbn [b_conf determinants]. apply foldM_rows. intros b [k d] Hk. pose proof Hk as Hk'.
  apply in_enumerate in Hk. destruct Hk as [H0 Hk]. cbn [fst snd]. assert (Lk : (Z.to_nat k < length l)%nat) by (apply nth_error_Some; congruence).
  destruct (determinant_field c l st (Z.to_nat k) Ls Hn Lk) as (v & p & Ev & Ep & Hp). rewrite Z2Nat.id in Ev by assumption. rewrite Hc, Ev. cbn [bind].
  rewrite Ep. cbn [bind]. rewrite (frontier_energy_ok I (y_sur y) (nsites c) pos m around p pR _ rho F Hp H). cbn [bind]. fold (en k).
  rewrite (Hg b k d Hk'). reflexivity.
Qed.

Lemma single_list : forall ham, y_single y = true ->
  dress_blocks E I (mkBasis c l) false y pR ham = Ok (ham ++ flat_map (fun p => [(en (fst p), fst p, fst p)]) (enumerate l)).
Proof.
  intros ham Hs. apply (static_list (fun p => [(en (fst p), fst p, fst p)])). intros b k d Hk. apply in_enumerate in Hk. destruct Hk as [H0 Hk]. cbn [fst].
  assert (Lk : (Z.to_nat k < length l)%nat) by (apply nth_error_Some; congruence).
  unfold add_static, add_coo, add_ham_coo. rewrite Hs, Hd. unfold zlen. destruct (Z.leb_spec 0 k); [|lia]. destruct (Z.ltb_spec k (Z.of_nat (length l))); [reflexivity | lia].
Qed.
End Static.

Lemma C69_dressing_pf : forall E c I l st r gs energy thr ham, let w := nblocs_side c * nbh c in
  set_iter_ok E -> sized c -> proper c -> numbering_found E (nbh c) (nbv c) (nblocs_side c) ->
  construct_basis c = Ok (mkBasis c l) -> listed (nsites c) (nholes c) (nbeta c) l st -> csr_dim ham = zlen l ->
  length gs = length l -> inner gs gs <> 0%Qc ->
  exists nb pB u full h, neighbor_basis E (mkBasis c l) r = Ok nb /\ get_spins_probabilitites_lattice (mkBasis c l) gs r = Ok pB /\
    block_surroundings E c (b_conf nb) = Ok (u, full) /\
    dress_blocks E I (mkBasis c l) false (mkDyn c nb u full true thr energy gs (csr_dim ham)) pB (csr_entries ham) = Ok h /\
    forall i j, csr_at (mkCsr (csr_dim ham) h) i j =
      (csr_at ham i j + only ((0 <=? i) && (i <? zlen l) && (i =? j))
         (facing I (nsites c) (point w) (st (Z.to_nat i)) (nsites c) (beside w)
                 (fun q x => weight st gs (if r : bool then flip_particle q else q) x / inner gs gs)))%Qc.
Proof.
  intros E c I l st r gs energy thr ham w HE HZ P HF B Ls Hd L N0.
  destruct (neighbor_exists E c l r HE HZ P B) as (nb & Hnb & Nn). destruct (C70_wave_pf c l st gs r Ls L N0 (proper_n c P)) as (pB & HpB & HR).
  pose proof HZ as (H1 & H2 & H3 & HB & HN & _). destruct (block_frame E c (b_conf nb) HE H1 H2 H3 HB HN Nn HF) as (u & full & Hu & F).
  destruct (basis_listed c l P B) as (_ & Ln & _).
  pose proof (single_list E I c l st (mkDyn c nb u full true thr energy gs (csr_dim ham)) _ _ _ pB _ Ls (proper_n c P) (eq_sym Ln) Hd F HR (csr_entries ham) eq_refl) as Eh.
  exists nb, pB, u, full. eexists. split; [assumption|]. split; [assumption|]. split; [assumption|]. split; [exact Eh|].
  intros i j. rewrite !csr_at_coo. cbn [csr_entries]. rewrite coo_at_app. f_equal. fold w.
  set (f := fun k : nat => facing I (nsites c) (point w) (st k) (nsites c) (beside w) (fun q x => weight st gs (if r then flip_particle q else q) x / inner gs gs)%Qc).
  destruct (Z.leb_spec 0 i), (Z.ltb_spec i (zlen l)); cbn [andb].
  - exact (diagonal_at _ l f i j ltac:(lia)).
  - apply (diagonal_out _ l f). lia.
  - apply (diagonal_out _ l f). lia.
  - apply (diagonal_out _ l f). lia.
Qed.

Lemma C69_symmetric_pf : forall E I c l nb u full single thr energy gs dynamic pB ham h,
  dress_blocks E I (mkBasis c l) dynamic (mkDyn c nb u full single thr energy gs (csr_dim ham)) pB (csr_entries ham) = Ok h ->
  forall i j, (csr_at (mkCsr (csr_dim ham) h) i j - csr_at ham i j = csr_at (mkCsr (csr_dim ham) h) j i - csr_at ham j i)%Qc.
Proof.
  intros E I c l nb u full single thr energy gs dynamic pB ham h H i j. destruct (dress_symmetric _ _ _ _ _ _ _ _ _ _ _ _ _ _ _ _ H) as (g & -> & G).
  rewrite !csr_at_coo. cbn [csr_entries]. rewrite !coo_at_app, (G i j). ring.
Qed.

(** what one turn diagonalises *)
Lemma C69_turn_pf : forall E N I g o c l nb u full ham first gs energy h e,
  block_turn E N I g o (mkBasis c l) nb u full ham first gs energy = Ok (h, e) ->
  exists pB k, get_spins_probabilitites_lattice (mkBasis c l) gs (o_reverse o) = Ok pB /\ csr_dim h = csr_dim ham /\
    dress_blocks E I (mkBasis c l) (o_dynamic o) (mkDyn c nb u full (o_neighbor o) (o_threshold o) energy gs (csr_dim ham)) pB (csr_entries ham) = Ok (csr_entries h) /\
    modified_davidson_algorithm N (csr_dense h) 1 [first] (g_stp g) (g_tol g) (g_dim_max g) = Ok (k, e_vals e, e_vects e) /\
    e_spins e = [] /\ e_vals e <> [].
Proof.
  intros E N I g o c l nb u full ham first gs energy h e H. unfold block_turn in H. cbn [b_conf] in H.
  apply bind_ok_inv in H. destruct H as (pB & HpB & H). apply bind_ok_inv in H. destruct H as (hh & Hh & H). apply bind_ok_inv in H. destruct H as (h' & Hh' & H).
  apply bind_ok_inv in H. destruct H as ([[k vals] vects] & Hm & H). unfold coo_to_csr in Hh'. destruct (forallb _ _); [|discriminate]. injection Hh' as <-.
  destruct vals as [|x vals]; [discriminate|]. injection H as <- <-. exists pB, k. cbn [csr_dim csr_entries e_vals e_vects e_spins].
  split; [assumption|]. split; [reflexivity|]. split; [assumption|]. split; [assumption|]. split; [reflexivity | discriminate].
Qed.

(** ** C57 *)

Lemma basis_ix : forall c l k d s, proper c -> construct_basis c = Ok (mkBasis c l) -> nth_error l k = Some d -> describes (nsites c) (nholes c) (nbeta c) d s ->
  state_index (nsites c) (nholes c) (nbeta c) s = Z.of_nat k.
Proof.
  intros c l k d s P B Hd D. destruct (basis_listed c l P B) as (El & Ln & _). pose proof (proper_n c P) as Hn.
  assert (Hk : 0 <= Z.of_nat k < nb_conf c) by (rewrite <- Ln; unfold zlen; assert (k < length l)%nat by (apply nth_error_Some; congruence); lia).
  destruct (PVec.ix_onto c P (Z.of_nat k) Hk) as (t & St & Q & _ & Nt). rewrite <- Q. rewrite Nat2Z.id, <- El, Hd in Nt. injection Nt as Nt. subst d.
  apply state_index_same. exact (describes_unique _ _ _ _ _ _ D (canon_describes _ _ _ _ St)).
Qed.

Lemma C57_invariant_pf : forall E I c l r nb u full thr energy gs dynamic pB ham h k i j d e,
  set_iter_ok E -> sized c -> proper c -> nbh c = nbv c -> construct_basis c = Ok (mkBasis c l) ->
  (dynamic = true -> r = true -> nalpha c = nbeta c) ->
  neighbor_basis E (mkBasis c l) r = Ok nb -> block_surroundings E c (b_conf nb) = Ok (u, full) ->
  dress_blocks E I (mkBasis c l) dynamic (mkDyn c nb u full false thr energy gs (csr_dim ham)) pB (csr_entries ham) = Ok h ->
  nth_error l i = Some d -> nth_error l j = Some e ->
  exists i' j', get_index_in_basis c (rotate_determinant k c d) = Ok i' /\ get_index_in_basis c (rotate_determinant k c e) = Ok j' /\
    (csr_at (mkCsr (csr_dim ham) h) i' j' - csr_at ham i' j' =
     csr_at (mkCsr (csr_dim ham) h) (Z.of_nat i) (Z.of_nat j) - csr_at ham (Z.of_nat i) (Z.of_nat j))%Qc.
Proof.
  intros E I c l r nb u full thr energy gs dynamic pB ham h k i j d e HE HZ P SQ B Bal Hnb Hu H Hd He.
  destruct (dress_turned E I c l HE HZ P SQ B r nb u full thr energy gs _ dynamic pB _ h Bal Hnb Hu H) as (g & -> & G).
  destruct (basis_listed c l P B) as (_ & _ & Ls). pose proof (Ls _ _ Hd) as Dd. pose proof (Ls _ _ He) as De. cbv beta in Dd, De.
  set (s := state_of c (nth i l [])) in *. set (t := state_of c (nth j l [])) in *. clearbody s t. pose proof (is_square c HZ SQ) as Hc.
  exists (state_index (nsites c) (nholes c) (nbeta c) (spun c k s)), (state_index (nsites c) (nholes c) (nbeta c) (spun c k t)).
  split; [exact (rotated_ix c Hc d s k Dd)|]. split; [exact (rotated_ix c Hc e t k De)|].
  rewrite !csr_at_coo. cbn [csr_entries]. rewrite !coo_at_app.
  rewrite <- (basis_ix c l i d s P B Hd Dd), <- (basis_ix c l j e t P B He De).
  rewrite (G k s t (describes_sector _ _ _ _ _ Dd) (describes_sector _ _ _ _ _ De)). ring.
Qed.

Lemma facing_ext : forall I n pos s t m around rho, (forall x, 0 <= x < n -> s x = t x) -> facing I n pos s m around rho = facing I n pos t m around rho.
Proof.
  intros I n pos s t m around rho H. unfold facing. apply sum_sites_ext. intros x Hx. rewrite (H x Hx). reflexivity.
Qed.

Lemma C57_static_pf : forall E c I l st r gs energy thr ham, let w := nblocs_side c * nbh c in
  set_iter_ok E -> sized c -> proper c -> nbh c = nbv c -> numbering_found E (nbh c) (nbv c) (nblocs_side c) ->
  construct_basis c = Ok (mkBasis c l) -> listed (nsites c) (nholes c) (nbeta c) l st -> csr_dim ham = zlen l ->
  length gs = length l -> inner gs gs <> 0%Qc ->
  exists nb pB u full h, neighbor_basis E (mkBasis c l) r = Ok nb /\ get_spins_probabilitites_lattice (mkBasis c l) gs r = Ok pB /\
    block_surroundings E c (b_conf nb) = Ok (u, full) /\
    dress_blocks E I (mkBasis c l) false (mkDyn c nb u full false thr energy gs (csr_dim ham)) pB (csr_entries ham) = Ok h /\
    forall i j, csr_at (mkCsr (csr_dim ham) h) i j =
      (csr_at ham i j + only ((0 <=? i)%Z && (i <? zlen l)%Z && (i =? j)%Z)
         (qsum (fun k => facing I (nsites c) (point w) (fun x => st (Z.to_nat i) (site w (turns k w (point w x)))) (nsites c) (beside w)
                                (fun q x => weight st gs (if r : bool then flip_particle q else q) x / inner gs gs)) [0; 1; 2; 3]%nat))%Qc.
Proof.
  intros E c I l st r gs energy thr ham w HE HZ P SQ HF B Ls Hd L N0.
  destruct (neighbor_exists E c l r HE HZ P B) as (nb & Hnb & Nn). destruct (C70_wave_pf c l st gs r Ls L N0 (proper_n c P)) as (pB & HpB & HR).
  pose proof HZ as (H1 & H2 & H3 & HB & HN & _). destruct (block_frame E c (b_conf nb) HE H1 H2 H3 HB HN Nn HF) as (u & full & Hu & F).
  destruct (basis_listed c l P B) as (El & Ln & _). pose proof (is_square c HZ SQ) as Hc. pose proof (proper_n c P) as Hn.
  set (rho := fun q x => (weight st gs (if r then flip_particle q else q) x / inner gs gs)%Qc) in *. fold w in F.
  set (f := fun s => facing I (nsites c) (point w) s (nsites c) (beside w) rho).
  set (ix := state_index (nsites c) (nholes c) (nbeta c)).
  set (g := fun p : Z * list Z => orbit c (f (st (Z.to_nat (fst p)))) (st (Z.to_nat (fst p))) (st (Z.to_nat (fst p)))).
  assert (Eh : dress_blocks E I (mkBasis c l) false (mkDyn c nb u full false thr energy gs (csr_dim ham)) pB (csr_entries ham) = Ok (csr_entries ham ++ flat_map g (enumerate l))).
  { apply (static_list E I c l st (mkDyn c nb u full false thr energy gs (csr_dim ham)) (point w) (nsites c) (beside w) pB rho Ls Hn (eq_sym Ln) F HR). intros b k d Hk. apply in_enumerate in Hk. destruct Hk as [H0 Hk].
    pose proof (Ls _ _ Hk) as D. pose proof (describes_sector _ _ _ _ _ D) as Sk. cbn [y_single y_dim]. unfold add_static, g, orbit. cbn [fst]. fold (f (st (Z.to_nat k))).
    rewrite (foldM_rows _ _ _ (fun rt => [(f (st (Z.to_nat k)), ix (spun c rt (st (Z.to_nat k))), ix (spun c rt (st (Z.to_nat k))))])).
    - reflexivity.
    - intros b0 rt _. rewrite (rotated_ix c Hc d _ rt D). cbn [bind]. fold ix. unfold add_coo. pose proof (PVec.ix_range c P _ (spun_sec c Hc rt _ Sk)) as R. fold ix in R.
      rewrite Hd, Ln. destruct (Z.leb_spec 0 (ix (spun c rt (st (Z.to_nat k))))); [|lia]. destruct (Z.ltb_spec (ix (spun c rt (st (Z.to_nat k)))) (nb_conf c)); [reflexivity | lia]. }
  exists nb, pB, u, full. eexists. split; [assumption|]. split; [assumption|]. split; [assumption|]. split; [exact Eh|]. clear Eh.
  intros i j. rewrite !csr_at_coo. cbn [csr_entries]. rewrite coo_at_app. f_equal.
  assert (Q : coo_at (flat_map g (enumerate l)) i j =
    qsum (fun rt => qsum (fun p => only ((ix (spun c rt (st (Z.to_nat (fst p)))) =? i)%Z && (ix (spun c rt (st (Z.to_nat (fst p)))) =? j)%Z) (f (st (Z.to_nat (fst p))))) (enumerate l)) (zrange 0 4)).
  { unfold coo_at. rewrite qsum_flat_map, qsum_exchange. apply qsum_ext. intros p _. unfold g, orbit. rewrite qsum_map. reflexivity. }
  rewrite Q. clear Q.
  assert (IX : forall p, In p (enumerate l) -> in_sector (nsites c) (nholes c) (nbeta c) (st (Z.to_nat (fst p))) /\ ix (st (Z.to_nat (fst p))) = fst p).
  { intros [k d] Hk. apply in_enumerate in Hk. destruct Hk as [H0 Hk]. cbn [fst]. pose proof (Ls _ _ Hk) as D. split; [eapply describes_sector; exact D|].
    pose proof (basis_ix c l _ d _ P B Hk D) as Q. unfold ix. rewrite Q. lia. }
  destruct (Z.leb_spec 0 i) as [I0|I0]; [destruct (Z.ltb_spec i (zlen l)) as [I1|I1]; [destruct (Z.eqb_spec i j) as [<-|Nij]|]|]; cbn [andb only].
  2:{ apply qsum_zero. intros rt _. apply qsum_zero. intros p _. destruct (Z.eqb_spec (ix (spun c rt (st (Z.to_nat (fst p))))) i) as [->|]; [|reflexivity].
      apply Z.eqb_neq in Nij. now rewrite Nij. }
  2,3: apply qsum_zero; intros rt _; apply qsum_zero; intros p Hp; destruct (IX p Hp) as [Sp _]; pose proof (PVec.ix_range c P _ (spun_sec c Hc rt _ Sp)) as R; fold ix in R;
    destruct (Z.eqb_spec (ix (spun c rt (st (Z.to_nat (fst p))))) i); [lia | reflexivity].
  assert (Hdi : exists d, nth_error l (Z.to_nat i) = Some d).
  { destruct (nth_error l (Z.to_nat i)) as [d|] eqn:Q; [eauto|]. apply nth_error_None in Q. unfold zlen in I1. lia. }
  destruct Hdi as (di & Hdi). pose proof (Ls _ _ Hdi) as Di. pose proof (describes_sector _ _ _ _ _ Di) as Si.
  assert (Ii : ix (st (Z.to_nat i)) = i) by (unfold ix; rewrite (basis_ix c l _ di _ P B Hdi Di); lia).
  set (a := st (Z.to_nat i)) in *. pose proof (square_side c Hc) as W. pose proof (square_n c Hc) as NN.
  assert (Each : forall rt, qsum (fun p => only ((ix (spun c rt (st (Z.to_nat (fst p)))) =? i)%Z && (ix (spun c rt (st (Z.to_nat (fst p)))) =? i)%Z) (f (st (Z.to_nat (fst p))))) (enumerate l)
            = f (spun c (- rt) a)).
  { intros rt. pose proof (spun_sec c Hc (- rt) a Si) as Sr. pose proof (PVec.ix_range c P _ Sr) as R. fold ix in R.
    assert (T : forall p, In p (enumerate l) -> (ix (spun c rt (st (Z.to_nat (fst p)))) =? i) = (fst p =? ix (spun c (- rt) a))).
    { intros p Hp. destruct (IX p Hp) as [Sp Ip]. rewrite <- Ii. replace (ix a) with (ix (spun c rt (spun c (- rt) a))).
      - unfold ix at 1 2. rewrite (spun_ix c Hc rt rt _ _ Sp Sr). fold ix. rewrite Z.sub_diag. change (spun c 0 (st (Z.to_nat (fst p)))) with (fun x => st (Z.to_nat (fst p)) x). change (ix (fun x => st (Z.to_nat (fst p)) x)) with (ix (st (Z.to_nat (fst p)))). now rewrite Ip.
      - apply state_index_same. intros x Hx. unfold spun. rewrite rot_add by lia. replace (- - rt + - rt) with 0 by lia. reflexivity. }
    set (p0 := ix (spun c (- rt) a)) in *.
    rewrite (qsum_ext _ _ (fun p => only (fst p =? p0) (f (st (Z.to_nat (fst p))))) (enumerate l)).
    2:{ intros p Hp. rewrite (T p Hp). now rewrite andb_diag. }
    rewrite <- (qsum_map _ _ (fun k => only (k =? p0) (f (st (Z.to_nat k)))) fst). rewrite enumerate_fst.
    rewrite (qsum_single _ _ _ p0); [|apply zrange_NoDup | apply in_zrange; rewrite Ln; exact R | intros z _ Nz; apply Z.eqb_neq in Nz; now rewrite Nz].
    rewrite Z.eqb_refl. cbn [only]. unfold f. apply facing_ext. intros x Hx.
    destruct (nth_error l (Z.to_nat p0)) as [d|] eqn:Q; [|apply nth_error_None in Q; unfold zlen in Ln; lia].
    pose proof (Ls _ _ Q) as D. pose proof (basis_ix c l _ d _ P B Q D) as Ix. rewrite Z2Nat.id in Ix by lia.
    exact (state_index_inj _ _ _ _ _ Hn (describes_sector _ _ _ _ _ D) Sr Ix x Hx). }
  rewrite (qsum_ext _ _ (fun rt => f (spun c (- rt) a)) _ (fun rt _ => Each rt)). change (zrange 0 4) with [0; 1; 2; 3]. rewrite !qsum_cons, !qsum_nil.
  assert (Sd : side c = w) by (unfold side, w; ring).
  assert (T : forall k : nat, (k < 4)%nat -> f (spun c (- Z.of_nat k) a) = facing I (nsites c) (point w) (fun x => a (site w (turns k w (point w x)))) (nsites c) (beside w) rho).
  { intros k Hk. unfold f. apply facing_ext. intros x Hx. unfold spun. f_equal. rewrite Z.opp_involutive, Sd. rewrite <- (site_point w ltac:(lia) x) at 1 by lia.
    assert (X : 0 <= x mod w < w /\ 0 <= x / w < w). { rewrite Sd in *. split; [apply Z.mod_pos_bound; lia|]. split; [apply Z.div_pos; lia | apply Z.div_lt_upper_bound; nia]. }
    unfold point at 1. rewrite rot_site by (rewrite Sd in *; lia). rewrite Z.mod_small by lia. rewrite Nat2Z.id. reflexivity. }
  rewrite <- (T 0%nat), <- (T 1%nat), <- (T 2%nat), <- (T 3%nat) by lia. reflexivity.
Qed.
