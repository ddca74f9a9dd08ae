(** Final lemmas for C85, C86: the dynamic part of the dressing. *)
From Coq Require Import ZArith List Bool QArith Qcanon Lia Permutation.
From Verif Require Import PyBase PyFacts Lattice Base Interact Ham Spin Prob Dav Files Emb Spec SpecOps SpecTJ HamSpec SpinDefs ProbDefs Geometry EmbDefs DynDefs.
From Verif Require Import PBasis PVec PMat PRing PGeo FGeo PRot PSites PSpin PProb PHam PRep PWave PDav FSites FProb FHam PEmb PEmbRing PEmbNeel FEmb PEmbBlock PEmbPerm PEmbTurn FEmbBlock FEmbDrop FEmbDyn PEmbCount PEmbNear PEmbCoupled PEmbAdd PEmbExch PEmbSecond.
Import ListNotations.
Open Scope Z_scope.

(** ** The dynamic part comes on top of the static one *)

Lemma add_coo_anywhere : forall dim ham x i j h, add_coo dim ham x i j = Ok h -> h = ham ++ [(x, i, j)] /\ forall ham', add_coo dim ham' x i j = Ok (ham' ++ [(x, i, j)]).
Proof.
  intros dim ham x i j h H. split; [now apply add_coo_inv in H|]. intros ham'. unfold add_coo in *. destruct (_ && _); [reflexivity | discriminate].
Qed.

Lemma add_static_anywhere : forall c single dim ham x k d h, add_static c single dim ham x k d = Ok h ->
  exists e, h = ham ++ e /\ forall ham', add_static c single dim ham' x k d = Ok (ham' ++ e).
Proof.
  intros c single dim ham x k d h H. unfold add_static in *. destruct single.
  - exists [(x, k, k)]. now apply add_coo_anywhere.
  - revert ham h H. induction (zrange 0 4) as [|rt m IH]; intros ham h H; cbn [foldM] in *.
    + injection H as <-. exists []. split; [now rewrite app_nil_r | intros ham'; now rewrite app_nil_r].
    + apply bind_ok_inv in H. destruct H as (h1 & H1 & H). apply bind_ok_inv in H1. destruct H1 as (z & Hz & H1).
      apply add_coo_anywhere in H1. destruct H1 as [-> H1]. destruct (IH _ _ H) as (e & -> & He). exists ((x, z, z) :: e).
      split; [now rewrite <- app_assoc|]. intros ham'. rewrite Hz. cbn [bind]. rewrite H1. cbn [bind]. rewrite He. now rewrite <- app_assoc.
Qed.

Lemma dress_on_top : forall E I c l y pR (U : Z -> Z -> Z -> Qc) (ok : Z -> Prop) ham h0,
  (forall ham k d, In (k, d) (enumerate l) -> exists h, dynamic_part E I y ham d = Ok h /\ forall i j, ok i -> ok j -> coo_at h i j = (coo_at ham i j + U k i j)%Qc) ->
  dress_blocks E I (mkBasis c l) false y pR ham = Ok h0 ->
  exists h, dress_blocks E I (mkBasis c l) true y pR ham = Ok h /\
    forall i j, ok i -> ok j -> coo_at h i j = (coo_at h0 i j + qsum (fun p => U (fst p) i j) (enumerate l))%Qc.
Proof.
  intros E I c l y pR U ok ham h0 HU H. unfold dress_blocks in *. cbn [b_conf determinants] in *.
  set (f := fun (dyn : bool) (ham : coo) (p : Z * list Z) =>
      v <- unit_column (nb_conf c) (fst p) ;; pA <- get_spins_probabilitites_lattice (mkBasis c l) v false ;;
      intr <- frontier_energy I (u_bonds (y_sur y)) (u_diagonals (y_sur y)) pA pR (nsites c) (u_frontier_A (y_sur y)) ;;
      ham <- add_static c (y_single y) (y_dim y) ham intr (fst p) (snd p) ;; if dyn then dynamic_part E I y ham (snd p) else Ok ham).
  change (foldM (f false) ham (enumerate l) = Ok h0) in H. change (exists h, foldM (f true) ham (enumerate l) = Ok h /\ forall i j, ok i -> ok j -> coo_at h i j = (coo_at h0 i j + qsum (fun p => U (fst p) i j) (enumerate l))%Qc).
  assert (G : forall m ham h0, (forall p, In p m -> In p (enumerate l)) -> foldM (f false) ham m = Ok h0 ->
    exists e, h0 = ham ++ e /\ forall ham', exists h, foldM (f true) ham' m = Ok h /\ forall i j, ok i -> ok j -> coo_at h i j = (coo_at ham' i j + coo_at e i j + qsum (fun p => U (fst p) i j) m)%Qc).
  { clear ham h0 H. induction m as [|p m IH]; intros ham h0 Hin H; cbn [foldM] in *.
    - injection H as <-. exists []. split; [now rewrite app_nil_r|]. intros ham'. exists ham'. split; [reflexivity|]. intros i j _ _. rewrite qsum_nil. unfold coo_at at 3. rewrite qsum_nil. ring.
    - apply bind_ok_inv in H. destruct H as (h1 & H1 & H). unfold f in H1.
      apply bind_ok_inv in H1. destruct H1 as (v & Hv & H1). apply bind_ok_inv in H1. destruct H1 as (pA & HpA & H1). apply bind_ok_inv in H1. destruct H1 as (intr & Hi & H1).
      apply bind_ok_inv in H1. destruct H1 as (h2 & H2 & H1). injection H1 as ->. apply add_static_anywhere in H2. destruct H2 as (e1 & -> & H2).
      destruct (IH _ _ (fun q Hq => Hin q (or_intror Hq)) H) as (e2 & -> & H3). exists (e1 ++ e2). split; [now rewrite app_assoc|].
      intros ham'. destruct p as [k d]. cbn [fst snd] in *. destruct (HU (ham' ++ e1) k d (Hin _ (or_introl eq_refl))) as (h4 & E4 & H4). destruct (H3 h4) as (h5 & E5 & H5).
      exists h5. split.
      + unfold f at 1. cbn [fst snd]. rewrite Hv. cbn [bind]. rewrite HpA. cbn [bind]. rewrite Hi. cbn [bind]. rewrite H2. cbn [bind]. rewrite E4. cbn [bind]. exact E5.
      + intros i j Oi Oj. rewrite (H5 i j Oi Oj), (H4 i j Oi Oj), !coo_at_app, qsum_cons. cbn [fst]. ring. }
  destruct (G (enumerate l) ham h0 (fun p Hp => Hp) H) as (e & -> & H1). destruct (H1 ham) as (h & Eh & Hh). exists h. split; [exact Eh|].
  intros i j Oi Oj. rewrite (Hh i j Oi Oj), coo_at_app. ring.
Qed.

Lemma enumerate_sum : forall A (f : Z -> Qc) (l : list A), qsum (fun p => f (fst p)) (enumerate l) = qsum (fun k => f (Z.of_nat k)) (seq 0 (length l)).
Proof.
  intros A f l. rewrite <- (qsum_map _ _ f fst), enumerate_fst. unfold zrange. rewrite qsum_map. replace (Z.to_nat (zlen l - 0)) with (length l) by (unfold zlen; lia). apply qsum_ext. intros k _. f_equal.
Qed.

Lemma only_sum : forall A b (f : A -> Qc) m, only b (qsum f m) = qsum (fun x => only b (f x)) m.
Proof. intros A [] f m; cbn [only]; [reflexivity|]. symmetry. now apply qsum_zero. Qed.

Lemma C85_dressing_pf : forall E c I l st r gs energy thr ham, let w := nblocs_side c * nbh c in let ht := nblocs_side c * nbv c in
  set_iter_ok E -> sized c -> proper c -> numbering_found E (nbh c) (nbv c) (nblocs_side c) ->
  construct_basis c = Ok (mkBasis c l) -> listed (nsites c) (nholes c) (nbeta c) l st -> csr_dim ham = zlen l ->
  length gs = length l -> inner gs gs <> 0%Qc -> (r = true -> nalpha c = nbeta c) ->
  (forall k v, (k < length l)%nat -> In v (words (Z.to_nat (2 * nsites c))) -> lent_by w ht (length gs) st (st k) (spelt v) = true ->
     (qz 2 * energy)%Qc <> pair_energy w ht I (spelt v)) ->
  exists nb pB u full h, neighbor_basis E (mkBasis c l) r = Ok nb /\ get_spins_probabilitites_lattice (mkBasis c l) gs r = Ok pB /\
    block_surroundings E c (b_conf nb) = Ok (u, full) /\
    dress_blocks E I (mkBasis c l) true (mkDyn c nb u full true thr energy gs (csr_dim ham)) pB (csr_entries ham) = Ok h /\
    forall i j, 0 <= i < zlen l -> 0 <= j < zlen l -> csr_at (mkCsr (csr_dim ham) h) i j =
      (csr_at ham i j
       + only (i =? j)
           (facing I (nsites c) (point w) (st (Z.to_nat i)) (nsites c) (beside w)
                   (fun q x => weight st gs (if r : bool then flip_particle q else q) x / inner gs gs))
       + second_order w ht I thr energy st gs (st (Z.to_nat i)) (st (Z.to_nat j)))%Qc.
Proof.
  intros E c I l st r gs energy thr ham w ht HE HZ P HF B Ls Hd L N0 Bal HD.
  destruct (C69_dressing_pf E c I l st r gs energy thr ham HE HZ P HF B Ls Hd L N0) as (nb & pB & u & full & h0 & Hnb & HpB & HS & E0 & H0). fold w in H0.
  assert (Dim : csr_dim ham = zlen gs) by (rewrite Hd; unfold zlen; now rewrite L). rewrite Dim in E0.
  set (ix := state_index (nsites c) (nholes c) (nbeta c)).
  assert (DYN : forall ham k d, In (k, d) (enumerate l) -> exists h, dynamic_part E I (mkDyn c nb u full true thr energy gs (zlen gs)) ham d = Ok h /\
     forall i j, 0 <= i < zlen gs -> 0 <= j < zlen gs -> coo_at h i j = (coo_at ham i j + sum_states (2 * nsites c) (fun p => only (lent_by w ht (length gs) st (st (Z.to_nat k)) p)
        (qsum (fun rt => mediated w ht I thr energy st gs p (st (Z.to_nat i)) (st (Z.to_nat j))) [0])))%Qc).
  { intros h1 k d Hk. apply in_enumerate in Hk. destruct Hk as [K0 Hk].
    apply (dynamic_part_ok E I c l st r nb u full true thr energy gs HE HZ P HF B Ls Bal Hnb HS L [0] (fun _ s => ix s) (fun _ i => st (Z.to_nat i))); try reflexivity.
    - intros d' s rt _ D. now apply index_describes.
    - intros rt s _ Ss. replace (zlen gs) with (zlen l) by (unfold zlen; now rewrite L). exact (ix_in c l P B s Ss).
    - intros rt s i _ Ss Hi. apply (st_ix c l st P B Ls s i Ss). unfold zlen in *. now rewrite <- L.
    - intros rt i _ Hi. apply (st_sec c l st P B Ls i). unfold zlen in *. now rewrite <- L.
    - exact (Ls _ _ Hk).
    - intros v Wv Lv. apply (HD (Z.to_nat k)); [apply nth_error_Some; congruence | exact Wv | exact Lv]. }
  destruct (dress_on_top E I c l (mkDyn c nb u full true thr energy gs (zlen gs)) pB _ (fun i => 0 <= i < zlen gs) _ h0 DYN E0) as (h & Eh & Hh). rewrite <- Dim in Eh.
  exists nb, pB, u, full, h. split; [assumption|]. split; [assumption|]. split; [assumption|]. split; [exact Eh|]. intros i j Hi Hj.
  assert (EL : zlen l = zlen gs) by (unfold zlen; now rewrite L).
  rewrite csr_at_coo. cbn [csr_entries]. rewrite (Hh i j) by (rewrite <- EL; assumption). f_equal.
  - specialize (H0 i j). rewrite csr_at_coo in H0. cbn [csr_entries] in H0. rewrite H0. destruct (Z.leb_spec 0 i); [|lia]. destruct (Z.ltb_spec i (zlen l)); [|lia]. reflexivity.
  - rewrite (enumerate_sum _ (fun k => sum_states (2 * nsites c) (fun p => only (lent_by w ht (length gs) st (st (Z.to_nat k)) p) (qsum (fun rt => mediated w ht I thr energy st gs p (st (Z.to_nat i)) (st (Z.to_nat j))) [0])))).
    unfold second_order. rewrite <- L. replace (w * ht) with (nsites c) by (exact (n_is c HZ)). apply qsum_ext. intros k _. unfold sum_states. apply qsum_ext. intros v _. rewrite Nat2Z.id, qsum_one. reflexivity.
Qed.

Lemma C86_dressing_pf : forall E c I l st r gs energy thr ham, let w := nblocs_side c * nbh c in
  set_iter_ok E -> sized c -> proper c -> nbh c = nbv c -> numbering_found E (nbh c) (nbv c) (nblocs_side c) ->
  construct_basis c = Ok (mkBasis c l) -> listed (nsites c) (nholes c) (nbeta c) l st -> csr_dim ham = zlen l ->
  length gs = length l -> inner gs gs <> 0%Qc -> (r = true -> nalpha c = nbeta c) ->
  (forall k v, (k < length l)%nat -> In v (words (Z.to_nat (2 * nsites c))) -> lent_by w w (length gs) st (st k) (spelt v) = true ->
     (qz 2 * energy)%Qc <> pair_energy w w I (spelt v)) ->
  exists nb pB u full h, neighbor_basis E (mkBasis c l) r = Ok nb /\ get_spins_probabilitites_lattice (mkBasis c l) gs r = Ok pB /\
    block_surroundings E c (b_conf nb) = Ok (u, full) /\
    dress_blocks E I (mkBasis c l) true (mkDyn c nb u full false thr energy gs (csr_dim ham)) pB (csr_entries ham) = Ok h /\
    forall i j, 0 <= i < zlen l -> 0 <= j < zlen l ->
      let turned k a := fun x => st (Z.to_nat a) (site w (turns k w (point w x))) in
      csr_at (mkCsr (csr_dim ham) h) i j =
      (csr_at ham i j
       + qsum (fun k => only (i =? j)%Z
                          (facing I (nsites c) (point w) (turned k i) (nsites c) (beside w)
                                  (fun q x => weight st gs (if r : bool then flip_particle q else q) x / inner gs gs))
                        + second_order w w I thr energy st gs (turned k i) (turned k j)) [0; 1; 2; 3]%nat)%Qc.
Proof.
  intros E c I l st r gs energy thr ham w HE HZ P SQ HF B Ls Hd L N0 Bal HD.
  destruct (C57_static_pf E c I l st r gs energy thr ham HE HZ P SQ HF B Ls Hd L N0) as (nb & pB & u & full & h0 & Hnb & HpB & HS & E0 & H0). fold w in H0.
  assert (Dim : csr_dim ham = zlen gs) by (rewrite Hd; unfold zlen; now rewrite L). rewrite Dim in E0.
  assert (EL : zlen l = zlen gs) by (unfold zlen; now rewrite L). pose proof (is_square c HZ SQ) as Hc. pose proof (square_side c Hc) as W. pose proof (square_n c Hc) as NN.
  assert (Sd : side c = w) by (unfold side, w; ring). assert (Hw : nblocs_side c * nbv c = w) by (unfold w; now rewrite SQ).
  set (ix := state_index (nsites c) (nholes c) (nbeta c)). set (tr := fun (rt i : Z) x => st (Z.to_nat i) (site w (turns (Z.to_nat rt) w (point w x)))).
  assert (TR : forall rt i, In rt (zrange 0 4) -> same_state (nsites c) (tr rt i) (spun c (- rt) (st (Z.to_nat i)))).
  { intros rt i Hr x Hx. apply in_zrange in Hr. unfold tr, spun. f_equal. rewrite Z.opp_involutive, Sd. rewrite <- (site_point w ltac:(lia) x) at 2 by (rewrite Sd in NN; lia).
    assert (X : 0 <= x mod w < w /\ 0 <= x / w < w). { rewrite Sd in *. split; [apply Z.mod_pos_bound; lia|]. split; [apply Z.div_pos; lia | apply Z.div_lt_upper_bound; nia]. }
    unfold point at 2. rewrite rot_site by (rewrite Sd in *; lia). rewrite Z.mod_small by lia. reflexivity. }
  assert (DYN : forall ham k d, In (k, d) (enumerate l) -> exists h, dynamic_part E I (mkDyn c nb u full false thr energy gs (zlen gs)) ham d = Ok h /\
     forall i j, 0 <= i < zlen gs -> 0 <= j < zlen gs -> coo_at h i j = (coo_at ham i j + sum_states (2 * nsites c) (fun p => only (lent_by w w (length gs) st (st (Z.to_nat k)) p)
        (qsum (fun rt => mediated w w I thr energy st gs p (tr rt i) (tr rt j)) (zrange 0 4))))%Qc).
  { intros h1 k d Hk. apply in_enumerate in Hk. destruct Hk as [K0 Hk].
    pose proof (dynamic_part_ok E I c l st r nb u full false thr energy gs HE HZ P HF B Ls Bal Hnb HS L (zrange 0 4) (fun rt s => ix (spun c rt s)) tr) as DP.
    fold w in DP. rewrite Hw in DP. apply DP; clear DP; try reflexivity.
    - intros d' s rt _ D. exact (rotated_ix c Hc d' s rt D).
    - intros rt s _ Ss. rewrite <- EL. exact (ix_in c l P B _ (spun_sec c Hc rt s Ss)).
    - intros rt s i Hr Ss Hi. rewrite <- EL in Hi. unfold ix. rewrite (st_ix c l st P B Ls _ i (spun_sec c Hc rt s Ss) Hi). 
      assert (NP : forall x, 0 <= x < nsites c -> 0 <= x < side c * side c) by (intros; lia).
      assert (RR : forall k x, 0 <= x < nsites c -> 0 <= rot (side c) k x < nsites c) by (intros k0 x Hx; rewrite NN; apply rot_bound; [assumption | now apply NP]).
      split.
      + intros Q x Hx. rewrite (TR rt i Hr x Hx). unfold spun. rewrite Z.opp_involutive. rewrite <- (Q _ (RR rt x Hx)). unfold spun. rewrite rot_add by auto. replace (- rt + rt) with 0 by lia. reflexivity.
      + intros Q x Hx. unfold spun. rewrite (Q _ (RR (- rt) x Hx)), (TR rt i Hr _ (RR (- rt) x Hx)). unfold spun. rewrite Z.opp_involutive, rot_add by auto. replace (rt + - rt) with 0 by lia. reflexivity.
    - intros rt i Hr Hi. rewrite <- EL in Hi. destruct (st_sec c l st P B Ls i Hi) as [Si _]. apply sector_cnt. rewrite !(cnt_same _ _ _ _ (TR rt i Hr)). apply sector_cnt. exact (spun_sec c Hc _ _ Si).
    - exact (Ls _ _ Hk).
    - intros v Wv Lv. apply (HD (Z.to_nat k)); [apply nth_error_Some; congruence | exact Wv | exact Lv]. }
  destruct (dress_on_top E I c l (mkDyn c nb u full false thr energy gs (zlen gs)) pB _ (fun i => 0 <= i < zlen gs) _ h0 DYN E0) as (h & Eh & Hh). rewrite <- Dim in Eh.
  exists nb, pB, u, full, h. split; [assumption|]. split; [assumption|]. split; [assumption|]. split; [exact Eh|]. intros i j Hi Hj turned.
  rewrite csr_at_coo. cbn [csr_entries]. rewrite (Hh i j) by (rewrite <- EL; assumption).
  specialize (H0 i j). rewrite csr_at_coo in H0. cbn [csr_entries] in H0. rewrite H0. destruct (Z.leb_spec 0 i); [|lia]. destruct (Z.ltb_spec i (zlen l)); [|lia]. cbn [andb].
  rewrite qsum_add, only_sum.
  match goal with |- (?a + ?b + ?d)%Qc = (?a + (?b' + ?d'))%Qc => change b' with b; replace d' with d; [ring|] end.
  rewrite (enumerate_sum _ (fun k => sum_states (2 * nsites c) (fun p => only (lent_by w w (length gs) st (st (Z.to_nat k)) p) (qsum (fun rt => mediated w w I thr energy st gs p (tr rt i) (tr rt j)) (zrange 0 4))))).
  rewrite (qsum_ext _ (fun k => second_order w w I thr energy st gs (turned k i) (turned k j)) (fun k => second_order w w I thr energy st gs (tr (Z.of_nat k) i) (tr (Z.of_nat k) j)) [0; 1; 2; 3]%nat).
  2:{ intros k _. unfold turned, tr. now rewrite Nat2Z.id. }
  change [0; 1; 2; 3]%nat with (seq 0 4). transitivity (qsum (fun rt => second_order w w I thr energy st gs (tr rt i) (tr rt j)) (zrange 0 4)).
  2:{ unfold zrange. now rewrite qsum_map. }
  unfold second_order. rewrite qsum_exchange. rewrite <- L. replace (w * w) with (nsites c) by (rewrite NN, Sd; reflexivity). apply qsum_ext. intros k _. unfold sum_states. rewrite qsum_exchange. apply qsum_ext. intros v _.
  rewrite Nat2Z.id. apply only_sum.
Qed.
