(** Final lemmas for C22-C27. *)
From Coq Require Import ZArith List Bool Lia Permutation Sorted QArith Qcanon.
From Verif Require Import PyBase PyFacts Runtimes Lattice Base Interact Spec SpecOps SpecTJ Geometry
  PBasis PSites PRot PMat PGeo PInter PSpin PRep FGeo Examples.
Import ListNotations.
Open Scope Z_scope.

Section Det.
Variables (E : runtime) (c : configuration) (pos : Z -> Z * Z) (r0 r1 : list Z) (d : list Z) (s : occupation).
Hypothesis HE : set_iter_ok E.
Hypothesis HD : drawn c pos.
Hypothesis HR : sites_restriction c = RTuple r0 r1.
Hypothesis Hd : conf_describes c d s.

Lemma swapped_det : forall x y, 0 <= x < nsites c -> 0 <= y < nsites c ->
  determinant_of (nsites c) (nholes c) (nbeta c) (swapped c s x y) (swap_state x y s).
Proof.
  intros x y Hx Hy. assert (S : in_sector (nsites c) (nholes c) (nbeta c) (swap_state x y s)).
  { eapply describes_sector. apply (swap_describes _ _ _ d s x y Hx Hy Hd). }
  split; [apply canon_describes, S | apply canon_increasing, S].
Qed.

Lemma shifted_det : forall h m e, path (nsites c) pos h m e ->
  determinant_of (nsites c) (nholes c) (nbeta c) (shifted c s h m e) (shift_state h m e s).
Proof.
  intros h m e (Hh & Hm & He & N & A1 & A2). assert (S : in_sector (nsites c) (nholes c) (nbeta c) (shift_state h m e s)).
  { eapply describes_sector. apply (shift_describes _ _ _ d s h m e); try assumption; eapply adj_ne; eassumption. }
  split; [apply canon_describes, S | apply canon_increasing, S].
Qed.
End Det.

Lemma Forall2_map_r : forall A B (f : A -> B) (R : A -> B -> Prop) l, (forall x, In x l -> R x (f x)) -> Forall2 R l (map f l).
Proof.
  intros A B f R l H. induction l as [|x l IH]; cbn; constructor; [apply H; now left|]. apply IH. intros y Hy. apply H. now right.
Qed.

(** ** C22 *)

Lemma C22_hopping_pf : forall E c pos r0 r1 d s,
  set_iter_ok E -> drawn c pos -> sites_restriction c = RTuple r0 r1 ->
  describes (nsites c) (nholes c) (nbeta c) d s ->
  exists moves images, compute_hopping_integral E c d = Ok images /\ NoDup moves /\
    (forall h e, In (h, e) moves <->
       0 <= h < nsites c /\ 0 <= e < nsites c /\ adjacent (pos h) (pos e) /\ In h r0 /\ In e r1 /\
       s h = Hole /\ ~ (s e = Hole /\ In e r0)) /\
    Forall2 (fun m im => determinant_of (nsites c) (nholes c) (nbeta c) im (swap_state (fst m) (snd m) s)) moves images.
Proof.
  intros E c pos r0 r1 d s HE HD HR Hd.
  destruct (hop_pairs_ok E c pos r0 r1 d s HE HD HR Hd) as (ND & I).
  exists (hop_pairs E c d). eexists. split; [apply (hopping_ok E c pos r0 r1 d s HE HD HR Hd)|]. split; [assumption|]. split.
  - intros h e. rewrite I. tauto.
  - apply Forall2_map_r. intros [h e] H. apply I in H. cbn [fst snd]. apply (swapped_det c d s Hd); apply H.
Qed.

(** with one list of sites only electrons move *)
Lemma C22_hopping_symmetric_pf : forall E c pos r d s,
  set_iter_ok E -> drawn c pos -> sites_restriction c = RTuple r r ->
  describes (nsites c) (nholes c) (nbeta c) d s ->
  exists moves images, compute_hopping_integral E c d = Ok images /\ NoDup moves /\
    (forall h e, In (h, e) moves <->
       0 <= h < nsites c /\ 0 <= e < nsites c /\ adjacent (pos h) (pos e) /\ In h r /\ In e r /\
       s h = Hole /\ s e <> Hole) /\
    Forall2 (fun m im => determinant_of (nsites c) (nholes c) (nbeta c) im (swap_state (fst m) (snd m) s)) moves images.
Proof.
  intros E c pos r d s HE HD HR Hd.
  destruct (C22_hopping_pf E c pos r r d s HE HD HR Hd) as (ms & ims & H1 & H2 & H3 & H4).
  exists ms, ims. split; [assumption|]. split; [assumption|]. split; [|assumption].
  intros h e. rewrite H3. tauto.
Qed.

Definition ex_pair (r0 r1 : list Z) : configuration :=
  get empty_conf
    (bm <- build_rectangular_bond_matrix 2 1 1 ;; make_configuration bm 2 0 (RTuple r0 r1) Periodic 2 1 1).

(** with two lists a hole "moves" onto another hole: the determinant is its own image *)
Lemma C22_hole_onto_hole_refuted_pf : exists E c pos d s,
  set_iter_ok E /\ drawn c pos /\ sites_restriction c = RTuple [0] [1] /\
  describes (nsites c) (nholes c) (nbeta c) d s /\ s 0 = Hole /\ s 1 = Hole /\
  compute_hopping_integral E c d = Ok [d].
Proof.
  exists ascending, (ex_pair [0] [1]), (point 2), [0; 1], (fun _ => Hole).
  split; [exact ascending_ok|]. split.
  { apply (rect_drawn _ 2 1 1); vm_compute; congruence. }
  split; [reflexivity|]. split; [apply describesb_ok; vm_compute; reflexivity|].
  split; [reflexivity|]. split; [reflexivity|]. vm_compute. reflexivity.
Qed.

(** ** C23 *)

Lemma C23_next_hopping_pf : forall E c pos r0 r1 d s,
  set_iter_ok E -> drawn c pos -> straightness_decided E c pos -> sites_restriction c = RTuple r0 r1 ->
  describes (nsites c) (nholes c) (nbeta c) d s ->
  exists col ortho images_col images_ortho,
    compute_next_hopping_integral E c d = Ok (images_col, images_ortho) /\ NoDup (col ++ ortho) /\
    (forall h e, In (h, e) (col ++ ortho) <->
       In h r0 /\ In e r1 /\ s h = Hole /\ s e <> Hole /\ exists m, path (nsites c) pos h m e) /\
    (forall h e, In (h, e) col -> in_line (pos h) (pos e)) /\
    (forall h e, In (h, e) ortho -> ~ in_line (pos h) (pos e)) /\
    Forall2 (fun m im => determinant_of (nsites c) (nholes c) (nbeta c) im (swap_state (fst m) (snd m) s)) col images_col /\
    Forall2 (fun m im => determinant_of (nsites c) (nholes c) (nbeta c) im (swap_state (fst m) (snd m) s)) ortho images_ortho.
Proof.
  intros E c pos r0 r1 d s HE HD HL HR Hd.
  destruct (next_hopping_ok E c pos r0 r1 d s HE HD HR Hd HL) as (ps & ND & I & Ec).
  exists (filter (fun p => lineb pos (fst p) (snd p)) ps), (filter (fun p => negb (lineb pos (fst p) (snd p))) ps).
  eexists. eexists. split; [exact Ec|].
  assert (LI : forall x y, lineb pos x y = true <-> in_line (pos x) (pos y)).
  { intros. unfold lineb, in_line. rewrite orb_true_iff, !Z.eqb_eq. reflexivity. }
  assert (FI : forall P, Forall2 (fun m im => determinant_of (nsites c) (nholes c) (nbeta c) im (swap_state (fst m) (snd m) s))
     (filter P ps) (map (fun p => swapped c s (fst p) (snd p)) (filter P ps))).
  { intros P. apply Forall2_map_r. intros [h e] H. apply filter_In in H. destruct H as [H _]. apply I in H.
    destruct H as (_ & _ & _ & _ & m & H). cbn [fst snd]. apply (swapped_det c d s Hd); apply H. }
  split; [|split; [|split; [|split; [|split]]]].
  - eapply Permutation_NoDup; [|exact ND]. clear. induction ps as [|p ps IH]; cbn [filter]; [apply perm_nil|].
    destruct (lineb pos (fst p) (snd p)); cbn [negb app]; [now apply perm_skip|].
    now apply Permutation_cons_app.
  - intros h e. rewrite in_app_iff, !filter_In, negb_true_iff, I. destruct (lineb pos _ _); intuition congruence.
  - intros h e H. apply filter_In in H. apply LI. apply H.
  - intros h e H Q. apply filter_In in H. destruct H as [_ H]. cbn [fst snd] in H. apply LI in Q. rewrite Q in H. discriminate.
  - apply FI.
  - apply FI.
Qed.

(** ** C24 *)

Lemma between_ok : forall n pos r0 r1 x, 
  (lat_from (between n pos r0 r1) x = true <-> In x r0) /\ (lat_to (between n pos r0 r1) x = true <-> In x r1).
Proof.
  intros. cbn [lat_from lat_to between]. rewrite !existsb_exists. split; (split; [intros (y & H & Q); apply Z.eqb_eq in Q; now subst|]);
  intros H; exists x; rewrite Z.eqb_refl; auto.
Qed.

Lemma C24_static_spin_pf : forall E c pos r0 r1 d s K,
  set_iter_ok E -> drawn c pos -> straightness_decided E c pos -> sites_restriction c = RTuple r0 r1 ->
  describes (nsites c) (nholes c) (nbeta c) d s ->
  compute_static_spin_interaction E c K d = Ok (op_static (between (nsites c) pos r0 r1) K s).
Proof.
  intros E c pos r0 r1 d s K HE HD HL HR Hd.
  apply (static_ok E c pos r0 r1 d s HE HD HR Hd (between (nsites c) pos r0 r1)); try assumption.
  - reflexivity.
  - reflexivity.
  - intros. apply between_ok.
  - intros. apply between_ok.
Qed.

(** ** C25 *)

Lemma rect_flip_class : forall E c w r0 r1 d s L,
  set_iter_ok E -> row_major c w -> sites_restriction c = RTuple r0 r1 -> conf_describes c d s ->
  lat_size L = nsites c -> (forall x, 0 <= x < nsites c -> lat_pos L x = point w x) ->
  (forall x, 0 <= x < nsites c -> (lat_from L x = true <-> In x r0)) ->
  forall i j, 0 <= i < j -> j < nsites c -> adjacent (point w i) (point w j) -> s i <> Hole -> s j <> Hole ->
  flip_class E c d i j = Ok (kind_of (bond_doping L s i j)).
Proof.
  intros E c w r0 r1 d s L HE (h & v & ss & Hh & Hv & Hs & -> & HC & HN & HT) HR Hd L1 L2 L3 i j Hij Hj A Si Sj.
  pose proof (rect_drawn c h v ss Hh Hv Hs HC HN) as HD. pose proof (rect_n c h v ss Hh Hv Hs HC HN) as N.
  pose proof (rect_linear h v ss Hh Hv Hs) as RL. rewrite <- N in RL.
  apply (flip_class_ok E c (point (ss * h)) r0 r1 d s HE HD HR Hd L L1 L2 L3); try assumption; try lia.
  - intros z Hz Az Nz. specialize (RL z i j). unfold linear_periodic in RL. rewrite Z.eqb_eq in RL. rewrite <- RL; [lia|].
    split; [assumption|]. split; [lia|]. split; [lia|]. auto.
  - intros z Hz Az Nz. specialize (RL z j i). unfold linear_periodic in RL. rewrite Z.eqb_eq in RL.
    transitivity (straight (point (ss * h) z) (point (ss * h) j) (point (ss * h) i)); [|unfold straight; intuition].
    rewrite <- RL; [lia|]. split; [assumption|]. split; [lia|]. split; [lia|]. split; [assumption|]. split; [assumption|].
    now apply adjacent_sym.
Qed.

Lemma row_major_drawn : forall c w, row_major c w -> drawn c (point w).
Proof. intros c w (h & v & ss & Hh & Hv & Hs & -> & HC & HN & HT). exact (rect_drawn c h v ss Hh Hv Hs HC HN). Qed.
Lemma row_major_straight : forall E c w, row_major c w -> straightness_decided E c (point w).
Proof. intros E c w (h & v & ss & Hh & Hv & Hs & -> & HC & HN & HT). exact (rect_straight c h v ss Hh Hv Hs HC HN E HT). Qed.
Lemma row_major_middle : forall c w, row_major c w -> forall x y, 0 <= x < nsites c -> 0 <= y < nsites c ->
  diagonal (point w x) (point w y) -> exists m, path (nsites c) (point w) x m y.
Proof.
  intros c w (h & v & ss & Hh & Hv & Hs & -> & HC & HN & HT) x y Hx Hy D.
  pose proof (rect_n c h v ss Hh Hv Hs HC HN) as N. rewrite N in *. apply (rect_middle h v ss Hh Hv Hs x y Hx Hy).
  unfold diagonal in D. lia.
Qed.

Lemma C25_spin_flip_pf : forall E c w r0 r1 d s,
  set_iter_ok E -> row_major c w -> sites_restriction c = RTuple r0 r1 ->
  describes (nsites c) (nholes c) (nbeta c) d s ->
  let L := between (nsites c) (point w) r0 r1 in
  exists bonds images,
    compute_spin_flip E c d = Ok (images Aligned, images Beside, images Away) /\
    forall k, NoDup (bonds k) /\
      (forall i j, In (i, j) (bonds k) <->
         0 <= i < j /\ j < nsites c /\ In i r0 /\ In j r1 /\ adjacent (point w i) (point w j) /\
         opposite (s i) (s j) /\ bond_doping L s i j = k) /\
      Forall2 (fun b im => determinant_of (nsites c) (nholes c) (nbeta c) im (swap_state (fst b) (snd b) s)) (bonds k) (images k).
Proof.
  intros E c w r0 r1 d s HE RM HR Hd. cbv zeta. set (L := between (nsites c) (point w) r0 r1).
  pose proof (row_major_drawn c w RM) as HD.
  pose proof (spin_bonds_ok E c (point w) r0 r1 s HE HD HR) as (ND & I).
  exists (fun k => filter (is_kind (bond_doping L s) k) (spin_bonds E c s)), (flip_images E c s (bond_doping L s)).
  split.
  - eapply (spin_flip_ok E c (point w) r0 r1 d s HE HD HR Hd (bond_doping L s)).
    intros i j Hij Hj A O. apply (rect_flip_class E c w r0 r1); try assumption; try reflexivity.
    + intros. apply between_ok.
    + destruct O as [[-> _]|[-> _]]; discriminate.
    + destruct O as [[_ ->]|[_ ->]]; discriminate.
  - intros k. split; [now apply NoDup_filter'|]. split.
    + intros i j. rewrite filter_In, I. unfold is_kind. cbn [fst snd].
      destruct k, (bond_doping L s i j); intuition congruence.
    + apply Forall2_map_r. intros [i j] H. apply filter_In in H. destruct H as [H _]. apply I in H. cbn [fst snd].
      apply (swapped_det c d s Hd); lia.
Qed.

(** the two classifications agree on row-major lattices *)
Lemma C25_same_class_pf : forall E c w r0 r1 d s i j,
  set_iter_ok E -> row_major c w -> sites_restriction c = RTuple r0 r1 ->
  describes (nsites c) (nholes c) (nbeta c) d s ->
  0 <= i < j -> j < nsites c -> adjacent (point w i) (point w j) -> s i <> Hole -> s j <> Hole ->
  exists k, static_class E c d i j = Ok k /\ flip_class E c d i j = Ok k.
Proof.
  intros E c w r0 r1 d s i j HE RM HR Hd Hij Hj A Si Sj. set (L := between (nsites c) (point w) r0 r1).
  exists (kind_of (bond_doping L s i j)). split.
  - apply (static_class_ok E c (point w) r0 r1 d s HE (row_major_drawn c w RM) HR Hd L); try assumption; try reflexivity; try lia.
    + intros. apply between_ok.
    + apply (row_major_straight E c w RM).
  - apply (rect_flip_class E c w r0 r1); try assumption; try reflexivity. intros. apply between_ok.
Qed.

(** on other lattices they do not *)
Definition disagreement (E : runtime) (c : configuration) (pos : Z -> Z * Z) (d : list Z) (s : occupation) (i j : Z) : Prop :=
  set_iter_ok E /\ drawn c pos /\ straightness_decided E c pos /\
  sites_restriction c = RTuple (zrange 0 (nsites c)) (zrange 0 (nsites c)) /\
  describes (nsites c) (nholes c) (nbeta c) d s /\
  0 <= i < j /\ j < nsites c /\ adjacent (pos i) (pos j) /\ opposite (s i) (s j) /\
  static_class E c d i j = Ok Par /\ flip_class E c d i j = Ok Per.

Definition ex_iso_state : occupation := fun x => if x =? 0 then Hole else if x =? 1 then Down else if 6 <=? x then Down else Up.

Lemma ex_search : search_finds (nsites ex_clusters) (transfer ex_clusters_runtime (bond_matrix ex_clusters) (bond_matrix ex_clusters)) ex_iso.
Proof.
  exists 0. split; [vm_compute; split; congruence|]. split.
  - split; [reflexivity|]. intros r s _ _. cbn [transfer ex_clusters_runtime]. destruct (r =? ex_iso s); auto.
  - split; [intros j Hj; lia|]. intros s Hs.
    assert (B : forallb (fun s => (0 <=? ex_iso s) && (ex_iso s <? 8)) (zrange 0 8) = true) by reflexivity.
    rewrite forallb_forall in B. assert (I : In s (zrange 0 8)) by (apply in_zrange; exact Hs).
    specialize (B s I). apply andb_true_iff in B. destruct B as [B1 B2].
    apply Z.leb_le in B1. apply Z.ltb_lt in B2. split; [split; [exact B1 | exact B2]|].
    intros r _. cbn [transfer ex_clusters_runtime]. destruct (Z.eqb_spec r (ex_iso s)); split; congruence.
Qed.

Definition ex_rect_4x2 : mat := get empty_mat (build_rectangular_bond_matrix 2 1 2).

Lemma forall_zrange2 : forall n (P : Z -> Z -> bool), forallb (fun i => forallb (P i) (zrange 0 n)) (zrange 0 n) = true ->
  forall i j, 0 <= i < n -> 0 <= j < n -> P i j = true.
Proof.
  intros n P H i j Hi Hj. rewrite forallb_forall in H. specialize (H i (proj2 (in_zrange i 0 n) Hi)).
  rewrite forallb_forall in H. exact (H j (proj2 (in_zrange j 0 n) Hj)).
Qed.

Lemma ex_clusters_drawn : drawn ex_clusters (fun x => point 4 (ex_iso x)) /\
  straightness_decided ex_clusters_runtime ex_clusters (fun x => point 4 (ex_iso x)).
Proof.
  assert (Hinj : forall i j, 0 <= i < nsites ex_clusters -> 0 <= j < nsites ex_clusters -> ex_iso i = ex_iso j -> i = j).
  { intros i j Hi Hj Q.
    assert (B : (if ex_iso i =? ex_iso j then i =? j else true) = true).
    { revert i j Hi Hj Q. assert (B := forall_zrange2 8 (fun i j => if ex_iso i =? ex_iso j then i =? j else true) eq_refl). auto. }
    rewrite Q, Z.eqb_refl in B. now apply Z.eqb_eq. }
  assert (Hiso : forall i j, 0 <= i < nsites ex_clusters -> 0 <= j < nsites ex_clusters ->
    mat_at (bond_matrix ex_clusters) i j = mat_at ex_rect_4x2 (ex_iso i) (ex_iso j)).
  { intros i j Hi Hj. apply Z.eqb_eq.
    assert (B : forallb (fun i => forallb (fun j => mat_at (bond_matrix ex_clusters) i j =? mat_at ex_rect_4x2 (ex_iso i) (ex_iso j)) (zrange 0 8)) (zrange 0 8) = true) by (vm_compute; reflexivity).
    exact (forall_zrange2 8 _ B i j Hi Hj). }
  split.
  - eapply (clusters_drawn ex_clusters_runtime ex_clusters ex_rect_4x2 ex_iso); try assumption; try exact ex_search; try reflexivity; vm_compute; congruence.
  - eapply (clusters_straight ex_clusters_runtime ex_clusters ex_rect_4x2 ex_iso); try assumption; try exact ex_search; try reflexivity; vm_compute; congruence.
Qed.

Definition ex_ring_state : occupation := fun x => if x =? 11 then Hole else if x =? 0 then Down else if x <? 6 then Up else Down.

Lemma C25_clusters_refuted_pf : exists E c pos d s i j, lattice_type c = Clusters /\ disagreement E c pos d s i j.
Proof.
  exists ex_clusters_runtime, ex_clusters, (fun x => point 4 (ex_iso x)), [0; 1; 6; 7; 2; 3; 4; 5], ex_iso_state, 1, 4.
  split; [reflexivity|]. split; [intros l; exact (cpython_ok l)|]. split; [apply ex_clusters_drawn|]. split; [apply ex_clusters_drawn|].
  split; [reflexivity|]. split; [apply describesb_ok; vm_compute; reflexivity|]. split; [lia|].
  split; [vm_compute; reflexivity|]. split; [vm_compute; reflexivity|]. split; [right; split; reflexivity|].
  split; vm_compute; reflexivity.
Qed.

Lemma C25_peripheral_refuted_pf : exists E c pos d s i j, lattice_type c = Peripheral /\ disagreement E c pos d s i j.
Proof.
  exists cpython, (ex_ring 1 1 2 1 6), (ringed_point 2 2), [11; 0; 6; 7; 8; 9; 10; 1; 2; 3; 4; 5], ex_ring_state, 0, 1.
  split; [reflexivity|]. split; [exact cpython_ok|].
  split; [apply (peri_drawn (ex_ring 1 1 2 1 6)); vm_compute; congruence|].
  split; [apply (peri_straight (ex_ring 1 1 2 1 6)); vm_compute; congruence|].
  split; [reflexivity|]. split; [apply describesb_ok; vm_compute; reflexivity|]. split; [lia|].
  split; [vm_compute; reflexivity|]. split; [vm_compute; reflexivity|]. split; [right; split; reflexivity|].
  split; vm_compute; reflexivity.
Qed.

(** ** C26 *)

Lemma C26_singlet_pf : forall E c pos r0 r1 d s,
  set_iter_ok E -> drawn c pos -> straightness_decided E c pos -> sites_restriction c = RTuple r0 r1 ->
  describes (nsites c) (nholes c) (nbeta c) d s ->
  exists par per images_par images_per,
    compute_singlet_displacement E c d = Ok (images_par, images_per) /\ NoDup (par ++ per) /\
    (forall h m e, In (h, m, e) (par ++ per) <->
       In h r0 /\ In m r1 /\ In e r1 /\ s h = Hole /\ opposite (s m) (s e) /\ path (nsites c) pos h m e) /\
    (forall h m e, In (h, m, e) par -> straight (pos h) (pos m) (pos e)) /\
    (forall h m e, In (h, m, e) per -> ~ straight (pos h) (pos m) (pos e)) /\
    let D := determinant_of (nsites c) (nholes c) (nbeta c) in
    let R := fun t im => let '(h, m, e) := t in D (fst im) (shift_state h m e s) /\ D (snd im) (swap_state h e s) in
    Forall2 R par images_par /\ Forall2 R per images_per.
Proof.
  intros E c pos r0 r1 d s HE HD HL HR Hd.
  destruct (sd_triples_ok E c pos r0 r1 d s HE HD HR Hd) as (ND & I).
  set (ts := sd_triples E c d s) in *.
  exists (filter (sd_line pos) ts), (filter (fun t => negb (sd_line pos t)) ts). eexists. eexists.
  split; [apply (singlet_ok E c pos r0 r1 d s HE HD HR Hd HL)|]. fold ts.
  assert (FI : forall P, let D := determinant_of (nsites c) (nholes c) (nbeta c) in
    Forall2 (fun t im => let '(h, m, e) := t in D (fst im) (shift_state h m e s) /\ D (snd im) (swap_state h e s))
     (filter P ts) (map (sd_image c s) (filter P ts))).
  { intros P D. apply Forall2_map_r. intros [[h m] e] H. apply filter_In in H. destruct H as [H _]. apply I in H.
    destruct H as (_ & _ & _ & _ & _ & H). cbn [sd_image fst snd]. split.
    - exact (shifted_det c pos d s Hd h m e H).
    - apply (swapped_det c d s Hd); apply H. }
  split; [|split; [|split; [|split]]].
  - eapply Permutation_NoDup; [|exact ND]. clear. induction ts as [|p ps IH]; cbn [filter]; [apply perm_nil|].
    destruct (sd_line pos p); cbn [negb app]; [now apply perm_skip|]. now apply Permutation_cons_app.
  - intros h m e. rewrite in_app_iff, !filter_In, negb_true_iff, I. destruct (sd_line pos _); intuition congruence.
  - intros h m e H. apply filter_In in H. destruct H as [H Q]. apply I in H.
    apply (lineb_straight c pos HD h m e); [apply H | exact Q].
  - intros h m e H Q. apply filter_In in H. destruct H as [H B]. apply I in H.
    apply (lineb_straight c pos HD h m e) in Q; [|apply H]. cbn [sd_line] in B. rewrite Q in B. discriminate.
  - split; apply FI.
Qed.

(** ** C27 *)

Lemma C27_repulsion_pf : forall E c w r0 r1 d s K,
  set_iter_ok E -> row_major c w -> sites_restriction c = RTuple r0 r1 -> incl r0 r1 ->
  describes (nsites c) (nholes c) (nbeta c) d s ->
  compute_hole_repulsion E c K d = Ok (op_repulsion (between (nsites c) (point w) r0 r1) K s).
Proof.
  intros E c w r0 r1 d s K HE RM HR HI Hd.
  apply (repulsion_ok E c (point w) r0 r1 d s HE (row_major_drawn c w RM) HR); try assumption; try reflexivity.
  - intros x _. apply HI.
  - apply (row_major_straight E c w RM).
  - apply (row_major_middle c w RM).
  - intros. apply between_ok.
Qed.

(** the energy is the sum of the two diagonal terms *)
Lemma C27_energy_pf : forall E c w r0 r1 d s K,
  set_iter_ok E -> row_major c w -> sites_restriction c = RTuple r0 r1 -> incl r0 r1 ->
  describes (nsites c) (nholes c) (nbeta c) d s ->
  let L := between (nsites c) (point w) r0 r1 in
  compute_energy E c K d = Ok (op_static L K s + op_repulsion L K s)%Qc.
Proof.
  intros E c w r0 r1 d s K HE RM HR HI Hd L. unfold compute_energy.
  rewrite (C24_static_spin_pf E c (point w) r0 r1 d s K HE (row_major_drawn c w RM) (row_major_straight E c w RM) HR Hd).
  rewrite (C27_repulsion_pf E c w r0 r1 d s K HE RM HR HI Hd). reflexivity.
Qed.

Definition ex_couplings : interactions :=
  mkInter (qz 1) (qz 2) (qz 3) (qz 4) (qz 5) (qz 6) (qz 7) (qz 8) (qz 9) (qz 10).

(** when holes may be paired only in one direction, the order of the set shows *)
Lemma C27_mixed_refuted_pf : exists E1 E2 c w d s K r0 r1,
  set_iter_ok E1 /\ set_iter_ok E2 /\ row_major c w /\ sites_restriction c = RTuple r0 r1 /\
  describes (nsites c) (nholes c) (nbeta c) d s /\
  compute_hole_repulsion E1 c K d = Ok (i_VNN K) /\ compute_hole_repulsion E2 c K d = Ok (qz 0) /\ i_VNN K <> qz 0.
Proof.
  exists ascending, descending, (ex_pair [0; 1] [1]), 2, [0; 1], (fun _ => Hole), ex_couplings, [0; 1], [1].
  split; [exact ascending_ok|]. split; [exact descending_ok|].
  split; [exists 2, 1, 1; vm_compute; repeat (split; [congruence|]); reflexivity|].
  split; [reflexivity|]. split; [apply describesb_ok; vm_compute; reflexivity|].
  split; [vm_compute; reflexivity|]. split; [vm_compute; reflexivity|]. vm_compute. discriminate.
Qed.
