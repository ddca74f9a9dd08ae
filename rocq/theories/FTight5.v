(** Final lemmas of C44, C56 and C80 that were added after a review of the statements. *)
From Coq Require Import ZArith String List Bool Lia QArith Qcanon Permutation.
From Verif Require Import PyBase PyFacts Runtimes Lattice Base Interact Ham Spin Prob Dav Files Display Emb Post Phase Spec SpecOps SpecTJ SpinDefs Geometry HamSpec DavDefs PostDefs
  FilesDefs EmbDefs PBasis PSpin PBound PWave PGeo PProb FBasis FSites FProb FGeo PFiles FPost FPlots Examples ProbDefs.
Import ListNotations.
Open Scope Z_scope.

(** ** C44 *)
Lemma qindex_first : forall l x, In x l -> exists k, (k < length l)%nat /\ nth k l 0%Qc = x /\ qindex l x = Ok (Z.of_nat k) /\ forall j, (j < k)%nat -> nth j l 0%Qc <> x.
Proof.
  induction l as [|y l IH]; intros x H; [destruct H|]. cbn [qindex length]. destruct (qeqb y x) eqn:Q.
  - apply qeqb_eq in Q. exists 0%nat. split; [lia|]. split; [assumption|]. split; [reflexivity|]. intros j Hj; lia.
  - destruct H as [->|H]; [rewrite qeqb_refl in Q; discriminate|]. destruct (IH x H) as (k & Hk & Nk & E & F).
    exists (S k). rewrite E. cbn [bind nth]. split; [lia|]. split; [assumption|]. split; [f_equal; lia|].
    intros [|j] Hj; [cbn [nth]; intros ->; rewrite qeqb_refl in Q; discriminate | apply F; lia].
Qed.
Definition first_at (v : list Qc) (i : nat) : nat := match qindex (map qabs v) (mag v i) with Ok z => Z.to_nat z | Err _ => 0%nat end.
Lemma first_at_ok : forall v i, (i < length v)%nat -> qindex (map qabs v) (mag v i) = Ok (Z.of_nat (first_at v i)) /\ (first_at v i < length v)%nat /\
  magnitude v (first_at v i) = magnitude v i /\ forall j, (j < first_at v i)%nat -> magnitude v j <> magnitude v i.
Proof.
  intros v i Hi. destruct (qindex_first (map qabs v) (mag v i)) as (k & Hk & Nk & E & F).
  { rewrite <- map_mag_seq. apply in_map, in_seq. lia. }
  rewrite map_length in Hk. assert (M : forall j, nth j (map qabs v) 0%Qc = mag v j) by (intros j; unfold mag; change 0%Qc with (qabs 0%Qc) at 1; apply map_nth).
  unfold first_at. rewrite E, Nat2Z.id. split; [reflexivity|]. split; [exact Hk|]. rewrite M in Nk. rewrite <- !mag_magnitude. split; [exact Nk|].
  intros j Hj. rewrite <- mag_magnitude, <- M. now apply F.
Qed.

Lemma C44_ties_pf : forall c l v ndet, proper c -> construct_basis c = Ok (mkBasis c l) -> length v = length l ->
  exists idx first, largest v idx /\ length idx = kept (length v) ndet /\
    (forall i, In i idx -> (first i < length v)%nat /\ magnitude v (first i) = magnitude v i /\ forall j, (j < first i)%nat -> magnitude v j <> magnitude v i) /\
    get_dominant_determinants (mkBasis c l) v ndet = Ok (map (fun i => (nth (first i) v 0%Qc, nth (first i) l [])) idx).
Proof.
  intros c l v ndet P HB L. set (k := kept (length v) ndet).
  destruct (most_loop v l (firstn k (descending_abs v)) [] []) as (idx & ND & B & M & _); [lia | constructor | intros i [] | | reflexivity |].
  { exists (skipn k (descending_abs v)). cbn [app]. now rewrite firstn_skipn. }
  cbn [app] in *. exists idx, (first_at v). split; [|split; [|split]].
  - apply (largest_of v idx (firstn k (descending_abs v)) (skipn k (descending_abs v))); try assumption. now rewrite firstn_skipn.
  - rewrite <- (map_length (mag v) idx), M. apply firstn_length_le. rewrite desc_length. apply kept_le.
  - intros i Hi. now apply first_at_ok, B.
  - unfold get_dominant_determinants. cbn [b_conf]. cbn zeta. rewrite kept_slice. fold (descending_abs v). rewrite desc_length, min_kept. fold k. rewrite <- M.
    clear M ND. induction idx as [|i idx IH]; [reflexivity|]. cbn [map mapM].
    destruct (first_at_ok v i (B i (or_introl eq_refl))) as (Q & F & _). rewrite Q. cbn [bind].
    rewrite (py_get_nth _ v _ (nth (first_at v i) v 0%Qc)) by (try lia; rewrite Nat2Z.id; now apply nth_error_nth'). cbn [bind].
    destruct P as (P1 & P2 & P3 & P4 & P5). destruct (C04_hash_basis_pf c l (first_at v i) P1 P2 P3 P4 HB) as (d & Nd & ->); [lia|]. cbn [bind].
    rewrite (nth_error_nth _ _ _ Nd). rewrite IH; [reflexivity|]. intros; apply B; now right.
Qed.

(** ** C56 *)
(** two sites one above the other, one hole and one down; holes on the ring of six sites *)
Definition thin : configuration := ex_rect 1 2 1 1 1.
Definition thin_basis : list (list Z) := match construct_basis thin with Ok (mkBasis _ l) => l | Err _ => [] end.
Definition thin_states (k : nat) : occupation := fun x => if Z.of_nat k =? x then Hole else Down.
Definition thin_field : list (Z * list Qc) := map (fun q => (spin_code q, map (fun _ => if holeb q then 1%Qc else 0%Qc) (zrange 0 6))) [Up; Down; Hole].
Definition thin_couplings : interactions := mkInter 0 0 0 0 0 0 0 0 0 1.

Lemma C56_thin_refuted_pf : exists E c I l st pR rho ham u h, let w := nblocs_side c * nbh c in let ht := nblocs_side c * nbv c in
  set_iter_ok E /\ sized c /\ proper c /\ w = 1 /\ construct_basis c = Ok (mkBasis c l) /\ listed (nsites c) (nholes c) (nbeta c) l st /\ csr_dim ham = zlen l /\
  holds pR (2 * (w + ht)) rho /\ neel_surroundings E c = Ok u /\ dress_neel I (mkBasis c l) u pR (csr_dim ham) (csr_entries ham) = Ok h /\
  csr_at (mkCsr (csr_dim ham) h) 0 0 <> (csr_at ham 0 0 + facing I (nsites c) (point w) (st 0%nat) (2 * (w + ht)) (ring_point w ht) rho)%Qc.
Proof.
  assert (G : (match (u <- neel_surroundings cpython thin ;; dress_neel thin_couplings (mkBasis thin thin_basis) u thin_field 2 []) with Ok h => Qeq_bool (csr_at (mkCsr 2 h) 0 0) 3 | Err _ => false end) = true) by (vm_compute; reflexivity).
  destruct (neel_surroundings cpython thin) as [u'|] eqn:Q1; [|discriminate]. cbn [bind] in G.
  destruct (dress_neel thin_couplings (mkBasis thin thin_basis) u' thin_field 2 []) as [h|] eqn:Q2; [|discriminate].
  exists cpython, thin, thin_couplings, thin_basis, thin_states, thin_field, (fun q _ => if holeb q then 1%Qc else 0%Qc), (mkCsr 2 []), u', h. cbv zeta.
  split; [exact cpython_ok|]. split; [unfold sized; vm_compute; intuition congruence|]. split; [unfold proper; vm_compute; intuition congruence|]. split; [reflexivity|]. split; [vm_compute; reflexivity|].
  split; [|split; [vm_compute; reflexivity|split; [|split; [exact Q1|split]]]].
  - assert (B : thin_basis = [[0; 1]; [1; 0]]) by (vm_compute; reflexivity). rewrite B.
    intros [|[|k]] d Hd; cbn in Hd; [| |destruct k; discriminate Hd]; injection Hd as <-; apply describesb_ok; vm_compute; reflexivity.
  - intros q. exists (map (fun _ => if holeb q then 1%Qc else 0%Qc) (zrange 0 6)). split; [destruct q; reflexivity|]. split; [rewrite map_length; vm_compute; reflexivity|].
    intros x Hx. change (2 * (nblocs_side thin * nbh thin + nblocs_side thin * nbv thin)) with 6 in Hx.
    rewrite nth_error_map, zrange_nth by lia. reflexivity.
  - exact Q2.
  - cbn [csr_dim]. intros H. rewrite H in G. vm_compute in G. discriminate.
Qed.

(** ** C80 *)
Lemma C80_total_pf : forall P dc st k v, let c := d_conf (dc_data dc) in let w := nbh c * nblocs_side c in let h := nbv c * nblocs_side c in
  (forall x y z, exists u, interp2d P x y z = Ok u) ->
  listed (nsites c) (nholes c) (nbeta c) (dc_dets dc) st -> nalpha c = nsites c - nholes c - nbeta c -> lattice_type c = Periodic -> 0 < w -> 0 < h -> nsites c = w * h ->
  0 <= k -> nth_error (e_vects (dc_eig dc)) (Z.to_nat k) = Some v -> length v = length (dc_dets dc) -> inner v v = 1%Qc ->
  exists name up down charge, save_electron_probability_lattice P dc k = Ok [DElectrons name up down charge] /\
    let all m := sum_sites (nsites c) (fun i => nth (Z.to_nat (fst (point w i))) (nth (Z.to_nat (h - 1 - snd (point w i))) m []) 0%Qc) in
    all up = qz (nalpha c) /\ all down = qz (nbeta c) /\ all charge = qz (nalpha c - nbeta c).
Proof.
  cbv zeta. intros P dc st k v HI D Ha Hp Hw Hh Hn Hk Hv L N. set (c := d_conf (dc_data dc)) in *. set (w := nbh c * nblocs_side c) in *. set (h := nbv c * nblocs_side c) in *.
  destruct (C80_charge_pf P dc st k v HI D Hp (Z.lt_le_incl _ _ Hw) (Z.lt_le_incl _ _ Hh) Hn Hk Hv L N) as (name & up & down & charge & Q & R).
  exists name, up, down, charge. split; [exact Q|]. change (nbh (d_conf (dc_data dc)) * nblocs_side (d_conf (dc_data dc))) with w in R. change (nbv (d_conf (dc_data dc)) * nblocs_side (d_conf (dc_data dc))) with h in R. cbv zeta in R.
  assert (B : forall i, 0 <= i < nsites c -> 0 <= fst (point w i) < w /\ 0 <= snd (point w i) < h /\ site w (fst (point w i), snd (point w i)) = i).
  { intros i Hi. unfold point, site. cbn [fst snd]. pose proof (Z.mod_pos_bound i w Hw). pose proof (Z.div_mod i w ltac:(lia)).
    split; [lia|]. split; [|rewrite Z.mul_comm; symmetry; assumption]. split; [apply Z.div_pos; lia | apply Z.div_lt_upper_bound; lia]. }
  assert (T : forall p q, (forall j, (j < length (dc_dets dc))%nat -> PWave.num (nsites c) (st j) p = q) -> sum_sites (nsites c) (weight st v p) = q).
  { intros p q H. rewrite (weight_lattice st v p (nsites c) q) by (intros; apply H; lia). rewrite N. ring. }
  assert (P0 : 0 <= nsites c) by (rewrite Hn; apply Z.mul_nonneg_nonneg; lia).
  assert (U : sum_sites (nsites c) (weight st v Up) = qz (nalpha c)) by (apply T; intros j Hj; rewrite Ha; apply (listed_num _ _ _ (dc_dets dc) st P0 D j Hj)).
  assert (W : sum_sites (nsites c) (weight st v Down) = qz (nbeta c)) by (apply T; intros j Hj; apply (listed_num _ _ _ (dc_dets dc) st P0 D j Hj)).
  split; [|split].
  - rewrite <- U. apply qsum_ext. intros i Hi. apply in_sites in Hi. destruct (B i Hi) as (B1 & B2 & B3). destruct (R _ _ B1 B2) as (-> & _). now rewrite B3.
  - rewrite <- W. apply qsum_ext. intros i Hi. apply in_sites in Hi. destruct (B i Hi) as (B1 & B2 & B3). destruct (R _ _ B1 B2) as (_ & -> & _). now rewrite B3.
  - transitivity (sum_sites (nsites c) (weight st v Up) - sum_sites (nsites c) (weight st v Down))%Qc.
    + unfold sum_sites. unfold Qcminus. rewrite <- qsum_opp, <- qsum_add. apply qsum_ext. intros i Hi. apply in_sites in Hi. destruct (B i Hi) as (B1 & B2 & B3). destruct (R _ _ B1 B2) as (_ & _ & ->). now rewrite B3.
    + rewrite U, W. now rewrite qz_sub.
Qed.
