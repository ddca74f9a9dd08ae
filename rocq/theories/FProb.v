(** Final lemmas for C42-C45. *)
From Coq Require Import ZArith List Bool Lia Permutation Sorted QArith Qcanon Qcabs.
From Verif Require Import PyBase PyFacts Lattice Base Interact Spin Prob Spec SpecOps SpecTJ SpecSpin SpinDefs ProbDefs
  PBasis PSites PRot PSpin PRep POps PHam FBasis FSites PWave PVec PSecSum PSpinOp PBound PAct PQc PProb FSpin Examples.
Import ListNotations.
Open Scope Z_scope.

(** ** C42 *)
Lemma C42_weights_pf : forall c l st v p, listed (nsites c) (nholes c) (nbeta c) l st -> length v = length l -> inner v v <> 0%Qc ->
  exists pr, get_probability_spin_lattice (mkBasis c l) v (spin_code p) false = Ok pr /\
    length pr = Z.to_nat (nsites c) /\
    forall x, 0 <= x < nsites c -> nth_error pr (Z.to_nat x) = Some (weight st v p x / inner v v)%Qc.
Proof.
  intros c l st v p D L N. eexists. split; [apply (probability_ok c l st v p D L N)|]. split.
  - rewrite map_length, zrange_length. f_equal. lia.
  - intros x Hx. rewrite nth_error_map.
    assert (Q : nth_error (zrange 0 (nsites c)) (Z.to_nat x) = Some x).
    { unfold zrange. rewrite nth_error_map. rewrite (nth_error_nth' _ 0%nat) by (rewrite seq_length; lia). rewrite seq_nth by lia. cbn. f_equal. lia. }
    rewrite Q. reflexivity.
Qed.

Lemma C42_probabilities_pf : forall c l st v, 0 <= nsites c -> nalpha c = nsites c - nholes c - nbeta c ->
  listed (nsites c) (nholes c) (nbeta c) l st -> length v = length l -> inner v v <> 0%Qc ->
  exists down hole up,
    get_spins_probabilitites_lattice (mkBasis c l) v false = Ok [(-1, down); (0, hole); (1, up)] /\
    (forall p x, In p [down; hole; up] -> In x p -> (0 <= x <= 1)%Qc) /\
    (forall k, (k < Z.to_nat (nsites c))%nat -> (nth k down 0 + nth k hole 0 + nth k up 0)%Qc = 1%Qc) /\
    total hole = qz (nholes c) /\ total down = qz (nbeta c) /\ total up = qz (nalpha c).
Proof.
  intros c l st v Hn Ha D L N.
  set (f := fun p => map (fun x => weight st v p x / inner v v)%Qc (zrange 0 (nsites c))).
  exists (f Down), (f Hole), (f Up).
  assert (W : forall x, ((weight st v Hole x + weight st v Down x + weight st v Up x) / inner v v = 1)%Qc).
  { intros x. rewrite weight_sum. field. assumption. }
  assert (W0 : forall p x, (0 <= weight st v p x / inner v v)%Qc).
  { intros p x. apply div_nonneg; [apply weight_nonneg | now apply inner_pos]. }
  assert (T : forall p q, (forall k, (k < length l)%nat -> num (nsites c) (st k) p = q) -> total (f p) = q).
  { intros p q H. unfold total, f. rewrite qsum_map, qsum_zrange.
    assert (Q : sum_sites (nsites c) (fun x => weight st v p x / inner v v)%Qc = (/ inner v v * sum_sites (nsites c) (weight st v p))%Qc).
    { unfold sum_sites. rewrite <- qsum_scale. apply qsum_ext. intros x _. unfold Qcdiv. ring. }
    rewrite Q, (weight_lattice st v p (nsites c) q) by (intros; apply H; lia). field. assumption. }
  split; [|split; [|split; [|split; [|split]]]].
  - unfold get_spins_probabilitites_lattice. cbn [mapM].
    change (-1) with (spin_code Down). change 0 with (spin_code Hole). change 1 with (spin_code Up).
    rewrite !(probability_ok c l st v) by assumption. reflexivity.
  - assert (G : forall q x, In x (f q) -> (0 <= x <= 1)%Qc).
    { intros q x Hx. unfold f in Hx. apply in_map_iff in Hx. destruct Hx as (y & <- & _). split; [apply W0|].
      pose proof (W y) as Q. pose proof (W0 Hole y) as A. pose proof (W0 Down y) as B. pose proof (W0 Up y) as C.
      replace ((weight st v Hole y + weight st v Down y + weight st v Up y) / inner v v)%Qc
        with (weight st v Hole y / inner v v + weight st v Down y / inner v v + weight st v Up y / inner v v)%Qc in Q by (unfold Qcdiv; ring).
      set (a := (weight st v Hole y / inner v v)%Qc) in *. set (b := (weight st v Down y / inner v v)%Qc) in *.
      set (d := (weight st v Up y / inner v v)%Qc) in *. apply this_eq in Q.
      destruct q; [change (a <= 1)%Qc | change (b <= 1)%Qc | change (d <= 1)%Qc]; clearbody a b d; clear - A B C Q; qc. }
    intros p x [<-|[<-|[<-|[]]]]; apply G.
  - intros k Hk. assert (E : forall p, nth k (f p) 0%Qc = (weight st v p (Z.of_nat k) / inner v v)%Qc).
    { intros p. apply nth_error_nth. unfold f. rewrite nth_error_map. unfold zrange. rewrite nth_error_map.
      rewrite (nth_error_nth' _ 0%nat) by (rewrite seq_length; lia). rewrite seq_nth by lia. reflexivity. }
    rewrite !E. rewrite <- (W (Z.of_nat k)). unfold Qcdiv. ring.
  - apply T. intros k Hk. apply (listed_num _ _ _ l st Hn D k Hk).
  - apply T. intros k Hk. apply (listed_num _ _ _ l st Hn D k Hk).
  - apply T. intros k Hk. rewrite Ha. apply (listed_num _ _ _ l st Hn D k Hk).
Qed.

Lemma C42_reverse_pf : forall b v p,
  get_probability_spin_lattice b v (spin_code p) true = get_probability_spin_lattice b v (spin_code (flip_particle p)) false.
Proof. intros b v p. unfold get_probability_spin_lattice. rewrite !bad_code, neg_code. reflexivity. Qed.

Lemma C42_reverse_all_pf : forall b v down hole up,
  get_spins_probabilitites_lattice b v false = Ok [(-1, down); (0, hole); (1, up)] ->
  get_spins_probabilitites_lattice b v true = Ok [(-1, up); (0, hole); (1, down)].
Proof.
  intros b v down hole up. unfold get_spins_probabilitites_lattice. cbn [mapM].
  pose proof (C42_reverse_pf b v Down) as A. pose proof (C42_reverse_pf b v Hole) as B. pose proof (C42_reverse_pf b v Up) as C.
  cbn [spin_code flip_particle] in A, B, C. rewrite A, B, C.
  destruct (get_probability_spin_lattice b v (-1) false) as [x|]; [|discriminate].
  destruct (get_probability_spin_lattice b v 0 false) as [y|]; [|discriminate].
  destruct (get_probability_spin_lattice b v 1 false) as [z|]; [|discriminate]. cbn. congruence.
Qed.

Lemma C42_other_spins_pf : forall b v spin r, spin <> -1 -> spin <> 0 -> spin <> 1 ->
  get_probability_spin_lattice b v spin r = Err ValueError /\ get_probability_spin_rectangular_lattice b v spin = Err ValueError.
Proof.
  intros b v spin r A B C.
  assert (Q : bad_spin spin = true).
  { unfold bad_spin. apply negb_true_iff, mem_false. cbn [In]. lia. }
  unfold get_probability_spin_lattice, get_probability_spin_rectangular_lattice. rewrite Q. auto.
Qed.

Lemma C42_zero_vector_pf : forall c l st v p, listed (nsites c) (nholes c) (nbeta c) l st -> length v = length l -> inner v v = 0%Qc ->
  0 < nsites c -> get_probability_spin_lattice (mkBasis c l) v (spin_code p) false = Err ZeroDivisionError.
Proof.
  intros c l st v p D L N Hn. unfold get_probability_spin_lattice. rewrite bad_code. cbn [b_conf].
  rewrite zrange_cons by lia. cbn [mapM]. rewrite (proba_site_ok c l st v p 0 D L) by lia. cbn [bind].
  unfold fdiv, norm_square. rewrite vdot_inner, N by reflexivity. reflexivity.
Qed.

(** a vector on the determinants of the program *)
Definition ex22_basis : list det := get [] (b <- construct_basis ex22 ;; Ok (determinants b)).
Definition ex22_states (k : nat) : occupation := state_of ex22 (nth k ex22_basis []).
Definition ex22_vect : list Qc := map (fun k => qfrac (Z.of_nat k - 3) 2) (seq 0 12).

Lemma ex22_listed : listed (nsites ex22) (nholes ex22) (nbeta ex22) ex22_basis ex22_states.
Proof.
  assert (G : forallb (fun d => describesb (nsites ex22) (nholes ex22) (nbeta ex22) d (state_of ex22 d)) ex22_basis = true)
    by (vm_compute; reflexivity).
  rewrite forallb_forall in G. intros k d H. unfold ex22_states. rewrite (nth_error_nth _ _ _ H). apply describesb_ok, G.
  eapply nth_error_In, H.
Qed.

(** ** C43 *)
Lemma mapM_map : forall A B (f : A -> res B) (g : A -> B) l, (forall x, In x l -> f x = Ok (g x)) -> mapM f l = Ok (map g l).
Proof. exact mapM_ok. Qed.

Lemma zrange_nth : forall n k, 0 <= k < n -> nth_error (zrange 0 n) (Z.to_nat k) = Some k.
Proof.
  intros n k H. unfold zrange. rewrite nth_error_map, (nth_error_nth' _ 0%nat) by (rewrite seq_length; lia).
  rewrite seq_nth by lia. cbn. f_equal. lia.
Qed.

Lemma C43_map_pf : forall c l st v p, listed (nsites c) (nholes c) (nbeta c) l st -> length v = length l -> inner v v <> 0%Qc ->
  lattice_type c = Periodic -> 0 <= nbh c * nblocs_side c -> 0 <= nbv c * nblocs_side c ->
  nsites c = (nbh c * nblocs_side c) * (nbv c * nblocs_side c) ->
  exists rows pr,
    get_probability_spin_lattice (mkBasis c l) v (spin_code p) false = Ok pr /\
    get_probability_spin_rectangular_lattice (mkBasis c l) v (spin_code p) = Ok rows /\
    length rows = Z.to_nat (nbv c * nblocs_side c) /\
    (forall r, In r rows -> length r = Z.to_nat (nbh c * nblocs_side c)) /\
    forall x y, 0 <= x < nbh c * nblocs_side c -> 0 <= y < nbv c * nblocs_side c ->
      nth (Z.to_nat x) (nth (Z.to_nat (nbv c * nblocs_side c - 1 - y)) rows []) 0%Qc =
      (nth (Z.to_nat (site (nbh c * nblocs_side c) (x, y))) pr 0 / inner v v)%Qc.
Proof.
  intros c l st v p D L N T Hw Hh Hn.
  set (w := nbh c * nblocs_side c) in *. set (h := nbv c * nblocs_side c) in *.
  set (pr := map (fun x => weight st v p x / inner v v)%Qc (zrange 0 (nsites c))).
  set (g := fun r x => (nth (Z.to_nat ((h - 1 - r) * w + x)) pr 0 / inner v v)%Qc).
  assert (E : get_probability_spin_lattice (mkBasis c l) v (spin_code p) false = Ok pr) by (apply probability_ok; assumption).
  exists (map (fun r => map (g r) (zrange 0 w)) (zrange 0 h)), pr. split; [assumption|]. split; [|split; [|split]].
  - unfold get_probability_spin_rectangular_lattice. rewrite bad_code. cbn [b_conf]. rewrite T.
    replace (nblocs_side c * nbv c) with h by (unfold h; ring). replace (nblocs_side c * nbh c) with w by (unfold w; ring).
    apply mapM_ok. intros r Hr. apply in_zrange in Hr. apply mapM_ok. intros x Hx. apply in_zrange in Hx. rewrite E. cbn [bind].
    replace ((h - 1 - r) * nblocs_side c * nbh c + x) with ((h - 1 - r) * w + x) by (unfold w; ring).
    rewrite (py_get_nth _ pr _ (nth (Z.to_nat ((h - 1 - r) * w + x)) pr 0%Qc)).
    + cbn [bind]. unfold fdiv, norm_square. rewrite vdot_inner by reflexivity. apply qeqb_neq in N. rewrite N. reflexivity.
    + clearbody w h. nia.
    + apply nth_error_nth'. unfold pr. rewrite map_length, zrange_length. clearbody w h. nia.
  - rewrite map_length, zrange_length. f_equal. lia.
  - intros r Hr. apply in_map_iff in Hr. destruct Hr as (q & <- & _). rewrite map_length, zrange_length. f_equal. lia.
  - intros x y Hx Hy. cbn [site fst snd].
    assert (Q : nth_error (map (fun r => map (g r) (zrange 0 w)) (zrange 0 h)) (Z.to_nat (h - 1 - y)) = Some (map (g (h - 1 - y)) (zrange 0 w))).
    { rewrite nth_error_map, zrange_nth by lia. reflexivity. }
    rewrite (nth_error_nth _ _ _ Q). apply nth_error_nth. rewrite nth_error_map, zrange_nth by lia. cbn [option_map]. f_equal.
    unfold g, site. cbn [fst snd]. do 3 f_equal. lia.
Qed.

Lemma C43_unit_pf : forall c l st v p, listed (nsites c) (nholes c) (nbeta c) l st -> length v = length l -> inner v v = 1%Qc ->
  lattice_type c = Periodic -> 0 <= nbh c * nblocs_side c -> 0 <= nbv c * nblocs_side c ->
  nsites c = (nbh c * nblocs_side c) * (nbv c * nblocs_side c) ->
  exists rows,
    get_probability_spin_rectangular_lattice (mkBasis c l) v (spin_code p) = Ok rows /\
    forall x y, 0 <= x < nbh c * nblocs_side c -> 0 <= y < nbv c * nblocs_side c ->
      nth (Z.to_nat x) (nth (Z.to_nat (nbv c * nblocs_side c - 1 - y)) rows []) 0%Qc =
      weight st v p (site (nbh c * nblocs_side c) (x, y)).
Proof.
  intros c l st v p D L N T Hw Hh Hn.
  assert (N' : inner v v <> 0%Qc) by (rewrite N; discriminate).
  destruct (C43_map_pf c l st v p D L N' T Hw Hh Hn) as (rows & pr & E & R & _ & _ & G).
  exists rows. split; [assumption|]. intros x y Hx Hy. rewrite G by assumption.
  rewrite (probability_ok c l st v p D L N') in E. injection E as <-.
  set (w := nbh c * nblocs_side c) in *. set (h := nbv c * nblocs_side c) in *.
  assert (B : 0 <= site w (x, y) < nsites c) by (unfold site; cbn [fst snd]; clearbody w h; nia).
  assert (Q : nth_error (map (fun x => weight st v p x / inner v v)%Qc (zrange 0 (nsites c))) (Z.to_nat (site w (x, y))) =
    Some (weight st v p (site w (x, y)) / inner v v)%Qc) by (rewrite nth_error_map, zrange_nth by assumption; reflexivity).
  rewrite (nth_error_nth _ _ _ Q).
  rewrite N. field. discriminate.
Qed.

Lemma C43_not_periodic_pf : forall b v p, lattice_type (b_conf b) <> Periodic ->
  get_probability_spin_rectangular_lattice b v (spin_code p) = Err ValueError.
Proof. intros b v p H. unfold get_probability_spin_rectangular_lattice. rewrite bad_code. destruct (lattice_type _); congruence. Qed.

(** the vector with all amplitudes 1/2 on twelve determinants *)
Definition ex22_half : list Qc := map (fun _ => qfrac 1 2) (seq 0 12).

Lemma C43_refuted_pf : exists c l v rows pr,
  construct_basis c = Ok (mkBasis c l) /\ length v = length l /\ inner v v = qz 3 /\
  get_probability_spin_lattice (mkBasis c l) v 0 false = Ok pr /\
  get_probability_spin_rectangular_lattice (mkBasis c l) v 0 = Ok rows /\
  nsites c = 4 /\ nbh c * nblocs_side c = 2 /\
  nth 0 (nth 1 rows []) 0%Qc <> nth 0 pr 0%Qc /\ nth 0 pr 0%Qc = qfrac 1 4 /\ nth 0 (nth 1 rows []) 0%Qc = qfrac 1 12.
Proof.
  exists ex22, ex22_basis, ex22_half, (get [] (get_probability_spin_rectangular_lattice (mkBasis ex22 ex22_basis) ex22_half 0)),
    (get [] (get_probability_spin_lattice (mkBasis ex22 ex22_basis) ex22_half 0 false)).
  split; [vm_compute; reflexivity|]. split; [reflexivity|].
  split; [apply Qc_is_canon; vm_compute; reflexivity|].
  split; [vm_compute; reflexivity|]. split; [vm_compute; reflexivity|]. split; [vm_compute; reflexivity|]. split; [vm_compute; reflexivity|].
  split; [|split].
  - intros H. apply (f_equal this) in H. vm_compute in H. discriminate H.
  - apply Qc_is_canon; vm_compute; reflexivity.
  - apply Qc_is_canon; vm_compute; reflexivity.
Qed.

(** ** C44 *)
Lemma min_kept : forall A (l : list A) n, kept (length l) (Z.min n (zlen l)) = kept (length l) n.
Proof. intros A l n. unfold kept, zlen. destruct (Z.ltb_spec n 0), (Z.ltb_spec (Z.min n (Z.of_nat (length l))) 0); lia. Qed.

Lemma C44_distinct_pf : forall c l v ndet, proper c -> construct_basis c = Ok (mkBasis c l) -> length v = length l ->
  NoDup (map Qcabs v) ->
  exists idx, largest v idx /\ length idx = kept (length v) ndet /\
    get_dominant_determinants (mkBasis c l) v ndet = Ok (map (fun i => (nth i v 0%Qc, nth i l [])) idx).
Proof.
  intros c l v ndet P HB L ND. pose proof (basis_is c l P HB) as Ql.
  set (k := kept (length v) ndet).
  assert (ND' : NoDup (descending_abs v)).
  { eapply Permutation_NoDup; [symmetry; apply desc_perm|]. rewrite (map_ext _ _ qabs_abs). assumption. }
  destruct (indices_of v (firstn k (descending_abs v))) as (idx & M & B & E).
  { intros a Ha. eapply Permutation_in; [apply desc_perm|]. rewrite <- (firstn_skipn k). apply in_or_app. now left. }
  assert (Ni : NoDup idx).
  { apply (NoDup_map_inv (mag v)). rewrite M. rewrite <- (firstn_skipn k (descending_abs v)) in ND'. clear - ND'.
    revert ND'. generalize (firstn k (descending_abs v)) (skipn k (descending_abs v)). intros a b. induction a as [|x a IH]; intros H; [constructor|].
    inversion H; subst. constructor; [|auto]. intros C. apply H2, in_or_app. now left. }
  exists idx. split; [|split].
  - apply (largest_of v idx (firstn k (descending_abs v)) (skipn k (descending_abs v))); try assumption. now rewrite firstn_skipn.
  - rewrite <- (map_length (mag v) idx), M. apply firstn_length_le. rewrite desc_length. apply kept_le.
  - unfold get_dominant_determinants. cbn [b_conf]. cbn zeta. rewrite kept_slice. fold (descending_abs v).
    rewrite desc_length, min_kept. fold k. rewrite (mapM_bind _ _ _ _ _ _ _ E).
    transitivity (mapM (fun i => x <- py_get v (Z.of_nat i) ;; d <- get_hash_basis (nholes c) (nalpha c) (nbeta c) (Z.of_nat i) ;; Ok (x, d)) idx).
    { clear. induction idx as [|i idx IH]; [reflexivity|]. cbn [map mapM]. now rewrite IH. }
    apply mapM_ok. intros i Hi. apply B in Hi.
    rewrite (py_get_nth _ v _ (nth i v 0%Qc)) by (try lia; rewrite Nat2Z.id; now apply nth_error_nth'). cbn [bind].
    destruct P as (P1 & P2 & P3 & P4 & _).
    destruct (C04_hash_basis_pf c l i P1 P2 P3 P4 HB) as (d & Nd & ->); [lia|]. cbn [bind]. now rewrite (nth_error_nth _ _ _ Nd).
Qed.

Definition ex22_tied : list Qc := map (fun k => qz k) [1; 3; 2; -3; 0; 0; 0; 0; 0; 0; 0; 0].

Lemma ok_inj : forall A (a b : A), Ok a = Ok b -> a = b.
Proof. intros A a b H. now injection H. Qed.
Lemma pairs_inj : forall A B (a b c d : A) (x y z t : B), [(a, x); (b, y)] = [(c, z); (d, t)] -> x = z /\ y = t.
Proof. intros. injection H. auto. Qed.

Lemma C44_ties_refuted_pf : exists c l v ndet x d,
  proper c /\ construct_basis c = Ok (mkBasis c l) /\ length v = length l /\ ndet = 2 /\
  get_dominant_determinants (mkBasis c l) v ndet = Ok [(x, d); (x, d)] /\
  ~ exists idx, NoDup idx /\ (forall i, In i idx -> (i < length v)%nat) /\ length idx = 2%nat /\
      get_dominant_determinants (mkBasis c l) v ndet = Ok (map (fun i => (nth i v 0%Qc, nth i l [])) idx).
Proof.
  remember (nth 1 ex22_basis []) as d eqn:Qd.
  assert (B : construct_basis ex22 = Ok (mkBasis ex22 ex22_basis)) by (vm_compute; reflexivity).
  assert (E : get_dominant_determinants (mkBasis ex22 ex22_basis) ex22_tied 2 = Ok [(qz 3, d); (qz 3, d)]).
  { assert (G : match get_dominant_determinants (mkBasis ex22 ex22_basis) ex22_tied 2 with
                | Ok [(x, e); (y, f)] => Qeq_bool x (qz 3) && Qeq_bool y (qz 3) && zlist_eqb e d && zlist_eqb f d
                | _ => false end = true) by (rewrite Qd; vm_compute; reflexivity).
    destruct (get_dominant_determinants (mkBasis ex22 ex22_basis) ex22_tied 2) as [[|[x e] [|[y f] [|? ?]]]|]; try discriminate G.
    rewrite !andb_true_iff in G. destruct G as (((G1 & G2) & G3) & G4). apply Qeq_bool_eq, Qc_is_canon in G1, G2. apply zlist_eqb_eq in G3, G4.
    now subst. }
  exists ex22, ex22_basis, ex22_tied, 2, (qz 3), d.
  split; [unfold proper; vm_compute; intuition congruence|].
  split; [exact B|]. split; [reflexivity|]. split; [reflexivity|]. split; [exact E|].
  intros (idx & ND & Bi & Li & H). rewrite E in H. apply ok_inj in H.
  destruct idx as [|i [|j [|? ?]]]; try discriminate Li. cbn [map] in H. apply pairs_inj in H. destruct H as [H2 H4].
  assert (Nd : NoDup ex22_basis).
  { rewrite (basis_is ex22 ex22_basis) by (unfold proper; try (vm_compute; intuition congruence); assumption). apply dets_NoDup. }
  assert (Q : i = j).
  { apply (proj1 (NoDup_nth ex22_basis []) Nd); [apply (Bi i); now left | apply (Bi j); right; now left | now rewrite <- H2, <- H4]. }
  inversion ND as [|? ? Hx]; subst. apply Hx. now left.
Qed.

(** ** C45 *)
Lemma C45_most_dominant_pf : forall v (l : list (list Z)) count, (length v <= length l)%nat ->
  exists idx, largest v idx /\ length idx = kept (length v) count /\
    get_most_dominant_determinants l v count = Ok (map (fun i => ((Z.of_nat i, nth i v 0%Qc), nth i l [])) idx).
Proof. exact most_ok. Qed.

Lemma C45_count_pf : forall len count, 0 <= count -> kept len count = Z.to_nat (Z.min count (Z.of_nat len)).
Proof. intros len count H. unfold kept. destruct (Z.ltb_spec count 0); [lia | reflexivity]. Qed.
