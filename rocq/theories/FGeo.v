(** Final lemmas for C13-C20. *)
From Coq Require Import ZArith List Bool Lia Permutation.
From Verif Require Import PyBase PyFacts Runtimes Lattice Base Spec Geometry PMat PRing PGeo PRot Examples.
Import ListNotations.
Open Scope Z_scope.

(** ** C13-C15 *)

Lemma is_mat_entries : forall m n p, is_mat m n n (fun i j => b2z (adjb (p i) (p j))) ->
  mrows m = n /\ mcols m = n /\
  (forall i j, 0 <= i < n -> 0 <= j < n -> bond_entry (mat_at m i j) (p i) (p j)) /\
  (forall i j, 0 <= i < n -> 0 <= j < n -> mat_at m i j = mat_at m j i) /\
  (forall i, 0 <= i < n -> mat_at m i i = 0).
Proof.
  intros m n p (R & C & G). split; [assumption|]. split; [assumption|]. split; [|split].
  - intros i j Hi Hj. apply bond_entry_b. now apply G.
  - intros i j Hi Hj. rewrite !G by assumption. now rewrite adjb_sym.
  - intros i Hi. rewrite G by assumption. rewrite adjb_false by apply adj_irrefl. reflexivity.
Qed.

Lemma C13_rectangular_pf : forall h v s, 1 <= h -> 1 <= v -> 1 <= s ->
  exists m, build_rectangular_bond_matrix h v s = Ok m /\
    let n := (s * h) * (s * v) in
    mrows m = n /\ mcols m = n /\
    (forall i j, 0 <= i < n -> 0 <= j < n -> bond_entry (mat_at m i j) (point (s * h) i) (point (s * h) j)) /\
    (forall i j, 0 <= i < n -> 0 <= j < n -> mat_at m i j = mat_at m j i) /\
    (forall i, 0 <= i < n -> mat_at m i i = 0).
Proof.
  intros h v s Hh Hv Hs. destruct (rect_is h v s Hh Hv Hs) as (m & E & I). exists m. split; [assumption|].
  exact (is_mat_entries m _ (point (s * h)) I).
Qed.

Lemma C14_ring_pf : forall h v s, 1 <= h -> 1 <= v -> 1 <= s ->
  exists m o, build_bond_matrix_neel_embedding h v s = Ok m /\ build_bond_matrix_neel_outer_lattice h v s = Ok o /\
    let w := s * h in let ht := s * v in
    let n := w * ht + 2 * (w + ht) in
    mrows m = n /\ mcols m = n /\
    (forall i j, 0 <= i < n -> 0 <= j < n -> bond_entry (mat_at m i j) (ringed_point w ht i) (ringed_point w ht j)) /\
    mrows o = 2 * (w + ht) /\ mcols o = 2 * (w + ht) /\
    (forall i j, 0 <= i < 2 * (w + ht) -> 0 <= j < 2 * (w + ht) ->
       bond_entry (mat_at o i j) (ring_point w ht i) (ring_point w ht j) /\
       mat_at o i j = mat_at m (w * ht + i) (w * ht + j)).
Proof.
  intros h v s Hh Hv Hs. destruct (ringed_is h v s Hh Hv Hs) as (m & E & I).
  destruct (outer_is h v s Hh Hv Hs) as (o & Eo & Io). exists m, o. split; [assumption|]. split; [assumption|].
  cbv zeta. replace (s * h + s * v + s * h + s * v) with (2 * (s * h + s * v)) in Io by ring.
  destruct (is_mat_entries m _ (ringed_point (s * h) (s * v)) I) as (R & C & G & _).
  destruct (is_mat_entries o _ (ring_point (s * h) (s * v)) Io) as (Ro & Co & Go & _).
  split; [assumption|]. split; [assumption|]. split; [assumption|]. split; [assumption|]. split; [assumption|].
  intros i j Hi Hj. split; [now apply Go|].
  destruct I as (_ & _ & G1), Io as (_ & _ & G2).
  assert (0 <= (s * h) * (s * v)) by nia.
  rewrite G2 by assumption. rewrite G1 by lia. unfold ringed_point.
  destruct (Z.ltb_spec (s * h * (s * v) + i) (s * h * (s * v))); [lia|].
  destruct (Z.ltb_spec (s * h * (s * v) + j) (s * h * (s * v))); [lia|].
  now rewrite !Z.add_simpl_l.
Qed.

Lemma C15_blocks_pf : forall h v s, 1 <= h -> 1 <= v -> 1 <= s ->
  exists m r, build_bond_matrix_block_embedding h v s = Ok m /\ build_rectangular_bond_matrix (2 * h) v s = Ok r /\
    let w := s * h in let ht := s * v in let n := w * ht in
    mrows m = 2 * n /\ mcols m = 2 * n /\ mrows r = 2 * n /\ mcols r = 2 * n /\
    (forall i j, 0 <= i < 2 * n -> 0 <= j < 2 * n ->
       bond_entry (mat_at m i j) (blocks_point w ht i) (blocks_point w ht j)) /\
    (** row by row relabelling *)
    let relabel x := site (2 * w) (blocks_point w ht x) in
    (forall i, 0 <= i < 2 * n -> 0 <= relabel i < 2 * n) /\
    (forall i j, 0 <= i < 2 * n -> 0 <= j < 2 * n -> relabel i = relabel j -> i = j) /\
    (forall i j, 0 <= i < 2 * n -> 0 <= j < 2 * n -> mat_at m i j = mat_at r (relabel i) (relabel j)).
Proof.
  intros h v s Hh Hv Hs. destruct (blocks_is h v s Hh Hv Hs) as (m & E & I).
  destruct (rect_is (2 * h) v s ltac:(lia) Hv Hs) as (r & Er & Ir). exists m, r. split; [assumption|]. split; [assumption|].
  cbv zeta. replace (s * (2 * h)) with (2 * (s * h)) in Ir by ring.
  replace (2 * (s * h) * (s * v)) with (2 * (s * h * (s * v))) in Ir by ring.
  destruct (is_mat_entries m _ (blocks_point (s * h) (s * v)) I) as (R & C & G & _).
  split; [assumption|]. split; [assumption|]. split; [apply Ir|]. split; [apply Ir|]. split; [assumption|].
  assert (RP : forall x, 0 <= x < 2 * (s * h * (s * v)) ->
    point (2 * (s * h)) (site (2 * (s * h)) (blocks_point (s * h) (s * v) x)) = blocks_point (s * h) (s * v) x /\
    0 <= site (2 * (s * h)) (blocks_point (s * h) (s * v) x) < 2 * (s * h * (s * v))).
  { intros x Hx. exact (relabel_point h v s Hh Hv Hs x Hx). }
  split; [intros i Hi; now apply RP|]. split.
  - intros i j Hi Hj Q. destruct (RP i Hi) as [Pi _], (RP j Hj) as [Pj _].
    rewrite Q, Pj in Pi. clear - Pi Hi Hj Hh Hv Hs. unfold blocks_point, point in Pi.
    assert (Hw : 1 <= s * h) by nia. set (w := s * h) in *. set (n := w * (s * v)) in *. clearbody n w.
    pose proof (Z.div_mod i w ltac:(lia)). pose proof (Z.mod_pos_bound i w ltac:(lia)).
    pose proof (Z.div_mod j w ltac:(lia)). pose proof (Z.mod_pos_bound j w ltac:(lia)).
    pose proof (Z.div_mod (i - n) w ltac:(lia)). pose proof (Z.mod_pos_bound (i - n) w ltac:(lia)).
    pose proof (Z.div_mod (j - n) w ltac:(lia)). pose proof (Z.mod_pos_bound (j - n) w ltac:(lia)).
    destruct (Z.ltb_spec i n), (Z.ltb_spec j n); inversion Pi as [[A B]]; rewrite ?A, ?B in *; try lia.
  - intros i j Hi Hj. destruct I as (_ & _ & G1), Ir as (_ & _ & G2).
    destruct (RP i Hi) as [Pi Bi], (RP j Hj) as [Pj Bj]. rewrite G1, G2 by assumption. now rewrite Pi, Pj.
Qed.

(** ** C16 *)

Lemma C16_neighbors_pf : forall E m n x r,
  set_iter_ok E -> mrows m = n -> mcols m = n -> 0 <= x < n ->
  (forall l, r = RNested l -> l = []) ->
  exists l, get_neighbors E x m r = Ok l /\ NoDup l /\
    (forall y, In y l <-> 0 <= y < n /\ allowed n r y /\ mat_at m x y = 1).
Proof.
  intros E m n x r HE R C Hx Hr. apply neighbors_ok; auto.
  destruct r as [| |[|a l]]; simpl; auto. discriminate (Hr _ eq_refl).
Qed.

Lemma C16_neighbors_nested_pf : forall E m x a l, get_neighbors E x m (RNested (a :: l)) = Err TypeError.
Proof. reflexivity. Qed.

Lemma C16_bond_list_pf : forall E m n r0 r1,
  set_iter_ok E -> mrows m = n -> mcols m = n ->
  exists l, build_bond_list E m (RTuple r0 r1) = Ok l /\ NoDup l /\
    (forall i j, In (i, j) l <-> 0 <= i <= j /\ j < n /\ In i r0 /\ In j r1 /\ mat_at m i j = 1).
Proof. intros E m n r0 r1 HE R C. eapply bond_list_ok; eauto. Qed.

Lemma C16_bond_list_default_pf : forall E m n,
  set_iter_ok E -> mrows m = n -> mcols m = n ->
  (exists l, build_bond_list E m (RList []) = Ok l /\ NoDup l /\
    (forall i j, In (i, j) l <-> 0 <= i <= j /\ j < n /\ mat_at m i j = 1)) /\
  (forall a q, build_bond_list E m (RList (a :: q)) = Err TypeError).
Proof.
  intros E m n HE R C. split; [|reflexivity].
  destruct (bond_list_ok E m (RList []) (zrange 0 n) (zrange 0 n) n HE R C) as (l & El & ND & I); [right; auto|].
  exists l. split; [assumption|]. split; [assumption|]. intros i j. rewrite I, !in_zrange. intuition lia.
Qed.

(** ** Rectangles *)

Lemma path_distance : forall n pos x m y, path n pos x m y -> pos x <> pos y ->
  Z.abs (fst (pos x) - fst (pos y)) + Z.abs (snd (pos x) - snd (pos y)) = 2.
Proof.
  intros n pos x m y (_ & _ & _ & _ & A1 & A2) N. unfold adjacent in *.
  destruct (pos x) as [a b], (pos m) as [d e], (pos y) as [f g]. cbn [fst snd] in *.
  assert (a <> f \/ b <> g) by (destruct (Z.eq_dec a f), (Z.eq_dec b g); subst; tauto). lia.
Qed.

Definition rect_conf (c : configuration) (h v s : Z) : Prop :=
  build_rectangular_bond_matrix h v s = Ok (bond_matrix c) /\ nsites c = mrows (bond_matrix c).

Section RectGeo.
Variables (c : configuration) (h v s : Z).
Hypothesis Hh : 1 <= h.
Hypothesis Hv : 1 <= v.
Hypothesis Hs : 1 <= s.
Hypothesis HC : build_rectangular_bond_matrix h v s = Ok (bond_matrix c).
Hypothesis HN : nsites c = mrows (bond_matrix c).
Let w := s * h.
Let ht := s * v.
Let wp : 1 <= w. Proof. subst w. nia. Qed.
Let hp : 1 <= ht. Proof. subst ht. nia. Qed.

Lemma rect_mat : is_mat (bond_matrix c) (w * ht) (w * ht) (fun i j => b2z (adjb (point w i) (point w j))).
Proof. destruct (rect_is h v s Hh Hv Hs) as (m & E & I). rewrite E in HC. inversion HC; subst m. exact I. Qed.

Lemma rect_n : nsites c = w * ht. Proof. rewrite HN. apply rect_mat. Qed.

Lemma pt_bound : forall x, 0 <= x < w * ht -> 0 <= x mod w < w /\ 0 <= x / w < ht /\ x = w * (x / w) + x mod w.
Proof.
  intros x Hx. split; [apply Z.mod_pos_bound; lia|]. split; [split; [apply Z.div_pos; lia | apply Z.div_lt_upper_bound; lia]|].
  apply Z.div_mod. lia.
Qed.

Lemma pt_inj : forall i j, 0 <= i < w * ht -> 0 <= j < w * ht -> point w i = point w j -> i = j.
Proof.
  intros i j Hi Hj Q. destruct (pt_bound i Hi) as (_ & _ & Ei), (pt_bound j Hj) as (_ & _ & Ej).
  unfold point in Q. inversion Q as [[A B]]. rewrite Ei, Ej, A, B. reflexivity.
Qed.

Lemma pt_site : forall a b, 0 <= a < w -> 0 <= b < ht -> 0 <= site w (a, b) < w * ht /\ point w (site w (a, b)) = (a, b).
Proof.
  intros a b Ha Hb. unfold site, point. cbn [fst snd]. split; [nia|].
  f_equal.
  - rewrite Z.add_comm, Z_mod_plus_full. now apply Z.mod_small.
  - rewrite Z.add_comm, Z_div_plus_full by lia. rewrite Z.div_small; lia.
Qed.

Lemma rect_drawn : drawn c (point w).
Proof.
  pose proof rect_mat as (R & C & G). unfold drawn. rewrite rect_n.
  split; [nia|]. split; [assumption|]. split; [assumption|]. split; [apply pt_inj|].
  intros i j Hi Hj. apply bond_entry_b. now apply G.
Qed.

Lemma step_horizontal : forall a m, 0 <= a < w * ht -> 0 <= m < w * ht -> adjacent (point w a) (point w m) ->
  (a / w = m / w /\ Z.abs (a - m) = 1) \/ (a mod w = m mod w /\ Z.abs (a - m) = w).
Proof.
  intros a m Ha Hm A. destruct (pt_bound a Ha) as (A1 & A2 & A3), (pt_bound m Hm) as (B1 & B2 & B3).
  unfold adjacent, point in A. cbn [fst snd] in A.
  destruct (Z.eq_dec (a / w) (m / w)) as [Q|Q].
  - left. split; [assumption|]. rewrite Q in A3. lia.
  - right. assert (Qm : a mod w = m mod w) by lia. split; [assumption|].
    clear - A A3 B3 Q Qm wp. clearbody w.
    assert (a / w = m / w + 1 \/ a / w = m / w - 1) as [Z|Z] by lia; rewrite Z, Qm in A3; lia.
Qed.

Lemma rect_linear : forall a m b, path (w * ht) (point w) a m b ->
  (linear_periodic (Z.min a b) m (Z.max a b) = true <-> straight (point w a) (point w m) (point w b)).
Proof.
  intros a m b (Ha & Hm & Hb & N & A1 & A2). unfold linear_periodic. rewrite Z.eqb_eq.
  assert (Q : Z.abs (Z.max a b - m) = Z.abs (m - Z.min a b) <-> Z.abs (a - m) = Z.abs (m - b)) by lia.
  rewrite Q. clear Q.
  pose proof (step_horizontal a m Ha Hm A1) as S1. pose proof (step_horizontal m b Hm Hb A2) as S2.
  destruct (pt_bound a Ha) as (P1 & P2 & P3), (pt_bound m Hm) as (P4 & P5 & P6), (pt_bound b Hb) as (P7 & P8 & P9).
  unfold straight, point. cbn [fst snd].
  unfold adjacent, point in A1, A2. cbn [fst snd] in A1, A2.
  destruct S1 as [[S1 T1]|[S1 T1]], S2 as [[S2 T2]|[S2 T2]]; rewrite T1, T2.
  - split; [intros _; right; auto | lia].
  - split; [intros E1 | lia]. assert (a mod w = m mod w) by lia. lia.
  - split; [intros E1 | lia]. assert (m mod w = b mod w) by lia. lia.
  - split; [intros _; left; auto | lia].
Qed.

Lemma rect_straight : forall E, lattice_type c = Periodic -> straightness_decided E c (point w).
Proof.
  intros E HT a m b x y z P Pm. unfold is_bond_linear.
  rewrite (middle_ok c (point w) rect_drawn a m b x y z P Pm). cbn [bind]. rewrite HT.
  eexists. split; [reflexivity|]. apply rect_linear. rewrite rect_n in P. exact P.
Qed.

(** points at distance two have a common neighbour *)
Lemma rect_middle : forall x y, 0 <= x < w * ht -> 0 <= y < w * ht ->
  Z.abs (fst (point w x) - fst (point w y)) + Z.abs (snd (point w x) - snd (point w y)) = 2 ->
  exists m, path (w * ht) (point w) x m y.
Proof.
  intros x y Hx Hy D. destruct (pt_bound x Hx) as (A1 & A2 & A3), (pt_bound y Hy) as (B1 & B2 & B3).
  unfold point in D. cbn [fst snd] in D.
  assert (exists a b, 0 <= a < w /\ 0 <= b < ht /\ adjacent (point w x) (a, b) /\ adjacent (a, b) (point w y)) as (a & b & Ha & Hb & P1 & P2).
  { unfold adjacent, point. cbn [fst snd].
    destruct (Z.eq_dec (x mod w) (y mod w)).
    - exists (x mod w), (Z.min (x / w) (y / w) + 1). lia.
    - destruct (Z.eq_dec (x / w) (y / w)).
      + exists (Z.min (x mod w) (y mod w) + 1), (x / w). lia.
      + exists (x mod w), (y / w). lia. }
  destruct (pt_site a b Ha Hb) as [S1 S2]. exists (site w (a, b)). unfold path. rewrite S2.
  split; [assumption|]. split; [assumption|]. split; [assumption|]. split; [|auto].
  intros ->. lia.
Qed.

End RectGeo.

(** ** C17 *)

Lemma C17_second_neighbors_pf : forall E c h v s x r,
  set_iter_ok E -> 1 <= h -> 1 <= v -> 1 <= s -> build_rectangular_bond_matrix h v s = Ok (bond_matrix c) ->
  0 <= x < mrows (bond_matrix c) -> (forall l, r = RNested l -> l = []) ->
  let n := mrows (bond_matrix c) in let p := point (s * h) in
  exists l, get_second_neighbors E x (bond_matrix c) r = Ok l /\ NoDup l /\
    (forall y, In y l <-> 0 <= y < n /\ allowed n r y /\
       Z.abs (fst (p x) - fst (p y)) + Z.abs (snd (p x) - snd (p y)) = 2).
Proof.
  intros E c0 h v s x r HE Hh Hv Hs HC Hx Hr. cbv zeta.
  set (c := mkConf (bond_matrix c0) (mrows (bond_matrix c0)) 0 0 0 0 (RList []) Periodic h v s).
  assert (HC' : build_rectangular_bond_matrix h v s = Ok (bond_matrix c)) by exact HC.
  pose proof (rect_drawn c h v s Hh Hv Hs HC' eq_refl) as D.
  assert (G : good_restr r) by (destruct r as [| |[|a l]]; simpl; auto; discriminate (Hr _ eq_refl)).
  destruct (second_ok E c _ HE D x r Hx G) as (l & El & ND & I).
  exists l. split; [exact El|]. split; [assumption|]. intros y. rewrite I.
  pose proof (rect_n c h v s Hh Hv Hs HC' eq_refl) as N. cbn [nsites c] in N. change (nsites c) with (mrows (bond_matrix c0)).
  split.
  - intros (Ha & m & P). pose proof P as (P1 & P2 & P3 & P4 & _). split; [exact P3|]. split; [assumption|].
    eapply path_distance; [exact P|]. intros Q. apply P4. cbn [nsites c] in *. rewrite N in *.
    eapply (pt_inj h v s); eassumption || lia.
  - intros (Hy & Ha & D2). split; [assumption|]. rewrite N in *. apply (rect_middle h v s); assumption || lia.
Qed.

Lemma C17_diagonal_neighbors_pf : forall E c h v s x r0 r1,
  set_iter_ok E -> 1 <= h -> 1 <= v -> 1 <= s -> build_rectangular_bond_matrix h v s = Ok (bond_matrix c) ->
  nsites c = mrows (bond_matrix c) -> lattice_type c = Periodic -> sites_restriction c = RTuple r0 r1 ->
  0 <= x < nsites c ->
  let p := point (s * h) in
  exists l, get_diagonal_second_neighbors E c x = Ok l /\ NoDup l /\
    (forall y, In y l <-> 0 <= y < nsites c /\ In y r1 /\
       Z.abs (fst (p x) - fst (p y)) = 1 /\ Z.abs (snd (p x) - snd (p y)) = 1).
Proof.
  intros E c h v s x r0 r1 HE Hh Hv Hs HC HN HT Hr Hx. cbv zeta.
  pose proof (rect_drawn c h v s Hh Hv Hs HC HN) as D.
  destruct (diag_ok E c _ HE D (rect_straight c h v s Hh Hv Hs HC HN E HT) x r0 r1 Hx Hr) as (l & El & ND & I).
  exists l. split; [exact El|]. split; [assumption|]. intros y. rewrite I.
  pose proof (rect_n c h v s Hh Hv Hs HC HN) as N. split.
  - intros (Ha & (m & P) & Q). pose proof P as (P1 & P2 & P3 & _). auto.
  - intros (Hy & Ha & Q1 & Q2). split; [assumption|]. split; [|auto]. rewrite N in *.
    apply (rect_middle h v s); try assumption. lia.
Qed.

(** ** C18 *)

Lemma C18_straight_pf : forall E c h v s a m b x y z,
  1 <= h -> 1 <= v -> 1 <= s -> build_rectangular_bond_matrix h v s = Ok (bond_matrix c) ->
  nsites c = mrows (bond_matrix c) -> lattice_type c = Periodic ->
  path (nsites c) (point (s * h)) a m b -> Permutation [x; y; z] [a; m; b] ->
  exists r, is_bond_linear E c x y z = Ok r /\
    (r = true <-> straight (point (s * h) a) (point (s * h) m) (point (s * h) b)).
Proof.
  intros E c h v s a m b x y z Hh Hv Hs HC HN HT P Pm.
  exact (rect_straight c h v s Hh Hv Hs HC HN E HT a m b x y z P Pm).
Qed.

Lemma C18_errors_pf : forall E c x y z,
  (x = y \/ x = z \/ y = z \/
   (0 <= x < mrows (bond_matrix c) /\ 0 <= y < mrows (bond_matrix c) /\ 0 <= z < mrows (bond_matrix c) /\
    mcols (bond_matrix c) = mrows (bond_matrix c) /\
    let M := mat_at (bond_matrix c) in
    ((M x y = 0 /\ M x z = 0) \/ (M x y = 0 /\ M y z = 0) \/ (M x z = 0 /\ M y z = 0)))) ->
  is_bond_linear E c x y z = Err ValueError.
Proof.
  intros E c x y z H. unfold is_bond_linear, bond_middle.
  destruct (Z.eqb_spec x y); [reflexivity|]. destruct (Z.eqb_spec x z); [reflexivity|].
  destruct (Z.eqb_spec y z); [reflexivity|]. cbn [orb].
  destruct H as [H|[H|[H|(Hx & Hy & Hz & C & H)]]]; try contradiction. cbv zeta in H.
  rewrite !mget_ok by lia. cbn [bind].
  destruct H as [[-> ->]|[[-> ->]|[-> ->]]]; cbn [Z.eqb andb bind].
  - reflexivity.
  - destruct (_ =? 0); reflexivity.
  - rewrite !andb_true_r. destruct (_ =? 0); reflexivity.
Qed.

(** ** C19 *)

Section Peri.
Variables (c : configuration).
Let h := nbh c.
Let v := nbv c.
Let s := nblocs_side c.
Hypothesis Hh : 1 <= h.
Hypothesis Hv : 1 <= v.
Hypothesis Hs : 1 <= s.
Hypothesis HC : build_bond_matrix_neel_embedding h v s = Ok (bond_matrix c).
Hypothesis HN : nsites c = mrows (bond_matrix c).
Let w := s * h.
Let ht := s * v.
Let N := w * ht.

Lemma ringed_cases : forall x, 0 <= x < N + 2 * (w + ht) ->
  (x < N /\ exists q r, x = w * q + r /\ 0 <= r < w /\ 0 <= q < ht /\ ringed_point w ht x = (r, q) /\ point w x = (r, q)) \/
  (N <= x < N + w /\ ringed_point w ht x = (x - N, -1)) \/
  (N + w <= x < N + w + ht /\ ringed_point w ht x = (w, x - N - w)) \/
  (N + w + ht <= x < N + 2 * w + ht /\ ringed_point w ht x = (w - 1 - (x - N - (w + ht)), ht)) \/
  (N + 2 * w + ht <= x < N + 2 * w + 2 * ht /\ ringed_point w ht x = (-1, ht - 1 - (x - N - (2 * w + ht)))).
Proof.
  intros x Hx. assert (wp : 1 <= w) by (subst w; nia). assert (hp : 1 <= ht) by (subst ht; nia).
  unfold ringed_point, ring_point. fold N. destruct (Z.ltb_spec x N).
  - left. split; [assumption|]. exists (x / w), (x mod w).
    split; [apply Z.div_mod; lia|]. split; [apply Z.mod_pos_bound; lia|].
    split; [split; [apply Z.div_pos; lia | apply Z.div_lt_upper_bound; subst N; lia]|]. split; reflexivity.
  - right. destruct (Z.ltb_spec (x - N) w); [left; split; [lia|reflexivity]|right].
    destruct (Z.ltb_spec (x - N) (w + ht)); [left; split; [lia|f_equal; lia]|right].
    destruct (Z.ltb_spec (x - N) (2 * w + ht)); [left; split; [lia|f_equal; lia]|right].
    split; [lia|f_equal; lia].
Qed.

Lemma peri_mat : is_mat (bond_matrix c) (N + 2 * (w + ht)) (N + 2 * (w + ht))
    (fun i j => b2z (adjb (ringed_point w ht i) (ringed_point w ht j))).
Proof. destruct (ringed_is h v s Hh Hv Hs) as (m & E & I). rewrite E in HC. inversion HC; subst m. exact I. Qed.

Lemma peri_n : nsites c = N + 2 * (w + ht). Proof. rewrite HN. apply peri_mat. Qed.

Lemma peri_inj : forall i j, 0 <= i < N + 2 * (w + ht) -> 0 <= j < N + 2 * (w + ht) ->
  ringed_point w ht i = ringed_point w ht j -> i = j.
Proof.
  intros i j Hi Hj Q.
  destruct (ringed_cases i Hi) as [(A & q & r & E & B & C & P & _)|[[A P]|[[A P]|[[A P]|[A P]]]]];
  destruct (ringed_cases j Hj) as [(A' & q' & r' & E' & B' & C' & P' & _)|[[A' P']|[[A' P']|[[A' P']|[A' P']]]]];
  rewrite P, P' in Q; inversion Q; subst; try lia.
Qed.

Lemma peri_drawn : drawn c (ringed_point w ht).
Proof.
  pose proof peri_mat as (R & C & G). unfold drawn. rewrite peri_n.
  split; [assert (0 <= w /\ 0 <= ht /\ 0 <= N) by (subst w ht N; nia); lia|].
  split; [assumption|]. split; [assumption|]. split; [apply peri_inj|].
  intros i j Hi Hj. apply bond_entry_b. now apply G.
Qed.

Hypothesis Hw2 : 2 <= w.
Hypothesis Hh2 : 2 <= ht.

Lemma peri_straight : forall E, lattice_type c = Peripheral -> straightness_decided E c (ringed_point w ht).
Proof.
  intros E HT a m b x y z P Pm. unfold is_bond_linear.
  rewrite (middle_ok c _ peri_drawn a m b x y z P Pm). cbn [bind]. rewrite HT.
  clear x y z Pm.
  (* both ends play the same role *)
  assert (HP : path (N + 2 * (w + ht)) (ringed_point w ht) (Z.min a b) m (Z.max a b) /\
    (straight (ringed_point w ht a) (ringed_point w ht m) (ringed_point w ht b) <->
     straight (ringed_point w ht (Z.min a b)) (ringed_point w ht m) (ringed_point w ht (Z.max a b)))).
  { rewrite peri_n in P. destruct P as (P1 & P2 & P3 & P4 & P5 & P6).
    destruct (Z_le_dec a b).
    - rewrite Z.min_l, Z.max_r by lia. split; [unfold path; auto 10 | tauto].
    - rewrite Z.min_r, Z.max_l by lia. split.
      + unfold path. split; [assumption|]. split; [assumption|]. split; [assumption|]. split; [lia|].
        split; now apply adjacent_sym.
      + unfold straight. intuition lia. }
  assert (HL : Z.min a b <= Z.max a b) by lia.
  destruct HP as [HP HS]. revert HP HS HL. generalize (Z.min a b) (Z.max a b). intros a' b' HP HS HL.
  enough (exists r,
     (let n := h * v * s ^ 2 in
      if (a' <? n) && (m <? n) && (b' <? n)
      then bm <- build_rectangular_bond_matrix h v s;; (' (u1, u2, u3) <- bond_middle bm a' m b';; Ok (linear_periodic u1 u2 u3))
      else if (n <=? a') && (n <=? m) && (n <=? b') then Ok true
      else if zlen (filter (fun x : Z => n <=? x) [a'; m; b']) =? 2 then Ok false
      else let vertical := (n <=? b') && (b' <? n + h * s) || (n + (h + v) * s <=? b') && (b' <? n + (2 * h + v) * s) in
        if Z.abs (m - a') =? 1 then Ok (negb vertical) else Ok vertical) = Ok r /\
     (r = true <-> straight (ringed_point w ht a') (ringed_point w ht m) (ringed_point w ht b'))) as (r & Er & Hr).
  { exists r. split; [exact Er|]. now rewrite HS. }
  clear HS P. cbv zeta.
  assert (E1 : h * v * s ^ 2 = N) by (subst N w ht; rewrite Z.pow_2_r; ring).
  assert (E2 : h * s = w) by (subst w; ring). assert (E3 : (h + v) * s = w + ht) by (subst w ht; ring).
  assert (E4 : (2 * h + v) * s = 2 * w + ht) by (subst w ht; ring).
  rewrite E1, E2, E3, E4.
  pose proof HP as (Ha & Hm & Hb & Hab & A1 & A2).
  destruct (rect_is h v s Hh Hv Hs) as (mR & ER & IR). fold w ht N in IR.
  destruct (Z.ltb_spec b' N) as [Lb|Lb].
  { (* inside the rectangle, or middle on the ring *)
    destruct (Z.ltb_spec a' N) as [La|La]; [|lia].
    destruct (Z.ltb_spec m N) as [Lm|Lm].
    - cbn [andb]. rewrite ER. cbn [bind].
      set (cR := mkConf mR (w * ht) 0 0 0 0 (RList []) Periodic h v s).
      assert (DR : drawn cR (point w)).
      { apply (rect_drawn cR h v s Hh Hv Hs); [exact ER|]. symmetry. apply IR. }
      assert (PR : path N (point w) a' m b').
      { unfold path. unfold ringed_point in A1, A2. fold N in A1, A2.
        destruct (Z.ltb_spec a' N); [|lia]. destruct (Z.ltb_spec b' N); [|lia]. destruct (Z.ltb_spec m N); [|lia].
        split; [lia|]. split; [lia|]. split; [lia|]. auto. }
      pose proof (middle_ok cR (point w) DR a' m b' a' m b' PR (Permutation_refl _)) as MR.
      change (bond_matrix cR) with mR in MR. rewrite MR. cbn [bind].
      eexists. split; [reflexivity|]. rewrite (rect_linear h v s Hh Hv Hs a' m b' PR).
      unfold ringed_point. fold N.
      destruct (Z.ltb_spec a' N); [|lia]. destruct (Z.ltb_spec b' N); [|lia]. destruct (Z.ltb_spec m N); [|lia]. tauto.
    - exfalso.
      destruct (ringed_cases a' Ha) as [(_ & q & r & Ea & B & C & P & _)|[[A P]|[[A P]|[[A P]|[A P]]]]]; try lia.
      destruct (ringed_cases b' Hb) as [(_ & q' & r' & Eb & B' & C' & P' & _)|[[A' P']|[[A' P']|[[A' P']|[A' P']]]]]; try lia.
      rewrite P, P' in *. unfold adjacent in *. cbn [fst snd] in *.
      assert (q <> q' \/ r <> r') by (destruct (Z.eq_dec q q'), (Z.eq_dec r r'); subst; tauto).
      clear Ea Eb.
      destruct (ringed_cases m Hm) as [(A'' & q'' & r'' & E'' & B'' & C'' & P'' & _)|[[A'' P'']|[[A'' P'']|[[A'' P'']|[A'' P'']]]]];
        try lia; rewrite P'' in *; cbn [fst snd] in *; clearbody N w ht; lia. }
  rewrite andb_false_r. destruct (Z.leb_spec N b'); [|lia]. cbn [andb].
  assert (Hfil : zlen (filter (fun x => N <=? x) [a'; m; b']) = b2z (N <=? a') + b2z (N <=? m) + 1).
  { cbn [filter]. destruct (Z.leb_spec N b'); [|lia]. destruct (N <=? a'), (N <=? m); reflexivity. }
  rewrite Hfil. clear Hfil.
  destruct (ringed_cases a' Ha) as [(Aa & q & r & Ea & B & C & P & _)|Har].
  - destruct (Z.leb_spec N a'); [lia|]. cbn [andb b2z].
    destruct (ringed_cases m Hm) as [(Am & q' & r' & Em & B' & C' & P' & _)|Hmr].
    + destruct (Z.leb_spec N m); [lia|]. cbn [b2z Z.add Z.eqb Pos.eqb].
      rewrite P, P' in *. unfold adjacent, straight in *. cbn [fst snd] in *.
      assert (Q : Z.abs (m - a') = 1 <-> q = q').
      { subst a' m. clear - A1 B B' C C' Hw2. clearbody w. split.
        - intros Q. destruct (Z.eq_dec q q'); [assumption|exfalso]. assert (r = r') by lia.
          assert (q' = q + 1 \/ q' = q - 1) as [Z|Z] by lia; subst; nia.
        - intros ->. lia. }
      destruct (ringed_cases b' Hb) as [(Ab & _)|Hbr]; [lia|].
      clear - Q Hbr A1 A2 B B' C C' Hw2 Hh2 HC. clearbody N w ht.
      destruct (Z.eqb_spec (Z.abs (m - a')) 1) as [Q1|Q1]; eexists; (split; [reflexivity|]);
      destruct Hbr as [[A3 P3]|[[A3 P3]|[[A3 P3]|[A3 P3]]]]; rewrite P3 in *; cbn [fst snd] in *;
      repeat match goal with |- context [?x <=? ?y] => destruct (Z.leb_spec x y); try lia
                           | |- context [?x <? ?y] => destruct (Z.ltb_spec x y); try lia end; cbn [andb orb negb];
      (split; [intros F; try discriminate F | intros F; try reflexivity]); exfalso || idtac; try lia.
    + assert (N <= m) by lia. destruct (Z.leb_spec N m); [|lia]. cbn [b2z Z.add Z.eqb Pos.eqb Pos.add].
      exists false. split; [reflexivity|]. split; [discriminate|intros F; exfalso].
      destruct (ringed_cases b' Hb) as [(Ab & _)|Hbr]; [lia|].
      rewrite P in *. unfold adjacent, straight in *. cbn [fst snd] in *.
      clear Ea. clear - A1 A2 F Hmr Hbr B C Hw2 Hh2 Hab. clearbody N w ht.
      destruct Hmr as [[A3 P3]|[[A3 P3]|[[A3 P3]|[A3 P3]]]]; rewrite P3 in *; cbn [fst snd] in *;
      destruct Hbr as [[A4 P4]|[[A4 P4]|[[A4 P4]|[A4 P4]]]]; rewrite P4 in *; cbn [fst snd] in *; lia.
  - assert (N <= a') by lia. destruct (Z.leb_spec N a'); [|lia]. cbn [andb b2z].
    destruct (ringed_cases b' Hb) as [(Ab & _)|Hbr]; [lia|].
    destruct (ringed_cases m Hm) as [(Am & q' & r' & Em & B' & C' & P' & _)|Hmr].
    + destruct (Z.leb_spec N m); [lia|]. cbn [b2z Z.add Z.eqb Pos.eqb Pos.add].
      exists false. split; [reflexivity|]. split; [discriminate|intros F; exfalso].
      rewrite P' in *. unfold adjacent, straight in *. cbn [fst snd] in *.
      clear - A1 A2 F Har Hbr B' C' Hw2 Hh2 Hab. clearbody N w ht.
      destruct Har as [[A3 P3]|[[A3 P3]|[[A3 P3]|[A3 P3]]]]; rewrite P3 in *; cbn [fst snd] in *;
      destruct Hbr as [[A4 P4]|[[A4 P4]|[[A4 P4]|[A4 P4]]]]; rewrite P4 in *; cbn [fst snd] in *; lia.
    + assert (N <= m) by lia. destruct (Z.leb_spec N m); [|lia].
      exists true. split; [reflexivity|]. split; [intros _|reflexivity].
      unfold adjacent, straight in *.
      clear - A1 A2 Har Hbr Hmr Hw2 Hh2 Hab. clearbody N w ht.
      destruct Har as [[A3 P3]|[[A3 P3]|[[A3 P3]|[A3 P3]]]]; rewrite P3 in *; cbn [fst snd] in *;
      destruct Hmr as [[A5 P5]|[[A5 P5]|[[A5 P5]|[A5 P5]]]]; rewrite P5 in *; cbn [fst snd] in *; try lia;
      destruct Hbr as [[A4 P4]|[[A4 P4]|[[A4 P4]|[A4 P4]]]]; rewrite P4 in *; cbn [fst snd] in *; lia.
Qed.
End Peri.

Lemma C19_ring_straight_pf : forall E c a m b x y z,
  let w := nblocs_side c * nbh c in let h := nblocs_side c * nbv c in
  1 <= nbh c -> 1 <= nbv c -> 1 <= nblocs_side c -> 2 <= w -> 2 <= h ->
  build_bond_matrix_neel_embedding (nbh c) (nbv c) (nblocs_side c) = Ok (bond_matrix c) ->
  nsites c = mrows (bond_matrix c) -> lattice_type c = Peripheral ->
  path (nsites c) (ringed_point w h) a m b -> Permutation [x; y; z] [a; m; b] ->
  exists r, is_bond_linear E c x y z = Ok r /\
    (r = true <-> straight (ringed_point w h a) (ringed_point w h m) (ringed_point w h b)).
Proof.
  intros E c a m b x y z w h Hh Hv Hs Hw2 Hh2 HC HN HT P Pm.
  exact (peri_straight c Hh Hv Hs HC HN Hw2 Hh2 E HT a m b x y z P Pm).
Qed.

(** a ring-embedded configuration *)
Definition ex_ring (h v s holes beta : Z) : configuration :=
  get empty_conf
    (bm <- build_bond_matrix_neel_embedding h v s ;;
     make_configuration bm holes beta (RList []) Peripheral h v s).

Lemma C19_thin_refuted_pf :
  (exists c, nblocs_side c * nbh c = 1 /\ nblocs_side c * nbv c = 2 /\
     build_bond_matrix_neel_embedding (nbh c) (nbv c) (nblocs_side c) = Ok (bond_matrix c) /\
     nsites c = mrows (bond_matrix c) /\ lattice_type c = Peripheral /\
     exists a m b, path (nsites c) (ringed_point 1 2) a m b /\
       straight (ringed_point 1 2 a) (ringed_point 1 2 m) (ringed_point 1 2 b) /\
       forall E, is_bond_linear E c a m b = Ok false) /\
  (exists c, nblocs_side c * nbh c = 2 /\ nblocs_side c * nbv c = 1 /\
     build_bond_matrix_neel_embedding (nbh c) (nbv c) (nblocs_side c) = Ok (bond_matrix c) /\
     nsites c = mrows (bond_matrix c) /\ lattice_type c = Peripheral /\
     exists a m b, path (nsites c) (ringed_point 2 1) a m b /\
       straight (ringed_point 2 1 a) (ringed_point 2 1 m) (ringed_point 2 1 b) /\
       forall E, is_bond_linear E c a m b = Ok false).
Proof.
  split.
  - exists (ex_ring 1 2 1 1 1). do 2 (split; [vm_compute; reflexivity|]).
    split; [vm_compute; reflexivity|]. do 2 (split; [vm_compute; reflexivity|]).
    exists 7, 0, 3. split; [vm_compute; intuition congruence|]. split; [right; vm_compute; auto|].
    intros E. vm_compute. reflexivity.
  - exists (ex_ring 2 1 1 1 1). do 2 (split; [vm_compute; reflexivity|]).
    split; [vm_compute; reflexivity|]. do 2 (split; [vm_compute; reflexivity|]).
    exists 2, 0, 6. split; [vm_compute; intuition congruence|]. split; [left; vm_compute; auto|].
    intros E. vm_compute. reflexivity.
Qed.

(** ** C20 *)

Lemma acceptable_iff : forall n T, is_permutation_candidate n T = true <-> acceptable n T.
Proof.
  intros n T. unfold is_permutation_candidate, acceptable. rewrite andb_true_iff, forallb_forall.
  assert (R1 : forall r, rentry_is1 r = true <-> r = ROne) by (intros []; simpl; split; congruence).
  assert (R2 : forall r, rentry_is01 r = true <-> r = ROne \/ r = RZero)
    by (intros []; simpl; split; intros A; try tauto; try discriminate; destruct A; discriminate).
  rewrite R1. split; intros [A B]; (split; [assumption|]).
  - intros r s Hr Hs. apply R2. specialize (B r ltac:(now apply in_zrange)). rewrite forallb_forall in B.
    apply B. now apply in_zrange.
  - intros r Hr. apply in_zrange in Hr. apply forallb_forall. intros s Hs. apply in_zrange in Hs. apply R2. now apply B.
Qed.

Lemma search_ok : forall n T k fuel j, 0 <= j <= k -> (Z.to_nat (k - j) < fuel)%nat ->
  acceptable n (T k) -> (forall i, j <= i < k -> ~ acceptable n (T i)) -> search_candidate fuel n T j = k.
Proof.
  intros n T k. induction fuel as [|fuel IH]; intros j Hj Hf Hk Hn; [lia|]. simpl.
  destruct (is_permutation_candidate n (T j)) eqn:Q.
  - apply acceptable_iff in Q. destruct (Z.eq_dec j k); [assumption|]. exfalso. apply (Hn j); [lia|assumption].
  - assert (j <> k) by (intros ->; apply acceptable_iff in Hk; congruence).
    apply IH; try lia; [assumption|]. intros i Hi. apply Hn. lia.
Qed.

Lemma filter_single : forall n p x, 0 <= x < n -> (forall r, 0 <= r < n -> (p r = true <-> r = x)) ->
  filter p (zrange 0 n) = [x].
Proof.
  intros n p x Hx H.
  assert (F : forall y, In y (filter p (zrange 0 n)) <-> y = x).
  { intros y. rewrite filter_In, in_zrange. split; [intros [A B]; now apply H | intros ->; split; [assumption|now apply H]]. }
  assert (ND : NoDup (filter p (zrange 0 n))) by apply NoDup_filter, zrange_NoDup.
  destruct (filter p (zrange 0 n)) as [|a l].
  - exfalso. exact (proj2 (F x) eq_refl).
  - assert (a = x) by (apply F; now left). subst a. destruct l as [|b l]; [reflexivity|].
    assert (b = x) by (apply F; right; now left). subst b. inversion ND as [|? ? N1]; subst. exfalso. apply N1. now left.
Qed.

Lemma new_site_ok : forall n T iso s, relabelling n T iso -> 0 <= s < n -> new_site n T s = Ok (iso s).
Proof.
  intros n T iso s H Hs. destruct (H s Hs) as [A B]. unfold new_site.
  rewrite (filter_single n _ (iso s) A); [reflexivity|].
  intros r Hr. rewrite <- (B r Hr). destruct (T r s); simpl; split; congruence.
Qed.

Section Clusters.
Variables (E : runtime) (c : configuration) (P : mat) (iso : Z -> Z).
Let h := nbh c.
Let v := nbv c.
Let s := nblocs_side c.
Hypothesis Hh : 1 <= h.
Hypothesis Hv : 1 <= v.
Hypothesis Hs : 1 <= s.
Hypothesis HP : build_rectangular_bond_matrix h v s = Ok P.
Hypothesis HN : nsites c = mrows P.
Hypothesis HR : mrows (bond_matrix c) = nsites c.
Hypothesis HCo : mcols (bond_matrix c) = nsites c.
Hypothesis Hinj : forall i j, 0 <= i < nsites c -> 0 <= j < nsites c -> iso i = iso j -> i = j.
Hypothesis Hiso : forall i j, 0 <= i < nsites c -> 0 <= j < nsites c ->
  mat_at (bond_matrix c) i j = mat_at P (iso i) (iso j).
Hypothesis Hfind : search_finds (nsites c) (transfer E (bond_matrix c) P) iso.
Hypothesis HT : lattice_type c = Clusters.
Let w := s * h.
Let ht := s * v.
Let cP := mkConf P (mrows P) 0 0 0 0 (RList []) Periodic h v s.

Let DP : drawn cP (point w).
Proof. apply (rect_drawn cP h v s Hh Hv Hs); [exact HP | reflexivity]. Qed.

Lemma iso_range : forall i, 0 <= i < nsites c -> 0 <= iso i < nsites c.
Proof. destruct Hfind as (k & _ & _ & _ & R). intros i Hi. now apply R. Qed.

Lemma clusters_drawn : drawn c (fun x => point w (iso x)).
Proof.
  pose proof DP as (D0 & D1 & D2 & D3 & D4). cbn [nsites bond_matrix cP] in *.
  unfold drawn. split; [lia|]. split; [assumption|]. split; [assumption|]. split.
  - intros i j Hi Hj Q. apply Hinj; try assumption. apply D3; try (rewrite <- HN; now apply iso_range). exact Q.
  - intros i j Hi Hj. rewrite Hiso by assumption. apply D4; rewrite <- HN; now apply iso_range.
Qed.

Lemma clusters_straight : straightness_decided E c (fun x => point w (iso x)).
Proof.
  intros a m b x y z Pt Pm. unfold is_bond_linear.
  rewrite (middle_ok c _ clusters_drawn a m b x y z Pt Pm). cbn [bind]. rewrite HT.
  fold h v s. rewrite HP. cbn [bind].
  destruct Hfind as (k & Hk & Ak & Nk & Rk).
  assert (SC : search_candidate (Z.to_nat (2 ^ nsites c)) (nsites c) (transfer E (bond_matrix c) P) 0 = k).
  { apply search_ok; [lia | lia | assumption |]. intros i Hi. apply Nk. lia. }
  rewrite SC.
  pose proof Pt as (Ha & Hm & Hb & Nab & A1 & A2).
  rewrite !(new_site_ok (nsites c) _ iso) by (assumption || lia). cbn [bind].
  assert (PP : path (mrows P) (point w) (iso a) (iso m) (iso b)).
  { unfold path. rewrite <- HN. split; [now apply iso_range|]. split; [now apply iso_range|]. split; [now apply iso_range|].
    split; [intros Q; apply Nab; now apply Hinj | auto]. }
  assert (Perm : Permutation [iso (Z.min a b); iso m; iso (Z.max a b)] [iso a; iso m; iso b]).
  { destruct (Z_le_dec a b).
    - rewrite Z.min_l, Z.max_r by lia. apply Permutation_refl.
    - rewrite Z.min_r, Z.max_l by lia.
      eapply Permutation_trans; [apply (Permutation_app_comm [iso b] [iso m; iso a])|]. simpl.
      eapply Permutation_trans; [apply perm_swap|]. apply perm_skip. apply perm_swap || apply Permutation_refl. }
  pose proof (middle_ok cP (point w) DP _ _ _ _ _ _ PP Perm) as M. change (bond_matrix cP) with P in M.
  rewrite M. cbn [bind]. eexists. split; [reflexivity|].
  pose proof (rect_n cP h v s Hh Hv Hs HP eq_refl) as NP. cbn [nsites cP] in NP. rewrite NP in PP.
  exact (rect_linear h v s Hh Hv Hs _ _ _ PP).
Qed.
End Clusters.

Lemma C20_clusters_straight_pf : forall E c P iso a m b x y z,
  let w := nblocs_side c * nbh c in let pos i := point w (iso i) in
  1 <= nbh c -> 1 <= nbv c -> 1 <= nblocs_side c ->
  build_rectangular_bond_matrix (nbh c) (nbv c) (nblocs_side c) = Ok P ->
  nsites c = mrows P -> mrows (bond_matrix c) = nsites c -> mcols (bond_matrix c) = nsites c ->
  lattice_type c = Clusters ->
  (** [iso] is a graph isomorphism onto the rectangle, found by the search *)
  (forall i j, 0 <= i < nsites c -> 0 <= j < nsites c -> iso i = iso j -> i = j) ->
  (forall i j, 0 <= i < nsites c -> 0 <= j < nsites c -> mat_at (bond_matrix c) i j = mat_at P (iso i) (iso j)) ->
  search_finds (nsites c) (transfer E (bond_matrix c) P) iso ->
  path (nsites c) pos a m b -> Permutation [x; y; z] [a; m; b] ->
  exists r, is_bond_linear E c x y z = Ok r /\ (r = true <-> straight (pos a) (pos m) (pos b)).
Proof.
  intros E c P iso a m b x y z w pos Hh Hv Hs HP HN HR HCo HT Hinj Hiso Hf Pt Pm.
  exact (clusters_straight E c P iso Hh Hv Hs HP HN HR HCo Hinj Hiso Hf HT a m b x y z Pt Pm).
Qed.

(** Straightness of a path of a rectangle can be read off the graph: the middle is the only
    common neighbour of the two ends. *)
Lemma C20_graph_determined_pf : forall w h a m b, 1 <= w -> 1 <= h ->
  path (w * h) (point w) a m b ->
  (straight (point w a) (point w m) (point w b) <->
   forall m', path (w * h) (point w) a m' b -> m' = m).
Proof.
  intros w h a m b Hw Hh P.
  assert (Hw' : 1 <= 1 * w) by lia. assert (Hh' : 1 <= 1 * h) by lia.
  pose proof P as (Ha & Hm & Hb & Nab & A1 & A2).
  assert (B : forall x, 0 <= x < w * h -> 0 <= x mod w < w /\ 0 <= x / w < h).
  { intros x Hx. split; [apply Z.mod_pos_bound; lia|]. split; [apply Z.div_pos; lia | apply Z.div_lt_upper_bound; lia]. }
  assert (J : forall i j, 0 <= i -> 0 <= j -> point w i = point w j -> i = j).
  { intros i j Hi Hj Q. unfold point in Q. inversion Q as [[Q1 Q2]].
    rewrite (Z.div_mod i w), (Z.div_mod j w), Q1, Q2 by lia. reflexivity. }
  assert (Nab' : point w a <> point w b) by (intros Q; apply Nab; apply J; lia || assumption).
  destruct (B a Ha) as [Ba1 Ba2], (B m Hm) as [Bm1 Bm2], (B b Hb) as [Bb1 Bb2].
  split.
  - intros S m' (_ & Hm' & _ & _ & A3 & A4). apply J; [lia|lia|].
    destruct (B m' Hm') as [Bm'1 Bm'2].
    unfold adjacent, straight, point in *. cbn [fst snd] in *.
    assert (a mod w <> b mod w \/ a / w <> b / w).
    { destruct (Z.eq_dec (a mod w) (b mod w)), (Z.eq_dec (a / w) (b / w)); try tauto. exfalso. apply Nab'. congruence. }
    clear - H S A1 A2 A3 A4. generalize dependent (a mod w). generalize dependent (a / w). generalize dependent (b mod w).
    generalize dependent (b / w). generalize dependent (m mod w). generalize dependent (m / w). intros. f_equal; lia.
  - intros U. destruct (Z.eq_dec (a mod w) (b mod w)) as [Q1|Q1].
    + left. unfold adjacent, point in *. cbn [fst snd] in *.
      assert (a / w <> b / w) by (intros Q; apply Nab'; congruence). lia.
    + destruct (Z.eq_dec (a / w) (b / w)) as [Q2|Q2].
      * right. unfold adjacent, point in *. cbn [fst snd] in *. lia.
      * exfalso.
        set (x := a mod w + b mod w - m mod w). set (y := a / w + b / w - m / w).
        assert (Bx : 0 <= x < w) by (unfold x, adjacent, point in *; cbn [fst snd] in *; lia).
        assert (By : 0 <= y < h) by (unfold y, adjacent, point in *; cbn [fst snd] in *; lia).
        assert (S1 : 0 <= y * w + x < w * h) by nia.
        assert (S2 : point w (y * w + x) = (x, y)).
        { unfold point. f_equal.
          - rewrite Z.add_comm, Z_mod_plus_full. now apply Z.mod_small.
          - rewrite Z.add_comm, Z_div_plus_full by lia. rewrite Z.div_small; lia. }
        assert (Q : y * w + x = m).
        { apply U. unfold path. rewrite S2. split; [assumption|]. split; [assumption|]. split; [assumption|]. split; [assumption|].
          unfold x, y, adjacent, point in *. cbn [fst snd] in *. lia. }
        rewrite Q in S2. unfold point in S2. inversion S2 as [[S3 S4]].
        unfold x, y, adjacent, point in *. cbn [fst snd] in *. lia.
Qed.
