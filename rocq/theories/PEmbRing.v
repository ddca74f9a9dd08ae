(** The surroundings of a block in its ring. *)
From Coq Require Import ZArith List Bool QArith Qcanon Lia Permutation.
From Verif Require Import PyBase PyFacts Lattice Base Interact Ham Spin Prob Dav Files Emb Spec SpecTJ HamSpec SpinDefs ProbDefs Geometry EmbDefs.
From Verif Require Import PMat PRing PGeo FGeo PSpin PProb PHam PRep PWave PEmb.
Import ListNotations.
Open Scope Z_scope.

Lemma bondb_iff : forall p q, bondb p q = true <-> adjacent p q.
Proof. exact adjb_iff. Qed.

Lemma diagb_iff : forall p q, diagb p q = true <-> Z.abs (fst p - fst q) = 1 /\ Z.abs (snd p - snd q) = 1.
Proof. intros p q. unfold diagb. rewrite andb_true_iff, !Z.eqb_eq. tauto. Qed.

(** ** Sites with fewer neighbours alone *)

Definition drawn_mat (m : mat) (n : Z) (pos : Z -> Z * Z) : Prop :=
  is_mat m n n (fun i j => b2z (adjb (pos i) (pos j))).

Lemma mat_neighbors : forall E m n pos x r, set_iter_ok E -> drawn_mat m n pos -> 0 <= x < n -> good_restr r ->
  exists l, get_neighbors E x m r = Ok l /\ NoDup l /\ forall y, In y l <-> 0 <= y < n /\ allowed n r y /\ adjacent (pos x) (pos y).
Proof.
  intros E m n pos x r HE (R & C & G) Hx Hr. destruct (neighbors_ok E x m r n HE R C Hx Hr) as (l & El & ND & Il).
  exists l. split; [assumption|]. split; [assumption|]. intros y. rewrite Il.
  split; intros (A & B & D); (split; [assumption|]); (split; [assumption|]); revert D; rewrite G by assumption; rewrite <- adjb_iff;
    destruct (adjb (pos x) (pos y)); cbn [b2z]; congruence.
Qed.

Lemma shorter_iff : forall (l l' : list Z), NoDup l -> NoDup l' -> incl l l' -> (zlen l < zlen l' <-> exists y, In y l' /\ ~ In y l).
Proof.
  intros l l' D D' I. unfold zlen. split.
  - intros H. destruct (forallb (fun y => mem y l) l') eqn:F.
    + exfalso. rewrite forallb_forall in F. assert (J : incl l' l) by (intros y Hy; apply mem_In, F, Hy).
      pose proof (NoDup_incl_length D' J). lia.
    + assert (existsb (fun y => negb (mem y l)) l' = true).
      { clear - F. induction l' as [|a l' IH]; cbn in *; [discriminate|]. destruct (mem a l); cbn in *; auto. }
      apply existsb_exists in H0. destruct H0 as (y & Hy & My). exists y. split; [assumption|]. apply mem_false. now apply negb_true_iff.
  - intros (y & Hy & Ny). destruct (Nat.lt_ge_cases (length l) (length l')) as [L|L]; [lia|]. exfalso. apply Ny.
    now apply (NoDup_length_incl D L I).
Qed.

Lemma fewer_ok : forall E m m' n n' pos pos' shift x, set_iter_ok E -> drawn_mat m n pos -> drawn_mat m' n' pos' ->
  0 <= shift -> shift + n <= n' -> (forall y, 0 <= y < n -> pos' (y + shift) = pos y) -> 0 <= x < n ->
  exists b : bool, fewer_neighbors E m m' shift x = Ok b /\
    (b = true <-> exists y, 0 <= y < n' /\ ~ (shift <= y < shift + n) /\ adjacent (pos x) (pos' y)).
Proof.
  intros E m m' n n' pos pos' shift x HE HM HM' H0 Hn HP Hx. unfold fewer_neighbors.
  destruct (mat_neighbors E m n pos x (RList []) HE HM Hx Logic.I) as (l & -> & ND & Il). cbn [bind].
  assert (Hx' : 0 <= x + shift < n') by lia.
  destruct (mat_neighbors E m' n' pos' (x + shift) (RList []) HE HM' Hx' Logic.I) as (l' & -> & ND' & Il'). cbn [bind].
  eexists. split; [reflexivity|]. rewrite Z.ltb_lt.
  assert (ND2 : NoDup (map (fun y => y + shift) l)) by (apply FinFun.Injective_map_NoDup; [intros a b; lia | assumption]).
  replace (zlen l) with (zlen (map (fun y => y + shift) l)) by (unfold zlen; now rewrite map_length).
  rewrite shorter_iff; [|assumption|assumption|].
  - split; intros (y & A & B).
    + apply Il' in A. destruct A as (Y & _ & A). exists y. split; [assumption|]. rewrite HP in A by assumption. split; [|assumption].
      intros Hy. apply B. apply in_map_iff. exists (y - shift). split; [lia|]. apply Il. split; [lia|]. split; [cbn; lia|].
      rewrite <- (HP (y - shift)) by lia. now replace (y - shift + shift) with y by lia.
    + destruct B as [B A']. exists y. split; [apply Il'; split; [assumption|]; split; [cbn; lia|]; now rewrite HP|].
      intros Hy. apply in_map_iff in Hy. destruct Hy as (z & <- & Hz). apply Il in Hz. lia.
  - intros y Hy. apply in_map_iff in Hy. destruct Hy as (z & <- & Hz). apply Il in Hz. destruct Hz as (Z1 & _ & Z2).
    apply Il'. split; [lia|]. split; [cbn; lia|]. now rewrite !HP.
Qed.

(** the frontier *)
Lemma frontier_ok : forall E m m' n n' pos pos' shift, set_iter_ok E -> drawn_mat m n pos -> drawn_mat m' n' pos' ->
  0 <= shift -> shift + n <= n' -> (forall y, 0 <= y < n -> pos' (y + shift) = pos y) ->
  exists l, filterM (fewer_neighbors E m m' shift) (zrange 0 n) = Ok l /\ NoDup l /\
    forall x, In x l <-> 0 <= x < n /\ exists y, 0 <= y < n' /\ ~ (shift <= y < shift + n) /\ adjacent (pos x) (pos' y).
Proof.
  intros E m m' n n' pos pos' shift HE HM HM' H0 Hn HP.
  set (q := fun x => match fewer_neighbors E m m' shift x with Ok b => b | Err _ => false end).
  exists (filter q (zrange 0 n)). split; [|split; [apply NoDup_filter, zrange_NoDup|]].
  - apply filterM_ok. intros x Hx. apply in_zrange in Hx.
    destruct (fewer_ok E m m' n n' pos pos' shift x HE HM HM' H0 Hn HP Hx) as (b & Eb & _). unfold q. now rewrite Eb.
  - intros x. rewrite filter_In, in_zrange. split; intros [Hx H]; (split; [assumption|]);
      destruct (fewer_ok E m m' n n' pos pos' shift x HE HM HM' H0 Hn HP Hx) as (b & Eb & Ib); unfold q in *; rewrite Eb in *; tauto.
Qed.

(** ** The ring *)

Section Ring.
Variables (E : runtime) (c : configuration).
Hypothesis HE : set_iter_ok E.
Hypothesis Hh : 1 <= nbh c.
Hypothesis Hv : 1 <= nbv c.
Hypothesis Hs : 1 <= nblocs_side c.
Hypothesis HB : build_rectangular_bond_matrix (nbh c) (nbv c) (nblocs_side c) = Ok (bond_matrix c).
Hypothesis HN : nsites c = mrows (bond_matrix c).
Let w := nblocs_side c * nbh c.
Let ht := nblocs_side c * nbv c.
Let N := w * ht.
Let m := 2 * (w + ht).

Lemma ring_n : nsites c = N.
Proof. exact (rect_n c _ _ _ Hh Hv Hs HB HN). Qed.

Lemma ring_sizes : 1 <= w /\ 1 <= ht /\ 1 <= N /\ 2 * (nbh c + nbv c) * nblocs_side c = m.
Proof. unfold N, m, w, ht. nia. Qed.

Lemma ring_near : forall x r, 0 <= x < N -> 0 <= r < m ->
  diagb (point w x) (ring_point w ht r) = true -> exists y, 0 <= y < N /\ adjacent (point w x) (point w y) /\ adjacent (point w y) (ring_point w ht r).
Proof.
  intros x r Hx Hr D. apply diagb_iff in D. destruct ring_sizes as (W1 & H1 & _).
  destruct (pt_bound (nbh c) (nbv c) (nblocs_side c) Hh Hs x Hx) as (Bx & By & _). fold w ht in Bx, By. unfold point in D at 1 2. cbn [fst snd] in D.
  assert (P : forall a b, 0 <= a < w -> 0 <= b < ht -> adjacent (x mod w, x / w) (a, b) -> adjacent (a, b) (ring_point w ht r) ->
     exists y, 0 <= y < N /\ adjacent (point w x) (point w y) /\ adjacent (point w y) (ring_point w ht r)).
  { intros a b Ha Hb A1 A2. destruct (pt_site (nbh c) (nbv c) (nblocs_side c) Hh Hv Hs a b Ha Hb) as [S1 S2]. fold w ht in S1, S2. fold N in S1.
    exists (site w (a, b)). rewrite S2. split; [assumption|]. split; [exact A1 | exact A2]. }
  clear - P D Hr Bx By W1 H1. revert P D. unfold ring_point, adjacent.
  generalize dependent (x mod w). generalize dependent (x / w). intros q Hq a Ha.
  destruct (Z.ltb_spec r w); [|destruct (Z.ltb_spec r (w + ht)); [|destruct (Z.ltb_spec r (2 * w + ht))]]; cbn [fst snd]; intros P D.
  - apply (P r q); lia.
  - apply (P a (r - w)); lia.
  - apply (P (w - 1 - (r - (w + ht))) q); lia.
  - apply (P a (ht - 1 - (r - (2 * w + ht)))); lia.
Qed.

Lemma ring_corner : forall x r, 0 <= x < N -> 0 <= r < m -> diagb (point w x) (ring_point w ht r) = true ->
  exists r', 0 <= r' < m /\ adjacent (point w x) (ring_point w ht r').
Proof.
  intros x r Hx Hr D. apply diagb_iff in D. destruct ring_sizes as (W1 & H1 & _).
  destruct (pt_bound (nbh c) (nbv c) (nblocs_side c) Hh Hs x Hx) as (Bx & By & _). fold w ht in Bx, By.
  revert D. unfold point, adjacent. cbn [fst snd]. clear - Hr Bx By W1 H1. unfold m in *.
  generalize dependent (x mod w). generalize dependent (x / w). intros q Hq a Ha.
  unfold ring_point at 1 2. destruct (Z.ltb_spec r w); [|destruct (Z.ltb_spec r (w + ht)); [|destruct (Z.ltb_spec r (2 * w + ht))]]; cbn [fst snd]; intros D.
  - exists a. unfold ring_point. destruct (Z.ltb_spec a w); [cbn [fst snd]; lia | lia].
  - exists (w + q). unfold ring_point. destruct (Z.ltb_spec (w + q) w); [lia|]. destruct (Z.ltb_spec (w + q) (w + ht)); [cbn [fst snd]; lia | lia].
  - exists (w + ht + (w - 1 - a)). unfold ring_point. destruct (Z.ltb_spec (w + ht + (w - 1 - a)) w); [lia|].
    destruct (Z.ltb_spec (w + ht + (w - 1 - a)) (w + ht)); [lia|]. destruct (Z.ltb_spec (w + ht + (w - 1 - a)) (2 * w + ht)); [cbn [fst snd]; lia | lia].
  - exists (2 * w + ht + (ht - 1 - q)). unfold ring_point. destruct (Z.ltb_spec (2 * w + ht + (ht - 1 - q)) w); [lia|].
    destruct (Z.ltb_spec (2 * w + ht + (ht - 1 - q)) (w + ht)); [lia|]. destruct (Z.ltb_spec (2 * w + ht + (ht - 1 - q)) (2 * w + ht)); [lia | cbn [fst snd]; lia].
Qed.

(** every site of the ring touches the block at one site *)
Lemma ring_touches : forall r, 0 <= r < m -> exists x, 0 <= x < N /\ adjacent (point w x) (ring_point w ht r).
Proof.
  intros r Hr. destruct ring_sizes as (W1 & H1 & _).
  assert (P : forall a b, 0 <= a < w -> 0 <= b < ht -> adjacent (a, b) (ring_point w ht r) ->
     exists y, 0 <= y < N /\ adjacent (point w y) (ring_point w ht r)).
  { intros a b Ha Hb A1. destruct (pt_site (nbh c) (nbv c) (nblocs_side c) Hh Hv Hs a b Ha Hb) as [S1 S2]. fold w ht in S1, S2. fold N in S1.
    exists (site w (a, b)). rewrite S2. now split. }
  clear - P Hr W1 H1. unfold m in Hr. revert P. unfold ring_point, adjacent.
  destruct (Z.ltb_spec r w); [|destruct (Z.ltb_spec r (w + ht)); [|destruct (Z.ltb_spec r (2 * w + ht))]]; cbn [fst snd]; intros P.
  - apply (P r 0); lia.
  - apply (P (w - 1) (r - w)); lia.
  - apply (P (w - 1 - (r - (w + ht))) (ht - 1)); lia.
  - apply (P 0 (ht - 1 - (r - (2 * w + ht)))); lia.
Qed.

Lemma ring_unique : forall r x y, 0 <= r < m -> 0 <= x < N -> 0 <= y < N -> adjacent (point w x) (ring_point w ht r) ->
  adjacent (point w y) (ring_point w ht r) -> x = y.
Proof.
  intros r x y Hr Hx Hy A B. destruct ring_sizes as (W1 & H1 & _). apply (pt_inj (nbh c) (nbv c) (nblocs_side c) Hh Hs x y Hx Hy). fold w.
  destruct (pt_bound (nbh c) (nbv c) (nblocs_side c) Hh Hs x Hx) as (Bx & Cx & _).
  destruct (pt_bound (nbh c) (nbv c) (nblocs_side c) Hh Hs y Hy) as (By & Cy & _). fold w ht in Bx, Cx, By, Cy.
  revert A B. unfold point, ring_point, adjacent. cbn [fst snd]. clear - Hr Bx Cx By Cy W1 H1. unfold m in Hr.
  generalize dependent (x mod w). generalize dependent (x / w). generalize dependent (y mod w). generalize dependent (y / w).
  intros a Ha b Hb a' Ha' b' Hb'.
  destruct (Z.ltb_spec r w); [|destruct (Z.ltb_spec r (w + ht)); [|destruct (Z.ltb_spec r (2 * w + ht))]]; cbn [fst snd]; intros A B; f_equal; lia.
Qed.

Lemma ringed_in : forall x, 0 <= x < N -> ringed_point w ht x = point w x.
Proof. intros x Hx. unfold ringed_point. fold N. destruct (Z.ltb_spec x N); [reflexivity | lia]. Qed.
Lemma ringed_out : forall r, 0 <= r < m -> ringed_point w ht (N + r) = ring_point w ht r.
Proof. intros x Hx. unfold ringed_point. fold N. destruct (Z.ltb_spec (N + x) N); [lia|]. f_equal. lia. Qed.

Lemma neel_frame : 2 <= w -> 2 <= ht -> exists u, neel_surroundings E c = Ok u /\ frame u (nsites c) (point w) m (ring_point w ht) /\
  (forall x, In x (u_frontier_A u) <-> 0 <= x < N /\ exists r, 0 <= r < m /\ adjacent (point w x) (ring_point w ht r)).
Proof.
  intros W2 H2. unfold neel_surroundings. destruct ring_sizes as (W1 & H1 & N1 & ->). rewrite ring_n.
  destruct (ringed_is (nbh c) (nbv c) (nblocs_side c) Hh Hv Hs) as (bm & EB & IB). fold w ht N in IB. fold m in IB. rewrite EB. cbn [bind].
  pose proof (rect_mat c (nbh c) (nbv c) (nblocs_side c) Hh Hv Hs HB) as IC. fold w ht N in IC.
  assert (PP : forall y, 0 <= y < N -> ringed_point w ht (y + 0) = point w y) by (intros y Hy; rewrite Z.add_0_r; now apply ringed_in).
  destruct (frontier_ok E (bond_matrix c) bm N (N + m) (point w) (ringed_point w ht) 0 HE IC IB) as (fr & EF & NF & IF); [lia | unfold m; lia | exact PP|].
  rewrite EF. cbn [bind].
  assert (IF' : forall x, In x fr <-> 0 <= x < N /\ exists r, 0 <= r < m /\ adjacent (point w x) (ring_point w ht r)).
  { intros x. rewrite IF. split; intros (Hx & y & A & B); (split; [assumption|]).
    - destruct B as [B1 B2]. exists (y - N). split; [lia|]. rewrite <- ringed_out by lia. now replace (N + (y - N)) with y by lia.
    - exists (N + y). split; [lia|]. split; [lia|]. now rewrite ringed_out. }
  set (g := fun x => match get_neighbors E x bm (RList []) with Ok l => l | Err _ => [] end).
  assert (G : forall x, 0 <= x < N + m -> get_neighbors E x bm (RList []) = Ok (g x) /\ forall y, In y (g x) <-> 0 <= y < N + m /\ adjacent (ringed_point w ht x) (ringed_point w ht y)).
  { intros x Hx. destruct (mat_neighbors E bm (N + m) (ringed_point w ht) x (RList []) HE IB Hx Logic.I) as (l & El & _ & Il).
    unfold g. rewrite El. split; [reflexivity|]. intros y. rewrite Il. cbn [allowed]. tauto. }
  rewrite (concatM_ok _ _ _ g) by (intros x Hx; apply in_zrange in Hx; apply G; unfold m; lia). cbn [bind].
  set (r1 := py_set_list E (zrange 0 N ++ flat_map g (zrange 0 N))).
  assert (R1 : forall y, In y r1 <-> 0 <= y < N + m).
  { intros y. unfold r1. rewrite (in_set_list E HE), in_app_iff, in_zrange, in_flat_map. split.
    - intros [H|(x & Hx & Hy)]; [unfold m; lia|]. apply in_zrange in Hx. apply G in Hy; [tauto | unfold m; lia].
    - intros Hy. destruct (Z.lt_ge_cases y N) as [L|L]; [left; lia|right].
      destruct (ring_touches (y - N)) as (x & Hx & A); [lia|]. exists x. split; [now apply in_zrange|]. apply G; [unfold m; lia|]. split; [lia|].
      rewrite ringed_in by assumption. replace y with (N + (y - N)) by lia. now rewrite ringed_out by lia. }
  unfold make_configuration. replace (mrows bm) with (N + m) by (symmetry; apply IB).
  destruct (Z.eqb_spec (N + m) 0); [unfold m in *; lia|].
  destruct r1 as [|a r1'] eqn:ER; [exfalso; destruct (R1 0) as [_ F]; apply F; unfold m; lia|]. rewrite <- ER in *. clear ER.
  assert (EQ : (if restr_falsy (RList r1) then Ok (RTuple (zrange 0 (N + m)) (zrange 0 (N + m))) else
     match RList r1 with RList l => Ok (RTuple l l) | RTuple a b => Ok (RTuple a b) | RNested _ => Err TypeError end) = Ok (RTuple r1 r1)).
  { destruct r1; [exfalso; destruct (R1 0) as [_ F]; apply F; unfold m; lia | reflexivity]. }
  rewrite EQ. cbn [bind].
  match goal with |- context [mkSur ?k _ _ _ _] => set (cu := k) end.
  eexists. split; [reflexivity|]. cbn [u_frontier_A u_bonds u_diagonals]. split; [|exact IF'].
  split; [assumption|]. split; [intros x Hx; now apply IF'|]. split; [|split].
  - intros x Hx. apply IF' in Hx. destruct Hx as [Hx _].
    assert (Hx' : 0 <= x < N + m) by (unfold m; lia).
    destruct (mat_neighbors E bm (N + m) (ringed_point w ht) x (RList (zrange N (N + m))) HE IB Hx' Logic.I) as (l & El & ND & Il).
    exists l. split; [assumption|]. split; [assumption|]. intros y. rewrite Il, bondb_iff.
    assert (NZ : zrange N (N + m) <> []) by (intros Z0; assert (In N (zrange N (N + m))) by (apply in_zrange; unfold m; lia); rewrite Z0 in *; contradiction).
    cbn [allowed]. destruct (zrange N (N + m)) as [|z l'] eqn:EZ; [congruence|]. rewrite <- EZ, in_zrange. rewrite ringed_in by assumption. split.
    + intros (_ & Hy & A). split; [assumption|]. rewrite <- ringed_out by lia. now replace (N + (y - N)) with y by lia.
    + intros (Hy & A). split; [lia|]. split; [assumption|]. replace y with (N + (y - N)) by lia. now rewrite ringed_out by lia.
  - intros x Hx. apply IF' in Hx. destruct Hx as [Hx _].
    assert (Hx' : 0 <= x < N + m) by (unfold m; lia).
    assert (CD : drawn cu (ringed_point w ht)).
    { apply (peri_drawn cu); try assumption. subst cu; cbn [bond_matrix nsites]. symmetry. apply IB. }
    assert (CS : straightness_decided E cu (ringed_point w ht)).
    { apply (peri_straight cu); try assumption; try reflexivity. subst cu; cbn [bond_matrix nsites]. symmetry. apply IB. }
    destruct (diag_ok E cu (ringed_point w ht) HE CD CS x r1 r1 Hx' eq_refl) as (l & El & ND & Il).
    cbn [u_diagonals]. rewrite El. cbn [bind]. eexists. split; [reflexivity|]. split; [apply (set_and_NoDup E HE)|].
    intros y. rewrite (in_set_and E HE), in_zrange, Il, diagb_iff. rewrite (ringed_in x) by assumption. split.
    + intros (Hy & _ & _ & A). split; [assumption|]. rewrite <- ringed_out by lia. now replace (N + (y - N)) with y by lia.
    + intros (Hy & A). split; [assumption|]. split; [apply R1; lia|].
      assert (EY : ringed_point w ht y = ring_point w ht (y - N)) by (rewrite <- ringed_out by lia; f_equal; lia).
      split; [|now rewrite EY].
      destruct (ring_near x (y - N) Hx) as (z & Hz & A1 & A2); [lia | now apply diagb_iff|].
      exists z. subst cu; cbn [nsites]. split; [lia|]. split; [lia|]. split; [lia|]. split; [lia|].
      rewrite EY, !ringed_in by assumption. now split.
  - intros x r Hx Hr NF'. split; apply not_true_iff_false; intros A; apply NF', IF'; (split; [assumption|]).
    + exists r. split; [assumption|]. now apply bondb_iff.
    + exact (ring_corner x r Hx Hr A).
Qed.
End Ring.
