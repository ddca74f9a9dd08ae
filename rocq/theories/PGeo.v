(** Neighbours, second neighbours and straightness on drawn lattices. *)
From Coq Require Import ZArith List Bool Lia Permutation.
From Verif Require Import PyBase PyFacts Lattice Base Spec Geometry PMat PRing.
Import ListNotations.
Open Scope Z_scope.

(** ** Generic queries *)

Lemma mget_ok : forall m i j, 0 <= i < mrows m -> 0 <= j < mcols m -> mget m i j = Ok (mat_at m i j).
Proof.
  intros m i j Hi Hj. unfold mget, py_norm.
  destruct (Z.ltb_spec i 0); [lia|]. destruct (Z.ltb_spec j 0); [lia|].
  destruct (Z.leb_spec 0 i); [|lia]. destruct (Z.ltb_spec i (mrows m)); [|lia].
  destruct (Z.leb_spec 0 j); [|lia]. destruct (Z.ltb_spec j (mcols m)); [|lia]. reflexivity.
Qed.

Definition good_restr (r : restriction) : Prop := match r with RNested (_ :: _) => False | _ => True end.

Lemma neighbors_ok : forall E x m r n, set_iter_ok E -> mrows m = n -> mcols m = n -> 0 <= x < n -> good_restr r ->
  exists l, get_neighbors E x m r = Ok l /\ NoDup l /\
    (forall y, In y l <-> 0 <= y < n /\ allowed n r y /\ mat_at m x y = 1).
Proof.
  intros E x m r n HE R C Hx Hr. unfold get_neighbors. rewrite R.
  assert (exists sites, (if restr_falsy r then Ok (zrange 0 n)
      else match r with RTuple _ b => Ok b | RList l => Ok l | RNested _ => Err TypeError end) = Ok sites /\
      forall y, 0 <= y < n -> (In y sites <-> allowed n r y)) as (sites & -> & HS).
  { destruct r as [[|a l]|a b|[|a l]]; cbn [restr_falsy allowed good_restr] in *; try contradiction; eexists; (split; [reflexivity|]); intros y Hy;
      try (rewrite in_zrange); tauto. }
  cbn [bind].
  assert (B : forall y, In y (py_set_and E (zrange 0 n) sites) <-> 0 <= y < n /\ In y sites).
  { intros y. rewrite (in_set_and E HE), in_zrange. tauto. }
  rewrite (filterM_ok _ _ (fun ind => mat_at m x ind =? 1)).
  - eexists. split; [reflexivity|]. split; [apply NoDup_filter, set_and_NoDup, HE|].
    intros y. rewrite filter_In, B, Z.eqb_eq. split.
    + intros [[A1 A2] A3]. rewrite <- HS by assumption. auto.
    + intros (A1 & A2 & A3). rewrite <- HS in A2 by assumption. auto.
  - intros y Hy. apply B in Hy. rewrite mget_ok by lia. reflexivity.
Qed.

Lemma NoDup_flat_map : forall A B (f : A -> list B) l,
  NoDup l -> (forall x, In x l -> NoDup (f x)) ->
  (forall x y z, In x l -> In y l -> In z (f x) -> In z (f y) -> x = y) -> NoDup (flat_map f l).
Proof.
  intros A B f l. rewrite flat_map_concat_map. revert l.
  induction l as [|a l IH]; simpl; intros ND H D; [constructor|].
  inversion ND as [|? ? Hn ND']; subst. apply NoDup_app'.
  - apply H; auto.
  - apply IH; auto. intros x y z Hx Hy. apply D; auto.
  - intros z Hz Hc. apply in_concat in Hc. destruct Hc as (g & Hg & Hz').
    apply in_map_iff in Hg. destruct Hg as (y & <- & Hy).
    assert (a = y) by (eapply D; eauto). subst. contradiction.
Qed.

Lemma bond_list_ok : forall E m r r0 r1 n, set_iter_ok E -> mrows m = n -> mcols m = n ->
  (r = RTuple r0 r1 \/ (restr_falsy r = true /\ r0 = zrange 0 n /\ r1 = zrange 0 n)) ->
  exists l, build_bond_list E m r = Ok l /\ NoDup l /\
    (forall i j, In (i, j) l <-> 0 <= i <= j /\ j < n /\ In i r0 /\ In j r1 /\ mat_at m i j = 1).
Proof.
  intros E m r r0 r1 n HE R C Hr. unfold build_bond_list. rewrite R.
  assert ((if restr_falsy r then Ok (zrange 0 n, zrange 0 n)
      else match r with
           | RTuple a b => Ok (a, b) | RNested (a :: b :: _) => Ok (a, b)
           | RNested _ => Err IndexError | RList _ => Err TypeError end) = Ok (r0, r1)) as ->.
  { destruct Hr as [-> | (-> & -> & ->)]; reflexivity. }
  cbn [bind].
  set (g := fun i => flat_map (fun j => if mat_at m i j =? 1 then [(i, j)] else []) (py_set_and E (zrange i n) r1)).
  assert (B : forall i, In i (py_set_and E (zrange 0 n) r0) <-> 0 <= i < n /\ In i r0).
  { intros y. rewrite (in_set_and E HE), in_zrange. tauto. }
  assert (B' : forall i j, In j (py_set_and E (zrange i n) r1) <-> i <= j < n /\ In j r1).
  { intros i y. rewrite (in_set_and E HE), in_zrange. tauto. }
  rewrite (concatM_ok _ _ _ g).
  - eexists. split; [reflexivity|].
    assert (Hg : forall i p, In p (g i) <-> exists j, p = (i, j) /\ i <= j < n /\ In j r1 /\ mat_at m i j = 1).
    { intros i p. unfold g. rewrite in_flat_map. split.
      - intros (j & Hj & Hp). apply B' in Hj.
        destruct (Z.eqb_spec (mat_at m i j) 1); simpl in Hp; [|tauto].
        destruct Hp as [<-|[]]. exists j. tauto.
      - intros (j & -> & H1 & H2 & H3). exists j. split; [apply B'; auto|]. rewrite H3. simpl. auto. }
    split.
    + apply NoDup_flat_map.
      * apply set_and_NoDup, HE.
      * intros i Hi. unfold g. apply NoDup_flat_map.
        -- apply set_and_NoDup, HE.
        -- intros j Hj. destruct (_ =? _); repeat constructor; auto.
        -- intros x y z Hx Hy H1 H2.
           destruct (mat_at m i x =? 1), (mat_at m i y =? 1); simpl in *; try tauto.
           destruct H1 as [<-|[]], H2 as [E'|[]]. congruence.
      * intros x y z Hx Hy H1 H2. apply Hg in H1, H2. destruct H1 as (j & -> & _), H2 as (j' & E' & _). congruence.
    + intros i j. rewrite in_flat_map. split.
      * intros (i' & Hi & Hp). apply B in Hi.
        apply Hg in Hp. destruct Hp as (j' & E' & H1 & H2 & H3). inversion E'; subst. intuition lia.
      * intros (H1 & H2 & H3 & H4 & H5). exists i. split.
        -- apply B. split; [lia|assumption].
        -- apply Hg. exists j. intuition lia.
  - intros i Hi. apply B in Hi. unfold g. apply concatM_ok. intros j Hj. apply B' in Hj.
    rewrite mget_ok by lia. reflexivity.
Qed.

(** ** Plane facts *)

Lemma adj_irrefl : forall p, ~ adjacent p p.
Proof. intros p. unfold adjacent. lia. Qed.

Lemma adj_bipartite : forall p q r, adjacent p q -> adjacent q r -> ~ adjacent p r.
Proof. intros p q r. unfold adjacent. lia. Qed.

Lemma adjb_false : forall p q, ~ adjacent p q -> adjb p q = false.
Proof. intros p q H. apply not_true_is_false. now rewrite adjb_iff. Qed.

Lemma adjb_true : forall p q, adjacent p q -> adjb p q = true.
Proof. intros. now apply adjb_iff. Qed.

Lemma perm3 : forall x y z a m b : Z, Permutation [x; y; z] [a; m; b] -> a <> b -> a <> m -> m <> b ->
  [x; y; z] = [a; m; b] \/ [x; y; z] = [a; b; m] \/ [x; y; z] = [m; a; b] \/
  [x; y; z] = [m; b; a] \/ [x; y; z] = [b; a; m] \/ [x; y; z] = [b; m; a].
Proof.
  intros x y z a m b P H1 H2 H3.
  assert (ND : NoDup [x; y; z]).
  { eapply Permutation_NoDup; [apply Permutation_sym; exact P|].
    constructor; [simpl; intuition|]. constructor; [simpl; intuition|]. constructor; [simpl; tauto|constructor]. }
  inversion ND as [|? ? N1 ND1]; subst. inversion ND1 as [|? ? N2 ND2]; subst. simpl in N1, N2.
  assert (In x [a; m; b]) as Ix by (eapply Permutation_in; [exact P|simpl; auto]).
  assert (In y [a; m; b]) as Iy by (eapply Permutation_in; [exact P|simpl; auto]).
  assert (In z [a; m; b]) as Iz by (eapply Permutation_in; [exact P|simpl; auto]).
  simpl in Ix, Iy, Iz.
  destruct Ix as [<-|[<-|[<-|[]]]]; destruct Iy as [<-|[<-|[<-|[]]]]; destruct Iz as [<-|[<-|[<-|[]]]]; tauto.
Qed.

Lemma foldM_collect : forall A (f : list Z -> A -> res (list Z)) (Q : A -> Z -> Prop) l acc,
  (forall acc x, In x l -> exists acc', f acc x = Ok acc' /\ forall y, In y acc' <-> In y acc \/ Q x y) ->
  exists r, foldM f acc l = Ok r /\ forall y, In y r <-> In y acc \/ exists x, In x l /\ Q x y.
Proof.
  intros A f Q l. induction l as [|x l IH]; intros acc H.
  - exists acc. split; [reflexivity|]. intros y. simpl. split; [auto|]. intros [?|(x & [] & _)]; auto.
  - destruct (H acc x (or_introl eq_refl)) as (a1 & E1 & I1). simpl. rewrite E1. simpl.
    destruct (IH a1) as (r & Er & Ir); [intros; apply H; now right|].
    exists r. split; [assumption|]. intros y. rewrite Ir, I1. split.
    + intros [[A0|A0]|(z & B & C0)]; [auto|right; exists x; auto|right; exists z; auto].
    + intros [A0|(z & [<-|B] & C0)]; [auto|auto|right; exists z; auto].
Qed.

Lemma diag_geom : forall (pos : Z -> Z * Z) a m b, adjacent (pos a) (pos m) -> adjacent (pos m) (pos b) -> pos a <> pos b ->
  (~ straight (pos a) (pos m) (pos b) <->
   Z.abs (fst (pos a) - fst (pos b)) = 1 /\ Z.abs (snd (pos a) - snd (pos b)) = 1).
Proof.
  intros pos a m b. destruct (pos a) as [ax ay], (pos m) as [mx my], (pos b) as [bx by_].
  unfold adjacent, straight. cbn [fst snd]. intros A B N.
  assert (N' : ax <> bx \/ ay <> by_) by (destruct (Z.eq_dec ax bx), (Z.eq_dec ay by_); subst; tauto).
  split; lia.
Qed.

(** ** Drawn lattices *)

Section Drawn.
Variables (E : runtime) (c : configuration) (pos : Z -> Z * Z).
Hypothesis HE : set_iter_ok E.
Hypothesis HD : drawn c pos.
Let n := nsites c.
Let bm := bond_matrix c.

Lemma d_rows : mrows bm = n. Proof. exact (proj1 (proj2 HD)). Qed.
Lemma d_cols : mcols bm = n. Proof. exact (proj1 (proj2 (proj2 HD))). Qed.
Lemma d_inj : forall i j, 0 <= i < n -> 0 <= j < n -> pos i = pos j -> i = j.
Proof. exact (proj1 (proj2 (proj2 (proj2 HD)))). Qed.
Lemma d_at : forall i j, 0 <= i < n -> 0 <= j < n -> mat_at bm i j = b2z (adjb (pos i) (pos j)).
Proof. intros i j Hi Hj. apply bond_entry_b. now apply (proj2 (proj2 (proj2 (proj2 HD)))). Qed.
Lemma d_adj : forall i j, 0 <= i < n -> 0 <= j < n -> (mat_at bm i j = 1 <-> adjacent (pos i) (pos j)).
Proof.
  intros i j Hi Hj. rewrite d_at by assumption. rewrite <- adjb_iff.
  destruct (adjb (pos i) (pos j)); simpl; split; congruence.
Qed.
Lemma d_get : forall i j, 0 <= i < n -> 0 <= j < n -> mget bm i j = Ok (b2z (adjb (pos i) (pos j))).
Proof. intros i j Hi Hj. rewrite mget_ok by (rewrite ?d_rows, ?d_cols; assumption). now rewrite d_at. Qed.

Lemma d_neighbors : forall x r, 0 <= x < n -> good_restr r ->
  exists l, get_neighbors E x bm r = Ok l /\ NoDup l /\
    (forall y, In y l <-> 0 <= y < n /\ allowed n r y /\ adjacent (pos x) (pos y)).
Proof.
  intros x r Hx Hr. destruct (neighbors_ok E x bm r n HE d_rows d_cols Hx Hr) as (l & El & ND & I).
  exists l. split; [assumption|]. split; [assumption|]. intros y. rewrite I.
  split; intros (A & B & C0); (split; [assumption|]); (split; [assumption|]); now apply d_adj.
Qed.

Lemma d_neighbors_all : forall x, 0 <= x < n ->
  exists l, get_neighbors E x bm (RList []) = Ok l /\ NoDup l /\
    (forall y, In y l <-> 0 <= y < n /\ adjacent (pos x) (pos y)).
Proof.
  intros x Hx. destruct (d_neighbors x (RList []) Hx I) as (l & El & ND & Il).
  exists l. split; [assumption|]. split; [assumption|]. intros y. rewrite Il. simpl. tauto.
Qed.

(** ** Middle of a path *)

Lemma middle_ok : forall a m b x y z, path n pos a m b -> Permutation [x; y; z] [a; m; b] ->
  bond_middle bm x y z = Ok (Z.min a b, m, Z.max a b).
Proof.
  intros a m b x y z (Ha & Hm & Hb & Nab & Aam & Amb) P.
  assert (Nam : a <> m) by (intros ->; now apply adj_irrefl in Aam).
  assert (Nmb : m <> b) by (intros ->; now apply adj_irrefl in Amb).
  pose proof (adj_bipartite _ _ _ Aam Amb) as Aab.
  assert (Gam : mget bm a m = Ok 1) by (rewrite d_get by assumption; now rewrite adjb_true).
  assert (Gma : mget bm m a = Ok 1) by (rewrite d_get by assumption; now rewrite adjb_true by now apply adjacent_sym).
  assert (Gmb : mget bm m b = Ok 1) by (rewrite d_get by assumption; now rewrite adjb_true).
  assert (Gbm : mget bm b m = Ok 1) by (rewrite d_get by assumption; now rewrite adjb_true by now apply adjacent_sym).
  assert (Gab : mget bm a b = Ok 0) by (rewrite d_get by assumption; now rewrite adjb_false).
  assert (Gba : mget bm b a = Ok 0) by (rewrite d_get by assumption; rewrite adjb_false; [reflexivity|intros C0; apply Aab; now apply adjacent_sym]).
  assert (Gaa : mget bm a a = Ok 0) by (rewrite d_get by assumption; rewrite adjb_false; [reflexivity|apply adj_irrefl]).
  assert (Gbb : mget bm b b = Ok 0) by (rewrite d_get by assumption; rewrite adjb_false; [reflexivity|apply adj_irrefl]).
  assert (Gmm : mget bm m m = Ok 0) by (rewrite d_get by assumption; rewrite adjb_false; [reflexivity|apply adj_irrefl]).
  apply Z.eqb_neq in Nab as Fab. apply Z.eqb_neq in Nam as Fam. apply Z.eqb_neq in Nmb as Fmb.
  assert (Fba : (b =? a) = false) by now rewrite Z.eqb_sym.
  assert (Fma : (m =? a) = false) by now rewrite Z.eqb_sym.
  assert (Fbm : (b =? m) = false) by now rewrite Z.eqb_sym.
  apply perm3 in P; [|assumption|assumption|assumption].
  destruct P as [P|[P|[P|[P|[P|P]]]]]; inversion P; subst; unfold bond_middle, filterM, mapM;
  repeat first [rewrite Gam|rewrite Gma|rewrite Gmb|rewrite Gbm|rewrite Gab|rewrite Gba|rewrite Gaa|rewrite Gbb|rewrite Gmm
     |rewrite Fab|rewrite Fam|rewrite Fmb|rewrite Fba|rewrite Fma|rewrite Fbm
     |progress (cbn [bind zsum fold_right orb andb Z.add Z.eqb Pos.eqb Pos.add py_get py_norm zlen length Z.of_nat Z.ltb Z.compare nth_error Z.to_nat filter negb Pos.of_succ_nat])
     |rewrite Z.eqb_refl];
  try reflexivity; rewrite (Z.min_comm b a), (Z.max_comm b a); reflexivity.
Qed.

(** ** Second neighbours *)

Lemma second_ok : forall x r, 0 <= x < n -> good_restr r ->
  exists l, get_second_neighbors E x bm r = Ok l /\ NoDup l /\
    (forall y, In y l <-> allowed n r y /\ exists m, path n pos x m y).
Proof.
  intros x r Hx Hr. unfold get_second_neighbors. rewrite d_rows.
  set (r' := if restr_falsy r then RTuple (zrange 0 n) (zrange 0 n) else r).
  assert (Hr' : good_restr r').
  { unfold r'. destruct r as [[|a l]|a b|[|a l]]; simpl; exact I || assumption. }
  assert (Ha : forall y, 0 <= y < n -> (allowed n r' y <-> allowed n r y)).
  { unfold r'. intros y Hy. destruct r as [[|a l]|a b|[|a l]]; simpl; try tauto; rewrite in_zrange; tauto. }
  destruct (d_neighbors_all x Hx) as (nx & -> & NDx & Ix). cbn [bind].
  set (g := fun m => match get_neighbors E m bm r' with Ok ns => py_set_diff E ns (x :: nx) | Err _ => [] end).
  assert (Hg : forall m, In m nx -> get_neighbors E m bm r' = Ok (match get_neighbors E m bm r' with Ok ns => ns | Err _ => [] end) /\
    forall y, In y (g m) <-> 0 <= y < n /\ allowed n r' y /\ adjacent (pos m) (pos y) /\ ~ In y (x :: nx)).
  { intros m Hm. apply Ix in Hm. destruct (d_neighbors m r' (proj1 Hm) Hr') as (ns & Ens & NDs & Is).
    unfold g. rewrite Ens. split; [reflexivity|]. intros y. rewrite (in_set_diff E HE), Is. tauto. }
  rewrite (concatM_ok _ _ _ g).
  - cbn [bind]. eexists. split; [reflexivity|]. split; [apply set_list_NoDup, HE|].
    intros y. rewrite (in_set_list E HE), in_flat_map. split.
    + intros (m & Hm & Hy).
      destruct (Hg m Hm) as [_ G]. apply G in Hy. destruct Hy as (H1 & H2 & H3 & H4). apply Ix in Hm. destruct Hm as [Hm A].
      split; [now apply Ha|]. exists m. unfold path. simpl in H4.
      split; [assumption|]. split; [assumption|]. split; [assumption|]. split; [intuition|]. auto.
    + intros (Hal & m & Hx' & Hm & Hy & Nxy & A1 & A2).
      assert (Im : In m nx) by (apply Ix; auto). exists m. split; [assumption|].
      apply (proj2 (Hg m Im)). split; [assumption|]. split; [now apply Ha|]. split; [assumption|].
      intros [C0|C0]; [congruence|]. apply Ix in C0. apply (adj_bipartite _ _ _ A1 A2). apply C0.
  - intros m Hm. destruct (Hg m Hm) as [G1 _]. unfold g. destruct (get_neighbors E m bm r'); [reflexivity | discriminate G1].
Qed.

Hypothesis HL : straightness_decided E c pos.

Lemma diag_ok : forall x r0 r1, 0 <= x < n -> sites_restriction c = RTuple r0 r1 ->
  exists l, get_diagonal_second_neighbors E c x = Ok l /\ NoDup l /\
    (forall y, In y l <-> In y r1 /\ (exists m, path n pos x m y) /\
        Z.abs (fst (pos x) - fst (pos y)) = 1 /\ Z.abs (snd (pos x) - snd (pos y)) = 1).
Proof.
  intros x r0 r1 Hx Hr. unfold get_diagonal_second_neighbors. fold bm.
  destruct (d_neighbors_all x Hx) as (nx & -> & NDx & Ix). cbn [bind].
  match goal with |- context [foldM ?f [] nx] =>
    destruct (foldM_collect Z f (fun m y => path n pos x m y /\ In y r1 /\ ~ straight (pos x) (pos m) (pos y)) nx [])
      as (d & Ed & Id)
  end.
  - intros acc m Hm. apply Ix in Hm. destruct Hm as [Hm A1].
    rewrite Hr. destruct (d_neighbors m (RTuple r0 r1) Hm I) as (ns & -> & NDs & Is). cbn [bind].
    match goal with |- exists acc', foldM ?f acc ?l = _ /\ _ =>
      destruct (foldM_collect Z f (fun y z => z = y /\ ~ straight (pos x) (pos m) (pos y)) l acc) as (a & Ea & Ia)
    end.
    + intros acc0 y Hy. rewrite (in_set_diff E HE), Is in Hy. destruct Hy as [(Hy & Hal & A2) Hn].
      destruct (mem y acc0) eqn:M.
      * apply mem_In in M. exists acc0. split; [reflexivity|]. intros z. split; [auto|]. intros [A0|[-> _]]; auto.
      * assert (Hp : path n pos x m y).
        { split; [assumption|]. split; [assumption|]. split; [assumption|]. split; [|auto]. intros ->. apply Hn. now left. }
        destruct (HL x m y x m y Hp (Permutation_refl _)) as (b & -> & Hb). cbn [bind].
        destruct b.
        -- exists acc0. split; [reflexivity|]. intros z. split; [auto|]. intros [A0|[-> B0]]; [auto|].
           exfalso. apply B0. now apply Hb.
        -- exists (acc0 ++ [y]). split; [reflexivity|]. intros z. rewrite in_app_iff. simpl.
           assert (NS : ~ straight (pos x) (pos m) (pos y)) by (intros B0; apply Hb in B0; discriminate).
           split; [intros [A0|[<-|[]]]; auto|]. intros [A0|[-> _]]; auto.
    + exists a. split; [assumption|]. intros z. rewrite Ia. split.
      * intros [A0|(y & Hy & -> & NS)]; [auto|]. rewrite (in_set_diff E HE), Is in Hy. destruct Hy as [(Hy & Hal & A2) Hn].
        right. split; [|split; [exact Hal|assumption]].
        split; [assumption|]. split; [assumption|]. split; [assumption|]. split; [|auto]. intros ->. apply Hn. now left.
      * intros [A0|(Hp & Hal & NS)]; [auto|]. right. exists z. split; [|auto].
        destruct Hp as (P1 & P2 & P3 & P4 & P5 & P6).
        rewrite (in_set_diff E HE), Is. split; [simpl; auto|].
        intros [C0|C0]; [congruence|]. apply Ix in C0. exact (adj_bipartite _ _ _ P5 P6 (proj2 C0)).
  - rewrite Ed. cbn [bind]. eexists. split; [reflexivity|]. split; [apply set_list_NoDup, HE|].
    intros y. rewrite (in_set_list E HE), Id. simpl. split.
    + intros [[]|(m & Hm & Hp & Hal & NS)]. split; [assumption|]. split; [eauto|].
      destruct Hp as (P1 & P2 & P3 & P4 & P5 & P6).
      apply (diag_geom pos x m y P5 P6); [|assumption]. intros C0. apply P4. now apply d_inj.
    + intros (Hal & (m & Hp) & HD1). right. exists m.
      destruct Hp as (P1 & P2 & P3 & P4 & P5 & P6).
      split; [apply Ix; auto|]. split; [unfold path; auto 10|]. split; [assumption|].
      apply (diag_geom pos x m y P5 P6); [|assumption]. intros C0. apply P4. now apply d_inj.
Qed.
End Drawn.
