(** The interactions on one determinant: hopping, next hopping, singlet displacement. *)
From Coq Require Import ZArith List Bool Lia Permutation QArith Qcanon.
From Verif Require Import PyBase PyFacts Lattice Base Interact Spec SpecOps Geometry PBasis PSites PRot PMat PGeo.
Import ListNotations.
Open Scope Z_scope.

(** ** Loops *)

Definition val {A} (d : A) (r : res A) : A := match r with Ok a => a | Err _ => d end.

(** a loop that extends a ghost list *)
Lemma foldM_ghost : forall A B T (f : B -> A -> res B) (g : A -> list T) (rep : list T -> B -> Prop) l ts b,
  (forall ts b x, In x l -> rep ts b -> exists b', f b x = Ok b' /\ rep (ts ++ g x) b') ->
  rep ts b -> exists b', foldM f b l = Ok b' /\ rep (ts ++ flat_map g l) b'.
Proof.
  intros A B T f g rep l. induction l as [|x l IH]; intros ts b H R; cbn [foldM flat_map].
  - exists b. rewrite app_nil_r. auto.
  - destruct (H ts b x (or_introl eq_refl) R) as (b1 & E1 & R1). rewrite E1. cbn [bind].
    destruct (IH _ _ (fun ts b y Hy => H ts b y (or_intror Hy)) R1) as (b' & E' & R').
    exists b'. rewrite app_assoc. auto.
Qed.

(** a loop that collects a set *)
Lemma foldM_collectW : forall A B T (f : B -> A -> res B) (W : B -> Prop) (mem : B -> T -> Prop)
    (Q : A -> T -> Prop) l b,
  (forall b x, In x l -> W b -> exists b', f b x = Ok b' /\ W b' /\ forall y, mem b' y <-> mem b y \/ Q x y) ->
  W b -> exists r, foldM f b l = Ok r /\ W r /\ forall y, mem r y <-> mem b y \/ exists x, In x l /\ Q x y.
Proof.
  intros A B T f W mem Q l. induction l as [|x l IH]; intros b H Hb; cbn [foldM].
  - exists b. split; [reflexivity|]. split; [assumption|]. intros y. split; [auto|]. intros [K|(x & [] & _)]; assumption.
  - destruct (H b x (or_introl eq_refl) Hb) as (b1 & E1 & W1 & M1). rewrite E1. cbn [bind].
    destruct (IH b1 (fun b y Hy => H b y (or_intror Hy)) W1) as (r & Er & Wr & Mr).
    exists r. split; [assumption|]. split; [assumption|]. intros y. rewrite Mr, M1. split.
    + intros [[K|K]|(z & Hz & K)]; [auto | right; exists x; simpl; auto | right; exists z; simpl; auto].
    + intros [K|(z & [->|Hz] & K)]; [auto | auto | right; exists z; auto].
Qed.

Lemma flat_map_if_map : forall A B (P : A -> bool) (F : A -> B) l,
  flat_map (fun x => if P x then [] else [F x]) l = map F (filter (fun x => negb (P x)) l).
Proof. intros. induction l as [|x l IH]; cbn; [reflexivity|]. destruct (P x); cbn; congruence. Qed.

Lemma flat_map_map_pair : forall A B C (L : A -> list B) (F : A -> B -> C) l,
  flat_map (fun x => map (F x) (L x)) l = map (fun p => F (fst p) (snd p)) (flat_map (fun x => map (pair x) (L x)) l).
Proof. intros. induction l as [|x l IH]; cbn; [reflexivity|]. rewrite map_app, map_map, IH. reflexivity. Qed.

Lemma in_flat_pair : forall A B (L : A -> list B) l x y,
  In (x, y) (flat_map (fun x => map (pair x) (L x)) l) <-> In x l /\ In y (L x).
Proof.
  intros. rewrite in_flat_map. split.
  - intros (z & Hz & H). apply in_map_iff in H. destruct H as (u & [= -> ->] & Hu). auto.
  - intros [H1 H2]. exists x. split; [assumption|]. apply in_map. assumption.
Qed.

Lemma NoDup_flat_pair : forall A B (L : A -> list B) l, NoDup l -> (forall x, In x l -> NoDup (L x)) ->
  NoDup (flat_map (fun x => map (pair x) (L x)) l).
Proof.
  intros A B L l Hl H. apply NoDup_flat_map; [assumption| |].
  - intros x Hx. apply FinFun.Injective_map_NoDup; [intros a b [= ->]; reflexivity | apply H, Hx].
  - intros x y z _ _ H1 H2. apply in_map_iff in H1, H2. destruct H1 as (a & <- & _), H2 as (b & [= -> _] & _). reflexivity.
Qed.

(** ** Moving particles in a determinant *)

Lemma set_nth_map : forall d (f : Z -> Z) x v k, NoDup d -> nth_error d k = Some x ->
  set_nth (map f d) k v = map (fun z => if z =? x then v else f z) d.
Proof.
  induction d as [|y d IH]; intros f x v k ND H; [destruct k; discriminate|].
  inversion ND as [|? ? Hy ND']; subst. destruct k as [|k]; cbn in *.
  - injection H as ->. rewrite Z.eqb_refl. f_equal. apply map_ext_in. intros z Hz.
    destruct (Z.eqb_spec z x); [subst; contradiction | reflexivity].
  - rewrite (IH f x v k ND' H). f_equal. destruct (Z.eqb_spec y x); [|reflexivity].
    subst. exfalso. apply Hy. eapply nth_error_In; eauto.
Qed.

Lemma index_nth : forall d x, In x d -> exists i, py_index d x = Ok i /\ 0 <= i < zlen d /\ nth_error d (Z.to_nat i) = Some x.
Proof.
  intros d x H. destruct (py_index_In d x H) as [i Hi]. exists i. destruct (py_index_spec d x i Hi) as (H1 & H2 & _). auto.
Qed.

Lemma py_set_map : forall d (f : Z -> Z) x v i, NoDup d -> py_index d x = Ok i ->
  py_set (map f d) i v = Ok (map (fun z => if z =? x then v else f z) d).
Proof.
  intros d f x v i ND H. destruct (py_index_spec d x i H) as (H1 & H2 & _).
  rewrite py_set_ok by (rewrite zlen_map; assumption). rewrite (set_nth_map d f x v _ ND H2). reflexivity.
Qed.

Lemma py_set_id : forall d x v i, NoDup d -> py_index d x = Ok i ->
  py_set d i v = Ok (map (fun z => if z =? x then v else z) d).
Proof. intros d x v i ND H. rewrite <- (map_id d) at 1. now apply py_set_map. Qed.

Definition tr (x y z : Z) : Z := if z =? x then y else if z =? y then x else z.

Lemma tr_bij : forall n x y, 0 <= x < n -> 0 <= y < n -> site_bij n (tr x y) (tr x y).
Proof.
  intros n x y Hx Hy z Hz. unfold tr.
  destruct (Z.eqb_spec z x); destruct (Z.eqb_spec z y);
  repeat match goal with |- context [?a =? ?b] => destruct (Z.eqb_spec a b) end; lia.
Qed.

Lemma swap_describes : forall n h b d s x y, 0 <= x < n -> 0 <= y < n -> describes n h b d s ->
  describes n h b (map (tr x y) d) (swap_state x y s).
Proof.
  intros n h b d s x y Hx Hy Hd. eapply describes_same; [|apply (map_describes n h b d s _ _ (tr_bij n x y Hx Hy) Hd)].
  intros z Hz. unfold tr, swap_state. destruct (Z.eqb_spec z x) as [->|]; [reflexivity|].
  destruct (Z.eqb_spec z y) as [->|]; reflexivity.
Qed.

(** hole [h] to [e], [m] to [h], [e] to [m] *)
Definition cyc (h m e z : Z) : Z := if z =? h then e else if z =? m then h else if z =? e then m else z.
Definition cyc' (h m e z : Z) : Z := if z =? h then m else if z =? m then e else if z =? e then h else z.

Lemma cyc_bij : forall n h m e, 0 <= h < n -> 0 <= m < n -> 0 <= e < n -> h <> m -> h <> e -> m <> e ->
  site_bij n (cyc h m e) (cyc' h m e).
Proof.
  intros n h m e Hh Hm He N1 N2 N3 z Hz. unfold cyc, cyc'.
  destruct (Z.eqb_spec z h); [|destruct (Z.eqb_spec z m); [|destruct (Z.eqb_spec z e)]];
  repeat match goal with |- context [?a =? ?b] => destruct (Z.eqb_spec a b) end; lia.
Qed.

Lemma shift_describes : forall n hh b d s h m e, 0 <= h < n -> 0 <= m < n -> 0 <= e < n -> h <> m -> h <> e -> m <> e ->
  describes n hh b d s -> describes n hh b (map (cyc h m e) d) (shift_state h m e s).
Proof.
  intros n hh b d s h m e Hh Hm He N1 N2 N3 Hd.
  eapply describes_same; [|apply (map_describes n hh b d s _ _ (cyc_bij n h m e Hh Hm He N1 N2 N3) Hd)].
  intros z Hz. unfold cyc', shift_state. destruct (Z.eqb_spec z h) as [->|]; [reflexivity|].
  destruct (Z.eqb_spec z m) as [->|]; [reflexivity|]. destruct (Z.eqb_spec z e) as [->|]; reflexivity.
Qed.

Lemma swap_at_ok : forall d x y i j, NoDup d -> py_index d x = Ok i -> py_index d y = Ok j ->
  swap_at d i j = Ok (map (tr x y) d).
Proof.
  intros d x y i j ND Hi Hj. unfold swap_at.
  destruct (py_index_spec d x i Hi) as (I1 & I2 & _). destruct (py_index_spec d y j Hj) as (J1 & J2 & _).
  rewrite (py_get_nth _ d j y) by (assumption || lia). cbn [bind].
  rewrite (py_get_nth _ d i x) by (assumption || lia). cbn [bind].
  rewrite (py_set_id d x y i ND Hi). cbn [bind].
  rewrite (py_set_map d _ y x j ND Hj). f_equal. apply map_ext. intros z. unfold tr.
  destruct (Z.eqb_spec z y), (Z.eqb_spec z x); subst; reflexivity.
Qed.

(** ** One determinant *)

Section Det.
Variables (E : runtime) (c : configuration) (pos : Z -> Z * Z) (r0 r1 : list Z) (d : list Z) (s : occupation).
Hypothesis HE : set_iter_ok E.
Hypothesis HD : drawn c pos.
Hypothesis HR : sites_restriction c = RTuple r0 r1.
Hypothesis Hd : conf_describes c d s.
Let n := nsites c.
Let bm := bond_matrix c.

Definition nbr (x : Z) : list Z := val [] (get_neighbors E x (bond_matrix c) (sites_restriction c)).
Definition nba (x : Z) : list Z := val [] (get_neighbors E x (bond_matrix c) (RList [])).
Definition idx (p : particle) (t : Z) : list Z := val [] (get_indexes_of E c d (spin_code p) t).

Lemma nbr_ok : forall x, 0 <= x < n -> get_neighbors E x bm (sites_restriction c) = Ok (nbr x) /\ NoDup (nbr x) /\
  (forall y, In y (nbr x) <-> 0 <= y < n /\ In y r1 /\ adjacent (pos x) (pos y)).
Proof.
  intros x Hx. destruct (d_neighbors E c pos HE HD x (sites_restriction c) Hx) as (l & El & ND & I).
  { rewrite HR. exact I. }
  unfold nbr, bm. rewrite El. cbn [val]. rewrite HR in I. cbn [allowed] in I. auto.
Qed.

Lemma nba_ok : forall x, 0 <= x < n -> get_neighbors E x bm (RList []) = Ok (nba x) /\ NoDup (nba x) /\
  (forall y, In y (nba x) <-> 0 <= y < n /\ adjacent (pos x) (pos y)).
Proof.
  intros x Hx. destruct (d_neighbors_all E c pos HE HD x Hx) as (l & El & ND & I).
  unfold nba, bm. rewrite El. cbn [val]. auto.
Qed.

Lemma idx_ok : forall p t, get_indexes_of E c d (spin_code p) t = Ok (idx p t) /\ NoDup (idx p t) /\
  (forall x, In x (idx p t) <-> (0 <= x < n /\ s x = p) /\ In x (if t =? 0 then r0 else r1)).
Proof.
  intros p t. destruct (indexes_of_ok E c d s p t r0 r1 HE Hd HR) as (l & El & ND & I).
  unfold idx. rewrite El. cbn [val]. auto.
Qed.

Lemma d_nodup : NoDup d. Proof. exact (describes_NoDup _ _ _ _ _ Hd). Qed.
Lemma d_in : forall x, In x d <-> 0 <= x < n. Proof. intros x. exact (describes_In _ _ _ _ _ x Hd). Qed.

Lemma d_index : forall x, 0 <= x < n -> exists i, py_index d x = Ok i.
Proof. intros x Hx. apply py_index_In. now apply d_in. Qed.

Definition swapped (x y : Z) : list Z := canon (nsites c) (swap_state x y s).
Definition shifted (h m e : Z) : list Z := canon (nsites c) (shift_state h m e s).

Lemma swap_ok : forall x y, 0 <= x < n -> 0 <= y < n ->
  exists i j t, py_index d x = Ok i /\ py_index d y = Ok j /\ swap_at d i j = Ok t /\
    reorder_basis_element c t = swapped x y.
Proof.
  intros x y Hx Hy. destruct (d_index x Hx) as [i Hi], (d_index y Hy) as [j Hj].
  exists i, j, (map (tr x y) d). split; [assumption|]. split; [assumption|].
  split; [now apply swap_at_ok; [apply d_nodup|..]|].
  apply reorder_describes. apply swap_describes; assumption.
Qed.

Lemma adj_ne : forall x y, adjacent (pos x) (pos y) -> x <> y.
Proof. intros x y H ->. exact (adj_irrefl _ H). Qed.

(** *** hopping *)

Definition hop_pairs : list (Z * Z) :=
  flat_map (fun h => map (pair h) (filter (fun e => negb (mem e (idx Hole 0))) (nbr h))) (idx Hole 0).

Lemma hop_pairs_ok : NoDup hop_pairs /\
  (forall h e, In (h, e) hop_pairs <->
    0 <= h < n /\ 0 <= e < n /\ s h = Hole /\ In h r0 /\ In e r1 /\ ~ (s e = Hole /\ In e r0) /\
    adjacent (pos h) (pos e)).
Proof.
  destruct (idx_ok Hole 0) as (_ & ND & I). cbn [Z.eqb] in I. split.
  - apply NoDup_flat_pair; [assumption|]. intros h Hh. apply NoDup_filter'. apply I in Hh. apply nbr_ok, Hh.
  - intros h e. unfold hop_pairs. rewrite in_flat_pair, filter_In, negb_true_iff, mem_false, !I. split.
    + intros (((Hh & Sh) & Rh) & He & Ne). apply (proj2 (proj2 (nbr_ok h Hh))) in He. destruct He as (H1 & H2 & H3).
      do 5 (split; [assumption|]). split; [|assumption]. intros [K1 K2]. apply Ne. auto.
    + intros (H1 & H2 & H3 & H4 & H5 & H6 & H7). split; [auto|]. split; [apply (proj2 (proj2 (nbr_ok h H1))); auto|].
      intros ((_ & K) & K'). apply H6. auto.
Qed.

Lemma nholes_zero : nholes c <= 0 -> forall p t, p = Hole -> idx p t = [].
Proof.
  intros H p t ->. destruct (idx_ok Hole t) as (_ & _ & I). destruct (idx Hole t) as [|x l]; [reflexivity|].
  destruct (proj1 (I x) (or_introl eq_refl)) as ((Hx & Sx) & _).
  destruct (describes_sector _ _ _ _ _ Hd) as [S _].
  assert (K : In x (sites_of (nsites c) s Hole)) by (apply in_sites_of; auto).
  destruct (sites_of (nsites c) s Hole); [destruct K|]. rewrite zlen_cons in S. pose proof (zlen_nonneg _ l0). lia.
Qed.

Lemma hopping_ok : compute_hopping_integral E c d = Ok (map (fun p => swapped (fst p) (snd p)) hop_pairs).
Proof.
  unfold compute_hopping_integral, hop_pairs. destruct (Z.ltb_spec 0 (nholes c)) as [Hn|Hn].
  - destruct (idx_ok Hole 0) as (Ei & ND & I). change (spin_code Hole) with 0 in Ei. rewrite Ei. cbn [bind]. cbn [Z.eqb] in I.
    rewrite <- (flat_map_map_pair _ _ _ (fun h => filter (fun e => negb (mem e (idx Hole 0))) (nbr h)) swapped).
    apply concatM_ok. intros h Hh. apply I in Hh. destruct Hh as ((Hh & _) & _).
    destruct (nbr_ok h Hh) as (En & _ & In'). fold bm. rewrite En. cbn [bind].
    rewrite <- flat_map_if_map. apply concatM_ok. intros e He. apply In' in He. destruct He as (He & _).
    destruct (mem e (idx Hole 0)); [reflexivity|].
    destruct (swap_ok h e Hh He) as (i & j & t & Hi & Hj & Ht & Hc). rewrite Hi, Hj. cbn [bind]. rewrite Ht. cbn [bind].
    rewrite Hc. reflexivity.
  - rewrite (nholes_zero Hn Hole 0 eq_refl). reflexivity.
Qed.

(** *** next hopping *)

Hypothesis HL : straightness_decided E c pos.

Definition lineb (x y : Z) : bool := (fst (pos x) =? fst (pos y)) || (snd (pos x) =? snd (pos y)).

Lemma lineb_straight : forall a m b, path n pos a m b -> (lineb a b = true <-> straight (pos a) (pos m) (pos b)).
Proof.
  intros a m b (Ha & Hm & Hb & N & A1 & A2). unfold lineb, straight. rewrite orb_true_iff, !Z.eqb_eq.
  assert (K : pos a <> pos b) by (intros K; apply N; apply (d_inj c pos HD); assumption).
  unfold adjacent in A1, A2. destruct (pos a) as [xa ya], (pos m) as [xm ym], (pos b) as [xb yb]. cbn [fst snd] in *.
  assert (K' : xa <> xb \/ ya <> yb).
  { destruct (Z.eq_dec xa xb); [|auto]. right. intros ->. apply K. congruence. }
  clear - A1 A2 K'. lia.
Qed.

Lemma linear_ok : forall a m b x y z, path n pos a m b -> Permutation [x; y; z] [a; m; b] ->
  is_bond_linear E c x y z = Ok (lineb a b).
Proof.
  intros a m b x y z P Q. destruct (HL a m b x y z P Q) as (r & Er & Ir). rewrite Er. f_equal.
  apply eq_true_iff_eq. rewrite Ir. symmetry. now apply lineb_straight.
Qed.

Lemma path_rev : forall a m b, path n pos a m b -> path n pos b m a.
Proof.
  intros a m b (Ha & Hm & Hb & N & A1 & A2). split; [assumption|]. split; [assumption|]. split; [assumption|].
  split; [auto|]. split; apply adjacent_sym; assumption.
Qed.

Lemma perm_rev3 : forall a m b : Z, Permutation [b; m; a] [a; m; b].
Proof. intros. apply Permutation_sym. exact (Permutation_rev [a; m; b]). Qed.

Definition nh_W (st : nh_state) : Prop :=
  let '(seen, col, ortho) := st in
  NoDup seen /\ col = map (fun p => swapped (fst p) (snd p)) (filter (fun p => lineb (fst p) (snd p)) seen) /\
  ortho = map (fun p => swapped (fst p) (snd p)) (filter (fun p => negb (lineb (fst p) (snd p))) seen).
Definition nh_mem (st : nh_state) (p : Z * Z) : Prop := In p (fst (fst st)).

Lemma pair_mem_In : forall p l, pair_mem p l = true <-> In p l.
Proof.
  intros [x y] l. unfold pair_mem. rewrite existsb_exists. split.
  - intros ([a b] & H & K). apply andb_true_iff in K. cbn in K. rewrite !Z.eqb_eq in K. destruct K as [-> ->]. assumption.
  - intros H. exists (x, y). cbn. rewrite !Z.eqb_refl. auto.
Qed.

Lemma next_step_ok : forall h m st e, 0 <= h < n -> path n pos h m e -> nh_W st ->
  exists st', next_hop_step E c d h m st e = Ok st' /\ nh_W st' /\
    (forall p, nh_mem st' p <-> nh_mem st p \/ p = (h, e)).
Proof.
  intros h m [[seen col] ortho] e Hh P (W1 & W2 & W3). pose proof P as (_ & _ & He & _).
  unfold next_hop_step. destruct (d_index h Hh) as [i Hi], (d_index e He) as [j Hj]. rewrite Hi, Hj. cbn [bind].
  destruct (pair_mem (h, e) seen) eqn:M.
  - apply pair_mem_In in M. eexists. split; [reflexivity|]. split; [exact (conj W1 (conj W2 W3))|].
    intros p. unfold nh_mem. cbn. split; [auto|]. intros [K| ->]; assumption.
  - rewrite (py_set_id d h e i d_nodup Hi). cbn [bind]. rewrite (py_set_map d _ e h j d_nodup Hj). cbn [bind].
    rewrite (linear_ok h m e e m h P (perm_rev3 _ _ _)). cbn [bind].
    assert (Hc : reorder_basis_element c (map (fun z => if z =? e then h else if z =? h then e else z) d) = swapped h e).
    { apply reorder_describes. eapply eq_rect with (P := fun l => describes _ _ _ l _); [apply swap_describes; [exact Hh | exact He | exact Hd]|].
      apply map_ext. intros z. unfold tr. destruct (Z.eqb_spec z e), (Z.eqb_spec z h); subst; reflexivity. }
    rewrite Hc. assert (ND : NoDup (seen ++ [(h, e)])).
    { apply NoDup_app'; [assumption | repeat constructor; auto|]. intros x Hx [<-|[]].
      apply pair_mem_In in Hx. congruence. }
    destruct (lineb h e) eqn:L; (eexists; split; [reflexivity|]; split;
      [split; [exact ND|]; rewrite !filter_app, !map_app; cbn; rewrite L; cbn; rewrite ?app_nil_r, W2, W3; auto
      |intros p; unfold nh_mem; cbn; rewrite in_app_iff; cbn; intuition]).
Qed.

Lemma next_hopping_ok : exists ps, NoDup ps /\
  (forall h e, In (h, e) ps <-> s h = Hole /\ In h r0 /\ s e <> Hole /\ In e r1 /\ exists m, path n pos h m e) /\
  compute_next_hopping_integral E c d =
    Ok (map (fun p => swapped (fst p) (snd p)) (filter (fun p => lineb (fst p) (snd p)) ps),
        map (fun p => swapped (fst p) (snd p)) (filter (fun p => negb (lineb (fst p) (snd p))) ps)).
Proof.
  unfold compute_next_hopping_integral.
  destruct (idx_ok Hole 0) as (Ei & ND & I). change (spin_code Hole) with 0 in Ei. cbn [Z.eqb] in I.
  destruct (idx_ok Up 1) as (Eu & _ & Iu). change (spin_code Up) with 1 in Eu. cbn [Z.eqb] in Iu.
  destruct (idx_ok Down 1) as (Edn & _ & Idn). change (spin_code Down) with (-1) in Edn. cbn [Z.eqb] in Idn.
  destruct (Z.ltb_spec 0 (nholes c)) as [Hn|Hn].
  - rewrite Ei. cbn [bind].
    match goal with |- context [foldM ?F ?b ?l] =>
      destruct (foldM_collectW _ _ _ F nh_W nh_mem
        (fun h p => fst p = h /\ s (snd p) <> Hole /\ In (snd p) r1 /\ exists m, path n pos h m (snd p)) l b) as (st & Est & W & M) end.
    + intros st h Hh Wst. apply I in Hh. destruct Hh as ((Hh & Sh) & _).
      destruct (nba_ok h Hh) as (En & _ & Inb). fold bm. rewrite En. cbn [bind].
      match goal with |- exists b', foldM ?F ?b ?l = _ /\ _ =>
        destruct (foldM_collectW _ _ _ F nh_W nh_mem
          (fun m p => fst p = h /\ s (snd p) <> Hole /\ In (snd p) r1 /\ path n pos h m (snd p)) l b) as (st' & Est & W & M) end.
      * intros st1 m Hm Wst1. apply Inb in Hm. destruct Hm as (Hm & Am).
        destruct (nbr_ok m Hm) as (Em & _ & Im). rewrite Eu, Edn. cbn [bind]. rewrite Em. cbn [bind].
        assert (IL : forall e, In e (py_set_and E (idx Up 1 ++ idx Down 1) (nbr m)) <->
                      s e <> Hole /\ In e r1 /\ path n pos h m e).
        { intros e. rewrite in_set_and, in_app_iff, Iu, Idn, Im by exact HE. unfold path. split.
          - intros ([((H1 & H2) & H3)|((H1 & H2) & H3)] & H4 & H5 & H6); (split; [congruence|]); (split; [assumption|]);
            repeat (split; [assumption|]); (split; [intros <-; congruence|]); auto.
          - intros (H1 & H2 & H3 & H4 & H5 & H6 & H7 & H8). split; [|auto]. destruct (s e) eqn:Q; [contradiction|right|left]; auto. }
        match goal with |- exists b', foldM ?F ?b ?l = _ /\ _ =>
          destruct (foldM_collectW _ _ _ F nh_W nh_mem (fun e p => p = (h, e)) l b) as (st2 & Est2 & W2 & M2) end.
        { intros st2 e He Wst2. apply IL in He. apply next_step_ok; [assumption | apply He | assumption]. }
        { assumption. }
        exists st2. split; [assumption|]. split; [assumption|]. intros [h' e]. rewrite M2. cbn [fst snd]. split.
        -- intros [K|(x & Hx & [= -> ->])]; [auto|]. right. split; [reflexivity|]. apply IL. assumption.
        -- intros [K|(-> & K)]; [auto|]. right. exists e. split; [apply IL; assumption | reflexivity].
      * assumption.
      * exists st'. split; [assumption|]. split; [assumption|]. intros [h' e]. rewrite M. cbn [fst snd]. split.
        -- intros [K|(m & Hm & K1 & K2 & K3 & K4)]; [auto|]. right. split; [assumption|]. split; [assumption|]. split; [assumption|]. exists m; assumption.
        -- intros [K|(K1 & K2 & K3 & m & K4)]; [auto|]. right. exists m. split; [|auto]. apply Inb.
           destruct K4 as (_ & K5 & _ & _ & K6 & _). auto.
    + split; [constructor | split; reflexivity].
    + rewrite Est. destruct st as [[seen col] ortho]. cbn [bind]. destruct W as (W1 & W2 & W3).
      exists seen. split; [assumption|]. split; [|now rewrite W2, W3].
      intros h e. specialize (M (h, e)). unfold nh_mem in M. cbn [fst snd In] in M. rewrite M. split.
      * intros [[]|(x & Hx & <- & K1 & K2 & K3)]. apply I in Hx. destruct Hx as ((_ & K4) & K5). auto.
      * intros (K1 & K2 & K3 & K4 & m & K5). right. exists h. split; [apply I; destruct K5 as (K6 & _); auto|].
        split; [reflexivity|]. split; [assumption|]. split; [assumption|]. exists m; assumption.
  - exists []. split; [constructor|]. split; [|reflexivity]. intros h e. split; [intros []|].
    intros (K1 & K2 & _ & _ & m & K5). pose proof (nholes_zero Hn Hole 0 eq_refl) as Z. destruct K5 as (K6 & _).
    assert (Hin : In h (idx Hole 0)) by (apply I; auto). rewrite Z in Hin. destruct Hin.
Qed.

(** *** singlet displacement *)

Definition triple : Type := (Z * Z * Z)%type.
Definition sd_image (t : triple) : list Z * list Z := let '(h, m, e) := t in (shifted h m e, swapped h e).
Definition sd_line (t : triple) : bool := let '(h, m, e) := t in lineb h e.
Definition sd_rep (ts : list triple) (st : list (list Z * list Z) * list (list Z * list Z)) : Prop :=
  st = (map sd_image (filter sd_line ts), map sd_image (filter (fun t => negb (sd_line t)) ts)).

Lemma singlet_step_ok : forall h m ts st e, path n pos h m e -> sd_rep ts st ->
  exists st', singlet_step E c d h m st e = Ok st' /\ sd_rep (ts ++ [(h, m, e)]) st'.
Proof.
  intros h m ts [par per] e P R. pose proof P as (Hh & Hm & He & Nhe & A1 & A2). unfold sd_rep in R. injection R as -> ->.
  pose proof (adj_ne _ _ A1) as Nhm. pose proof (adj_ne _ _ A2) as Nme.
  unfold singlet_step. destruct (d_index h Hh) as [i Hi], (d_index m Hm) as [j Hj], (d_index e He) as [k Hk].
  rewrite Hi, Hj, Hk. cbn [bind].
  rewrite !(py_set_id d h e i d_nodup Hi). cbn [bind].
  rewrite !(py_set_map d _ m _ j d_nodup Hj). cbn [bind].
  rewrite !(py_set_map d _ e _ k d_nodup Hk). cbn [bind].
  rewrite (linear_ok h m e e m h P (perm_rev3 _ _ _)). cbn [bind].
  assert (C1 : reorder_basis_element c (map (fun z => if z =? e then m else if z =? m then h else if z =? h then e else z) d) = shifted h m e).
  { apply reorder_describes. eapply eq_rect with (P := fun l => describes _ _ _ l _);
      [apply (shift_describes _ _ _ _ _ h m e Hh Hm He Nhm Nhe Nme Hd)|].
    apply map_ext. intros z. unfold cyc. destruct (Z.eqb_spec z e), (Z.eqb_spec z m), (Z.eqb_spec z h); subst; congruence. }
  assert (C2 : reorder_basis_element c (map (fun z => if z =? e then h else if z =? m then m else if z =? h then e else z) d) = swapped h e).
  { apply reorder_describes. eapply eq_rect with (P := fun l => describes _ _ _ l _); [apply swap_describes; [exact Hh | exact He | exact Hd]|].
    apply map_ext. intros z. unfold tr. destruct (Z.eqb_spec z e), (Z.eqb_spec z m), (Z.eqb_spec z h); subst; congruence. }
  rewrite C1, C2. unfold sd_rep. rewrite !filter_app, !map_app. cbn [filter sd_line].
  destruct (lineb h e); cbn [negb map sd_image]; rewrite ?app_nil_r; eauto.
Qed.

Lemma opp_code : forall p, p <> Hole -> - spin_code p = spin_code (flip_particle p).
Proof. intros [| |] H; [congruence | reflexivity | reflexivity]. Qed.

Lemma opposite_flip : forall p q, opposite p q <-> p <> Hole /\ q = flip_particle p.
Proof. intros [| |] [| |]; unfold opposite; cbn; intuition congruence. Qed.

Definition sd_mids (h : Z) : list Z := py_set_and E (idx Up 1 ++ idx Down 1) (nbr h).
Definition sd_ends (m : Z) : list Z := py_set_and E (idx (flip_particle (s m)) 1) (nbr m).
Definition sd_triples : list triple :=
  flat_map (fun h => flat_map (fun m => map (fun e => (h, m, e)) (sd_ends m)) (sd_mids h)) (idx Hole 0).

Lemma in_sd_mids : forall h m, 0 <= h < n -> (In m (sd_mids h) <-> 0 <= m < n /\ s m <> Hole /\ In m r1 /\ adjacent (pos h) (pos m)).
Proof.
  intros h m Hh. destruct (idx_ok Up 1) as (_ & _ & Iu). destruct (idx_ok Down 1) as (_ & _ & Idn). cbn [Z.eqb] in Iu, Idn.
  unfold sd_mids. rewrite in_set_and, in_app_iff, Iu, Idn, (proj2 (proj2 (nbr_ok h Hh))) by exact HE. split.
  - intros ([((H1 & H2) & H3)|((H1 & H2) & H3)] & H4 & H5 & H6); (split; [assumption|]); (split; [congruence|]); auto.
  - intros (H1 & H2 & H3 & H4). split; [|auto]. destruct (s m); [contradiction|right|left]; auto.
Qed.

Lemma in_sd_ends : forall m e, 0 <= m < n -> (In e (sd_ends m) <-> 0 <= e < n /\ s e = flip_particle (s m) /\ In e r1 /\ adjacent (pos m) (pos e)).
Proof.
  intros m e Hm. destruct (idx_ok (flip_particle (s m)) 1) as (_ & _ & I). cbn [Z.eqb] in I.
  unfold sd_ends. rewrite in_set_and, I, (proj2 (proj2 (nbr_ok m Hm))) by exact HE. intuition.
Qed.

Lemma sd_path : forall h m e, In h (idx Hole 0) -> In m (sd_mids h) -> In e (sd_ends m) -> path n pos h m e.
Proof.
  intros h m e Hh Hm He. apply (proj2 (proj2 (idx_ok Hole 0))) in Hh. destruct Hh as ((Hh & Sh) & _).
  apply (in_sd_mids h m Hh) in Hm. destruct Hm as (Hm & Sm & _ & A1). apply (in_sd_ends m e Hm) in He.
  destruct He as (He & Se & _ & A2). repeat (split; [assumption|]). split; [|auto].
  intros <-. rewrite Sh in Se. destruct (s m); cbn in Se; congruence.
Qed.

Lemma singlet_ok :
  compute_singlet_displacement E c d =
    Ok (map sd_image (filter sd_line sd_triples), map sd_image (filter (fun t => negb (sd_line t)) sd_triples)).
Proof.
  unfold compute_singlet_displacement.
  destruct (idx_ok Hole 0) as (Ei & ND & I). change (spin_code Hole) with 0 in Ei. cbn [Z.eqb] in I.
  destruct (idx_ok Up 1) as (Eu & _ & Iu). change (spin_code Up) with 1 in Eu.
  destruct (idx_ok Down 1) as (Edn & _ & Idn). change (spin_code Down) with (-1) in Edn.
  rewrite Ei. cbn [bind].
  match goal with |- foldM ?F ?b ?l = _ =>
    destruct (foldM_ghost _ _ _ F (fun h => flat_map (fun m => map (fun e => (h, m, e)) (sd_ends m)) (sd_mids h)) sd_rep l [] b) as (st & Est & R) end.
  - intros ts st h Hh R. pose proof Hh as Hh0. apply I in Hh. destruct Hh as ((Hh & Sh) & _).
    destruct (nbr_ok h Hh) as (En & _ & _). fold bm. rewrite En, Eu, Edn. cbn [bind].
    change (py_set_and E (idx Up 1 ++ idx Down 1) (nbr h)) with (sd_mids h).
    apply (foldM_ghost _ _ _ _ (fun m => map (fun e => (h, m, e)) (sd_ends m)) sd_rep); [|assumption].
    intros ts1 st1 m Hm R1. pose proof Hm as Hm0. apply (in_sd_mids h m Hh) in Hm. destruct Hm as (Hm & Sm & _).
    rewrite (spin_site_ok c d s m Hd Hm). cbn [bind]. destruct (nbr_ok m Hm) as (Em & _). rewrite Em. cbn [bind].
    rewrite (opp_code _ Sm). destruct (idx_ok (flip_particle (s m)) 1) as (Ef & _). rewrite Ef. cbn [bind].
    change (py_set_and E (idx (flip_particle (s m)) 1) (nbr m)) with (sd_ends m).
    assert (K : map (fun e => (h, m, e)) (sd_ends m) = flat_map (fun e => [(h, m, e)]) (sd_ends m)).
    { generalize (sd_ends m). intros l. induction l as [|e l IH]; cbn; [reflexivity | now rewrite IH]. }
    rewrite K. apply (foldM_ghost _ _ _ _ (fun e => [(h, m, e)]) sd_rep); [|assumption].
    intros ts2 st2 e He R2. apply singlet_step_ok; [apply sd_path|]; assumption.
  - reflexivity.
  - rewrite Est. unfold sd_rep in R. rewrite R. reflexivity.
Qed.

Lemma sd_triples_ok : NoDup sd_triples /\
  (forall h m e, In (h, m, e) sd_triples <->
    s h = Hole /\ In h r0 /\ In m r1 /\ In e r1 /\ opposite (s m) (s e) /\ path n pos h m e).
Proof.
  destruct (idx_ok Hole 0) as (_ & ND & I). cbn [Z.eqb] in I. split.
  - apply NoDup_flat_map; [assumption| |].
    + intros h Hh. apply I in Hh. destruct Hh as ((Hh & _) & _). apply NoDup_flat_map.
      * apply set_and_NoDup, HE.
      * intros m Hm. apply FinFun.Injective_map_NoDup; [intros a b [= ->]; reflexivity | apply set_and_NoDup, HE].
      * intros x y z _ _ H1 H2. apply in_map_iff in H1, H2. destruct H1 as (a & <- & _), H2 as (b & [= -> _] & _). reflexivity.
    + intros x y z _ _ H1 H2. apply in_flat_map in H1, H2. destruct H1 as (m & _ & H1), H2 as (m' & _ & H2).
      apply in_map_iff in H1, H2. destruct H1 as (a & <- & _), H2 as (b & [= -> _ _] & _). reflexivity.
  - intros h m e. unfold sd_triples. rewrite in_flat_map. split.
    + intros (x & Hx & H). apply in_flat_map in H. destruct H as (y & Hy & H). apply in_map_iff in H.
      destruct H as (z & [= -> -> ->] & Hz). pose proof (sd_path h m e Hx Hy Hz) as P. apply I in Hx.
      destruct Hx as ((Hh & Sh) & Rh). apply (in_sd_mids h m Hh) in Hy. destruct Hy as (Hm & Sm & Rm & _).
      apply (in_sd_ends m e Hm) in Hz. destruct Hz as (_ & Se & Re & _).
      do 4 (split; [assumption|]). split; [|assumption]. apply opposite_flip. auto.
    + intros (Sh & Rh & Rm & Re & O & P). apply opposite_flip in O. destruct O as [Sm Se].
      pose proof P as (Hh & Hm & He & _ & A1 & A2). exists h. split; [apply I; auto|]. apply in_flat_map.
      exists m. split; [apply in_sd_mids; auto|]. apply in_map_iff. exists e. split; [reflexivity|]. apply in_sd_ends; auto.
Qed.

End Det.
