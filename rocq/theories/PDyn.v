(** The dictionary of couplings of one determinant. *)
From Coq Require Import ZArith List Bool Lia Permutation QArith Qcanon.
From Verif Require Import PyBase PyFacts Lattice Base Interact Spec SpecOps SpecTJ Geometry
  PBasis PSites PRot PMat PGeo PInter PSpin PRep FGeo FBasis FSites FInter POps.
Import ListNotations.
Open Scope Z_scope.

(** ** dictionaries *)
Definition dict_step (dict : list (list Z * Qc)) (kx : list Z * Qc) : list (list Z * Qc) := dict_add dict (fst kx) (snd kx).
Definition total (k : list Z) (l : list (list Z * Qc)) : Qc := qsum (fun kx => only (zlist_eqb (fst kx) k) (snd kx)) l.

Lemma zlist_eqb_refl : forall k, zlist_eqb k k = true.
Proof. intros k. now apply zlist_eqb_eq. Qed.

Lemma dict_add_keys : forall dict k x y, In y (map fst (dict_add dict k x)) <-> In y (map fst dict) \/ y = k.
Proof.
  induction dict as [|[k' v] dict IH]; intros k x y; cbn [dict_add map fst In].
  - intuition.
  - destruct (zlist_eqb k' k) eqn:Q.
    + apply zlist_eqb_eq in Q. subst k'. cbn [map fst In]. intuition.
    + cbn [map fst In]. rewrite IH. tauto.
Qed.

Lemma dict_add_NoDup : forall dict k x, NoDup (map fst dict) -> NoDup (map fst (dict_add dict k x)).
Proof.
  induction dict as [|[k' v] dict IH]; intros k x H; cbn [dict_add map fst] in *.
  - constructor; [intros [] | constructor].
  - inversion H as [|? ? A B]; subst. destruct (zlist_eqb k' k) eqn:Q; cbn [map fst]; [assumption|].
    constructor; [|now apply IH]. rewrite dict_add_keys. intros [C| ->]; [contradiction|]. rewrite zlist_eqb_refl in Q. discriminate.
Qed.

Lemma dict_add_value : forall dict k x y v, NoDup (map fst dict) -> In (y, v) (dict_add dict k x) ->
  (y <> k /\ In (y, v) dict) \/ (y = k /\ ((exists v0, In (k, v0) dict /\ v = (v0 + x)%Qc) \/ (~ In k (map fst dict) /\ v = x))).
Proof.
  induction dict as [|[k' w] dict IH]; intros k x y v H Hin; cbn [dict_add map fst In] in *.
  - destruct Hin as [[= <- <-]|[]]. right. split; [reflexivity|]. right. auto.
  - inversion H as [|? ? A B]; subst. destruct (zlist_eqb k' k) eqn:Q.
    + apply zlist_eqb_eq in Q. subst k'. destruct Hin as [[= <- <-]|Hin].
      * right. split; [reflexivity|]. left. exists w. auto.
      * left. split; [|auto]. intros ->. apply A. apply in_map_iff. exists (k, v). auto.
    + assert (N : k' <> k) by (intros ->; rewrite zlist_eqb_refl in Q; discriminate). destruct Hin as [[= <- <-]|Hin].
      * left. auto.
      * destruct (IH k x y v B Hin) as [[C D]|[C [(v0 & D & F)|[D F]]]].
        -- left. auto.
        -- right. split; [assumption|]. left. eauto.
        -- right. split; [assumption|]. right. split; [|assumption]. intros [G|G]; auto.
Qed.

Lemma dict_fold : forall l, let dict := fold_left dict_step l [] in
  NoDup (map fst dict) /\ (forall k, In k (map fst dict) <-> In k (map fst l)) /\ (forall k x, In (k, x) dict -> x = total k l).
Proof.
  intros l. induction l as [|[k0 x0] l IH] using rev_ind; cbn zeta.
  - split; [constructor|]. split; [reflexivity|]. intros k x [].
  - destruct IH as (ND & I & V). rewrite fold_left_app. cbn [fold_left]. set (dict := fold_left dict_step l []) in *. unfold dict_step. cbn [fst snd]. split; [|split].
    + now apply dict_add_NoDup.
    + intros k. rewrite dict_add_keys, I, map_app, in_app_iff. cbn [map fst In]. intuition.
    + intros k x H. apply dict_add_value in H; [|assumption]. unfold total in *. rewrite qsum_app, qsum_one. cbn [fst snd].
      destruct H as [[N H]|[-> [(v0 & H & ->)|[N ->]]]].
      * rewrite (V k x H). destruct (zlist_eqb k0 k) eqn:Q; [apply zlist_eqb_eq in Q; congruence|]. cbn [only]. ring.
      * rewrite (V k0 v0 H), zlist_eqb_refl. reflexivity.
      * rewrite zlist_eqb_refl. cbn [only]. rewrite qsum_zero; [ring|]. intros [k x] Hk. cbn [fst snd].
        destruct (zlist_eqb k k0) eqn:Q; [|reflexivity]. apply zlist_eqb_eq in Q. subst k. exfalso. apply N, I. apply in_map_iff. exists (k0, x). auto.
Qed.

Lemma fold_flat : forall A B C (f : B -> C -> B) (g : A -> list C) l b,
  fold_left (fun b x => fold_left f (g x) b) l b = fold_left f (flat_map g l) b.
Proof. intros A B C f g l. induction l as [|x l IH]; intros b; cbn [fold_left flat_map]; [reflexivity|]. now rewrite fold_left_app, IH. Qed.

Lemma fold_map : forall A B C (f : B -> C -> B) (g : A -> C) l b, fold_left (fun b x => f b (g x)) l b = fold_left f (map g l) b.
Proof. intros A B C f g l. induction l as [|x l IH]; intros b; cbn [fold_left map]; [reflexivity|]. apply IH. Qed.

Definition flat_events (ev : list (list (list Z) * Qc)) : list (list Z * Qc) := flat_map (fun e => map (fun k => (k, snd e)) (fst e)) ev.
Definition flat_pairs (ev : list (list (list Z * list Z) * Qc)) : list (list Z * Qc) :=
  flat_map (fun e => flat_map (fun pm => [(fst pm, snd e); (snd pm, (- snd e)%Qc)]) (fst e)) ev.

Lemma fold_left_ext : forall A B (f g : B -> A -> B) l b, (forall b x, f b x = g b x) -> fold_left f l b = fold_left g l b.
Proof. intros A B f g l. induction l as [|x l IH]; intros b H; cbn [fold_left]; [reflexivity|]. now rewrite H, IH. Qed.

Lemma events_fold : forall ev b,
  fold_left (fun dict ev => fold_left (fun dict k => dict_add dict k (snd ev)) (fst ev) dict) ev b = fold_left dict_step (flat_events ev) b.
Proof.
  intros ev b. unfold flat_events. rewrite <- fold_flat. apply fold_left_ext. intros b0 e. rewrite <- fold_map. reflexivity.
Qed.

Lemma pairs_fold : forall ev b,
  fold_left (fun dict ev => fold_left (fun dict pm => dict_add (dict_add dict (fst pm) (snd ev)) (snd pm) (- snd ev)%Qc) (fst ev) dict) ev b
  = fold_left dict_step (flat_pairs ev) b.
Proof.
  intros ev b. unfold flat_pairs. rewrite <- fold_flat. apply fold_left_ext. intros b0 e. rewrite <- fold_flat. reflexivity.
Qed.

(** ** couplings *)
Section Dyn.
Variables (E : runtime) (c : configuration) (w : Z) (r : list Z) (K : interactions) (d : list Z) (s : occupation).
Hypothesis HE : set_iter_ok E.
Hypothesis RM : row_major c w.
Hypothesis HR : sites_restriction c = RTuple r r.
Hypothesis Hd : conf_describes c d s.
Let n := nsites c.
Variable L : lattice.
Hypothesis HLs : lat_size L = n.
Hypothesis HLp : forall x, 0 <= x < n -> lat_pos L x = point w x.
Hypothesis HLf : forall x, 0 <= x < n -> (lat_from L x = true <-> In x r).
Hypothesis HLt : forall x, 0 <= x < n -> (lat_to L x = true <-> In x r).
Let HD : drawn c (point w) := row_major_drawn c w RM.
Let HL : straightness_decided E c (point w) := row_major_straight E c w RM.
Let pos := point w.
Let sec := in_sector n (nholes c) (nbeta c).

Definition tms : Type := list (Qc * occupation).
Definition keyed (ts : tms) : list (list Z * Qc) := map (fun xt => (canon (nsites c) (snd xt), fst xt)) ts.
Definition ampl (ts : tms) (t : occupation) : Qc := qsum (fun xt => only (sameb (nsites c) t (snd xt)) (fst xt)) ts.

(** [l] lists couplings of [op] to the states of [P] *)
Definition lists (l : list (list Z * Qc)) (op : occupation -> Qc) (P : occupation -> Prop) : Prop :=
  exists ts, Permutation l (keyed ts) /\ (forall x t, In (x, t) ts -> in_sector (nsites c) (nholes c) (nbeta c) t) /\ (forall t, ampl ts t = op t) /\
    (forall t, P t <-> exists x, In (x, t) ts).

Lemma bonded_adj : forall x y, 0 <= x < n -> 0 <= y < n -> (bonded L x y = true <-> adjacent (pos x) (pos y)).
Proof. intros x y Hx Hy. unfold bonded. rewrite (HLp x Hx), (HLp y Hy). apply bondb_iff. Qed.

Lemma swap_sec : forall x y, 0 <= x < n -> 0 <= y < n -> sec (swap_state x y s).
Proof. intros x y Hx Hy. eapply describes_sector. apply (swap_describes _ _ _ d); assumption. Qed.

Lemma shift_sec : forall h m e, path n pos h m e -> sec (shift_state h m e s).
Proof.
  intros h m e (H1 & H2 & H3 & N & A1 & A2). eapply describes_sector.
  apply (shift_describes _ _ _ d); try assumption; eapply adj_ne; eassumption.
Qed.

Lemma lists_app : forall l1 l2 o1 o2 P1 P2, lists l1 o1 P1 -> lists l2 o2 P2 ->
  lists (l1 ++ l2) (fun t => (o1 t + o2 t)%Qc) (fun t => P1 t \/ P2 t).
Proof.
  intros l1 l2 o1 o2 P1 P2 (t1 & A1 & B1 & C1 & D1) (t2 & A2 & B2 & C2 & D2). exists (t1 ++ t2). split; [|split; [|split]].
  - unfold keyed. rewrite map_app. now apply Permutation_app.
  - intros x t H. apply in_app_iff in H. destruct H; eauto.
  - intros t. unfold ampl in *. now rewrite qsum_app, C1, C2.
  - intros t. rewrite D1, D2. split.
    + intros [(x & H)|(x & H)]; exists x; apply in_app_iff; auto.
    + intros (x & H). apply in_app_iff in H. destruct H; eauto.
Qed.

Lemma lists_nil : lists [] (fun _ => 0%Qc) (fun _ => False).
Proof.
  exists []. split; [apply Permutation_refl|]. split; [intros x t []|]. split; [reflexivity|]. intros t. split; [intros [] | intros (x & [])].
Qed.

Lemma lists_if : forall (b : bool) l o P, (b = true -> lists l o P) ->
  lists (if b then l else []) (fun t => only b (o t)) (fun t => b = true /\ P t).
Proof.
  intros [|] l o P H.
  - destruct (H eq_refl) as (ts & A & B & C & D). exists ts. split; [assumption|]. split; [assumption|]. split; [assumption|]. intros t. rewrite <- D. tauto.
  - destruct lists_nil as (ts & A & B & C & D). exists ts. split; [assumption|]. split; [assumption|]. split; [assumption|]. intros t. rewrite <- D. intuition discriminate.
Qed.

(** moves along pairs, sorted by coupling *)
Lemma lists_pairs : forall ps (P : Z -> Z -> bool) (f : Z -> Z -> Qc) l, NoDup ps ->
  (forall i j, In (i, j) ps <-> 0 <= i < n /\ 0 <= j < n /\ P i j = true) ->
  Permutation l (map (fun p => (canon n (swap_state (fst p) (snd p) s), f (fst p) (snd p))) ps) ->
  lists l (fun t => sum_sites n (fun i => sum_sites n (fun j => only (P i j && sameb n t (swap_state i j s)) (f i j))))
    (fun t => exists i j, 0 <= i < n /\ 0 <= j < n /\ P i j = true /\ t = swap_state i j s).
Proof.
  intros ps P f l ND I Pl.
  exists (map (fun p => (f (fst p) (snd p), swap_state (fst p) (snd p) s)) ps). split; [|split; [|split]].
  - unfold keyed. rewrite map_map. exact Pl.
  - intros x t H. apply in_map_iff in H. destruct H as ([i j] & [= <- <-] & H). apply I in H. apply swap_sec; apply H.
  - intros t. unfold ampl. rewrite qsum_map. cbn [fst snd]. rewrite (sum_pairs n ps P) by assumption.
    apply sum_sites_ext. intros i _. apply sum_sites_ext. intros j _. cbn [fst snd]. fold n. now rewrite only_and.
  - intros t. split.
    + intros (i & j & H1 & H2 & H3 & ->). exists (f i j). apply in_map_iff. exists (i, j). split; [reflexivity|]. apply I. auto.
    + intros (x & H). apply in_map_iff in H. destruct H as ([i j] & [= <- <-] & H). apply I in H. exists i, j. tauto.
Qed.

Lemma perm_split2 : forall A B (f g h : A -> B) (P : A -> bool) l, (forall x, P x = true -> f x = h x) -> (forall x, P x = false -> g x = h x) ->
  Permutation (map f (filter P l) ++ map g (filter (fun x => negb (P x)) l)) (map h l).
Proof.
  intros A B f g h P l H1 H2. induction l as [|x l IH]; cbn [filter map]; [apply Permutation_refl|]. destruct (P x) eqn:Q; cbn [negb map app].
  - rewrite H1 by assumption. now constructor.
  - rewrite H2 by assumption. symmetry. apply Permutation_cons_app. now symmetry.
Qed.

Lemma not_hole : forall x, s x <> Hole -> holeb (s x) = false.
Proof. intros x H. destruct (holeb (s x)) eqn:Q; [apply holeb_iff in Q; contradiction | reflexivity]. Qed.
Lemma hole_not : forall x, holeb (s x) = false -> s x <> Hole.
Proof. intros x H Q. rewrite Q in H. discriminate. Qed.

Lemma hop_lists : exists ims, compute_hopping_integral E c d = Ok ims /\
  lists (flat_events [(ims, i_t K)]) (op_hop L K s)
    (fun t => exists h e, 0 <= h < n /\ 0 <= e < n /\ lat_from L h && lat_to L e && bonded L h e && holeb (s h) && negb (holeb (s e)) = true /\ t = swap_state h e s).
Proof.
  destruct (hop_pairs_ok E c pos r r d s HE HD HR Hd) as (ND & I).
  eexists. split; [apply (hopping_ok E c pos r r d s HE HD HR Hd)|]. unfold op_hop. rewrite HLs.
  apply (lists_pairs (hop_pairs E c d)); [assumption| |].
  - intros h e. rewrite I. fold n. split.
    + intros (H1 & H2 & H3 & H4 & H5 & H6 & H7). split; [assumption|]. split; [assumption|].
      rewrite !andb_true_iff, negb_true_iff, holeb_iff, HLf, HLt, bonded_adj by assumption.
      assert (N : holeb (s e) = false) by (apply not_hole; tauto). auto.
    + intros (H1 & H2 & H3). rewrite !andb_true_iff, negb_true_iff, holeb_iff, HLf, HLt, bonded_adj in H3 by assumption.
      destruct H3 as ((((A & B) & C) & F) & G). repeat (split; [assumption|]). split; [|assumption].
      intros [Q _]. rewrite Q in G. discriminate.
  - unfold flat_events. cbn [flat_map fst snd]. rewrite app_nil_r, map_map. apply Permutation_refl.
Qed.

Lemma two_bonds_path : forall x y, 0 <= x < n -> 0 <= y < n -> x <> y ->
  (two_bonds L x y = true <-> exists m, path n pos x m y).
Proof.
  intros x y Hx Hy N. unfold two_bonds. rewrite existsb_exists. rewrite HLs. split.
  - intros (m & Hm & H). apply in_sites in Hm. apply andb_true_iff in H. destruct H as [H1 H2].
    apply bonded_adj in H1; [|assumption|assumption]. apply bonded_adj in H2; [|assumption|assumption].
    exists m. repeat (split; [assumption|]). assumption.
  - intros (m & _ & Hm & _ & _ & A1 & A2). exists m. rewrite in_sites, andb_true_iff, !bonded_adj by assumption. auto.
Qed.

Lemma lineb_pos : forall x y, 0 <= x < n -> 0 <= y < n -> lineb pos x y = lineb2 (lat_pos L x) (lat_pos L y).
Proof. intros x y Hx Hy. rewrite !HLp by assumption. reflexivity. Qed.

Lemma next_lists : exists col ortho, compute_next_hopping_integral E c d = Ok (col, ortho) /\
  lists (flat_events [(col, i_tnNNN K); (ortho, i_tNNN K)]) (op_next_hop L K s)
    (fun t => exists h e, 0 <= h < n /\ 0 <= e < n /\ lat_from L h && lat_to L e && two_bonds L h e && holeb (s h) && negb (holeb (s e)) = true /\ t = swap_state h e s).
Proof.
  destruct (next_hopping_ok E c pos r r d s HE HD HR Hd HL) as (ps & ND & I & Ec).
  eexists _, _. split; [exact Ec|]. unfold op_next_hop. rewrite HLs.
  apply (lists_pairs ps); [assumption| |].
  - intros h e. rewrite I. fold n. split.
    + intros (H1 & H2 & H3 & H4 & m & H5). pose proof H5 as (Rh & _ & Re & Ne & _).
      split; [assumption|]. split; [assumption|].
      rewrite !andb_true_iff, negb_true_iff, holeb_iff, HLf, HLt, two_bonds_path by assumption.
      pose proof (not_hole e H3). eauto 10.
    + intros (H1 & H2 & H3). rewrite !andb_true_iff, negb_true_iff, holeb_iff in H3.
      destruct H3 as ((((A & B) & C) & F) & G).
      assert (Ne : h <> e) by (intros ->; rewrite F in G; discriminate).
      rewrite HLf in A by assumption. rewrite HLt in B by assumption. rewrite two_bonds_path in C by assumption.
      split; [assumption|]. split; [assumption|]. split; [now apply hole_not|auto].
  - unfold flat_events. cbn [flat_map fst snd]. rewrite app_nil_r, !map_map.
    assert (RG : forall p, In p ps -> 0 <= fst p < n /\ 0 <= snd p < n).
    { intros [h e] H. apply I in H. destruct H as (_ & _ & _ & _ & m & H). split; apply H. }
    rewrite (map_ext_in (fun p => (canon n (swap_state (fst p) (snd p) s), if lineb2 (lat_pos L (fst p)) (lat_pos L (snd p)) then i_tnNNN K else i_tNNN K))
      (fun p => (canon n (swap_state (fst p) (snd p) s), if lineb pos (fst p) (snd p) then i_tnNNN K else i_tNNN K))).
    2:{ intros p Hp. destruct (RG p Hp). now rewrite lineb_pos. }
    apply perm_split2; intros p ->; reflexivity.
Qed.

Lemma perm_split3 : forall A B (f1 f2 f3 h : A -> B) (k : A -> doping) l,
  (forall x, k x = Aligned -> f1 x = h x) -> (forall x, k x = Beside -> f2 x = h x) -> (forall x, k x = Away -> f3 x = h x) ->
  Permutation (map f1 (filter (fun x => match k x with Aligned => true | _ => false end) l) ++
               map f2 (filter (fun x => match k x with Beside => true | _ => false end) l) ++
               map f3 (filter (fun x => match k x with Away => true | _ => false end) l)) (map h l).
Proof.
  intros A B f1 f2 f3 h k l H1 H2 H3. induction l as [|x l IH]; cbn [filter map]; [apply Permutation_refl|]. destruct (k x) eqn:Q; cbn [map app].
  - rewrite H1 by assumption. now constructor.
  - rewrite H2 by assumption. symmetry. apply Permutation_cons_app. now symmetry.
  - rewrite H3 by assumption. symmetry. rewrite app_assoc. apply Permutation_cons_app. rewrite <- app_assoc. now symmetry.
Qed.

Lemma flip_lists : exists par per und, compute_spin_flip E c d = Ok (par, per, und) /\
  lists (flat_events [(par, i_Jhpar K); (per, i_Jhper K); (und, i_J K)]) (fun t => (op_flip L K s t + op_flip L K s t)%Qc)
    (fun t => exists i j, 0 <= i < n /\ 0 <= j < n /\ spin_bond L s i j = true /\ t = swap_state i j s).
Proof.
  destruct (spin_bonds_ok E c pos r r s HE HD HR) as (ND & I).
  eexists _, _, _. split; [apply (spin_flip_ok E c pos r r d s HE HD HR Hd (bond_doping L s))|].
  { intros i j Hij Hj A O. apply (rect_flip_class E c w r r); try assumption.
    * destruct O as [[-> _]|[-> _]]; discriminate.
    * destruct O as [[_ ->]|[_ ->]]; discriminate. }
  match goal with |- lists ?l _ _ =>
    assert (G : lists l (fun t => sum_sites n (fun i => sum_sites n (fun j => only (spin_bond L s i j && sameb n t (swap_state i j s)) (exchange K (bond_doping L s i j)))))
      (fun t => exists i j, 0 <= i < n /\ 0 <= j < n /\ spin_bond L s i j = true /\ t = swap_state i j s)) end.
  { apply (lists_pairs (spin_bonds E c s)); [assumption| |].
    - intros i j. split.
      + intros H. pose proof H as H0. apply I in H0. assert (0 <= i < n /\ 0 <= j < n) as [Hi Hj] by (unfold n; lia).
        split; [assumption|]. split; [assumption|]. apply (spin_bond_iff E c pos r r s HE HD HR L HLp HLf HLt) in H; assumption.
      + intros (Hi & Hj & H). apply (spin_bond_iff E c pos r r s HE HD HR L HLp HLf HLt); assumption.
    - unfold flat_events, flip_images. cbn [flat_map fst snd]. rewrite app_nil_r, !map_map.
      apply (perm_split3 _ _ _ _ _ _ (fun b => bond_doping L s (fst b) (snd b))); intros b ->; reflexivity. }
  destruct G as (ts & A & B & C & D). exists ts. split; [assumption|]. split; [assumption|]. split; [|assumption].
  intros t. rewrite C. unfold op_flip. rewrite HLs, <- sum_sites_add. apply sum_sites_ext. intros i _. rewrite <- sum_sites_add.
  apply sum_sites_ext. intros j _. destruct (_ && _); cbn [only]; [|reflexivity].
  transitivity ((half + half) * exchange K (bond_doping L s i j))%Qc; [|ring].
  replace (half + half)%Qc with 1%Qc by (apply Qc_is_canon; reflexivity). ring.
Qed.

Lemma flat_filter2 : forall A B (f g h : A -> list B) (P : A -> bool) l, (forall x, P x = true -> f x = h x) -> (forall x, P x = false -> g x = h x) ->
  Permutation (flat_map f (filter P l) ++ flat_map g (filter (fun x => negb (P x)) l)) (flat_map h l).
Proof.
  intros A B f g h P l H1 H2. induction l as [|x l IH]; cbn [filter flat_map]; [apply Permutation_refl|]. destruct (P x) eqn:Q; cbn [negb flat_map].
  - rewrite H1, <- app_assoc by assumption. now apply Permutation_app_head.
  - rewrite H2 by assumption. rewrite Permutation_app_swap_app. now apply Permutation_app_head.
Qed.

Lemma singlet_lists : exists par per, compute_singlet_displacement E c d = Ok (par, per) /\
  lists (flat_pairs [(par, i_hSDpar K); (per, i_hSDper K)]) (op_singlet L K s)
    (fun t => exists h m e, 0 <= h < n /\ 0 <= m < n /\ 0 <= e < n /\
       lat_from L h && lat_to L m && lat_to L e && bonded L h m && bonded L m e && holeb (s h) && oppositeb (s m) (s e) = true /\
       (t = shift_state h m e s \/ t = swap_state h e s)).
Proof.
  destruct (sd_triples_ok E c pos r r d s HE HD HR Hd) as (ND & I).
  eexists _, _. split; [apply (singlet_ok E c pos r r d s HE HD HR Hd HL)|].
  set (ts := sd_triples E c d s) in *.
  assert (I' : forall h m e, In (h, m, e) ts <-> 0 <= h < n /\ 0 <= m < n /\ 0 <= e < n /\
     lat_from L h && lat_to L m && lat_to L e && bonded L h m && bonded L m e && holeb (s h) && oppositeb (s m) (s e) = true).
  { intros h m e. rewrite I. fold n. split.
    * intros (H1 & H2 & H3 & H4 & H5 & H6). pose proof H6 as (Rh & Rm & Re & Ne & A1 & A2).
      repeat (split; [assumption|]).
      rewrite !andb_true_iff, holeb_iff, oppositeb_iff, HLf, !HLt, !bonded_adj by assumption. auto 10.
    * intros (H1 & H2 & H3 & H4). rewrite !andb_true_iff, holeb_iff, oppositeb_iff in H4.
      destruct H4 as ((((((A & B) & C) & F) & G) & O) & Q).
      rewrite HLf in A by assumption. rewrite HLt in B by assumption. rewrite HLt in C by assumption.
      rewrite bonded_adj in F by assumption. rewrite bonded_adj in G by assumption.
      repeat (split; [assumption|]).
      split; [intros ->; destruct Q as [[_ Q]|[_ Q]]; congruence|]. auto. }
  set (x := fun t : Z * Z * Z => let '(h, m, e) := t in if lineb pos h e then i_hSDpar K else i_hSDper K).
  set (g := fun t : Z * Z * Z => let '(h, m, e) := t in [(x t, shift_state h m e s); ((- x t)%Qc, swap_state h e s)]).
  exists (flat_map g ts). split; [|split; [|split]].
  - unfold flat_pairs. cbn [flat_map fst snd]. rewrite app_nil_r.
    assert (FM : forall A B C (f : A -> B) (q : B -> list C) l, flat_map q (map f l) = flat_map (fun a => q (f a)) l).
    { intros A B C f q l. induction l as [|a l IH]; cbn; [reflexivity | now rewrite IH]. }
    rewrite !FM. unfold keyed.
    assert (MF : forall A B C (f : B -> C) (q : A -> list B) l, map f (flat_map q l) = flat_map (fun a => map f (q a)) l).
    { intros A B C f q l. induction l as [|a l IH]; cbn; [reflexivity | now rewrite map_app, IH]. }
    rewrite MF. apply flat_filter2; intros [[h m] e] Q; unfold g, x; cbn [sd_line] in Q; rewrite Q; reflexivity.
  - intros y t H. apply in_flat_map in H. destruct H as ([[h m] e] & Hin & H). pose proof Hin as H0. apply I in H0.
    destruct H0 as (_ & _ & _ & _ & _ & P). destruct H as [[= <- <-]|[[= <- <-]|[]]].
    + now apply shift_sec.
    + apply swap_sec; apply P.
  - intros t. unfold ampl. rewrite qsum_flat_map. unfold op_singlet. rewrite HLs.
    rewrite (sum_triples n ts (fun h m e => lat_from L h && lat_to L m && lat_to L e && bonded L h m && bonded L m e && holeb (s h) && oppositeb (s m) (s e))) by assumption.
    apply sum_sites_ext. intros h Hh0. apply sum_sites_ext. intros m Hm0. apply sum_sites_ext. intros e He0. fold n.
    unfold g, x. rewrite !qsum_cons, !qsum_nil. cbn [fst snd]. rewrite lineb_pos by assumption.
    destruct (_ && oppositeb (s m) (s e)); cbn [only]; [|reflexivity].
    destruct (lineb2 (lat_pos L h) (lat_pos L e));
      destruct (sameb n t (shift_state h m e s)), (sameb n t (swap_state h e s)); cbn [only]; ring.
  - intros t. split.
    + intros (h & m & e & H1 & H2 & H3 & H4 & [-> | ->]); [exists (x (h, m, e)) | exists (- x (h, m, e))%Qc];
        apply in_flat_map; exists (h, m, e); (split; [apply I'; auto | cbn; auto]).
    + intros (y & H). apply in_flat_map in H. destruct H as ([[h m] e] & Hin & H). apply I' in Hin. exists h, m, e.
      destruct Hin as (A1 & A2 & A3 & A4). repeat (split; [assumption|]). destruct H as [[= _ <-]|[[= _ <-]|[]]]; auto.
Qed.

(** the whole dictionary *)
Lemma dynamic_ok : forall S, exists dict, compute_dynamic_interactions E c K S d = Ok dict /\
  NoDup (map fst dict) /\
  (forall k, In k (map fst dict) <-> exists t, reached L S s t /\ determinant_of n (nholes c) (nbeta c) k t) /\
  (forall k x t, In (k, x) dict -> describes n (nholes c) (nbeta c) k t ->
     x = (tj_element L K (dynamic S) s t + only (s_bij S) (op_flip L K s t))%Qc) /\
  (forall t, sec t -> (forall k, determinant_of n (nholes c) (nbeta c) k t -> ~ In k (map fst dict)) ->
     (tj_element L K (dynamic S) s t + only (s_bij S) (op_flip L K s t))%Qc = 0%Qc).
Proof.
  intros S. destruct hop_lists as (ih & Eh & Lh). destruct next_lists as (ic & io & En & Ln).
  destruct flip_lists as (fa & fb & fu & Ef & Lf). destruct singlet_lists as (sa & sp & Es & Ls).
  set (evt := if s_bt S then [(ih, i_t K)] else []).
  set (evn := if s_btN S then [(ic, i_tnNNN K); (io, i_tNNN K)] else []).
  set (evj := if s_bij S then [(fa, i_Jhpar K); (fb, i_Jhper K); (fu, i_J K)] else []).
  set (evs := if s_bSD S then [(sa, i_hSDpar K); (sp, i_hSDper K)] else []).
  set (FL := flat_events (evt ++ evn ++ evj) ++ flat_pairs evs).
  exists (fold_left dict_step FL []).
  assert (Ec : compute_dynamic_interactions E c K S d = Ok (fold_left dict_step FL [])).
  { unfold compute_dynamic_interactions. rewrite Eh, En, Ef, Es. cbn [bind].
    replace (if s_bt S then Ok [(ih, i_t K)] else Ok []) with (Ok evt) by (unfold evt; now destruct (s_bt S)).
    replace (if s_btN S then Ok [(ic, i_tnNNN K); (io, i_tNNN K)] else Ok []) with (Ok evn) by (unfold evn; now destruct (s_btN S)).
    replace (if s_bij S then Ok [(fa, i_Jhpar K); (fb, i_Jhper K); (fu, i_J K)] else Ok []) with (Ok evj) by (unfold evj; now destruct (s_bij S)).
    replace (if s_bSD S then Ok [(sa, i_hSDpar K); (sp, i_hSDper K)] else Ok []) with (Ok evs) by (unfold evs; now destruct (s_bSD S)).
    cbn [bind]. rewrite events_fold, pairs_fold, <- fold_left_app. reflexivity. }
  split; [exact Ec|]. clear Ec.
  assert (LF : lists FL (fun t => (tj_element L K (dynamic S) s t + only (s_bij S) (op_flip L K s t))%Qc) (reached L S s)).
  { assert (G : lists FL (fun t => (only (s_bt S) (op_hop L K s t) + (only (s_btN S) (op_next_hop L K s t) +
        (only (s_bij S) (op_flip L K s t + op_flip L K s t) + only (s_bSD S) (op_singlet L K s t))))%Qc)
      (fun t => (s_bt S = true /\ exists h e, 0 <= h < n /\ 0 <= e < n /\ lat_from L h && lat_to L e && bonded L h e && holeb (s h) && negb (holeb (s e)) = true /\ t = swap_state h e s) \/
        (s_btN S = true /\ exists h e, 0 <= h < n /\ 0 <= e < n /\ lat_from L h && lat_to L e && two_bonds L h e && holeb (s h) && negb (holeb (s e)) = true /\ t = swap_state h e s) \/
        (s_bij S = true /\ exists i j, 0 <= i < n /\ 0 <= j < n /\ spin_bond L s i j = true /\ t = swap_state i j s) \/
        (s_bSD S = true /\ exists h m e, 0 <= h < n /\ 0 <= m < n /\ 0 <= e < n /\
           lat_from L h && lat_to L m && lat_to L e && bonded L h m && bonded L m e && holeb (s h) && oppositeb (s m) (s e) = true /\
           (t = shift_state h m e s \/ t = swap_state h e s)))).
    { unfold FL, flat_events. rewrite !flat_map_app, <- !app_assoc. unfold evt, evn, evj, evs.
      pose proof (fun (b : bool) l o P H => lists_if b l o P (fun _ => H)) as LI.
      pose proof (LI (s_bt S) _ _ _ Lh) as L1. pose proof (LI (s_btN S) _ _ _ Ln) as L2.
      pose proof (LI (s_bij S) _ _ _ Lf) as L3. pose proof (LI (s_bSD S) _ _ _ Ls) as L4.
      pose proof (lists_app _ _ _ _ _ _ L1 (lists_app _ _ _ _ _ _ L2 (lists_app _ _ _ _ _ _ L3 L4))) as G. clear - G.
      destruct (s_bt S), (s_btN S), (s_bij S), (s_bSD S); exact G. }
    destruct G as (ts & A & B & C & D). exists ts. split; [assumption|]. split; [assumption|]. split.
    - intros t. rewrite C. unfold tj_element. cbn [dynamic s_bt s_bz s_bij s_bSD s_btN s_bV].
      destruct (s_bt S), (s_btN S), (s_bij S), (s_bSD S); cbn [only]; ring.
    - intros t. rewrite <- D. split.
      + intros H. destruct H as [h e H1 H2 H3 H4 H5 H6 H7 H8|h e H1 H2 H3 H4 H5 H6 H7 H8|i j H1 H2 H3 H4|h m e t H1 H2 H3 H4 H5 H6 H7 H8 H9 H10 H11 H12]; rewrite HLs in *.
        * left. split; [assumption|]. exists h, e. rewrite H4, H5, H6, H7, (not_hole e H8). auto.
        * right. left. split; [assumption|]. exists h, e. rewrite H4, H5, H6, H7, (not_hole e H8). auto.
        * right. right. left. split; [assumption|]. eauto 10.
        * right. right. right. split; [assumption|]. exists h, m, e. apply oppositeb_iff in H11. rewrite H5, H6, H7, H8, H9, H10, H11. auto.
      + intros [(S1 & h & e & H1 & H2 & H3 & ->)|[(S1 & h & e & H1 & H2 & H3 & ->)|[(S1 & i & j & H1 & H2 & H3 & ->)|(S1 & h & m & e & H1 & H2 & H3 & H4 & H5)]]].
        * rewrite !andb_true_iff, negb_true_iff, holeb_iff in H3. destruct H3 as ((((A1 & A2) & A3) & A4) & A5). apply by_hop; rewrite ?HLs; try assumption. now apply hole_not.
        * rewrite !andb_true_iff, negb_true_iff, holeb_iff in H3. destruct H3 as ((((A1 & A2) & A3) & A4) & A5). apply by_next_hop; rewrite ?HLs; try assumption. now apply hole_not.
        * apply by_flip; rewrite ?HLs; assumption.
        * rewrite !andb_true_iff, oppositeb_iff, holeb_iff in H4. destruct H4 as ((((((A1 & A2) & A3) & A4) & A5) & A6) & A7).
          apply (by_crossing L S s h m e); rewrite ?HLs; assumption. }
  destruct LF as (ts & A & B & C & D). destruct (dict_fold FL) as (ND & KI & KV). split; [assumption|].
  assert (KD : forall k, In k (map fst FL) <-> exists x t, In (x, t) ts /\ k = canon n t).
  { intros k. transitivity (In k (map fst (keyed ts))).
    { split; apply Permutation_in; [|symmetry]; now apply Permutation_map. }
    unfold keyed. rewrite map_map, in_map_iff. cbn [fst]. split.
    - intros ([x t] & <- & H). eauto.
    - intros (x & t & H & ->). exists (x, t). auto. }
  assert (SAME : forall k t u, describes n (nholes c) (nbeta c) k t -> sec u -> k = canon n u -> same_state n t u).
  { intros k t u D1 S1 ->. pose proof (canon_describes _ _ _ _ S1) as D2. exact (describes_unique _ _ _ _ _ _ D1 D2). }
  split; [|split].
  - intros k. rewrite KI, KD. split.
    + intros (x & t & H & ->). exists t. split; [apply D; eauto|]. pose proof (B x t H) as S1. split; [apply canon_describes, S1 | apply canon_increasing, S1].
    + intros (t & H & D1 & I1). apply D in H. destruct H as (x & H). exists x, t. split; [assumption|].
      eapply increasing_canon; eauto.
  - intros k x t H Dk. rewrite (KV k x H). rewrite <- C.
    assert (Hk : In k (map fst FL)) by (apply KI; apply in_map_iff; exists (k, x); auto).
    apply KD in Hk. destruct Hk as (x0 & u & Hu & ->).
    unfold total, ampl. rewrite (qsum_perm _ _ _ _ A). unfold keyed. rewrite qsum_map. cbn [fst snd]. apply qsum_ext. intros [y v] Hy. cbn [fst snd]. f_equal.
    pose proof (SAME _ _ _ Dk (B _ _ Hu) eq_refl) as Q. fold n. apply eq_true_iff_eq. rewrite zlist_eqb_eq, sameb_iff. split.
    + intros Q'. apply canon_inj with (1 := B _ _ Hy) (2 := B _ _ Hu) in Q'. intros z Hz. rewrite (Q z Hz). symmetry. now apply Q'.
    + intros Q'. apply canon_same. intros z Hz. rewrite <- (Q z Hz). symmetry. now apply Q'.
  - intros t St H. rewrite <- C. unfold ampl. apply qsum_zero. intros [x u] Hu. cbn [fst snd]. fold n.
    destruct (sameb n t u) eqn:Q; [|reflexivity]. exfalso. apply sameb_iff in Q. apply (H (canon n t)).
    + split; [apply canon_describes, St | apply canon_increasing, St].
    + apply KI, KD. exists x, u. split; [assumption|]. now apply canon_same.
Qed.
End Dyn.
