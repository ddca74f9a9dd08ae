(** The interactions on one determinant: spins and repulsion. *)
From Coq Require Import ZArith List Bool Lia Permutation QArith Qcanon.
From Verif Require Import PyBase PyFacts Lattice Base Interact Spec SpecOps SpecTJ Geometry PBasis PSites PRot PMat PGeo PInter.
Import ListNotations.
Open Scope Z_scope.

(** ** Sums *)

Lemma qsum_nil : forall A (f : A -> Qc), qsum f [] = 0%Qc.
Proof. reflexivity. Qed.
Lemma qsum_cons : forall A (f : A -> Qc) x l, qsum f (x :: l) = (f x + qsum f l)%Qc.
Proof. reflexivity. Qed.
Lemma qsum_one : forall A (f : A -> Qc) x, qsum f [x] = f x.
Proof. intros. rewrite qsum_cons, qsum_nil. ring. Qed.

Lemma qsum_app : forall A (f : A -> Qc) l1 l2, qsum f (l1 ++ l2) = (qsum f l1 + qsum f l2)%Qc.
Proof. intros. induction l1 as [|x l IH]; cbn [app]; rewrite ?qsum_nil, ?qsum_cons, ?IH; ring. Qed.

Lemma qsum_perm : forall A (f : A -> Qc) l1 l2, Permutation l1 l2 -> qsum f l1 = qsum f l2.
Proof. intros A f l1 l2 P. induction P; rewrite ?qsum_cons; [reflexivity | now rewrite IHP | ring | congruence]. Qed.

Lemma qsum_ext : forall A (f g : A -> Qc) l, (forall x, In x l -> f x = g x) -> qsum f l = qsum g l.
Proof.
  intros A f g l H. induction l as [|x l IH]; [reflexivity|]. rewrite !qsum_cons.
  rewrite H by (left; reflexivity). rewrite IH; [reflexivity|]. intros y Hy. apply H. now right.
Qed.

Lemma qsum_map : forall A B (f : B -> Qc) (g : A -> B) l, qsum f (map g l) = qsum (fun x => f (g x)) l.
Proof. intros. induction l as [|x l IH]; cbn [map]; [reflexivity | now rewrite !qsum_cons, IH]. Qed.

Lemma qsum_flat_map : forall A B (f : B -> Qc) (g : A -> list B) l, qsum f (flat_map g l) = qsum (fun x => qsum f (g x)) l.
Proof. intros. induction l as [|x l IH]; cbn [flat_map]; [reflexivity | now rewrite qsum_cons, qsum_app, IH]. Qed.

Lemma qsum_filter : forall A (f : A -> Qc) (P : A -> bool) l, qsum f (filter P l) = qsum (fun x => only (P x) (f x)) l.
Proof. intros. induction l as [|x l IH]; cbn [filter]; [reflexivity|]. destruct (P x) eqn:Q; rewrite !qsum_cons, IH, Q; cbn [only]; ring. Qed.

Lemma qsum_zero : forall A (f : A -> Qc) l, (forall x, In x l -> f x = 0%Qc) -> qsum f l = 0%Qc.
Proof.
  intros A f l H. induction l as [|x l IH]; [reflexivity|]. rewrite qsum_cons, H by (left; reflexivity).
  rewrite IH; [ring|]. intros y Hy. apply H. now right.
Qed.

Lemma qsum_add : forall A (f g : A -> Qc) l, qsum (fun x => (f x + g x)%Qc) l = (qsum f l + qsum g l)%Qc.
Proof. intros. induction l as [|x l IH]; rewrite ?qsum_nil, ?qsum_cons, ?IH; ring. Qed.

Lemma qsum_scale : forall A (f : A -> Qc) k l, qsum (fun x => (k * f x)%Qc) l = (k * qsum f l)%Qc.
Proof. intros. induction l as [|x l IH]; rewrite ?qsum_nil, ?qsum_cons, ?IH; ring. Qed.

Lemma qsum_opp : forall A (f : A -> Qc) l, qsum (fun x => (- f x)%Qc) l = (- qsum f l)%Qc.
Proof. intros. induction l as [|x l IH]; rewrite ?qsum_nil, ?qsum_cons, ?IH; ring. Qed.

Lemma qsum_exchange : forall A B (f : A -> B -> Qc) l m,
  qsum (fun x => qsum (f x) m) l = qsum (fun y => qsum (fun x => f x y) l) m.
Proof.
  intros. induction l as [|x l IH].
  - rewrite qsum_nil. symmetry. apply qsum_zero. reflexivity.
  - rewrite qsum_cons, IH, <- qsum_add. apply qsum_ext. reflexivity.
Qed.

Lemma qz_add : forall a b, qz (a + b) = (qz a + qz b)%Qc.
Proof. intros. unfold qz. apply Qc_is_canon. cbn [this Q2Qc Qcplus]. rewrite !Qred_correct, inject_Z_plus. reflexivity. Qed.

Lemma qz_1 : qz 1 = 1%Qc.
Proof. apply Qc_is_canon. reflexivity. Qed.

Lemma qsum_const : forall A (l : list A) k, qsum (fun _ => k) l = (qz (zlen l) * k)%Qc.
Proof.
  intros. induction l as [|x l IH].
  - rewrite qsum_nil. replace (qz (zlen (@nil A))) with 0%Qc by (apply Qc_is_canon; reflexivity). ring.
  - rewrite qsum_cons, IH, zlen_cons, qz_add, qz_1. ring.
Qed.

Global Opaque qsum.

Lemma sites_zrange : forall n, sites n = zrange 0 n.
Proof. intros n. unfold sites, zrange. rewrite Z.sub_0_r. apply map_ext. intros k. reflexivity. Qed.

Lemma in_sites : forall n x, In x (sites n) <-> 0 <= x < n.
Proof. intros. rewrite sites_zrange. apply in_zrange. Qed.

Lemma sites_NoDup : forall n, NoDup (sites n).
Proof. intros. rewrite sites_zrange. apply zrange_NoDup. Qed.

(** sums over a set of pairs, of triples *)
Lemma sum_pairs : forall n (l : list (Z * Z)) (P : Z -> Z -> bool) f, NoDup l ->
  (forall i j, In (i, j) l <-> 0 <= i < n /\ 0 <= j < n /\ P i j = true) ->
  qsum f l = sum_sites n (fun i => sum_sites n (fun j => only (P i j) (f (i, j)))).
Proof.
  intros n l P f ND H. unfold sum_sites.
  rewrite (qsum_perm _ f l (flat_map (fun i => map (pair i) (filter (P i) (sites n))) (sites n))).
  - rewrite qsum_flat_map. apply qsum_ext. intros i _. rewrite qsum_map, qsum_filter. reflexivity.
  - apply NoDup_Permutation; [assumption| |].
    + apply NoDup_flat_pair; [apply sites_NoDup|]. intros. apply NoDup_filter', sites_NoDup.
    + intros [i j]. rewrite in_flat_pair, filter_In, !in_sites, H. tauto.
Qed.

Lemma sum_triples : forall n (l : list (Z * Z * Z)) (P : Z -> Z -> Z -> bool) f, NoDup l ->
  (forall i j k, In (i, j, k) l <-> 0 <= i < n /\ 0 <= j < n /\ 0 <= k < n /\ P i j k = true) ->
  qsum f l = sum_sites n (fun i => sum_sites n (fun j => sum_sites n (fun k => only (P i j k) (f (i, j, k))))).
Proof.
  intros n l P f ND H. unfold sum_sites.
  set (g := fun i j => map (fun k => (i, j, k)) (filter (P i j) (sites n))).
  rewrite (qsum_perm _ f l (flat_map (fun i => flat_map (g i) (sites n)) (sites n))).
  - rewrite qsum_flat_map. apply qsum_ext. intros i _. rewrite qsum_flat_map. apply qsum_ext. intros j _.
    unfold g. rewrite qsum_map, qsum_filter. reflexivity.
  - apply NoDup_Permutation; [assumption| |].
    + apply NoDup_flat_map; [apply sites_NoDup| |].
      * intros i _. apply NoDup_flat_map; [apply sites_NoDup| |].
        -- intros j _. apply FinFun.Injective_map_NoDup; [intros a b [= ->]; reflexivity|]. apply NoDup_filter', sites_NoDup.
        -- intros x y z _ _ H1 H2. apply in_map_iff in H1, H2. destruct H1 as (a & <- & _), H2 as (b & [= -> _] & _). reflexivity.
      * intros x y z _ _ H1 H2. apply in_flat_map in H1, H2. destruct H1 as (u & _ & H1), H2 as (v & _ & H2).
        apply in_map_iff in H1, H2. destruct H1 as (a & <- & _), H2 as (b & [= -> _ _] & _). reflexivity.
    + intros [[i j] k]. rewrite H, in_flat_map. split.
      * intros (Hi & Hj & Hk & Q). exists i. rewrite in_sites. split; [assumption|]. apply in_flat_map. exists j.
        rewrite in_sites. split; [assumption|]. apply in_map. apply filter_In. rewrite in_sites. auto.
      * intros (x & Hx & K). apply in_flat_map in K. destruct K as (y & Hy & K). apply in_map_iff in K.
        destruct K as (z & [= -> -> ->] & K). apply filter_In in K. rewrite in_sites in *. tauto.
Qed.

Lemma sum_sites_ext : forall n f g, (forall x, 0 <= x < n -> f x = g x) -> sum_sites n f = sum_sites n g.
Proof. intros n f g H. apply qsum_ext. intros x Hx. apply H. now apply in_sites. Qed.

(** ** Boolean geometry *)

Lemma bondb_iff : forall p q, bondb p q = true <-> adjacent p q.
Proof. intros. unfold bondb, adjacent. apply Z.eqb_eq. Qed.
Lemma lineb3_iff : forall p q r, lineb3 p q r = true <-> straight p q r.
Proof. intros. unfold lineb3, straight. rewrite orb_true_iff, !andb_true_iff, !Z.eqb_eq. reflexivity. Qed.
Lemma diagb_iff : forall p q, diagb p q = true <-> diagonal p q.
Proof. intros. unfold diagb, diagonal. rewrite andb_true_iff, !Z.eqb_eq. reflexivity. Qed.
Lemma holeb_iff : forall p, holeb p = true <-> p = Hole.
Proof. intros []; cbn; split; congruence. Qed.
Lemma oppositeb_iff : forall p q, oppositeb p q = true <-> opposite p q.
Proof. intros [] []; cbn; unfold opposite; split; try congruence; intuition congruence. Qed.
Lemma bondb_sym : forall p q, bondb p q = bondb q p.
Proof. intros. apply eq_true_iff_eq. rewrite !bondb_iff. split; apply adjacent_sym. Qed.
Lemma samep_iff : forall p q, samep p q = true <-> p = q.
Proof. intros. unfold samep. destruct (particle_eq_dec p q); split; congruence. Qed.
Lemma sameb_iff : forall n s t, sameb n s t = true <-> same_state n s t.
Proof.
  intros. unfold sameb, same_state. rewrite forallb_forall. split.
  - intros H x Hx. apply samep_iff, H, in_sites, Hx.
  - intros H x Hx. apply samep_iff, H, in_sites, Hx.
Qed.

Definition kind_of (k : doping) : bond_class := match k with Aligned => Par | Beside => Per | Away => Undoped end.
Lemma kind_coupling : forall K k, class_coupling K (kind_of k) = exchange K k.
Proof. intros K []; reflexivity. Qed.

Section Det.
Variables (E : runtime) (c : configuration) (pos : Z -> Z * Z) (r0 r1 : list Z) (d : list Z) (s : occupation).
Hypothesis HE : set_iter_ok E.
Hypothesis HD : drawn c pos.
Hypothesis HR : sites_restriction c = RTuple r0 r1.
Hypothesis Hd : conf_describes c d s.
Let n := nsites c.
Let bm := bond_matrix c.
Variable L : lattice.
Hypothesis HLs : lat_size L = n.
Hypothesis HLp : forall x, 0 <= x < n -> lat_pos L x = pos x.
Hypothesis HLf : forall x, 0 <= x < n -> (lat_from L x = true <-> In x r0).
Hypothesis HLt : forall x, 0 <= x < n -> (lat_to L x = true <-> In x r1).

Let nbr := nbr E c.
Let nba := nba E c.
Let idx := idx E c d.
Let nba_ok := nba_ok E c pos HE HD.
Let nbr_ok := nbr_ok E c pos r0 r1 HE HD HR.
Let idx_ok := idx_ok E c r0 r1 d s HE HR Hd.

Lemma bonded_iff : forall x y, 0 <= x < n -> 0 <= y < n -> (bonded L x y = true <-> adjacent (pos x) (pos y)).
Proof. intros x y Hx Hy. unfold bonded. rewrite (HLp x Hx), (HLp y Hy). apply bondb_iff. Qed.

Lemma hole_near_iff : forall i j z, 0 <= i < n -> 0 <= j < n -> 0 <= z < n ->
  (hole_near L s i j z = true <-> In z r0 /\ s z = Hole /\ (adjacent (pos z) (pos i) \/ adjacent (pos z) (pos j))).
Proof.
  intros i j z Hi Hj Hz. unfold hole_near. rewrite !andb_true_iff, orb_true_iff, holeb_iff, !bonded_iff, HLf by assumption. tauto.
Qed.

(** a classification by lists of near holes *)
Lemma doping_lists : forall i j (near : list Z) (lin : Z -> bool), 0 <= i < n -> 0 <= j < n ->
  (forall z, In z near <-> 0 <= z < n /\ hole_near L s i j z = true) ->
  (forall z, In z near -> (lin z = true <-> straight (pos z) (pos i) (pos j))) ->
  (if existsb lin near then Par else match near with [] => Undoped | _ => Per end) = kind_of (bond_doping L s i j).
Proof.
  intros i j near lin Hi Hj HN Hl. unfold bond_doping. rewrite HLs.
  assert (A : existsb (fun z => hole_near L s i j z && lineb3 (lat_pos L z) (lat_pos L i) (lat_pos L j)) (sites n)
              = existsb lin near).
  { apply eq_true_iff_eq. rewrite !existsb_exists. split.
    - intros (z & Hz & K). apply in_sites in Hz. apply andb_true_iff in K. destruct K as [K1 K2].
      assert (Hin : In z near) by (apply HN; auto). exists z. split; [assumption|]. apply Hl; [assumption|].
      apply lineb3_iff. rewrite <- !HLp by assumption. assumption.
    - intros (z & Hz & K). pose proof Hz as Hz0. apply HN in Hz. destruct Hz as [Hz K1]. exists z. split; [apply in_sites; assumption|].
      apply andb_true_iff. split; [assumption|]. apply Hl in K; [|assumption]. apply lineb3_iff. rewrite !HLp by assumption. assumption. }
  rewrite A. destruct (existsb lin near); [reflexivity|].
  assert (B : existsb (hole_near L s i j) (sites n) = match near with [] => false | _ => true end).
  { apply eq_true_iff_eq. rewrite existsb_exists. split.
    - intros (z & Hz & K). apply in_sites in Hz. assert (Hin : In z near) by (apply HN; auto). destruct near; [destruct Hin | reflexivity].
    - destruct near as [|z l]; [discriminate|]. intros _. exists z. rewrite in_sites. apply HN. left; reflexivity. }
  rewrite B. destruct near; reflexivity.
Qed.

Lemma zlen_ne0 : forall A (l : list A), negb (zlen l =? 0) = match l with [] => false | _ => true end.
Proof. intros A [|x l]; [reflexivity|]. rewrite zlen_cons. pose proof (zlen_nonneg _ l). destruct (Z.eqb_spec (zlen l + 1) 0); [lia | reflexivity]. Qed.

Lemma existsb_id_map : forall A (f : A -> bool) l, existsb (fun b => b) (map f l) = existsb f l.
Proof. intros. induction l as [|x l IH]; cbn; [reflexivity | now rewrite IH]. Qed.

Section Class.
Hypothesis HL : straightness_decided E c pos.

Lemma near_straight : forall i j z, 0 <= i < n -> 0 <= j < n -> 0 <= z < n -> z <> i -> z <> j ->
  adjacent (pos i) (pos j) -> adjacent (pos z) (pos i) \/ adjacent (pos z) (pos j) ->
  exists r, is_bond_linear E c j i z = Ok r /\ (r = true <-> straight (pos z) (pos i) (pos j)).
Proof.
  intros i j z Hi Hj Hz N1 N2 A [K|K].
  - apply (HL z i j j i z); [|apply perm_rev3]. repeat (split; [assumption|]). assumption.
  - destruct (HL z j i j i z) as (r & Er & Ir).
    + repeat (split; [assumption|]). apply adjacent_sym. assumption.
    + apply (Permutation_trans (l' := [j; z; i])); [apply perm_skip, perm_swap | apply perm_swap].
    + exists r. split; [assumption|]. rewrite Ir. unfold straight. intuition.
Qed.

Lemma static_class_ok : forall i j, 0 <= i < n -> 0 <= j < n -> adjacent (pos i) (pos j) -> s i <> Hole -> s j <> Hole ->
  static_class E c d i j = Ok (kind_of (bond_doping L s i j)).
Proof.
  intros i j Hi Hj A Si Sj. unfold static_class. fold bm.
  destruct (nba_ok i Hi) as (Ei & _ & Ii), (nba_ok j Hj) as (Ej & _ & Ij). fold bm in Ei, Ej. rewrite Ei, Ej. cbn [bind].
  destruct (idx_ok Hole 0) as (Eh & _ & Ih). change (spin_code Hole) with 0 in Eh. rewrite Eh. cbn [bind]. cbn [Z.eqb] in Ih.
  set (h0 := py_set_and E _ _). set (h1 := py_set_and E _ _).
  assert (I0 : forall z, In z h0 <-> 0 <= z < n /\ s z = Hole /\ In z r0 /\ adjacent (pos z) (pos i)).
  { intros z. unfold h0. rewrite in_set_and, filter_In, negb_true_iff, Z.eqb_neq by exact HE.
    rewrite Ih, Ii. split.
    - intros (((H1 & H2) & H3) & (H4 & H5) & H6). apply adjacent_sym in H2. auto.
    - intros (H1 & H2 & H3 & H4). split; [|auto]. split; [split; [auto | now apply adjacent_sym]|]. intros ->. contradiction. }
  assert (I1 : forall z, In z h1 <-> 0 <= z < n /\ s z = Hole /\ In z r0 /\ adjacent (pos z) (pos j)).
  { intros z. unfold h1. rewrite in_set_and, filter_In, negb_true_iff, Z.eqb_neq by exact HE.
    rewrite Ih, Ij. split.
    - intros (((H1 & H2) & H3) & (H4 & H5) & H6). apply adjacent_sym in H2. auto.
    - intros (H1 & H2 & H3 & H4). split; [|auto]. split; [split; [auto | now apply adjacent_sym]|]. intros ->. contradiction. }
  clearbody h0 h1.
  assert (IA : forall z, In z (h0 ++ h1) <-> 0 <= z < n /\ hole_near L s i j z = true).
  { intros z. rewrite in_app_iff, I0, I1. split.
    - intros [(H1 & H2 & H3 & H4)|(H1 & H2 & H3 & H4)]; (split; [assumption|]); apply hole_near_iff; auto.
    - intros (H1 & H2). apply hole_near_iff in H2; auto. destruct H2 as (H3 & H4 & [H5|H5]); auto. }
  set (lin := fun z => val false (is_bond_linear E c j i z)).
  assert (Hlin : forall z, In z (h0 ++ h1) -> is_bond_linear E c j i z = Ok (lin z) /\ (lin z = true <-> straight (pos z) (pos i) (pos j))).
  { intros z Hz. apply in_app_iff in Hz. rewrite I0, I1 in Hz.
    destruct (near_straight i j z Hi Hj) as (r & Er & Ir).
    - destruct Hz as [Hz|Hz]; apply Hz.
    - intros ->. destruct Hz as [Hz|Hz]; apply Si, Hz.
    - intros ->. destruct Hz as [Hz|Hz]; apply Sj, Hz.
    - assumption.
    - destruct Hz as [Hz|Hz]; [left|right]; apply Hz.
    - unfold lin. rewrite Er. cbn [val]. auto. }
  rewrite <- (doping_lists i j (h0 ++ h1) lin Hi Hj IA (fun z Hz => proj2 (Hlin z Hz))).
  rewrite !zlen_ne0.
  assert (M : mapM (fun h => is_bond_linear E c j i h) (h0 ++ h1) = Ok (map lin (h0 ++ h1))).
  { apply mapM_ok. intros z Hz. apply Hlin, Hz. }
  rewrite M. cbn [bind]. rewrite existsb_id_map.
  destruct h0 as [|a0 h0]; cbn [app orb].
  - destruct h1 as [|a1 h1]; [reflexivity|]. destruct (existsb lin (a1 :: h1)); reflexivity.
  - destruct (existsb lin (a0 :: h0 ++ h1)); reflexivity.
Qed.

End Class.

(** *** lists of bonds *)

Definition bl : list (Z * Z) := val [] (build_bond_list E (bond_matrix c) (sites_restriction c)).

Lemma bl_ok : build_bond_list E bm (sites_restriction c) = Ok bl /\ NoDup bl /\
  (forall i j, In (i, j) bl <-> 0 <= i < j /\ j < n /\ In i r0 /\ In j r1 /\ adjacent (pos i) (pos j)).
Proof.
  destruct (bond_list_ok E bm (sites_restriction c) r0 r1 n HE (d_rows c pos HD) (d_cols c pos HD)) as (l & El & ND & I); [left; exact HR|].
  unfold bl. fold bm. rewrite El. cbn [val]. split; [reflexivity|]. split; [assumption|].
  intros i j. rewrite I. split.
  - intros (H1 & H2 & H3 & H4 & H5). apply (d_adj c pos HD) in H5; [|unfold n in *; lia|unfold n in *; lia].
    pose proof (adj_ne pos _ _ H5). split; [lia|]. auto.
  - intros (H1 & H2 & H3 & H4 & H5). split; [lia|]. split; [lia|]. split; [assumption|]. split; [assumption|].
    apply (d_adj c pos HD); [unfold n in *; lia|unfold n in *; lia|assumption].
Qed.

Definition spin_bonds : list (Z * Z) := filter (fun b => oppositeb (s (fst b)) (s (snd b))) bl.

Lemma spin_bonds_ok : NoDup spin_bonds /\
  (forall i j, In (i, j) spin_bonds <->
     0 <= i < j /\ j < n /\ In i r0 /\ In j r1 /\ adjacent (pos i) (pos j) /\ opposite (s i) (s j)).
Proof.
  destruct bl_ok as (_ & ND & I). split; [apply NoDup_filter'; assumption|].
  intros i j. unfold spin_bonds. rewrite filter_In, I. cbn [fst snd]. rewrite oppositeb_iff. tauto.
Qed.

Lemma spin_bond_iff : forall i j, 0 <= i < n -> 0 <= j < n ->
  (In (i, j) spin_bonds <-> spin_bond L s i j = true).
Proof.
  intros i j Hi Hj. rewrite (proj2 spin_bonds_ok). unfold spin_bond.
  rewrite !andb_true_iff, Z.ltb_lt, HLf, HLt, bonded_iff, oppositeb_iff by assumption. intuition lia.
Qed.

Lemma sum_spin_bonds : forall f,
  qsum f spin_bonds = sum_sites n (fun i => sum_sites n (fun j => only (spin_bond L s i j) (f (i, j)))).
Proof.
  intros f. apply sum_pairs; [apply spin_bonds_ok|]. intros i j. split.
  - intros H. pose proof H as H0. apply spin_bonds_ok in H0. destruct H0 as (H1 & H2 & _).
    split; [lia|]. split; [lia|]. apply spin_bond_iff in H; [assumption|lia|lia].
  - intros (H1 & H2 & H3). apply spin_bond_iff; assumption.
Qed.

Lemma codes_product : forall p q, 
  (spin_code p * spin_code q = -1 <-> opposite p q) /\
  (spin_code p * spin_code q = 0 <-> p = Hole \/ q = Hole) /\
  (spin_code p * spin_code q = 1 <-> p <> Hole /\ q = p).
Proof. intros [] []; cbn; unfold opposite; repeat split; intros; try lia; try intuition congruence. Qed.

Lemma static_ok : forall K, straightness_decided E c pos ->
  compute_static_spin_interaction E c K d = Ok (op_static L K s).
Proof.
  intros K HL. unfold compute_static_spin_interaction. destruct bl_ok as (El & _ & I). fold bm. rewrite El. cbn [bind].
  unfold op_static. rewrite HLs. transitivity (Ok (qsum (fun b => (- (half * exchange K (bond_doping L s (fst b) (snd b))))%Qc) spin_bonds));
    [|rewrite sum_spin_bonds; reflexivity].
  unfold spin_bonds. rewrite qsum_filter.
  match goal with |- foldM ?F ?b0 ?l0 = _ =>
    destruct (foldM_ghost _ _ _ F (fun b => [b])
       (fun ts x => x = qsum (fun b => only (oppositeb (s (fst b)) (s (snd b))) (- (half * exchange K (bond_doping L s (fst b) (snd b))))%Qc) ts) l0 [] b0) as (x & Ex & R) end.
  - intros ts x [i j] Hb ->. apply I in Hb. destruct Hb as (H1 & H2 & _ & _ & A).
    assert (Hi : 0 <= i < n) by lia. assert (Hj : 0 <= j < n) by lia.
    rewrite (spin_site_ok c d s i Hd Hi), (spin_site_ok c d s j Hd Hj). cbn [bind].
    rewrite qsum_app, qsum_one. cbn [fst snd].
    destruct (codes_product (s i) (s j)) as (C1 & C2 & C3).
    destruct (Z.eqb_spec (spin_code (s i) * spin_code (s j)) 0) as [Z|Z]; cbn [negb].
    + eexists. split; [reflexivity|]. assert (K0 : oppositeb (s i) (s j) = false).
      { destruct (oppositeb (s i) (s j)) eqn:O; [|reflexivity]. apply oppositeb_iff, C1 in O. lia. }
      rewrite K0. cbn [only]. ring.
    + assert (Si : s i <> Hole) by (intros Q; apply Z, C2; auto). assert (Sj : s j <> Hole) by (intros Q; apply Z, C2; auto).
      rewrite Z.min_l, Z.max_r by lia. rewrite (static_class_ok HL i j Hi Hj A Si Sj). cbn [bind].
      eexists. split; [reflexivity|]. rewrite kind_coupling.
      destruct (oppositeb (s i) (s j)) eqn:O; cbn [only].
      * apply oppositeb_iff, C1 in O. rewrite O. unfold half.
        assert (V : (qfrac (-1) 4 - qfrac 1 4 = - Q2Qc (1 # 2))%Qc) by (apply Qc_is_canon; reflexivity). rewrite V. ring.
      * assert (O1 : spin_code (s i) * spin_code (s j) = 1).
        { apply C3. split; [assumption|]. destruct (s i), (s j); cbn in O; congruence. }
        rewrite O1. ring.
  - reflexivity.
  - rewrite Ex, R. f_equal. cbn [app]. replace (flat_map (fun b => [b]) bl) with bl; [reflexivity|].
    generalize bl. intros l. induction l as [|b l IH]; cbn; [reflexivity | now rewrite <- IH].
Qed.

(** *** spin flips *)

(** the class computed from site numbers is [cls] *)
Definition flips_decided (cls : Z -> Z -> doping) : Prop := forall i j, 0 <= i < j -> j < n -> adjacent (pos i) (pos j) -> opposite (s i) (s j) ->
  flip_class E c d i j = Ok (kind_of (cls i j)).

Definition is_kind (cls : Z -> Z -> doping) (k : doping) (b : Z * Z) : bool :=
  match k, cls (fst b) (snd b) with
  | Aligned, Aligned | Beside, Beside | Away, Away => true | _, _ => false end.
Definition flip_images (cls : Z -> Z -> doping) (k : doping) : list (list Z) :=
  map (fun b => swapped c s (fst b) (snd b)) (filter (is_kind cls k) spin_bonds).

Lemma spin_flip_ok : forall cls, flips_decided cls ->
  compute_spin_flip E c d = Ok (flip_images cls Aligned, flip_images cls Beside, flip_images cls Away).
Proof.
  intros cls HF. unfold compute_spin_flip. destruct bl_ok as (El & _ & I). fold bm. rewrite El. cbn [bind].
  set (g := fun b => if oppositeb (s (fst b)) (s (snd b)) then [b] else @nil (Z * Z)).
  set (im := fun k ts => map (fun b => swapped c s (fst b) (snd b)) (filter (is_kind cls k) ts)).
  match goal with |- foldM ?F ?b0 ?l0 = _ =>
    destruct (foldM_ghost _ _ _ F g (fun ts x => x = (im Aligned ts, im Beside ts, im Away ts)) l0 [] b0) as (x & Ex & R) end.
  - intros ts x [i j] Hb ->. apply I in Hb. destruct Hb as (H1 & H2 & _ & _ & A).
    assert (Hi : 0 <= i < n) by lia. assert (Hj : 0 <= j < n) by lia.
    rewrite (spin_site_ok c d s i Hd Hi), (spin_site_ok c d s j Hd Hj). cbn [bind].
    destruct (codes_product (s i) (s j)) as (C1 & _). unfold g. cbn [fst snd].
    destruct (Z.eqb_spec (spin_code (s i) * spin_code (s j)) (-1)) as [Z|Z].
    + apply C1 in Z. destruct (swap_ok c d s Hd i j Hi Hj) as (a & b & t & Ha & Hb & Ht & Hc).
      rewrite Ha, Hb. cbn [bind]. rewrite Ht. cbn [bind]. rewrite Z.min_l, Z.max_r by lia.
      rewrite (HF i j H1 H2 A Z). cbn [bind]. rewrite Hc. apply oppositeb_iff in Z. rewrite Z.
      eexists. split; [reflexivity|]. unfold im. rewrite !filter_app, !map_app. cbn [filter].
      assert (KE : forall k, is_kind cls k (i, j) = match k, cls i j with
        | Aligned, Aligned | Beside, Beside | Away, Away => true | _, _ => false end) by reflexivity.
      rewrite !KE. destruct (cls i j); cbn [kind_of map]; rewrite ?app_nil_r; reflexivity.
    + assert (K0 : oppositeb (s i) (s j) = false).
      { destruct (oppositeb (s i) (s j)) eqn:O; [|reflexivity]. apply oppositeb_iff, C1 in O. contradiction. }
      rewrite K0, app_nil_r. eexists. split; reflexivity.
  - reflexivity.
  - rewrite Ex, R. cbn [app]. unfold flip_images, im. replace (flat_map g bl) with spin_bonds; [reflexivity|].
    unfold spin_bonds, g. generalize bl. intros l. induction l as [|b l IH]; cbn; [reflexivity|].
    rewrite <- IH. destruct (oppositeb _ _); reflexivity.
Qed.

(** flip_class from distances of site numbers *)
Lemma flip_class_ok : forall i j, 0 <= i < n -> 0 <= j < n -> i < j -> adjacent (pos i) (pos j) -> s i <> Hole -> s j <> Hole ->
  (forall z, 0 <= z < n -> adjacent (pos z) (pos i) -> z <> j -> (j - i = Z.abs (i - z) <-> straight (pos z) (pos i) (pos j))) ->
  (forall z, 0 <= z < n -> adjacent (pos z) (pos j) -> z <> i -> (j - i = Z.abs (j - z) <-> straight (pos z) (pos i) (pos j))) ->
  flip_class E c d i j = Ok (kind_of (bond_doping L s i j)).
Proof.
  intros i j Hi Hj Hij A Si Sj G0 G1. unfold flip_class. fold bm.
  destruct (nba_ok i Hi) as (Ei & _ & Ii), (nba_ok j Hj) as (Ej & _ & Ij). fold bm in Ei, Ej. rewrite Ei, Ej. cbn [bind].
  destruct (idx_ok Hole 0) as (Eh & _ & Ih). change (spin_code Hole) with 0 in Eh. rewrite Eh. cbn [bind]. cbn [Z.eqb] in Ih.
  set (h0 := py_set_and E _ _). set (h1 := py_set_and E _ _).
  assert (I0 : forall z, In z h0 <-> 0 <= z < n /\ s z = Hole /\ In z r0 /\ adjacent (pos z) (pos i)).
  { intros z. unfold h0. rewrite in_set_and by exact HE. rewrite Ih, Ii. split.
    - intros ((H1 & H2) & (H4 & H5) & H6). apply adjacent_sym in H2. auto.
    - intros (H1 & H2 & H3 & H4). split; [|auto]. split; [auto | now apply adjacent_sym]. }
  assert (I1 : forall z, In z h1 <-> 0 <= z < n /\ s z = Hole /\ In z r0 /\ adjacent (pos z) (pos j)).
  { intros z. unfold h1. rewrite in_set_and by exact HE. rewrite Ih, Ij. split.
    - intros ((H1 & H2) & (H4 & H5) & H6). apply adjacent_sym in H2. auto.
    - intros (H1 & H2 & H3 & H4). split; [|auto]. split; [auto | now apply adjacent_sym]. }
  clearbody h0 h1.
  assert (IA : forall z, In z (h0 ++ h1) <-> 0 <= z < n /\ hole_near L s i j z = true).
  { intros z. rewrite in_app_iff, I0, I1. split.
    - intros [(H1 & H2 & H3 & H4)|(H1 & H2 & H3 & H4)]; (split; [assumption|]); apply hole_near_iff; auto.
    - intros (H1 & H2). apply hole_near_iff in H2; auto. destruct H2 as (H3 & H4 & [H5|H5]); auto. }
  assert (Ne : forall z, s z = Hole -> z <> i /\ z <> j) by (intros z Hz; split; intros ->; contradiction).
  set (lin := fun z => lineb3 (pos z) (pos i) (pos j)).
  rewrite <- (doping_lists i j (h0 ++ h1) lin Hi Hj IA (fun z _ => lineb3_iff _ _ _)).
  assert (M : mem (j - i) (map (fun h => Z.abs (i - h)) h0 ++ map (fun h => Z.abs (j - h)) h1) = existsb lin (h0 ++ h1)).
  { apply eq_true_iff_eq. rewrite mem_In, in_app_iff, !in_map_iff, existsb_exists. split.
    - intros [(z & Q & Hz)|(z & Q & Hz)]; exists z; (split; [apply in_app_iff; auto|]); apply lineb3_iff.
      + apply I0 in Hz. destruct Hz as (H1 & H2 & _ & H4). apply G0; auto. apply Ne, H2.
      + apply I1 in Hz. destruct Hz as (H1 & H2 & _ & H4). apply G1; auto. apply Ne, H2.
    - intros (z & Hz & Q). apply lineb3_iff in Q. apply in_app_iff in Hz. destruct Hz as [Hz|Hz]; [left|right]; exists z; (split; [|assumption]).
      + apply I0 in Hz. destruct Hz as (H1 & H2 & _ & H4). symmetry. apply G0; auto. apply Ne, H2.
      + apply I1 in Hz. destruct Hz as (H1 & H2 & _ & H4). symmetry. apply G1; auto. apply Ne, H2. }
  rewrite M, !zlen_ne0. destruct h0 as [|a0 h0]; cbn [app orb].
  - destruct h1 as [|a1 h1]; [reflexivity|]. cbn [andb]. destruct (existsb lin (a1 :: h1)); reflexivity.
  - cbn [andb]. destruct (existsb lin (a0 :: h0 ++ h1)); reflexivity.
Qed.

(** flip_class on any drawn lattice *)
Lemma flip_class_number : forall i j, 0 <= i < n -> 0 <= j < n -> i < j -> flip_class E c d i j = Ok (kind_of (number_doping L s i j)).
Proof.
  intros i j Hi Hj Hij. unfold flip_class. fold bm.
  destruct (nba_ok i Hi) as (Ei & _ & Ii), (nba_ok j Hj) as (Ej & _ & Ij). fold bm in Ei, Ej. rewrite Ei, Ej. cbn [bind].
  destruct (idx_ok Hole 0) as (Eh & _ & Ih). change (spin_code Hole) with 0 in Eh. rewrite Eh. cbn [bind]. cbn [Z.eqb] in Ih.
  set (h0 := py_set_and E _ _). set (h1 := py_set_and E _ _).
  assert (I0 : forall z, In z h0 <-> 0 <= z < n /\ s z = Hole /\ In z r0 /\ adjacent (pos z) (pos i)).
  { intros z. unfold h0. rewrite in_set_and by exact HE. rewrite Ih, Ii. split.
    - intros ((H1 & H2) & (H4 & H5) & H6). apply adjacent_sym in H2. auto.
    - intros (H1 & H2 & H3 & H4). split; [|auto]. split; [auto | now apply adjacent_sym]. }
  assert (I1 : forall z, In z h1 <-> 0 <= z < n /\ s z = Hole /\ In z r0 /\ adjacent (pos z) (pos j)).
  { intros z. unfold h1. rewrite in_set_and by exact HE. rewrite Ih, Ij. split.
    - intros ((H1 & H2) & (H4 & H5) & H6). apply adjacent_sym in H2. auto.
    - intros (H1 & H2 & H3 & H4). split; [|auto]. split; [auto | now apply adjacent_sym]. }
  clearbody h0 h1.
  assert (IA : forall z, In z (h0 ++ h1) <-> 0 <= z < n /\ hole_near L s i j z = true).
  { intros z. rewrite in_app_iff, I0, I1. split.
    - intros [(H1 & H2 & H3 & H4)|(H1 & H2 & H3 & H4)]; (split; [assumption|]); apply hole_near_iff; auto.
    - intros (H1 & H2). apply hole_near_iff in H2; auto. destruct H2 as (H3 & H4 & [H5|H5]); auto. }
  set (near := existsb (hole_near L s i j) (sites n)).
  set (far := existsb (fun z => lat_from L z && holeb (s z) && ((bonded L z i && (Z.abs (z - i) =? Z.abs (j - i))) || (bonded L z j && (Z.abs (z - j) =? Z.abs (j - i))))) (sites n)).
  assert (N0 : negb (zlen h0 =? 0) || negb (zlen h1 =? 0) = near).
  { rewrite !zlen_ne0. unfold near. apply eq_true_iff_eq. rewrite existsb_exists. split.
    - intros Q. destruct h0 as [|z h0]; [destruct h1 as [|z h1]; [discriminate|]|]; exists z; rewrite in_sites; apply IA; apply in_app_iff; cbn [In]; auto.
    - intros (z & Hz & Q). rewrite in_sites in Hz. assert (In z (h0 ++ h1)) by (apply IA; auto). destruct h0; [destruct h1; [destruct H|reflexivity]|reflexivity]. }
  assert (B : forall z x, 0 <= z < n -> 0 <= x < n -> (bonded L z x = true <-> adjacent (pos z) (pos x))).
  { intros z x Hz Hx. unfold bonded. rewrite HLp, HLp by assumption. apply bondb_iff. }
  assert (M : mem (j - i) (map (fun h => Z.abs (i - h)) h0 ++ map (fun h => Z.abs (j - h)) h1) = far).
  { apply eq_true_iff_eq. unfold far. rewrite mem_In, in_app_iff, !in_map_iff, existsb_exists. split.
    - intros [(z & Q & Hz)|(z & Q & Hz)]; exists z.
      + apply I0 in Hz. destruct Hz as (H1 & H2 & H3 & H4). rewrite in_sites. split; [assumption|]. rewrite !andb_true_iff, orb_true_iff, !andb_true_iff. split; [split; [now apply HLf | now apply holeb_iff]|].
        left. split; [now apply B | apply Z.eqb_eq; lia].
      + apply I1 in Hz. destruct Hz as (H1 & H2 & H3 & H4). rewrite in_sites. split; [assumption|]. rewrite !andb_true_iff, orb_true_iff, !andb_true_iff. split; [split; [now apply HLf | now apply holeb_iff]|].
        right. split; [now apply B | apply Z.eqb_eq; lia].
    - intros (z & Hz & Q). rewrite in_sites in Hz. rewrite !andb_true_iff, orb_true_iff, !andb_true_iff in Q. destruct Q as ((Q1 & Q2) & [(Q3 & Q4)|(Q3 & Q4)]); [left|right]; exists z;
        apply Z.eqb_eq in Q4; (split; [lia|]); [apply I0 | apply I1]; apply HLf in Q1; try assumption; apply holeb_iff in Q2; apply B in Q3; auto. }
  rewrite M, N0. unfold number_doping. rewrite HLs. fold far near.
  destruct far eqn:F.
  - assert (near = true) as ->; [|reflexivity]. unfold near. apply existsb_exists. unfold far in F. apply existsb_exists in F. destruct F as (z & Hz & Q). exists z. split; [assumption|].
    unfold hole_near. rewrite !andb_true_iff, orb_true_iff, !andb_true_iff in Q. rewrite !andb_true_iff, orb_true_iff. destruct Q as (Q1 & [(Q3 & _)|(Q3 & _)]); auto.
  - rewrite andb_false_r. destruct near; reflexivity.
Qed.

End Det.
