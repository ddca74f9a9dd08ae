(** Symmetries of the t-J operator of SpecTJ.v. *)
From Coq Require Import ZArith List Bool Lia Permutation QArith Qcanon.
From Verif Require Import PyBase PyFacts Interact Spec SpecOps SpecTJ PBasis PSites PRot PSpin.
Import ListNotations.
Open Scope Z_scope.

(** ** Sums *)

Lemma sum_swap : forall n (F : Z -> Z -> Qc),
  sum_sites n (fun x => sum_sites n (F x)) = sum_sites n (fun y => sum_sites n (fun x => F x y)).
Proof. intros. apply qsum_exchange. Qed.

Lemma sum_swap13 : forall n (F : Z -> Z -> Z -> Qc),
  sum_sites n (fun h => sum_sites n (fun m => sum_sites n (F h m))) =
  sum_sites n (fun h => sum_sites n (fun m => sum_sites n (fun e => F e m h))).
Proof.
  intros n F.
  transitivity (sum_sites n (fun m => sum_sites n (fun h => sum_sites n (F h m)))); [apply sum_swap|].
  rewrite (sum_swap n (fun h m => sum_sites n (fun e => F e m h))).
  apply sum_sites_ext. intros m _. apply sum_swap.
Qed.

Lemma sum_reindex : forall n f g (F : Z -> Qc), site_bij n f g -> sum_sites n (fun x => F (f x)) = sum_sites n F.
Proof.
  intros n f g F B. unfold sum_sites. rewrite <- (qsum_map _ _ F f).
  apply qsum_perm. apply NoDup_Permutation_bis.
  - apply NoDup_map_on; [|apply sites_NoDup]. intros x y Hx Hy Q. apply in_sites in Hx, Hy.
    destruct (B x Hx) as (_ & _ & A & _), (B y Hy) as (_ & _ & A' & _). congruence.
  - rewrite map_length. lia.
  - intros x Hx. apply in_map_iff in Hx. destruct Hx as (y & <- & Hy). apply in_sites in Hy. apply in_sites. now apply B.
Qed.

Lemma existsb_reindex : forall n f g P, site_bij n f g -> existsb (fun x => P (f x)) (sites n) = existsb P (sites n).
Proof.
  intros n f g P B. apply eq_true_iff_eq. rewrite !existsb_exists. split; intros (x & Hx & H); apply in_sites in Hx.
  - exists (f x). rewrite in_sites. split; [now apply B | assumption].
  - exists (g x). rewrite in_sites. destruct (B x Hx) as (_ & A & _ & ->). auto.
Qed.

Lemma existsb_sites_ext : forall n P Q, (forall x, 0 <= x < n -> P x = Q x) -> existsb P (sites n) = existsb Q (sites n).
Proof.
  intros n P Q H. apply eq_true_iff_eq. rewrite !existsb_exists. split; intros (x & Hx & H1); exists x; (split; [assumption|]);
    apply in_sites in Hx; [rewrite <- H | rewrite H]; assumption.
Qed.

Lemma sum_sites_add : forall n f g, sum_sites n (fun x => (f x + g x)%Qc) = (sum_sites n f + sum_sites n g)%Qc.
Proof. intros. apply qsum_add. Qed.

Lemma sum_sites_scale : forall n f k, sum_sites n (fun x => (k * f x)%Qc) = (k * sum_sites n f)%Qc.
Proof. intros. apply qsum_scale. Qed.

(** half of the sum over all ordered pairs *)
Lemma sum_ordered : forall n (F : Z -> Z -> Qc), (forall i j, 0 <= i < n -> 0 <= j < n -> F i j = F j i) ->
  sum_sites n (fun i => sum_sites n (fun j => only (i <? j) (F i j))) =
  (half * sum_sites n (fun i => sum_sites n (fun j => only (negb (i =? j)) (F i j))))%Qc.
Proof.
  intros n F S. set (A := sum_sites n (fun i => sum_sites n (fun j => only (i <? j) (F i j)))).
  assert (H : sum_sites n (fun i => sum_sites n (fun j => only (negb (i =? j)) (F i j))) = (A + A)%Qc).
  { transitivity (A + sum_sites n (fun i => sum_sites n (fun j => only (j <? i) (F j i))))%Qc.
    - unfold A. rewrite <- sum_sites_add. apply sum_sites_ext. intros i Hi. rewrite <- sum_sites_add.
      apply sum_sites_ext. intros j Hj. rewrite (S j i) by assumption.
      destruct (Z.eqb_spec i j), (Z.ltb_spec i j), (Z.ltb_spec j i); try lia; cbn [negb only]; ring.
    - f_equal. symmetry. unfold A. apply sum_swap. }
  rewrite H. transitivity ((half + half) * A)%Qc; [|ring].
  replace (half + half)%Qc with 1%Qc by (apply Qc_is_canon; reflexivity). ring.
Qed.

Lemma only_and : forall a b x, only (a && b) x = only a (only b x).
Proof. intros [|] [|] x; reflexivity. Qed.

(** ** Relabelling of the sites *)

Section Relabel.
Variables (L L' : lattice) (n : Z) (f g : Z -> Z) (ph : particle -> particle).
Hypothesis H1 : lat_size L = n.
Hypothesis H2 : lat_size L' = n.
Hypothesis B : site_bij n f g.
Hypothesis Hbond : forall x y, 0 <= x < n -> 0 <= y < n -> bonded L' (f x) (f y) = bonded L x y.
Hypothesis Hline : forall x y, 0 <= x < n -> 0 <= y < n -> lineb2 (lat_pos L' (f x)) (lat_pos L' (f y)) = lineb2 (lat_pos L x) (lat_pos L y).
Hypothesis Hline3 : forall x y z, 0 <= x < n -> 0 <= y < n -> 0 <= z < n ->
  lineb3 (lat_pos L' (f x)) (lat_pos L' (f y)) (lat_pos L' (f z)) = lineb3 (lat_pos L x) (lat_pos L y) (lat_pos L z).
Hypothesis Hdiag : forall x y, 0 <= x < n -> 0 <= y < n -> diagb (lat_pos L' (f x)) (lat_pos L' (f y)) = diagb (lat_pos L x) (lat_pos L y).
Hypothesis Hfrom : forall x, 0 <= x < n -> lat_from L' (f x) = lat_from L x.
Hypothesis Hto : forall x, 0 <= x < n -> lat_to L' (f x) = lat_to L x.
Hypothesis Hft : forall x, 0 <= x < n -> lat_from L x = lat_to L x.
Hypothesis ph_hole : forall p, holeb (ph p) = holeb p.
Hypothesis ph_opp : forall p q, oppositeb (ph p) (ph q) = oppositeb p q.
Hypothesis ph_same : forall p q, samep (ph p) (ph q) = samep p q.

(** [s'] is [s] relabelled *)
Definition rel (s s' : occupation) : Prop := forall x, 0 <= x < n -> s' (f x) = ph (s x).

Lemma f_rng : forall x, 0 <= x < n -> 0 <= f x < n. Proof. intros x Hx. now apply B. Qed.
Lemma f_eqb : forall x y, 0 <= x < n -> 0 <= y < n -> (f x =? f y) = (x =? y).
Proof.
  intros x y Hx Hy. destruct (B x Hx) as (_ & _ & A & _), (B y Hy) as (_ & _ & A' & _).
  apply eq_true_iff_eq. rewrite !Z.eqb_eq. split; congruence.
Qed.

Lemma rel_swap : forall s s' x y, rel s s' -> 0 <= x < n -> 0 <= y < n -> rel (swap_state x y s) (swap_state (f x) (f y) s').
Proof.
  intros s s' x y R Hx Hy z Hz. unfold swap_state. rewrite !f_eqb by assumption.
  destruct (z =? x); [now apply R|]. destruct (z =? y); now apply R.
Qed.

Lemma rel_shift : forall s s' x y z, rel s s' -> 0 <= x < n -> 0 <= y < n -> 0 <= z < n ->
  rel (shift_state x y z s) (shift_state (f x) (f y) (f z) s').
Proof.
  intros s s' x y z R Hx Hy Hz u Hu. unfold shift_state. rewrite !f_eqb by assumption.
  destruct (u =? x); [now apply R|]. destruct (u =? y); [now apply R|]. destruct (u =? z); now apply R.
Qed.

Lemma rel_same : forall s s' t t', rel s s' -> rel t t' -> sameb n s' t' = sameb n s t.
Proof.
  intros s s' t t' R R'. apply eq_true_iff_eq. unfold sameb. rewrite !forallb_forall. split; intros H x Hx.
  - apply in_sites in Hx. specialize (H (f x)). rewrite R, R', ph_same in H by assumption. apply H. apply in_sites. now apply f_rng.
  - apply in_sites in Hx. destruct (B x Hx) as (_ & A & _ & <-). rewrite R, R', ph_same by assumption. apply H, in_sites, A.
Qed.

Lemma rel_doping : forall s s' i j, rel s s' -> 0 <= i < n -> 0 <= j < n ->
  bond_doping L' s' (f i) (f j) = bond_doping L s i j.
Proof.
  intros s s' i j R Hi Hj. unfold bond_doping. rewrite H1, H2.
  assert (HN : forall z, 0 <= z < n -> hole_near L' s' (f i) (f j) (f z) = hole_near L s i j z).
  { intros z Hz. unfold hole_near. rewrite Hfrom, R, ph_hole, !Hbond by assumption. reflexivity. }
  rewrite <- (existsb_reindex n f g (hole_near L' s' (f i) (f j)) B).
  rewrite <- (existsb_reindex n f g (fun z => hole_near L' s' (f i) (f j) z && lineb3 (lat_pos L' z) (lat_pos L' (f i)) (lat_pos L' (f j))) B).
  rewrite (existsb_sites_ext n (fun z => hole_near L' s' (f i) (f j) (f z) && lineb3 (lat_pos L' (f z)) (lat_pos L' (f i)) (lat_pos L' (f j)))
      (fun z => hole_near L s i j z && lineb3 (lat_pos L z) (lat_pos L i) (lat_pos L j)))
    by (intros z Hz; rewrite HN, Hline3 by assumption; reflexivity).
  rewrite (existsb_sites_ext n (fun z => hole_near L' s' (f i) (f j) (f z)) (hole_near L s i j)) by exact HN. reflexivity.
Qed.

Lemma rel_hop : forall K s s' t t', rel s s' -> rel t t' -> op_hop L' K s' t' = op_hop L K s t.
Proof.
  intros K s s' t t' R R'. unfold op_hop. rewrite H1, H2.
  rewrite <- (sum_reindex n f g _ B). apply sum_sites_ext. intros h Hh.
  rewrite <- (sum_reindex n f g _ B). apply sum_sites_ext. intros e He.
  rewrite Hfrom, Hto, Hbond, !R, !ph_hole by assumption.
  rewrite (rel_same t t' (swap_state h e s) (swap_state (f h) (f e) s')); [reflexivity|assumption|now apply rel_swap].
Qed.

Lemma rel_two : forall x y, 0 <= x < n -> 0 <= y < n -> two_bonds L' (f x) (f y) = two_bonds L x y.
Proof.
  intros x y Hx Hy. unfold two_bonds. rewrite H1, H2, <- (existsb_reindex n f g _ B).
  apply existsb_sites_ext. intros z Hz. now rewrite !Hbond.
Qed.

Lemma rel_next : forall K s s' t t', rel s s' -> rel t t' -> op_next_hop L' K s' t' = op_next_hop L K s t.
Proof.
  intros K s s' t t' R R'. unfold op_next_hop. rewrite H1, H2.
  rewrite <- (sum_reindex n f g _ B). apply sum_sites_ext. intros h Hh.
  rewrite <- (sum_reindex n f g _ B). apply sum_sites_ext. intros e He.
  rewrite Hfrom, Hto, rel_two, Hline, !R, !ph_hole by assumption.
  rewrite (rel_same t t' (swap_state h e s) (swap_state (f h) (f e) s')); [reflexivity|assumption|now apply rel_swap].
Qed.

Lemma rel_singlet : forall K s s' t t', rel s s' -> rel t t' -> op_singlet L' K s' t' = op_singlet L K s t.
Proof.
  intros K s s' t t' R R'. unfold op_singlet. rewrite H1, H2.
  rewrite <- (sum_reindex n f g _ B). apply sum_sites_ext. intros h Hh.
  rewrite <- (sum_reindex n f g _ B). apply sum_sites_ext. intros m Hm.
  rewrite <- (sum_reindex n f g _ B). apply sum_sites_ext. intros e He.
  rewrite Hfrom, !Hto, !Hbond, Hline, !R, ph_hole, ph_opp by assumption.
  rewrite (rel_same t t' (swap_state h e s) (swap_state (f h) (f e) s')); [|assumption|now apply rel_swap].
  rewrite (rel_same t t' (shift_state h m e s) (shift_state (f h) (f m) (f e) s')); [reflexivity|assumption|now apply rel_shift].
Qed.
End Relabel.

Lemma lineb3_swap : forall p q r, lineb3 p q r = lineb3 p r q.
Proof.
  intros p q r. apply eq_true_iff_eq. unfold lineb3. rewrite !orb_true_iff, !andb_true_iff, !Z.eqb_eq. intuition congruence.
Qed.

Lemma oppositeb_sym : forall p q, oppositeb p q = oppositeb q p.
Proof. intros [] []; reflexivity. Qed.

Lemma diagb_sym : forall p q, diagb p q = diagb q p.
Proof. intros p q. apply eq_true_iff_eq. unfold diagb. rewrite !andb_true_iff, !Z.eqb_eq. lia. Qed.

Lemma lineb2_sym : forall p q, lineb2 p q = lineb2 q p.
Proof. intros p q. apply eq_true_iff_eq. unfold lineb2. rewrite !orb_true_iff, !Z.eqb_eq. intuition congruence. Qed.

Lemma bonded_sym : forall L x y, bonded L x y = bonded L y x.
Proof. intros. apply bondb_sym. Qed.

Lemma doping_sym : forall L s i j, bond_doping L s i j = bond_doping L s j i.
Proof.
  intros L s i j. unfold bond_doping.
  assert (HN : forall z, hole_near L s i j z = hole_near L s j i z) by (intros z; unfold hole_near; now rewrite (orb_comm (bonded L z i))).
  rewrite (existsb_sites_ext _ (hole_near L s i j) (hole_near L s j i)) by (intros; apply HN).
  rewrite (existsb_sites_ext _ (fun z => hole_near L s i j z && lineb3 (lat_pos L z) (lat_pos L i) (lat_pos L j))
    (fun z => hole_near L s j i z && lineb3 (lat_pos L z) (lat_pos L j) (lat_pos L i))); [reflexivity|].
  intros z _. now rewrite HN, lineb3_swap.
Qed.

(** bonds between opposite spins, in both directions *)
Definition opp_bond (L : lattice) (s : occupation) (i j : Z) : bool :=
  lat_from L i && lat_to L j && bonded L i j && oppositeb (s i) (s j).

Lemma spin_bond_opp : forall L s i j, spin_bond L s i j = (i <? j) && opp_bond L s i j.
Proof. intros. unfold spin_bond, opp_bond. now rewrite !andb_assoc. Qed.

Section Both.
Variables (L : lattice) (n : Z).
Hypothesis HS : lat_size L = n.
Hypothesis Hft : forall x, 0 <= x < n -> lat_from L x = lat_to L x.

Lemma opp_bond_sym : forall s i j, 0 <= i < n -> 0 <= j < n -> opp_bond L s i j = opp_bond L s j i.
Proof.
  intros s i j Hi Hj. unfold opp_bond. rewrite (Hft i Hi), (Hft j Hj), bonded_sym, oppositeb_sym.
  now rewrite (andb_comm (lat_to L i)).
Qed.

Lemma static_both : forall K s, op_static L K s =
  (half * sum_sites n (fun i => sum_sites n (fun j => only (negb (i =? j))
     (only (opp_bond L s i j) (- (half * exchange K (bond_doping L s i j)))%Qc))))%Qc.
Proof.
  intros K s. unfold op_static. rewrite HS. rewrite <- sum_ordered.
  - apply sum_sites_ext. intros i _. apply sum_sites_ext. intros j _. now rewrite spin_bond_opp, only_and.
  - intros i j Hi Hj. now rewrite (opp_bond_sym s i j), (doping_sym L s i j).
Qed.

Lemma swap_sym : forall x y s z, swap_state x y s z = swap_state y x s z.
Proof. intros. unfold swap_state. destruct (Z.eqb_spec z x), (Z.eqb_spec z y); congruence. Qed.

Lemma sameb_ext : forall m s s' t t', same_state m s s' -> same_state m t t' -> sameb m s t = sameb m s' t'.
Proof.
  intros m s s' t t' H H'. apply eq_true_iff_eq. rewrite !sameb_iff. unfold same_state in *.
  split; intros Q x Hx; [rewrite <- H, <- H' by assumption | rewrite H, H' by assumption]; now apply Q.
Qed.

Lemma flip_both : forall K s t, op_flip L K s t =
  (half * sum_sites n (fun i => sum_sites n (fun j => only (negb (i =? j))
     (only (opp_bond L s i j && sameb n t (swap_state i j s)) (half * exchange K (bond_doping L s i j))%Qc))))%Qc.
Proof.
  intros K s t. unfold op_flip. rewrite HS. rewrite <- sum_ordered.
  - apply sum_sites_ext. intros i _. apply sum_sites_ext. intros j _. now rewrite spin_bond_opp, <- andb_assoc, only_and.
  - intros i j Hi Hj. rewrite (opp_bond_sym s i j), (doping_sym L s i j) by assumption.
    rewrite (sameb_ext n t t (swap_state i j s) (swap_state j i s)); [reflexivity|intros x _; reflexivity|].
    intros x _. apply swap_sym.
Qed.

Definition hole_pair (K : interactions) (s : occupation) (i j : Z) : Qc :=
  only (lat_from L i && lat_from L j && holeb (s i) && holeb (s j))
       (only (bonded L i j) (i_VNN K) + only (diagb (lat_pos L i) (lat_pos L j)) (i_VNNNper K))%Qc.

Lemma repulsion_both : forall K s, op_repulsion L K s =
  (half * sum_sites n (fun i => sum_sites n (fun j => only (negb (i =? j)) (hole_pair K s i j))))%Qc.
Proof.
  intros K s. unfold op_repulsion. rewrite HS. rewrite <- sum_ordered.
  - apply sum_sites_ext. intros i _. apply sum_sites_ext. intros j _. unfold hole_pair.
    rewrite <- only_and, !andb_assoc. reflexivity.
  - intros i j Hi Hj. unfold hole_pair. rewrite bonded_sym, diagb_sym.
    rewrite (andb_comm (lat_from L i)), <- !andb_assoc, (andb_comm (holeb (s i))). reflexivity.
Qed.
End Both.

Section Relabel2.
Variables (L L' : lattice) (n : Z) (f g : Z -> Z) (ph : particle -> particle).
Hypothesis H1 : lat_size L = n.
Hypothesis H2 : lat_size L' = n.
Hypothesis B : site_bij n f g.
Hypothesis Hbond : forall x y, 0 <= x < n -> 0 <= y < n -> bonded L' (f x) (f y) = bonded L x y.
Hypothesis Hline : forall x y, 0 <= x < n -> 0 <= y < n -> lineb2 (lat_pos L' (f x)) (lat_pos L' (f y)) = lineb2 (lat_pos L x) (lat_pos L y).
Hypothesis Hline3 : forall x y z, 0 <= x < n -> 0 <= y < n -> 0 <= z < n ->
  lineb3 (lat_pos L' (f x)) (lat_pos L' (f y)) (lat_pos L' (f z)) = lineb3 (lat_pos L x) (lat_pos L y) (lat_pos L z).
Hypothesis Hdiag : forall x y, 0 <= x < n -> 0 <= y < n -> diagb (lat_pos L' (f x)) (lat_pos L' (f y)) = diagb (lat_pos L x) (lat_pos L y).
Hypothesis Hfrom : forall x, 0 <= x < n -> lat_from L' (f x) = lat_from L x.
Hypothesis Hto : forall x, 0 <= x < n -> lat_to L' (f x) = lat_to L x.
Hypothesis Hft : forall x, 0 <= x < n -> lat_from L x = lat_to L x.
Hypothesis ph_hole : forall p, holeb (ph p) = holeb p.
Hypothesis ph_opp : forall p q, oppositeb (ph p) (ph q) = oppositeb p q.
Hypothesis ph_same : forall p q, samep (ph p) (ph q) = samep p q.

Lemma Hft' : forall x, 0 <= x < n -> lat_from L' x = lat_to L' x.
Proof. intros x Hx. destruct (B x Hx) as (_ & A & _ & <-). rewrite Hfrom, Hto by assumption. now apply Hft. Qed.

Lemma rel_opp : forall s s' i j, rel n f ph s s' -> 0 <= i < n -> 0 <= j < n -> opp_bond L' s' (f i) (f j) = opp_bond L s i j.
Proof. intros s s' i j R Hi Hj. unfold opp_bond. now rewrite Hfrom, Hto, Hbond, !R, ph_opp. Qed.

Lemma rel_static : forall K s s', rel n f ph s s' -> op_static L' K s' = op_static L K s.
Proof.
  intros K s s' R. rewrite (static_both L' n H2 Hft'), (static_both L n H1 Hft). f_equal.
  rewrite <- (sum_reindex n f g _ B). apply sum_sites_ext. intros i Hi.
  rewrite <- (sum_reindex n f g _ B). apply sum_sites_ext. intros j Hj.
  rewrite (f_eqb n f g B), (rel_opp s s'), (rel_doping L L' n f g ph H1 H2 B Hbond Hline3 Hfrom ph_hole s s') by assumption. reflexivity.
Qed.

Lemma rel_flip : forall K s s' t t', rel n f ph s s' -> rel n f ph t t' -> op_flip L' K s' t' = op_flip L K s t.
Proof.
  intros K s s' t t' R R'. rewrite (flip_both L' n H2 Hft'), (flip_both L n H1 Hft). f_equal.
  rewrite <- (sum_reindex n f g _ B). apply sum_sites_ext. intros i Hi.
  rewrite <- (sum_reindex n f g _ B). apply sum_sites_ext. intros j Hj.
  rewrite (f_eqb n f g B), (rel_opp s s'), (rel_doping L L' n f g ph H1 H2 B Hbond Hline3 Hfrom ph_hole s s') by assumption.
  rewrite (rel_same n f g ph B ph_same t t' (swap_state i j s) (swap_state (f i) (f j) s')); [reflexivity|assumption|].
  now apply (rel_swap n f g ph B).
Qed.

Lemma rel_repulsion : forall K s s', rel n f ph s s' -> op_repulsion L' K s' = op_repulsion L K s.
Proof.
  intros K s s' R. rewrite (repulsion_both L' n H2), (repulsion_both L n H1). f_equal.
  rewrite <- (sum_reindex n f g _ B). apply sum_sites_ext. intros i Hi.
  rewrite <- (sum_reindex n f g _ B). apply sum_sites_ext. intros j Hj.
  rewrite (f_eqb n f g B) by assumption. unfold hole_pair.
  rewrite !Hfrom, !R, !ph_hole, Hbond, Hdiag by assumption. reflexivity.
Qed.

Lemma rel_tj : forall K S s s' t t', rel n f ph s s' -> rel n f ph t t' -> tj_element L' K S s' t' = tj_element L K S s t.
Proof.
  intros K S s s' t t' R R'. unfold tj_element. rewrite H1, H2.
  rewrite (rel_same n f g ph B ph_same s s' t t' R R').
  rewrite (rel_static K s s' R), (rel_flip K s s' t t' R R'), (rel_repulsion K s s' R).
  rewrite (rel_hop L L' n f g ph) with (s := s) (t := t) by assumption.
  rewrite (rel_next L L' n f g ph) with (s := s) (t := t) by assumption.
  rewrite (rel_singlet L L' n f g ph) with (s := s) (t := t) by assumption. reflexivity.
Qed.
End Relabel2.

Lemma id_bij : forall n, site_bij n (fun x => x) (fun x => x).
Proof. intros n x Hx. auto. Qed.

Lemma flip_hole : forall p, holeb (flip_particle p) = holeb p. Proof. now intros []. Qed.
Lemma flip_opp : forall p q, oppositeb (flip_particle p) (flip_particle q) = oppositeb p q. Proof. now intros [] []. Qed.
Lemma flip_same : forall p q, samep (flip_particle p) (flip_particle q) = samep p q. Proof. now intros [] []. Qed.

(** the operator sees the sites only *)
Lemma tj_ext : forall L L' n K S s s' t t', lat_size L = n -> lat_size L' = n ->
  (forall x, 0 <= x < n -> lat_pos L' x = lat_pos L x) ->
  (forall x, 0 <= x < n -> lat_from L' x = lat_from L x) -> (forall x, 0 <= x < n -> lat_to L' x = lat_to L x) ->
  (forall x, 0 <= x < n -> lat_from L x = lat_to L x) ->
  same_state n s s' -> same_state n t t' -> tj_element L' K S s' t' = tj_element L K S s t.
Proof.
  intros L L' n K S s s' t t' H1 H2 P F T FT Hs Ht.
  apply (rel_tj L L' n (fun x => x) (fun x => x) (fun p => p)); try assumption; try reflexivity.
  - apply id_bij.
  - intros x y Hx Hy. unfold bonded. now rewrite !P.
  - intros x y Hx Hy. now rewrite !P.
  - intros x y z Hx Hy Hz. now rewrite !P.
  - intros x y Hx Hy. now rewrite !P.
  - intros x Hx. symmetry. now apply Hs.
  - intros x Hx. symmetry. now apply Ht.
Qed.

Lemma tj_spin_flip : forall L K S s t, (forall x, 0 <= x < lat_size L -> lat_from L x = lat_to L x) ->
  tj_element L K S (flip_state s) (flip_state t) = tj_element L K S s t.
Proof.
  intros L K S s t FT.
  apply (rel_tj L L (lat_size L) (fun x => x) (fun x => x) flip_particle); try assumption; try reflexivity.
  - apply id_bij.
  - apply flip_hole.
  - apply flip_opp.
  - apply flip_same.
  - intros x _. reflexivity.
  - intros x _. reflexivity.
Qed.

(** ** Symmetry of the matrix *)

Lemma bool_sym : forall a b : bool, (a = true -> b = true) -> (b = true -> a = true) -> a = b.
Proof. intros a b H1 H2. apply eq_true_iff_eq. split; assumption. Qed.

Section Symmetric.
Variables (L : lattice) (n : Z).
Hypothesis HS : lat_size L = n.
Hypothesis Hft : forall x, 0 <= x < n -> lat_from L x = lat_to L x.

Lemma swap_back : forall x y s t, same_state n t (swap_state x y s) -> 0 <= x < n -> 0 <= y < n ->
  same_state n s (swap_state y x t) /\ t x = s y /\ t y = s x.
Proof.
  intros x y s t H Hx Hy. assert (A : t x = s y) by (rewrite (H x Hx); unfold swap_state; now rewrite Z.eqb_refl).
  assert (A' : t y = s x). { rewrite (H y Hy). unfold swap_state. destruct (Z.eqb_spec y x); [congruence|]. now rewrite Z.eqb_refl. }
  split; [|auto]. intros z Hz. unfold swap_state. destruct (Z.eqb_spec z y); [congruence|]. destruct (Z.eqb_spec z x); [congruence|].
  rewrite (H z Hz). unfold swap_state. destruct (Z.eqb_spec z x); [contradiction|]. destruct (Z.eqb_spec z y); [contradiction|]. reflexivity.
Qed.

Lemma swap_term : forall (R : Z -> Z -> bool) s t h e, (forall x y, R x y = R y x) -> 0 <= h < n -> 0 <= e < n ->
  lat_from L h && lat_to L e && R h e && holeb (s h) && negb (holeb (s e)) && sameb n t (swap_state h e s) =
  lat_from L e && lat_to L h && R e h && holeb (t e) && negb (holeb (t h)) && sameb n s (swap_state e h t).
Proof.
  assert (G : forall (R : Z -> Z -> bool) s t h e, (forall x y, R x y = R y x) -> 0 <= h < n -> 0 <= e < n ->
    lat_from L h && lat_to L e && R h e && holeb (s h) && negb (holeb (s e)) && sameb n t (swap_state h e s) = true ->
    lat_from L e && lat_to L h && R e h && holeb (t e) && negb (holeb (t h)) && sameb n s (swap_state e h t) = true).
  { intros R s t h e HR Hh He H. rewrite !andb_true_iff, sameb_iff in H. destruct H as (((((A & C) & D) & F) & G) & Q).
    apply swap_back in Q; [|assumption|assumption]. destruct Q as (Q & Q1 & Q2).
    rewrite !andb_true_iff, sameb_iff, Q1, Q2, (HR e h), (Hft e He), <- (Hft h Hh). auto 10. }
  intros R s t h e HR Hh He. apply bool_sym; apply G; assumption.
Qed.

Lemma hop_sym : forall K s t, op_hop L K s t = op_hop L K t s.
Proof.
  intros K s t. unfold op_hop. rewrite HS. rewrite (sum_swap n). apply sum_sites_ext. intros h Hh. apply sum_sites_ext. intros e He.
  f_equal. apply swap_term; [apply bonded_sym|assumption|assumption].
Qed.

Lemma two_sym : forall x y, two_bonds L x y = two_bonds L y x.
Proof.
  intros x y. unfold two_bonds. apply existsb_sites_ext. intros z _. rewrite (bonded_sym L x z), (bonded_sym L z y). apply andb_comm.
Qed.

Lemma next_sym : forall K s t, op_next_hop L K s t = op_next_hop L K t s.
Proof.
  intros K s t. unfold op_next_hop. rewrite HS. rewrite (sum_swap n). apply sum_sites_ext. intros h Hh. apply sum_sites_ext. intros e He.
  rewrite (lineb2_sym (lat_pos L e)). f_equal. apply swap_term; [apply two_sym|assumption|assumption].
Qed.

Lemma doping_holes : forall s t i j, (forall z, 0 <= z < n -> holeb (s z) = holeb (t z)) -> bond_doping L s i j = bond_doping L t i j.
Proof.
  intros s t i j H. unfold bond_doping. rewrite HS.
  assert (HN : forall z, 0 <= z < n -> hole_near L s i j z = hole_near L t i j z) by (intros z Hz; unfold hole_near; now rewrite H).
  rewrite (existsb_sites_ext _ (hole_near L s i j) (hole_near L t i j)) by (intros; now apply HN).
  rewrite (existsb_sites_ext _ (fun z => hole_near L s i j z && lineb3 (lat_pos L z) (lat_pos L i) (lat_pos L j))
    (fun z => hole_near L t i j z && lineb3 (lat_pos L z) (lat_pos L i) (lat_pos L j))); [reflexivity|].
  intros z Hz. now rewrite HN.
Qed.

Lemma opp_no_hole : forall p q, oppositeb p q = true -> holeb p = false /\ holeb q = false.
Proof. intros [] []; cbn; intros; auto; discriminate. Qed.

Lemma flip_sym : forall K s t, op_flip L K s t = op_flip L K t s.
Proof.
  assert (G : forall s t i j, 0 <= i < n -> 0 <= j < n -> spin_bond L s i j && sameb n t (swap_state i j s) = true ->
     spin_bond L t i j && sameb n s (swap_state i j t) = true /\ bond_doping L s i j = bond_doping L t i j).
  { intros s t i j Hi Hj H. apply andb_true_iff in H. destruct H as [A Q]. apply sameb_iff in Q. pose proof Q as Q0.
    apply swap_back in Q; [|assumption|assumption]. destruct Q as (Q & Q1 & Q2).
    unfold spin_bond in *. rewrite !andb_true_iff in A. destruct A as ((((A1 & A2) & A3) & A4) & A5). split.
    - rewrite !andb_true_iff, Q1, Q2, oppositeb_sym, sameb_iff. repeat (split; [assumption || auto|]).
      intros z Hz. rewrite (Q z Hz). apply swap_sym.
    - apply doping_holes. intros z Hz. destruct (opp_no_hole _ _ A5) as [N1 N2].
      rewrite (Q0 z Hz). unfold swap_state. destruct (Z.eqb_spec z i) as [->|]; [congruence|].
      destruct (Z.eqb_spec z j) as [->|]; congruence. }
  intros K s t. unfold op_flip. rewrite HS. apply sum_sites_ext. intros i Hi. apply sum_sites_ext. intros j Hj.
  destruct (spin_bond L s i j && sameb n t (swap_state i j s)) eqn:Q.
  - destruct (G s t i j Hi Hj Q) as [-> ->]. reflexivity.
  - destruct (spin_bond L t i j && sameb n s (swap_state i j t)) eqn:Q'; [|reflexivity].
    destruct (G t s i j Hi Hj Q') as [Q'' _]. congruence.
Qed.

Definition sd_cond (s : occupation) (h m e : Z) : bool :=
  lat_from L h && lat_to L m && lat_to L e && bonded L h m && bonded L m e && holeb (s h) && oppositeb (s m) (s e).

Lemma bonded_irrefl : forall x, bonded L x x = false.
Proof. intros x. unfold bonded, bondb. rewrite !Z.sub_diag. reflexivity. Qed.

Lemma sd_term : forall s t h m e, 0 <= h < n -> 0 <= m < n -> 0 <= e < n ->
  sd_cond s h m e && sameb n t (shift_state h m e s) = sd_cond t e m h && sameb n s (shift_state e m h t) /\
  sd_cond s h m e && sameb n t (swap_state h e s) = sd_cond t e m h && sameb n s (swap_state e h t).
Proof.
  assert (G : forall s t h m e, 0 <= h < n -> 0 <= m < n -> 0 <= e < n -> sd_cond s h m e = true ->
    h <> m /\ m <> e /\ h <> e /\ (t e = s h -> oppositeb (t m) (t h) = true -> sd_cond t e m h = true)).
  { intros s t h m e Hh Hm He H. unfold sd_cond in *. rewrite !andb_true_iff in H. destruct H as ((((((A1 & A2) & A3) & A4) & A5) & A6) & A7).
    assert (N1 : h <> m) by (intros ->; rewrite bonded_irrefl in A4; discriminate).
    assert (N2 : m <> e) by (intros ->; rewrite bonded_irrefl in A5; discriminate).
    assert (N3 : h <> e) by (intros ->; apply opp_no_hole in A7; destruct A7; congruence).
    do 3 (split; [assumption|]). intros T O. rewrite !andb_true_iff, T, (bonded_sym L e m), (bonded_sym L m h), (Hft e He), <- (Hft h Hh). auto 10. }
  assert (G1 : forall s t h m e, 0 <= h < n -> 0 <= m < n -> 0 <= e < n ->
    sd_cond s h m e && sameb n t (shift_state h m e s) = true -> sd_cond t e m h && sameb n s (shift_state e m h t) = true).
  { intros s t h m e Hh Hm He H. apply andb_true_iff in H. destruct H as [C Q]. apply sameb_iff in Q.
    destruct (G s t h m e Hh Hm He C) as (N1 & N2 & N3 & G').
    assert (T1 : t h = s m) by (rewrite (Q h Hh); unfold shift_state; now rewrite Z.eqb_refl).
    assert (T2 : t m = s e) by (rewrite (Q m Hm); unfold shift_state; destruct (Z.eqb_spec m h); [congruence|now rewrite Z.eqb_refl]).
    assert (T3 : t e = s h). { rewrite (Q e He); unfold shift_state; destruct (Z.eqb_spec e h); [congruence|]. destruct (Z.eqb_spec e m); [congruence|]. now rewrite Z.eqb_refl. }
    apply andb_true_iff. split.
    - apply G'; [assumption|]. rewrite T1, T2, oppositeb_sym. unfold sd_cond in C. rewrite !andb_true_iff in C. apply C.
    - apply sameb_iff. intros z Hz. unfold shift_state. destruct (Z.eqb_spec z e); [congruence|]. destruct (Z.eqb_spec z m); [congruence|].
      destruct (Z.eqb_spec z h); [congruence|]. rewrite (Q z Hz). unfold shift_state.
      destruct (Z.eqb_spec z h); [contradiction|]. destruct (Z.eqb_spec z m); [contradiction|]. destruct (Z.eqb_spec z e); [contradiction|]. reflexivity. }
  assert (G2 : forall s t h m e, 0 <= h < n -> 0 <= m < n -> 0 <= e < n ->
    sd_cond s h m e && sameb n t (swap_state h e s) = true -> sd_cond t e m h && sameb n s (swap_state e h t) = true).
  { intros s t h m e Hh Hm He H. apply andb_true_iff in H. destruct H as [C Q]. apply sameb_iff in Q.
    destruct (G s t h m e Hh Hm He C) as (N1 & N2 & N3 & G'). pose proof Q as Q0.
    apply swap_back in Q; [|assumption|assumption]. destruct Q as (Q & Q1 & Q2).
    apply andb_true_iff. split; [|now apply sameb_iff]. apply G'; [assumption|].
    assert (T : t m = s m).
    { rewrite (Q0 m Hm). unfold swap_state. destruct (Z.eqb_spec m h); [congruence|]. destruct (Z.eqb_spec m e); [congruence|]. reflexivity. }
    rewrite T, Q1. unfold sd_cond in C. rewrite !andb_true_iff in C. apply C. }
  intros s t h m e Hh Hm He. split; apply bool_sym; intros H; first [now apply G1 | now apply G2].
Qed.

Lemma singlet_sym : forall K s t, op_singlet L K s t = op_singlet L K t s.
Proof.
  intros K s t. unfold op_singlet. rewrite HS. rewrite (sum_swap13 n).
  apply sum_sites_ext. intros e He. apply sum_sites_ext. intros m Hm. apply sum_sites_ext. intros h Hh.
  destruct (sd_term s t h m e Hh Hm He) as [A C]. unfold sd_cond in A, C. rewrite (lineb2_sym (lat_pos L h)).
  revert A C.
  destruct (lat_from L h && lat_to L m && lat_to L e && bonded L h m && bonded L m e && holeb (s h) && oppositeb (s m) (s e)),
    (lat_from L e && lat_to L m && lat_to L h && bonded L e m && bonded L m h && holeb (t e) && oppositeb (t m) (t h));
    cbn [andb only]; intros A C; rewrite ?A, ?C, <- ?A, <- ?C; cbn [only]; ring.
Qed.

Lemma tj_sym : forall K S s t, tj_element L K S s t = tj_element L K S t s.
Proof.
  intros K S s t. unfold tj_element. rewrite hop_sym, flip_sym, singlet_sym, next_sym, HS.
  assert (Q : sameb n s t = sameb n t s).
  { apply eq_true_iff_eq. rewrite !sameb_iff. split; intros H x Hx; symmetry; now apply H. }
  rewrite <- Q. destruct (sameb n s t) eqn:Q1; [|reflexivity].
  assert (R : rel n (fun x => x) (fun p => p) s t) by (intros x Hx; apply sameb_iff in Q1; symmetry; now apply Q1).
  assert (R1 : op_static L K t = op_static L K s)
    by (apply (rel_static L L n (fun x => x) (fun x => x) (fun p => p)); try assumption; try reflexivity; apply id_bij).
  assert (R2 : op_repulsion L K t = op_repulsion L K s)
    by (apply (rel_repulsion L L n (fun x => x) (fun x => x) (fun p => p)); try assumption; try reflexivity; apply id_bij).
  rewrite R1, R2. reflexivity.
Qed.
End Symmetric.

(** ** Linearity *)

Lemma sum_lin : forall n a b f g h, (forall x, 0 <= x < n -> h x = (a * f x + b * g x)%Qc) ->
  sum_sites n h = (a * sum_sites n f + b * sum_sites n g)%Qc.
Proof.
  intros n a b f g h H. rewrite <- !sum_sites_scale, <- sum_sites_add. apply sum_sites_ext. assumption.
Qed.

Lemma tj_linear : forall L a b K K' S s t,
  tj_element L (combine_couplings a b K K') S s t = (a * tj_element L K S s t + b * tj_element L K' S s t)%Qc.
Proof.
  intros L a b K K' S s t.
  assert (X : forall k, exchange (combine_couplings a b K K') k = (a * exchange K k + b * exchange K' k)%Qc) by (intros []; reflexivity).
  assert (A1 : op_hop L (combine_couplings a b K K') s t = (a * op_hop L K s t + b * op_hop L K' s t)%Qc).
  { apply sum_lin. intros h _. apply sum_lin. intros e _. match goal with |- only ?c _ = _ => destruct c end; cbn [only combine_couplings i_t]; ring. }
  assert (A2 : op_static L (combine_couplings a b K K') s = (a * op_static L K s + b * op_static L K' s)%Qc).
  { apply sum_lin. intros h _. apply sum_lin. intros e _. rewrite X. match goal with |- only ?c _ = _ => destruct c end; cbn [only]; ring. }
  assert (A3 : op_flip L (combine_couplings a b K K') s t = (a * op_flip L K s t + b * op_flip L K' s t)%Qc).
  { apply sum_lin. intros h _. apply sum_lin. intros e _. rewrite X. match goal with |- only ?c _ = _ => destruct c end; cbn [only]; ring. }
  assert (A4 : op_singlet L (combine_couplings a b K K') s t = (a * op_singlet L K s t + b * op_singlet L K' s t)%Qc).
  { apply sum_lin. intros h _. apply sum_lin. intros m _. apply sum_lin. intros e _.
    match goal with |- only ?c _ = _ => destruct c end; cbn [only]; [|ring].
    destruct (lineb2 _ _); cbn [combine_couplings i_hSDpar i_hSDper]; ring. }
  assert (A5 : op_next_hop L (combine_couplings a b K K') s t = (a * op_next_hop L K s t + b * op_next_hop L K' s t)%Qc).
  { apply sum_lin. intros h _. apply sum_lin. intros e _.
    match goal with |- only ?c _ = _ => destruct c end; cbn [only]; [|ring].
    destruct (lineb2 _ _); cbn [combine_couplings i_tNNN i_tnNNN]; ring. }
  assert (A6 : op_repulsion L (combine_couplings a b K K') s = (a * op_repulsion L K s + b * op_repulsion L K' s)%Qc).
  { apply sum_lin. intros h _. apply sum_lin. intros e _.
    match goal with |- only ?c _ = _ => destruct c end; cbn [only]; [|ring].
    destruct (bonded L h e), (diagb _ _); cbn [only combine_couplings i_VNN i_VNNNper]; ring. }
  unfold tj_element. rewrite A1, A2, A3, A4, A5, A6.
  destruct (s_bt S), (s_bz S), (s_bij S), (s_bSD S), (s_btN S), (s_bV S), (sameb (lat_size L) s t); cbn [only]; ring.
Qed.
