(** Counting particles, changing one site of a determinant, words and the register of the perturbators. *)
From Coq Require Import ZArith List Bool QArith Qcanon Lia Permutation.
From Verif Require Import PyBase PyFacts Lattice Base Interact Ham Spin Prob Dav Files Emb Spec SpecOps SpecTJ DynDefs.
From Verif Require Import PBasis PSites PEmbPerm.
Import ListNotations.
Open Scope Z_scope.

(** ** Counting *)

Definition cnt (n : Z) (s : occupation) (p : particle) : Z := zlen (sites_of n s p).
Definition put (x : Z) (q : particle) (s : occupation) : occupation := fun z => if z =? x then q else s z.

Lemma cnt_same : forall n s t p, same_state n s t -> cnt n s p = cnt n t p.
Proof. intros. unfold cnt. now rewrite (sites_of_same n s t). Qed.

Lemma put_same : forall x q s, put x q s x = q.
Proof. intros. unfold put. now rewrite Z.eqb_refl. Qed.

Lemma put_other : forall x q s y, y <> x -> put x q s y = s y.
Proof. intros x q s y H. unfold put. destruct (Z.eqb_spec y x); [contradiction | reflexivity]. Qed.

Definition one (b : bool) : Z := if b then 1 else 0.

Lemma zlen_app_ : forall A (l m : list A), zlen (l ++ m) = zlen l + zlen m.
Proof. intros. unfold zlen. rewrite app_length. lia. Qed.

Lemma zlen_cons_ : forall A (x : A) l, zlen (x :: l) = 1 + zlen l.
Proof. intros. unfold zlen. cbn [length]. lia. Qed.

Lemma cnt_split : forall n s p x, 0 <= x < n ->
  cnt n s p = zlen (filter (fun z => is_p (s z) p) (zrange 0 x)) + one (is_p (s x) p) + zlen (filter (fun z => is_p (s z) p) (zrange (x + 1) n)).
Proof.
  intros n s p x H. unfold cnt, sites_of. rewrite (zrange_app 0 x n) by lia. rewrite (zrange_cons x n) by lia.
  rewrite filter_app, zlen_app_. cbn [filter]. destruct (is_p (s x) p); cbn [one]; rewrite ?zlen_cons_; lia.
Qed.

Lemma cnt_put : forall n s p x q, 0 <= x < n -> cnt n (put x q s) p = cnt n s p - one (is_p (s x) p) + one (is_p q p).
Proof.
  intros n s p x q H. rewrite (cnt_split n (put x q s) p x H), (cnt_split n s p x H), put_same.
  assert (A : filter (fun z => is_p (put x q s z) p) (zrange 0 x) = filter (fun z => is_p (s z) p) (zrange 0 x)).
  { apply filter_ext_in'. intros z Hz. apply in_zrange in Hz. now rewrite put_other by lia. }
  assert (B : filter (fun z => is_p (put x q s z) p) (zrange (x + 1) n) = filter (fun z => is_p (s z) p) (zrange (x + 1) n)).
  { apply filter_ext_in'. intros z Hz. apply in_zrange in Hz. now rewrite put_other by lia. }
  rewrite A, B. lia.
Qed.


Lemma filter_map_len : forall A B (f : A -> B) (g : B -> bool) l, zlen (filter g (map f l)) = zlen (filter (fun x => g (f x)) l).
Proof. induction l as [|x l IH]; [reflexivity|]. cbn [map filter]. destruct (g (f x)); rewrite ?zlen_cons_; lia. Qed.

Lemma zrange_shift : forall n, 0 <= n -> zrange n (2 * n) = map (fun x => x + n) (zrange 0 n).
Proof. intros n H. unfold zrange. rewrite map_map. replace (Z.to_nat (2 * n - n)) with (Z.to_nat (n - 0)) by lia. apply map_ext. intros. lia. Qed.

(** the second half of a state *)
Definition after (n : Z) (p : occupation) : occupation := fun x => p (n + x).

Lemma cnt_halves : forall n p q, 0 <= n -> cnt (2 * n) p q = cnt n p q + cnt n (after n p) q.
Proof.
  intros n p q H. unfold cnt, sites_of. rewrite (zrange_app 0 n (2 * n)) by lia. rewrite filter_app, zlen_app_. f_equal.
  rewrite zrange_shift by assumption. rewrite filter_map_len. f_equal. apply filter_ext_in'. intros z _. unfold after. f_equal. f_equal. lia.
Qed.

Lemma join_halves : forall n p, 0 <= n -> same_state (2 * n) (join_states n p (after n p)) p.
Proof. intros n p H x Hx. unfold join_states, after. destruct (Z.ltb_spec x n); [reflexivity | f_equal; lia]. Qed.

Lemma join_first : forall n s t, same_state n (join_states n s t) s.
Proof. intros n s t x Hx. unfold join_states. destruct (Z.ltb_spec x n); [reflexivity | lia]. Qed.

Lemma join_second : forall n s t, same_state n (after n (join_states n s t)) t.
Proof. intros n s t x Hx. unfold after, join_states. destruct (Z.ltb_spec (n + x) n); [lia | f_equal; lia]. Qed.

Lemma cnt_join : forall n s t q, 0 <= n -> cnt (2 * n) (join_states n s t) q = cnt n s q + cnt n t q.
Proof. intros n s t q H. rewrite cnt_halves by assumption. now rewrite (cnt_same n _ _ q (join_first n s t)), (cnt_same n _ _ q (join_second n s t)). Qed.

Lemma sector_cnt : forall n h b s, in_sector n h b s <-> cnt n s Hole = h /\ cnt n s Down = b.
Proof. intros. reflexivity. Qed.

Lemma cnt_nonneg : forall n s p, 0 <= cnt n s p.
Proof. intros. unfold cnt. apply zlen_nonneg. Qed.

Lemma cnt_total : forall n s, 0 <= n -> cnt n s Hole + cnt n s Down + cnt n s Up = n.
Proof.
  intros n s H. unfold cnt, sites_of.
  assert (L : zlen (zrange 0 n) = n) by (unfold zlen; rewrite zrange_length; lia). rewrite <- L at 4. generalize (zrange 0 n) as l.
  induction l as [|x l IH]; [reflexivity|]. cbn [filter]. destruct (s x); cbn [is_p]; rewrite ?zlen_cons_; lia.
Qed.

(** ** One site changed *)

Lemma remove_ok : forall l x, In x l -> exists r, py_remove l x = Ok r.
Proof.
  induction l as [|y l IH]; intros x H; [destruct H|]. cbn [py_remove]. destruct (Z.eqb_spec y x); [eauto|].
  destruct H as [->|H]; [contradiction|]. destruct (IH x H) as (r & ->). cbn [bind]. eauto.
Qed.

Lemma remove_group : forall n s p l x r q, NoDup l -> (forall y, In y l <-> 0 <= y < n /\ s y = p) -> py_remove l x = Ok r -> p <> q -> s x = p ->
  NoDup r /\ (forall y, In y r <-> 0 <= y < n /\ put x q s y = p).
Proof.
  intros n s p l x r q ND I R D Sx. pose proof (remove_perm _ _ _ R) as P.
  assert (ND' : NoDup (x :: r)) by (eapply Permutation_NoDup; [apply Permutation_sym; exact P | assumption]). inversion ND'; subst.
  split; [assumption|]. intros y. split.
  - intros Hy. assert (In y l) by (eapply Permutation_in; [exact P | now right]). apply I in H. rewrite put_other; [assumption|]. intros ->. contradiction.
  - intros [B Q]. destruct (Z.eq_dec y x) as [->|N]; [rewrite put_same in Q; congruence|]. rewrite put_other in Q by assumption.
    assert (In y l) by (apply I; tauto). apply (Permutation_in _ (Permutation_sym P)) in H. destruct H as [->|H]; [contradiction | assumption].
Qed.

Lemma add_group : forall n s p l x q, NoDup l -> (forall y, In y l <-> 0 <= y < n /\ s y = p) -> 0 <= x < n -> s x <> p -> q = p ->
  NoDup (l ++ [x]) /\ (forall y, In y (l ++ [x]) <-> 0 <= y < n /\ put x q s y = p).
Proof.
  intros n s p l x q ND I B Sx ->. split.
  - apply NoDup_app'; [assumption | constructor; [now intros [] | constructor] |]. intros y Hy [<-|[]]. apply I in Hy. tauto.
  - intros y. rewrite in_app_iff. cbn [In]. destruct (Z.eq_dec y x) as [->|N].
    + rewrite put_same. tauto.
    + rewrite put_other by assumption. rewrite I. split; [intros [H|[H|[]]]; [assumption | congruence] | tauto].
Qed.

Lemma keep_group : forall n s p l x q, NoDup l -> (forall y, In y l <-> 0 <= y < n /\ s y = p) -> s x <> p -> q <> p ->
  NoDup l /\ (forall y, In y l <-> 0 <= y < n /\ put x q s y = p).
Proof.
  intros n s p l x q ND I Sx D. split; [assumption|]. intros y. rewrite I. destruct (Z.eq_dec y x) as [->|N].
  - rewrite put_same. split; intros [_ H]; congruence.
  - now rewrite put_other by assumption.
Qed.

Lemma code_eqb : forall p q, (spin_code p =? spin_code q) = is_p p q.
Proof. destruct p, q; reflexivity. Qed.

Lemma perturb_ok : forall E c c' d s x po pn, set_iter_ok E -> unrestricted c -> conf_describes c d s -> nsites c' = nsites c ->
  0 <= x < nsites c -> s x = po -> po <> pn -> in_sector (nsites c) (nholes c') (nbeta c') (put x pn s) ->
  perturb E c c' d x (spin_code po) (spin_code pn) = Ok (canon (nsites c) (put x pn s)).
Proof.
  intros E c c' d s x po pn HE U D N B Sx Dn Sec. unfold perturb.
  destruct (indexes_unrestricted E c d s Hole 0 HE U D) as (lh & Eh & Nh & Ih & _).
  destruct (indexes_unrestricted E c d s Down 0 HE U D) as (lb & Eb & Nb & Ib & _).
  destruct (indexes_unrestricted E c d s Up 0 HE U D) as (la & Ea & Na & Ia & _).
  change (spin_code Hole) with 0 in Eh. change (spin_code Down) with (-1) in Eb. change (spin_code Up) with 1 in Ea. rewrite Eh, Eb, Ea. cbn [bind]. cbv zeta.
  assert (G : forall p l, NoDup l -> (forall y, In y l <-> 0 <= y < nsites c /\ s y = p) ->
     exists r, (if spin_code p =? spin_code po then py_remove l x else Ok (if spin_code p =? spin_code pn then l ++ [x] else l)) = Ok r /\
       NoDup r /\ (forall y, In y r <-> 0 <= y < nsites c /\ put x pn s y = p)).
  { intros p l ND I. rewrite !code_eqb. destruct (is_p p po) eqn:P1.
    - apply is_p_eq in P1. subst p. destruct (remove_ok l x) as (r & Er); [apply I; tauto|]. exists r. split; [assumption|].
      eapply remove_group; eauto.
    - apply is_p_neq in P1. destruct (is_p p pn) eqn:P2.
      + apply is_p_eq in P2. subst p. eexists. split; [reflexivity|]. apply add_group; auto. congruence.
      + apply is_p_neq in P2. eexists. split; [reflexivity|]. apply keep_group; auto; congruence. }
  destruct (G Hole lh Nh Ih) as (rh & Gh & NRh & IRh). destruct (G Down lb Nb Ib) as (rb & Gb & NRb & IRb). destruct (G Up la Na Ia) as (ra & Ga & NRa & IRa).
  change (spin_code Hole) with 0 in Gh. change (spin_code Down) with (-1) in Gb. change (spin_code Up) with 1 in Ga. rewrite Gh. cbn [bind]. rewrite Gb. cbn [bind]. rewrite Ga. cbn [bind].
  f_equal. rewrite <- N. apply reorder_describes. rewrite N. destruct Sec as [S1 S2].
  exists rh, rb, ra. split; [reflexivity|].
  assert (P1 : Permutation rh (sites_of (nsites c) (put x pn s) Hole)) by now apply group_perm.
  assert (P2 : Permutation rb (sites_of (nsites c) (put x pn s) Down)) by now apply group_perm.
  apply Permutation_length in P1, P2. unfold zlen in S1, S2. rewrite P1, P2. repeat (split; [assumption|]). assumption.
Qed.

(** ** Words *)

Definition spell (m : Z) (s : occupation) : list particle := map s (zrange 0 m).

Lemma spelt_spell : forall m s, 0 <= m -> same_state m (spelt (spell m s)) s.
Proof.
  intros m s H x Hx. unfold spelt, spell. rewrite (nth_indep _ Hole (s 0)) by (rewrite map_length, zrange_length; lia).
  rewrite map_nth. f_equal. unfold zrange. rewrite (nth_indep _ 0 (0 + Z.of_nat 0)) by (rewrite map_length, seq_length; lia).
  rewrite (map_nth (fun k => 0 + Z.of_nat k)). rewrite seq_nth by lia. lia.
Qed.

Lemma words_length : forall m u, In u (words m) <-> length u = m.
Proof.
  induction m as [|m IH]; intros u; cbn [words].
  - cbn [In]. destruct u; cbn; split; [tauto | auto | intros [H|[]]; discriminate | discriminate].
  - rewrite in_flat_map. split.
    + intros (v & Hv & I). apply IH in Hv. cbn [In] in I. destruct I as [<-|[<-|[<-|[]]]]; cbn [length]; congruence.
    + intros L. destruct u as [|p u]; [discriminate|]. exists u. split; [apply IH; cbn [length] in L; lia|]. destruct p; cbn [In]; tauto.
Qed.

Lemma words_NoDup : forall m, NoDup (words m).
Proof.
  induction m as [|m IH]; cbn [words]; [constructor; [now intros [] | constructor]|].
  assert (G : forall l : list (list particle), NoDup l -> NoDup (flat_map (fun u => [Hole :: u; Down :: u; Up :: u]) l)).
  { induction l as [|u l IHl]; intros ND; cbn [flat_map]; [constructor|]. inversion ND; subst.
    assert (X : forall p, ~ In (p :: u) (flat_map (fun u => [Hole :: u; Down :: u; Up :: u]) l)).
    { intros p I. apply in_flat_map in I. destruct I as (v & Hv & I). cbn [In] in I. destruct I as [E|[E|[E|[]]]]; injection E; intros; subst; contradiction. }
    cbn [app]. constructor; [|constructor; [|constructor; [apply X | now apply IHl]]].
    - cbn [In]. intros [E|[E|I]]; try discriminate. now apply X in I.
    - cbn [In]. intros [E|I]; try discriminate. now apply X in I. }
  now apply G.
Qed.

Lemma spell_length : forall m s, 0 <= m -> length (spell m s) = Z.to_nat m.
Proof. intros. unfold spell. rewrite map_length, zrange_length. f_equal. lia. Qed.

Lemma spell_in : forall m s, 0 <= m -> In (spell m s) (words (Z.to_nat m)).
Proof. intros. apply words_length. now apply spell_length. Qed.

Lemma spell_same : forall m s t, same_state m s t -> spell m s = spell m t.
Proof. intros m s t H. unfold spell. apply map_ext_in. intros x Hx. apply in_zrange in Hx. now apply H. Qed.

Lemma spell_spelt : forall m u, 0 <= m -> In u (words (Z.to_nat m)) -> spell m (spelt u) = u.
Proof.
  intros m u H I. apply words_length in I. apply (nth_ext _ _ Hole Hole); [rewrite spell_length; auto|].
  intros k Hk. rewrite spell_length in Hk by assumption.
  pose proof (spelt_spell m (spelt u) H (Z.of_nat k)) as E. unfold spelt at 1 3 in E. rewrite Nat2Z.id in E. apply E. lia.
Qed.

Lemma spelt_inj : forall m u v, 0 <= m -> In u (words (Z.to_nat m)) -> In v (words (Z.to_nat m)) -> same_state m (spelt u) (spelt v) -> u = v.
Proof. intros m u v H Iu Iv S. rewrite <- (spell_spelt m u H Iu), <- (spell_spelt m v H Iv). now apply spell_same. Qed.

(** ** The register *)

Fixpoint lookup (m : memory) (key : (Z * Z) * (Z * Z)) : list (Z * Z) :=
  match m with
  | [] => []
  | (k, l) :: m' => if key_eqb k key then l else lookup m' key
  end.

Lemma key_eqb_eq : forall k l, key_eqb k l = true <-> k = l.
Proof.
  intros [[a b] [d e]] [[a' b'] [d' e']]. unfold key_eqb. cbn [fst snd]. rewrite !andb_true_iff, !Z.eqb_eq. split; [intros (((-> & ->) & ->) & ->); reflexivity | intros H; injection H; auto].
Qed.

Lemma pair_mem_in : forall x l, pair_mem x l = true <-> In x l.
Proof.
  intros [a b] l. unfold pair_mem. rewrite existsb_exists. split.
  - intros ([a' b'] & I & E). cbn [fst snd] in E. apply andb_true_iff in E. rewrite !Z.eqb_eq in E. destruct E as [-> ->]. assumption.
  - intros I. exists (a, b). split; [assumption|]. cbn [fst snd]. now rewrite !Z.eqb_refl.
Qed.

Lemma remember_ok : forall m key x, In key (map fst m) -> exists r, remember m key x = Ok r /\
  match r with
  | None => In x (lookup m key)
  | Some m' => ~ In x (lookup m key) /\ map fst m' = map fst m /\
               forall key' y, In y (lookup m' key') <-> In y (lookup m key') \/ (key' = key /\ y = x)
  end.
Proof.
  induction m as [|[k l] m IH]; intros key x H; [destruct H|]. cbn [remember lookup]. destruct (key_eqb k key) eqn:Q.
  - apply key_eqb_eq in Q. subst k. destruct (pair_mem x l) eqn:P.
    + apply pair_mem_in in P. eauto.
    + exists (Some ((key, l ++ [x]) :: m)). split; [reflexivity|]. split; [intros I; apply pair_mem_in in I; congruence|]. split; [reflexivity|].
      intros key' y. cbn [lookup]. destruct (key_eqb key key') eqn:Q'.
      * apply key_eqb_eq in Q'. subst key'. rewrite in_app_iff. cbn [In]. split; intros [I|I]; auto; [destruct I as [->|[]]; auto | destruct I as [_ ->]; auto].
      * split; [auto|]. intros [I|[-> _]]; [assumption|]. assert (key_eqb key key = true) by now apply key_eqb_eq. congruence.
  - destruct H as [H|H]; [cbn [fst] in H; subst k; exfalso; assert (key_eqb key key = true) by (now apply key_eqb_eq); congruence|].
    destruct (IH key x H) as (r & -> & F). cbn [bind]. eexists. split; [reflexivity|]. destruct r as [m'|]; cbn [option_map]; [|assumption].
    destruct F as (F1 & F2 & F3). split; [assumption|]. split; [cbn [map fst]; now rewrite F2|]. intros key' y. cbn [lookup].
    destruct (key_eqb k key') eqn:Q'; [|apply F3]. split; [auto|]. intros [I|[-> _]]; [assumption | congruence].
Qed.
