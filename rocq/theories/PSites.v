(** Reading sites of a determinant; spin reversal; joining two lattices. *)
From Coq Require Import ZArith List Bool Lia Permutation Sorted.
From Verif Require Import PyBase PyFacts Lattice Base Spec PHash PBasis.
Import ListNotations.
Open Scope Z_scope.

Definition conf_describes (c : configuration) (d : list Z) (s : occupation) : Prop :=
  describes (nsites c) (nholes c) (nbeta c) d s.

Lemma describes_In : forall n h b d s x, describes n h b d s -> (In x d <-> 0 <= x < n).
Proof.
  intros n h b d s x (hs & bs & us & -> & _ & _ & _ & _ & _ & Ih & Ib & Iu).
  rewrite !in_app_iff, Ih, Ib, Iu. destruct (s x) eqn:E; intuition congruence.
Qed.

Lemma describes_NoDup : forall n h b d s, describes n h b d s -> NoDup d.
Proof.
  intros n h b d s (hs & bs & us & -> & _ & _ & Nh & Nb & Nu & Ih & Ib & Iu).
  apply NoDup_app'; [assumption | apply NoDup_app'; auto |].
  - intros x Hb Hu. apply Ib in Hb. apply Iu in Hu. destruct Hb, Hu; congruence.
  - intros x Hh Hr. apply Ih in Hh. apply in_app_iff in Hr as [Hr|Hr]; [apply Ib in Hr | apply Iu in Hr];
      destruct Hh, Hr; congruence.
Qed.

Lemma describes_length : forall n h b d s, 0 <= n -> describes n h b d s -> zlen d = n.
Proof.
  intros n h b d s Hn H. assert (P : Permutation d (zrange 0 n)).
  { apply NoDup_Permutation; [eapply describes_NoDup; eauto | apply zrange_NoDup |].
    intros x. rewrite in_zrange. eapply describes_In; eauto. }
  unfold zlen. rewrite (Permutation_length P), zrange_length. lia.
Qed.

(** the restriction list used for a target *)
Definition target_list (r0 r1 : list Z) (t : Z) : list Z := if t =? 0 then r0 else r1.

Lemma indexes_of_ok : forall E c d s p t r0 r1, set_iter_ok E ->
  conf_describes c d s -> sites_restriction c = RTuple r0 r1 ->
  exists l, get_indexes_of E c d (spin_code p) t = Ok l /\ NoDup l /\
    forall x, In x l <-> (0 <= x < nsites c /\ s x = p) /\ In x (target_list r0 r1 t).
Proof.
  intros E c d s p t r0 r1 HE H Hr. destruct (describes_slices _ _ _ _ _ H)
    as (hs & bs & us & -> & A & B & C & Lh & Lb & Nh & Nb & Nu & Ih & Ib & Iu).
  unfold get_indexes_of. rewrite Hr.
  destruct p; simpl spin_code; cbn [Z.eqb]; simpl.
  - eexists. split; [rewrite A; reflexivity|]. split; [now apply set_and_NoDup|].
    intros x. rewrite in_set_and by assumption. rewrite Ih. tauto.
  - eexists. split; [rewrite B; reflexivity|]. split; [now apply set_and_NoDup|].
    intros x. rewrite in_set_and by assumption. rewrite Ib. tauto.
  - eexists. split; [rewrite C; reflexivity|]. split; [now apply set_and_NoDup|].
    intros x. rewrite in_set_and by assumption. rewrite Iu. tauto.
Qed.

Lemma indexes_of_bad : forall E c d k t, k <> 0 -> k <> 1 -> k <> -1 -> get_indexes_of E c d k t = Err ValueError.
Proof.
  intros. unfold get_indexes_of.
  destruct (Z.eqb_spec k 0); [congruence|]. destruct (Z.eqb_spec k (-1)); [congruence|].
  destruct (Z.eqb_spec k 1); [congruence|]. reflexivity.
Qed.

Lemma py_index_app1 : forall l1 l2 x, In x l1 -> py_index (l1 ++ l2) x = py_index l1 x.
Proof.
  induction l1; simpl; intros l2 x H; [contradiction|]. destruct (Z.eqb_spec a x); [reflexivity|].
  destruct H; [congruence|]. now rewrite IHl1.
Qed.

Lemma py_index_app2 : forall l1 l2 x, ~ In x l1 -> py_index (l1 ++ l2) x = bind (py_index l2 x) (fun i => Ok (i + zlen l1)).
Proof.
  induction l1; simpl; intros l2 x H.
  - destruct (py_index l2 x); simpl; [f_equal; unfold zlen; simpl; lia | reflexivity].
  - destruct (Z.eqb_spec a x); [tauto|]. rewrite IHl1 by tauto. destruct (py_index l2 x); simpl; [|reflexivity].
    f_equal. rewrite zlen_cons. lia.
Qed.

Lemma py_index_bound : forall l x, In x l -> exists i, py_index l x = Ok i /\ 0 <= i < zlen l.
Proof.
  intros l x H. destruct (py_index_In _ _ H) as (i & E). exists i. split; [assumption|].
  now apply py_index_spec in E.
Qed.

Lemma spin_site_ok : forall c d s x, conf_describes c d s -> 0 <= x < nsites c ->
  get_spin_site c d x = Ok (spin_code (s x)).
Proof.
  intros c d s x (hs & bs & us & -> & Lh & Lb & Nh & Nb & Nu & Ih & Ib & Iu) Hx.
  fold (zlen hs) in Lh. fold (zlen bs) in Lb.
  pose proof (zlen_nonneg _ bs). pose proof (zlen_nonneg _ hs).
  unfold get_spin_site. destruct (s x) eqn:E.
  - assert (I : In x hs) by (apply Ih; auto). rewrite py_index_app1 by assumption.
    destruct (py_index_bound _ _ I) as (i & -> & Hi). cbn [bind].
    destruct (Z.ltb_spec i (nholes c)); [reflexivity | lia].
  - assert (I : In x bs) by (apply Ib; auto).
    assert (~ In x hs) by (rewrite Ih; intuition congruence). rewrite py_index_app2 by assumption.
    rewrite py_index_app1 by assumption.
    destruct (py_index_bound _ _ I) as (i & -> & Hi). cbn [bind].
    destruct (Z.ltb_spec (i + zlen hs) (nholes c)); [lia|].
    destruct (Z.ltb_spec (i + zlen hs) (nholes c + nbeta c)); [reflexivity | lia].
  - assert (I : In x us) by (apply Iu; auto).
    assert (~ In x hs) by (rewrite Ih; intuition congruence).
    assert (~ In x bs) by (rewrite Ib; intuition congruence).
    rewrite !py_index_app2 by assumption.
    destruct (py_index_bound _ _ I) as (i & -> & Hi). cbn [bind].
    destruct (Z.ltb_spec (i + zlen bs + zlen hs) (nholes c)); [lia|].
    destruct (Z.ltb_spec (i + zlen bs + zlen hs) (nholes c + nbeta c)); [lia | reflexivity].
Qed.

Lemma spin_site_err : forall c d s x, conf_describes c d s -> ~ 0 <= x < nsites c ->
  get_spin_site c d x = Err ValueError.
Proof.
  intros c d s x H Hx. unfold get_spin_site. rewrite py_index_notin; [reflexivity|].
  rewrite (describes_In _ _ _ _ _ x H). assumption.
Qed.

(** ** Spin reversal *)

Definition unrestricted (c : configuration) : Prop :=
  sites_restriction c = RTuple (zrange 0 (nsites c)) (zrange 0 (nsites c)).

Lemma unrestricted_target : forall c t, target_list (zrange 0 (nsites c)) (zrange 0 (nsites c)) t = zrange 0 (nsites c).
Proof. intros. unfold target_list. destruct (t =? 0); reflexivity. Qed.

(** the groups of a determinant without restriction *)
Lemma indexes_unrestricted : forall E c d s p t, set_iter_ok E -> unrestricted c -> conf_describes c d s ->
  exists l, get_indexes_of E c d (spin_code p) t = Ok l /\ NoDup l /\
    (forall x, In x l <-> 0 <= x < nsites c /\ s x = p) /\ zlen l = zlen (sites_of (nsites c) s p).
Proof.
  intros E c d s p t HE Hu H.
  destruct (indexes_of_ok E c d s p t _ _ HE H Hu) as (l & El & ND & I).
  exists l. split; [assumption|]. split; [assumption|].
  assert (I' : forall x, In x l <-> 0 <= x < nsites c /\ s x = p).
  { intros x. rewrite I, unrestricted_target, in_zrange. tauto. }
  split; [assumption|]. unfold zlen. f_equal. apply Permutation_length. now apply group_perm.
Qed.

Lemma flip_flip : forall p, flip_particle (flip_particle p) = p.
Proof. destruct p; reflexivity. Qed.

Lemma sites_flip : forall n s p, sites_of n (flip_state s) p = sites_of n s (flip_particle p).
Proof.
  intros. apply filter_ext_in'. intros x _. unfold flip_state. destruct (s x), p; reflexivity.
Qed.

Definition flip_conf (c : configuration) : configuration :=
  mkConf (bond_matrix c) (nsites c) (nholes c) (nalpha c) (nbeta c)
    (compute_dimension (nsites c) (nbeta c) (nalpha c))
    (sites_restriction c) (lattice_type c) (nbh c) (nbv c) (nblocs_side c).

(** the configuration of a determinant on [n] sites *)
Record conf_ok (c : configuration) : Prop := {
  co_rows : mrows (bond_matrix c) = nsites c;
  co_pos : 0 < nsites c;
  co_alpha : nalpha c = nsites c - nholes c - nbeta c
}.

Lemma make_flip : forall c r0 r1, conf_ok c -> sites_restriction c = RTuple r0 r1 ->
  make_configuration (bond_matrix c) (nholes c) (nalpha c) (sites_restriction c)
          (lattice_type c) (nbh c) (nbv c) (nblocs_side c) = Ok (flip_conf c).
Proof.
  intros c r0 r1 [R P A] Hr. unfold make_configuration. rewrite R.
  destruct (Z.eqb_spec (nsites c) 0); [lia|]. rewrite Hr. cbn [restr_falsy bind].
  unfold flip_conf. rewrite Hr. replace (nsites c - nholes c - nalpha c) with (nbeta c) by lia. reflexivity.
Qed.

Lemma sites_partition : forall n s, 0 <= n ->
  zlen (sites_of n s Hole) + zlen (sites_of n s Down) + zlen (sites_of n s Up) = n.
Proof.
  intros n s Hn. assert (G : forall l, zlen (filter (fun x => is_p (s x) Hole) l)
      + zlen (filter (fun x => is_p (s x) Down) l) + zlen (filter (fun x => is_p (s x) Up) l) = zlen l).
  { induction l; [reflexivity|]. cbn [filter]. destruct (s a); cbn [is_p]; rewrite !zlen_cons; lia. }
  unfold sites_of. rewrite G, zlen_zrange; lia.
Qed.

Lemma flip_sector : forall c s, conf_ok c -> in_sector (nsites c) (nholes c) (nbeta c) s ->
  in_sector (nsites c) (nholes c) (nalpha c) (flip_state s).
Proof.
  intros c s [R P A] [H1 H2]. split; rewrite sites_flip; simpl; [assumption|].
  pose proof (sites_partition (nsites c) s ltac:(lia)). lia.
Qed.

Lemma reverse_spins_ok : forall E c d s, set_iter_ok E -> conf_ok c -> unrestricted c -> conf_describes c d s ->
  reverse_spins E c d = Ok (flip_conf c, canon (nsites c) (flip_state s)).
Proof.
  intros E c d s HE Hc Hu H. unfold reverse_spins. rewrite (make_flip c _ _ Hc Hu). cbn [bind].
  destruct (indexes_unrestricted E c d s Hole 0 HE Hu H) as (lh & Eh & Nh & Ih & Lh).
  destruct (indexes_unrestricted E c d s Up 0 HE Hu H) as (lu & Eu & Nu & Iu & Lu).
  destruct (indexes_unrestricted E c d s Down 0 HE Hu H) as (lb & Eb & Nb & Ib & Lb).
  simpl spin_code in *. rewrite Eh, Eu, Eb. cbn [bind]. do 2 f_equal.
  apply (reorder_describes (flip_conf c)). cbn [flip_conf nsites nholes nbeta].
  pose proof (describes_sector _ _ _ _ _ H) as [S1 S2].
  pose proof (sites_partition (nsites c) s ltac:(destruct Hc; lia)) as SP. destruct Hc as [R P A].
  assert (F : forall x p, 0 <= x < nsites c /\ flip_state s x = p <-> 0 <= x < nsites c /\ s x = flip_particle p).
  { intros x p. unfold flip_state. split; intros [B Q]; (split; [assumption|]).
    - rewrite <- Q. symmetry. apply flip_flip.
    - rewrite Q. apply flip_flip. }
  exists lh, lu, lb. split; [reflexivity|].
  unfold zlen in Lh, Lu, S1, S2, SP, Lb. rewrite Lh, Lu.
  split; [assumption|]. split; [lia|].
  repeat (split; [assumption|]).
  split; [intros x; rewrite F; apply Ih|]. split; [intros x; rewrite F; apply Iu | intros x; rewrite F; apply Ib].
Qed.

Lemma flip_state_flip : forall n s, same_state n (flip_state (flip_state s)) s.
Proof. intros n s x _. apply flip_flip. Qed.

Lemma flip_conf_ok : forall c, conf_ok c -> conf_ok (flip_conf c).
Proof. intros c [R P A]. constructor; cbn [flip_conf bond_matrix nsites nalpha nholes nbeta]; [assumption | assumption | lia]. Qed.

Lemma flip_conf_unrestricted : forall c, unrestricted c -> unrestricted (flip_conf c).
Proof. intros c H. exact H. Qed.

(** ** Joining two lattices *)

Lemma extend_ok : forall E c1 c2 d1 d2 s1 s2, set_iter_ok E -> unrestricted c1 -> unrestricted c2 ->
  0 <= nsites c1 -> 0 <= nsites c2 ->
  conf_describes c1 d1 s1 -> conf_describes c2 d2 s2 ->
  exists d, extend_determinant E c1 c2 d1 d2 = Ok d /\
    describes (nsites c1 + nsites c2) (nholes c1 + nholes c2) (nbeta c1 + nbeta c2) d
      (join_states (nsites c1) s1 s2).
Proof.
  intros E c1 c2 d1 d2 s1 s2 HE U1 U2 P1 P2 D1 D2. unfold extend_determinant.
  destruct (indexes_unrestricted E c1 d1 s1 Hole 0 HE U1 D1) as (h1 & Eh1 & Nh1 & Ih1 & Lh1).
  destruct (indexes_unrestricted E c2 d2 s2 Hole 0 HE U2 D2) as (h2 & Eh2 & Nh2 & Ih2 & Lh2).
  destruct (indexes_unrestricted E c1 d1 s1 Down 0 HE U1 D1) as (b1 & Eb1 & Nb1 & Ib1 & Lb1).
  destruct (indexes_unrestricted E c2 d2 s2 Down 0 HE U2 D2) as (b2 & Eb2 & Nb2 & Ib2 & Lb2).
  destruct (indexes_unrestricted E c1 d1 s1 Up 0 HE U1 D1) as (u1 & Eu1 & Nu1 & Iu1 & Lu1).
  destruct (indexes_unrestricted E c2 d2 s2 Up 0 HE U2 D2) as (u2 & Eu2 & Nu2 & Iu2 & Lu2).
  simpl spin_code in *. rewrite Eh1, Eh2, Eb1, Eb2, Eu1, Eu2. cbn [bind]. eexists. split; [reflexivity|].
  pose proof (describes_sector _ _ _ _ _ D1) as [S1 T1]. pose proof (describes_sector _ _ _ _ _ D2) as [S2 T2].
  assert (G : forall l1 l2 p, NoDup l1 -> NoDup l2 ->
     (forall x, In x l1 <-> 0 <= x < nsites c1 /\ s1 x = p) ->
     (forall x, In x l2 <-> 0 <= x < nsites c2 /\ s2 x = p) ->
     NoDup (l1 ++ map (fun s => s + nsites c1) l2) /\
     (forall x, In x (l1 ++ map (fun s => s + nsites c1) l2) <->
        0 <= x < nsites c1 + nsites c2 /\ join_states (nsites c1) s1 s2 x = p)).
  { intros l1 l2 p N1 N2 I1 I2. split.
    - apply NoDup_app'; [assumption | |].
      + apply FinFun.Injective_map_NoDup; [intros a b; lia | assumption].
      + intros x Hx Hx'. apply I1 in Hx. apply in_map_iff in Hx' as (y & <- & Hy). apply I2 in Hy. lia.
    - intros x. rewrite in_app_iff, I1, in_map_iff. unfold join_states. split.
      + intros [[R Q]|(y & <- & Hy)].
        * destruct (Z.ltb_spec x (nsites c1)); [split; [lia | assumption] | lia].
        * apply I2 in Hy as [R Q]. destruct (Z.ltb_spec (y + nsites c1) (nsites c1)); [lia|].
          split; [lia|]. now rewrite Z.add_simpl_r.
      + intros [R Q]. destruct (Z.ltb_spec x (nsites c1)); [left; split; [lia | assumption]|].
        right. exists (x - nsites c1). split; [lia|]. apply I2. split; [lia | assumption]. }
  destruct (G h1 h2 Hole Nh1 Nh2 Ih1 Ih2) as [A1 A2].
  destruct (G b1 b2 Down Nb1 Nb2 Ib1 Ib2) as [B1 B2].
  destruct (G u1 u2 Up Nu1 Nu2 Iu1 Iu2) as [C1 C2].
  do 3 eexists. split; [reflexivity|].
  rewrite !app_length, !map_length, !Nat2Z.inj_add. unfold zlen in *.
  split; [lia|]. split; [lia|]. repeat (split; [assumption|]). assumption.
Qed.
