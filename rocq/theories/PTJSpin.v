(** The t-J operator on wave functions keeps the total spin. *)
From Coq Require Import ZArith List Bool Lia Permutation QArith Qcanon.
From Verif Require Import PyBase PyFacts Interact Spec SpecOps SpecTJ SpecSpin PBasis PSites PRot PSpin POps PWave.
Import ListNotations.
Open Scope Z_scope.

Section TJ.
Variables (L : lattice) (n : Z) (K : interactions) (S : switches).
Hypothesis HS : lat_size L = n.

Definition w_hop (psi : wave) : wave := fun s => sum_sites n (fun h => sum_sites n (fun e =>
  only (lat_from L h && lat_to L e && bonded L h e && holeb (s h) && negb (holeb (s e))) (i_t K * psi (swap_state h e s))%Qc)).
Definition w_next (psi : wave) : wave := fun s => sum_sites n (fun h => sum_sites n (fun e =>
  only (lat_from L h && lat_to L e && two_bonds L h e && holeb (s h) && negb (holeb (s e)))
    ((if lineb2 (lat_pos L h) (lat_pos L e) then i_tnNNN K else i_tNNN K) * psi (swap_state h e s))%Qc)).
Definition w_singlet (psi : wave) : wave := fun s => sum_sites n (fun h => sum_sites n (fun m => sum_sites n (fun e =>
  only (lat_from L h && lat_to L m && lat_to L e && bonded L h m && bonded L m e && holeb (s h) && oppositeb (s m) (s e))
    ((if lineb2 (lat_pos L h) (lat_pos L e) then i_hSDpar K else i_hSDper K) * (psi (shift_state h m e s) - psi (swap_state h e s)))%Qc))).
Definition w_static (psi : wave) : wave := fun s => (op_static L K s * psi s)%Qc.
Definition w_flip (psi : wave) : wave := fun s => sum_sites n (fun i => sum_sites n (fun j =>
  only (spin_bond L s i j) (half * exchange K (bond_doping L s i j) * psi (swap_state i j s))%Qc)).
Definition w_repulsion (psi : wave) : wave := fun s => (op_repulsion L K s * psi s)%Qc.

Definition w_tj (psi : wave) : wave := fun s =>
  (only (s_bt S) (w_hop psi s) + only (s_bz S) (w_static psi s) + only (s_bij S) (w_flip psi s)
   + only (s_bSD S) (w_singlet psi s) + only (s_btN S) (w_next psi s) + only (s_bV S) (w_repulsion psi s))%Qc.

(** linear and extensional *)
Definition lin_ext (O : wave -> wave) : Prop :=
  (forall psi phi t, (forall s, psi s = phi s) -> O psi t = O phi t) /\
  (forall psi phi x y t, O (fun s => (x * psi s + y * phi s)%Qc) t = (x * O psi t + y * O phi t)%Qc).

Lemma le_sum : forall m (O : Z -> wave -> wave), (forall k, lin_ext (O k)) -> lin_ext (fun psi s => sum_sites m (fun k => O k psi s)).
Proof.
  intros m O H. split.
  - intros psi phi t Q. apply sum_sites_ext. intros k _. now apply (H k).
  - intros psi phi x y t. rewrite <- !sum_sites_scale, <- sum_sites_add. apply sum_sites_ext. intros k _. apply (H k).
Qed.
Lemma le_only : forall (b : occupation -> bool) O, lin_ext O -> lin_ext (fun psi s => only (b s) (O psi s)).
Proof.
  intros b O [A B]. split.
  - intros psi phi t Q. f_equal. now apply A.
  - intros psi phi x y t. destruct (b t); cbn [only]; [apply B | ring].
Qed.
Lemma le_add : forall O O', lin_ext O -> lin_ext O' -> lin_ext (fun psi s => (O psi s + O' psi s)%Qc).
Proof.
  intros O O' [A B] [A' B']. split.
  - intros psi phi t Q. now rewrite (A _ _ t Q), (A' _ _ t Q).
  - intros. rewrite B, B'. ring.
Qed.
Lemma le_move : forall (f : occupation -> Qc) (g : occupation -> occupation), lin_ext (fun psi s => (f s * psi (g s))%Qc).
Proof. intros f g. split; [intros psi phi t Q; now rewrite Q | intros; ring]. Qed.
Lemma le_diff : forall (f : occupation -> Qc) (g g' : occupation -> occupation), lin_ext (fun psi s => (f s * (psi (g s) - psi (g' s)))%Qc).
Proof. intros f g g'. split; [intros psi phi t Q; now rewrite !Q | intros; ring]. Qed.

Lemma tj_lin_ext : lin_ext w_tj.
Proof.
  unfold w_tj. repeat apply le_add; apply (le_only (fun _ => _)).
  - apply le_sum. intros h. apply le_sum. intros e. apply (le_only (fun s => _)). apply (le_move (fun _ => _)).
  - apply (le_move _ (fun s => s)).
  - apply le_sum. intros h. apply le_sum. intros e. apply (le_only (fun s => _)). apply (le_move (fun s => (half * exchange K (bond_doping L s h e))%Qc)).
  - apply le_sum. intros h. apply le_sum. intros m. apply le_sum. intros e. apply (le_only (fun s => _)). apply (le_diff (fun _ => _)).
  - apply le_sum. intros h. apply le_sum. intros e. apply (le_only (fun s => _)). apply (le_move (fun _ => _)).
  - apply (le_move _ (fun s => s)).
Qed.

(** the moves are relabellings *)
Definition tr (x y z : Z) : Z := if z =? x then y else if z =? y then x else z.
Definition cyc (h m e z : Z) : Z := if z =? h then m else if z =? m then e else if z =? e then h else z.
Definition cyc_inv (h m e z : Z) : Z := if z =? m then h else if z =? e then m else if z =? h then e else z.

Lemma tr_bij : forall x y, 0 <= x < n -> 0 <= y < n -> site_bij n (tr x y) (tr x y).
Proof.
  intros x y Hx Hy z Hz. unfold tr.
  destruct (Z.eqb_spec z x), (Z.eqb_spec z y); subst; repeat rewrite ?Z.eqb_refl; 
   repeat match goal with |- context [?a =? ?b] => destruct (Z.eqb_spec a b); subst; try contradiction; try congruence end; auto.
Qed.
Lemma cyc_bij : forall h m e, 0 <= h < n -> 0 <= m < n -> 0 <= e < n -> h <> m -> m <> e -> h <> e -> site_bij n (cyc h m e) (cyc_inv h m e).
Proof.
  intros h m e Hh Hm He N1 N2 N3 z Hz. unfold cyc, cyc_inv.
  repeat match goal with |- context [?a =? ?b] => destruct (Z.eqb_spec a b); subst; try contradiction; try congruence end; auto.
Qed.
Lemma swap_tr : forall x y s z, swap_state x y s z = s (tr x y z).
Proof. intros. unfold swap_state, tr. destruct (z =? x); [reflexivity|]. now destruct (z =? y). Qed.
Lemma shift_cyc : forall h m e s z, shift_state h m e s z = s (cyc h m e z).
Proof. intros. unfold shift_state, cyc. destruct (z =? h); [reflexivity|]. destruct (z =? m); [reflexivity|]. now destruct (z =? e). Qed.

Lemma ks_swap : forall f x y, sees_holes n f -> 0 <= x < n -> 0 <= y < n -> keeps_spin n (fun psi s => (f s * psi (swap_state x y s))%Qc).
Proof.
  intros f x y F Hx Hy. apply (ks_ext n (fun psi s => (f s * psi (fun z => s (tr x y z)))%Qc)).
  - intros psi t H. f_equal. apply H. intros z _. symmetry. apply swap_tr.
  - intros psi phi t Q. now rewrite Q.
  - apply (ks_move n f (tr x y) (tr x y) F). now apply tr_bij.
Qed.
Lemma ks_shift : forall f h m e, sees_holes n f -> 0 <= h < n -> 0 <= m < n -> 0 <= e < n -> h <> m -> m <> e -> h <> e ->
  keeps_spin n (fun psi s => (f s * psi (shift_state h m e s))%Qc).
Proof.
  intros f h m e F Hh Hm He N1 N2 N3. apply (ks_ext n (fun psi s => (f s * psi (fun z => s (cyc h m e z)))%Qc)).
  - intros psi t H. f_equal. apply H. intros z _. symmetry. apply shift_cyc.
  - intros psi phi t Q. now rewrite Q.
  - apply (ks_move n f (cyc h m e) (cyc_inv h m e) F). now apply cyc_bij.
Qed.
Lemma ks_diag : forall f, sees_holes n f -> keeps_spin n (fun psi s => (f s * psi s)%Qc).
Proof. intros f F. apply (ks_move n f (fun z => z) (fun z => z) F). intros z Hz. auto. Qed.

Lemma only_mul : forall b x y, only b (x * y)%Qc = (only b x * y)%Qc.
Proof. intros [|] x y; cbn [only]; ring. Qed.

Lemma ks_hops : forall (R : Z -> Z -> bool) (x : Z -> Z -> Qc),
  keeps_spin n (fun psi s => sum_sites n (fun h => sum_sites n (fun e =>
    only (R h e && holeb (s h) && negb (holeb (s e))) (x h e * psi (swap_state h e s))%Qc))).
Proof.
  intros R x. apply ks_sum. intros h Hh. apply ks_sum. intros e He.
  apply (ks_ext n (fun psi s => (only (R h e && holeb (s h) && negb (holeb (s e))) (x h e) * psi (swap_state h e s))%Qc)).
  - intros psi t _. symmetry. apply only_mul.
  - intros psi phi t Q. now rewrite Q.
  - apply ks_swap; [|assumption|assumption]. intros s t Q. now rewrite (Q h Hh), (Q e He).
Qed.

Lemma ks_singlet : keeps_spin n w_singlet.
Proof.
  apply ks_sum. intros h Hh. apply ks_sum. intros m Hm. apply ks_sum. intros e He.
  set (x := if lineb2 (lat_pos L h) (lat_pos L e) then i_hSDpar K else i_hSDper K).
  set (R := lat_from L h && lat_to L m && lat_to L e && bonded L h m && bonded L m e).
  set (f := fun s : occupation => only (R && holeb (s h) && negb (holeb (s m)) && negb (holeb (s e))) x).
  assert (F : sees_holes n f).
  { intros s t Q. unfold f. now rewrite (Q h Hh), (Q m Hm), (Q e He). }
  apply (ks_ext n (fun psi s => (only (negb (h =? m) && negb (m =? e) && negb (h =? e)) (f s * psi (shift_state h m e s)) + only (negb (h =? m) && negb (m =? e) && negb (h =? e)) ((-(1)) * (f s * psi (swap_state h e s))))%Qc)).
  - intros psi s H. unfold f.
    replace (lat_from L h && lat_to L m && lat_to L e && bonded L h m && bonded L m e && holeb (s h) && oppositeb (s m) (s e))
      with (R && holeb (s h) && oppositeb (s m) (s e)) by reflexivity. fold x.
    assert (N2 : R = true -> m <> e).
    { intros HR ->. unfold R in HR. rewrite (bonded_irrefl L e), !andb_false_r in HR. discriminate. }
    destruct R; cbn [andb only]; [|destruct (_ && _); cbn [only]; ring]. specialize (N2 eq_refl).
    destruct (s h) eqn:Sh; cbn [holeb andb only]; try (destruct (_ && _); cbn [only]; ring).
    destruct (s m) eqn:Sm; cbn [holeb negb andb only oppositeb]; try (destruct (_ && _); cbn [only]; ring);
    destruct (s e) eqn:Se; cbn [holeb negb andb only oppositeb]; try (destruct (_ && _); cbn [only]; ring);
    (assert (N1 : h <> m) by congruence); (assert (N3 : h <> e) by congruence);
    rewrite (proj2 (Z.eqb_neq h m) N1), (proj2 (Z.eqb_neq h e) N3); cbn [negb andb only].
    + replace (psi (shift_state h m e s)) with (psi (swap_state h e s)); [destruct (_ && _); cbn [only]; ring|].
      apply H. intros z _. unfold swap_state, shift_state. destruct (Z.eqb_spec z h), (Z.eqb_spec z e), (Z.eqb_spec z m); subst; congruence.
    + rewrite (proj2 (Z.eqb_neq m e) N2). cbn [negb andb only]. ring.
    + rewrite (proj2 (Z.eqb_neq m e) N2). cbn [negb andb only]. ring.
    + replace (psi (shift_state h m e s)) with (psi (swap_state h e s)); [destruct (_ && _); cbn [only]; ring|].
      apply H. intros z _. unfold swap_state, shift_state. destruct (Z.eqb_spec z h), (Z.eqb_spec z e), (Z.eqb_spec z m); subst; congruence.
  - intros psi phi t Q. now rewrite !Q.
  - apply ks_add.
    + apply ks_only. intros N. rewrite !andb_true_iff, !negb_true_iff, !Z.eqb_neq in N. apply ks_shift; tauto.
    + apply ks_only. intros N. apply ks_scale. now apply ks_swap.
Qed.

Lemma ks_repulsion : keeps_spin n w_repulsion.
Proof.
  apply ks_diag. intros s t Q. unfold op_repulsion. rewrite HS. apply sum_sites_ext. intros i Hi. apply sum_sites_ext. intros j Hj.
  now rewrite (Q i Hi), (Q j Hj).
Qed.

Lemma ks_exchange : keeps_spin n (fun psi s => (w_static psi s + w_flip psi s)%Qc).
Proof.
  set (f := fun i j s => only ((i <? j) && lat_from L i && lat_to L j && bonded L i j && negb (holeb (s i)) && negb (holeb (s j))) (half * exchange K (bond_doping L s i j))%Qc).
  assert (F : forall i j, 0 <= i < n -> 0 <= j < n -> sees_holes n (f i j)).
  { intros i j Hi Hj s t Q. unfold f. rewrite (Q i Hi), (Q j Hj). do 3 f_equal. apply (doping_holes L n HS). exact Q. }
  apply (ks_ext n (fun psi s => sum_sites n (fun i => sum_sites n (fun j => (f i j s * psi (swap_state i j s) + (-(1)) * (f i j s * psi s))%Qc)))).
  - intros psi s H. unfold w_static, w_flip, op_static. rewrite HS.
    transitivity (sum_sites n (fun i => sum_sites n (fun j => psi s * only (spin_bond L s i j) (- (half * exchange K (bond_doping L s i j)))
       + only (spin_bond L s i j) (half * exchange K (bond_doping L s i j) * psi (swap_state i j s)))))%Qc.
    + apply sum_sites_ext. intros i Hi. apply sum_sites_ext. intros j Hj. unfold f, spin_bond.
      destruct ((i <? j) && lat_from L i && lat_to L j && bonded L i j) eqn:B; cbn [andb only]; [|ring].
      destruct (s i) eqn:Si, (s j) eqn:Sj; cbn [holeb negb andb oppositeb only]; try ring;
      (replace (psi (swap_state i j s)) with (psi s); [ring|]);
      (apply H; intros z _; unfold swap_state; destruct (Z.eqb_spec z i), (Z.eqb_spec z j); subst; congruence).
    + transitivity (psi s * sum_sites n (fun i => sum_sites n (fun j => only (spin_bond L s i j) (- (half * exchange K (bond_doping L s i j)))%Qc))
        + sum_sites n (fun i => sum_sites n (fun j => only (spin_bond L s i j) (half * exchange K (bond_doping L s i j) * psi (swap_state i j s))%Qc)))%Qc; [|ring].
      rewrite <- sum_sites_scale, <- sum_sites_add. apply sum_sites_ext. intros i _. rewrite <- sum_sites_scale, <- sum_sites_add. reflexivity.
  - intros psi phi t Q. unfold w_static, w_flip. rewrite Q. f_equal. apply sum_sites_ext. intros i _. apply sum_sites_ext. intros j _. now rewrite Q.
  - apply ks_sum. intros i Hi. apply ks_sum. intros j Hj. apply ks_add; [|apply ks_scale].
    + apply ks_swap; auto.
    + apply ks_diag; auto.
Qed.

Lemma ks_tj : s_bz S = s_bij S -> keeps_spin n w_tj.
Proof.
  intros Q.
  apply (ks_ext n (fun psi s => (only (s_bt S) (w_hop psi s) + (only (s_bij S) (w_static psi s + w_flip psi s)
    + (only (s_bSD S) (w_singlet psi s) + (only (s_btN S) (w_next psi s) + only (s_bV S) (w_repulsion psi s)))))%Qc)).
  - intros psi s _. unfold w_tj. rewrite Q. destruct (s_bij S); cbn [only]; ring.
  - apply tj_lin_ext.
  - apply ks_add; [apply ks_only; intros _; apply (ks_hops (fun h e => lat_from L h && lat_to L e && bonded L h e) (fun _ _ => i_t K))|].
    apply ks_add; [apply (ks_only n (s_bij S) (fun psi s => (w_static psi s + w_flip psi s)%Qc)); intros _; apply ks_exchange|].
    apply ks_add; [apply ks_only; intros _; apply ks_singlet|].
    apply ks_add; [apply ks_only; intros _; apply (ks_hops (fun h e => lat_from L h && lat_to L e && two_bonds L h e) (fun h e => if lineb2 (lat_pos L h) (lat_pos L e) then i_tnNNN K else i_tNNN K))|].
    apply ks_only. intros _. apply ks_repulsion.
Qed.

Lemma tj_squared : s_bz S = s_bij S -> forall psi t, on_lattice n psi -> w_tj (S_squared n psi) t = S_squared n (w_tj psi) t.
Proof. intros Q. apply ks_squared; [now apply ks_tj | apply tj_lin_ext]. Qed.
End TJ.
