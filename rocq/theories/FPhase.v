(** Final lemmas for C75: the spectra along t/J. *)
From Coq Require Import ZArith String List Bool Sorted Permutation Lia QArith Lqa Qcanon.
From Verif Require Import PyBase PyFacts Lattice Base Interact Ham Spin Prob Dav PQc PProb PLowest PDav FDav PFiles Spec SpecTJ SpinDefs Geometry HamSpec DavDefs Files FilesDefs FHam FFiles FRun Emb Display Post Phase PhaseDefs PPhase PPhaseLoop.
Import ListNotations.
Open Scope Z_scope.

Lemma C75_reorganised_pf : forall n curves, (1 <= n)%nat -> rectangle n curves ->
  exists curves', reorganise (loop_fuel curves) curves 0 = Ok curves' /\ length curves' = length curves /\ rectangle n curves' /\
    (forall k, Permutation (column k curves) (column k curves')) /\ map (firstn 3) curves' = map (firstn 3) curves.
Proof. intros n curves H F. destruct (reorganise_ok n curves H F) as (r & R & K). exists r. split; [exact R | exact K]. Qed.

Lemma color_ok : forall m, m = Some "doublet"%string \/ m = Some "quartet"%string ->
  exists x, color_of m = Ok x /\ (m = Some "doublet" /\ x = "b" \/ m = Some "quartet" /\ x = "g")%string.
Proof. intros m [-> | ->]; eexists; (split; [reflexivity|]); auto. Qed.
Lemma color_bad : forall m, ~ (m = Some "doublet"%string \/ m = Some "quartet"%string) -> color_of m = Err KeyError.
Proof.
  intros [x|] H; [|reflexivity]. unfold color_of.
  destruct (String.eqb_spec x "doublet") as [->|]; [exfalso; auto|]. destruct (String.eqb_spec x "quartet") as [->|]; [exfalso; auto | reflexivity].
Qed.
Lemma style_ok : forall k, k = 1 \/ k = 2 -> exists x, linestyle_of k = Ok x /\ (k = 1 /\ x = "--" \/ k = 2 /\ x = "-")%string.
Proof. intros k [-> | ->]; eexists; (split; [reflexivity|]); auto. Qed.
Lemma style_bad : forall k, ~ (k = 1 \/ k = 2) -> linestyle_of k = Err KeyError.
Proof. intros k H. unfold linestyle_of. destruct (Z.eqb_spec k 1); [lia|]. destruct (Z.eqb_spec k 2); [lia | reflexivity]. Qed.

Lemma drawable_dec : forall p, drawable p \/ ~ drawable p.
Proof.
  intros p. unfold drawable. destruct (q_mult p) as [x|].
  - destruct (string_dec x "doublet") as [->|N1]; [|destruct (string_dec x "quartet") as [->|N2]; [|right; intros [[A|A] _]; congruence]];
    (destruct (Z.eq_dec (q_deg p) 1); [left; auto|]; destruct (Z.eq_dec (q_deg p) 2); [left; auto | right; intros [_ [A|A]]; lia]).
  - right. intros [[A|A] _]; discriminate.
Qed.

Definition line_of (l : list point) : res ((string * string) * list Qc) :=
  p <- py_get l 0 ;; color <- color_of (q_mult p) ;; style <- linestyle_of (q_deg p) ;; Ok ((color, style), map q_energy l).
Lemma line_ok : forall l p, nth_error l 0 = Some p -> drawable p -> exists color style, line_of l = Ok ((color, style), map q_energy l) /\ look p color style.
Proof.
  intros l p Hp [A B]. destruct (color_ok _ A) as (x & X1 & X2). destruct (style_ok _ B) as (y & Y1 & Y2).
  exists x, y. split; [|split; assumption]. unfold line_of. rewrite (py_get_nth _ l 0 p ltac:(lia) Hp). cbn [bind]. rewrite X1. cbn [bind]. rewrite Y1. reflexivity.
Qed.
Lemma line_bad : forall l p, nth_error l 0 = Some p -> ~ drawable p -> line_of l = Err KeyError.
Proof.
  intros l p Hp H. unfold line_of. rewrite (py_get_nth _ l 0 p ltac:(lia) Hp). cbn [bind].
  assert (D : (q_mult p = Some "doublet"%string \/ q_mult p = Some "quartet"%string) \/ ~ (q_mult p = Some "doublet"%string \/ q_mult p = Some "quartet"%string)).
  { destruct (q_mult p) as [x|]; [|right; intros [?|?]; discriminate].
    destruct (string_dec x "doublet") as [->|]; [auto|]. destruct (string_dec x "quartet") as [->|]; [auto|]. right. intros [?|?]; congruence. }
  destruct D as [D|D]; [|rewrite (color_bad _ D); reflexivity].
  destruct (color_ok _ D) as (x & X & _). rewrite X. cbn [bind]. rewrite style_bad; [reflexivity|]. intros Q. apply H. split; assumption.
Qed.

Lemma draw_ok : forall n curves curves', (1 <= n)%nat -> rectangle n curves -> kept n curves curves' ->
  (forall l p, In l curves -> nth_error l 0 = Some p -> drawable p) -> exists lines, draw_curves curves' = Ok lines /\ drawn curves lines.
Proof.
  intros n curves curves' Hn R (K1 & K2 & K3 & K4) D.
  assert (H3 : forall i l l', nth_error curves i = Some l -> nth_error curves' i = Some l' -> firstn 3 l' = firstn 3 l).
  { intros i l l' A B. apply (map_nth_error (firstn 3)) in A. apply (map_nth_error (firstn 3)) in B. rewrite K4 in B. congruence. }
  assert (L : exists lines, draw_curves curves' = Ok lines).
  { assert (forall l, In l curves' -> exists x, line_of l = Ok x).
    { intros l' Hl. apply In_nth_error in Hl. destruct Hl as [i Hi].
      assert (Hi' : (i < length curves)%nat) by (rewrite <- K1; apply nth_error_Some; congruence).
      destruct (nth_error curves i) as [l|] eqn:El; [|apply nth_error_None in El; lia]. specialize (H3 _ _ _ El Hi).
      assert (Ll : length l = n) by (unfold rectangle in R; rewrite Forall_forall in R; apply R; eapply nth_error_In; exact El).
      destruct l as [|p l]; [simpl in Ll; lia|]. destruct l' as [|p' l']; [discriminate|].
      assert (p' = p) by (injection H3 as ->; reflexivity). subst p'.
      destruct (line_ok (p :: l') p eq_refl) as (c & s & Q & _); [apply (D (p :: l)); [eapply nth_error_In; exact El | reflexivity]|]. eexists; exact Q. }
    clear - H. induction curves' as [|l c IH]; [exists []; reflexivity|].
    destruct (H l (or_introl eq_refl)) as [x X]. destruct IH as [y Y]; [intros; apply H; right; assumption|].
    exists (x :: y). unfold draw_curves in *. cbn [mapM]. unfold line_of in X. rewrite X. cbn [bind]. rewrite Y. reflexivity. }
  destruct L as [lines L]. exists lines. split; [exact L|].
  pose proof (mapM_length _ _ _ _ _ L) as Ll.
  assert (E : map snd lines = map (map q_energy) curves').
  { clear - L. revert lines L. induction curves' as [|l c IH]; intros lines L; [injection L as <-; reflexivity|].
    unfold draw_curves in *. cbn [mapM] in L. apply bind_ok_inv in L. destruct L as (x & X & L). apply bind_ok_inv in L. destruct L as (y & Y & L). injection L as <-.
    cbn [map]. f_equal; [|apply IH; exact Y]. apply bind_ok_inv in X. destruct X as (p & _ & X). apply bind_ok_inv in X. destruct X as (u & _ & X).
    apply bind_ok_inv in X. destruct X as (v & _ & X). injection X as <-. reflexivity. }
  split; [congruence|]. split.
  - intros i l El.
    assert (Hi' : (i < length curves')%nat) by (rewrite K1; apply nth_error_Some; congruence).
    destruct (nth_error curves' i) as [l'|] eqn:El'; [|apply nth_error_None in El'; lia]. specialize (H3 _ _ _ El El').
    assert (Len : length l = n) by (unfold rectangle in R; rewrite Forall_forall in R; apply R; eapply nth_error_In; exact El).
    assert (Len' : length l' = n) by (rewrite Forall_forall in K2; apply K2; eapply nth_error_In; exact El').
    destruct (mapM_nth _ _ _ _ _ i l' L El') as (x & X & Nx). fold (line_of l') in X.
    destruct l as [|p l]; [simpl in Len; lia|]. destruct l' as [|p' l']; [discriminate|].
    assert (p' = p) by (injection H3 as ->; reflexivity). subst p'.
    destruct (line_ok (p :: l') p eq_refl) as (c & s & Q & Lk); [apply (D (p :: l)); [eapply nth_error_In; exact El | reflexivity]|].
    rewrite X in Q. injection Q as ->. exists p, c, s, (map q_energy (p :: l')). split; [reflexivity|]. split; [exact Lk|]. split; [exact Nx|].
    split; [rewrite map_length; congruence|]. intros k q Hk Hq. apply map_nth_error.
    rewrite <- (nth_error_firstn_lt _ 3 k) by lia. rewrite H3, nth_error_firstn_lt by lia. exact Hq.
  - intros k. replace (map (fun l => nth_error (snd l) k) lines) with (map (option_map q_energy) (column k curves')).
    + apply Permutation_map, K3.
    + unfold column. rewrite map_map. replace (map (fun l => nth_error (snd l) k) lines) with (map (fun l => nth_error l k) (map snd lines)) by (rewrite map_map; reflexivity).
      rewrite E, map_map. apply map_ext. intros l. symmetry. rewrite nth_error_map. reflexivity.
Qed.

Lemma draw_bad : forall n curves curves' l p, (1 <= n)%nat -> rectangle n curves -> kept n curves curves' -> In l curves -> nth_error l 0 = Some p ->
  ~ drawable p -> draw_curves curves' = Err KeyError.
Proof.
  intros n curves curves' l p Hn R (K1 & K2 & K3 & K4) Hl Hp B.
  assert (exists l', In l' curves' /\ nth_error l' 0 = Some p) as (l' & I & P').
  { apply In_nth_error in Hl. destruct Hl as [i Hi]. assert (Hi' : (i < length curves')%nat) by (rewrite K1; apply nth_error_Some; congruence).
    destruct (nth_error curves' i) as [l'|] eqn:El'; [|apply nth_error_None in El'; lia]. exists l'. split; [eapply nth_error_In; exact El'|].
    apply (map_nth_error (firstn 3)) in Hi. apply (map_nth_error (firstn 3)) in El'. rewrite K4 in El'. rewrite Hi in El'. assert (Q : firstn 3 l = firstn 3 l') by congruence.
    rewrite <- (nth_error_firstn_lt _ 3 0) by lia. rewrite <- Q. rewrite nth_error_firstn_lt by lia. exact Hp. }
  clear K1 K3 K4 Hl R. induction curves' as [|c cs IH]; [destruct I|].
  apply Forall_inv in K2 as Kc. apply Forall_inv_tail in K2.
  unfold draw_curves in *. cbn [mapM]. fold (line_of c).
  destruct c as [|q c]; [simpl in Kc; lia|]. destruct (drawable_dec q) as [Dq|Dq].
  - destruct (line_ok (q :: c) q eq_refl Dq) as (x & y & Q & _). rewrite Q. cbn [bind].
    destruct I as [I|I]; [subst l'; simpl in P'; injection P' as ->; contradiction|]. rewrite (IH K2 I). reflexivity.
  - rewrite (line_bad (q :: c) q eq_refl Dq). reflexivity.
Qed.

Lemma C75_untangled_pf : forall n curves curves', (1 <= n)%nat -> rectangle n curves ->
  reorganise (loop_fuel curves) curves 0 = Ok curves' -> untangled 0 curves curves'.
Proof. intros n curves curves' Hn F R. exact (reorganise_untangled _ n curves 0 curves' Hn F (Z.le_refl 0) R). Qed.

Lemma C75_drawn_pf : forall c n n' curves extended, (1 <= n)%nat -> (1 <= n')%nat -> rectangle n curves -> rectangle n' extended ->
  (forall l p, In l curves \/ In l extended -> nth_error l 0 = Some p -> drawable p) ->
  exists lines lines', drawn curves lines /\ drawn extended lines' /\
    plot_spectra c curves extended =
      ([mkFigure (append (picture c "ParametrizedSpectrum") ".png") lines; mkFigure (append (picture c "ParametrizedSpectrum") "-extended.png") lines'], Ok tt).
Proof.
  intros c n n' u v Hn Hn' R R' D. destruct (reorganise_ok n u Hn R) as (u' & U & K). destruct (reorganise_ok n' v Hn' R') as (v' & V & K').
  destruct (draw_ok n u u' Hn R K) as (lines & L & Dl); [intros; eapply D; eauto|].
  destruct (draw_ok n' v v' Hn' R' K') as (lines' & L' & Dl'); [intros; eapply D; eauto|].
  exists lines, lines'. split; [exact Dl|]. split; [exact Dl'|]. unfold plot_spectra. rewrite U, V, L, L'. reflexivity.
Qed.

Lemma C75_undrawable_pf : forall c n n' curves extended l p, (1 <= n)%nat -> (1 <= n')%nat -> rectangle n curves -> rectangle n' extended ->
  nth_error l 0 = Some p -> ~ drawable p ->
  (In l curves -> plot_spectra c curves extended = ([], Err KeyError)) /\
  (In l extended -> (forall m q, In m curves -> nth_error m 0 = Some q -> drawable q) ->
   exists lines, drawn curves lines /\ plot_spectra c curves extended = ([mkFigure (append (picture c "ParametrizedSpectrum") ".png") lines], Err KeyError)).
Proof.
  intros c n n' u v l p Hn Hn' R R' Hp B. destruct (reorganise_ok n u Hn R) as (u' & U & K). destruct (reorganise_ok n' v Hn' R') as (v' & V & K').
  split.
  - intros I. unfold plot_spectra. rewrite U, V, (draw_bad n u u' l p Hn R K I Hp B). reflexivity.
  - intros I D. destruct (draw_ok n u u' Hn R K D) as (lines & L & Dl). exists lines. split; [exact Dl|].
    unfold plot_spectra. rewrite U, V, L, (draw_bad n' v v' l p Hn' R' K' I Hp B). reflexivity.
Qed.

(** states of integer spin have no colour *)
Lemma C75_integer_spin_pf : forall k p, q_mult p = compute_spin_multiplicity (Some (qz k)) -> ~ drawable p.
Proof.
  intros k p H [D _]. rewrite H in D. clear H. unfold compute_spin_multiplicity in D. cbv zeta in D.
  assert (N : forall m, (qz 2 * qz k + 1)%Qc = qz m -> m = 2 * k + 1).
  { intros m Q. apply this_eq in Q. rewrite this_add, this_mul, !this_qz, this_1 in Q. change 1%Q with (inject_Z 1) in Q.
    rewrite <- inject_Z_mult, <- inject_Z_plus in Q. apply (proj1 (inject_Z_injective _ _)) in Q. lia. }
  destruct (Qc_eq_dec _ (qz 1)); [destruct D; discriminate|].
  destruct (Qc_eq_dec _ (qz 2)) as [Q|]; [apply N in Q; lia|].
  destruct (Qc_eq_dec _ (qz 3)); [destruct D; discriminate|].
  destruct (Qc_eq_dec _ (qz 4)) as [Q|]; [apply N in Q; lia|].
  destruct (Qc_eq_dec _ (qz 5)); [destruct D; discriminate|].
  destruct (Qclt_le_dec _ _); destruct D; discriminate.
Qed.

(** ** the couplings along t/J *)

Lemma C75_scaled_pf : forall K tJ, (tJ <> 0)%Qc -> i_J K <> 0%Qc ->
  exists K', scaled_interactions K tJ = Ok K' /\ i_t K' = i_t K /\ (i_J K' * tJ = if Qclt_le_dec (i_t K) 0 then - i_t K else i_t K)%Qc /\
    (i_Jhpar K' * i_J K = i_Jhpar K * i_J K')%Qc /\ (i_Jhper K' * i_J K = i_Jhper K * i_J K')%Qc /\
    (i_hSDpar K' * i_J K = i_hSDpar K * i_J K')%Qc /\ (i_hSDper K' * i_J K = i_hSDper K * i_J K')%Qc /\
    i_tNNN K' = i_tNNN K /\ i_tnNNN K' = i_tnNNN K /\ i_VNN K' = i_VNN K /\ i_VNNNper K' = i_VNNNper K.
Proof.
  intros K tJ H1 H2. unfold scaled_interactions, fdiv. rewrite !(proj2 (qeqb_neq _ _) H1). cbn [bind]. rewrite !(proj2 (qeqb_neq _ _) H2). cbn [bind]. eexists. split; [reflexivity|].
  cbn. split; [reflexivity|]. split.
  { unfold qabs. destruct (Qclt_le_dec (i_t K) 0) as [L|L].
    - destruct (qleb 0 (i_t K)) eqn:Q; [apply qleb_le in Q; exfalso; exact (Qcle_not_lt _ _ Q L)|]. field. exact H1.
    - replace (qleb 0 (i_t K)) with true by (symmetry; apply qleb_le; exact L). field. exact H1. }
  repeat split; field; auto.
Qed.

Lemma C75_no_exchange_pf : forall K tJ, i_J K = 0%Qc \/ tJ = 0%Qc -> scaled_interactions K tJ = Err ZeroDivisionError.
Proof.
  intros K tJ H. unfold scaled_interactions, fdiv. destruct (qeqb tJ 0) eqn:Q; [reflexivity|]. cbn [bind].
  destruct H as [->| ->]; [rewrite qeqb_refl; reflexivity | rewrite qeqb_refl in Q; discriminate].
Qed.

(** ** the points *)

Lemma round0_mono : forall x y, (x <= y)%Qc -> round0 x <= round0 y.
Proof.
  intros x y H. destruct (Z_le_gt_dec (round0 x) (round0 y)) as [L|L]; [exact L|]. exfalso.
  destruct (round_half x) as [A _]. destruct (round_half y) as [_ B].
  assert (x = y); [|subst; lia]. apply Qcle_antisym; [exact H|].
  eapply Qcle_trans; [exact B|]. eapply Qcle_trans; [|exact A].
  apply Qcle_this. rewrite this_add, this_sub, !this_qz, this_half.
  assert (inject_Z (round0 y) + 1 <= inject_Z (round0 x))%Q by (change 1%Q with (inject_Z 1); rewrite <- inject_Z_plus, <- Zle_Qle; lia).
  setoid_replace (inject_Z (round0 y) + (1 # 2))%Q with (inject_Z (round0 y) + 1 - (1 # 2))%Q by ring.
  apply Qplus_le_compat; [assumption | apply Qle_refl].
Qed.
Lemma round_to_mono : forall x y, (x <= y)%Qc -> (round_to x 6 <= round_to y 6)%Qc.
Proof.
  intros x y H. unfold round_to. cbn [Z.ltb Z.compare Z.abs]. set (p := qz (10 ^ 6)).
  assert (P : (0 < p)%Qc) by reflexivity. apply Qcle_this. unfold Qcdiv. rewrite !this_mul. apply Qmult_le_compat_r.
  - rewrite !this_qz. rewrite <- Zle_Qle. apply round0_mono. apply Qcle_this. rewrite !this_mul. apply Qmult_le_compat_r; [apply Qcle_this; exact H|].
    apply Qlt_le_weak, P.
  - vm_compute. discriminate.
Qed.

Lemma qinsert_first : forall x l, Forall (fun y => (x <= y)%Qc) l -> qinsert x l = x :: l.
Proof. intros x [|y l] H; [reflexivity|]. cbn [qinsert]. apply Forall_inv in H. apply qleb_le in H. rewrite H. reflexivity. Qed.
Lemma qsort_id : forall l, StronglySorted (fun x y => (x <= y)%Qc) l -> qsort l = l.
Proof. induction l as [|x l IH]; intros H; [reflexivity|]. inversion H; subst. cbn [qsort]. rewrite IH by assumption. apply qinsert_first. assumption. Qed.

Lemma rounded_sorted : forall l, StronglySorted (fun x y => (x <= y)%Qc) l -> StronglySorted (fun x y => (x <= y)%Qc) (rounded l).
Proof.
  induction l as [|x l IH]; intros H; [constructor|]. inversion H; subst. constructor; [apply IH; assumption|].
  change (Forall (fun y => (round_to x 6 <= y)%Qc) (map (fun e => round_to e 6) l)). apply Forall_map.
  eapply Forall_impl; [|eassumption]. intros y. apply round_to_mono.
Qed.

Lemma mapM_ex : forall A B (f : A -> res B) (P : A -> B -> Prop) l, (forall x, In x l -> exists y, f x = Ok y /\ P x y) -> exists m, mapM f l = Ok m /\ Forall2 P l m.
Proof.
  induction l as [|x l IH]; intros H; [exists []; split; [reflexivity | constructor]|].
  destruct (H x (or_introl eq_refl)) as (y & Y & Py). destruct IH as (m & M & F); [intros; apply H; right; assumption|].
  exists (y :: m). split; [cbn [mapM]; rewrite Y; cbn [bind]; rewrite M; reflexivity | constructor; assumption].
Qed.

Lemma C75_points_pf : forall e count, StronglySorted (fun x y => (x <= y)%Qc) (e_vals e) -> length (e_spins e) = length (e_vals e) -> 
  0 <= count <= zlen (e_vals e) ->
  exists pts, points_of e count = Ok pts /\ length pts = Z.to_nat count /\ forall i p, nth_error pts i = Some p -> point_of_run e i p.
Proof.
  intros e count S Ls Hc. unfold points_of. cbv zeta. rewrite (qsort_id _ (rounded_sorted _ S)).
  edestruct (mapM_ex Z point (fun ind => x <- py_get (rounded (e_vals e)) ind ;; m <- py_get (labels (e_spins e)) ind ;; k <- py_get (degeneracies (rounded (e_vals e))) ind ;; Ok (mkPoint x m k))
    (fun i p => point_of_run e (Z.to_nat i) p) (zrange 0 count)) as (pts & P & F).
  - intros i Hi. apply in_zrange in Hi.
    destruct (nth_error (e_vals e) (Z.to_nat i)) as [l|] eqn:El; [|apply nth_error_None in El; unfold zlen in *; lia].
    destruct (nth_error (e_spins e) (Z.to_nat i)) as [s|] eqn:Es; [|apply nth_error_None in Es; unfold zlen in *; lia].
    assert (Er : nth_error (rounded (e_vals e)) (Z.to_nat i) = Some (round_to l 6)) by (unfold rounded; apply map_nth_error with (f := fun e => round_to e 6); exact El).
    rewrite (py_get_nth _ _ i (round_to l 6) ltac:(lia) Er). cbn [bind].
    rewrite (py_get_nth _ (labels (e_spins e)) i (compute_spin_multiplicity s) ltac:(lia) (map_nth_error _ _ _ Es)). cbn [bind].
    rewrite (py_get_nth _ (degeneracies (rounded (e_vals e))) i (qcount (rounded (e_vals e)) (round_to l 6)) ltac:(lia) (map_nth_error _ _ _ Er)). cbn [bind].
    eexists. split; [reflexivity|]. exists l, s. cbn [q_energy q_mult q_deg]. repeat (split; [assumption || reflexivity|]).
    unfold qcount, zlen. f_equal. unfold rounded. clear. generalize (round_to l 6). intros t. induction (e_vals e) as [|x xs IH]; [reflexivity|].
    cbn [map filter]. destruct (qeqb (round_to x 6) t) eqn:Q.
    + apply qeqb_eq in Q. destruct (Qc_eq_dec (round_to x 6) t); [cbn [length]; f_equal; exact IH | contradiction].
    + destruct (Qc_eq_dec (round_to x 6) t) as [Et|]; [rewrite Et, qeqb_refl in Q; discriminate | exact IH].
  - exists pts. split; [exact P|]. pose proof (mapM_length _ _ _ _ _ P) as L. rewrite zrange_length in L. split; [rewrite L; f_equal; lia|].
    intros i p Hi. assert (Hi' : (i < length pts)%nat) by (apply nth_error_Some; congruence).
    assert (G : forall l m, Forall2 (fun i p => point_of_run e (Z.to_nat i) p) l m -> forall k x y, nth_error l k = Some x -> nth_error m k = Some y -> point_of_run e (Z.to_nat x) y).
    { clear. induction 1; intros [|k] u v A B; try discriminate; [injection A as <-; injection B as <-; assumption | eapply IHForall2; eassumption]. }
    replace i with (Z.to_nat (Z.of_nat i)) by lia. apply (G _ _ F i); [|exact Hi]. apply zrange_nth'. lia.
Qed.

Lemma append_points_from : forall (pts : list point) (pre curves : list (list point)) k, (length pts <= length curves)%nat -> k = zlen pre ->
  foldM (fun curves p => l <- py_get curves (fst p) ;; py_set curves (fst p) (l ++ [snd p])) (pre ++ curves) (combine (zrange k (k + zlen pts)) pts) =
  Ok (pre ++ map (fun q => fst q ++ [snd q]) (combine curves pts) ++ skipn (length pts) curves).
Proof.
  induction pts as [|p pts IH]; intros pre curves k L ->.
  - replace (combine (zrange (zlen pre) (zlen pre + zlen [])) []) with (@nil (Z * point)) by (destruct (zrange _ _); reflexivity).
    replace (combine curves []) with (@nil (list point * point)) by (destruct curves; reflexivity). reflexivity.
  - destruct curves as [|l curves]; [simpl in L; lia|]. rewrite zlen_cons. pose proof (zlen_nonneg _ pts). rewrite zrange_cons by lia. cbn [combine foldM fst snd].
    rewrite get_at. cbn [bind]. rewrite set_at. cbn [bind].
    replace (pre ++ (l ++ [p]) :: curves) with ((pre ++ [l ++ [p]]) ++ curves) by (rewrite <- app_assoc; reflexivity).
    replace (zlen pre + (zlen pts + 1)) with (zlen pre + 1 + zlen pts) by lia.
    rewrite (IH (pre ++ [l ++ [p]]) curves (zlen pre + 1)); [|simpl in L; lia | rewrite zlen_app; unfold zlen; simpl; lia].
    cbn [map length skipn fst snd]. rewrite <- app_assoc. reflexivity.
Qed.
Lemma append_points_ok : forall curves pts, (length pts <= length curves)%nat ->
  append_points curves pts = Ok (map (fun q => fst q ++ [snd q]) (combine curves pts) ++ skipn (length pts) curves).
Proof. intros curves pts L. unfold append_points, enumerate. pose proof (append_points_from pts [] curves 0 L eq_refl) as A. exact A. Qed.

(** ** the runs *)

Lemma step_sorted : forall N A nb tol dm K vals vects, 0 <= nb ->
  (dav_step N A nb tol dm K = Ok (Converged vals vects) \/ exists K', dav_step N A nb tol dm K = Ok (Continue vals vects K')) ->
  StronglySorted (fun x y => (x <= y)%Qc) vals.
Proof.
  intros N A nb tol dm K vals vects Hn H.
  assert (G : forall o, dav_step N A nb tol dm K = Ok o -> exists vs xs, (o = Converged vs xs \/ exists K', o = Continue vs xs K') /\ StronglySorted (fun x y => (x <= y)%Qc) vs).
  { clear H. intros o H. unfold dav_step in H. cbv zeta in H. destruct (eigh N _) as [vals0 ys0].
    destruct (lowest_ok vals0 nb Hn) as (idx & (_ & _ & Hs & _) & _ & F). rewrite (F ys0) in H.
    apply bind_ok_inv in H. destruct H as (low & E0 & H). apply bind_ok_inv in E0. destruct E0 as (ys & E1 & E0). apply ok_eq in E0. subst low.
    apply bind_ok_inv in H. destruct H as (rs & Er & H).
    exists (map (fun i => nth i vals0 0%Qc) idx). eexists.
    split.
    - destruct (forallb _ rs); [left; apply ok_eq in H; symmetry; exact H|]. right. apply bind_ok_inv in H. destruct H as (cs & _ & H). apply ok_eq in H. eexists. symmetry. exact H.
    - clear - Hs. induction Hs as [|i l H IH F]; [constructor|]. cbn [map]. constructor; [exact IH|]. apply Forall_map. exact F. }
  destruct H as [H|[K' H]]; destruct (G _ H) as (vs & xs & [Q|[K2 Q]] & S); try discriminate.
  - injection Q as <- _. exact S.
  - injection Q as <- _ _. exact S.
Qed.

Lemma C68_sorted_pf : forall E N roots rand tm d dc, 0 <= g_nb_val (d_diag d) -> 0 <= g_dim_max (d_diag d) ->
  perform_initial_computations E N roots rand tm d = Ok dc -> StronglySorted (fun x y => (x <= y)%Qc) (e_vals (dc_eig dc)).
Proof.
  intros E N roots rand tm d dc Hn Hd H. apply perform_inv in H. destruct H as (found & _ & _ & _ & _ & Dv & _).
  apply C47_budget_pf in Dv. cbv zeta in Dv. destruct Dv as (i & K & _ & F1 & F2).
  eapply step_sorted; [|destruct found; [left; apply F1; reflexivity | right; apply F2; reflexivity]].
  destruct (_ =? 0); lia.
Qed.

Lemma run_counts : forall E N roots rand tm d w r dc, set_iter_ok E -> filled (d_conf d) w r ->
  let c := d_conf d in let g := d_diag d in
  qr_shape N -> norm_above N -> 0 <= g_nb_val g -> 0 <= g_dim_max g -> b_spin (d_bools d) = true ->
  (forall v, g_guess g = Some v -> tall (Z.to_nat (compute_dimension (nsites c) (nalpha c) (nbeta c))) v) ->
  (forall dim nb, 0 <= dim -> tall (Z.to_nat dim) (rand dim nb)) ->
  perform_initial_computations E N roots rand tm d = Ok dc ->
  let count := Z.min (g_nb_val g) (if g_dim_max g =? 0 then compute_dimension (nsites c) (nalpha c) (nbeta c) else g_dim_max g) in
  zlen (e_vals (dc_eig dc)) = count /\ length (e_spins (dc_eig dc)) = length (e_vals (dc_eig dc)).
Proof.
  intros E N roots rand tm d w r dc HE F c g HQ HN Hn Hd Hb HG HR H.
  destruct (C68_run_pf E N roots rand tm d w r HE F) as (l & ham & st & As & St & R).
  cbv zeta in R. pose proof H as H'. rewrite R in H'. 
  assert (Dl : dc_dets dc = l).
  { destruct (modified_davidson_algorithm _ _ _ _ _ _ _) as [[[b vals] vects]|]; [|discriminate]. destruct (if b_spin _ then _ else _); [|discriminate]. injection H' as <-. reflexivity. }
  clear H' R.
  destruct (C28_assembly_pf E c w r (d_inter d) (s_of (d_bools d)) (RList []) HE F) as (l' & ham' & [A1 A2] & Dm & Dc & _).
  assert (l' = l). { destruct As as [B1 _]. fold c in B1. rewrite A1 in B1. injection B1 as ->. reflexivity. } subst l'.
  destruct (C68_eigenpairs_pf E N roots rand tm d w r dc st HE F HQ HN Hn Hd HG HR H) as (L1 & L2 & _).
  { rewrite Dl. intros i x Hx. apply St, Hx. }
  rewrite Dl in L1, L2. fold c g in L1, L2.
  assert (Dq : compute_dimension (nsites c) (nalpha c) (nbeta c) = Z.of_nat (length l)) by (rewrite <- Dc, Dm; reflexivity).
  cbv zeta. rewrite Dq. split.
  - unfold zlen. rewrite L1. destruct (g_dim_max g =? 0); lia.
  - apply perform_inv in H. destruct H as (_ & _ & _ & _ & _ & _ & Sp). rewrite Hb in Sp. apply mapM_length in Sp. congruence.
Qed.

Definition plain_switches : switches := mkSwitches true true true false false false.
Definition full_switches : switches := mkSwitches true true true true true true.

(** one value of t/J *)
Lemma gather_inv : forall E N roots rand tm d w r m, set_iter_ok E -> filled (d_conf d) w r ->
  let c := d_conf d in let g := d_diag d in
  qr_shape N -> norm_above N -> 0 <= g_nb_val g -> 0 <= g_dim_max g ->
  (forall v, g_guess g = Some v -> tall (Z.to_nat (compute_dimension (nsites c) (nalpha c) (nbeta c))) v) ->
  (forall k dim nb, 0 <= dim -> tall (Z.to_nat dim) (rand k dim nb)) ->
  m = Z.to_nat (Z.min (g_nb_val g) (if g_dim_max g =? 0 then compute_dimension (nsites c) (nalpha c) (nbeta c) else g_dim_max g)) ->
  forall grid k0 u v u' v', (m <= length u)%nat -> (m <= length v)%nat ->
  foldM (fun st p =>
           let '(curves, extended) := st in
           K <- scaled_interactions (d_inter d) (snd p) ;;
           r <- perform_initial_computations E N roots (rand (2 * fst p)) tm (mkData (d_conf d) K (d_diag d) (make_bools true true true false false false false true)) ;;
           r' <- perform_initial_computations E N roots (rand (2 * fst p + 1)) tm (mkData (d_conf d) K (d_diag d) (make_bools true true true true true true false true)) ;;
           let count := Z.min (zlen (e_vals (dc_eig r))) (zlen (e_vals (dc_eig r'))) in
           pts <- points_of (dc_eig r) count ;;
           pts' <- points_of (dc_eig r') count ;;
           curves <- append_points curves pts ;;
           extended <- append_points extended pts' ;;
           Ok (curves, extended))
        (u, v) (combine (zrange k0 (k0 + zlen grid)) grid) = Ok (u', v') ->
  length u' = length u /\ length v' = length v /\
  (forall i, (m <= i)%nat -> nth_error u' i = nth_error u i /\ nth_error v' i = nth_error v i) /\
  forall i, (i < m)%nat -> exists l l' x x', nth_error u i = Some l /\ nth_error v i = Some l' /\
    nth_error u' i = Some (l ++ x) /\ nth_error v' i = Some (l' ++ x') /\ length x = length grid /\ length x' = length grid /\
    forall k tJ, nth_error grid k = Some tJ -> exists K dc dc' p p', scaled_interactions (d_inter d) tJ = Ok K /\
      perform_initial_computations E N roots (rand (2 * (k0 + Z.of_nat k))) tm (mkData c K g (mkBools plain_switches true)) = Ok dc /\
      perform_initial_computations E N roots (rand (2 * (k0 + Z.of_nat k) + 1)) tm (mkData c K g (mkBools full_switches true)) = Ok dc' /\
      nth_error x k = Some p /\ nth_error x' k = Some p' /\ point_of_run (dc_eig dc) i p /\ point_of_run (dc_eig dc') i p'.
Proof.
  intros E N roots rand tm d w r m HE F c g HQ HN Hn Hd HG HR Hm. induction grid as [|tJ grid IH]; intros k0 u v u' v' Mu Mv H.
  - replace (combine (zrange k0 (k0 + zlen (@nil Qc))) []) with (@nil (Z * Qc)) in H by (destruct (zrange _ _); reflexivity).
    injection H as <- <-. split; [reflexivity|]. split; [reflexivity|]. split; [auto|]. intros i Hi.
    destruct (nth_error u i) as [l|] eqn:El; [|apply nth_error_None in El; lia]. destruct (nth_error v i) as [l'|] eqn:El'; [|apply nth_error_None in El'; lia].
    exists l, l', [], []. rewrite !app_nil_r. repeat (split; [reflexivity|]). intros [|k] t Q; discriminate.
  - rewrite zlen_cons in H. pose proof (zlen_nonneg _ grid) as Zg. rewrite zrange_cons in H by lia. cbn [combine foldM fst snd] in H.
    apply bind_ok_inv in H. destruct H as ([u1 v1] & S & H).
    apply bind_ok_inv in S. destruct S as (K & EK & S). apply bind_ok_inv in S. destruct S as (dc & Edc & S). apply bind_ok_inv in S. destruct S as (dc' & Edc' & S).
    change (make_bools true true true false false false false true) with (mkBools plain_switches true) in Edc.
    change (make_bools true true true true true true false true) with (mkBools full_switches true) in Edc'.
    set (d1 := mkData (d_conf d) K (d_diag d) (mkBools plain_switches true)) in *.
    set (d2 := mkData (d_conf d) K (d_diag d) (mkBools full_switches true)) in *.
    destruct (run_counts E N roots (rand (2 * k0)) tm d1 w r dc HE F HQ HN Hn Hd eq_refl HG (HR _) Edc) as [C1 P1].
    destruct (run_counts E N roots (rand (2 * k0 + 1)) tm d2 w r dc' HE F HQ HN Hn Hd eq_refl HG (HR _) Edc') as [C2 P2].
    pose proof (C68_sorted_pf E N roots (rand (2 * k0)) tm d1 dc Hn Hd Edc) as S1.
    pose proof (C68_sorted_pf E N roots (rand (2 * k0 + 1)) tm d2 dc' Hn Hd Edc') as S2.
    change (d_conf d1) with c in C1. change (d_diag d1) with g in C1. change (d_conf d2) with c in C2. change (d_diag d2) with g in C2.
    cbv zeta in S. rewrite C1, C2, Z.min_id in S.
    set (count := Z.min (g_nb_val g) (if g_dim_max g =? 0 then compute_dimension (nsites c) (nalpha c) (nbeta c) else g_dim_max g)) in *.
    assert (Cp : 0 <= count) by (rewrite <- C1; apply zlen_nonneg).
    destruct (C75_points_pf (dc_eig dc) count S1 P1 ltac:(lia)) as (pts & Q1 & L1 & A1).
    destruct (C75_points_pf (dc_eig dc') count S2 P2 ltac:(lia)) as (pts' & Q2 & L2 & A2).
    rewrite Q1 in S. cbn [bind] in S. rewrite Q2 in S. cbn [bind] in S. rewrite <- Hm in L1, L2.
    rewrite append_points_ok in S by lia. cbn [bind] in S. rewrite append_points_ok in S by lia. cbn [bind] in S. injection S as <- <-.
    assert (G : forall (w : list (list point)) (pp : list point), length pp = m -> (m <= length w)%nat ->
       let w1 := map (fun q => fst q ++ [snd q]) (combine w pp) ++ skipn (length pp) w in
       length w1 = length w /\ (forall i, (m <= i)%nat -> nth_error w1 i = nth_error w i) /\
       forall i, (i < m)%nat -> exists l p, nth_error w i = Some l /\ nth_error pp i = Some p /\ nth_error w1 i = Some (l ++ [p])).
    { clear. intros w pp Lp Lw. cbv zeta. rewrite Lp.
      assert (Lc : length (combine w pp) = m) by (rewrite combine_length; lia).
      split; [rewrite app_length, map_length, skipn_length; lia|]. split.
      - intros i Hi. rewrite nth_error_app2 by (rewrite map_length; lia). rewrite map_length, Lc, nth_error_skipn_plus. f_equal. lia.
      - intros i Hi. destruct (nth_error w i) as [l|] eqn:El; [|apply nth_error_None in El; lia].
        destruct (nth_error pp i) as [p|] eqn:Ep; [|apply nth_error_None in Ep; lia]. exists l, p. split; [reflexivity|]. split; [reflexivity|].
        rewrite nth_error_app1 by (rewrite map_length; lia). apply (map_nth_error (fun q : list point * point => fst q ++ [snd q]) i (combine w pp) (d := (l, p))).
        clear - El Ep. revert i pp El Ep. induction w as [|a w IH]; intros [|i] [|b pp] El Ep; try discriminate; [injection El as ->; injection Ep as ->; reflexivity|].
        cbn [combine nth_error] in *. apply IH; assumption. }
    destruct (G u pts L1 Mu) as (U1 & U2 & U3). destruct (G v pts' L2 Mv) as (V1 & V2 & V3). clear G. cbv zeta in *.
    set (u1 := map _ (combine u pts) ++ _) in *. set (v1 := map _ (combine v pts') ++ _) in *.
    replace (k0 + (zlen grid + 1)) with (k0 + 1 + zlen grid) in H by lia.
    destruct (IH (k0 + 1) u1 v1 u' v' ltac:(lia) ltac:(lia) H) as (I1 & I2 & I3 & I4).
    split; [congruence|]. split; [congruence|]. split.
    { intros i Hi. destruct (I3 i Hi) as [J1 J2]. rewrite J1, J2, U2, V2 by assumption. auto. }
    intros i Hi. destruct (U3 i Hi) as (l & p & X1 & X2 & X3). destruct (V3 i Hi) as (l' & p' & Y1 & Y2 & Y3).
    destruct (I4 i Hi) as (a & a' & x & x' & B1 & B2 & B3 & B4 & B5 & B6 & B7).
    rewrite X3 in B1. injection B1 as <-. rewrite Y3 in B2. injection B2 as <-.
    exists l, l', (p :: x), (p' :: x'). split; [exact X1|]. split; [exact Y1|].
    split; [rewrite B3, <- app_assoc; reflexivity|]. split; [rewrite B4, <- app_assoc; reflexivity|].
    split; [cbn [length]; congruence|]. split; [cbn [length]; congruence|].
    intros [|k] t Ht.
    + injection Ht as <-. exists K, dc, dc', p, p'. split; [exact EK|]. replace (k0 + Z.of_nat 0) with k0 by lia.
      split; [exact Edc|]. split; [exact Edc'|]. split; [reflexivity|]. split; [reflexivity|]. split; [apply A1, X2 | apply A2, Y2].
    + destruct (B7 k t Ht) as (K1 & e & e' & q & q' & W). replace (k0 + Z.of_nat (S k)) with (k0 + 1 + Z.of_nat k) by lia. exists K1, e, e', q, q'. exact W.
Qed.

Lemma C75_gathered_pf : forall E N roots rand tm d w r grid curves extended, set_iter_ok E -> filled (d_conf d) w r ->
  let c := d_conf d in let g := d_diag d in
  qr_shape N -> norm_above N -> 0 <= g_nb_val g -> 0 <= g_dim_max g ->
  (forall v, g_guess g = Some v -> tall (Z.to_nat (compute_dimension (nsites c) (nalpha c) (nbeta c))) v) ->
  (forall k dim nb, 0 <= dim -> tall (Z.to_nat dim) (rand k dim nb)) ->
  gather E N roots rand tm d grid = Ok (curves, extended) ->
  let count := Z.to_nat (Z.min (g_nb_val g) (if g_dim_max g =? 0 then compute_dimension (nsites c) (nalpha c) (nbeta c) else g_dim_max g)) in
  length curves = Z.to_nat (g_nb_val g) /\ length extended = Z.to_nat (g_nb_val g) /\
  rectangle (length grid) (firstn count curves) /\ rectangle (length grid) (firstn count extended) /\
  rectangle 0 (skipn count curves) /\ rectangle 0 (skipn count extended) /\
  forall i k tJ, (i < count)%nat -> nth_error grid k = Some tJ ->
  exists K dc dc' p p', scaled_interactions (d_inter d) tJ = Ok K /\
    perform_initial_computations E N roots (rand (2 * Z.of_nat k)) tm (mkData c K g (mkBools (mkSwitches true true true false false false) true)) = Ok dc /\
    perform_initial_computations E N roots (rand (2 * Z.of_nat k + 1)) tm (mkData c K g (mkBools (mkSwitches true true true true true true) true)) = Ok dc' /\
    nth_error (nth i curves []) k = Some p /\ nth_error (nth i extended []) k = Some p' /\
    point_of_run (dc_eig dc) i p /\ point_of_run (dc_eig dc') i p'.
Proof.
  intros E N roots rand tm d w r grid curves extended HE F c g HQ HN Hn Hd HG HR H count.
  set (none := repeat ([] : list point) (Z.to_nat (g_nb_val g))).
  assert (Ln : length none = Z.to_nat (g_nb_val g)) by apply repeat_length.
  assert (Lc : (count <= length none)%nat) by (rewrite Ln; unfold count; lia).
  destruct (gather_inv E N roots rand tm d w r count HE F HQ HN Hn Hd HG HR eq_refl grid 0 none none curves extended Lc Lc H) as (I1 & I2 & I3 & I4).
  assert (Nn : forall i l, nth_error none i = Some l -> l = []). { intros i l Q. apply nth_error_In in Q. apply repeat_spec in Q. exact Q. }
  assert (Rf : forall u, length u = length none -> (forall i, (i < count)%nat -> exists l, nth_error u i = Some l /\ length l = length grid) -> rectangle (length grid) (firstn count u)).
  { intros u Lu Q. apply Forall_forall. intros l Hl. apply In_nth_error in Hl. destruct Hl as [i Hi].
    assert ((i < length (firstn count u))%nat) by (apply nth_error_Some; congruence). rewrite firstn_length in *.
    rewrite nth_error_firstn_lt in Hi by lia. destruct (Q i ltac:(lia)) as (l' & Q1 & Q2). congruence. }
  assert (Rs : forall u, (forall i, (count <= i)%nat -> nth_error u i = nth_error none i) -> rectangle 0 (skipn count u)).
  { intros u Q. apply Forall_forall. intros l Hl. apply In_nth_error in Hl. destruct Hl as [i Hi]. rewrite nth_error_skipn_plus, Q in Hi by lia.
    apply Nn in Hi. subst l. reflexivity. }
  split; [congruence|]. split; [congruence|].
  split. { apply Rf; [exact I1|]. intros i Hi. destruct (I4 i Hi) as (l & l' & x & x' & B1 & B2 & B3 & B4 & B5 & B6 & _). apply Nn in B1. subst l. eauto. }
  split. { apply Rf; [exact I2|]. intros i Hi. destruct (I4 i Hi) as (l & l' & x & x' & B1 & B2 & B3 & B4 & B5 & B6 & _). apply Nn in B2. subst l'. eauto. }
  split. { apply Rs. intros i Hi. apply (I3 i Hi). } split. { apply Rs. intros i Hi. apply (I3 i Hi). }
  intros i k tJ Hi Hk. destruct (I4 i Hi) as (l & l' & x & x' & B1 & B2 & B3 & B4 & B5 & B6 & B7). apply Nn in B1. apply Nn in B2. subst l l'.
  destruct (B7 k tJ Hk) as (K & dc & dc' & p & p' & W1 & W2 & W3 & W4 & W5 & W6 & W7). exists K, dc, dc', p, p'.
  split; [exact W1|]. split; [exact W2|]. split; [exact W3|].
  rewrite (nth_error_nth _ _ [] B3), (nth_error_nth _ _ [] B4). split; [exact W4|]. split; [exact W5|]. split; assumption.
Qed.

(** asked for more states than there are: nothing is drawn *)
Lemma draw_error : forall curves, In [] curves -> draw_curves curves = Err IndexError \/ draw_curves curves = Err KeyError.
Proof.
  induction curves as [|l curves IH]; intros H; [destruct H|]. unfold draw_curves in *. cbn [mapM]. fold (line_of l). destruct l as [|p l].
  - left. unfold line_of. rewrite py_get_nil. reflexivity.
  - destruct H as [H|H]; [discriminate|]. destruct (drawable_dec p) as [D|D].
    + destruct (line_ok (p :: l) p eq_refl D) as (c & s & Q & _). rewrite Q. cbn [bind]. destruct (IH H) as [I|I]; rewrite I; auto.
    + right. rewrite (line_bad (p :: l) p eq_refl D). reflexivity.
Qed.

Lemma ragged_error : forall n u z, (1 <= n)%nat -> (1 <= length u)%nat -> (1 <= z)%nat -> rectangle n u ->
  reorganise (loop_fuel (u ++ repeat [] z)) (u ++ repeat [] z) 0 = Err IndexError \/
  exists u', reorganise (loop_fuel (u ++ repeat [] z)) (u ++ repeat [] z) 0 = Ok u' /\ In [] u'.
Proof.
  intros n u z Hn Hu Hz R. destruct (reorganise_ragged n u z Hn ltac:(lia) R) as [(u' & U & _)|[_ U]]; [|left; exact U].
  right. exists (u' ++ repeat [] z). split; [exact U|]. apply in_or_app. right. destruct z; [lia|]. left. reflexivity.
Qed.

Lemma C75_too_many_pf : forall E N roots rand tm d w r grid, set_iter_ok E -> filled (d_conf d) w r ->
  let c := d_conf d in let g := d_diag d in
  qr_shape N -> norm_above N -> 0 < compute_dimension (nsites c) (nalpha c) (nbeta c) < g_nb_val g -> g_dim_max g = 0 -> grid <> [] ->
  (forall v, g_guess g = Some v -> tall (Z.to_nat (compute_dimension (nsites c) (nalpha c) (nbeta c))) v) ->
  (forall k dim nb, 0 <= dim -> tall (Z.to_nat dim) (rand k dim nb)) ->
  exists e, plot_spectrum_dependance E N roots rand tm d grid = ([], Err e) /\
    (gather E N roots rand tm d grid = Err e \/ e = IndexError \/ e = KeyError).
Proof.
  intros E N roots rand tm d w r grid HE F c g HQ HN Hn Hd Hg HG HR. unfold plot_spectrum_dependance.
  destruct (gather E N roots rand tm d grid) as [[u v]|e] eqn:G; [|eauto].
  assert (Hd' : 0 <= g_dim_max (d_diag d)) by (fold g; lia). assert (Hn' : 0 <= g_nb_val (d_diag d)) by (fold g; lia).
  destruct (C75_gathered_pf E N roots rand tm d w r grid u v HE F HQ HN Hn' Hd' HG HR G) as (L1 & L2 & R1 & R2 & Z1 & Z2 & _).
  fold c g in L1, L2, R1, R2, Z1, Z2. rewrite Hd in R1, R2, Z1, Z2. cbn [Z.eqb] in R1, R2, Z1, Z2.
  set (m := Z.to_nat _) in R1, R2, Z1, Z2. assert (Hm : (1 <= m /\ m < Z.to_nat (g_nb_val g))%nat) by (unfold m; lia).
  assert (Hgr : (1 <= length grid)%nat) by (destruct grid; [congruence | simpl; lia]).
  assert (Sp : forall u, length u = Z.to_nat (g_nb_val g) -> rectangle (length grid) (firstn m u) -> rectangle 0 (skipn m u) ->
     reorganise (loop_fuel u) u 0 = Err IndexError \/ exists u', reorganise (loop_fuel u) u 0 = Ok u' /\ In [] u').
  { clear - Hm Hgr. intros u L R Z. rewrite <- (firstn_skipn m u).
    assert (Q : skipn m u = repeat [] (length (skipn m u))).
    { clear - Z. induction (skipn m u) as [|x l IH]; [reflexivity|]. apply Forall_inv in Z as Zx. apply Forall_inv_tail in Z. cbn [length repeat]. f_equal; [destruct x; [reflexivity | discriminate] | apply IH; exact Z]. }
    rewrite Q. apply (ragged_error (length grid)); [exact Hgr | rewrite firstn_length; lia | rewrite skipn_length; lia | exact R]. }
  unfold plot_spectra. destruct (Sp u L1 R1 Z1) as [U|(u' & U & Iu)]; rewrite U; [eauto|].
  destruct (Sp v L2 R2 Z2) as [V|(v' & V & _)]; rewrite V; [eauto|].
  destruct (draw_error u' Iu) as [D|D]; rewrite D; eauto.
Qed.

(** ** a change of label near the start is never repaired *)
Definition ex_curves : list (list point) :=
  [[mkPoint (qz 1) (Some "doublet"%string) 1; mkPoint (qz 2) (Some "doublet"%string) 1; mkPoint (qz 3) (Some "quartet"%string) 1];
   [mkPoint (qz 3) (Some "quartet"%string) 1; mkPoint (qz 3) (Some "quartet"%string) 1; mkPoint (qz 3) (Some "doublet"%string) 1]].
Lemma C75_labels_refuted_pf : exists curves curves' l p q, rectangle 3 curves /\ reorganise (loop_fuel curves) curves 0 = Ok curves' /\
  In l curves' /\ nth_error l 0 = Some p /\ nth_error l 2 = Some q /\ q_mult p <> q_mult q /\
  exists l', In l' curves /\ In l curves /\ nth_error l' 0 = Some q /\ option_map q_mult (nth_error l' 2) = Some (q_mult p).
Proof.
  exists ex_curves, ex_curves. unfold ex_curves at 3. eexists. eexists. eexists.
  split; [repeat constructor|]. split; [vm_compute; reflexivity|]. split; [left; reflexivity|]. split; [reflexivity|]. split; [reflexivity|]. split; [discriminate|].
  eexists. split; [right; left; reflexivity|]. split; [left; reflexivity|]. split; reflexivity.
Qed.
