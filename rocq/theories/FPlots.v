(** Files read for the plots, bars and charges (C73, C76, C80). *)
From Coq Require Import ZArith String List Bool Lia QArith Qcanon Permutation Sorted.
From Verif Require Import PyBase PyFacts Lattice Base Interact Ham Spin Prob Dav Files Emb Display Spec SpecQ SpecOps SpecTJ SpinDefs ProbDefs FilesDefs DavDefs
  PProb PDav PSites FProb PFiles FFiles FEmbFiles FDisplay Post PostDefs PlotDefs FPost.
Import ListNotations.
Open Scope Z_scope.

(** ** C73 *)

Lemma C73_run_file_pf : forall c s, plots_name c s = result_name c s.
Proof. reflexivity. Qed.

Lemma C73_blocks_file_pf : forall c s i o, o_dynamic o = p_dynamic i -> o_neel o = p_neel i -> o_neighbor o = p_neighbor i ->
  plots_embedding_name c s i = blocks_name c s o.
Proof.
  intros c s i o D N G. unfold plots_embedding_name, blocks_name. rewrite D, N, G. destruct (p_dynamic i), (p_neel i), (p_neighbor i); reflexivity.
Qed.

Lemma C73_ring_refuted_pf : exists i, p_neel i = true /\ p_static i = false /\ p_dynamic i = false /\
  forall c s c' s', plots_embedding_name c s i <> peripheral_name c' s'.
Proof.
  exists (mkInput 0 0 false false false false true false false false). repeat split. intros c s c' s'.
  rewrite (C73_blocks_file_pf c s _ (mkOptions false true false 0 false)) by reflexivity. apply C71_apart_pf.
Qed.

Lemma C73_spectrum_pf : forall P fs d i dc, spectra_only i -> load_data fs (result_name (d_conf d) (s_of (d_bools d))) = Ok dc ->
  generate_plots_configuration P fs d i = ([DSpectrum (append (picture (d_conf (dc_data dc)) "Spectrum") ".png") (spectrum_lines (e_vals (dc_eig dc)))], Ok tt).
Proof.
  intros P fs d i dc (S1 & S2 & S3 & S4 & S5 & S6 & S7) L. unfold generate_plots_configuration. cbv zeta. rewrite C73_run_file_pf, L. rewrite S5, S6, S7. cbn [orb].
  unfold plot_everything. rewrite S1, S2, S3, S4, S5, S6, S7, andb_false_r, C63_drawn_pf. reflexivity.
Qed.

Lemma C73_missing_pf : forall P fs d i, (forall x, ~ In (result_name (d_conf d) (s_of (d_bools d)), x) fs) ->
  generate_plots_configuration P fs d i = ([], Err FileNotFoundError).
Proof. intros P fs d i N. unfold generate_plots_configuration. cbv zeta. rewrite C73_run_file_pf, C53_unknown_pf by assumption. reflexivity. Qed.

Lemma plots_fold : forall (f : Z -> plots) (R : Z -> drawing -> Prop) l st ds, (forall a, In a l -> exists x, f a = ([x], Ok tt) /\ R a x) -> st = (ds, Ok tt) ->
  exists xs, fold_left (fun st a => and_then st (fun _ => f a)) l st = (ds ++ xs, Ok tt) /\ Forall2 R l xs.
Proof.
  intros f R l. induction l as [|a l IH]; intros st ds H ->.
  - exists []. rewrite app_nil_r. split; [reflexivity | constructor].
  - cbn [fold_left and_then]. destruct (H a (or_introl eq_refl)) as (x & -> & Rx).
    destruct (IH (ds ++ [x], Ok tt) (ds ++ [x]) (fun b I => H b (or_intror I)) eq_refl) as (xs & E & F).
    exists (x :: xs). rewrite E, <- app_assoc. split; [reflexivity | now constructor].
Qed.

Lemma C73_sweep_pf : forall P E N roots rand tm fs d fs' d' i, qr_shape N -> good_guesses rand d ->
  made (d_conf d) -> nsites (d_conf d) <= 10 -> 0 <= nholes (d_conf d) <= nsites (d_conf d) -> 0 <= g_nb_val (d_diag d) -> 0 <= g_dim_max (d_diag d) ->
  perform_configurations_computations E N roots rand tm fs d = (fs', Ok d') -> spectra_only i ->
  exists pictures, generate_plots P fs' d i = (pictures, Ok tt) /\
    Forall2 (fun alpha x => exists dc, sector_run E N roots rand tm d alpha dc /\ spectrum_of dc x) (zrange 0 (nsites (d_conf d) - nholes (d_conf d) + 1)) pictures.
Proof.
  intros P E N roots rand tm fs d fs' d' i HQ GG M Hn Hh Hv Hd H SI.
  destruct (C54_sweep_pf E N roots rand tm fs d fs' (Ok d') HQ GG M Hn Hh Hv Hd H) as (m & Hm & Me & _ & G & _). specialize (Me d' eq_refl). subst m.
  unfold generate_plots.
  match goal with |- context [fold_left (fun st a => and_then st (fun _ => @?f a)) ?l nothing] =>
    destruct (plots_fold f (fun alpha x => exists dc, sector_run E N roots rand tm d alpha dc /\ spectrum_of dc x) l nothing []) as (xs & X & F) end; [| reflexivity | exists xs; auto].
  intros alpha Ha. apply in_zrange in Ha. destruct (G alpha Ha) as (dc & back & R & L & B).
  destruct (run_file _ _ _ _ _ _ _ _ R) as (_ & _ & N1 & N2 & N3 & N4 & N5).
  assert (S1 : nsites (d_conf d) = mrows (bond_matrix (d_conf d)) /\ 0 < mrows (bond_matrix (d_conf d))).
  { destruct M as (_ & M0 & h & b & r & lt & x & y & s & MK). unfold make_configuration in MK. destruct (Z.eqb_spec (mrows (bond_matrix (d_conf d))) 0) as [|NZ]; [discriminate|].
    apply bind_ok_inv in MK. destruct MK as (r' & _ & MK). injection MK as MK. rewrite <- MK. cbn [nsites bond_matrix]. rewrite <- MK in NZ, M0. cbn [bond_matrix] in NZ, M0. lia. }
  set (c := d_conf d) in *.
  assert (MK : exists c', make_configuration (bond_matrix c) (nholes c) (nsites c - nholes c - alpha) (RList []) Periodic 0 0 0 = Ok c' /\ nsites c' = nsites c /\ nalpha c' = alpha /\ nbeta c' = nsites c - nholes c - alpha).
  { unfold make_configuration. destruct (Z.eqb_spec (mrows (bond_matrix c)) 0); [lia|]. cbn [restr_falsy bind]. eexists. split; [reflexivity|]. cbn [nsites nalpha nbeta]. lia. }
  destruct MK as (c' & -> & C1 & C2 & C3).
  assert (NM : result_name c' (s_of (d_bools d)) = file_of dc).
  { unfold file_of. rewrite N5. apply name_of_counts. unfold same_counts. lia. }
  eexists. split; [apply C73_spectrum_pf; [assumption|]; cbn [d_conf d_bools]; rewrite NM; exact L|].
  exists dc. split; [assumption|]. destruct B as (BS & _ & _ & _ & _ & BE & _). unfold spectrum_of. rewrite BE.
  destruct BS as (_ & (B1 & B2 & B3) & _). unfold picture. now rewrite B1, B2, B3.
Qed.

(** ** C76 *)

Lemma squares_spelled : forall v, squares v = map (fun a => (a * a)%Qc) v.
Proof. intros v. apply map_ext. apply qabs_square. Qed.

Definition top (l : list Qc) (n : Z) : list Qc := firstn (kept (length l) n) (rev (qsort l)).

Lemma rev_qsort_perm : forall l, Permutation (rev (qsort l)) l.
Proof. intros l. rewrite <- Permutation_rev. apply qsort_perm. Qed.

Lemma highests_ok : forall l n, exists idx, highests l n = Ok idx /\ zlen idx = zlen (top l n) /\
  forall k, (k < length (top l n))%nat -> exists i, nth_error idx k = Some (Z.of_nat i) /\ (i < length l)%nat /\ nth i l 0%Qc = nth k (top l n) 0%Qc.
Proof.
  intros l n. unfold highests. assert (L : length (rev (qsort l)) = length l) by (apply Permutation_length, rev_qsort_perm). rewrite kept_slice, L. fold (top l n).
  assert (I : forall x, In x (top l n) -> In x l).
  { intros x H. apply (Permutation_in x (rev_qsort_perm l)). unfold top in H. rewrite <- (firstn_skipn (kept (length l) n) (rev (qsort l))). apply in_or_app. now left. }
  revert I. generalize (top l n). intros t. induction t as [|x t IH]; intros I.
  - exists []. split; [reflexivity|]. split; [reflexivity|]. intros k H. simpl in H. lia.
  - destruct IH as (idx & E & Z0 & G); [intros; apply I; now right|]. destruct (qindex_ok l x (I x (or_introl eq_refl))) as (k & Hk & Nk & Ek).
    exists (Z.of_nat k :: idx). cbn [mapM]. rewrite Ek. cbn [bind]. rewrite E. split; [reflexivity|]. split; [rewrite !zlen_cons; lia|].
    intros [|j] Hj; [exists k; auto|]. cbn [nth_error nth]. apply G. simpl in Hj. lia.
Qed.

Lemma kept_all : forall len n, 0 <= n <= Z.of_nat len -> kept len n = Z.to_nat n.
Proof. intros len n H. unfold kept. destruct (Z.ltb_spec n 0); [lia|]. f_equal. lia. Qed.

Lemma top_length : forall l n, 0 <= n -> zlen (top l n) = Z.min n (zlen l).
Proof.
  intros l n H. unfold top, zlen. rewrite firstn_length, (Permutation_length (rev_qsort_perm l)). unfold kept. destruct (Z.ltb_spec n 0); lia.
Qed.

Lemma top_largest : forall l n, 0 <= n <= zlen l -> largest (Z.to_nat n) l (top l n).
Proof.
  intros l n H. unfold zlen in H. unfold largest. pose proof (top_length l n ltac:(lia)) as T. unfold zlen in T. split; [lia|].
  assert (SS : StronglySorted (fun x y => y <= x)%Qc (rev (qsort l))) by (apply StronglySorted_rev, qsort_sorted).
  unfold top in *. rewrite kept_all in * by lia. rewrite <- (firstn_skipn (Z.to_nat n) (rev (qsort l))) in SS. destruct (StronglySorted_app _ _ _ _ SS) as (S1 & S3).
  split; [assumption|]. exists (skipn (Z.to_nat n) (rev (qsort l))). rewrite firstn_skipn. split; [symmetry; apply rev_qsort_perm|]. intros b r B R. apply S3; assumption.
Qed.

Lemma key_get_ok : forall A (l : list A) k x, (k < length l)%nat -> nth_error l k = Some x -> key_get l (Z.of_nat k) = Ok x.
Proof.
  intros A l k x H E. unfold key_get, zlen. destruct (Z.leb_spec 0 (Z.of_nat k)); [|lia]. destruct (Z.ltb_spec (Z.of_nat k) (Z.of_nat (length l))); [|lia]. cbn [andb].
  apply py_get_nth; [lia|]. now rewrite Nat2Z.id.
Qed.

Lemma bars_ok : forall l n idx, 0 <= n <= zlen l -> highests l n = Ok idx ->
  mapM (fun ind => i <- key_get idx ind ;; py_get l i) (zrange 0 n) = Ok (top l n).
Proof.
  intros l n idx H E. destruct (highests_ok l n) as (idx' & E' & Z0 & G). rewrite E in E'. injection E' as <-.
  pose proof (top_length l n ltac:(lia)) as T. rewrite Z.min_l in T by lia.
  rewrite (mapM_ok _ _ _ (fun ind => nth (Z.to_nat ind) (top l n) 0%Qc)).
  - f_equal. unfold zrange. rewrite Z.sub_0_r, map_map. unfold zlen in T. replace (Z.to_nat n) with (length (top l n)) by lia.
    apply nth_ext with (d := 0%Qc) (d' := 0%Qc); [now rewrite map_length, seq_length|]. intros k Hk. rewrite map_length, seq_length in Hk.
    rewrite nth_indep with (d' := nth (Z.to_nat (0 + Z.of_nat 0)) (top l n) 0%Qc) by (now rewrite map_length, seq_length).
    rewrite (map_nth (fun x => nth (Z.to_nat (0 + Z.of_nat x)) (top l n) 0%Qc)), seq_nth by assumption. f_equal. lia.
  - intros k Hk. apply in_zrange in Hk. destruct (G (Z.to_nat k)) as (i & Ni & Hi & Vi); [unfold zlen in T; lia|].
    rewrite <- (Z2Nat.id k) by lia. rewrite (key_get_ok _ idx (Z.to_nat k) (Z.of_nat i)); [|unfold zlen in *; lia | assumption]. cbn [bind]. rewrite Nat2Z.id.
    apply py_get_nth; [lia|]. rewrite Nat2Z.id. rewrite <- Vi. now apply nth_error_nth'.
Qed.

Section Bars.
Variables (cluster embedding : data_computations) (n : Z) (v w : list Qc) (st : nat -> occupation).
Let c := d_conf (dc_data embedding).
Hypothesis Hv : first_column (e_vects (dc_eig cluster)) = Ok v.
Hypothesis Hw : first_column (e_vects (dc_eig embedding)) = Ok w.
Hypothesis HL : listed (nsites c) (nholes c) (nbeta c) (dc_dets embedding) st.
Hypothesis Hlen : length w = length (dc_dets embedding).
Hypothesis H1 : 1 <= nblocs_side c * nbh c.
Hypothesis H2 : 1 <= nblocs_side c * nbv c.
Hypothesis H3 : (nblocs_side c * nbh c) * (nblocs_side c * nbv c) <= nsites c.
Hypothesis Hn : 1 <= n.

Lemma bars_tail : w <> [] -> exists idx idx', highests (squares v) n = Ok idx /\ highests (squares w) n = Ok idx' /\
  plot_embedding_effect_on_determinants cluster embedding n =
    (coeffs <- mapM (fun ind => i <- key_get idx ind ;; py_get (squares v) i) (zrange 0 n) ;;
     coeffs_emb <- mapM (fun ind => i <- key_get idx' ind ;; py_get (squares w) i) (zrange 0 n) ;;
     Ok (DBars (append (picture (d_conf (dc_data cluster)) "AmplitudesStaticEmbeddingNeel") ".png") coeffs coeffs_emb)).
Proof.
  intros NE. destruct (highests_ok (squares v) n) as (idx & E & Z0 & G). destruct (highests_ok (squares w) n) as (idx' & E' & Z0' & G').
  exists idx, idx'. split; [assumption|]. split; [assumption|]. unfold plot_embedding_effect_on_determinants. rewrite Hv. cbn [bind]. rewrite E. cbn [bind]. rewrite Hw. cbn [bind]. rewrite E'. cbn [bind].
  pose proof (top_length (squares w) n ltac:(lia)) as T. assert (W : 1 <= zlen (squares w)).
  { unfold squares. rewrite zlen_map. destruct w; [congruence|]. rewrite zlen_cons. pose proof (zlen_nonneg _ l). lia. }
  destruct (G' 0%nat) as (i & Ni & Hi & _); [unfold zlen in *; lia|]. rewrite (key_get_ok _ idx' 0 (Z.of_nat i) ltac:(unfold zlen in *; lia) Ni : key_get idx' 0 = Ok (Z.of_nat i)). cbn [bind].
  unfold squares in Hi. rewrite map_length, Hlen in Hi. destruct (nth_error (dc_dets embedding) i) as [d|] eqn:D; [|apply nth_error_None in D; lia].
  rewrite (py_get_nth _ (dc_dets embedding) (Z.of_nat i) d) by (try lia; now rewrite Nat2Z.id). cbn [bind]. fold c.
  rewrite (C61_rectangle_pf c d (st i) _ _ eq_refl eq_refl H1 H2 H3 (HL i d D)). reflexivity.
Qed.

Lemma bars_drawn : n <= zlen v -> n <= zlen w ->
  exists bars bars', plot_embedding_effect_on_determinants cluster embedding n = Ok (DBars (append (picture (d_conf (dc_data cluster)) "AmplitudesStaticEmbeddingNeel") ".png") bars bars') /\
    largest (Z.to_nat n) (map (fun a => (a * a)%Qc) v) bars /\ largest (Z.to_nat n) (map (fun a => (a * a)%Qc) w) bars'.
Proof.
  intros N1 N2. destruct bars_tail as (idx & idx' & E & E' & ->); [destruct w; [unfold zlen in N2; simpl in N2; lia | discriminate]|].
  assert (L1 : zlen (squares v) = zlen v) by (unfold squares; apply zlen_map). assert (L2 : zlen (squares w) = zlen w) by (unfold squares; apply zlen_map).
  rewrite (bars_ok _ _ _ (ltac:(lia) : 0 <= n <= zlen (squares v)) E), (bars_ok _ _ _ (ltac:(lia) : 0 <= n <= zlen (squares w)) E'). cbn [bind]. eexists. eexists. split; [reflexivity|].
  rewrite <- !squares_spelled. split; apply top_largest; lia.
Qed.

Lemma mapM_last_err : forall A B (f : A -> res B) l x e, (forall a, In a l -> exists b, f a = Ok b) -> f x = Err e -> forall r, mapM f (l ++ x :: r) = Err e.
Proof.
  induction l as [|a l IH]; intros x e H E r; cbn [app mapM]; [rewrite E; reflexivity|]. destruct (H a (or_introl eq_refl)) as (b & ->). cbn [bind]. rewrite (IH x e); [reflexivity | intros; apply H; now right | assumption].
Qed.

Lemma bars_missing : forall l idx, highests l n = Ok idx -> zlen l < n -> mapM (fun ind => i <- key_get idx ind ;; py_get l i) (zrange 0 n) = Err KeyError.
Proof.
  intros l idx E H. destruct (highests_ok l n) as (idx' & E' & Z0 & G). rewrite E in E'. injection E' as <-. pose proof (top_length l n ltac:(lia)) as T. rewrite Z.min_r in T by lia.
  pose proof (zlen_nonneg _ l). rewrite (zrange_app 0 (zlen l) n), (zrange_cons (zlen l) n) by lia. apply mapM_last_err.
  - intros k Hk. apply in_zrange in Hk. destruct (G (Z.to_nat k)) as (i & Ni & Hi & Vi); [unfold zlen in *; lia|].
    rewrite <- (Z2Nat.id k) by lia. rewrite (key_get_ok _ idx (Z.to_nat k) (Z.of_nat i)); [|unfold zlen in *; lia | assumption]. cbn [bind].
    eexists. apply py_get_nth; [lia|]. rewrite Nat2Z.id. apply (nth_error_nth' _ 0%Qc). assumption.
  - unfold key_get. rewrite Z0, T, Z.ltb_irrefl, andb_false_r. reflexivity.
Qed.

Lemma bars_keyerror : w <> [] -> zlen v < n \/ zlen w < n -> plot_embedding_effect_on_determinants cluster embedding n = Err KeyError.
Proof.
  intros NE H. destruct (bars_tail NE) as (idx & idx' & E & E' & ->).
  assert (L1 : zlen (squares v) = zlen v) by (unfold squares; apply zlen_map). assert (L2 : zlen (squares w) = zlen w) by (unfold squares; apply zlen_map).
  destruct (Z.lt_ge_cases (zlen v) n) as [C|C]; [rewrite (bars_missing _ _ E) by lia; reflexivity|].
  rewrite (bars_ok _ _ _ (ltac:(lia) : 0 <= n <= zlen (squares v)) E). cbn [bind]. rewrite (bars_missing _ _ E') by lia. reflexivity.
Qed.
End Bars.

Lemma C76_bars_pf : forall cluster embedding n v w st, let c := d_conf (dc_data embedding) in
  first_column (e_vects (dc_eig cluster)) = Ok v -> first_column (e_vects (dc_eig embedding)) = Ok w ->
  listed (nsites c) (nholes c) (nbeta c) (dc_dets embedding) st -> length w = length (dc_dets embedding) ->
  1 <= nblocs_side c * nbh c -> 1 <= nblocs_side c * nbv c -> (nblocs_side c * nbh c) * (nblocs_side c * nbv c) <= nsites c ->
  1 <= n <= zlen v -> n <= zlen w ->
  exists bars bars', plot_embedding_effect_on_determinants cluster embedding n = Ok (DBars (append (picture (d_conf (dc_data cluster)) "AmplitudesStaticEmbeddingNeel") ".png") bars bars') /\
    largest (Z.to_nat n) (map (fun a => (a * a)%Qc) v) bars /\ largest (Z.to_nat n) (map (fun a => (a * a)%Qc) w) bars'.
Proof. intros cluster embedding n v w st c Hv Hw HL Hlen H1 H2 H3 [Hn Hn'] N2. apply (bars_drawn cluster embedding n v w st); assumption. Qed.

Lemma C76_missing_pf : forall cluster embedding n v w st, let c := d_conf (dc_data embedding) in
  first_column (e_vects (dc_eig cluster)) = Ok v -> first_column (e_vects (dc_eig embedding)) = Ok w ->
  listed (nsites c) (nholes c) (nbeta c) (dc_dets embedding) st -> length w = length (dc_dets embedding) ->
  1 <= nblocs_side c * nbh c -> 1 <= nblocs_side c * nbv c -> (nblocs_side c * nbh c) * (nblocs_side c * nbv c) <= nsites c ->
  1 <= n -> w <> [] -> zlen v < n \/ zlen w < n -> plot_embedding_effect_on_determinants cluster embedding n = Err KeyError.
Proof. intros cluster embedding n v w st c Hv Hw HL Hlen H1 H2 H3 Hn NE H. apply (bars_keyerror cluster embedding n v w st); assumption. Qed.

Lemma C76_run_pf : forall P fs d i o dc emb v w st, let c0 := d_conf d in let s := s_of (d_bools d) in let c := d_conf (dc_data emb) in let n := Z.min (nb_conf c0) 30 in
  p_spectrum i = false -> p_holes i = false -> p_electrons i = false -> p_determinants i = false -> p_neel i = true \/ p_static i = true \/ p_dynamic i = true ->
  o_dynamic o = p_dynamic i -> o_neel o = p_neel i -> o_neighbor o = p_neighbor i ->
  load_data fs (result_name c0 s) = Ok dc -> load_data fs (blocks_name c0 s o) = Ok emb ->
  first_column (e_vects (dc_eig dc)) = Ok v -> first_column (e_vects (dc_eig emb)) = Ok w ->
  listed (nsites c) (nholes c) (nbeta c) (dc_dets emb) st -> length w = length (dc_dets emb) ->
  1 <= nblocs_side c * nbh c -> 1 <= nblocs_side c * nbv c -> (nblocs_side c * nbh c) * (nblocs_side c * nbv c) <= nsites c ->
  1 <= nb_conf c0 -> nb_conf c0 <= zlen v -> nb_conf c0 <= zlen w ->
  exists bars bars', let x := DBars (append (picture (d_conf (dc_data dc)) "AmplitudesStaticEmbeddingNeel") ".png") bars bars' in
    generate_plots_configuration P fs d i = ((if p_neel i && (p_static i || p_dynamic i) then [x; x] else [x]), Ok tt) /\
    largest (Z.to_nat n) (map (fun a => (a * a)%Qc) v) bars /\ largest (Z.to_nat n) (map (fun a => (a * a)%Qc) w) bars'.
Proof.
  intros P fs d i o dc emb v w st c0 s c n S1 S2 S3 S4 S5 O1 O2 O3 L1 L2 Hv Hw HL Hlen H1 H2 H3 N1 N2 N3.
  destruct (C76_bars_pf dc emb n v w st Hv Hw HL Hlen H1 H2 H3 ltac:(lia) ltac:(lia)) as (bars & bars' & EQ & B1 & B2).
  exists bars, bars'. split; [|split; assumption]. unfold generate_plots_configuration. cbv zeta. fold c0 s. rewrite C73_run_file_pf, L1, (C73_blocks_file_pf c0 s i o O1 O2 O3), L2.
  replace (p_neel i || p_static i || p_dynamic i) with true by (symmetry; rewrite !orb_true_iff; tauto).
  unfold plot_everything. fold n. rewrite S1, S2, S3, S4, EQ, andb_false_r.
  destruct (p_neel i), (p_static i), (p_dynamic i); try reflexivity. destruct S5 as [S5|[S5|S5]]; discriminate.
Qed.

(** ** C80 *)

Lemma charges_ok : forall za zb (h w : nat), length za = h -> length zb = h -> (forall r, In r za -> length r = w) -> (forall r, In r zb -> length r = w) ->
  exists z, charges za zb = Ok z /\ length z = h /\ (forall r, In r z -> length r = w) /\
    forall i j, (i < h)%nat -> (j < w)%nat -> nth j (nth i z []) 0%Qc = (nth j (nth i za []) 0 - nth j (nth i zb []) 0)%Qc.
Proof.
  intros za zb h w La Lb Wa Wb. unfold charges.
  set (f := fun i j => (nth j (nth i za []) 0 - nth j (nth i zb []) 0)%Qc).
  rewrite (mapM_ok _ _ _ (fun i => map (fun j => f (Z.to_nat i) (Z.to_nat j)) (zrange 0 (Z.of_nat w)))).
  - eexists. split; [reflexivity|]. split; [rewrite map_length, zrange_length; unfold zlen; lia|]. split.
    + intros r I. apply in_map_iff in I. destruct I as (i & <- & _). rewrite map_length, zrange_length. lia.
    + intros i j Hi Hj. assert (N : forall B (g : Z -> B) k (m : nat) d, (k < m)%nat -> nth k (map g (zrange 0 (Z.of_nat m))) d = g (Z.of_nat k)).
      { intros B g k m d Hk. unfold zrange. rewrite Z.sub_0_r, Nat2Z.id, map_map. rewrite nth_indep with (d' := g (0 + Z.of_nat 0)) by (now rewrite map_length, seq_length).
        rewrite (map_nth (fun x => g (0 + Z.of_nat x))), seq_nth by assumption. f_equal. }
      unfold zlen. rewrite La, N by assumption. rewrite N by assumption. rewrite !Nat2Z.id. reflexivity.
  - intros i Hi. apply in_zrange in Hi. unfold zlen in Hi. destruct za as [|r0 za'] eqn:Ez; [simpl in Hi; lia|]. rewrite <- Ez in *.
    assert (G0 : py_get za 0 = Ok r0) by (apply py_get_nth; [lia | rewrite Ez; reflexivity]). rewrite G0. cbn [bind].
    assert (W0 : zlen r0 = Z.of_nat w) by (unfold zlen; rewrite (Wa r0); [reflexivity | rewrite Ez; now left]). rewrite W0. apply mapM_ok. intros j Hj. apply in_zrange in Hj.
    assert (A : py_get za i = Ok (nth (Z.to_nat i) za [])) by (apply py_get_nth; [lia | apply nth_error_nth'; lia]).
    assert (B : py_get zb i = Ok (nth (Z.to_nat i) zb [])) by (apply py_get_nth; [lia | apply nth_error_nth'; lia]).
    rewrite A. cbn [bind]. rewrite (py_get_nth _ _ j (nth (Z.to_nat j) (nth (Z.to_nat i) za []) 0%Qc)); [|lia | apply nth_error_nth'; rewrite Wa; [lia | apply nth_In; lia]].
    cbn [bind]. rewrite B. cbn [bind]. rewrite (py_get_nth _ _ j (nth (Z.to_nat j) (nth (Z.to_nat i) zb []) 0%Qc)); [|lia | apply nth_error_nth'; rewrite Wb; [lia | apply nth_In; lia]].
    cbn [bind]. unfold f. now rewrite <- Ez.
Qed.

Lemma C80_charge_pf : forall P dc st k v, let c := d_conf (dc_data dc) in let w := nbh c * nblocs_side c in let h := nbv c * nblocs_side c in
  (forall x y z, exists u, interp2d P x y z = Ok u) ->
  listed (nsites c) (nholes c) (nbeta c) (dc_dets dc) st -> lattice_type c = Periodic -> 0 <= w -> 0 <= h -> nsites c = w * h ->
  0 <= k -> nth_error (e_vects (dc_eig dc)) (Z.to_nat k) = Some v -> length v = length (dc_dets dc) -> inner v v = 1%Qc ->
  exists name up down charge, save_electron_probability_lattice P dc k = Ok [DElectrons name up down charge] /\
    forall x y, 0 <= x < w -> 0 <= y < h -> let at_site m := nth (Z.to_nat x) (nth (Z.to_nat (h - 1 - y)) m []) 0%Qc in
      at_site up = weight st v Up (site w (x, y)) /\ at_site down = weight st v Down (site w (x, y)) /\
      at_site charge = (weight st v Up (site w (x, y)) - weight st v Down (site w (x, y)))%Qc.
Proof.
  intros P dc st k v c w h HI HL HP Hw Hh HN Hk Nv Lv Uv. unfold save_electron_probability_lattice. fold c.
  assert (B : k < zlen (e_vects (dc_eig dc))). { unfold zlen. assert (X : (Z.to_nat k < length (e_vects (dc_eig dc)))%nat) by (apply nth_error_Some; congruence). lia. }
  rewrite (proj2 (Z.ltb_lt _ _) B). rewrite (py_get_nth _ _ k v Hk Nv). cbn [bind].
  assert (U0 : inner v v <> 0%Qc) by (rewrite Uv; discriminate).
  destruct (C43_map_pf c (dc_dets dc) st v Up HL Lv U0 HP Hw Hh HN) as (ru & pu & _ & Eu & Lu & Wu & _).
  destruct (C43_map_pf c (dc_dets dc) st v Down HL Lv U0 HP Hw Hh HN) as (rd & pd & _ & Ed & Ld & Wd & _).
  destruct (C43_unit_pf c (dc_dets dc) st v Up HL Lv Uv HP Hw Hh HN) as (ru' & Eu' & Vu).
  destruct (C43_unit_pf c (dc_dets dc) st v Down HL Lv Uv HP Hw Hh HN) as (rd' & Ed' & Vd).
  assert (ru' = ru) by congruence. assert (rd' = rd) by congruence. subst ru' rd'.
  change (spin_code Up) with 1 in Eu. change (spin_code Down) with (-1) in Ed. rewrite Eu. cbn [bind]. rewrite Ed. cbn [bind].
  fold w h in Lu, Wu, Ld, Wd, Vu, Vd.
  destruct (charges_ok ru rd (Z.to_nat h) (Z.to_nat w) Lu Ld Wu Wd) as (z & Ez & Lz & Wz & Vz). rewrite Ez. cbn [bind].
  destruct (HI (zrange 0 (nblocs_side c * nbh c)) (zrange 0 (nblocs_side c * nbv c)) ru) as (u1 & ->). cbn [bind].
  destruct (HI (zrange 0 (nblocs_side c * nbh c)) (zrange 0 (nblocs_side c * nbv c)) rd) as (u2 & ->). cbn [bind].
  destruct (HI (zrange 0 (nblocs_side c * nbh c)) (zrange 0 (nblocs_side c * nbv c)) z) as (u3 & ->). cbn [bind].
  eexists. eexists. eexists. eexists. split; [reflexivity|]. intros x y Hx Hy. cbv zeta. rewrite Vu, Vd by assumption. split; [reflexivity|]. split; [reflexivity|].
  rewrite Vz by lia. now rewrite Vu, Vd by assumption.
Qed.

Lemma C80_absent_pf : forall P dc k, zlen (e_vects (dc_eig dc)) <= k -> save_electron_probability_lattice P dc k = Ok [].
Proof. intros P dc k H. unfold save_electron_probability_lattice. destruct (Z.ltb_spec k (zlen (e_vects (dc_eig dc)))); [lia | reflexivity]. Qed.
