(** Final lemmas for C52-C55. *)
From Coq Require Import ZArith String List Bool Lia QArith Qcanon.
From Verif Require Import PyBase PyFacts Runtimes Lattice Base Interact Ham Spin Prob Dav DavDefs HamSpec Files FilesDefs PBasis PDav FDav PFiles PNames Examples FInter.
Import ListNotations.
Open Scope Z_scope.

(** ** C52 *)
Lemma C52_spelled_pf : forall c s, result_name c s =
  append "tJHam-" (append (str_of_int (nsites c)) (append (str_of_int (nalpha c)) (append (str_of_int (nbeta c))
    (if s_bt s && s_bz s && s_bij s && s_bSD s && s_btN s && s_bV s then "Full.json" else
     append (if s_bSD s then "SD" else "") (append (if s_bV s then "V" else "") (append (if s_bij s then "J" else "")
       (append (if s_bt s then "t" else "") (append (if s_btN s then "tN" else "") ".json")))))))).
Proof. intros c s. rewrite result_name_split, head_split. unfold counts_text. rewrite !append_assoc. reflexivity. Qed.

Lemma C52_injective_pf : forall c c' s s', counts c -> counts c' -> nsites c <= 10 -> nsites c' <= 10 ->
  result_name c s = result_name c' s' -> same_counts c c' /\ same_five s s' /\ (five_on s -> s_bz s = s_bz s').
Proof.
  intros c c' s s' C C' N N' Q. rewrite !result_name_split in Q.
  apply names_split in Q; try assumption; try apply suffix_ends. destruct Q as [Q S]. apply suffix_inj in S. split; [|exact S].
  destruct C as (A & B & F), C' as (A' & B' & F'). unfold same_counts. now apply counts_inj.
Qed.

Lemma C52_switches_pf : forall c c' s s', counts c -> counts c' ->
  result_name c s = result_name c' s' -> same_five s s' /\ (five_on s -> s_bz s = s_bz s').
Proof.
  intros c c' s s' C C' Q. rewrite !result_name_split in Q. apply names_split in Q; try assumption; try apply suffix_ends. now apply suffix_inj.
Qed.

Lemma C52_static_refuted_pf : exists s s', s_bz s <> s_bz s' /\ forall c, result_name c s = result_name c s'.
Proof. exists (mkSwitches true true true false false false), (mkSwitches true false true false false false). split; [discriminate|]. intros c. now rewrite !result_name_split. Qed.

Lemma C52_sizes_refuted_pf : exists c c' s, counts c /\ counts c' /\ bond_matrix c = bond_matrix c' /\ nsites c = 11 /\ nholes c = nholes c' /\ nalpha c = 1 /\ nalpha c' = 11 /\
  result_name c s = result_name c' s.
Proof. exists (ex_rect 11 1 1 0 10), (ex_rect 11 1 1 0 0), (mkSwitches true true true true true true). vm_compute. repeat split; congruence. Qed.

(** ** C53 *)
Lemma save_ok : forall fs dc fs' dc', save_data fs dc = (fs', Ok dc') ->
  exists t, dc_times dc = Some t /\ dc' = forget_guess dc /\ fs' = fs_put fs (file_of dc) (Some (result_to_json (forget_guess dc) t)).
Proof.
  intros fs dc fs' dc' H. unfold save_data in H. cbn [forget_guess dc_times] in H. destruct (dc_times dc) as [t|] eqn:T; [|discriminate].
  injection H as <- <-. exists t. auto.
Qed.

Lemma load_saved : forall fs dc t, complete dc -> dc_times dc = Some t -> fs_get fs (file_of dc) = Some (Some (result_to_json (forget_guess dc) t)) ->
  exists r, load_data fs (file_of dc) = Ok r /\ reloaded dc r /\ lattice_type (d_conf (dc_data r)) = Periodic /\
    (forall a b, sites_restriction (d_conf (dc_data dc)) = RTuple a b -> sites_restriction (d_conf (dc_data r)) = RNested [a; b]).
Proof.
  intros fs dc t C T G. unfold load_data. rewrite G. destruct (result_back dc t _ C T eq_refl) as (r & Q & R).
  exists r. split; [exact Q | exact R].
Qed.

Lemma C53_reload_pf : forall fs dc fs' dc', complete dc -> save_data fs dc = (fs', Ok dc') ->
  exists r, load_data fs' (file_of dc) = Ok r /\ reloaded dc r.
Proof.
  intros fs dc fs' dc' C H. apply save_ok in H. destruct H as (t & T & _ & ->).
  destruct (load_saved (fs_put fs (file_of dc) (Some (result_to_json (forget_guess dc) t))) dc t C T (fs_get_same _ _ _)) as (r & Q & R & _). eauto.
Qed.

Lemma C53_saves_pf : forall fs dc, snd (save_data fs dc) = match dc_times dc with
  | Some _ => Ok (mkDC (mkData (d_conf (dc_data dc)) (d_inter (dc_data dc)) (with_guess (d_diag (dc_data dc)) None) (d_bools (dc_data dc)))
                       (dc_dets dc) (dc_ham dc) (dc_eig dc) (dc_times dc))
  | None => Err AttributeError end.
Proof. intros fs dc. unfold save_data. cbn [forget_guess dc_times]. destruct (dc_times dc) eqn:T; [|reflexivity]. cbn [snd]. unfold forget_guess. now rewrite T. Qed.

Lemma C53_others_pf : forall fs dc name, name <> file_of dc -> load_data (fst (save_data fs dc)) name = load_data fs name.
Proof.
  intros fs dc name H. unfold load_data, save_data. cbn [forget_guess dc_times]. destruct (dc_times dc); cbn [fst]; now rewrite fs_get_other.
Qed.

Lemma C53_unknown_pf : forall fs name, (forall x, ~ In (name, x) fs) -> load_data fs name = Err FileNotFoundError.
Proof.
  intros fs name H. unfold load_data. replace (fs_get fs name) with (@None (option json)); [reflexivity|].
  induction fs as [|[n x] fs IH]; [reflexivity|]. cbn [fs_get]. destruct (String.eqb_spec n name) as [->|N].
  - exfalso. apply (H x). now left.
  - apply IH. intros y I. apply (H y). now right.
Qed.

Lemma C53_without_times_pf : forall fs dc, dc_times dc = None -> snd (save_data fs dc) = Err AttributeError /\
  load_data (fst (save_data fs dc)) (file_of dc) = Err ValueError.
Proof.
  intros fs dc H. unfold save_data, load_data. cbn [forget_guess dc_times]. rewrite H. cbn [fst snd]. split; [reflexivity|].
  change (result_name (d_conf (dc_data (forget_guess dc))) (s_of (d_bools (dc_data (forget_guess dc))))) with (file_of dc). now rewrite fs_get_same.
Qed.

Lemma C53_lattice_type_pf : forall fs dc fs' dc' r, complete dc -> save_data fs dc = (fs', Ok dc') -> load_data fs' (file_of dc) = Ok r ->
  lattice_type (d_conf (dc_data r)) = Periodic /\
  forall E x, get_neighbors E x (bond_matrix (d_conf (dc_data r))) (sites_restriction (d_conf (dc_data r))) = Err TypeError.
Proof.
  intros fs dc fs' dc' r C H L. apply save_ok in H. destruct H as (t & T & _ & ->).
  destruct (load_saved (fs_put fs (file_of dc) (Some (result_to_json (forget_guess dc) t))) dc t C T (fs_get_same _ _ _)) as (r' & Q & _ & LT & RR).
  rewrite L in Q. injection Q as <-. split; [exact LT|]. intros E x.
  destruct (made_inv _ (proj1 C)) as (n & r0 & r1 & h & b & F). rewrite (RR r0 r1) by tauto. reflexivity.
Qed.

Definition ex_saved (c : configuration) : data_computations :=
  mkDC (mkData c ex_couplings (mkDiag 1 100 (qfrac 1 1000) 0 None) (mkBools (mkSwitches true true true true true true) true))
       [] (mkCsr (nb_conf c) [(1%Qc, 0, 0)]) (mkEig [1%Qc] [None] [repeat 1%Qc (Z.to_nat (nb_conf c))]) (Some (mkTimes 1 1 1)).
Lemma ex_made : forall c h b r lt x y s, mrows (bond_matrix c) = mcols (bond_matrix c) -> 0 <= mrows (bond_matrix c) ->
  make_configuration (bond_matrix c) h b r lt x y s = Ok c -> made c.
Proof. intros c h b r lt x y s A B C. split; [assumption|]. split; [assumption|]. exists h, b, r, lt, x, y, s. assumption. Qed.
Lemma ex_clusters_made : made ex_clusters.
Proof. apply (ex_made _ 1 3 (RList []) Clusters 2 1 2); [reflexivity | vm_compute; discriminate | reflexivity]. Qed.
Lemma ex_saved_complete : forall c, made c -> 1 <= nb_conf c -> complete (ex_saved c).
Proof.
  intros c M H. unfold complete. cbn [ex_saved dc_data d_conf dc_ham dc_eig e_vects]. split; [assumption|]. split; [assumption|]. split.
  - split; [reflexivity|]. cbn [csr_entries]. intros x i j [Q|[]]. injection Q as _ <- <-. lia.
  - constructor; [|constructor]. now rewrite repeat_length.
Qed.

Lemma C53_restored_refuted_pf : exists dc r, complete dc /\ load_data (fst (save_data [] dc)) (file_of dc) = Ok r /\
  lattice_type (d_conf (dc_data dc)) = Clusters /\ lattice_type (d_conf (dc_data r)) = Periodic /\
  exists E l, set_iter_ok E /\ get_neighbors E 0 (bond_matrix (d_conf (dc_data dc))) (sites_restriction (d_conf (dc_data dc))) = Ok l /\
    get_neighbors E 0 (bond_matrix (d_conf (dc_data r))) (sites_restriction (d_conf (dc_data r))) = Err TypeError.
Proof.
  assert (C : complete (ex_saved ex_clusters)) by (apply ex_saved_complete; [apply ex_clusters_made | vm_compute; discriminate]).
  exists (ex_saved ex_clusters). destruct (save_data [] (ex_saved ex_clusters)) as [fs' [dc'|e]] eqn:Q; [|discriminate Q].
  destruct (C53_reload_pf _ _ _ _ C Q) as (r & L & _). exists r. split; [exact C|]. split; [exact L|]. split; [reflexivity|].
  destruct (C53_lattice_type_pf _ _ _ _ _ C Q L) as [T N]. split; [exact T|]. exists cpython, [1; 2]. split; [apply cpython_ok|]. split; [vm_compute; reflexivity | apply N].
Qed.

(** ** C54 *)
Lemma mapM_id : forall A (l : list A), mapM (fun x => Ok x) l = Ok l.
Proof. induction l as [|x l IH]; [reflexivity|]. cbn [mapM bind]. now rewrite IH. Qed.

Lemma dense_length : forall m, length (csr_dense m) = Z.to_nat (csr_dim m).
Proof. intros m. unfold csr_dense. rewrite map_length, zrange_length. f_equal. lia. Qed.
Lemma dense_square : forall m, square (csr_dense m).
Proof.
  intros m. apply Forall_forall. intros row H. rewrite dense_length. unfold csr_dense in H. apply in_map_iff in H. destruct H as (i & <- & _).
  rewrite map_length, zrange_length. f_equal. lia.
Qed.

Lemma davidson_tall : forall N A nb guess stp tol dm found vals vects, qr_shape N -> square A -> tall (length A) guess -> 0 <= nb -> 0 <= dm ->
  modified_davidson_algorithm N A nb guess stp tol dm = Ok (found, vals, vects) -> tall (length A) vects.
Proof.
  intros N A nb guess stp tol dm found vals vects HQ SA TG Hn Hd H. apply C47_budget_pf in H. cbv zeta in H.
  set (dm' := if dm =? 0 then Z.of_nat (length A) else dm) in *.
  assert (0 <= dm') by (unfold dm'; destruct (dm =? 0); lia).
  destruct H as (i & K & S & F1 & F2).
  assert (TK : tall (length A) K).
  { assert (0 <= Z.min nb dm') by lia. eapply search_tall; [exact HQ | exact SA | | | exact S]; [|lia]. unfold dav_first. destruct (1 <? _); [|assumption]. now apply HQ. }
  assert (exists o, dav_step N A (Z.min nb dm') tol dm' K = Ok o /\ (o = Converged vals vects \/ exists K', o = Continue vals vects K')) as (o & E & O).
  { destruct found; [destruct (F1 eq_refl) as [_ E]; eauto | destruct (F2 eq_refl) as [_ [K' E]]; eauto]. }
  assert (M0 : 0 <= Z.min nb dm') by lia.
  destruct (dav_step_inv _ _ _ _ _ _ _ SA TK M0 E) as (vs & ys & _ & _ & _ & [[Q _]|(cs & _ & _ & Q)]); destruct O as [O|[K' O]]; subst o; try discriminate.
  - injection Q as _ ->. now apply tall_map_mix.
  - injection Q as _ -> _. now apply tall_map_mix.
Qed.

Lemma perform_inv : forall E N roots rand tm d dc, perform_initial_computations E N roots rand tm d = Ok dc ->
  exists found, dc_data dc = d /\ dc_times dc = Some tm /\
    construct_basis (d_conf d) = Ok (mkBasis (d_conf d) (dc_dets dc)) /\
    build_hamiltonian E (d_conf d) (d_inter d) (mkBasis (d_conf d) (dc_dets dc)) (s_of (d_bools d)) (RList []) = Ok (dc_ham dc) /\
    modified_davidson_algorithm N (csr_dense (dc_ham dc)) (g_nb_val (d_diag d)) (first_guess rand (csr_dim (dc_ham dc)) (d_diag d)) (g_stp (d_diag d)) (g_tol (d_diag d)) (g_dim_max (d_diag d))
      = Ok (found, e_vals (dc_eig dc), e_vects (dc_eig dc)) /\
    (if b_spin (d_bools d) then mapM (fun v => compute_spin_number E roots (d_conf d) v) (e_vects (dc_eig dc)) else Ok []) = Ok (e_spins (dc_eig dc)).
Proof.
  intros E N roots rand tm d dc H. unfold perform_initial_computations in H. cbv zeta in H.
  apply bind_ok_inv in H. destruct H as (b & Eb & H). apply bind_ok_inv in H. destruct H as (m & Em & H).
  apply bind_ok_inv in H. destruct H as ([[found vals] vects] & Ed & H). apply bind_ok_inv in H. destruct H as (sp & Es & H). injection H as <-.
  cbn [dc_data dc_times dc_dets dc_ham dc_eig e_vals e_vects e_spins]. exists found.
  assert (Cb : b_conf b = d_conf d).
  { unfold construct_basis in Eb. destruct (_ <? 0); [discriminate|]. apply bind_ok_inv in Eb. destruct Eb as (? & _ & Eb). apply bind_ok_inv in Eb.
    destruct Eb as (? & _ & Eb). injection Eb as <-. reflexivity. }
  replace (mkBasis (d_conf d) (determinants b)) with b by (destruct b; cbn in *; now subst). auto 10.
Qed.

Lemma build_shaped : forall E c I b S r m, build_hamiltonian E c I b S r = Ok m -> shaped (compute_dimension (nsites c) (nalpha c) (nbeta c)) m.
Proof.
  intros E c I b S r m H. unfold build_hamiltonian in H. cbv zeta in H. do 6 (apply bind_ok_inv in H; destruct H as (? & _ & H)).
  unfold coo_to_csr in H. destruct (forallb _ _) eqn:F; [|discriminate]. injection H as <-. split; [reflexivity|]. cbn [csr_entries]. intros y i j I'.
  rewrite forallb_forall in F. specialize (F _ I'). cbv beta iota in F. rewrite !andb_true_iff in F. lia.
Qed.

Lemma dimension_pos : forall c, made c -> counts c -> 1 <= nb_conf c.
Proof.
  intros c M (A & B & C). destruct (made_inv c M) as (n & r0 & r1 & h & b & P & R & C' & S & H & Bb & Aa & D & F).
  rewrite S, Bb, Aa in *. rewrite D. unfold compute_dimension. replace (n - (n - h - b) - b) with h by lia.
  pose proof (comb_pos n h ltac:(lia)). pose proof (comb_pos (n - h) (n - h - b) ltac:(lia)). nia.
Qed.

Lemma perform_complete : forall E N roots rand tm d dc, qr_shape N -> made (d_conf d) -> counts (d_conf d) ->
  0 <= g_nb_val (d_diag d) -> 0 <= g_dim_max (d_diag d) ->
  tall (Z.to_nat (nb_conf (d_conf d))) (first_guess rand (nb_conf (d_conf d)) (d_diag d)) ->
  perform_initial_computations E N roots rand tm d = Ok dc -> complete dc.
Proof.
  intros E N roots rand tm d dc HQ M C Hn Hd T H. apply perform_inv in H. destruct H as (found & D & _ & _ & Bd & Dv & _).
  pose proof (build_shaped _ _ _ _ _ _ _ Bd) as Sh.
  assert (Nb : compute_dimension (nsites (d_conf d)) (nalpha (d_conf d)) (nbeta (d_conf d)) = nb_conf (d_conf d)).
  { destruct (made_inv _ M) as (n & r0 & r1 & h & b & P & R & C' & S & Hh & Bb & Aa & Dd & F). now rewrite S, Aa, Bb, Dd. }
  rewrite Nb in Sh. unfold complete. rewrite D. split; [assumption|]. split; [now apply dimension_pos|]. split; [assumption|].
  destruct Sh as [Sd _]. rewrite <- Sd, <- dense_length. eapply davidson_tall; [exact HQ | apply dense_square | | exact Hn | exact Hd | exact Dv].
  rewrite dense_length, Sd. exact T.
Qed.

(** what stays the same from one sector to the next *)
Definition follows (d0 d : data) (v : option (list (list Qc))) : Prop :=
  made (d_conf d) /\ nsites (d_conf d) = nsites (d_conf d0) /\ nholes (d_conf d) = nholes (d_conf d0) /\ bond_matrix (d_conf d) = bond_matrix (d_conf d0) /\
  sites_restriction (d_conf d) = sites_restriction (d_conf d0) /\ nbh (d_conf d) = nbh (d_conf d0) /\ nbv (d_conf d) = nbv (d_conf d0) /\
  nblocs_side (d_conf d) = nblocs_side (d_conf d0) /\ d_inter d = d_inter d0 /\ d_bools d = d_bools d0 /\ d_diag d = with_guess (d_diag d0) v.

Lemma sector_ok : forall d0 d v alpha, follows d0 d v -> exists c, sector_configuration (d_conf d) alpha = Ok c /\
  nalpha c = alpha /\ lattice_type c = Periodic /\ follows d0 (mkData c (d_inter d) (d_diag d) (d_bools d)) v.
Proof.
  intros d0 d v alpha (M & F1 & F2 & F3 & F4 & F5 & F6 & F7 & F8 & F9 & F10). destruct (made_inv _ M) as (n & r0 & r1 & h & b & P & R & C' & S & Hh & Bb & Aa & Dd & F).
  unfold sector_configuration. unfold make_configuration at 1. rewrite R. replace (n =? 0) with false by (symmetry; apply Z.eqb_neq; lia). rewrite F. cbn [restr_falsy bind].
  eexists. split; [reflexivity|]. cbn [nalpha lattice_type]. split; [lia|]. split; [reflexivity|].
  unfold follows. cbn [d_conf d_inter d_diag d_bools nsites nholes bond_matrix sites_restriction nbh nbv nblocs_side].
  split.
  { unfold made. cbn [bond_matrix]. split; [lia|]. split; [lia|]. exists (nholes (d_conf d)), (nsites (d_conf d) - nholes (d_conf d) - alpha), (RTuple r0 r1), Periodic, (nbh (d_conf d)), (nbv (d_conf d)), (nblocs_side (d_conf d)).
    unfold make_configuration. rewrite R. replace (n =? 0) with false by (symmetry; apply Z.eqb_neq; lia). reflexivity. }
  rewrite <- F, <- S. auto 15.
Qed.

Section Sweep.
Variables (E : runtime) (N : numerics) (roots : Qc -> Qc * Qc) (rand : Z -> Z -> Z -> list (list Qc)) (tm : Z -> times).

Definition put_run (fs : files) (p : Z * data_computations) : files :=
  fs_put fs (file_of (snd p)) (Some (result_to_json (forget_guess (snd p)) (tm (fst p)))).

Lemma sweep_inv : forall d0 e k d fs fs' r, 0 <= k -> 
  follows d0 d (if k =? 0 then g_guess (d_diag d0) else None) ->
  sweep_sectors E N roots rand tm (zrange k e) fs d = (fs', r) ->
  exists m dcs, k <= m <= Z.max k e /\ (forall d', r = Ok d' -> m = Z.max k e) /\ (forall x, r = Err x -> m < e) /\
    Forall2 (sector_run E N roots rand tm d0) (zrange k m) dcs /\ fs' = fold_left put_run (combine (zrange k m) dcs) fs.
Proof.
  intros d0 e k. remember (Z.to_nat (e - k)) as n eqn:Hn. revert k Hn. induction n as [|n IH]; intros k Hn d fs fs' r Hk F H.
  - rewrite zrange_nil in H by lia. cbn [sweep_sectors] in H. injection H as <- <-. exists k, []. rewrite zrange_nil by lia.
    split; [lia|]. split; [intros; lia|]. split; [discriminate|]. split; [constructor | reflexivity].
  - rewrite zrange_cons in H by lia. cbn [sweep_sectors] in H.
    destruct (sector_ok d0 d _ k F) as (c & Q & Al & LT & F'). rewrite Q in H. cbv zeta in H.
    destruct (perform_initial_computations E N roots (rand k) (tm k) _) as [dc|x] eqn:P.
    + pose proof P as P'. apply perform_inv in P'. destruct P' as (found & D & T & _).
      unfold save_data in H. cbn [forget_guess dc_times] in H. rewrite T in H. cbn [dc_data] in H.
      assert (G : follows d0 (drop_guess (dc_data dc)) (if k + 1 =? 0 then g_guess (d_diag d0) else None)).
      { replace (k + 1 =? 0) with false by (symmetry; apply Z.eqb_neq; lia). rewrite D. destruct F' as (G1 & G2 & G3 & G4 & G5 & G6 & G7 & G8 & G9 & G10 & G11).
        unfold follows, drop_guess in *. cbn [d_conf d_inter d_diag d_bools] in *. rewrite G11. cbn [with_guess g_nb_val g_stp g_tol g_dim_max]. auto 15. }
      destruct (IH (k + 1) ltac:(lia) (drop_guess (dc_data dc)) (put_run fs (k, dc)) fs' r ltac:(lia) G) as (m & dcs & Hm & R1 & R2 & Fa & Fs).
      { unfold put_run, file_of. cbn [fst snd]. exact H. }
      exists m, (dc :: dcs). rewrite (zrange_cons k m) by lia. split; [lia|]. split; [intros d' R; rewrite (R1 d' R); lia|]. split; [assumption|].
      split; [|exact Fs]. constructor; [|assumption].
      exists c. destruct F' as (G1 & G2 & G3 & G4 & G5 & G6 & G7 & G8 & G9 & G10 & G11). cbn [d_conf d_inter d_diag d_bools] in *.
      do 9 (split; [assumption|]). split; [assumption|]. split; [|now rewrite D]. rewrite D, G9, G10, G11. reflexivity.
    + injection H as <- <-. exists k, []. rewrite (zrange_nil k k) by lia. split; [lia|]. split; [discriminate|]. split; [intros; lia|]. split; [constructor|reflexivity].
Qed.

Lemma run_file : forall d0 alpha dc, sector_run E N roots rand tm d0 alpha dc ->
  dc_times dc = Some (tm alpha) /\ made (d_conf (dc_data dc)) /\ nsites (d_conf (dc_data dc)) = nsites (d_conf d0) /\ nalpha (d_conf (dc_data dc)) = alpha /\
  nholes (d_conf (dc_data dc)) = nholes (d_conf d0) /\ nbeta (d_conf (dc_data dc)) = nsites (d_conf d0) - nholes (d_conf d0) - alpha /\ d_bools (dc_data dc) = d_bools d0.
Proof.
  intros d0 alpha dc (c & S & H & A & B & R & LT & X & Y & Z & M & D & P). apply perform_inv in P. destruct P as (_ & _ & T & _).
  rewrite D. cbn [d_conf d_bools]. destruct (made_inv _ M) as (n & r0 & r1 & h & b & F). split; [exact T|]. split; [assumption|]. split; [assumption|]. split; [assumption|]. split; [assumption|]. split; [lia | reflexivity].
Qed.

Lemma name_of_counts : forall c c' s, same_counts c c' -> result_name c s = result_name c' s.
Proof. intros c c' s (A & B & C). rewrite !C52_spelled_pf. now rewrite A, B, C. Qed.

Lemma run_names : forall d0 alpha dc dc', sector_run E N roots rand tm d0 alpha dc -> sector_run E N roots rand tm d0 alpha dc' -> file_of dc = file_of dc'.
Proof.
  intros d0 alpha dc dc' H H'. apply run_file in H. apply run_file in H'. unfold file_of. destruct H as (_ & _ & A1 & A2 & _ & A3 & A4). destruct H' as (_ & _ & B1 & B2 & _ & B3 & B4).
  rewrite A4, B4. apply name_of_counts. unfold same_counts. lia.
Qed.

Lemma run_names_differ : forall d0 alpha beta dc dc', nsites (d_conf d0) <= 10 -> 0 <= nholes (d_conf d0) ->
  0 <= alpha <= nsites (d_conf d0) - nholes (d_conf d0) -> 0 <= beta <= nsites (d_conf d0) - nholes (d_conf d0) -> alpha <> beta ->
  sector_run E N roots rand tm d0 alpha dc -> sector_run E N roots rand tm d0 beta dc' -> file_of dc <> file_of dc'.
Proof.
  intros d0 alpha beta dc dc' Hn Hh Ha Hb D H H' Q. apply run_file in H. apply run_file in H'.
  destruct H as (_ & _ & A1 & A2 & _ & A3 & A4). destruct H' as (_ & _ & B1 & B2 & _ & B3 & B4).
  apply C52_injective_pf in Q; try (unfold counts; lia); try lia. destruct Q as ((_ & Q & _) & _). lia.
Qed.

(** after some runs *)
Lemma puts_other : forall l fs name, (forall p, In p l -> name <> file_of (snd p)) -> fs_get (fold_left put_run l fs) name = fs_get fs name.
Proof.
  induction l as [|p l IH]; intros fs name H; [reflexivity|]. cbn [fold_left]. rewrite IH by (intros q Hq; apply H; now right).
  unfold put_run. apply fs_get_other. apply H. now left.
Qed.

Lemma puts_last : forall l1 p l2 fs, (forall q, In q l2 -> file_of (snd p) <> file_of (snd q)) ->
  fs_get (fold_left put_run (l1 ++ p :: l2) fs) (file_of (snd p)) = Some (Some (result_to_json (forget_guess (snd p)) (tm (fst p)))).
Proof.
  intros l1 p l2 fs H. rewrite fold_left_app. cbn [fold_left]. rewrite puts_other by assumption. apply fs_get_same.
Qed.
End Sweep.

Lemma Forall2_combine : forall A B (R : A -> B -> Prop) l l', Forall2 R l l' -> forall p, In p (combine l l') -> R (fst p) (snd p) /\ In (fst p) l.
Proof.
  intros A B R l l' F. induction F as [|x y l l' H F IH]; intros p I; [destruct I|]. destruct I as [<-|I]; [cbn; auto|]. destruct (IH p I). cbn. auto.
Qed.
Lemma Forall2_split : forall A B (R : A -> B -> Prop) l1 x l2 l', Forall2 R (l1 ++ x :: l2) l' ->
  exists m1 y m2, l' = m1 ++ y :: m2 /\ Forall2 R l1 m1 /\ R x y /\ Forall2 R l2 m2.
Proof.
  intros A B R l1 x l2 l' F. apply Forall2_app_inv_l in F. destruct F as (m1 & m & F1 & F2 & ->). inversion F2; subst. eexists _, _, _. eauto.
Qed.
Lemma combine_app : forall A B (l1 l2 : list A) (m1 m2 : list B), length l1 = length m1 -> combine (l1 ++ l2) (m1 ++ m2) = combine l1 m1 ++ combine l2 m2.
Proof. induction l1 as [|x l1 IH]; intros l2 [|y m1] m2 H; try discriminate; [reflexivity|]. cbn [app combine]. f_equal. apply IH. now injection H. Qed.
Lemma Forall2_len : forall A B (R : A -> B -> Prop) l l', Forall2 R l l' -> length l = length l'.
Proof. intros A B R l l' F. induction F; cbn; congruence. Qed.

Lemma zrange_split : forall a k b, a <= k < b -> zrange a b = zrange a k ++ k :: zrange (k + 1) b.
Proof. intros a k b H. rewrite (zrange_app a k b) by lia. now rewrite (zrange_cons k b) by lia. Qed.

Lemma follows_self : forall d, made (d_conf d) -> follows d d (g_guess (d_diag d)).
Proof. intros d M. unfold follows. split; [assumption|]. do 9 (split; [reflexivity|]). now destruct (d_diag d). Qed.

Lemma sector_complete : forall E N roots rand tm d alpha dc, qr_shape N -> good_guesses rand d -> 0 <= nholes (d_conf d) -> 0 <= g_nb_val (d_diag d) -> 0 <= g_dim_max (d_diag d) ->
  0 <= alpha <= nsites (d_conf d) - nholes (d_conf d) -> sector_run E N roots rand tm d alpha dc -> complete dc.
Proof.
  intros E N roots rand tm d alpha dc HQ [G1 G2] Hh Hn Hd Ha H. pose proof (run_file _ _ _ _ _ _ _ _ H) as (_ & M & S & A & Hl & B & _).
  destruct H as (c & S' & Hl' & A' & Bm & R & LT & X & Y & Z & Mc & D & P). rewrite D in M, S, A, Hl, B. cbn [d_conf] in *.
  eapply perform_complete; [exact HQ | | | | | | exact P]; rewrite D; cbn [d_conf d_diag with_guess g_nb_val g_dim_max]; try assumption.
  - unfold counts. lia.
  - pose proof (dimension_pos c M ltac:(unfold counts; lia)) as Dp.
    unfold first_guess. cbn [g_guess g_nb_val g_dim_max]. destruct (Z.eqb_spec alpha 0) as [->|Na].
    + destruct (g_guess (d_diag d)) as [v|] eqn:Gv; [|apply G1; lia]. specialize (G2 v eq_refl).
      destruct (made_inv _ M) as (n & r0 & r1 & h & b & Pn & R0 & C' & S0 & Hh0 & Bb & Aa & Dd & F). rewrite Dd.
      replace (compute_dimension n (n - h - b) b) with (compute_dimension (nsites (d_conf d)) 0 (nsites (d_conf d) - nholes (d_conf d))); [exact G2|]. f_equal; lia.
    + apply G1. lia.
Qed.

Lemma C54_sweep_pf : forall E N roots rand tm fs d fs' r, qr_shape N -> good_guesses rand d ->
  made (d_conf d) -> nsites (d_conf d) <= 10 -> 0 <= nholes (d_conf d) <= nsites (d_conf d) -> 0 <= g_nb_val (d_diag d) -> 0 <= g_dim_max (d_diag d) ->
  perform_configurations_computations E N roots rand tm fs d = (fs', r) ->
  exists m, 0 <= m /\ (forall d', r = Ok d' -> m = nsites (d_conf d) - nholes (d_conf d) + 1) /\ (forall e, r = Err e -> m <= nsites (d_conf d) - nholes (d_conf d)) /\
    (forall alpha, 0 <= alpha < m -> exists dc back, sector_run E N roots rand tm d alpha dc /\ load_data fs' (file_of dc) = Ok back /\ reloaded dc back) /\
    (forall name, (forall alpha dc, 0 <= alpha < m -> sector_run E N roots rand tm d alpha dc -> name <> file_of dc) -> load_data fs' name = load_data fs name).
Proof.
  intros E N roots rand tm fs d fs' r HQ GG M Hn Hh Hv Hd H. unfold perform_configurations_computations in H.
  destruct (sweep_inv E N roots rand tm d _ 0 d fs fs' r ltac:(lia) (follows_self d M) H) as (m & dcs & Hm & R1 & R2 & F & ->).
  exists m. split; [lia|]. split; [intros d' Q; rewrite (R1 d' Q); lia|]. split; [intros e Q; specialize (R2 e Q); lia|]. split.
  - intros alpha Ha. rewrite (zrange_split 0 alpha m) in * by lia. destruct (Forall2_split _ _ _ _ _ _ _ F) as (m1 & dc & m2 & -> & F1 & Ra & F2).
    rewrite combine_app by (eapply Forall2_len, F1). cbn [combine].
    assert (C : complete dc) by (eapply sector_complete; try eassumption; lia).
    pose proof (run_file _ _ _ _ _ _ _ _ Ra) as (T & _).
    destruct (load_saved (fold_left (put_run tm) (combine (zrange 0 alpha) m1 ++ (alpha, dc) :: combine (zrange (alpha + 1) m) m2) fs) dc (tm alpha) C T) as (back & L & Rl & _).
    { apply (puts_last tm _ (alpha, dc)). intros [b dc'] I. destruct (Forall2_combine _ _ _ _ _ F2 _ I) as [Rb Ib]. cbn [fst snd] in *. apply in_zrange in Ib.
      eapply run_names_differ with (alpha := alpha) (beta := b); try eassumption; lia. }
    exists dc, back. auto.
  - intros name Hname. unfold load_data. rewrite puts_other; [reflexivity|]. intros [b dc'] I. destruct (Forall2_combine _ _ _ _ _ F _ I) as [Rb Ib]. cbn [fst snd] in *.
    apply in_zrange in Ib. now apply (Hname b).
Qed.

Lemma fs_put_new : forall fs n x, ~ In n (map fst fs) -> map fst (fs_put fs n x) = map fst fs ++ [n].
Proof.
  induction fs as [|[m y] fs IH]; intros n x H; [reflexivity|]. cbn [fs_put map fst] in *. destruct (String.eqb_spec m n) as [->|D].
  - exfalso. apply H. now left.
  - cbn [map fst app]. f_equal. apply IH. intros I. apply H. now right.
Qed.

Lemma C54_one_file_each_pf : forall E N roots rand tm d fs' d',
  made (d_conf d) -> nsites (d_conf d) <= 10 -> 0 <= nholes (d_conf d) <= nsites (d_conf d) ->
  perform_configurations_computations E N roots rand tm [] d = (fs', Ok d') ->
  Forall2 (fun alpha name => exists dc, sector_run E N roots rand tm d alpha dc /\ name = file_of dc)
    (zrange 0 (nsites (d_conf d) - nholes (d_conf d) + 1)) (map fst fs') /\ NoDup (map fst fs').
Proof.
  intros E N roots rand tm d fs' d' M Hn Hh H. unfold perform_configurations_computations in H.
  destruct (sweep_inv E N roots rand tm d _ 0 d [] fs' (Ok d') ltac:(lia) (follows_self d M) H) as (m & dcs & Hm & R1 & R2 & F & Q).
  specialize (R1 d' eq_refl). rewrite Z.max_r in R1 by lia. rewrite <- R1.
  assert (ND : NoDup (map file_of dcs)).
  { assert (Hr : m = nsites (d_conf d) - nholes (d_conf d) + 1) by lia. clear R1 R2 Q H Hm.
    assert (G : forall k ds, 0 <= k -> Forall2 (sector_run E N roots rand tm d) (zrange k m) ds -> NoDup (map file_of ds)); [|apply (G 0); [lia | assumption]].
    clear dcs F. intros k dcs H0 F.
    remember (zrange k m) as l eqn:El. revert k El H0. induction F as [|a dc l dcs Ra F IH]; intros k El H0; [constructor|].
    assert (k < m) by (destruct (Z_lt_ge_dec k m); [assumption|]; rewrite zrange_nil in El by lia; discriminate).
    rewrite zrange_cons in El by lia. injection El as -> ->. cbn [map]. constructor.
    - intros I. apply in_map_iff in I. destruct I as (dc' & Q & I). apply In_nth_error in I. destruct I as [j I].
      assert (exists b, In b (zrange (k + 1) m) /\ sector_run E N roots rand tm d b dc') as (b & Ib & Rb).
      { clear - F I. revert j I. induction F as [|x y l l' H F IH]; intros j I; destruct j; cbn in I; try discriminate.
        - injection I as <-. exists x. split; [now left | assumption].
        - destruct (IH j I) as (b & Ib & Rb). exists b. split; [now right | assumption]. }
      apply in_zrange in Ib. symmetry in Q. revert Q. eapply run_names_differ with (alpha := k) (beta := b); try eassumption; lia.
    - apply (IH (k + 1)); [reflexivity | lia]. }
  assert (Names : map fst fs' = map file_of dcs).
  { rewrite Q. clear Q H R1 R2. pose proof (Forall2_len _ _ _ _ _ F) as Len. clear F.
    assert (G : forall l ds fs, length l = length ds -> NoDup (map fst fs ++ map file_of ds) -> map fst (fold_left (put_run tm) (combine l ds) fs) = map fst fs ++ map file_of ds).
    { induction l as [|a l IH]; intros [|dc ds] fs Ln Nd; try discriminate; [now rewrite app_nil_r|]. cbn [combine fold_left map] in *.
      assert (P : map fst (put_run tm fs (a, dc)) = map fst fs ++ [file_of dc]).
      { unfold put_run. cbn [snd]. apply fs_put_new. apply NoDup_remove_2 in Nd. intros I. apply Nd. apply in_or_app. now left. }
      rewrite IH.
      - now rewrite P, <- app_assoc.
      - now injection Ln.
      - rewrite P, <- app_assoc. exact Nd. }
    rewrite G; [reflexivity | assumption | exact ND]. }
  rewrite Names. split; [|assumption].
  clear - F. induction F as [|a dc l dcs Ra F IH]; constructor; [|assumption]. exists dc. auto.
Qed.

Lemma C54_eleven_sites_pf : forall E N roots rand tm fs d fs' d', qr_shape N -> good_guesses rand d ->
  made (d_conf d) -> nsites (d_conf d) = 11 -> nholes (d_conf d) = 0 -> 0 <= g_nb_val (d_diag d) -> 0 <= g_dim_max (d_diag d) ->
  perform_configurations_computations E N roots rand tm fs d = (fs', Ok d') ->
  exists dc back, sector_run E N roots rand tm d 1 dc /\ load_data fs' (file_of dc) = Ok back /\ nalpha (d_conf (dc_data dc)) = 1 /\ nalpha (d_conf (dc_data back)) = 11.
Proof.
  intros E N roots rand tm fs d fs' d' HQ GG M Hn Hh Hv Hd H. unfold perform_configurations_computations in H. rewrite Hn, Hh in H.
  destruct (sweep_inv E N roots rand tm d _ 0 d fs fs' (Ok d') ltac:(lia) (follows_self d M) H) as (m & dcs & Hm & R1 & R2 & F & ->).
  specialize (R1 d' eq_refl). change (Z.max 0 (11 - 0 + 1)) with 12 in R1. subst m.
  assert (exists dc, sector_run E N roots rand tm d 1 dc) as [dc R].
  { rewrite (zrange_split 0 1 12) in F by lia. destruct (Forall2_split _ _ _ _ _ _ _ F) as (m1 & dc & m2 & _ & _ & Ra & _). eauto. }
  rewrite (zrange_split 0 11 12) in * by lia. destruct (Forall2_split _ _ _ _ _ _ _ F) as (m1 & dc' & m2 & -> & F1 & Ra & F2).
  rewrite combine_app by (eapply Forall2_len, F1). cbn [combine]. rewrite (zrange_nil (11 + 1) 12) in * by lia.
  assert (C : complete dc') by (eapply sector_complete; try eassumption; lia).
  pose proof (run_file _ _ _ _ _ _ _ _ Ra) as (T & _ & S1 & S2 & _ & S3 & S4). pose proof (run_file _ _ _ _ _ _ _ _ R) as (_ & _ & P1 & P2 & _ & P3 & P4).
  assert (NE : file_of dc = file_of dc').
  { unfold file_of. rewrite S4, P4. rewrite !result_name_split. f_equal. rewrite !head_split. f_equal. rewrite S1, S2, S3, P1, P2, P3, Hn, Hh. vm_compute. reflexivity. }
  destruct (load_saved (fold_left (put_run tm) (combine (zrange 0 11) m1 ++ (11, dc') :: combine [] m2) fs) dc' (tm 11) C T) as (back & L & Rl & _).
  { apply (puts_last tm _ (11, dc')). intros q I. destruct I. }
  exists dc, back. split; [assumption|]. rewrite NE. split; [exact L|]. split; [assumption|]. destruct Rl as ((_ & (_ & Q & _) & _) & _). lia.
Qed.

Definition ex_rand (n : Z) : list (list Qc) := [map (fun i => if i =? 0 then 1%Qc else 0%Qc) (zrange 0 n)].
Definition ex_sweep (c : configuration) (s : switches) : data :=
  mkData c ex_couplings (mkDiag 1 100 (qfrac 1 1000) 0 None) (mkBools s false).
Definition ex_swept (d : data) := perform_configurations_computations cpython ex_numerics (fun _ => (0%Qc, 0%Qc)) (fun _ n _ => ex_rand n) (fun k => mkTimes 1 (qz k) 1) [] d.
Lemma ex_rand_good : forall c s, good_guesses (fun _ n _ => ex_rand n) (ex_sweep c s).
Proof.
  intros c s. split; [|discriminate]. intros _ dim nb H. constructor; [|constructor]. rewrite map_length, zrange_length. f_equal. lia.
Qed.
Definition is_ok {A} (r : res A) : bool := match r with Ok _ => true | Err _ => false end.
Lemma ex_swept_ok : forall d, is_ok (snd (ex_swept d)) = true -> exists fs' d', ex_swept d = (fs', Ok d').
Proof. intros d H. destruct (ex_swept d) as [fs' [d'|e]]; [eauto | discriminate H]. Qed.
Lemma ex_chain_made : forall h b, made (ex_rect 11 1 1 h b).
Proof. intros h b. apply (ex_made _ h b (RList []) Periodic 11 1 1); [reflexivity | vm_compute; discriminate | reflexivity]. Qed.

Definition ex_eleven_data : data := ex_sweep (ex_rect 11 1 1 0 0) (mkSwitches false false false false false false).
Lemma ex_eleven : exists fs' d', ex_swept ex_eleven_data = (fs', Ok d').
Proof. apply ex_swept_ok. vm_compute. reflexivity. Qed.

Lemma C54_eleven_refuted_pf : exists E N roots rand tm d fs' d' dc back, set_iter_ok E /\ qr_shape N /\ made (d_conf d) /\ nsites (d_conf d) = 11 /\ nholes (d_conf d) = 0 /\
  perform_configurations_computations E N roots rand tm [] d = (fs', Ok d') /\ sector_run E N roots rand tm d 1 dc /\
  load_data fs' (file_of dc) = Ok back /\ nalpha (d_conf (dc_data dc)) = 1 /\ nalpha (d_conf (dc_data back)) = 11.
Proof.
  destruct ex_eleven as (fs' & d' & Q).
  destruct (C54_eleven_sites_pf cpython ex_numerics (fun _ => (0%Qc, 0%Qc)) (fun _ n _ => ex_rand n) (fun k => mkTimes 1 (qz k) 1) [] ex_eleven_data fs' d'
              ex_qr_shape (ex_rand_good _ _) (ex_chain_made 0 0) eq_refl eq_refl (Zle_0_pos 1) (Z.le_refl 0) Q) as (dc & back & R & L & A & B).
  exists cpython, ex_numerics, (fun _ => (0%Qc, 0%Qc)), (fun _ n _ => ex_rand n), (fun k => mkTimes 1 (qz k) 1), ex_eleven_data, fs', d', dc, back.
  split; [exact cpython_ok|]. split; [exact ex_qr_shape|]. split; [exact (ex_chain_made 0 0)|]. split; [exact eq_refl|]. split; [exact eq_refl|].
  split; [exact Q|]. split; [exact R|]. split; [exact L|]. split; [exact A | exact B].
Qed.

Lemma C54_lattice_type_refuted_pf : exists c c', made c /\ sector_configuration c (nalpha c) = Ok c' /\ lattice_type c = Clusters /\ lattice_type c' = Periodic.
Proof.
  destruct (sector_ok (ex_sweep ex_clusters only_t) (ex_sweep ex_clusters only_t) _ (nalpha ex_clusters) (follows_self (ex_sweep ex_clusters only_t) ex_clusters_made)) as (c' & Q & _ & LT & _).
  exists ex_clusters, c'. split; [exact ex_clusters_made|]. split; [exact Q|]. split; [reflexivity | exact LT].
Qed.

(** ** C55 *)
Lemma C55_lookup_pf : forall c s, counts c -> embedding_name c s = result_name c s <-> five_on s.
Proof.
  intros c s C. rewrite embedding_name_split, result_name_split. split.
  - intros Q. apply names_split in Q; try assumption; [|apply suffix_emb_ends | apply suffix_ends]. destruct Q as [_ Q]. apply suffix_emb_iff in Q. tauto.
  - intros F. f_equal. apply suffix_emb_iff. auto.
Qed.

Lemma C55_any_saved_pf : forall c c' s s', counts c -> counts c' -> nsites c <= 10 -> nsites c' <= 10 ->
  embedding_name c s = result_name c' s' <-> same_counts c c' /\ five_on s' /\ (s_bz s' = true <-> five_on s /\ s_bz s = true).
Proof.
  intros c c' s s' C C' N N'. rewrite embedding_name_split, result_name_split.
  assert (AO : forall s, all_on s = true <-> five_on s /\ s_bz s = true).
  { intros x. unfold all_on, five_on. rewrite !andb_true_iff. tauto. }
  assert (Beq : forall a b : bool, a = b <-> (b = true <-> a = true)) by (intros [] []; intuition discriminate).
  split.
  - intros Q. apply names_split in Q; try assumption; [|apply suffix_emb_ends | apply suffix_ends]. destruct Q as [Q1 Q2]. apply suffix_emb_iff in Q2. destruct Q2 as [Q2 Q3].
    split. { destruct C as (A & B & F), C' as (A' & B' & F'). unfold same_counts. now apply counts_inj. }
    split; [assumption|]. rewrite <- AO, Q3, AO. tauto.
  - intros ((A & B & F) & F' & Z). rewrite !head_split. rewrite A, B, F. f_equal. apply suffix_emb_iff. split; [assumption|]. apply Beq. rewrite !AO. tauto.
Qed.

Lemma C55_missing_pf : forall dc fs' dc', let c := d_conf (dc_data dc) in let s := s_of (d_bools (dc_data dc)) in
  counts c -> ~ five_on s -> save_data [] dc = (fs', Ok dc') -> load_data fs' (embedding_name c s) = Err FileNotFoundError.
Proof.
  intros dc fs' dc' c s C F H. apply save_ok in H. destruct H as (t & _ & _ & ->). unfold load_data.
  rewrite fs_get_other; [reflexivity|]. intros Q. apply F. apply (C55_lookup_pf c s C). exact Q.
Qed.

Lemma C55_wrong_run_refuted_pf : exists c s s', counts c /\ ~ same_five s s' /\ embedding_name c s = result_name c s'.
Proof.
  exists ex22, (mkSwitches true false false false false false), (mkSwitches true false true true true true).
  split; [vm_compute; repeat split; congruence|]. split; [|vm_compute; reflexivity]. intros (_ & Q & _). discriminate.
Qed.
