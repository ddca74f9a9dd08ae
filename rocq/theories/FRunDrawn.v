(** Final lemmas for C103: a whole run on any drawn lattice (as [FRun] on rectangles). *)
From Coq Require Import ZArith String List Bool Lia QArith Qcanon.
From Verif Require Import PyBase PyFacts Lattice Base Interact Ham Spin Prob Dav Spec SpecOps SpecTJ SpinDefs Geometry HamSpec TraceDefs DrawnDefs DavDefs Files FilesDefs PBasis FSites PHam PDav FBasis FDav FHam PFiles FFiles FRun FDrawn.
Import ListNotations.
Open Scope Z_scope.

Lemma drawn_assembly : forall E c pos r K S arg, set_iter_ok E -> filled_drawn E c pos r ->
  exists l m, assembled E c K S arg l m /\ csr_dim m = Z.of_nat (length l) /\ csr_dim m = compute_dimension (nsites c) (nalpha c) (nbeta c) /\
    (forall x i j, In (x, i, j) (csr_entries m) -> 0 <= i < csr_dim m /\ 0 <= j < csr_dim m) /\
    (forall d, In d l -> exists s, describes (nsites c) (nholes c) (nbeta c) d s /\ sector (nsites c) (nholes c) (nbeta c) s).
Proof.
  intros E c pos r K S arg HE HF. destruct (C103_assembly_pf E c pos r K S arg HE HF) as (l & m & A & D1 & D2 & R & _). exists l, m. split; [exact A|]. split; [exact D1|]. split; [exact D2|]. split; [exact R|].
  intros d Hd. destruct (drawn_core _ _ _ _ _ _ _ _ _ HE HF A) as (-> & _). destruct HF as (HD & HL & HM & HR & Hh & Hb & Ha).
  exists (state_of c d). assert (Q : describes (nsites c) (nholes c) (nbeta c) d (state_of c d)) by (now apply (in_dl c pos HD Hh Hb)). split; [exact Q|].
  apply sector_iff. eapply describes_sector, Q.
Qed.

Lemma dense_drawn : forall E c pos r K S arg l m st, set_iter_ok E -> filled_drawn E c pos r -> flips_agree c pos K S -> assembled E c K S arg l m -> csr_dim m = Z.of_nat (length l) ->
  (forall i d, nth_error l i = Some d -> describes (nsites c) (nholes c) (nbeta c) d (st i)) ->
  csr_dense m = tj_matrix (between (nsites c) pos r r) K S st (length l).
Proof.
  intros E c pos r K S arg l m st HE F G A D St. unfold csr_dense, tj_matrix. rewrite D.
  assert (Z : zrange 0 (Z.of_nat (length l)) = map Z.of_nat (seq 0 (length l))).
  { apply nth_ext with (d := 0) (d' := Z.of_nat 0); [rewrite zrange_length, map_length, seq_length; lia|]. intros k Hk. rewrite zrange_length in Hk.
    rewrite (map_nth Z.of_nat), seq_nth by lia. replace k with (Z.to_nat (Z.of_nat k)) at 1 by lia. rewrite nth_zrange by lia. lia. }
  rewrite Z, map_map. apply map_ext_in. intros i Hi. apply in_seq in Hi. rewrite map_map. apply map_ext_in. intros j Hj. apply in_seq in Hj.
  destruct (nth_error l i) as [d|] eqn:Ni; [|apply nth_error_None in Ni; lia]. destruct (nth_error l j) as [e|] eqn:Nj; [|apply nth_error_None in Nj; lia].
  eapply C103_elements_pf; try eassumption; now apply St.
Qed.

Lemma C103_run_pf : forall E N roots rand tm d pos r, set_iter_ok E -> filled_drawn E (d_conf d) pos r -> flips_agree (d_conf d) pos (d_inter d) (s_of (d_bools d)) ->
  let c := d_conf d in let g := d_diag d in
  exists l ham st, assembled E c (d_inter d) (s_of (d_bools d)) (RList []) l ham /\
    (forall i x, nth_error l i = Some x -> describes (nsites c) (nholes c) (nbeta c) x (st i) /\ sector (nsites c) (nholes c) (nbeta c) (st i)) /\
    let H := tj_matrix (between (nsites c) pos r r) (d_inter d) (s_of (d_bools d)) st (length l) in
    let dim := Z.of_nat (length l) in
    let guess := match g_guess g with Some v => v | None => rand dim (Z.min (g_nb_val g) (if g_dim_max g =? 0 then dim else g_dim_max g)) end in
    perform_initial_computations E N roots rand tm d =
      match modified_davidson_algorithm N H (g_nb_val g) guess (g_stp g) (g_tol g) (g_dim_max g) with
      | Err e => Err e
      | Ok (_, vals, vects) =>
        match (if b_spin (d_bools d) then mapM (compute_spin_number E roots c) vects else Ok []) with
        | Err e => Err e
        | Ok spins => Ok (mkDC d l ham (mkEig vals spins vects) (Some tm))
        end
      end.
Proof.
  intros E N roots rand tm d pos r HE F G c g.
  destruct (drawn_assembly E c pos r (d_inter d) (s_of (d_bools d)) (RList []) HE F) as (l & ham & A & Dm & _ & _ & Ds).
  assert (exists st, forall i x, nth_error l i = Some x -> describes (nsites c) (nholes c) (nbeta c) x (st i) /\ sector (nsites c) (nholes c) (nbeta c) (st i)) as [st St].
  { clear A Dm. revert Ds. generalize (nsites c) (nholes c) (nbeta c). intros n h b. clear. induction l as [|x l IH]; intros Ds.
    - exists (fun _ _ => Hole). intros [|i] x; discriminate.
    - destruct IH as [st IH]; [intros y Hy; apply Ds; now right|]. destruct (Ds x (or_introl eq_refl)) as [s Hs].
      exists (fun i => match i with O => s | S i => st i end). intros [|i] y; cbn [nth_error]; [intros Q; injection Q as <-; exact Hs | apply IH]. }
  exists l, ham, st. split; [exact A|]. split; [exact St|]. cbv zeta.
  rewrite <- (dense_drawn E c pos r _ _ (RList []) l ham st HE F G A Dm) by (intros i x Hx; now apply St).
  unfold perform_initial_computations. cbv zeta. fold c g. destruct A as [A1 A2]. rewrite A1. cbn [bind]. rewrite A2. cbn [bind determinants].
  unfold first_guess. rewrite Dm. destruct (modified_davidson_algorithm _ _ _ _ _ _ _) as [[[b vals] vects]|e]; [|reflexivity]. cbn [bind].
  destruct (b_spin (d_bools d)); [|reflexivity]. destruct (mapM _ vects); reflexivity.
Qed.

Lemma C103_eigenpairs_pf : forall E N roots rand tm d pos r dc st, set_iter_ok E -> filled_drawn E (d_conf d) pos r -> flips_agree (d_conf d) pos (d_inter d) (s_of (d_bools d)) ->
  let c := d_conf d in let g := d_diag d in
  qr_shape N -> norm_above N -> 0 <= g_nb_val g -> 0 <= g_dim_max g ->
  (forall v, g_guess g = Some v -> tall (Z.to_nat (compute_dimension (nsites c) (nalpha c) (nbeta c))) v) ->
  (forall dim nb, 0 <= dim -> tall (Z.to_nat dim) (rand dim nb)) ->
  perform_initial_computations E N roots rand tm d = Ok dc ->
  (forall i x, nth_error (dc_dets dc) i = Some x -> describes (nsites c) (nholes c) (nbeta c) x (st i)) ->
  let dim := length (dc_dets dc) in
  let H := tj_matrix (between (nsites c) pos r r) (d_inter d) (s_of (d_bools d)) st dim in
  let count := Z.to_nat (Z.min (g_nb_val g) (if g_dim_max g =? 0 then Z.of_nat dim else g_dim_max g)) in
  length (e_vals (dc_eig dc)) = count /\ length (e_vects (dc_eig dc)) = count /\ tall dim (e_vects (dc_eig dc)) /\
  ((forall k l x, nth_error (e_vals (dc_eig dc)) k = Some l -> nth_error (e_vects (dc_eig dc)) k = Some x ->
      (inner (residual H l x) (residual H l x) <= g_tol g * g_tol g)%Qc) \/
   exists guess, modified_davidson_algorithm N H (g_nb_val g) guess (g_stp g) (g_tol g) (g_dim_max g) = Ok (false, e_vals (dc_eig dc), e_vects (dc_eig dc))).
Proof.
  intros E N roots rand tm d pos r dc st HE F G c g HQ HN Hn Hd HG HR H St. cbv zeta.
  apply perform_inv in H. destruct H as (found & D & T & Cb & Bd & Dv & Sp).
  destruct (drawn_assembly E c pos r (d_inter d) (s_of (d_bools d)) (RList []) HE F) as (l & ham & [A1 A2] & Dm & Dc & _ & Ds).
  fold c in Cb, Bd. rewrite Cb in A1. injection A1 as <-. rewrite Bd in A2. injection A2 as <-.
  rewrite (dense_drawn E c pos r _ _ (RList []) _ _ st HE F G (conj Cb Bd) Dm St) in Dv. set (H := tj_matrix _ _ _ _ _) in *.
  assert (LH : length H = length (dc_dets dc)) by (unfold H, tj_matrix; now rewrite map_length, seq_length).
  assert (SH : square H). { unfold H. rewrite <- (dense_drawn E c pos r _ _ (RList []) _ _ st HE F G (conj Cb Bd) Dm St). apply dense_square. }
  assert (TG : tall (length H) (first_guess rand (csr_dim (dc_ham dc)) (d_diag d))).
  { rewrite LH. replace (length (dc_dets dc)) with (Z.to_nat (csr_dim (dc_ham dc))) by (rewrite Dm; lia). unfold first_guess.
    fold g. destruct (g_guess g) as [v|] eqn:Gg; [rewrite Dc; now apply HG | apply HR; lia]. }
  pose proof (davidson_tall _ _ _ _ _ _ _ _ _ _ HQ SH TG Hn Hd Dv) as TV. rewrite LH in TV.
  assert (Len : length (e_vals (dc_eig dc)) = Z.to_nat (Z.min (g_nb_val g) (if g_dim_max g =? 0 then Z.of_nat (length (dc_dets dc)) else g_dim_max g)) /\
                length (e_vects (dc_eig dc)) = Z.to_nat (Z.min (g_nb_val g) (if g_dim_max g =? 0 then Z.of_nat (length (dc_dets dc)) else g_dim_max g))).
  { pose proof Dv as B. apply C47_budget_pf in B. cbv zeta in B. rewrite LH in B. fold g in B.
    set (dm := if g_dim_max g =? 0 then Z.of_nat (length (dc_dets dc)) else g_dim_max g) in *.
    assert (0 <= dm) by (unfold dm; destruct (_ =? 0); lia). assert (M0 : 0 <= Z.min (g_nb_val g) dm) by lia.
    destruct B as (i & K & S & F1 & F2).
    assert (TK : tall (length H) K). { eapply search_tall; [exact HQ | exact SH | | exact M0 | exact S]. unfold dav_first. destruct (1 <? _); [now apply HQ | assumption]. }
    assert (exists o, dav_step N H (Z.min (g_nb_val g) dm) (g_tol g) dm K = Ok o /\ (o = Converged (e_vals (dc_eig dc)) (e_vects (dc_eig dc)) \/ exists K', o = Continue (e_vals (dc_eig dc)) (e_vects (dc_eig dc)) K')) as (o & Eo & O).
    { destruct found; [destruct (F1 eq_refl) as [_ E']; eauto | destruct (F2 eq_refl) as [_ [K' E']]; eauto]. }
    destruct (dav_step_inv _ _ _ _ _ _ _ SH TK M0 Eo) as (vs & ys & L1 & L2 & _ & [[Q _]|(cs & _ & _ & Q)]); destruct O as [O|[K' O]]; subst o; try discriminate.
    - injection Q as -> ->. rewrite map_length. auto.
    - injection Q as -> -> _. rewrite map_length. auto. }
  destruct Len as [L1 L2]. split; [exact L1|]. split; [exact L2|]. split; [exact TV|].
  destruct found.
  - left. intros k l x Hl Hx. exact (C47_true_residual_pf _ _ _ _ _ _ _ _ _ HQ HN SH TG Hn Hd Dv k l x Hl Hx).
  - right. eexists. exact Dv.
Qed.
