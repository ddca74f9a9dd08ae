(** Files of the embeddings. *)
From Coq Require Import ZArith String Ascii List Bool QArith Qcanon Lia.
From Verif Require Import PyBase PyFacts Lattice Base Interact Ham Spin Prob Dav Files Spec SpecTJ DavDefs SpinDefs FilesDefs PDav PFiles PNames FFiles Emb EmbDefs FEmb FEmbBlock.
Import ListNotations.
Open Scope Z_scope.

(** ** Names *)
Lemma all_on_spelled : forall s, all_on s = s_bt s && s_bz s && s_bij s && s_bSD s && s_btN s && s_bV s.
Proof. intros [[] [] [] [] [] []]; reflexivity. Qed.

Lemma C71_spelled_pf : forall c s o,
  let rest := append (str_of_int (nsites c)) (append (str_of_int (nalpha c)) (append (str_of_int (nbeta c))
    (if s_bt s && s_bz s && s_bij s && s_bSD s && s_btN s && s_bV s then "Full.json" else "SDVJttN.json"))) in
  peripheral_name c s = append "Peripheral_embedding/tJHam-" rest /\
  blocks_name c s o = append "Embedding_blocks/tJHam" (append (if o_dynamic o then "-dyn" else "") (append (if o_neel o then "-neel" else "")
    (append (if o_neighbor o then "-neigh" else "") (append "-" rest)))).
Proof.
  intros c s o rest. subst rest. rewrite <- all_on_spelled. split.
  - unfold peripheral_name. rewrite embedding_name_split, head_split. unfold counts_text, suffix_emb. destruct (all_on s); rewrite ?append_assoc; reflexivity.
  - unfold blocks_name, dir_switches. cbn [fold_left fst snd extension String.eqb Ascii.eqb Bool.eqb].
    destruct (all_on s); rewrite ?append_assoc; cbn [append]; rewrite ?append_assoc; destruct (o_dynamic o), (o_neel o), (o_neighbor o); reflexivity.
Qed.

Lemma C71_apart_pf : forall c s o c' s',
  peripheral_name c s <> result_name c' s' /\ peripheral_name c s <> embedding_name c' s' /\
  blocks_name c s o <> result_name c' s' /\ blocks_name c s o <> embedding_name c' s' /\ blocks_name c s o <> peripheral_name c' s'.
Proof.
  intros c s o c' s'. destruct (C71_spelled_pf c s o) as [-> ->]. destruct (C71_spelled_pf c' s' o) as [-> _].
  rewrite result_name_split, embedding_name_split, head_split. repeat split; discriminate.
Qed.

Lemma str_first : forall z, 0 <= z -> exists a t, str_of_int z = String a t /\ isdigit a = true.
Proof.
  intros z H. pose proof (str_digits z H) as D. destruct (str_of_int z) as [|a t] eqn:Q.
  - exfalso. destruct z as [|p|p]; [discriminate| |lia]. unfold str_of_int in Q. cbn [Z.to_int DecimalString.NilZero.string_of_int] in Q. unfold DecimalString.NilZero.string_of_uint in Q.
    destruct (Pos.to_uint p); discriminate.
  - exists a, t. split; [reflexivity|]. cbn [alldigits] in D. now apply andb_prop in D.
Qed.

Lemma C71_options_pf : forall c s o c' s' o', counts c -> counts c' -> blocks_name c s o = blocks_name c' s' o' ->
  o_dynamic o = o_dynamic o' /\ o_neel o = o_neel o' /\ o_neighbor o = o_neighbor o' /\ all_on s = all_on s' /\
  (nsites c <= 10 -> nsites c' <= 10 -> same_counts c c').
Proof.
  intros c s o c' s' o' C C' Q. destruct (C71_spelled_pf c s o) as [_ P]. destruct (C71_spelled_pf c' s' o') as [_ P']. rewrite P, P' in Q. clear P P'.
  rewrite <- !all_on_spelled in Q.
  assert (W : forall c s, append (str_of_int (nsites c)) (append (str_of_int (nalpha c)) (append (str_of_int (nbeta c)) (if all_on s then "Full.json" else "SDVJttN.json")))
              = append (counts_text (nsites c) (nalpha c) (nbeta c)) (suffix_emb s)) by (intros; unfold counts_text, suffix_emb; now rewrite !append_assoc).
  rewrite !W in Q. apply prefix_inj in Q.
  assert (F : forall c, counts c -> exists a t, counts_text (nsites c) (nalpha c) (nbeta c) = String a t /\ isdigit a = true).
  { intros c0 (A & B & D). unfold counts_text. destruct (str_first (nsites c0) ltac:(lia)) as (a & t & E & I). rewrite E. cbn [append]. eauto. }
  assert (M : o_dynamic o = o_dynamic o' /\ o_neel o = o_neel o' /\ o_neighbor o = o_neighbor o' /\
    append (counts_text (nsites c) (nalpha c) (nbeta c)) (suffix_emb s) = append (counts_text (nsites c') (nalpha c') (nbeta c')) (suffix_emb s')).
  { destruct (F c C) as (a & t & E & I). destruct (F c' C') as (a' & t' & E' & I').
    rewrite E, E' in Q |- *. cbn [append] in Q |- *.
    destruct (o_dynamic o), (o_neel o), (o_neighbor o), (o_dynamic o'), (o_neel o'), (o_neighbor o'); cbn [append] in Q; inversion Q; subst; try discriminate;
      repeat split; try reflexivity; congruence. }
  destruct M as (M1 & M2 & M3 & M4). do 3 (split; [assumption|]).
  destruct (digits_split _ _ _ _ (counts_digits c C) (counts_digits c' C') (suffix_emb_ends s) (suffix_emb_ends s') M4) as [X Y].
  split.
  - unfold suffix_emb in Y. destruct (all_on s), (all_on s'); try reflexivity; discriminate.
  - intros N N'. destruct C as (A & B & D), C' as (A' & B' & D'). unfold same_counts. now apply counts_inj.
Qed.

Lemma C71_reverse_refuted_pf : exists o o', o_reverse o <> o_reverse o' /\ forall c s, blocks_name c s o = blocks_name c s o'.
Proof. exists (mkOptions true true true 0 true), (mkOptions true true true 0 false). split; [discriminate | reflexivity]. Qed.

(** ** Reading back *)
Lemma back_shaped : forall m, 0 <= csr_dim m -> (forall x i j, In (x, i, j) (csr_entries m) -> 0 <= i < csr_dim m /\ 0 <= j < csr_dim m) ->
  shaped (csr_dim m) (mkCsr (csr_dim m) (back_entries m)).
Proof.
  intros m H R. split; [reflexivity|]. cbn [csr_entries]. intros x i j I. unfold back_entries in I. apply in_concat in I. destruct I as (l & Hl & I).
  apply in_map_iff in Hl. destruct Hl as (k & <- & Hk). apply in_map_iff in I. destruct I as (y & Q & Hy). injection Q as <- <- <-. apply in_zrange in Hk.
  split; [assumption|]. unfold row_columns in Hy. rewrite in_zsort, nodup_In, in_map_iff in Hy. destruct Hy as ([[x r] q] & <- & F). apply filter_In in F. destruct F as [F _].
  apply R in F. cbn [snd]. lia.
Qed.

Lemma embedded_back : forall dc o, complete dc -> dc_times dc = None -> g_guess (d_diag (dc_data dc)) = None -> embedded_to_json dc = JObj o ->
  exists r, recover_results o = Ok r /\ reloaded dc r /\ shaped (nb_conf (d_conf (dc_data dc))) (dc_ham r).
Proof.
  intros dc o (M & P & (SD & SR) & T) HT HG Q. injection Q as <-.
  destruct (configuration_back (d_conf (dc_data dc)) _ M eq_refl) as (c' & RC & SS & LT & RR & NB).
  unfold recover_results. cbn [jarg jfield find fst snd option_map String.eqb Ascii.eqb Bool.eqb bind jobj].
  rewrite jintss_ok. cbn [bind].
  unfold configuration_to_json, interactions_to_json, diagonalization_to_json, bools_to_json, hamiltonian_to_json, eigenstates_to_json. cbn [jobj bind].
  rewrite RC. cbn [bind].
  rewrite (interactions_back (d_inter (dc_data dc)) _ eq_refl). cbn [bind].
  rewrite (diagonalization_back (d_diag (dc_data dc)) _ eq_refl). cbn [bind].
  rewrite (bools_back (d_bools (dc_data dc)) _ eq_refl). cbn [bind].
  rewrite NB. cbn [bind jint]. rewrite <- SD.
  rewrite (hamiltonian_back (dc_ham dc) _ ltac:(lia) eq_refl). cbn [bind].
  rewrite (eigenstates_back (csr_dim (dc_ham dc)) (dc_eig dc) _ ltac:(lia) ltac:(rewrite SD; exact T) eq_refl). cbn [bind].
  eexists. split; [reflexivity|]. split.
  - unfold reloaded. cbn [dc_data dc_dets dc_ham dc_eig dc_times d_conf d_inter d_diag d_bools csr_dim].
    split; [exact SS|]. do 5 (split; [reflexivity|]). split; [now rewrite HT|]. split; [reflexivity|].
    apply back_at; intros x i j I; rewrite SD; now apply SR with x.
  - cbn [dc_ham]. apply back_shaped; [lia|]. intros x i j I. rewrite SD. now apply SR with x.
Qed.

Lemma result_shaped : forall dc t o r, complete dc -> dc_times dc = Some t -> result_to_json (forget_guess dc) t = JObj o ->
  recover_results o = Ok r -> shaped (nb_conf (d_conf (dc_data dc))) (dc_ham r).
Proof.
  intros dc t o r (M & P & (SD & SR) & T) HT Q. injection Q as <-.
  destruct (configuration_back (d_conf (dc_data dc)) _ M eq_refl) as (c' & RC & SS & LT & RR & NB).
  unfold recover_results. cbn [jarg jfield find fst snd option_map String.eqb Ascii.eqb Bool.eqb bind jobj].
  cbn [forget_guess drop_guess dc_data dc_dets dc_ham dc_eig dc_times d_conf d_inter d_diag d_bools].
  rewrite jintss_ok. cbn [bind].
  unfold configuration_to_json, interactions_to_json, diagonalization_to_json, bools_to_json, hamiltonian_to_json, eigenstates_to_json, times_to_json. cbn [jobj bind].
  rewrite RC. cbn [bind].
  rewrite (interactions_back (d_inter (dc_data dc)) _ eq_refl). cbn [bind].
  cbn [g_nb_val g_stp g_tol g_dim_max]. rewrite (diagonalization_back (d_diag (dc_data dc)) _ eq_refl). cbn [bind].
  rewrite (bools_back (d_bools (dc_data dc)) _ eq_refl). cbn [bind].
  rewrite NB. cbn [bind jint]. rewrite <- SD.
  rewrite (hamiltonian_back (dc_ham dc) _ ltac:(lia) eq_refl). cbn [bind].
  rewrite (eigenstates_back (csr_dim (dc_ham dc)) (dc_eig dc) _ ltac:(lia) ltac:(rewrite SD; exact T) eq_refl). cbn [bind].
  rewrite (times_back t _ eq_refl). cbn [bind]. intros E. apply ok_eq in E. subst r. cbn [dc_ham].
  apply back_shaped; [lia|]. intros x i j I. rewrite SD. now apply SR with x.
Qed.

Lemma load_other : forall fs n n' x, n' <> n -> load_data (fs_put fs n x) n' = load_data fs n'.
Proof. intros fs n n' x D. unfold load_data. now rewrite fs_get_other. Qed.

Lemma save_embedded_inv : forall fs name dc fs' r, save_embedded fs name dc = (fs', r) -> dc_times dc = None ->
  (forall n, n <> name -> load_data fs' n = load_data fs n) /\
  (r = Ok dc /\ g_guess (d_diag (dc_data dc)) = None /\
     (complete dc -> exists x, load_data fs' name = Ok x /\ reloaded dc x /\ shaped (nb_conf (d_conf (dc_data dc))) (dc_ham x))
   \/ r = Err TypeError /\ g_guess (d_diag (dc_data dc)) <> None /\ load_data fs' name = Err ValueError).
Proof.
  intros fs name dc fs' r H HT. unfold save_embedded in H. destruct (g_guess (d_diag (dc_data dc))) as [v|] eqn:G; injection H as <- <-.
  - split; [intros n D; now apply load_other|]. right. split; [reflexivity|]. split; [discriminate|]. unfold load_data. now rewrite fs_get_same.
  - split; [intros n D; now apply load_other|]. left. split; [reflexivity|]. split; [reflexivity|]. intros C. unfold load_data. rewrite fs_get_same. unfold embedded_to_json at 1. cbn [jobj bind].
    exact (embedded_back dc _ C HT G eq_refl).
Qed.

(** ** embedding_neel *)
Lemma embedded_neel_inv : forall E N rand fs d tol mi nb dc, embedded_neel E N rand fs d tol mi nb = Ok dc ->
  let c := d_conf d in
  exists dc0 gs u pR e, load_data fs (embedding_name c (s_of (d_bools d))) = Ok dc0 /\ first_column (e_vects (dc_eig dc0)) = Ok gs /\
    neel_surroundings E c = Ok u /\ neel_start E (nbh c) (nbv c) (nblocs_side c) = Ok pR /\
    neel_loop N (d_inter d) (d_diag d) tol nb rand (mkBasis c (dc_dets dc0)) u (dc_ham dc0) (2 * (nbh c + nbv c) * nblocs_side c) (Z.to_nat mi) 0 gs pR None = Ok e /\
    dc = mkDC d (dc_dets dc0) (dc_ham dc0) e None.
Proof.
  intros E N rand fs d tol mi nb dc H c. unfold embedded_neel in H. fold c in H.
  apply bind_ok_inv in H. destruct H as (dc0 & H1 & H). apply bind_ok_inv in H. destruct H as (gs & H2 & H). apply bind_ok_inv in H. destruct H as (u & H3 & H).
  apply bind_ok_inv in H. destruct H as (pR & H4 & H). apply bind_ok_inv in H. destruct H as (e & H5 & H). apply bind_ok_inv in H. destruct H as (z & _ & H).
  apply bind_ok_inv in H. destruct H as (z' & _ & H). apply ok_eq in H. exists dc0, gs, u, pR, e. auto 10.
Qed.

(** what a run does *)
Lemma C71_neel_pf : forall E N rand fs d tol mi nb fs' dc, embedding_neel E N rand fs d tol mi nb = (fs', Ok dc) ->
  let c := d_conf d in let own := peripheral_name c (s_of (d_bools d)) in
  exists dc0 gs u pR e, load_data fs (embedding_name c (s_of (d_bools d))) = Ok dc0 /\ first_column (e_vects (dc_eig dc0)) = Ok gs /\
    neel_surroundings E c = Ok u /\ neel_start E (nbh c) (nbv c) (nblocs_side c) = Ok pR /\
    neel_loop N (d_inter d) (d_diag d) tol nb rand (mkBasis c (dc_dets dc0)) u (dc_ham dc0) (2 * (nbh c + nbv c) * nblocs_side c) (Z.to_nat mi) 0 gs pR None = Ok e /\
    dc = mkDC d (dc_dets dc0) (dc_ham dc0) e None /\ g_guess (d_diag d) = None /\
    (complete dc -> exists r, load_data fs' own = Ok r /\ reloaded dc r) /\
    forall name, name <> own -> load_data fs' name = load_data fs name.
Proof.
  intros E N rand fs d tol mi nb fs' dc H c own. unfold embedding_neel in H. destruct (embedded_neel E N rand fs d tol mi nb) as [dc'|] eqn:Q; [|discriminate].
  destruct (embedded_neel_inv _ _ _ _ _ _ _ _ _ Q) as (dc0 & gs & u & pR & e & H1 & H2 & H3 & H4 & H5 & Edc).
  assert (HT : dc_times dc' = None) by now subst dc'.
  destruct (save_embedded_inv _ _ _ _ _ H HT) as (Oth & [(R & G & B)|(R & _)]); [|discriminate]. injection R as <-.
  exists dc0, gs, u, pR, e. do 5 (split; [assumption|]). split; [exact Edc|]. split; [now rewrite Edc in G|]. split; [|exact Oth].
  intros C. destruct (B C) as (x & Hx & Rx & _). eauto.
Qed.

(** errors *)
Lemma C71_neel_error_pf : forall E N rand fs d tol mi nb fs' e, embedding_neel E N rand fs d tol mi nb = (fs', Err e) ->
  let own := peripheral_name (d_conf d) (s_of (d_bools d)) in
  fs' = fs \/ g_guess (d_diag d) <> None /\ e = TypeError /\ load_data fs' own = Err ValueError /\ forall name, name <> own -> load_data fs' name = load_data fs name.
Proof.
  intros E N rand fs d tol mi nb fs' e H own. unfold embedding_neel in H. destruct (embedded_neel E N rand fs d tol mi nb) as [dc'|e'] eqn:Q.
  - right. destruct (embedded_neel_inv _ _ _ _ _ _ _ _ _ Q) as (dc0 & gs & u & pR & e0 & H1 & H2 & H3 & H4 & H5 & Edc).
    assert (HT : dc_times dc' = None) by now subst dc'.
    destruct (save_embedded_inv _ _ _ _ _ H HT) as (Oth & [(R & _)|(R & G & B)]); [discriminate|]. injection R as ->. rewrite Edc in G. auto.
  - left. congruence.
Qed.
Lemma C71_neel_missing_pf : forall E N rand fs d tol mi nb e, load_data fs (embedding_name (d_conf d) (s_of (d_bools d))) = Err e ->
  embedding_neel E N rand fs d tol mi nb = (fs, Err e).
Proof. intros E N rand fs d tol mi nb e H. unfold embedding_neel, embedded_neel. now rewrite H. Qed.

Lemma neel_loop_tall : forall N I g tol nb rand c l u ham rest mi gs pR e, qr_shape N -> 0 <= nb -> 0 <= g_dim_max g -> 0 <= csr_dim ham ->
  (forall k dim n, 0 <= dim -> tall (Z.to_nat dim) (rand k dim n)) ->
  neel_loop N I g tol nb rand (mkBasis c l) u ham rest (Z.to_nat mi) 0 gs pR None = Ok e -> tall (Z.to_nat (csr_dim ham)) (e_vects e).
Proof.
  intros N I g tol nb rand c l u ham rest mi gs pR e HQ Hn Hd Hm Hr H. apply C58_neel_pf in H. destruct H as (n & b & _ & _ & xs & rs & _ & <- & St & _).
  destruct (St n (le_n n)) as (T & _). apply C56_turn_pf in T. destruct T as (h & k & _ & D & _).
  assert (W : tall (length (csr_dense (mkCsr (csr_dim ham) h))) (e_vects (rs n))).
  { eapply davidson_tall; [exact HQ | apply dense_square | | exact Hn | exact Hd | exact D]. rewrite dense_length. cbn [csr_dim]. now apply Hr. }
  now rewrite dense_length in W.
Qed.

Lemma C71_neel_complete_pf : forall E N rand fs d tol mi nb fs' dc, qr_shape N -> made (d_conf d) -> counts (d_conf d) -> 0 <= nb -> 0 <= g_dim_max (d_diag d) ->
  (forall k dim n, 0 <= dim -> tall (Z.to_nat dim) (rand k dim n)) ->
  embedding_neel E N rand fs d tol mi nb = (fs', Ok dc) -> shaped (nb_conf (d_conf d)) (dc_ham dc) -> complete dc.
Proof.
  intros E N rand fs d tol mi nb fs' dc HQ M C Hn Hd Hr H Sh. apply C71_neel_pf in H. cbv zeta in H.
  destruct H as (dc0 & gs & u & pR & e & _ & _ & _ & _ & L & -> & _). unfold complete. cbn [dc_data dc_ham dc_eig] in *.
  pose proof (dimension_pos _ M C) as P. destruct Sh as [Sd Sr]. split; [assumption|]. split; [assumption|]. split; [split; assumption|].
  rewrite <- Sd. eapply neel_loop_tall; [exact HQ | exact Hn | exact Hd | lia | exact Hr | exact L].
Qed.

(** ** embedding_blocks *)
Lemma embedded_blocks_inv : forall E N fs d tol mi o out, embedded_blocks E N fs d tol mi o = Ok out ->
  let c := d_conf d in
  exists dc0 gs energy nb u full r,
    load_data fs (if o_neel o then peripheral_name c (s_of (d_bools d)) else embedding_name c (s_of (d_bools d))) = Ok dc0 /\
    first_column (e_vects (dc_eig dc0)) = Ok gs /\ py_get (e_vals (dc_eig dc0)) 0 = Ok energy /\
    neighbor_basis E (mkBasis c (dc_dets dc0)) (o_reverse o) = Ok nb /\ block_surroundings E c (b_conf nb) = Ok (u, full) /\
    block_loop E N (d_inter d) (d_diag d) o tol (mkBasis c (dc_dets dc0)) nb u full (dc_ham dc0) gs (Z.to_nat mi) gs energy None = Ok r /\
    out = option_map (fun r => mkDC d (dc_dets dc0) (fst r) (snd r) None) r.
Proof.
  intros E N fs d tol mi o out H c. unfold embedded_blocks in H. fold c in H.
  apply bind_ok_inv in H. destruct H as (dc0 & H1 & H). apply bind_ok_inv in H. destruct H as (gs & H2 & H). apply bind_ok_inv in H. destruct H as (en & H3 & H).
  apply bind_ok_inv in H. destruct H as (nb & H4 & H). apply bind_ok_inv in H. destruct H as ([u full] & H5 & H). apply bind_ok_inv in H. destruct H as (r & H6 & H).
  apply ok_eq in H. exists dc0, gs, en, nb, u, full, r. auto 10.
Qed.

Lemma C71_blocks_pf : forall E N fs d tol mi o fs' out, embedding_blocks E N fs d tol mi o = (fs', Ok out) ->
  let c := d_conf d in let own := blocks_name c (s_of (d_bools d)) o in
  exists dc0 gs energy nb u full r,
    load_data fs (if o_neel o then peripheral_name c (s_of (d_bools d)) else embedding_name c (s_of (d_bools d))) = Ok dc0 /\
    first_column (e_vects (dc_eig dc0)) = Ok gs /\ py_get (e_vals (dc_eig dc0)) 0 = Ok energy /\
    neighbor_basis E (mkBasis c (dc_dets dc0)) (o_reverse o) = Ok nb /\ block_surroundings E c (b_conf nb) = Ok (u, full) /\
    block_loop E N (d_inter d) (d_diag d) o tol (mkBasis c (dc_dets dc0)) nb u full (dc_ham dc0) gs (Z.to_nat mi) gs energy None = Ok r /\
    match r with
    | None => out = None /\ fs' = fs
    | Some (h, e) => let dc := mkDC d (dc_dets dc0) h e None in
        out = Some dc /\ g_guess (d_diag d) = None /\ (complete dc -> exists x, load_data fs' own = Ok x /\ reloaded dc x) /\
        forall name, name <> own -> load_data fs' name = load_data fs name
    end.
Proof.
  intros E N fs d tol mi o fs' out H c own. unfold embedding_blocks in H. destruct (embedded_blocks E N fs d tol mi o) as [out'|] eqn:Q; [|discriminate].
  destruct (embedded_blocks_inv _ _ _ _ _ _ _ _ Q) as (dc0 & gs & en & nb & u & full & r & H1 & H2 & H3 & H4 & H5 & H6 & Eo).
  exists dc0, gs, en, nb, u, full, r. do 6 (split; [assumption|]). destruct r as [[h e]|]; cbn [option_map fst snd] in Eo; subst out'.
  - destruct (save_embedded _ _ _) as [fs1 r1] eqn:Sv. cbv zeta. destruct (save_embedded_inv _ _ _ _ _ Sv eq_refl) as (Oth & [(R & G & B)|(R & _)]); subst r1.
    + injection H as <- <-. split; [reflexivity|]. split; [exact G|]. split; [|exact Oth]. intros C. destruct (B C) as (x & Hx & Rx & _). eauto.
    + discriminate.
  - injection H as <- <-. split; reflexivity.
Qed.

Lemma C71_blocks_error_pf : forall E N fs d tol mi o fs' e, embedding_blocks E N fs d tol mi o = (fs', Err e) ->
  let own := blocks_name (d_conf d) (s_of (d_bools d)) o in
  fs' = fs \/ g_guess (d_diag d) <> None /\ e = TypeError /\ load_data fs' own = Err ValueError /\ forall name, name <> own -> load_data fs' name = load_data fs name.
Proof.
  intros E N fs d tol mi o fs' e H own. unfold embedding_blocks in H. destruct (embedded_blocks E N fs d tol mi o) as [[dc|]|e'] eqn:Q.
  - right. destruct (embedded_blocks_inv _ _ _ _ _ _ _ _ Q) as (dc0 & gs & en & nb & u & full & r & _ & _ & _ & _ & _ & _ & Eo).
    destruct r as [[h x]|]; cbn [option_map fst snd] in Eo; [|discriminate]. injection Eo as ->.
    destruct (save_embedded _ _ _) as [fs1 r1] eqn:Sv. destruct (save_embedded_inv _ _ _ _ _ Sv eq_refl) as (Oth & [(R & _)|(R & G & B)]); subst r1; [discriminate|].
    injection H as <- <-. auto.
  - discriminate.
  - left. congruence.
Qed.
Lemma C71_blocks_missing_pf : forall E N fs d tol mi o e,
  load_data fs (if o_neel o then peripheral_name (d_conf d) (s_of (d_bools d)) else embedding_name (d_conf d) (s_of (d_bools d))) = Err e ->
  embedding_blocks E N fs d tol mi o = (fs, Err e).
Proof. intros E N fs d tol mi o e H. unfold embedding_blocks, embedded_blocks. unfold peripheral_name in H. now rewrite H. Qed.

Lemma C71_blocks_complete_pf : forall E N fs d tol mi o fs' dc, qr_shape N -> made (d_conf d) -> counts (d_conf d) -> 0 <= g_dim_max (d_diag d) ->
  (forall dc0, load_data fs (if o_neel o then peripheral_name (d_conf d) (s_of (d_bools d)) else embedding_name (d_conf d) (s_of (d_bools d))) = Ok dc0 ->
     csr_dim (dc_ham dc0) = nb_conf (d_conf d) /\ tall (Z.to_nat (nb_conf (d_conf d))) (e_vects (dc_eig dc0))) ->
  embedding_blocks E N fs d tol mi o = (fs', Ok (Some dc)) -> complete dc.
Proof.
  intros E N fs d tol mi o fs' dc HQ M C Hd Hl H. apply C71_blocks_pf in H. cbv zeta in H.
  destruct H as (dc0 & gs & en & nb & u & full & r & Ld & Hg & _ & _ & _ & L & R). destruct (Hl dc0 Ld) as [Dm Tl]. destruct r as [[h e]|]; [|now destruct R as [F _]].
  destruct R as (Q & _). injection Q as ->. unfold complete. cbn [dc_data dc_ham dc_eig].
  pose proof (dimension_pos _ M C) as P. split; [assumption|]. split; [assumption|].
  apply C58_blocks_pf in L. destruct L as (n & b & res & _ & _ & Rb & xs & rs & _ & <- & St & _). destruct (St n (le_n n)) as (T & _).
  assert (Q : rs n = (h, e)) by (destruct b; congruence). rewrite Q in T.
  unfold block_turn in T. apply bind_ok_inv in T. destruct T as (pB & _ & T). apply bind_ok_inv in T. destruct T as (h0 & _ & T). apply bind_ok_inv in T. destruct T as (h1 & Hc & T).
  apply bind_ok_inv in T. destruct T as ([[k vals] vects] & D & T).
  unfold coo_to_csr in Hc. match type of Hc with (if ?t then _ else _) = _ => destruct t eqn:F end; [|discriminate]. apply ok_eq in Hc. subst h1. cbn [csr_dim csr_entries] in *.
  assert (T' : Ok (mkCsr (csr_dim (dc_ham dc0)) h0, mkEig vals [] vects) = Ok (h, e)) by (destruct vals; [discriminate | exact T]). apply ok_eq in T'. injection T' as <- <-.
  split.
  - split; [exact Dm|]. cbn [csr_entries]. intros x i j I. rewrite forallb_forall in F. specialize (F _ I). cbn in F. rewrite !andb_true_iff in F. rewrite <- Dm. lia.
  - cbn [e_vects]. rewrite <- Dm. assert (TG : tall (Z.to_nat (csr_dim (dc_ham dc0))) [gs]).
    { rewrite Dm. constructor; [|constructor]. unfold first_column in Hg. destruct (e_vects (dc_eig dc0)) as [|v vs]; [discriminate|]. apply ok_eq in Hg. subst v. now inversion Tl. }
    assert (W : tall (length (csr_dense (mkCsr (csr_dim (dc_ham dc0)) h0))) vects).
    { eapply davidson_tall; [exact HQ | apply dense_square | | | exact Hd | exact D]; [rewrite dense_length; exact TG | lia]. }
    now rewrite dense_length in W.
Qed.

(** ** A run, then the ring, then the blocks *)
Lemma C71_chain_pf : forall E N rand fs dc0 fs1 dc0' d tol mi nb fs2 dc, let c := d_conf d in let s := s_of (d_bools d) in
  complete dc0 -> save_data fs dc0 = (fs1, Ok dc0') -> embedding_name c s = file_of dc0 ->
  qr_shape N -> made c -> counts c -> nb_conf c = nb_conf (d_conf (dc_data dc0)) -> 0 <= nb -> 0 <= g_dim_max (d_diag d) ->
  (forall k dim n, 0 <= dim -> tall (Z.to_nat dim) (rand k dim n)) ->
  embedding_neel E N rand fs1 d tol mi nb = (fs2, Ok dc) ->
  complete dc /\ dc_dets dc = dc_dets dc0 /\ (forall i j, csr_at (dc_ham dc) i j = csr_at (dc_ham dc0) i j) /\
  (exists r, load_data fs2 (peripheral_name c s) = Ok r /\ reloaded dc r) /\ (exists r, load_data fs2 (embedding_name c s) = Ok r /\ reloaded dc0 r).
Proof.
  intros E N rand fs dc0 fs1 dc0' d tol mi nb fs2 dc c s C0 Sv Nm HQ M C Nb Hn Hd Hr H.
  destruct (save_ok _ _ _ _ Sv) as (t & Ht & -> & Ef).
  assert (G : fs_get fs1 (file_of dc0) = Some (Some (result_to_json (forget_guess dc0) t))) by (rewrite Ef; apply fs_get_same).
  destruct (load_saved fs1 dc0 t C0 Ht G) as (r & Ld & Rl & _).
  assert (Sh : shaped (nb_conf c) (dc_ham r)).
  { rewrite Nb. unfold load_data in Ld. rewrite G in Ld. unfold result_to_json at 1 in Ld. cbn [jobj bind] in Ld. exact (result_shaped dc0 t _ r C0 Ht eq_refl Ld). }
  pose proof (C71_neel_pf _ _ _ _ _ _ _ _ _ _ H) as W. cbv zeta in W. fold c s in W.
  destruct W as (r' & gs & u & pR & e & L0 & _ & _ & _ & _ & Edc & _ & Bk & Oth). rewrite Nm, Ld in L0. apply ok_eq in L0. subst r'.
  assert (Cd : complete dc). { eapply C71_neel_complete_pf; [exact HQ | exact M | exact C | exact Hn | exact Hd | exact Hr | exact H |]. now rewrite Edc. }
  destruct Rl as (R1 & R2 & R3 & R4 & R5 & R6 & R7 & R8 & R9).
  split; [exact Cd|]. split; [now rewrite Edc|]. split; [now rewrite Edc|]. split; [exact (Bk Cd)|].
  exists r. split; [|repeat (split; [assumption|]); assumption]. rewrite Oth; [now rewrite Nm|]. destruct (C71_apart_pf c s (mkOptions true true true 0 true) c s) as (_ & A & _). congruence.
Qed.

Lemma C71_source_pf : forall E N rand fs d tol mi nb fs2 dc o mi' tol' fs3 out,
  let c := d_conf d in let s := s_of (d_bools d) in
  complete dc -> embedding_neel E N rand fs d tol mi nb = (fs2, Ok dc) -> o_neel o = true ->
  embedding_blocks E N fs2 d tol' mi' o = (fs3, Ok out) ->
  exists r gs energy nb u full, reloaded dc r /\ first_column (e_vects (dc_eig dc)) = Ok gs /\ py_get (e_vals (dc_eig dc)) 0 = Ok energy /\
    neighbor_basis E (mkBasis c (dc_dets dc)) (o_reverse o) = Ok nb /\ block_surroundings E c (b_conf nb) = Ok (u, full) /\
    exists x, block_loop E N (d_inter d) (d_diag d) o tol' (mkBasis c (dc_dets dc)) nb u full (dc_ham r) gs (Z.to_nat mi') gs energy None = Ok x /\
      (x = None <-> out = None) /\ load_data fs3 (peripheral_name c s) = Ok r.
Proof.
  intros E N rand fs d tol mi nb fs2 dc o mi' tol' fs3 out c s C H On Hb.
  apply C71_neel_pf in H. cbv zeta in H. fold c s in H. destruct H as (_ & _ & _ & _ & _ & _ & _ & _ & _ & _ & _ & _ & Bk & _). destruct (Bk C) as (r & Ld & Rl).
  apply C71_blocks_pf in Hb. cbv zeta in Hb. fold c s in Hb. rewrite On in Hb. destruct Hb as (r' & gs & en & nb' & u & full & x & Ld' & A1 & A2 & A3 & A4 & A5 & A6).
  rewrite Ld in Ld'. apply ok_eq in Ld'. subst r'. pose proof Rl as (_ & _ & _ & _ & R5 & R6 & _). rewrite R5 in A3, A5. rewrite R6 in A1, A2.
  exists r, gs, en, nb', u, full. do 5 (split; [assumption|]). exists x. split; [exact A5|]. destruct x as [[h e]|].
  - destruct A6 as (-> & _ & _ & Oth). split; [split; discriminate|]. rewrite Oth; [exact Ld|]. destruct (C71_apart_pf c s o c s) as (_ & _ & _ & _ & A). congruence.
  - destruct A6 as [-> ->]. split; [split; reflexivity | exact Ld].
Qed.
