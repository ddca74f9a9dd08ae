(** Theorems on the files of the embeddings (C71). *)
From Coq Require Import ZArith String List Bool QArith Qcanon.
From Verif Require Import PyBase PyFacts Runtimes Lattice Base Interact Ham Spin Prob Dav Files Spec SpecTJ SpinDefs DavDefs FilesDefs Emb EmbDefs Examples FSites FProb FDav FFiles FEmb FEmbEx FEmbFiles FTight6.
Import ListNotations.
Open Scope Z_scope.

(** C71 *)
Theorem C71_spelled :
  forall c s o,
  let rest := append (str_of_int (nsites c)) (append (str_of_int (nalpha c)) (append (str_of_int (nbeta c))
    (if s_bt s && s_bz s && s_bij s && s_bSD s && s_btN s && s_bV s then "Full.json" else "SDVJttN.json"))) in
  peripheral_name c s = append "Peripheral_embedding/tJHam-" rest /\
  blocks_name c s o = append "Embedding_blocks/tJHam" (append (if o_dynamic o then "-dyn" else "") (append (if o_neel o then "-neel" else "")
    (append (if o_neighbor o then "-neigh" else "") (append "-" rest)))).
Proof. exact C71_spelled_pf. Qed.
Print Assumptions C71_spelled.

Theorem C71_apart :
  forall c s o c' s',
  peripheral_name c s <> result_name c' s' /\ peripheral_name c s <> embedding_name c' s' /\
  blocks_name c s o <> result_name c' s' /\ blocks_name c s o <> embedding_name c' s' /\ blocks_name c s o <> peripheral_name c' s'.
Proof. exact C71_apart_pf. Qed.
Print Assumptions C71_apart.

Theorem C71_options :
  forall c s o c' s' o', counts c -> counts c' -> blocks_name c s o = blocks_name c' s' o' ->
  o_dynamic o = o_dynamic o' /\ o_neel o = o_neel o' /\ o_neighbor o = o_neighbor o' /\ all_on s = all_on s' /\
  (nsites c <= 10 -> nsites c' <= 10 -> same_counts c c').
Proof. exact C71_options_pf. Qed.
Print Assumptions C71_options.

Theorem C71_reverse_refuted :
  exists o o', o_reverse o <> o_reverse o' /\ forall c s, blocks_name c s o = blocks_name c s o'.
Proof. exact C71_reverse_refuted_pf. Qed.
Print Assumptions C71_reverse_refuted.

Theorem C71_neel :
  forall E N rand fs d tol mi nb fs' dc, embedding_neel E N rand fs d tol mi nb = (fs', Ok dc) ->
  let c := d_conf d in let own := peripheral_name c (s_of (d_bools d)) in
  exists dc0 gs u pR e, load_data fs (embedding_name c (s_of (d_bools d))) = Ok dc0 /\ first_column (e_vects (dc_eig dc0)) = Ok gs /\
    neel_surroundings E c = Ok u /\ neel_start E (nbh c) (nbv c) (nblocs_side c) = Ok pR /\
    neel_loop N (d_inter d) (d_diag d) tol nb rand (mkBasis c (dc_dets dc0)) u (dc_ham dc0) (2 * (nbh c + nbv c) * nblocs_side c) (Z.to_nat mi) 0 gs pR None = Ok e /\
    dc = mkDC d (dc_dets dc0) (dc_ham dc0) e None /\ g_guess (d_diag d) = None /\
    (complete dc -> exists r, load_data fs' own = Ok r /\ reloaded dc r) /\
    forall name, name <> own -> load_data fs' name = load_data fs name.
Proof. exact C71_neel_pf. Qed.
Print Assumptions C71_neel.

Theorem C71_neel_error :
  forall E N rand fs d tol mi nb fs' e, embedding_neel E N rand fs d tol mi nb = (fs', Err e) ->
  let own := peripheral_name (d_conf d) (s_of (d_bools d)) in
  fs' = fs \/ g_guess (d_diag d) <> None /\ e = TypeError /\ load_data fs' own = Err ValueError /\ forall name, name <> own -> load_data fs' name = load_data fs name.
Proof. exact C71_neel_error_pf. Qed.
Print Assumptions C71_neel_error.

Theorem C71_neel_missing :
  forall E N rand fs d tol mi nb e, load_data fs (embedding_name (d_conf d) (s_of (d_bools d))) = Err e ->
  embedding_neel E N rand fs d tol mi nb = (fs, Err e).
Proof. exact C71_neel_missing_pf. Qed.
Print Assumptions C71_neel_missing.

Theorem C71_neel_complete :
  forall E N rand fs d tol mi nb fs' dc, qr_shape N -> made (d_conf d) -> counts (d_conf d) -> 0 <= nb -> 0 <= g_dim_max (d_diag d) ->
  (forall k dim n, 0 <= dim -> tall (Z.to_nat dim) (rand k dim n)) ->
  embedding_neel E N rand fs d tol mi nb = (fs', Ok dc) -> shaped (nb_conf (d_conf d)) (dc_ham dc) -> complete dc.
Proof. exact C71_neel_complete_pf. Qed.
Print Assumptions C71_neel_complete.

Theorem C71_neel_works :
  forall E N rand fs d tol mi nb dc0 gs u pR e, let c := d_conf d in
  load_data fs (embedding_name c (s_of (d_bools d))) = Ok dc0 -> first_column (e_vects (dc_eig dc0)) = Ok gs ->
  neel_surroundings E c = Ok u -> neel_start E (nbh c) (nbv c) (nblocs_side c) = Ok pR ->
  neel_loop N (d_inter d) (d_diag d) tol nb rand (mkBasis c (dc_dets dc0)) u (dc_ham dc0) (2 * (nbh c + nbv c) * nblocs_side c) (Z.to_nat mi) 0 gs pR None = Ok e ->
  e_vals (dc_eig dc0) <> [] -> e_vals e <> [] -> g_guess (d_diag d) = None ->
  exists fs', embedding_neel E N rand fs d tol mi nb = (fs', Ok (mkDC d (dc_dets dc0) (dc_ham dc0) e None)).
Proof. exact C71_neel_works_pf. Qed.
Print Assumptions C71_neel_works.

Theorem C71_blocks :
  forall E N fs d tol mi o fs' out, embedding_blocks E N fs d tol mi o = (fs', Ok out) ->
  let c := d_conf d in let own := blocks_name c (s_of (d_bools d)) o in
  exists dc0 gs energy nb u full r,
    load_data fs (if o_neel o then peripheral_name c (s_of (d_bools d)) else embedding_name c (s_of (d_bools d))) = Ok dc0 /\
    first_column (e_vects (dc_eig dc0)) = Ok gs /\ py_get (e_vals (dc_eig dc0)) 0 = Ok energy /\
    neighbor_basis E (mkBasis c (dc_dets dc0)) (o_reverse o) = Ok nb /\ block_surroundings E c (b_conf nb) = Ok (u, full) /\
    block_loop E N (d_inter d) (d_diag d) o tol (mkBasis c (dc_dets dc0)) nb u full (dc_ham dc0) gs (Z.to_nat mi) gs energy None = Ok r /\
    match r with
    | None => out = None /\ fs' = fs
    | Some (h, e) => let dc := mkDC d (dc_dets dc0) h e None in
        out = Some dc /\ g_guess (d_diag d) = None /\ (complete dc -> exists x, load_data fs' own = Ok x /\ reloaded dc x) /\
        forall name, name <> own -> load_data fs' name = load_data fs name
    end.
Proof. exact C71_blocks_pf. Qed.
Print Assumptions C71_blocks.

Theorem C71_blocks_error :
  forall E N fs d tol mi o fs' e, embedding_blocks E N fs d tol mi o = (fs', Err e) ->
  let own := blocks_name (d_conf d) (s_of (d_bools d)) o in
  fs' = fs \/ g_guess (d_diag d) <> None /\ e = TypeError /\ load_data fs' own = Err ValueError /\ forall name, name <> own -> load_data fs' name = load_data fs name.
Proof. exact C71_blocks_error_pf. Qed.
Print Assumptions C71_blocks_error.

Theorem C71_blocks_missing :
  forall E N fs d tol mi o e,
  load_data fs (if o_neel o then peripheral_name (d_conf d) (s_of (d_bools d)) else embedding_name (d_conf d) (s_of (d_bools d))) = Err e ->
  embedding_blocks E N fs d tol mi o = (fs, Err e).
Proof. exact C71_blocks_missing_pf. Qed.
Print Assumptions C71_blocks_missing.

Theorem C71_blocks_complete :
  forall E N fs d tol mi o fs' dc, qr_shape N -> made (d_conf d) -> counts (d_conf d) -> 0 <= g_dim_max (d_diag d) ->
  (forall dc0, load_data fs (if o_neel o then peripheral_name (d_conf d) (s_of (d_bools d)) else embedding_name (d_conf d) (s_of (d_bools d))) = Ok dc0 ->
     csr_dim (dc_ham dc0) = nb_conf (d_conf d) /\ tall (Z.to_nat (nb_conf (d_conf d))) (e_vects (dc_eig dc0))) ->
  embedding_blocks E N fs d tol mi o = (fs', Ok (Some dc)) -> complete dc.
Proof. exact C71_blocks_complete_pf. Qed.
Print Assumptions C71_blocks_complete.

Theorem C71_blocks_works :
  forall E N fs d tol mi o dc0 gs energy nb u full r, let c := d_conf d in
  load_data fs (if o_neel o then peripheral_name c (s_of (d_bools d)) else embedding_name c (s_of (d_bools d))) = Ok dc0 ->
  first_column (e_vects (dc_eig dc0)) = Ok gs -> py_get (e_vals (dc_eig dc0)) 0 = Ok energy ->
  neighbor_basis E (mkBasis c (dc_dets dc0)) (o_reverse o) = Ok nb -> block_surroundings E c (b_conf nb) = Ok (u, full) ->
  block_loop E N (d_inter d) (d_diag d) o tol (mkBasis c (dc_dets dc0)) nb u full (dc_ham dc0) gs (Z.to_nat mi) gs energy None = Ok r -> g_guess (d_diag d) = None ->
  exists fs', embedding_blocks E N fs d tol mi o = (fs', Ok (option_map (fun r => mkDC d (dc_dets dc0) (fst r) (snd r) None) r)).
Proof. exact C71_blocks_works_pf. Qed.
Print Assumptions C71_blocks_works.

Theorem C71_chain :
  forall E N rand fs dc0 fs1 dc0' d tol mi nb fs2 dc, let c := d_conf d in let s := s_of (d_bools d) in
  complete dc0 -> save_data fs dc0 = (fs1, Ok dc0') -> embedding_name c s = file_of dc0 ->
  qr_shape N -> made c -> counts c -> nb_conf c = nb_conf (d_conf (dc_data dc0)) -> 0 <= nb -> 0 <= g_dim_max (d_diag d) ->
  (forall k dim n, 0 <= dim -> tall (Z.to_nat dim) (rand k dim n)) ->
  embedding_neel E N rand fs1 d tol mi nb = (fs2, Ok dc) ->
  complete dc /\ dc_dets dc = dc_dets dc0 /\ (forall i j, csr_at (dc_ham dc) i j = csr_at (dc_ham dc0) i j) /\
  (exists r, load_data fs2 (peripheral_name c s) = Ok r /\ reloaded dc r) /\ (exists r, load_data fs2 (embedding_name c s) = Ok r /\ reloaded dc0 r).
Proof. exact C71_chain_pf. Qed.
Print Assumptions C71_chain.

Theorem C71_source :
  forall E N rand fs d tol mi nb fs2 dc o mi' tol' fs3 out,
  let c := d_conf d in let s := s_of (d_bools d) in
  complete dc -> embedding_neel E N rand fs d tol mi nb = (fs2, Ok dc) -> o_neel o = true ->
  embedding_blocks E N fs2 d tol' mi' o = (fs3, Ok out) ->
  exists r gs energy nb u full, reloaded dc r /\ first_column (e_vects (dc_eig dc)) = Ok gs /\ py_get (e_vals (dc_eig dc)) 0 = Ok energy /\
    neighbor_basis E (mkBasis c (dc_dets dc)) (o_reverse o) = Ok nb /\ block_surroundings E c (b_conf nb) = Ok (u, full) /\
    exists x, block_loop E N (d_inter d) (d_diag d) o tol' (mkBasis c (dc_dets dc)) nb u full (dc_ham r) gs (Z.to_nat mi') gs energy None = Ok x /\
      (x = None <-> out = None) /\ load_data fs3 (peripheral_name c s) = Ok r.
Proof. exact C71_source_pf. Qed.
Print Assumptions C71_source.

(** a run on a square of four sites, its ring, then the block beside itself; then the same with a guess *)
Definition ex_emb_data (guess : option (list (list Qc))) : data :=
  mkData ex22 (mkInter 1 (qz 4) 1 1 1 1 1 1 (qz 2) (qz 3)) (mkDiag 1 100 (qfrac 1 1000) 0 guess) (mkBools (mkSwitches true true true true true true) true).
Definition ex_emb_run : data_computations :=
  mkDC (ex_emb_data None) ex22_basis (mkCsr 12 (map (fun k => (qz (k + 1), k, k)) (zrange 0 12))) (mkEig [1%Qc] [] [repeat 1%Qc 12]) (Some (mkTimes 1 1 1)).
Definition ex_emb_neel (fs : files) (guess : option (list (list Qc))) : files * res data_computations :=
  embedding_neel cpython ex_numerics (fun _ n _ => ex_rand n) fs (ex_emb_data guess) (qfrac 1 100) 9 1.
Definition ex_emb_blocks (fs : files) (neel : bool) (turns : Z) : files * res (option data_computations) :=
  embedding_blocks ex_clusters_runtime ex_numerics fs (ex_emb_data None) (qfrac 1 100) turns (mkOptions false neel true 0 true).
Definition kept (r : res data_computations) : option (list Q * list Q) :=
  match r with Ok dc => Some (map this (e_vals (dc_eig dc)), map (fun k => this (csr_at (dc_ham dc) k k)) [0; 1; 2; 3; 4]) | Err _ => None end.
Example C71_example : complete ex_emb_run /\ embedding_name ex22 (mkSwitches true true true true true true) = file_of ex_emb_run /\ qr_shape ex_numerics /\
  made ex22 /\ counts ex22 /\
  (let fs1 := fst (save_data [] ex_emb_run) in
   let '(fs2, r2) := ex_emb_neel fs1 None in
   let '(fs3, r3) := ex_emb_blocks fs2 true 9 in
   let '(fs4, r4) := ex_emb_blocks fs1 false 1 in
   let '(fs5, r5) := ex_emb_neel fs2 (Some []) in
   (map fst fs3, kept r2, map (fun name => kept (load_data fs3 name)) (map fst fs3), (map fst fs4, match r4 with Ok None => true | _ => false end),
    (match r5 with Err e => Some e | _ => None end, map (fun name => kept (load_data fs5 name)) (map fst fs5)))
   = (["tJHam-421Full.json"; "Peripheral_embedding/tJHam-421Full.json"; "Embedding_blocks/tJHam-neel-neigh-421Full.json"]%string,
      Some ([-7]%Q, [1; 2; 3; 4; 5]%Q), [Some ([1]%Q, [1; 2; 3; 4; 5]%Q); Some ([-7]%Q, [1; 2; 3; 4; 5]%Q); Some ([-1]%Q, [-1; 0; 3; 4; 5]%Q)],
      (["tJHam-421Full.json"]%string, true), (Some TypeError, [Some ([1]%Q, [1; 2; 3; 4; 5]%Q); None]))).
Proof.
  split.
  { split; [|split; [vm_compute; discriminate|]; split].
    - apply (ex_made _ 1 1 (RList []) Periodic 1 1 2); [reflexivity | vm_compute; discriminate | reflexivity].
    - split; [reflexivity|]. cbn [csr_entries ex_emb_run dc_ham]. intros x i j I. apply in_map_iff in I. destruct I as (k & Q & H). injection Q as _ <- <-.
      apply in_zrange in H. split; exact H.
    - repeat constructor. }
  split; [reflexivity|]. split; [exact ex_qr_shape|]. split; [apply (ex_made _ 1 1 (RList []) Periodic 1 1 2); [reflexivity | vm_compute; discriminate | reflexivity]|].
  split; [vm_compute; intuition congruence|]. vm_compute. reflexivity.
Qed.
