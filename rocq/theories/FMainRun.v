(** A run of the script that ends: the hypotheses of C83 can be met on the eighteen sites. *)
From Coq Require Import String ZArith List Bool QArith Qcanon Lia.
From Verif Require Import PyBase PyFacts Runtimes Lattice Base Interact Ham Spin Prob Dav Files Emb Display Main Spec SpecTJ SpinDefs HamSpec ProbDefs DavDefs FilesDefs DisplayDefs EmbDefs MainDefs
  PBasis PMat PProb PSpin PQc PVec PDavVec PDavIter PFiles PEmbNeel FBasis FDav FFiles FProb FDisplay FEmb FEmbBlock FEmbFiles FMain Examples.
Import ListNotations.
Open Scope Z_scope.

Definition ten_zeros : list Qc := repeat 0%Qc 10.
Definition ten_ones : cols := repeat [1%Qc] 10.
(** one column, the same ten values and vectors for every matrix, and a norm that sees one value only *)
Definition run_numerics (a : Qc) : numerics :=
  mkNumerics (fun _ => (ten_zeros, ten_ones)) (fun dim _ => [unit_vect dim 0]) (fun v => if qeqb (nth 0 v 0%Qc) a then 1%Qc else 0%Qc).

Lemma ten_lowest : get_lowests_eig ten_zeros ten_ones 10 = Ok (ten_zeros, ten_ones).
Proof. vm_compute. reflexivity. Qed.
Lemma ten_get : forall A (x : A) k, 0 <= k < 10 -> py_get (repeat x 10) k = Ok x.
Proof.
  intros A x k H. assert (L : (Z.to_nat k < 10)%nat) by lia. apply PyFacts.py_get_nth; [lia|].
  rewrite (nth_error_nth' _ x) by (now rewrite repeat_length). now rewrite nth_repeat.
Qed.
Lemma mapM_const : forall A B (f : A -> res B) y l, (forall x, In x l -> f x = Ok y) -> mapM f l = Ok (repeat y (length l)).
Proof.
  intros A B f y l. induction l as [|x l IH]; intros H; [reflexivity|]. cbn [mapM]. rewrite (H x (or_introl eq_refl)). cbn [bind].
  rewrite IH by (intros z Hz; apply H; now right). reflexivity.
Qed.
Lemma ten_residues : forall A W u, residues_of A W ten_zeros ten_ones (repeat u 10) 10 = Ok (repeat (vsub (vscale 0%Qc u) (mix (length A) W [1%Qc])) 10).
Proof.
  intros A W u. unfold residues_of. rewrite (mapM_const _ _ _ (vsub (vscale 0%Qc u) (mix (length A) W [1%Qc]))).
  - reflexivity.
  - intros k Hk. apply in_zrange in Hk. unfold ten_zeros, ten_ones. rewrite !ten_get by lia. reflexivity.
Qed.

Lemma one_mix : forall dim, mix dim [unit_vect dim 0] [1%Qc] = unit_vect dim 0.
Proof.
  intros dim. assert (T : tall dim [unit_vect dim 0]) by (constructor; [apply unit_length | constructor]).
  apply (nth_ext _ _ 0%Qc 0%Qc); [now rewrite mix_length, unit_length|]. intros i _. rewrite mix_nth by assumption. cbn [length seq]. rewrite qsum_cons, qsum_nil. cbn [nth]. ring.
Qed.

(** the residue of the only column *)
Definition run_residue (A : list vect) : vect := vsub (vscale 0%Qc (unit_vect (length A) 0)) (mix (length A) (map (mat_vect A) [unit_vect (length A) 0]) [1%Qc]).

Lemma run_davidson : forall a A guess stp tol dim_max, nth 0 (run_residue A) 0%Qc <> a -> 1 <= stp -> (0 <= tol)%Qc -> 10 <= dim_max ->
  modified_davidson_algorithm (run_numerics a) A 10 guess stp tol dim_max = Ok (true, ten_zeros, repeat (unit_vect (length A) 0) 10).
Proof.
  intros a A guess stp tol dim_max Ha Hs Ht Hd. unfold modified_davidson_algorithm. cbv zeta. unfold dav_dim_max. destruct (Z.eqb_spec dim_max 0) as [|_]; [lia|].
  rewrite Z.min_l by lia. unfold dav_first. change (1 <? 10) with true. cbv iota.
  destruct (Z.to_nat stp) as [|n] eqn:En; [lia|]. cbn [dav_loop]. unfold dav_step. cbv zeta.
  change (qr (run_numerics a) (length A) guess) with [unit_vect (length A) 0].
  cbn [run_numerics eigh norm].
  rewrite ten_lowest. cbn [bind].
  assert (Em : map (mix (length A) [unit_vect (length A) 0]) ten_ones = repeat (unit_vect (length A) 0) 10).
  { unfold ten_ones. cbn [repeat map]. now rewrite one_mix. }
  rewrite Em, ten_residues. cbn [bind].
  change (vsub (vscale 0%Qc (unit_vect (length A) 0)) (mix (length A) (map (mat_vect A) [unit_vect (length A) 0]) [1%Qc])) with (run_residue A).
  assert (F : forallb (fun r => qleb (if qeqb (nth 0 r 0%Qc) a then 1%Qc else 0%Qc) tol) (repeat (run_residue A) 10) = true).
  { apply forallb_forall. intros r Hr. apply repeat_spec in Hr. subst r. destruct (qeqb (nth 0 (run_residue A) 0%Qc) a) eqn:Q; [apply qeqb_eq in Q; contradiction|].
    unfold qleb. apply Qle_bool_iff. exact Ht. }
  rewrite F. reflexivity.
Qed.

Definition entries_in (n : Z) (h : coo) : Prop := forall x i j, In (x, i, j) h -> 0 <= i < n /\ 0 <= j < n.
Lemma add_coo_in : forall n h x i j h', entries_in n h -> add_coo n h x i j = Ok h' -> entries_in n h'.
Proof.
  intros n h x i j h' H Q. unfold add_coo in Q. destruct ((0 <=? i) && (i <? n) && (0 <=? j) && (j <? n)) eqn:B; [|discriminate]. injection Q as <-.
  rewrite !andb_true_iff, !Z.leb_le, !Z.ltb_lt in B. intros y k m I. unfold add_ham_coo in I. apply in_app_iff in I. destruct I as [I|[I|[]]]; [now apply (H y)|]. injection I as <- <- <-. lia.
Qed.
Lemma foldM_inv : forall A B (P : A -> Prop) (f : A -> B -> res A) l a a', (forall a x a', P a -> f a x = Ok a' -> P a') -> P a -> foldM f a l = Ok a' -> P a'.
Proof.
  intros A B P f l. induction l as [|x l IH]; intros a a' Hf Pa Q; cbn [foldM] in Q; [now injection Q as <-|].
  apply bind_ok_inv in Q. destruct Q as (b & Q1 & Q2). apply (IH b a' Hf); [now apply (Hf a x) | assumption].
Qed.
Lemma dress_in : forall I b u pR n ham h, entries_in n ham -> dress_neel I b u pR n ham = Ok h -> entries_in n h.
Proof.
  intros I b u pR n ham h H Q. unfold dress_neel in Q. refine (foldM_inv _ _ (entries_in n) _ _ _ _ _ H Q). intros a [k d] a' Pa S1. cbn [fst snd] in S1.
  apply bind_ok_inv in S1. destruct S1 as (v & _ & S1). apply bind_ok_inv in S1. destruct S1 as (pA & _ & S1). apply bind_ok_inv in S1. destruct S1 as (x & _ & S1).
  exact (add_coo_in _ _ _ _ _ _ Pa S1).
Qed.
Lemma csr_in : forall n h, entries_in n h -> coo_to_csr n h = Ok (mkCsr n h).
Proof.
  intros n h H. unfold coo_to_csr. assert (F : forallb (fun p : Qc * Z * Z => let '(_, r, c) := p in (0 <=? r) && (r <? n) && (0 <=? c) && (c <? n)) h = true).
  { apply forallb_forall. intros [[x i] j] Hx. apply H in Hx. rewrite !andb_true_iff, !Z.leb_le, !Z.ltb_lt. lia. }
  now rewrite F.
Qed.
Lemma dense_length : forall n h, 0 <= n -> length (csr_dense (mkCsr n h)) = Z.to_nat n.
Proof. intros n h H. unfold csr_dense. cbn [csr_dim]. rewrite map_length, zrange_length. f_equal. lia. Qed.

Lemma run_exists : forall E d l st ham sc_tol, let c := d_conf d in
  set_iter_ok E -> sized c -> proper c -> 2 <= nblocs_side c * nbh c -> 2 <= nblocs_side c * nbv c ->
  construct_basis c = Ok (mkBasis c l) -> listed (nsites c) (nholes c) (nbeta c) l st -> l <> [] ->
  csr_dim ham = zlen l -> entries_in (zlen l) (csr_entries ham) ->
  1 <= g_stp (d_diag d) -> (0 <= g_tol (d_diag d))%Qc -> 10 <= g_dim_max (d_diag d) -> (0 < sc_tol)%Qc ->
  exists N gs, length gs = length l /\
    forall fs dc0 rand, load_data fs (embedding_name c (s_of (d_bools d))) = Ok dc0 -> dc_dets dc0 = l -> dc_ham dc0 = ham -> dc_eig dc0 = mkEig [0%Qc] [] [gs] ->
    embedded_neel E N rand fs d sc_tol 1000 10 = Ok (mkDC d l ham (mkEig ten_zeros [] (repeat (unit_vect (length l) 0) 10)) None).
Proof.
  intros E d l st ham sc_tol c HE HS HP W2 H2 HB HL Hl HD HI G1 G2 G3 G4.
  pose proof HS as (Hh & Hv & Hs & HBm & HN & HT).
  assert (Nn : nsites c = (nblocs_side c * nbh c) * (nblocs_side c * nbv c)).
  { destruct (rect_is (nbh c) (nbv c) (nblocs_side c) Hh Hv Hs) as (m & Em & (R & _)). rewrite Em in HBm. injection HBm as Qm. rewrite HN, <- Qm. exact R. }
  destruct (FEmb.C21_start_pf E (nbh c) (nbv c) (nblocs_side c) HE Hh Hv Hs) as (pR & ER & HR).
  assert (Er : 2 * (nblocs_side c * nbh c + nblocs_side c * nbv c) = 2 * (nbh c + nbv c) * nblocs_side c) by ring.
  destruct (C56_dressing_pf E c (d_inter d) l st pR _ ham HE HS HP W2 H2 HB HL HD HR) as (u & h & EU & EH & _ & _).
  set (n := length l). assert (Hn : (0 < n)%nat) by (destruct l; [congruence | cbn in n; lia]).
  assert (Zn : zlen l = Z.of_nat n) by reflexivity.
  rewrite HD in EH.
  assert (Ih : entries_in (zlen l) h) by (exact (dress_in _ _ _ _ _ _ _ HI EH)).
  set (A := csr_dense (mkCsr (zlen l) h)).
  assert (LA : length A = n) by (unfold A; rewrite dense_length by lia; lia).
  set (r0 := nth 0 (run_residue A) 0%Qc).
  assert (Ha : exists a, r0 <> a /\ (1 - a)%Qc <> a).
  { destruct (Qc_eq_dec r0 1%Qc) as [->|Q]; [exists (qz 2) | exists 1%Qc]; (split; [|vm_compute]); try discriminate; assumption. }
  destruct Ha as (a & Ha1 & Ha2).
  exists (run_numerics a), (repeat a n). split; [apply repeat_length|]. intros fs dc0 rand L0 E1 E2 E3.
  unfold embedded_neel. fold c. rewrite L0. cbn [bind]. rewrite E1, E2, E3. cbn [e_vects e_vals first_column bind]. rewrite EU. cbn [bind]. rewrite ER. cbn [bind].
  set (new := unit_vect n 0). assert (Ln : length new = length l) by apply unit_length.
  assert (In0 : inner new new <> 0%Qc) by (unfold new; rewrite unit_inner by assumption; discriminate).
  assert (Tn : neel_turn (run_numerics a) (d_inter d) (d_diag d) 10 (rand 0) (mkBasis c l) u ham pR = Ok (mkEig ten_zeros [] (repeat new 10))).
  { unfold neel_turn. rewrite HD, EH. cbn [bind]. rewrite (csr_in _ _ Ih). cbn [bind csr_dim]. fold A. rewrite (run_davidson a A) by assumption. rewrite LA. cbn [bind].
    change (first_column (repeat (unit_vect n 0) 10)) with (Ok new : res vect). cbn [bind].
    destruct (C43_map_pf c l st new Hole HL Ln In0 HT) as (rows & pr & _ & Q & _); [nia | nia | nia |]. change (spin_code Hole) with 0 in Q. rewrite Q. reflexivity. }
  destruct (C70_wave_pf c l st new false HL Ln In0 ltac:(nia)) as (pL & EL & HpL).
  destruct (C70_mirror_pf E c pL _ HE HS W2 H2 HpL) as (u' & pR' & near & EU' & EM & _). rewrite EU in EU'. injection EU' as <-. rewrite Er in EM.
  assert (St : settled (run_numerics a) new (repeat a n) sc_tol = Ok true).
  { unfold settled. cbn [run_numerics norm]. assert (N1 : nth 0 (repeat a n) 0%Qc = a) by (destruct n; [lia | reflexivity]).
    assert (N2 : nth 0 (vsub new (repeat a n)) 0%Qc = (1 - a)%Qc).
    { unfold vsub. rewrite nth_vadd by (rewrite vscale_length, repeat_length; apply unit_length). rewrite nth_vscale, N1. unfold new. rewrite unit_nth by assumption. cbn [Nat.eqb]. ring. }
    rewrite N1, N2. assert (Q1 : qeqb a a = true) by (now apply qeqb_eq). rewrite Q1. destruct (qeqb (1 - a)%Qc a) eqn:Q2; [apply qeqb_eq in Q2; contradiction|].
    unfold fdiv. change (qeqb 1 0) with false. cbv iota. cbn [bind]. f_equal. apply negb_true_iff. unfold qleb. destruct (Qle_bool sc_tol (0 / 1)%Qc) eqn:Q; [|reflexivity].
    apply Qle_bool_iff in Q. exfalso. apply (Qclt_not_le _ _ G4). exact Q. }
  assert (Ex : exists m, Z.to_nat 1000 = S m) by (exists 999%nat; reflexivity). destruct Ex as (m & ->). cbn [neel_loop]. rewrite Tn. cbn [bind e_vects]. change (first_column (repeat new 10)) with (Ok new : res vect). cbn [bind].
  rewrite EL. cbn [bind b_conf]. rewrite EM. cbn [bind]. rewrite St. cbn [bind]. reflexivity.
Qed.

(** a file with the determinants, no interaction and one state *)
Lemma run_file : forall name c I g b l gs, made c -> 1 <= nb_conf c -> length gs = Z.to_nat (nb_conf c) ->
  exists c', load_data [(name, Some (embedded_to_json (mkDC (mkData c I g b) l (mkCsr (nb_conf c) []) (mkEig [0%Qc] [] [gs]) None)))] name =
    Ok (mkDC (mkData c' I (with_guess g None) b) l (mkCsr (nb_conf c) []) (mkEig [0%Qc] [] [gs]) None).
Proof.
  intros name c I g b l gs M P L. destruct (configuration_back c _ M eq_refl) as (c' & RC & _ & _ & _ & NB). exists c'.
  unfold load_data. replace (fs_get _ name) with (Some (Some (embedded_to_json (mkDC (mkData c I g b) l (mkCsr (nb_conf c) []) (mkEig [0%Qc] [] [gs]) None)))).
  2:{ symmetry. exact (fs_get_same [] name _). }
  unfold embedded_to_json.
  cbn [dc_data dc_dets dc_ham dc_eig dc_times d_conf d_inter d_diag d_bools csr_dim jobj bind].
  unfold recover_results. cbn [jarg jfield find fst snd option_map String.eqb Ascii.eqb Bool.eqb bind jobj].
  rewrite jintss_ok. cbn [bind].
  unfold configuration_to_json, interactions_to_json, diagonalization_to_json, bools_to_json, hamiltonian_to_json, eigenstates_to_json. cbn [jobj bind].
  rewrite RC. cbn [bind].
  rewrite (interactions_back I _ eq_refl). cbn [bind].
  rewrite (diagonalization_back g _ eq_refl). cbn [bind].
  rewrite (bools_back b _ eq_refl). cbn [bind].
  rewrite NB. cbn [bind jint].
  pose proof (hamiltonian_back (mkCsr (nb_conf c) []) _ ltac:(cbn [csr_dim]; lia) eq_refl) as HH. cbn [csr_dim] in HH. rewrite HH. clear HH. cbn [bind].
  pose proof (eigenstates_back (nb_conf c) (mkEig [0%Qc] [] [gs]) _ P ltac:(constructor; [exact L | constructor]) eq_refl) as HH. cbn [e_vals e_spins e_vects] in HH |- *. rewrite HH. clear HH. cbn [bind].
  replace (back_entries (mkCsr (nb_conf c) [])) with ([] : coo); [reflexivity|]. unfold back_entries. cbn [csr_dim].
  induction (zrange 0 (nb_conf c)) as [|x t IH]; [reflexivity|]. cbn [map concat]. now rewrite <- IH.
Qed.

Lemma ending_ok : forall fs p0 ed c last dc0 fs' dc c' p, p0 = Ok dc0 -> ed = (fs', Ok dc) -> last = Ok c' -> print_results c dc = Ok p -> ending fs p0 ed c last = (fs', Ok p).
Proof. intros fs p0 ed c last dc0 fs' dc c' p -> -> -> H. cbn [ending bind]. rewrite H. reflexivity. Qed.

Lemma C83_run_pf : forall E, set_iter_ok E -> exists N rand fs fs' p, main_script E N rand fs = (fs', Ok p).
Proof.
  intros E HE. destruct (rectangle_ok 2 1 3 2 8) as (c & Rc & R); try lia.
  assert (Hc : main_inputs = Ok c).
  { destruct inputs_ok as (c' & Hc' & Rc' & _). rewrite Rc in Rc'. injection Rc' as <-. exact Hc'. }
  pose proof (rectangle_proper _ _ _ _ _ _ R ltac:(lia) ltac:(lia) ltac:(lia)) as HP.
  pose proof R as (Rm & Rn & Rh & Rb & Ra & Rd & Rr & Rt & R1 & R2 & R3).
  assert (HS : sized c).
  { unfold sized. rewrite R1, R2, R3, Rm. destruct (rect_is 2 1 3 ltac:(lia) ltac:(lia) ltac:(lia)) as (m & Em & (Q & _)). rewrite Em in Rm. injection Rm as <-.
    rewrite Q. repeat split; try lia; assumption. }
  assert (HM : made c).
  { destruct (rect_is 2 1 3 ltac:(lia) ltac:(lia) ltac:(lia)) as (m & Em & (Q & Q' & _)). pose proof Rm as Rm'. rewrite Em in Rm'. injection Rm' as Qm. rewrite Qm in Q, Q'.
    split; [congruence|]. split; [rewrite Q; lia|]. unfold rectangle in Rc. rewrite Em in Rc. cbn [bind] in Rc. rewrite Qm in Rc. repeat eexists. exact Rc. }
  destruct (C01_basis_enumerates_pf c) as (l & Bl & _); [apply HP | apply HP | lia |].
  destruct (basis_listed c l HP Bl) as (_ & Zl & Ll).
  assert (Nb : nb_conf c = 1969110).
  { rewrite Rd, Ra, Rb, Rn. vm_compute. reflexivity. }
  assert (Hl : l <> []) by (intros ->; unfold zlen in Zl; cbn in Zl; lia).
  destruct (run_exists E (data_18 c) l (fun k => FSites.state_of c (nth k l [])) (mkCsr (nb_conf c) []) (qfrac 1 1000000) HE HS HP) as (N & gs & Lg & HN).
  { change (d_conf (data_18 c)) with c. rewrite R1, R3. lia. }
  { change (d_conf (data_18 c)) with c. rewrite R2, R3. lia. }
  { exact Bl. }
  { exact Ll. }
  { exact Hl. }
  { now rewrite Zl. }
  { intros x i j []. }
  { cbn. lia. }
  { vm_compute. discriminate. }
  { cbn. lia. }
  { vm_compute. reflexivity. }
  assert (Lg' : length gs = Z.to_nat (nb_conf c)) by (rewrite Lg; unfold zlen in Zl; lia).
  destruct (run_file "tJHam-1888Full.json" c (d_inter (data_18 c)) (d_diag (data_18 c)) (d_bools (data_18 c)) l gs HM ltac:(lia) Lg') as (c' & HF).
  set (fs := [("tJHam-1888Full.json"%string, Some (embedded_to_json (mkDC (mkData c (d_inter (data_18 c)) (d_diag (data_18 c)) (d_bools (data_18 c))) l (mkCsr (nb_conf c) []) (mkEig [0%Qc] [] [gs]) None)))]) in *.
  change (d_conf (data_18 c)) with c in HN. rewrite (name_18 c R) in HN.
  specialize (HN fs _ (fun _ _ _ => []) HF eq_refl eq_refl eq_refl).
  set (v := unit_vect (length l) 0) in *.
  assert (HE2 : exists fs', embedding_neel E N (fun _ _ _ => []) fs (data_18 c) (qfrac 1 1000000) 1000 10 = (fs', Ok (mkDC (data_18 c) l (mkCsr (nb_conf c) []) (mkEig ten_zeros [] (repeat v 10)) None))).
  { exists (fs_put fs (peripheral_name (d_conf (data_18 c)) (s_of (d_bools (data_18 c)))) (Some (embedded_to_json (mkDC (data_18 c) l (mkCsr (nb_conf c) []) (mkEig ten_zeros [] (repeat v 10)) None)))).
    unfold embedding_neel. rewrite HN. unfold save_embedded. reflexivity. }
  destruct HE2 as (fs' & HE2).
  assert (Pr : exists p, print_results c (mkDC (data_18 c) l (mkCsr (nb_conf c) []) (mkEig ten_zeros [] (repeat v 10)) None) = Ok p).
  { unfold print_results. cbn [dc_eig dc_dets e_vals e_vects]. change (py_get ten_zeros 0) with (Ok 0%Qc : res Qc). cbn [bind]. change (first_column (repeat v 10)) with (Ok v : res vect). cbn [bind].
    assert (Lv : length v = length l) by apply unit_length.
    destruct (C45_most_dominant_pf v l 50 ltac:(lia)) as (idx & La & _ & Q). rewrite Q. cbn [bind].
    edestruct (mapM_some _ _ (fun p : Z * Qc * det => t <- get_displayable_rectangular_lattice (AsConf c) (snd p) ;; Ok (fst p, t)) (map (fun i => ((Z.of_nat i, nth i v 0%Qc), nth i l [])) idx)) as (ls & ->).
    - intros q Hq. apply in_map_iff in Hq. destruct Hq as (i & <- & Hi). destruct La as (_ & B & _). specialize (B i Hi). cbn [snd fst].
      rewrite (C61_rectangle_pf c (nth i l []) (FSites.state_of c (nth i l [])) 6 3).
      + cbn [bind]. eauto.
      + rewrite R1, R3. reflexivity.
      + rewrite R2, R3. reflexivity.
      + lia.
      + lia.
      + lia.
      + apply (Ll i). apply nth_error_nth'. lia.
    - cbn [bind]. eauto. }
  destruct Pr as (p & Pr).
  destruct (rectangle_ok 1 2 3 2 8) as (c81 & E81 & _); try lia.
  exists N, (fun _ _ _ => []), fs, fs', p. exact (eq_trans (script_ending E N _ fs c Hc) (ending_ok _ _ _ _ _ _ _ _ _ _ HF HE2 E81 Pr)).
Qed.
