(** Final lemmas on the embedding in a ring: C21, C56, C58, C69. *)
From Coq Require Import ZArith List Bool QArith Qcanon Lia Permutation.
From Verif Require Import PyBase PyFacts Lattice Base Interact Ham Spin Prob Dav Files Emb Spec SpecTJ HamSpec SpinDefs ProbDefs Geometry EmbDefs.
From Verif Require Import PMat PRing PGeo FGeo PBasis PSpin PProb PHam PRep PWave PVec FSites FHam PDav PEmb PEmbRing PEmbNeel.
Import ListNotations.
Open Scope Z_scope.

(** ** C21 *)

Lemma C21_checkerboard_pf : forall E h v s, set_iter_ok E -> 1 <= h -> 1 <= v -> 1 <= s ->
  describes (2 * (s * h + s * v)) 0 (zlen (beta_neel h v s)) (det_neel E h v s) (fun r => checkerboard (ring_point (s * h) (s * v) r)).
Proof. intros E h v s HE Hh Hv Hs. exact (det_describes E h v s HE Hh Hv Hs). Qed.

Lemma C21_opposite_pf : forall p q, adjacent p q -> checkerboard p = flip_particle (checkerboard q).
Proof.
  intros [a b] [a' b'] A. unfold adjacent, checkerboard in *. cbn [fst snd] in *.
  assert (T : Z.odd (a + b) = negb (Z.odd (a' + b'))).
  { assert (exists k, a + b = Z.succ (a' + b') + 2 * k) as [k ->].
    { destruct (Z.eq_dec (a + b) (a' + b' + 1)); [exists 0; lia | exists (-1); lia]. }
    rewrite Z.odd_add_mul_2, Z.odd_succ, <- Z.negb_odd. reflexivity. }
  rewrite T. destruct (Z.odd (a' + b')); reflexivity.
Qed.

Lemma C21_start_pf : forall E h v s, set_iter_ok E -> 1 <= h -> 1 <= v -> 1 <= s ->
  exists p, neel_start E h v s = Ok p /\
    holds p (2 * (s * h + s * v)) (fun q r => only (samep (checkerboard (ring_point (s * h) (s * v) r)) q) 1%Qc).
Proof. intros E h v s HE Hh Hv Hs. exact (start_ok E h v s HE Hh Hv Hs). Qed.

(** ** C56 *)

Lemma dressed_at : forall I c l st u pos m around pR rho ham, listed (nsites c) (nholes c) (nbeta c) l st -> 0 <= nsites c -> nb_conf c = zlen l ->
  csr_dim ham = zlen l -> frame u (nsites c) pos m around -> holds pR m rho ->
  exists h, dress_neel I (mkBasis c l) u pR (csr_dim ham) (csr_entries ham) = Ok h /\
    forall i j, csr_at (mkCsr (csr_dim ham) h) i j =
      (csr_at ham i j + only ((0 <=? i) && (i <? zlen l) && (i =? j)) (facing I (nsites c) pos (st (Z.to_nat i)) m around rho))%Qc.
Proof.
  intros I c l st u pos m around pR rho ham Ls Hn Hc Hd F H.
  rewrite (dress_list I c l st u pos m around pR rho (csr_dim ham) (csr_entries ham) Ls Hn Hc Hd F H). eexists. split; [reflexivity|].
  intros i j. rewrite !csr_at_coo. cbn [csr_entries]. rewrite coo_at_app. f_equal.
  destruct (Z.leb_spec 0 i), (Z.ltb_spec i (zlen l)); cbn [andb].
  - exact (diagonal_at _ l (fun k => facing I (nsites c) pos (st k) m around rho) i j (conj H0 H1)).
  - apply (diagonal_out _ l (fun k => facing I (nsites c) pos (st k) m around rho)). lia.
  - apply (diagonal_out _ l (fun k => facing I (nsites c) pos (st k) m around rho)). lia.
  - apply (diagonal_out _ l (fun k => facing I (nsites c) pos (st k) m around rho)). lia.
Qed.

Lemma C56_dressing_pf : forall E c I l st pR rho ham, let w := nblocs_side c * nbh c in let ht := nblocs_side c * nbv c in
  set_iter_ok E -> sized c -> proper c -> 2 <= w -> 2 <= ht ->
  construct_basis c = Ok (mkBasis c l) -> listed (nsites c) (nholes c) (nbeta c) l st -> csr_dim ham = zlen l ->
  holds pR (2 * (w + ht)) rho ->
  exists u h, neel_surroundings E c = Ok u /\ dress_neel I (mkBasis c l) u pR (csr_dim ham) (csr_entries ham) = Ok h /\
    (forall i j, csr_at (mkCsr (csr_dim ham) h) i j =
      (csr_at ham i j + only ((0 <=? i) && (i <? zlen l) && (i =? j))
                             (facing I (nsites c) (point w) (st (Z.to_nat i)) (2 * (w + ht)) (ring_point w ht) rho))%Qc) /\
    ((forall i j, csr_at ham i j = csr_at ham j i) -> forall i j, csr_at (mkCsr (csr_dim ham) h) i j = csr_at (mkCsr (csr_dim ham) h) j i).
Proof.
  intros E c I l st pR rho ham w ht HE (Hh & Hv & Hs & HB & HN & _) P W2 H2 B Ls Hd H.
  destruct (neel_frame E c HE Hh Hv Hs HB HN W2 H2) as (u & Eu & F & _). exists u.
  destruct (basis_listed c l P B) as (_ & Ln & _).
  destruct (dressed_at I c l st u _ _ _ pR rho ham Ls (proper_n c P) (eq_sym Ln) Hd F H) as (h & Eh & At). exists h.
  split; [assumption|]. split; [assumption|]. split; [exact At|]. intros Sy i j. rewrite !At, Sy. f_equal.
  destruct (Z.eqb_spec i j) as [->|N]; [now rewrite Z.eqb_refl|]. assert (N' : (j =? i) = false) by (apply Z.eqb_neq; congruence).
  rewrite N', !andb_false_r. reflexivity.
Qed.

(** what one turn diagonalises *)
Lemma C56_turn_pf : forall N I g nb_val rand c l u ham pR e, neel_turn N I g nb_val rand (mkBasis c l) u ham pR = Ok e ->
  exists h k, dress_neel I (mkBasis c l) u pR (csr_dim ham) (csr_entries ham) = Ok h /\
    modified_davidson_algorithm N (csr_dense (mkCsr (csr_dim ham) h)) nb_val
      (rand (csr_dim ham) (Z.min nb_val (if g_dim_max g =? 0 then csr_dim ham else g_dim_max g))) (g_stp g) (g_tol g) (g_dim_max g) = Ok (k, e_vals e, e_vects e) /\
    e_spins e = [] /\ e_vals e <> [] /\ exists v, first_column (e_vects e) = Ok v.
Proof.
  intros N I g nb_val rand c l u ham pR e H. unfold neel_turn in H.
  destruct (dress_neel I (mkBasis c l) u pR (csr_dim ham) (csr_entries ham)) as [h|] eqn:Eh; [|discriminate]. cbn [bind] in H.
  unfold coo_to_csr in H. destruct (forallb _ h); [|discriminate]. cbn [bind csr_dim] in H.
  destruct (modified_davidson_algorithm _ _ _ _ _ _ _) as [[[k vals] vects]|] eqn:Ed; [|discriminate]. cbn [bind] in H.
  destruct (first_column vects) as [gs|] eqn:Eg; [|discriminate]. cbn [bind] in H.
  destruct vals as [|x vals]; [discriminate|].
  destruct (get_probability_spin_rectangular_lattice _ _ _); [|discriminate]. cbn [bind] in H.
  apply ok_eq in H. subst e. exists h, k. cbn [e_vals e_vects e_spins]. split; [reflexivity|]. split; [assumption|]. split; [reflexivity|].
  split; [discriminate|]. eauto.
Qed.

(** ** C58 *)

Section Loop.
Context {X R : Type}.
Lemma sc_first : forall (step : nat -> X -> R -> X -> Prop) close x out b,
  self_consistent step close x 0 out b <-> exists y, step O x out y /\ close x y b.
Proof.
  intros step close x out b. split.
  - intros (xs & rs & <- & <- & St & _ & C). exists (xs 1%nat). split; [apply St; lia | assumption].
  - intros (y & St & C). exists (fun k => match k with O => x | _ => y end), (fun _ => out). split; [reflexivity|]. split; [reflexivity|].
    split; [intros k Hk; replace k with O by lia; exact St|]. split; [intros k Hk; lia | exact C].
Qed.
Lemma sc_more : forall (step : nat -> X -> R -> X -> Prop) close x n out b,
  self_consistent step close x (S n) out b <-> exists r y, step O x r y /\ close x y false /\ self_consistent (fun k => step (S k)) close y n out b.
Proof.
  intros step close x n out b. split.
  - intros (xs & rs & <- & <- & St & Cl & C). exists (rs O), (xs 1%nat). split; [apply St; lia|]. split; [apply Cl; lia|].
    exists (fun k => xs (S k)), (fun k => rs (S k)). split; [reflexivity|]. split; [reflexivity|]. split; [intros k Hk; apply St; lia|].
    split; [intros k Hk; apply Cl; lia | exact C].
  - intros (r & y & S0 & C0 & xs & rs & <- & <- & St & Cl & C).
    exists (fun k => match k with O => x | S k => xs k end), (fun k => match k with O => r | S k => rs k end). split; [reflexivity|]. split; [reflexivity|].
    split; [|split].
    + intros [|k] Hk; [exact S0 | apply St; lia].
    + intros [|k] Hk; [exact C0 | apply Cl; lia].
    + exact C.
Qed.
Lemma sc_ext : forall (step step' : nat -> X -> R -> X -> Prop) close x n out b, (forall k u r v, step k u r v <-> step' k u r v) ->
  (self_consistent step close x n out b <-> self_consistent step' close x n out b).
Proof.
  intros step step' close x n out b H. split; intros (xs & rs & A & B & St & Cl); exists xs, rs; (split; [assumption|]); (split; [assumption|]);
    (split; [intros k Hk; apply H, St, Hk | exact Cl]).
Qed.
End Loop.

Definition neel_step (N : numerics) (I : interactions) (g : diagonalization) (nb_val : Z) (rand : Z -> Z -> Z -> list (list Qc)) (b : basis) (u : surroundings)
    (ham : csr) (rest : Z) (k : nat) (x : list Qc * list (Z * list Qc)) (e : eigenstates) (y : list Qc * list (Z * list Qc)) : Prop :=
  neel_turn N I g nb_val (rand (Z.of_nat k)) b u ham (snd x) = Ok e /\ first_column (e_vects e) = Ok (fst y) /\
  exists pL, get_spins_probabilitites_lattice b (fst y) false = Ok pL /\ mirror_frontier u pL (nsites (b_conf b)) rest = Ok (snd y).

Lemma neel_loop_iff : forall N I g tol nb_val rand b u ham rest e turns k gs pR last, 
  neel_loop N I g tol nb_val rand b u ham rest turns (Z.of_nat k) gs pR last = Ok e <->
  (turns = O /\ last = Some e) \/
  exists n r, (S n <= turns)%nat /\ (r = true \/ S n = turns) /\
    self_consistent (fun j => neel_step N I g nb_val rand b u ham rest (k + j)%nat) (fun x y b => settled N (fst y) (fst x) tol = Ok b) (gs, pR) n e r.
Proof.
  intros N I g tol nb_val rand b u ham rest e turns. induction turns as [|turns IH]; intros k gs pR last; cbn [neel_loop].
  - destruct last as [e'|]; split.
    + intros H. apply ok_eq in H. subst e'. now left.
    + intros [[_ H]|(n & r & H & _)]; [congruence | lia].
    + discriminate.
    + intros [[_ H]|(n & r & H & _)]; [congruence | lia].
  - replace (Z.of_nat k + 1) with (Z.of_nat (S k)) by lia. split.
    + intros H. right. destruct (neel_turn N I g nb_val (rand (Z.of_nat k)) b u ham pR) as [e1|] eqn:E1; [|discriminate]. cbn [bind] in H.
      destruct (first_column (e_vects e1)) as [new|] eqn:E2; [|discriminate]. cbn [bind] in H.
      destruct (get_spins_probabilitites_lattice b new false) as [pL|] eqn:E3; [|discriminate]. cbn [bind] in H.
      destruct (mirror_frontier u pL (nsites (b_conf b)) rest) as [pR'|] eqn:E4; [|discriminate]. cbn [bind] in H.
      destruct (settled N new gs tol) as [stop|] eqn:E5; [|discriminate]. cbn [bind] in H.
      assert (St : neel_step N I g nb_val rand b u ham rest k (gs, pR) e1 (new, pR')).
      { split; [exact E1|]. split; [exact E2|]. exists pL. split; assumption. }
      destruct stop.
      * apply ok_eq in H. subst e1. exists O, true. split; [lia|]. split; [now left|]. apply sc_first. exists (new, pR'). rewrite Nat.add_0_r. split; assumption.
      * apply IH in H. destruct H as [[-> H]|(n & r & L & C & H)].
        -- injection H as ->. exists O, false. split; [lia|]. split; [now right|]. apply sc_first. exists (new, pR'). rewrite Nat.add_0_r. split; assumption.
        -- exists (S n), r. split; [lia|]. split; [destruct C; [now left | right; lia]|]. apply sc_more. exists e1, (new, pR'). rewrite Nat.add_0_r.
           split; [exact St|]. split; [exact E5|]. revert H. apply sc_ext. intros j x e' y. now rewrite Nat.add_succ_r.
    + intros [[H _]|(n & r & L & C & H)]; [discriminate|]. destruct n as [|n].
      * apply sc_first in H. destruct H as ([new pR'] & (E1 & E2 & pL & E3 & E4) & E5). rewrite Nat.add_0_r in E1. cbn [fst snd] in *.
        rewrite E1. cbn [bind]. rewrite E2. cbn [bind]. rewrite E3. cbn [bind]. rewrite E4. cbn [bind]. rewrite E5. cbn [bind].
        destruct r; [reflexivity|]. destruct C as [C|C]; [discriminate|]. apply IH. left. split; [lia | reflexivity].
      * apply sc_more in H. destruct H as (e1 & [new pR'] & (E1 & E2 & pL & E3 & E4) & E5 & H). rewrite Nat.add_0_r in E1. cbn [fst snd] in *.
        rewrite E1. cbn [bind]. rewrite E2. cbn [bind]. rewrite E3. cbn [bind]. rewrite E4. cbn [bind]. rewrite E5. cbn [bind].
        apply IH. right. exists n, r. split; [lia|]. split; [destruct C; [now left | right; lia]|]. revert H. apply sc_ext. intros j x e' y. now rewrite Nat.add_succ_r.
Qed.

Lemma C58_neel_pf : forall N I g tol nb_val rand b u ham rest max_iter gs pR e,
  neel_loop N I g tol nb_val rand b u ham rest (Z.to_nat max_iter) 0 gs pR None = Ok e <->
  exists n r, Z.of_nat n < max_iter /\ (r = true \/ Z.of_nat n = max_iter - 1) /\
    self_consistent
      (fun k x e y => neel_turn N I g nb_val (rand (Z.of_nat k)) b u ham (snd x) = Ok e /\ first_column (e_vects e) = Ok (fst y) /\
         exists pL, get_spins_probabilitites_lattice b (fst y) false = Ok pL /\ mirror_frontier u pL (nsites (b_conf b)) rest = Ok (snd y))
      (fun x y b => settled N (fst y) (fst x) tol = Ok b) (gs, pR) n e r.
Proof.
  intros. change 0 with (Z.of_nat 0) at 1. rewrite neel_loop_iff. cbn [Nat.add]. split.
  - intros [[_ F]|(n & r & L & C & H)]; [discriminate|]. exists n, r. split; [lia|]. split; [destruct C; [now left | right; lia]|exact H].
  - intros (n & r & L & C & H). right. exists n, r. split; [lia|]. split; [destruct C; [now left | right; lia]|exact H].
Qed.

Lemma C58_neel_never_pf : forall N I g tol nb_val rand b u ham rest max_iter gs pR, max_iter <= 0 ->
  neel_loop N I g tol nb_val rand b u ham rest (Z.to_nat max_iter) 0 gs pR None = Err NameError.
Proof. intros. replace (Z.to_nat max_iter) with O by lia. reflexivity. Qed.

Lemma C58_settled_pf : forall N new old tol b, settled N new old tol = Ok b <->
  norm N old <> 0%Qc /\ (b = true <-> (norm N (vsub new old) / norm N old < tol)%Qc).
Proof.
  intros N new old tol b. unfold settled, fdiv.
  destruct (qeqb (norm N old) 0) eqn:Q; cbn [bind].
  - split; [discriminate|]. intros [F _]. exfalso. apply F. apply Qc_is_canon. now apply Qeq_bool_iff.
  - assert (NZ : norm N old <> 0%Qc) by (intros Z0; rewrite Z0 in Q; discriminate).
    assert (L : negb (qleb tol (norm N (vsub new old) / norm N old)) = true <-> (norm N (vsub new old) / norm N old < tol)%Qc).
    { rewrite negb_true_iff. unfold qleb. split.
      - intros H. apply Qcnot_le_lt. intros G. apply Qle_bool_iff in G. congruence.
      - intros H. apply not_true_iff_false. intros G. apply Qle_bool_iff in G. exact (Qclt_not_le _ _ H G). }
    split.
    + intros H. apply ok_eq in H. subst b. split; assumption.
    + intros [_ H]. f_equal. apply eq_true_iff_eq. rewrite L, H. tauto.
Qed.

Lemma block_loop_iff : forall E N I g o tol b nb u full ham first out turns gs energy last,
  block_loop E N I g o tol b nb u full ham first turns gs energy last = Ok out <->
  (turns = O /\ out = None /\ last <> None) \/
  exists n r res, (S n <= turns)%nat /\ (out = if r : bool then Some res else None) /\ (r = true \/ S n = turns) /\
    self_consistent
      (fun _ x r y => block_turn E N I g o b nb u full ham first (fst x) (snd x) = Ok r /\
         first_column (e_vects (snd r)) = Ok (fst y) /\ py_get (e_vals (snd r)) 0 = Ok (snd y))
      (fun x y b => settled N (fst y) (fst x) tol = Ok b) (gs, energy) n res r.
Proof.
  intros E N I g o tol b nb u full ham first out turns. induction turns as [|turns IH]; intros gs energy last; cbn [block_loop].
  - destruct last as [e'|]; split.
    + intros H. apply ok_eq in H. subst out. left. split; [reflexivity|]. split; [reflexivity | discriminate].
    + intros [(_ & -> & _)|(n & r & res & H & _)]; [reflexivity | lia].
    + discriminate.
    + intros [(_ & _ & H)|(n & r & res & H & _)]; [congruence | lia].
  - split.
    + intros H. right. destruct (block_turn E N I g o b nb u full ham first gs energy) as [e1|] eqn:E1; [|discriminate]. cbn [bind] in H.
      destruct (first_column (e_vects (snd e1))) as [new|] eqn:E2; [|discriminate]. cbn [bind] in H.
      destruct (py_get (e_vals (snd e1)) 0) as [en|] eqn:E3; [|discriminate]. cbn [bind] in H.
      destruct (settled N new gs tol) as [stop|] eqn:E5; [|discriminate]. cbn [bind] in H.
      destruct stop.
      * apply ok_eq in H. subst out. exists O, true, e1. split; [lia|]. split; [reflexivity|]. split; [now left|]. apply sc_first. exists (new, en). auto.
      * apply IH in H. destruct H as [(-> & -> & H)|(n & r & res & L & Q & C & H)].
        -- exists O, false, e1. split; [lia|]. split; [reflexivity|]. split; [now right|]. apply sc_first. exists (new, en). auto.
        -- exists (S n), r, res. split; [lia|]. split; [exact Q|]. split; [destruct C; [now left | right; lia]|]. apply sc_more. exists e1, (new, en).
           split; [auto|]. split; [exact E5|]. exact H.
    + intros [(H & _)|(n & r & res & L & -> & C & H)]; [discriminate|]. destruct n as [|n].
      * apply sc_first in H. destruct H as ([new en] & (E1 & E2 & E3) & E5). cbn [fst snd] in *.
        rewrite E1. cbn [bind]. rewrite E2. cbn [bind]. rewrite E3. cbn [bind]. rewrite E5. cbn [bind].
        destruct r; [reflexivity|]. destruct C as [C|C]; [discriminate|]. apply IH. left. split; [lia|]. split; [reflexivity | discriminate].
      * apply sc_more in H. destruct H as (e1 & [new en] & (E1 & E2 & E3) & E5 & H). cbn [fst snd] in *.
        rewrite E1. cbn [bind]. rewrite E2. cbn [bind]. rewrite E3. cbn [bind]. rewrite E5. cbn [bind].
        apply IH. right. exists n, r, res. split; [lia|]. split; [reflexivity|]. split; [destruct C; [now left | right; lia]|]. exact H.
Qed.

Lemma C58_blocks_pf : forall E N I g o tol b nb u full ham first max_iter gs energy out,
  block_loop E N I g o tol b nb u full ham first (Z.to_nat max_iter) gs energy None = Ok out <->
  exists n r res, Z.of_nat n < max_iter /\ (r = true \/ Z.of_nat n = max_iter - 1) /\ (out = if r : bool then Some res else None) /\
    self_consistent
      (fun _ x r y => block_turn E N I g o b nb u full ham first (fst x) (snd x) = Ok r /\
         first_column (e_vects (snd r)) = Ok (fst y) /\ py_get (e_vals (snd r)) 0 = Ok (snd y))
      (fun x y b => settled N (fst y) (fst x) tol = Ok b) (gs, energy) n res r.
Proof.
  intros. rewrite block_loop_iff. split.
  - intros [(_ & _ & F)|(n & r & res & L & Q & C & H)]; [congruence|]. exists n, r, res. split; [lia|].
    split; [destruct C; [now left | right; lia]|]. split; [exact Q | exact H].
  - intros (n & r & res & L & C & Q & H). right. exists n, r, res. split; [lia|]. split; [exact Q|]. split; [destruct C; [now left | right; lia]|exact H].
Qed.

Lemma C58_blocks_never_pf : forall E N I g o tol b nb u full ham first max_iter gs energy, max_iter <= 0 ->
  block_loop E N I g o tol b nb u full ham first (Z.to_nat max_iter) gs energy None = Err NameError.
Proof. intros. replace (Z.to_nat max_iter) with O by lia. reflexivity. Qed.

(** ** C70 *)

Lemma C70_mirror_pf : forall E c pL rhoL, let w := nblocs_side c * nbh c in let ht := nblocs_side c * nbv c in
  set_iter_ok E -> sized c -> 2 <= w -> 2 <= ht -> holds pL (nsites c) rhoL ->
  exists u pR near, neel_surroundings E c = Ok u /\ mirror_frontier u pL (nsites c) (2 * (w + ht)) = Ok pR /\
    (forall r, 0 <= r < 2 * (w + ht) -> 0 <= near r < nsites c /\ adjacent (point w (near r)) (ring_point w ht r) /\
       forall x, 0 <= x < nsites c -> adjacent (point w x) (ring_point w ht r) -> x = near r) /\
    holds pR (2 * (w + ht)) (fun q r => rhoL (flip_particle q) (near r)).
Proof.
  intros E c pL rhoL w ht HE (Hh & Hv & Hs & HB & HN & _) W2 H2 HL.
  destruct (neel_frame E c HE Hh Hv Hs HB HN W2 H2) as (u & Eu & F & IF). fold w ht in F, IF.
  pose proof (ring_n c Hh Hv Hs HB HN) as Nn. fold w ht in Nn.
  set (near := fun r => match find (fun x => bondb (point w x) (ring_point w ht r)) (zrange 0 (nsites c)) with Some x => x | None => 0 end).
  assert (NR : forall r, 0 <= r < 2 * (w + ht) -> 0 <= near r < nsites c /\ adjacent (point w (near r)) (ring_point w ht r) /\
       forall x, 0 <= x < nsites c -> adjacent (point w x) (ring_point w ht r) -> x = near r).
  { intros r Hr. assert (T : 0 <= near r < nsites c /\ adjacent (point w (near r)) (ring_point w ht r)).
    { unfold near. destruct (find _ _) as [x|] eqn:Fd.
      - apply find_some in Fd. destruct Fd as [A B]. apply in_zrange in A. apply bondb_iff in B. split; assumption.
      - exfalso. destruct (ring_touches c Hh Hv Hs r Hr) as (x & Hx & A). fold w ht in Hx, A.
        pose proof (find_none _ _ Fd x) as Q. cbv beta in Q. assert (In x (zrange 0 (nsites c))) by (apply in_zrange; lia).
        specialize (Q H). apply bondb_iff in A. congruence. }
    split; [apply T|]. split; [apply T|]. intros x Hx A. destruct T as [T1 T2]. rewrite Nn in *.
    exact (ring_unique c Hh Hv Hs r x (near r) Hr Hx T1 A T2). }
  destruct (mirror_ok u (nsites c) (point w) (2 * (w + ht)) (ring_point w ht) pL rhoL near F HL) as (pR & EP & HP).
  - lia.
  - intros r Hr. destruct (NR r Hr) as (A & B & C). split.
    + apply IF. split; [lia|]. exists r. split; assumption.
    + intros x Hx. rewrite bondb_iff. split; [now apply C | intros ->; exact B].
  - exists u, pR, near. split; [assumption|]. split; [assumption|]. split; assumption.
Qed.
