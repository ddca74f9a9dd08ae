(** Theorems on the states with real amplitudes (C104-C109).  They use the axioms of the real numbers of the standard library. *)
From Coq Require Import ZArith List Bool QArith Qcanon Reals Qreals Lra.
From Verif Require Import PyBase PyFacts Runtimes Lattice Base Interact Ham Spin Prob Dav Files Spec SpecOps SpecTJ SpecSpin SpinDefs Geometry HamSpec SignDefs EnergyDefs RangeDefs TraceDefs ShiftDefs DrawnDefs VarDefs LevelDefs RealSum RealDefs
  PSpin FInter PQc FSign FTop FDrawn FEnergy FTrace FRange FDav FLevels FFerro PReal PRealQ FReal FReal2 FReal3 FReal4 FReal5 FReal7 Examples Thm_Sign Thm_Trace Thm_Range Thm_Shift DavDefs.
Import ListNotations.
Open Scope R_scope.

(** C104 *)
Theorem C104_states :
  forall E c pos r K S arg l m, set_iter_ok E -> filled_drawn E c pos r -> assembled E c K S arg l m ->
  dimension m = length l /\ (exists e v, all_states m e v) /\
  (forall e v x u, all_states m e v -> energy_state m x u -> exists k, (k < dimension m)%nat /\ e k = x) /\
  (forall e v e' v' k, all_states m e v -> all_states m e' v' -> (k < dimension m)%nat -> e k = e' k).
Proof. exact C104_states_pf. Qed.
Print Assumptions C104_states.

Theorem C104_rational :
  forall m e v, (0 <= csr_dim m)%Z -> zlen v = csr_dim m -> (eigenvector m e v <-> energy_state m (real e) (reals v)).
Proof. exact C104_rational_pf. Qed.
Print Assumptions C104_rational.

Theorem C104_ground :
  forall E c pos r K S arg l m, set_iter_ok E -> filled_drawn E c pos r -> assembled E c K S arg l m -> (0 < length l)%nat ->
  exists e, ground_energy m e /\ (forall e', ground_energy m e' -> e' = e) /\
    (forall x, lowest m x <-> real x <= e) /\
    (forall u, e * rsum (dimension m) (fun i => u i * u i) <= rsum (dimension m) (fun i => u i * rsum (dimension m) (fun j => element m i j * u j))).
Proof. exact C104_ground_pf. Qed.
Print Assumptions C104_ground.

Theorem C104_sum :
  forall E c w K S arg l m e v, set_iter_ok E -> filled_whole c w -> assembled E c K S arg l m -> one_exchange c K \/ s_bz S = false -> all_states m e v ->
  let h := (nsites c / w)%Z in
  rsum (dimension m) e = real (csr_trace m) /\
  IZR (nsites c * (nsites c - 1)) * rsum (dimension m) e = IZR (csr_dim m) * real (mean_energy K S (nholes c) (nalpha c) (nbeta c) (grid_bonds w h) (grid_diagonals w h)).
Proof. exact C104_sum_pf. Qed.
Print Assumptions C104_sum.

(** An up and two holes in a row, with hops only: the energies are -sqrt 2, 0 and sqrt 2, so two of the three are not rational. *)
Definition hop_conf : configuration := ex_rect 3 1 1 2 0.
Definition hop_basis : list (list Z) := [[0; 1; 2]; [0; 2; 1]; [1; 2; 0]]%Z.
Definition hop_switches : switches := mkSwitches true false false false false false.
Definition hop_ham : csr := get (mkCsr 0 []) (build_hamiltonian cpython hop_conf ex_couplings (mkBasis hop_conf hop_basis) hop_switches (RList [])).
Definition hop_energy (k : nat) : R := match k with 0%nat => - sqrt 2 | 1%nat => 0 | _ => sqrt 2 end.
Definition hop_vector (k i : nat) : R :=
  match k, i with
  | 0%nat, 0%nat => / 2 | 0%nat, 1%nat => - sqrt 2 / 2 | 0%nat, _ => / 2
  | 1%nat, 0%nat => sqrt 2 / 2 | 1%nat, 1%nat => 0 | 1%nat, _ => - sqrt 2 / 2
  | _, 0%nat => / 2 | _, 1%nat => sqrt 2 / 2 | _, _ => / 2
  end.
Definition hop_rows : list (list Z) := [[0; 1; 0]; [1; 0; 1]; [0; 1; 0]]%Z.
Lemma hop_filled : filled_whole hop_conf 3.
Proof. split; [exists 3%Z, 1%Z, 1%Z; vm_compute; repeat (split; [congruence|]); reflexivity|]. split; [reflexivity|]. vm_compute. intuition congruence. Qed.
Lemma hop_element : forall i j, (i < 3)%nat -> (j < 3)%nat -> element hop_ham i j = IZR (nth j (nth i hop_rows []) 0%Z).
Proof.
  intros i j Hi Hj. unfold element. rewrite <- real_qz. f_equal.
  assert (G : forallb (fun i => forallb (fun j => if Qc_eq_dec (csr_at hop_ham (Z.of_nat i) (Z.of_nat j)) (qz (nth j (nth i hop_rows []) 0%Z)) then true else false) (seq 0 3)) (seq 0 3) = true) by (vm_compute; reflexivity).
  rewrite forallb_forall in G. specialize (G i ltac:(apply in_seq; Lia.lia)). rewrite forallb_forall in G. specialize (G j ltac:(apply in_seq; Lia.lia)). cbv beta in G. destruct (Qc_eq_dec _ _); [assumption | discriminate G].
Qed.
Lemma hop_states : all_states hop_ham hop_energy hop_vector.
Proof.
  assert (D : dimension hop_ham = 3%nat) by (vm_compute; reflexivity). unfold all_states, energy_state. rewrite D. pose proof (sqrt_sqrt 2 ltac:(lra)) as Q. assert (P : 0 < sqrt 2) by (apply sqrt_lt_R0; lra).
  split; [|split].
  - intros k Hk. destruct k as [|[|[|k]]]; [| | |exfalso; Lia.lia]; (split; [exists 0%nat; split; [Lia.lia | cbn; lra]|]); intros i Hi; cbn [rsum]; rewrite !hop_element by Lia.lia;
      (destruct i as [|[|[|i]]]; [| | |exfalso; Lia.lia]); cbn [hop_rows nth hop_vector hop_energy]; lra.
  - intros k k' Hk Hk'. destruct k as [|[|[|k]]]; [| | |exfalso; Lia.lia]; (destruct k' as [|[|[|k']]]; [| | |exfalso; Lia.lia]); cbn [rsum hop_vector Nat.eqb]; lra.
  - intros k k' Hkk Hk'. destruct k as [|[|[|k]]]; [| | |exfalso; Lia.lia]; (destruct k' as [|[|[|k']]]; [| | |exfalso; Lia.lia]); cbn [hop_energy]; try (exfalso; Lia.lia); lra.
Qed.
Example C104_example : set_iter_ok cpython /\ filled_drawn cpython hop_conf (point 3) (zrange 0 3) /\ assembled cpython hop_conf ex_couplings hop_switches (RList []) hop_basis hop_ham /\
  (0 < length hop_basis)%nat /\ all_states hop_ham hop_energy hop_vector /\ ground_energy hop_ham (- sqrt 2) /\ (s_bz hop_switches = false /\ rsum 3 hop_energy = 0) /\
  eigenvector hop_ham 0 (map qz [1; 0; -1]%Z).
Proof.
  assert (F : filled_drawn cpython hop_conf (point 3) (zrange 0 3)) by exact (proj1 (C103_rectangle_pf cpython hop_conf 3 (zrange 0 3) ex_couplings hop_switches hop_filled)).
  assert (A : assembled cpython hop_conf ex_couplings hop_switches (RList []) hop_basis hop_ham) by (split; vm_compute; reflexivity).
  split; [exact cpython_ok|]. split; [exact F|]. split; [exact A|]. split; [cbn; Lia.lia|]. split; [exact hop_states|].
  split; [exact (ground_first hop_ham hop_energy hop_vector (proj1 (mirrored_drawn _ _ _ _ _ _ _ _ _ cpython_ok F A)) hop_states ltac:(vm_compute; Lia.lia))|].
  split; [split; [reflexivity | cbn [rsum hop_energy]; lra]|]. split; [reflexivity|]. split; [apply this_list; vm_compute; reflexivity|]. exists (qz 1). split; [now left | discriminate].
Qed.

(** C105 *)
Theorem C105_range :
  forall E c w r K S arg l m z x v, set_iter_ok E -> filled c w r -> assembled E c K S arg l m -> couplings_within z K -> energy_state m x v ->
  Rabs x <= real (energy_bound z S (nholes c) (grid_bonds w (nsites c / w))).
Proof. exact C105_range_pf. Qed.
Print Assumptions C105_range.

Theorem C105_exchanges :
  forall E c w r K S arg l m Jm x v, set_iter_ok E -> filled c w r -> assembled E c K S arg l m -> exchanges_only c K S Jm -> energy_state m x v ->
  - (real Jm * IZR (grid_bonds w (nsites c / w))) <= x <= 0.
Proof. exact C105_exchanges_pf. Qed.
Print Assumptions C105_exchanges.

Theorem C105_tj :
  forall E c w r K S arg l m Jm tm x v, set_iter_ok E -> filled c w r -> assembled E c K S arg l m -> hops_and_exchanges K S Jm tm -> energy_state m x v ->
  - (real Jm * IZR (grid_bonds w (nsites c / w)) + IZR (4 * nholes c) * real tm) <= x <= IZR (4 * nholes c) * real tm.
Proof. exact C105_tj_pf. Qed.
Print Assumptions C105_tj.

Theorem C105_neel :
  forall E c w K S arg l m e, set_iter_ok E -> filled_whole c w -> assembled E c K S arg l m -> nholes c = 0%Z ->
  (nbeta c = nsites c / 2 \/ nbeta c = nsites c - nsites c / 2)%Z -> s_bz S = true -> ground_energy m e ->
  e <= - (real (i_J K) * IZR (grid_bonds w (nsites c / w)) / 2).
Proof. exact C105_neel_pf. Qed.
Print Assumptions C105_neel.

Theorem C105_couplings :
  forall E c w r K K' S arg l m m' z e v e' v' k, set_iter_ok E -> filled c w r -> assembled E c K S arg l m -> assembled E c K' S arg l m' ->
  couplings_within z (combine_couplings 1 (- (1))%Qc K' K) -> all_states m e v -> all_states m' e' v' -> (k < dimension m)%nat ->
  Rabs (e' k - e k) <= real (energy_bound z S (nholes c) (grid_bonds w (nsites c / w))).
Proof. exact C105_couplings_pf. Qed.
Print Assumptions C105_couplings.

Theorem C105_concave :
  forall E c w r a b K K' S arg l m1 m2 m e1 e2 e, set_iter_ok E -> filled c w r ->
  assembled E c K S arg l m1 -> assembled E c K' S arg l m2 -> assembled E c (combine_couplings a b K K') S arg l m ->
  (0 <= a)%Qc -> (0 <= b)%Qc -> ground_energy m1 e1 -> ground_energy m2 e2 -> ground_energy m e -> real a * e1 + real b * e2 <= e.
Proof. exact C105_concave_pf. Qed.
Print Assumptions C105_concave.

Theorem C105_repulsions :
  forall E c w r K K' S arg l m m' e v e' v' k, set_iter_ok E -> filled c w r -> assembled E c K S arg l m -> assembled E c K' S arg l m' -> stronger_repulsions K K' ->
  all_states m e v -> all_states m' e' v' -> (k < dimension m)%nat -> e k <= e' k.
Proof. exact C105_repulsions_pf. Qed.
Print Assumptions C105_repulsions.

Theorem C105_stronger :
  forall E c w r K K' S arg l m m' e v e' v' k, set_iter_ok E -> filled c w r -> assembled E c K S arg l m -> assembled E c K' S arg l m' -> stronger_exchanges K K' ->
  s_bz S = true -> s_bij S = true -> all_states m e v -> all_states m' e' v' -> (k < dimension m)%nat -> e' k <= e k.
Proof. exact C105_stronger_pf. Qed.
Print Assumptions C105_stronger.

(** Hops of an up and two holes; four spins on a square with exchanges of 2 and of 3, whose lowest energies are -6 and -9. *)
Example C105_example : filled hop_conf 3 (zrange 0 3) /\ energy_state hop_ham (sqrt 2) (hop_vector 2) /\
  hops_and_exchanges ex_couplings chain_switches (qz 4) 1 /\ energy_state chain_ham (real 0) (reals (map qz [1; 1; 0; 0; -1; -1]%Z)) /\ couplings_within (mkSizes (qz 1) (qz 4) (qz 6) (qz 8) (qz 10)) ex_couplings /\
  ground_energy ring_ham (-6) /\ ground_energy strong_ham (-9) /\ nholes ring_conf = 0%Z /\ nbeta ring_conf = (nsites ring_conf / 2)%Z /\
  real (i_J ex_couplings) * IZR (grid_bonds 2 (nsites ring_conf / 2)) / 2 = 4 /\
  stronger_exchanges ex_couplings strong_couplings /\ couplings_within strong_sizes (combine_couplings 1 (- (1))%Qc strong_couplings ex_couplings).
Proof.
  destruct C102_example as (_ & RF & R & SA & _ & RL & SL & Lr & Ls & ST & CW & _).
  assert (GR : forall m x u, assembled cpython ring_conf m ring_switches (RList []) ring_basis x -> lowest x u -> (exists v, zlen v = csr_dim x /\ eigenvector x u v) -> ground_energy x (real u)).
  { intros K x u A L (v & Lv & V). assert (F := proj1 (C103_rectangle_pf cpython ring_conf 2 _ K ring_switches RF)). destruct (C104_ground cpython ring_conf _ _ K ring_switches _ _ x cpython_ok F A ltac:(vm_compute; Lia.lia)) as (e & G & _ & Lo & _).
    apply Lo in L. assert (N : (0 <= csr_dim x)%Z) by (rewrite <- Lv; apply Zle_0_nat). apply (C104_rational x u v N Lv) in V. destruct G as (G & H). pose proof (H _ _ V). replace (real u) with e by lra. now split. }
  split; [exact hop_filled|]. split; [exact (proj1 hop_states 2%nat ltac:(vm_compute; Lia.lia))|].
  split; [split; [reflexivity|]; repeat split; vm_compute; discriminate|].
  split; [destruct C100_example as (_ & _ & _ & _ & _ & _ & _ & _ & _ & _ & _ & H); apply C104_rational; [vm_compute; discriminate | vm_compute; reflexivity | exact H]|].
  split; [repeat split; vm_compute; discriminate|].
  split; [replace (-6) with (real (qz (-6)%Z)) by now rewrite real_qz|].
  - apply (GR ex_couplings _ _ R Lr). exists ring_state. split; [rewrite ring_dim; reflexivity | exact ring_eigen].
  - split; [replace (-9) with (real (qz (-9)%Z)) by now rewrite real_qz|].
    + apply (GR strong_couplings _ _ SA Ls). exists ring_state. destruct SL as (_ & SL & _). split; [vm_compute; reflexivity | exact (SL _ _ (or_introl eq_refl))].
    + split; [reflexivity|]. split; [reflexivity|]. split; [|split; [exact ST | exact CW]]. change (grid_bonds 2 (nsites ring_conf / 2)) with 4%Z. change (i_J ex_couplings) with (qz 2). rewrite real_qz. lra.
Qed.

(** C106 *)
Theorem C106_signs :
  forall E c w K S arg l m, set_iter_ok E -> filled_whole c w -> assembled E c K S arg l m -> (0 < length l)%nat ->
  nholes c = 0%Z -> s_bij S = true -> (0 < i_J K)%Qc -> one_ground_state c l m (down_sign (nsites c) (point w)).
Proof. exact C106_signs_pf. Qed.
Print Assumptions C106_signs.

Theorem C106_ferro :
  forall E c w K S arg l m, set_iter_ok E -> filled_whole c w -> assembled E c K S arg l m -> (0 < length l)%nat ->
  ferromagnetic K S -> nholes c = 0%Z \/ (s_bt S = true /\ i_t K <> 0%Qc) -> one_ground_state c l m (hop_sign K (nsites c) (point w)).
Proof. exact C106_ferro_pf. Qed.
Print Assumptions C106_ferro.

(** Four spins on a square: the amplitudes 1, 1, -2, -2, 1, 1 at the energy -6 have these signs up to a factor.  A hole and three ferromagnetic spins on a square. *)
Example C106_example : set_iter_ok cpython /\ filled_whole ring_conf 2 /\ assembled cpython ring_conf ex_couplings ring_switches (RList []) ring_basis ring_ham /\
  (0 < length ring_basis)%nat /\ nholes ring_conf = 0%Z /\ s_bij ring_switches = true /\ i_J ex_couplings = qz 2 /\
  energy_state ring_ham (real (- qz 6)) (reals (map (fun x => - x)%Qc ring_state)) /\ follows_real ring_conf ring_basis (down_sign (nsites ring_conf) (point 2)) (reals (map (fun x => - x)%Qc ring_state)) /\
  filled_whole (ferro_conf 1) 2 /\ assembled cpython (ferro_conf 1) ferro_couplings ferro_switches (RList []) (ferro_basis 1) (ferro_ham 1) /\
  (0 < length (ferro_basis 1))%nat /\ ferromagnetic ferro_couplings ferro_switches /\ s_bt ferro_switches = true /\ i_t ferro_couplings = qz 1.
Proof.
  destruct (ferro_ok 1) as (F1 & P1 & A1); [split; discriminate|].
  split; [exact cpython_ok|]. split; [exact (proj1 ring_ok)|]. split; [exact (proj2 ring_ok)|]. split; [vm_compute; Lia.lia|]. do 3 (split; [reflexivity|]).
  split; [apply C104_rational; [rewrite ring_dim; Lia.lia | rewrite ring_dim; reflexivity | exact ring_opposite]|].
  split; [|split; [exact F1|]; split; [exact A1|]; split; [vm_compute; Lia.lia|]; split; [exact ferro_magnetic|]; split; reflexivity].
  intros k d s Qd Ds. unfold reals. rewrite <- real_mul, <- real_0. apply real_lt. now apply (ring_follows k d s).
Qed.

(** C107 *)
Theorem C107_near :
  forall E c pos r K S arg l m e v N nb guess stp tol dim_max vals vects k x y, set_iter_ok E -> filled_drawn E c pos r -> assembled E c K S arg l m -> all_states m e v ->
  qr_shape N -> norm_above N -> tall (length l) guess -> (0 <= nb)%Z -> (0 <= dim_max)%Z -> (0 < length l)%nat ->
  modified_davidson_algorithm N (csr_dense m) nb guess stp tol dim_max = Ok (true, vals, vects) -> nth_error vals k = Some x -> nth_error vects k = Some y ->
  exists j, (j < length l)%nat /\ (e j - real x) * (e j - real x) * real (inner y y) <= real tol * real tol.
Proof. exact C107_near_pf. Qed.
Print Assumptions C107_near.

Theorem C107_unit :
  forall E c pos r K S arg l m e v N nb guess stp tol dim_max vals vects k x, set_iter_ok E -> filled_drawn E c pos r -> assembled E c K S arg l m -> all_states m e v ->
  qr_shape N -> qr_orthonormal N -> eigh_unit N -> norm_above N -> tall (length l) guess -> (0 <= nb)%Z -> (0 <= dim_max)%Z -> (0 < length l)%nat ->
  (2 <= Z.min nb (if dim_max =? 0 then Z.of_nat (length l) else dim_max))%Z \/ DavDefs.orthonormal guess ->
  modified_davidson_algorithm N (csr_dense m) nb guess stp tol dim_max = Ok (true, vals, vects) -> nth_error vals k = Some x ->
  exists j, (j < length l)%nat /\ Rabs (e j - real x) <= Rabs (real tol).
Proof. exact C107_unit_pf. Qed.
Print Assumptions C107_unit.

Theorem C107_ritz :
  forall E c pos r K S arg l m e v k x Z, set_iter_ok E -> filled_drawn E c pos r -> assembled E c K S arg l m -> all_states m e v ->
  length Z = Datatypes.S k -> tall (length l) Z -> DavDefs.orthonormal Z ->
  (forall d, length d = Datatypes.S k -> (csr_mean m (blend (length l) Z d) <= x * inner d d)%Qc) -> (k < length l)%nat /\ e k <= real x.
Proof. exact C107_ritz_pf. Qed.
Print Assumptions C107_ritz.

Theorem C107_levels :
  forall E c pos r K S arg l m e v N nb guess stp tol dim_max eps found vals vects k x, set_iter_ok E -> filled_drawn E c pos r -> assembled E c K S arg l m -> all_states m e v ->
  let dm := (if dim_max =? 0 then Z.of_nat (length l) else dim_max)%Z in
  let K0 := dav_first N (csr_dense m) (Z.min nb dm) guess in
  qr_shape N -> tall (length l) K0 -> (1 <= nb)%Z -> (1 <= dm)%Z -> well_diagonalised N (csr_dense m) (Z.min nb dm) tol dm K0 eps ->
  modified_davidson_algorithm N (csr_dense m) nb guess stp tol dim_max = Ok (found, vals, vects) -> nth_error vals k = Some x -> (k < length l)%nat /\ e k <= real x + real eps.
Proof. exact C107_levels_pf. Qed.
Print Assumptions C107_levels.

(** A down between or beside two ups in a row, without flips: energies -2, -1 and -1; two values from the two first unit vectors. *)
Definition line_conf : configuration := ex_rect 3 1 1 0 1.
Definition line_basis : list (list Z) := [[0; 1; 2]; [1; 0; 2]; [2; 0; 1]]%Z.
Definition line_switches : switches := mkSwitches false true false false false false.
Definition line_ham : csr := get (mkCsr 0 []) (build_hamiltonian cpython line_conf ex_couplings (mkBasis line_conf line_basis) line_switches (RList [])).
Definition line_guess : list (list Qc) := [unit_column 3 1; unit_column 3 0].
Definition line_rows : list (list Qc) := map (map qz) [[-1; 0; 0]; [0; -2; 0]; [0; 0; -1]]%Z.
Definition line_energy (k : nat) : R := match k with 0%nat => -2 | _ => -1 end.
Definition line_vector (k i : nat) : R := match k with 0%nat => if Nat.eqb i 1 then 1 else 0 | 1%nat => if Nat.eqb i 0 then 1 else 0 | _ => if Nat.eqb i 2 then 1 else 0 end.
Lemma line_dense : csr_dense line_ham = line_rows.
Proof. apply sameqm_eq. vm_compute. reflexivity. Qed.
Example C107_example : let tol := qfrac 1 1000 in
  qr_shape ex_numerics /\ qr_orthonormal ex_numerics /\ eigh_unit ex_numerics /\ norm_above ex_numerics /\
  filled_drawn cpython line_conf (point 3) (zrange 0 3) /\ assembled cpython line_conf ex_couplings line_switches (RList []) line_basis line_ham /\ all_states line_ham line_energy line_vector /\
  tall 3 line_guess /\ DavDefs.orthonormal line_guess /\ (forall d, length d = 2%nat -> (csr_mean line_ham (blend 3 line_guess d) <= - (1) * inner d d)%Qc) /\
  dav_first ex_numerics (csr_dense line_ham) 2 line_guess = line_guess /\ well_diagonalised ex_numerics (csr_dense line_ham) 2 tol 3 line_guess 0 /\
  exists vals vects, modified_davidson_algorithm ex_numerics (csr_dense line_ham) 2 line_guess 10 tol 0 = Ok (true, vals, vects) /\ map this vals = [-2 # 1; -1 # 1]%Q.
Proof.
  intros tol. split; [exact ex_qr_shape|]. split; [exact ex_qr_orthonormal|]. split; [exact ex_eigh_unit|]. split; [exact ex_norm_above|].
  assert (F : filled line_conf 3 (zrange 0 3)) by (split; [exists 3%Z, 1%Z, 1%Z; vm_compute; repeat (split; [congruence|]); reflexivity|]; split; [reflexivity|]; vm_compute; intuition congruence).
  assert (A : assembled cpython line_conf ex_couplings line_switches (RList []) line_basis line_ham) by (split; vm_compute; reflexivity).
  split; [exact (proj1 (C103_rectangle_pf cpython line_conf 3 (zrange 0 3) ex_couplings line_switches F))|]. split; [exact A|].
  assert (D : csr_dim line_ham = 3%Z) by (vm_compute; reflexivity).
  assert (L : forall i j, (i < 3)%nat -> (j < 3)%nat -> csr_at line_ham (Z.of_nat i) (Z.of_nat j) = nth j (nth i line_rows []) 0%Qc).
  { intros i j Hi Hj. rewrite <- line_dense. unfold csr_dense. rewrite D. destruct i as [|[|[|i]]]; [| | |exfalso; Lia.lia]; (destruct j as [|[|[|j]]]; [| | |exfalso; Lia.lia]); reflexivity. }
  assert (O : DavDefs.orthonormal line_guess) by (apply orthonormalb_ok; vm_compute; reflexivity).
  split.
  { unfold all_states, energy_state. replace (dimension line_ham) with 3%nat by (unfold dimension; rewrite D; reflexivity). split; [|split].
    - intros k Hk. destruct k as [|[|[|k]]]; [| | |exfalso; Lia.lia]; (split; [eexists; split; [|cbn [line_vector]; rewrite Nat.eqb_refl; lra]; Lia.lia|]); intros i Hi; unfold element; cbn [rsum]; rewrite !L by Lia.lia;
        (destruct i as [|[|[|i]]]; [| | |exfalso; Lia.lia]); cbn [line_rows map nth line_vector line_energy Nat.eqb]; rewrite !real_qz; lra.
    - intros k k' Hk Hk'. destruct k as [|[|[|k]]]; [| | |exfalso; Lia.lia]; (destruct k' as [|[|[|k']]]; [| | |exfalso; Lia.lia]); cbn [rsum line_vector Nat.eqb]; lra.
    - intros k k' Hkk Hk'. destruct k as [|k]; destruct k' as [|k']; cbn [line_energy]; try lra. exfalso; Lia.lia. }
  split; [repeat constructor|]. split; [exact O|]. split.
  { intros [|a [|b [|x d]]] Ld; try discriminate Ld. unfold csr_mean.
    assert (B : blend 3 line_guess [a; b] = [b; a; 0%Qc]).
    { unfold blend, line_guess, unit_column. cbn [seq map Nat.eqb length nth]. rewrite !qsum_cons, !qsum_nil. cbn [nth]. repeat f_equal; ring. }
    rewrite B. assert (T : times line_ham [b; a; 0%Qc] = [(- b)%Qc; (qz (-2) * a)%Qc; 0%Qc]).
    { unfold times. cbn [length seq map]. rewrite !qsum_cons, !qsum_nil. cbn [nth]. rewrite !L by Lia.lia. cbn [line_rows map nth]. change (qz (-1)) with (- (1))%Qc. change (qz 0) with 0%Qc. apply (f_equal2 cons); [ring|]. apply (f_equal2 cons); [ring|]. apply (f_equal2 cons); [ring | reflexivity]. }
    rewrite T. unfold inner. cbn [length seq]. rewrite !qsum_cons, !qsum_nil. cbn [nth]. apply real_le_inv. rewrite ?real_add, ?real_mul, ?real_add, ?real_mul, ?real_opp, ?real_0, ?real_1, ?real_qz. pose proof (Rle_0_sqr (real a)) as Sq. unfold Rsqr in Sq. nra. }
  split; [apply sameqm_eq; vm_compute; reflexivity|]. split.
  { assert (S1 : exists v x, dav_step ex_numerics line_rows 2 tol 3 line_guess = Ok (Converged v x)) by (do 2 eexists; vm_compute; reflexivity).
    rewrite line_dense. assert (R : forall i K, search_space ex_numerics line_rows 2 tol 3 line_guess i K -> K = line_guess).
    { intros i K H. induction H as [|i K v x K' H IH Q]; [reflexivity|]. subst K. destruct S1 as (v1 & x1 & S1). rewrite S1 in Q. discriminate Q. }
    intros i K H. rewrite (R i K H). split; [exact O|]. split.
    - assert (P : projected line_rows line_guess = [[qz (-2); 0%Qc]; [0%Qc; qz (-1)]]) by (apply sameqm_eq; vm_compute; reflexivity). rewrite P.
      apply diagonal_diagonalised; [repeat constructor|]. cbn [length]. intros [|[|i0]] [|[|j0]] Hi Hj Hn; try Lia.lia; reflexivity.
    - intros vals vects K' Q. destruct S1 as (v1 & x1 & S1). rewrite S1 in Q. discriminate Q. }
  eexists. eexists. split; vm_compute; reflexivity.
Qed.

(** C108 *)
Theorem C108_matrix :
  forall E c l, set_iter_ok E -> proper c -> holes_in_order E c -> construct_basis c = Ok (mkBasis c l) ->
  let n := length l in
  (forall i j, (i < n)%nat -> (j < n)%nat -> spin_element E c n i j = spin_element E c n j i) /\
  forall v, length v = n -> exists v', compute_S2 E c v = Ok v' /\ length v' = n /\ forall i, (i < n)%nat -> real (nth i v' 0%Qc) = rsum n (fun k => spin_element E c n i k * real (nth k v 0%Qc)).
Proof. exact C108_matrix_pf. Qed.
Print Assumptions C108_matrix.

Theorem C108_spin :
  forall E c w K S arg l m e v, set_iter_ok E -> filled_whole c w -> proper c -> assembled E c K S arg l m ->
  nholes c = 0%Z -> s_bij S = true -> s_bz S = true -> (0 < i_J K)%Qc -> ground_energy m e -> energy_state m e v ->
  let j := (IZR (Z.abs (nalpha c - nbeta c)) / 2) in
  forall i, (i < dimension m)%nat -> rsum (dimension m) (fun k => spin_element E c (dimension m) i k * v k) = j * (j + 1) * v i.
Proof. exact C108_spin_pf. Qed.
Print Assumptions C108_spin.

(** Four spins on a square: two ups and two downs form a singlet. *)
Example C108_example : set_iter_ok cpython /\ filled_whole ring_conf 2 /\ proper ring_conf /\ holes_in_order cpython ring_conf /\ assembled cpython ring_conf ex_couplings ring_switches (RList []) ring_basis ring_ham /\
  nholes ring_conf = 0%Z /\ s_bij ring_switches = true /\ s_bz ring_switches = true /\ i_J ex_couplings = qz 2 /\ nalpha ring_conf = nbeta ring_conf /\
  ground_energy ring_ham (-6) /\ energy_state ring_ham (-6) (reals ring_state).
Proof.
  split; [exact cpython_ok|]. split; [exact (proj1 ring_ok)|]. split; [unfold proper; vm_compute; intuition congruence|]. split; [left; vm_compute; congruence|]. split; [exact (proj2 ring_ok)|]. do 5 (split; [reflexivity|]).
  split; [exact (proj1 (proj2 (proj2 (proj2 (proj2 (proj2 C105_example))))))|].
  replace (-6) with (real (- qz 6)) by (rewrite real_opp, real_qz; lra). apply C104_rational; [rewrite ring_dim; Lia.lia | rewrite ring_dim; reflexivity | exact ring_eigen].
Qed.

(** C109 *)
Theorem C109_mean :
  forall E c l v, set_iter_ok E -> proper c -> holes_in_order E c -> construct_basis c = Ok (mkBasis c l) ->
  let n := length l in let a := IZR (Z.abs (nalpha c - nbeta c)) / 2 in let b := IZR (nalpha c + nbeta c) / 2 in let size := rsum n (fun i => v i * v i) in
  a * (a + 1) * size <= rsum n (fun i => v i * rsum n (fun k => spin_element E c n i k * v k)) <= b * (b + 1) * size.
Proof. exact C109_mean_pf. Qed.
Print Assumptions C109_mean.

Theorem C109_levels :
  forall E c c' w K S arg arg' l l' m m' e v, set_iter_ok E -> filled_whole c w -> filled_whole c' w -> proper c -> proper c' ->
  nsites c' = nsites c -> nholes c' = nholes c -> (Z.min (nalpha c) (nbeta c) <= Z.min (nalpha c') (nbeta c'))%Z -> s_bz S = s_bij S ->
  assembled E c K S arg l m -> assembled E c' K S arg' l' m' -> energy_state m e v ->
  exists v', energy_state m' e v' /\
    forall x, holes_in_order E c -> (forall i, (i < dimension m)%nat -> rsum (dimension m) (fun k => spin_element E c (dimension m) i k * v k) = x * v i) ->
    forall i, (i < dimension m')%nat -> rsum (dimension m') (fun k => spin_element E c' (dimension m') i k * v' k) = x * v' i.
Proof. exact C109_levels_pf. Qed.
Print Assumptions C109_levels.

Theorem C109_ranks :
  forall E c c' w K S arg arg' l l' m m' e v e' v', set_iter_ok E -> filled_whole c w -> filled_whole c' w -> proper c -> proper c' ->
  nsites c' = nsites c -> nholes c' = nholes c -> (Z.min (nalpha c) (nbeta c) <= Z.min (nalpha c') (nbeta c'))%Z -> s_bz S = s_bij S ->
  assembled E c K S arg l m -> assembled E c' K S arg' l' m' -> all_states m e v -> all_states m' e' v' ->
  (dimension m <= dimension m')%nat /\ forall k, (k < dimension m)%nat -> e' k <= e k.
Proof. exact C109_ranks_pf. Qed.
Print Assumptions C109_ranks.

Theorem C109_order :
  forall E c c' w K S arg arg' l l' m m' e e' v, set_iter_ok E -> filled_whole c w -> filled_whole c' w -> proper c -> proper c' ->
  nsites c' = nsites c -> nholes c = 0%Z -> nholes c' = 0%Z -> (Z.min (nalpha c) (nbeta c) < Z.min (nalpha c') (nbeta c'))%Z ->
  s_bij S = true -> s_bz S = true -> (0 < i_J K)%Qc ->
  assembled E c K S arg l m -> assembled E c' K S arg' l' m' -> ground_energy m' e' -> energy_state m e v -> e' < e.
Proof. exact C109_order_pf. Qed.
Print Assumptions C109_order.

Theorem C109_ferro :
  forall E c c' w K S arg arg' l l' m m' e, set_iter_ok E -> filled_whole c w -> filled_whole c' w -> proper c -> proper c' ->
  nsites c' = nsites c -> nholes c' = nholes c -> ferromagnetic K S -> nholes c = 0%Z \/ (s_bt S = true /\ i_t K <> 0%Qc) -> s_bz S = true ->
  assembled E c K S arg l m -> assembled E c' K S arg' l' m' -> ground_energy m e -> ground_energy m' e.
Proof. exact C109_ferro_pf. Qed.
Print Assumptions C109_ferro.

Theorem C109_full_spin :
  forall E c w K S arg l m e v, set_iter_ok E -> filled_whole c w -> proper c -> holes_in_order E c -> assembled E c K S arg l m ->
  ferromagnetic K S -> nholes c = 0%Z \/ (s_bt S = true /\ i_t K <> 0%Qc) -> s_bz S = true -> ground_energy m e -> energy_state m e v ->
  let j := IZR (nsites c - nholes c) / 2 in
  forall i, (i < dimension m)%nat -> rsum (dimension m) (fun k => spin_element E c (dimension m) i k * v k) = j * (j + 1) * v i.
Proof. exact C109_full_spin_pf. Qed.
Print Assumptions C109_full_spin.

(** Four spins in a ring: -4 with one down is above -6, the lowest energy with two downs.  One hole with ferromagnetic exchanges: -3 is the lowest energy with no down, and with one. *)
Example C109_example : set_iter_ok cpython /\ filled_whole one_conf 2 /\ filled_whole ring_conf 2 /\ proper one_conf /\ proper ring_conf /\ holes_in_order cpython one_conf /\
  nsites ring_conf = nsites one_conf /\ nholes one_conf = 0%Z /\ nholes ring_conf = 0%Z /\ (Z.min (nalpha one_conf) (nbeta one_conf) < Z.min (nalpha ring_conf) (nbeta ring_conf))%Z /\
  s_bij ring_switches = true /\ s_bz ring_switches = true /\ i_J ex_couplings = qz 2 /\ assembled cpython one_conf ex_couplings ring_switches (RList []) one_basis one_ham /\
  assembled cpython ring_conf ex_couplings ring_switches (RList []) ring_basis ring_ham /\ ground_energy ring_ham (-6) /\ energy_state one_ham (-4) (reals (map qz [1; -1; -1; 1]%Z)) /\
  (filled_whole (ferro_conf 0) 2 /\ filled_whole (ferro_conf 1) 2 /\ proper (ferro_conf 0) /\ proper (ferro_conf 1) /\ holes_in_order cpython (ferro_conf 1) /\ ferromagnetic ferro_couplings ferro_switches /\
   (s_bt ferro_switches = true /\ i_t ferro_couplings = qz 1) /\ s_bz ferro_switches = true /\
   assembled cpython (ferro_conf 0) ferro_couplings ferro_switches (RList []) (ferro_basis 0) (ferro_ham 0) /\ assembled cpython (ferro_conf 1) ferro_couplings ferro_switches (RList []) (ferro_basis 1) (ferro_ham 1) /\
   ground_energy (ferro_ham 0) (-3)).
Proof.
  pose proof C92_example as (F & P & P' & Q1 & Q2 & Q3 & A & V). destruct (ferro_ok 0) as (F0 & P0 & A0); [split; discriminate|]. destruct (ferro_ok 1) as (F1 & P1 & A1); [split; discriminate|].
  split; [exact cpython_ok|]. split; [exact F|]. split; [exact (proj1 ring_ok)|]. split; [exact P|]. split; [exact P'|]. split; [left; vm_compute; congruence|]. split; [exact Q1|]. split; [exact Q2|]. split; [reflexivity|]. split; [exact Q3|].
  do 3 (split; [reflexivity|]). split; [exact A|]. split; [exact (proj2 ring_ok)|]. split; [exact (proj1 (proj2 (proj2 (proj2 (proj2 (proj2 C105_example))))))|].
  split.
  { assert (D : csr_dim one_ham = 4%Z) by (vm_compute; reflexivity). replace (-4) with (real (- qz 4)) by (rewrite real_opp, real_qz; lra). apply C104_rational; [rewrite D; Lia.lia | rewrite D; reflexivity | exact V]. }
  pose proof C96_example as (_ & _ & _ & HO & _ & FE & HT & _). split; [exact F0|]. split; [exact F1|]. split; [exact P0|]. split; [exact P1|]. split; [exact HO|]. split; [exact FE|]. split; [exact HT|]. split; [reflexivity|]. split; [exact A0|]. split; [exact A1|].
  assert (D : csr_dim (ferro_ham 0) = 4%Z) by (vm_compute; reflexivity).
  assert (NT : nholes (ferro_conf 0) = 0%Z \/ (s_bt ferro_switches = true /\ i_t ferro_couplings <> 0%Qc)) by (right; split; [reflexivity | destruct HT as (_ & ->); discriminate]).
  destruct (C106_ferro_pf cpython (ferro_conf 0) 2 ferro_couplings ferro_switches (RList []) (ferro_basis 0) (ferro_ham 0) cpython_ok F0 A0 ltac:(vm_compute; Lia.lia) FE NT) as (e & v & G & _ & _ & _ & U).
  assert (E3 : energy_state (ferro_ham 0) (-3) (reals ferro_state)).
  { replace (-3) with (real (- qz 3)) by (rewrite real_opp, real_qz; lra). apply C104_rational; [rewrite D; Lia.lia | rewrite D; reflexivity | exact ferro_eigen]. }
  rewrite (U _ _ E3); [exact G|]. intros k d s Qd Ds. unfold reals. rewrite <- real_mul, <- real_0. apply real_lt. exact (ferro_follows k d s Qd Ds).
Qed.
