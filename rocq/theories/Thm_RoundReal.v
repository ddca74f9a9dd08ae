(** Theorems on the energies of the Hamiltonian built with rounded operations (C111).  They use the axioms of the real numbers of the
    standard library. *)
From Coq Require Import ZArith List Bool QArith Qcanon Reals Qreals Lra.
From Verif Require Import PyBase PyFacts Runtimes Lattice Base Interact Ham Dav Files Spin Round Spec SpecOps SpecTJ SpinDefs Geometry HamSpec SignDefs EnergyDefs RangeDefs RoundDefs VarDefs LevelDefs RealSum RealDefs
  PSpin FInter PQc FSign FTop FDav FLevels PRealQ FReal FRound2 FRoundReal FRoundDav Examples Thm_Round Thm_Real DavDefs.
Import ListNotations.
Open Scope R_scope.

Theorem C111_energies :
  forall u F E c w r K S arg arg0 l l0 m m0 z e v x y, rounds u F -> set_iter_ok E -> filled c w r -> assembled_fl F E c K S arg l m -> assembled E c K S arg0 l0 m0 ->
  couplings_within z K -> all_states m0 e v -> energy_state m x y ->
  exists k, (k < dimension m0)%nat /\ Rabs (e k - x) <= real (growth u (roundings (nholes c) (grid_bonds w (nsites c / w))) * energy_bound z S (nholes c) (grid_bonds w (nsites c / w))).
Proof. exact C111_energies_pf. Qed.
Print Assumptions C111_energies.

Theorem C111_triangle :
  forall m, (0 <= csr_dim m)%Z -> exists m1 e v, lower_triangle m m1 /\ all_states m1 e v.
Proof. exact C111_triangle_pf. Qed.
Print Assumptions C111_triangle.

Theorem C111_levels :
  forall u F E c w r K S arg arg0 l l0 m m0 m1 z e v e1 v1 k, rounds u F -> set_iter_ok E -> filled c w r -> assembled_fl F E c K S arg l m -> assembled E c K S arg0 l0 m0 ->
  couplings_within z K -> lower_triangle m m1 -> all_states m0 e v -> all_states m1 e1 v1 -> (k < dimension m0)%nat ->
  Rabs (e1 k - e k) <= real (growth u (roundings (nholes c) (grid_bonds w (nsites c / w))) * energy_bound z S (nholes c) (grid_bonds w (nsites c / w))).
Proof. exact C111_levels_pf. Qed.
Print Assumptions C111_levels.

(** Three ups and a down in a row, with the floats of Python: the state with equal amplitudes has the energy 0.  For the row of
    [C111_example] the matrix has rounded elements; the exact one has all its states, and so has the one that eigh reads. *)
Definition ferro_conf : configuration := ex_rect 4 1 1 0 1.
Definition ferro_basis : list (list Z) := get [] (b <- construct_basis ferro_conf ;; Ok (determinants b)).
Definition ferro_exact : csr := get (mkCsr 0 []) (build_hamiltonian cpython ferro_conf rounded_couplings (mkBasis ferro_conf ferro_basis) rounded_switches (RList [])).
Definition ferro_rounded : csr := get (mkCsr 0 []) (build_hamiltonian_fl binary64 cpython ferro_conf rounded_couplings (mkBasis ferro_conf ferro_basis) rounded_switches (RList [])).
Lemma ferro_filled : filled_whole ferro_conf 4.
Proof. split; [exists 4%Z, 1%Z, 1%Z; vm_compute; repeat (split; [congruence|]); reflexivity|]; split; [reflexivity|]; vm_compute; intuition congruence. Qed.
Example C111_states_example :
  filled_whole ferro_conf 4 /\ assembled_fl binary64 cpython ferro_conf rounded_couplings rounded_switches (RList []) ferro_basis ferro_rounded /\
  assembled cpython ferro_conf rounded_couplings rounded_switches (RList []) ferro_basis ferro_exact /\
  energy_state ferro_rounded (real 0) (reals [1%Qc; 1%Qc; 1%Qc; 1%Qc]) /\ (exists e v, all_states ferro_exact e v) /\
  (exists e v, all_states exact_ham e v) /\ (exists m1 e1 v1, lower_triangle rounded_ham m1 /\ all_states m1 e1 v1) /\ dimension exact_ham = 6%nat.
Proof.
  destruct (built_both ferro_conf 4 rounded_couplings rounded_switches (mkBasis ferro_conf ferro_basis) ferro_basis ferro_exact ferro_rounded ferro_filled) as (_ & A & A0); try reflexivity.
  split; [exact ferro_filled|]. split; [exact A|]. split; [exact A0|]. split.
  - apply C104_rational; [vm_compute; discriminate | vm_compute; reflexivity|]. split; [reflexivity|]. split; [apply this_list; vm_compute; reflexivity|]. exists 1%Qc. split; [now left | discriminate].
  - split; [apply states_exist; exact (proj1 (mirrored_filled _ _ _ _ _ _ _ _ _ cpython_ok ferro_filled A0))|].
    destruct C111_example as (_ & HF & _ & _ & HA & _). split; [apply states_exist; exact (proj1 (mirrored_filled _ _ _ _ _ _ _ _ _ cpython_ok HF HA))|].
    split; [apply C111_triangle; vm_compute; discriminate | vm_compute; reflexivity].
Qed.

Theorem C111_davidson :
  forall u F E c w r K S arg arg0 l l0 m m0 z e v N nb guess stp tol dim_max vals vects k x, rounds u F -> set_iter_ok E -> filled c w r ->
  assembled_fl F E c K S arg l m -> assembled E c K S arg0 l0 m0 -> couplings_within z K -> all_states m0 e v ->
  qr_shape N -> qr_orthonormal N -> eigh_unit N -> norm_above N -> tall (length l) guess -> (0 <= nb)%Z -> (0 <= dim_max)%Z ->
  (2 <= Z.min nb (if dim_max =? 0 then Z.of_nat (length l) else dim_max))%Z \/ DavDefs.orthonormal guess ->
  modified_davidson_algorithm N (csr_dense m) nb guess stp tol dim_max = Ok (true, vals, vects) -> nth_error vals k = Some x ->
  exists j, (j < length l)%nat /\ Rabs (e j - real x) <= Rabs (real tol) + real (growth u (roundings (nholes c) (grid_bonds w (nsites c / w))) * energy_bound z S (nholes c) (grid_bonds w (nsites c / w))).
Proof. exact C111_davidson_pf. Qed.
Print Assumptions C111_davidson.

Theorem C111_ranks :
  forall u F E c w r K S arg arg0 l l0 m m0 z e v N nb guess stp tol dim_max eps found vals vects k x, rounds u F -> set_iter_ok E -> filled c w r ->
  assembled_fl F E c K S arg l m -> assembled E c K S arg0 l0 m0 -> couplings_within z K -> all_states m0 e v ->
  let dm := (if dim_max =? 0 then Z.of_nat (length l) else dim_max)%Z in
  let K0 := dav_first N (csr_dense m) (Z.min nb dm) guess in
  qr_shape N -> tall (length l) K0 -> (1 <= nb)%Z -> (1 <= dm)%Z -> well_diagonalised N (csr_dense m) (Z.min nb dm) tol dm K0 eps ->
  modified_davidson_algorithm N (csr_dense m) nb guess stp tol dim_max = Ok (found, vals, vects) -> nth_error vals k = Some x ->
  (k < length l)%nat /\ e k <= real x + real eps + real (growth u (roundings (nholes c) (grid_bonds w (nsites c / w))) * energy_bound z S (nholes c) (grid_bonds w (nsites c / w))).
Proof. exact C111_ranks_pf. Qed.
Print Assumptions C111_ranks.

(** A down and two ups in a row without flips, J = 5, with floats of two bits: -2 and -4 are found for the energies -5/2 and -5. *)
Definition coarse : floats := mkFloats (binary 2) (fun l => l).
Definition coarse_couplings : interactions := mkInter (qz 1) (qz 5) (qz 5) (qz 5) (qz 1) (qz 1) (qz 1) (qz 1) (qz 1) (qz 1).
Definition coarse_exact : csr := get (mkCsr 0 []) (build_hamiltonian cpython line_conf coarse_couplings (mkBasis line_conf line_basis) line_switches (RList [])).
Definition coarse_ham : csr := get (mkCsr 0 []) (build_hamiltonian_fl coarse cpython line_conf coarse_couplings (mkBasis line_conf line_basis) line_switches (RList [])).
Definition coarse_rows : list (list Qc) := map (map qz) [[-2; 0; 0]; [0; -4; 0]; [0; 0; -2]]%Z.
Lemma coarse_dense : csr_dense coarse_ham = coarse_rows.
Proof. apply sameqm_eq. vm_compute. reflexivity. Qed.
Example C111_runs_example : let tol := qfrac 1 1000 in
  qr_shape ex_numerics /\ qr_orthonormal ex_numerics /\ eigh_unit ex_numerics /\ norm_above ex_numerics /\
  rounds (1 / qz 4) coarse /\ filled_whole line_conf 3 /\ assembled_fl coarse cpython line_conf coarse_couplings line_switches (RList []) line_basis coarse_ham /\
  assembled cpython line_conf coarse_couplings line_switches (RList []) line_basis coarse_exact /\ this (csr_at coarse_exact 1 1) = (-5 # 1)%Q /\
  couplings_within (mkSizes (qz 1) (qz 5) (qz 1) (qz 1) (qz 1)) coarse_couplings /\ (exists e v, all_states coarse_exact e v) /\
  tall 3 line_guess /\ DavDefs.orthonormal line_guess /\
  dav_first ex_numerics (csr_dense coarse_ham) 2 line_guess = line_guess /\ well_diagonalised ex_numerics (csr_dense coarse_ham) 2 tol 3 line_guess 0 /\
  exists vals vects, modified_davidson_algorithm ex_numerics (csr_dense coarse_ham) 2 line_guess 10 tol 0 = Ok (true, vals, vects) /\ map this vals = [-4 # 1; -2 # 1]%Q.
Proof.
  intros tol. split; [exact ex_qr_shape|]. split; [exact ex_qr_orthonormal|]. split; [exact ex_eigh_unit|]. split; [exact ex_norm_above|].
  split; [apply (C111_binary 2 (fun l => l)); [Lia.lia | reflexivity]|].
  assert (F : filled_whole line_conf 3) by (split; [exists 3%Z, 1%Z, 1%Z; vm_compute; repeat (split; [congruence|]); reflexivity|]; split; [reflexivity|]; vm_compute; intuition congruence).
  assert (A0 : assembled cpython line_conf coarse_couplings line_switches (RList []) line_basis coarse_exact) by (split; vm_compute; reflexivity).
  split; [exact F|]. split; [split; vm_compute; reflexivity|]. split; [exact A0|]. split; [vm_compute; reflexivity|]. split; [repeat split; vm_compute; discriminate|].
  split; [apply states_exist; exact (proj1 (mirrored_filled _ _ _ _ _ _ _ _ _ cpython_ok F A0))|]. split; [repeat constructor|].
  assert (O : DavDefs.orthonormal line_guess) by (apply orthonormalb_ok; vm_compute; reflexivity). split; [exact O|].
  rewrite coarse_dense. split; [apply sameqm_eq; vm_compute; reflexivity|]. split.
  { assert (S1 : exists v x, dav_step ex_numerics coarse_rows 2 tol 3 line_guess = Ok (Converged v x)) by (do 2 eexists; vm_compute; reflexivity).
    assert (R : forall i K, search_space ex_numerics coarse_rows 2 tol 3 line_guess i K -> K = line_guess).
    { intros i K H. induction H as [|i K v x K' H IH Q]; [reflexivity|]. subst K. destruct S1 as (v1 & x1 & S1). rewrite S1 in Q. discriminate Q. }
    intros i K H. rewrite (R i K H). split; [exact O|]. split.
    - assert (P : projected coarse_rows line_guess = [[qz (-4); 0%Qc]; [0%Qc; qz (-2)]]) by (apply sameqm_eq; vm_compute; reflexivity). rewrite P.
      apply diagonal_diagonalised; [repeat constructor|]. cbn [length]. intros [|[|i0]] [|[|j0]] Hi Hj Hn; try Lia.lia; reflexivity.
    - intros vals vects K' Q. destruct S1 as (v1 & x1 & S1). rewrite S1 in Q. discriminate Q. }
  eexists. eexists. split; vm_compute; reflexivity.
Qed.
