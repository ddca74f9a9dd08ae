(** Theorems on the spin operators (C36-C40, C81). *)
From Coq Require Import String ZArith List Bool QArith Qcanon.
From Verif Require Import PyBase PyFacts Runtimes Lattice Base Interact Ham Spin Spec SpecOps SpecTJ SpecSpin SpinDefs Geometry HamSpec FInter PQc FSpin FSpinVal FWritten FMulti FSinglet Examples.
Import ListNotations.
Open Scope Z_scope.

(** 2x2 sites, one hole, one down, two ups *)
Definition ex_v : list Qc := map (fun k => qz (k * k - 3 * k)) (zrange 0 12).
Definition ex_basis : list (list Z) := get [] (b <- construct_basis ex22 ;; Ok (determinants b)).
Definition ex_ham : csr := get (mkCsr 0 []) (b <- construct_basis ex22 ;; build_hamiltonian cpython ex22 ex_couplings b (mkSwitches true true true true true true) (RList [])).

Example ex22_proper : set_iter_ok cpython /\ filled_whole ex22 2 /\ proper ex22 /\ holes_in_order cpython ex22 /\ construct_basis ex22 = Ok (mkBasis ex22 ex_basis) /\
  assembled cpython ex22 ex_couplings (mkSwitches true true true true true true) (RList []) ex_basis ex_ham /\
  length ex_v = length ex_basis /\ exists x, In x ex_v /\ x <> 0%Qc.
Proof.
  split; [exact cpython_ok|]. split; [split; [exists 1, 1, 2; vm_compute; repeat (split; [congruence|]); reflexivity|]; split; [reflexivity|]; vm_compute; intuition congruence|].
  split; [unfold proper; vm_compute; intuition congruence|]. split; [left; vm_compute; congruence|].
  split; [vm_compute; reflexivity|]. split; [split; vm_compute; reflexivity|]. split; [reflexivity|]. exists (qz 4). split; [vm_compute; auto 10 | vm_compute; discriminate].
Qed.

(** C36 *)
Theorem C36_conserved :
  forall E c w K S arg l m v, set_iter_ok E -> filled_whole c w -> proper c -> holes_in_order E c ->
  s_bz S = s_bij S -> assembled E c K S arg l m -> length v = length l ->
  exists v', compute_S2 E c v = Ok v' /\ compute_S2 E c (times m v) = Ok (times m v').
Proof. exact C36_conserved_pf. Qed.
Print Assumptions C36_conserved.

Example C36_example : exists v', compute_S2 cpython ex22 ex_v = Ok v' /\ compute_S2 cpython ex22 (times ex_ham ex_v) = Ok (times ex_ham v') /\
  nth 0 (times ex_ham v') 0%Qc <> 0%Qc.
Proof. eexists. split; [vm_compute; reflexivity|]. split; [vm_compute; reflexivity | vm_compute; discriminate]. Qed.

Theorem C36_unequal_switches_refuted :
  exists E c w K S arg l m v v',
  set_iter_ok E /\ filled_whole c w /\ proper c /\ holes_in_order E c /\ assembled E c K S arg l m /\ length v = length l /\
  compute_S2 E c v = Ok v' /\ compute_S2 E c (times m v) <> Ok (times m v').
Proof. exact C36_unequal_switches_refuted_pf. Qed.
Print Assumptions C36_unequal_switches_refuted.

(** C37 *)
Theorem C37_squared :
  forall E c l v psi, set_iter_ok E -> proper c -> holes_in_order E c ->
  construct_basis c = Ok (mkBasis c l) -> on_lattice (nsites c) psi -> amplitudes c l v psi ->
  exists v', compute_S2 E c v = Ok v' /\ amplitudes c l v' (S_squared (nsites c) psi).
Proof. exact C37_squared_pf. Qed.
Print Assumptions C37_squared.

Theorem C37_ladder_form :
  forall n psi t, on_lattice n psi ->
  S_squared n psi t = (S_minus n (S_plus n psi) t + total_z n t * (total_z n t + 1) * psi t)%Qc.
Proof. exact C37_ladder_form_pf. Qed.
Print Assumptions C37_ladder_form.

Theorem C37_pair :
  forall E c l v psi i j, set_iter_ok E -> proper c -> holes_in_order E c ->
  construct_basis c = Ok (mkBasis c l) -> on_lattice (nsites c) psi -> amplitudes c l v psi -> 0 <= i < nsites c -> 0 <= j < nsites c ->
  exists v', compute_S_plus_S_minus E c v i j = Ok v' /\
    amplitudes c l v' (fun t => only (samep (t i) Up && samep (t j) Down) (psi (put i Down (put j Up t)))).
Proof. exact C37_pair_pf. Qed.
Print Assumptions C37_pair.

Theorem C37_every_vector :
  forall c l v, proper c -> construct_basis c = Ok (mkBasis c l) -> length v = length l ->
  exists psi, on_lattice (nsites c) psi /\ amplitudes c l v psi.
Proof. exact C37_every_vector_pf. Qed.
Print Assumptions C37_every_vector.

Theorem C37_eight_sites :
  forall c, nsites c <= 8 -> holes_in_order cpython c.
Proof. exact C37_eight_sites_pf. Qed.
Print Assumptions C37_eight_sites.

(** two sites: the antisymmetric state has spin zero, the symmetric one spin one *)
Example C37_example :
  compute_S2 cpython (ex_rect 2 1 1 0 1) [1%Qc; (- (1))%Qc] = Ok [0%Qc; 0%Qc] /\
  compute_S2 cpython (ex_rect 2 1 1 0 1) [1%Qc; 1%Qc] = Ok [qz 2; qz 2] /\
  compute_S_plus_S_minus cpython (ex_rect 2 1 1 0 1) [1%Qc; qz 3] 0 1 = Ok [0%Qc; 1%Qc] /\
  proper (ex_rect 2 1 1 0 1) /\ nholes (ex_rect 2 1 2 3 1) = 3 /\ holes_in_order cpython (ex_rect 2 1 2 3 1).
Proof.
  split; [vm_compute; reflexivity|]. split; [vm_compute; reflexivity|]. split; [vm_compute; reflexivity|]. split; [unfold proper; vm_compute; intuition congruence|].
  split; [reflexivity|]. apply C37_eight_sites. vm_compute. discriminate.
Qed.

Theorem C37_two_holes_refuted :
  exists E c l v, set_iter_ok E /\ proper c /\ construct_basis c = Ok (mkBasis c l) /\ length v = length l /\
  compute_S2 E c v = Err IndexError.
Proof. exact C37_two_holes_refuted_pf. Qed.
Print Assumptions C37_two_holes_refuted.

Theorem C37_wrong_index_refuted :
  exists E c d i j e k e', set_iter_ok E /\ proper c /\
  get_hash_basis (nholes c) (nalpha c) (nbeta c) 176 = Ok d /\ compute_S_plus_S_minus_det E c d i j = Ok (Some e) /\
  compute_hash_table c e = Ok k /\ get_hash_basis (nholes c) (nalpha c) (nbeta c) k = Ok e' /\
  firstn 2 e = [8; 2] /\ firstn 2 e' = [8; 9].
Proof. exact C37_wrong_index_refuted_pf. Qed.
Print Assumptions C37_wrong_index_refuted.

(** C38 *)
Theorem C38_value :
  forall E c l v, set_iter_ok E -> proper c -> holes_in_order E c -> construct_basis c = Ok (mkBasis c l) ->
  length v = length l -> (exists x, In x v /\ x <> 0%Qc) ->
  exists v' x, compute_S2 E c v = Ok v' /\ compute_S2_exp_val E c v = Ok x /\ inner v v <> 0%Qc /\ (x * inner v v)%Qc = inner v v'.
Proof. exact C38_value_pf. Qed.
Print Assumptions C38_value.

Theorem C38_zero :
  forall E c v, (forall x, In x v -> x = 0%Qc) -> compute_S2_exp_val E c v = Ok 0%Qc.
Proof. exact C38_zero_pf. Qed.
Print Assumptions C38_zero.

Theorem C38_symmetric :
  forall E c l u v u' v', set_iter_ok E -> proper c -> holes_in_order E c -> construct_basis c = Ok (mkBasis c l) ->
  length u = length l -> length v = length l -> compute_S2 E c u = Ok u' -> compute_S2 E c v = Ok v' -> inner u v' = inner v u'.
Proof. exact C38_symmetric_pf. Qed.
Print Assumptions C38_symmetric.

Theorem C38_bounds :
  forall E c l v x, set_iter_ok E -> proper c -> holes_in_order E c -> construct_basis c = Ok (mkBasis c l) ->
  length v = length l -> (exists x, In x v /\ x <> 0%Qc) -> compute_S2_exp_val E c v = Ok x ->
  let m := (half * qz (Z.abs (nalpha c - nbeta c)))%Qc in let j := (half * qz (nalpha c + nbeta c))%Qc in
  (m * (m + 1) <= x)%Qc /\ (x <= j * (j + 1))%Qc.
Proof. exact C38_bounds_pf. Qed.
Print Assumptions C38_bounds.

Theorem C38_polarised :
  forall E c l v, set_iter_ok E -> proper c -> holes_in_order E c -> construct_basis c = Ok (mkBasis c l) ->
  length v = length l -> (exists x, In x v /\ x <> 0%Qc) -> nalpha c = 0 \/ nbeta c = 0 ->
  let j := (half * qz (nalpha c + nbeta c))%Qc in compute_S2_exp_val E c v = Ok (j * (j + 1))%Qc.
Proof. exact C38_polarised_pf. Qed.
Print Assumptions C38_polarised.

Example C38_example : compute_S2_exp_val cpython ex22 ex_v = Ok (Q2Qc (33173 # 9196)) /\ nalpha ex22 - nbeta ex22 = 1 /\ nalpha ex22 + nbeta ex22 = 3.
Proof. split; [apply sameq_ok; vm_compute; reflexivity|]. split; reflexivity. Qed.

(** C39 *)
Theorem C39_spin_z :
  forall c l v psi, proper c -> construct_basis c = Ok (mkBasis c l) -> on_lattice (nsites c) psi -> amplitudes c l v psi ->
  exists sz v', compute_spin_z c v = (sz, v') /\ sz = (half * qz (nalpha c - nbeta c))%Qc /\ amplitudes c l v' (S_z (nsites c) psi) /\
    forall k d s, nth_error l k = Some d -> describes (nsites c) (nholes c) (nbeta c) d s -> total_z (nsites c) s = sz.
Proof. exact C39_spin_z_pf. Qed.
Print Assumptions C39_spin_z.

Theorem C39_two_sites :
  forall c l v psi i j, proper c -> construct_basis c = Ok (mkBasis c l) -> on_lattice (nsites c) psi -> amplitudes c l v psi ->
  0 <= i < nsites c -> 0 <= j < nsites c ->
  exists v', compute_spins_z_two_bodies c v i j = Ok v' /\ amplitudes c l v' (fun t => (spin_of (t i) * spin_of (t j) * psi t)%Qc).
Proof. exact C39_two_sites_pf. Qed.
Print Assumptions C39_two_sites.

Theorem C39_outside :
  forall c l v i j, proper c -> construct_basis c = Ok (mkBasis c l) -> length v = length l -> l <> [] ->
  ~ (0 <= i < nsites c /\ 0 <= j < nsites c) -> compute_spins_z_two_bodies c v i j = Err ValueError.
Proof. exact C39_outside_pf. Qed.
Print Assumptions C39_outside.

Theorem C39_all_pairs :
  forall c l v (r : Z -> Z -> list Qc) k, proper c -> construct_basis c = Ok (mkBasis c l) -> length v = length l -> (k < length v)%nat ->
  (forall i j, 0 <= i < nsites c -> 0 <= j < nsites c -> compute_spins_z_two_bodies c v i j = Ok (r i j)) ->
  sum_sites (nsites c) (fun i => sum_sites (nsites c) (fun j => nth k (r i j) 0%Qc)) =
  (half * qz (nalpha c - nbeta c) * (half * qz (nalpha c - nbeta c)) * nth k v 0)%Qc.
Proof. exact C39_all_pairs_pf. Qed.
Print Assumptions C39_all_pairs.

Example C39_example : fst (compute_spin_z ex22 ex_v) = half /\ compute_spins_z_two_bodies (ex_rect 2 1 1 0 1) [qz 3; qz 5] 0 1 = Ok [(- qfrac 3 4)%Qc; (- qfrac 5 4)%Qc] /\
  compute_spins_z_two_bodies (ex_rect 2 1 1 0 1) [qz 3; qz 5] 0 2 = Err ValueError.
Proof. split; [apply Qc_is_canon; vm_compute; reflexivity|]. split; [apply sameqv_ok; vm_compute; reflexivity | vm_compute; reflexivity]. Qed.

(** C40 *)
Theorem C40_exact :
  forall E c v roots s k a b, compute_S2_exp_val E c v = Ok (s * (s + 1))%Qc -> 0 <= k -> s = (half * qz k)%Qc ->
  roots (s * (s + 1))%Qc = (a, b) -> (a + b = - (1))%Qc -> (a * b = - (s * (s + 1)))%Qc ->
  compute_spin_number E roots c v = Ok (Some s).
Proof. exact C40_exact_pf. Qed.
Print Assumptions C40_exact.

Theorem C40_rounded :
  forall E c v roots x s k a b, compute_S2_exp_val E c v = Ok x -> 0 <= k -> s = (half * qz k)%Qc ->
  roots x = (a, b) ->
  (0 <= a /\ s - qfrac 1 4 < a /\ a < s + qfrac 1 4)%Qc \/ (a < 0 /\ s - qfrac 1 4 < b /\ b < s + qfrac 1 4)%Qc ->
  compute_spin_number E roots c v = Ok (Some s).
Proof. exact C40_rounded_pf. Qed.
Print Assumptions C40_rounded.

Theorem C40_nearest :
  forall E c v roots x a b, compute_S2_exp_val E c v = Ok x -> roots x = (a, b) ->
  exists k r, compute_spin_number E roots c v = Ok (Some (half * qz k)%Qc) /\ (r = a /\ 0 <= a \/ r = b /\ a < 0)%Qc /\
    (r - qfrac 1 4 <= half * qz k)%Qc /\ (half * qz k <= r + qfrac 1 4)%Qc.
Proof. exact C40_nearest_pf. Qed.
Print Assumptions C40_nearest.

(** Halfway between two half-integers, the integer one is taken. *)
Theorem C40_halfway :
  forall E c v roots x a b k, compute_S2_exp_val E c v = Ok x -> roots x = (a, b) -> 0 <= k -> a = (half * qz k + qfrac 1 4)%Qc ->
  exists j, compute_spin_number E roots c v = Ok (Some (half * qz j)%Qc) /\ Z.Even j /\ (j = k \/ j = k + 1).
Proof. exact C40_halfway_pf. Qed.
Print Assumptions C40_halfway.

Example C40_halfway_example : compute_S2_exp_val cpython (ex_rect 2 1 1 0 1) [1%Qc; 1%Qc] = Ok (qz 2) /\
  compute_spin_number cpython (fun _ => ((half * qz 3 + qfrac 1 4)%Qc, 0%Qc)) (ex_rect 2 1 1 0 1) [1%Qc; 1%Qc] = Ok (Some (qz 2)) /\
  compute_spin_number cpython (fun _ => ((half * qz 4 + qfrac 1 4)%Qc, 0%Qc)) (ex_rect 2 1 1 0 1) [1%Qc; 1%Qc] = Ok (Some (qz 2)).
Proof.
  assert (Q : compute_S2_exp_val cpython (ex_rect 2 1 1 0 1) [1%Qc; 1%Qc] = Ok (qz 2)) by (apply sameq_ok; vm_compute; reflexivity).
  split; [exact Q|]. unfold compute_spin_number. rewrite Q. split.
  all: destruct (Qclt_le_dec _ 0) as [L|_]; [exfalso; vm_compute in L; discriminate|]; do 2 f_equal; apply Qc_is_canon; vm_compute; reflexivity.
Qed.

Theorem C40_failure :
  forall E c v roots, compute_S2_exp_val E c v = Err IndexError ->
  compute_spin_number E roots c v = Ok None /\ compute_spin_multiplicity None = Some "-"%string.
Proof. exact C40_failure_pf. Qed.
Print Assumptions C40_failure.

Theorem C40_names :
  forall k, 0 <= k -> compute_spin_multiplicity (Some (half * qz k)%Qc) = Some (multiplicity_name k).
Proof. exact C40_names_pf. Qed.
Print Assumptions C40_names.

Theorem C40_no_name :
  forall k, k < 0 -> compute_spin_multiplicity (Some (half * qz k)%Qc) = None.
Proof. exact C40_no_name_pf. Qed.
Print Assumptions C40_no_name.

Example C40_example : compute_S2_exp_val cpython (ex_rect 2 1 1 0 1) [1%Qc; 1%Qc] = Ok (1 * (1 + 1))%Qc /\
  compute_spin_number cpython (fun _ => ((- (1 + 1))%Qc, 1%Qc)) (ex_rect 2 1 1 0 1) [1%Qc; 1%Qc] = Ok (Some 1%Qc) /\
  compute_spin_multiplicity (Some 1%Qc) = Some "triplet"%string /\ multiplicity_name 2 = "triplet"%string.
Proof.
  split; [apply sameq_ok; vm_compute; reflexivity|]. split; [|split; vm_compute; reflexivity].
  assert (Q : compute_S2_exp_val cpython (ex_rect 2 1 1 0 1) [1%Qc; 1%Qc] = Ok (qz 2)) by (apply sameq_ok; vm_compute; reflexivity).
  unfold compute_spin_number. rewrite Q. destruct (Qclt_le_dec _ 0) as [_|L]; [|exfalso; vm_compute in L; now apply L]. do 2 f_equal. apply Qc_is_canon. reflexivity.
Qed.

Theorem C40_negative_root_refuted :
  exists E c v roots a b, set_iter_ok E /\ proper c /\ compute_S2_exp_val E c v = Ok 0%Qc /\ roots 0%Qc = (a, b) /\
  (qfrac (-1) 1000000 < a)%Qc /\ (a < 0)%Qc /\ b = (- (1))%Qc /\
  compute_spin_number E roots c v = Ok (Some (- (1))%Qc) /\ compute_spin_multiplicity (Some (- (1))%Qc) = None.
Proof. exact C40_negative_root_refuted_pf. Qed.
Print Assumptions C40_negative_root_refuted.

(** C81 *)
Theorem C81_lowered :
  forall E c c' w K S arg arg' l l' m m' v v' psi, set_iter_ok E -> filled_whole c w -> filled_whole c' w -> proper c -> proper c' ->
  nsites c' = nsites c -> nholes c' = nholes c -> nbeta c' = nbeta c + 1 -> s_bz S = s_bij S ->
  assembled E c K S arg l m -> assembled E c' K S arg' l' m' ->
  on_lattice (nsites c) psi -> amplitudes c l v psi -> amplitudes c' l' v' (S_minus (nsites c) psi) ->
  exists phi, on_lattice (nsites c) phi /\ amplitudes c l (times m v) phi /\ amplitudes c' l' (times m' v') (S_minus (nsites c) phi).
Proof. exact C81_lowered_pf. Qed.
Print Assumptions C81_lowered.

Theorem C81_injective :
  forall c c' l l' v v' psi, proper c -> proper c' ->
  nsites c' = nsites c -> nholes c' = nholes c -> nbeta c' = nbeta c + 1 -> nbeta c < nalpha c ->
  construct_basis c = Ok (mkBasis c l) -> construct_basis c' = Ok (mkBasis c' l') ->
  on_lattice (nsites c) psi -> amplitudes c l v psi -> amplitudes c' l' v' (S_minus (nsites c) psi) ->
  (forall x, In x v' -> x = 0%Qc) -> forall x, In x v -> x = 0%Qc.
Proof. exact C81_injective_pf. Qed.
Print Assumptions C81_injective.

Theorem C81_energies :
  forall E c c' w K S arg arg' l l' m m' e v, set_iter_ok E -> filled_whole c w -> filled_whole c' w -> proper c -> proper c' ->
  nsites c' = nsites c -> nholes c' = nholes c -> Z.min (nalpha c) (nbeta c) <= Z.min (nalpha c') (nbeta c') -> s_bz S = s_bij S ->
  assembled E c K S arg l m -> assembled E c' K S arg' l' m' -> eigenvector m e v -> exists v', eigenvector m' e v'.
Proof. exact C81_energies_pf. Qed.
Print Assumptions C81_energies.

Theorem C81_levels :
  forall E c c' w K S arg arg' l l' m m' e v x, set_iter_ok E -> filled_whole c w -> filled_whole c' w -> proper c -> proper c' ->
  holes_in_order E c -> nsites c' = nsites c -> nholes c' = nholes c -> Z.min (nalpha c) (nbeta c) <= Z.min (nalpha c') (nbeta c') -> s_bz S = s_bij S ->
  assembled E c K S arg l m -> assembled E c' K S arg' l' m' -> eigenvector m e v -> compute_S2 E c v = Ok (map (fun y => (x * y)%Qc) v) ->
  exists v', eigenvector m' e v' /\ compute_S2 E c' v' = Ok (map (fun y => (x * y)%Qc) v').
Proof. exact C81_levels_pf. Qed.
Print Assumptions C81_levels.

Theorem C81_converse_refuted :
  exists E c c' w K S arg arg' l l' m m' e v, set_iter_ok E /\ filled_whole c w /\ filled_whole c' w /\ proper c /\ proper c' /\
  nsites c' = nsites c /\ nholes c' = nholes c /\ Z.min (nalpha c') (nbeta c') < Z.min (nalpha c) (nbeta c) /\ s_bz S = s_bij S /\
  assembled E c K S arg l m /\ assembled E c' K S arg' l' m' /\ eigenvector m e v /\ ~ exists v', eigenvector m' e v'.
Proof. exact C81_converse_refuted_pf. Qed.
Print Assumptions C81_converse_refuted.

(** 2x2 sites, one hole, three ups: the uniform state, seen again with one down *)
Definition ex_up : configuration := ex_rect 1 1 2 1 0.
Definition ex_up_basis : list (list Z) := get [] (b <- construct_basis ex_up ;; Ok (determinants b)).
Definition ex_up_ham : csr := get (mkCsr 0 []) (build_hamiltonian cpython ex_up ex_couplings (mkBasis ex_up ex_up_basis) (mkSwitches true true true true true true) (RList [])).

Example C81_example : filled_whole ex_up 2 /\ proper ex_up /\ nbeta ex22 = nbeta ex_up + 1 /\ nbeta ex_up < nalpha ex_up /\
  assembled cpython ex_up ex_couplings (mkSwitches true true true true true true) (RList []) ex_up_basis ex_up_ham /\
  amplitudes ex_up ex_up_basis [1%Qc; 1%Qc; 1%Qc; 1%Qc] (fun _ => 1%Qc) /\
  eigenvector ex_up_ham (qz 9) [1%Qc; 1%Qc; 1%Qc; 1%Qc] /\ exists v', eigenvector ex_ham (qz 9) v'.
Proof.
  assert (F : filled_whole ex_up 2) by (split; [exists 1, 1, 2; vm_compute; repeat (split; [congruence|]); reflexivity|]; split; [reflexivity|]; vm_compute; intuition congruence).
  assert (P : proper ex_up) by (unfold proper; vm_compute; intuition congruence).
  assert (A : assembled cpython ex_up ex_couplings (mkSwitches true true true true true true) (RList []) ex_up_basis ex_up_ham) by (split; vm_compute; reflexivity).
  assert (V : eigenvector ex_up_ham (qz 9) [1%Qc; 1%Qc; 1%Qc; 1%Qc]).
  { split; [reflexivity|]. split; [vm_compute; reflexivity|]. exists 1%Qc. split; [left; reflexivity | discriminate]. }
  split; [exact F|]. split; [exact P|]. split; [reflexivity|]. split; [reflexivity|]. split; [exact A|]. split.
  { split; [reflexivity|]. intros k d s Hk _. do 4 (destruct k as [|k]; [reflexivity|]). exfalso. change (nth_error (@nil (list Z)) k = Some d) in Hk. destruct k; discriminate. }
  split; [exact V|]. destruct ex22_proper as (HE & F' & P' & _ & _ & A' & _).
  apply (C81_energies cpython ex_up ex22 2 ex_couplings (mkSwitches true true true true true true) (RList []) (RList []) ex_up_basis ex_basis ex_up_ham ex_ham (qz 9) [1%Qc; 1%Qc; 1%Qc; 1%Qc] HE F F' P P'); try reflexivity; try assumption.
  vm_compute. discriminate.
Qed.

(** two ups on two sites: spin one, seen again with one down *)
Example C81_levels_example : filled_whole (ex_rect 2 1 1 0 0) 2 /\ filled_whole (ex_rect 2 1 1 0 1) 2 /\ holes_in_order cpython (ex_rect 2 1 1 0 0) /\
  eigenvector (pair_ham 0) 0%Qc [1%Qc] /\ compute_S2 cpython (ex_rect 2 1 1 0 0) [1%Qc] = Ok [qz 2] /\
  eigenvector (pair_ham 1) 0%Qc [1%Qc; 1%Qc] /\ compute_S2 cpython (ex_rect 2 1 1 0 1) [1%Qc; 1%Qc] = Ok [qz 2; qz 2].
Proof.
  split; [apply (pair_ok 0); split; discriminate|]. split; [apply (pair_ok 1); split; discriminate|]. split; [left; discriminate|].
  split; [split; [reflexivity|]; split; [vm_compute; reflexivity|]; exists 1%Qc; split; [left; reflexivity | discriminate]|]. split; [vm_compute; reflexivity|].
  split; [split; [reflexivity|]; split; [vm_compute; reflexivity|]; exists 1%Qc; split; [left; reflexivity | discriminate]|]. vm_compute; reflexivity.
Qed.
