(** Theorems on the signs of the amplitudes (C88-C96). *)
From Coq Require Import ZArith List Bool QArith Qcanon.
From Verif Require Import PyBase PyFacts Runtimes Lattice Base Interact Ham Spin Spec SpecOps SpecTJ SpecSpin SpinDefs Geometry HamSpec SignDefs FInter PQc FMulti Examples FSign FSinglet FFerro FTop.
Import ListNotations.
Open Scope Z_scope.

(** C88 *)
Theorem C88_elements :
  forall E c w r K S arg arg' l l' m m' i j d e s t, set_iter_ok E -> filled c w r ->
  assembled E c K S arg l m -> assembled E c (opposite_t K) S arg' l' m' ->
  nth_error l i = Some d -> nth_error l j = Some e ->
  describes (nsites c) (nholes c) (nbeta c) d s -> describes (nsites c) (nholes c) (nbeta c) e t ->
  csr_at m' (Z.of_nat i) (Z.of_nat j) = (hole_sign (nsites c) (point w) s * hole_sign (nsites c) (point w) t * csr_at m (Z.of_nat i) (Z.of_nat j))%Qc.
Proof. exact C88_elements_pf. Qed.
Print Assumptions C88_elements.

Theorem C88_energies :
  forall E c w r K S arg arg' l l' m m' e v, set_iter_ok E -> filled c w r ->
  assembled E c K S arg l m -> assembled E c (opposite_t K) S arg' l' m' -> eigenvector m e v ->
  exists v', signed c l (hole_sign (nsites c) (point w)) v v' /\ eigenvector m' e v'.
Proof. exact C88_energies_pf. Qed.
Print Assumptions C88_energies.

(** one hole and one up on two sites, t = 1 *)
Example C88_example : let c := ex_rect 2 1 1 1 0 in let S := mkSwitches true true true true true true in let l := [[0; 1]; [1; 0]] in
  set_iter_ok cpython /\ filled c 2 (zrange 0 2) /\ exists m m',
  assembled cpython c ex_couplings S (RList []) l m /\ assembled cpython c (opposite_t ex_couplings) S (RList []) l m' /\
  eigenvector m (qz 1) [1%Qc; 1%Qc] /\ eigenvector m' (qz 1) [1%Qc; (- (1))%Qc] /\ times m' [1%Qc; 1%Qc] = [(- (1))%Qc; (- (1))%Qc].
Proof.
  intros c S l. split; [exact cpython_ok|].
  split; [split; [exists 2, 1, 1; vm_compute; repeat (split; [congruence|]); reflexivity|]; split; [reflexivity|]; vm_compute; intuition congruence|].
  do 2 eexists. split; [split; vm_compute; reflexivity|]. split; [split; vm_compute; reflexivity|].
  split; [split; [vm_compute; reflexivity|]; split; [vm_compute; reflexivity|]; exists 1%Qc; split; [left; reflexivity | discriminate]|].
  split; [split; [vm_compute; reflexivity|]; split; [vm_compute; reflexivity|]; exists 1%Qc; split; [left; reflexivity | discriminate]|].
  vm_compute. reflexivity.
Qed.

(** C89 *)
Theorem C89_elements :
  forall E c w r K S arg l m i j d e s t, set_iter_ok E -> filled c w r -> assembled E c K S arg l m ->
  nholes c = 0 \/ (s_bt S = false /\ s_bSD S = false /\ s_btN S = false /\ (0 <= i_Jhpar K)%Qc /\ (0 <= i_Jhper K)%Qc) -> (0 <= i_J K)%Qc ->
  i <> j -> nth_error l i = Some d -> nth_error l j = Some e ->
  describes (nsites c) (nholes c) (nbeta c) d s -> describes (nsites c) (nholes c) (nbeta c) e t ->
  (0 <= csr_at m (Z.of_nat i) (Z.of_nat j) /\ down_sign (nsites c) (point w) s * down_sign (nsites c) (point w) t * csr_at m (Z.of_nat i) (Z.of_nat j) = - csr_at m (Z.of_nat i) (Z.of_nat j))%Qc.
Proof. exact C89_elements_pf. Qed.
Print Assumptions C89_elements.

Theorem C89_mean :
  forall E c w r K S arg l m v v', set_iter_ok E -> filled c w r -> assembled E c K S arg l m ->
  nholes c = 0 \/ (s_bt S = false /\ s_bSD S = false /\ s_btN S = false /\ (0 <= i_Jhpar K)%Qc /\ (0 <= i_Jhper K)%Qc) -> (0 <= i_J K)%Qc ->
  signed c l (down_sign (nsites c) (point w)) (map magnitude v) v' ->
  inner v' v' = inner v v /\ (csr_mean m v' <= csr_mean m v)%Qc.
Proof. exact C89_mean_pf. Qed.
Print Assumptions C89_mean.

(** four sites in a ring, two downs *)
Example C89_example : set_iter_ok cpython /\ filled_whole ring_conf 2 /\ assembled cpython ring_conf ex_couplings ring_switches (RList []) ring_basis ring_ham /\
  nholes ring_conf = 0 /\ i_J ex_couplings = qz 2 /\
  csr_at ring_ham 0 2 = qz 1 /\ csr_mean ring_ham (map qz [1; 1; 2; 2; 1; 1]) = (- qz 8)%Qc /\
  csr_mean ring_ham ring_state = (- qz 72)%Qc.
Proof.
  split; [exact cpython_ok|]. split; [exact (proj1 ring_ok)|]. split; [exact (proj2 ring_ok)|]. split; [reflexivity|]. split; [reflexivity|].
  split; [vm_compute; reflexivity|]. split; vm_compute; reflexivity.
Qed.

(** C90 *)
Theorem C90_unique :
  forall E c w K S arg l m e, set_iter_ok E -> filled_whole c w -> assembled E c K S arg l m ->
  nholes c = 0 -> s_bij S = true -> (0 < i_J K)%Qc -> (forall u, zlen u = csr_dim m -> (e * inner u u <= csr_mean m u)%Qc) ->
  forall v, eigenvector m e v ->
  ((forall k d s, nth_error l k = Some d -> describes (nsites c) (nholes c) (nbeta c) d s -> (0 < down_sign (nsites c) (point w) s * nth k v 0)%Qc) \/
   (forall k d s, nth_error l k = Some d -> describes (nsites c) (nholes c) (nbeta c) d s -> (down_sign (nsites c) (point w) s * nth k v 0 < 0)%Qc)) /\
  forall v', eigenvector m e v' -> exists x, v' = map (fun y => (x * y)%Qc) v.
Proof. exact C90_unique_pf. Qed.
Print Assumptions C90_unique.

(** four sites in a ring, two downs: the state of energy -3J *)
Example C90_example : set_iter_ok cpython /\ filled_whole ring_conf 2 /\ assembled cpython ring_conf ex_couplings ring_switches (RList []) ring_basis ring_ham /\
  nholes ring_conf = 0 /\ s_bij ring_switches = true /\ i_J ex_couplings = qz 2 /\
  (forall u, zlen u = csr_dim ring_ham -> (- qz 6 * inner u u <= csr_mean ring_ham u)%Qc) /\ eigenvector ring_ham (- qz 6) ring_state.
Proof.
  split; [exact cpython_ok|]. split; [exact (proj1 ring_ok)|]. split; [exact (proj2 ring_ok)|]. split; [reflexivity|]. split; [reflexivity|]. split; [reflexivity|].
  split; [exact ring_lowest | exact ring_eigen].
Qed.

(** C91 *)
Theorem C91_spin :
  forall E c w K S arg l m e v, set_iter_ok E -> filled_whole c w -> proper c -> assembled E c K S arg l m ->
  nholes c = 0 -> s_bij S = true -> s_bz S = true -> (0 < i_J K)%Qc -> (forall u, zlen u = csr_dim m -> (e * inner u u <= csr_mean m u)%Qc) ->
  eigenvector m e v ->
  let j := (half * qz (Z.abs (nalpha c - nbeta c)))%Qc in
  compute_S2 E c v = Ok (map (fun x => (j * (j + 1) * x)%Qc) v) /\ compute_S2_exp_val E c v = Ok (j * (j + 1))%Qc.
Proof. exact C91_spin_pf. Qed.
Print Assumptions C91_spin.

(** four sites in a ring, two downs: a singlet *)
Example C91_example : set_iter_ok cpython /\ filled_whole ring_conf 2 /\ proper ring_conf /\ assembled cpython ring_conf ex_couplings ring_switches (RList []) ring_basis ring_ham /\
  nholes ring_conf = 0 /\ s_bij ring_switches = true /\ s_bz ring_switches = true /\ i_J ex_couplings = qz 2 /\
  (forall u, zlen u = csr_dim ring_ham -> (- qz 6 * inner u u <= csr_mean ring_ham u)%Qc) /\ eigenvector ring_ham (- qz 6) ring_state /\
  compute_S2 cpython ring_conf ring_state = Ok (map (fun _ => 0%Qc) ring_state).
Proof.
  split; [exact cpython_ok|]. split; [exact (proj1 ring_ok)|]. split; [unfold proper; vm_compute; intuition congruence|]. split; [exact (proj2 ring_ok)|]. do 4 (split; [reflexivity|]).
  split; [exact ring_lowest|]. split; [exact ring_eigen|]. vm_compute. reflexivity.
Qed.

(** C92 *)
Theorem C92_order :
  forall E c c' w K S arg arg' l l' m m' e e' v, set_iter_ok E -> filled_whole c w -> filled_whole c' w -> proper c -> proper c' ->
  nsites c' = nsites c -> nholes c = 0 -> nholes c' = 0 -> Z.min (nalpha c) (nbeta c) < Z.min (nalpha c') (nbeta c') ->
  s_bij S = true -> s_bz S = true -> (0 < i_J K)%Qc ->
  assembled E c K S arg l m -> assembled E c' K S arg' l' m' -> (forall u, zlen u = csr_dim m' -> (e' * inner u u <= csr_mean m' u)%Qc) ->
  eigenvector m e v -> (e' < e)%Qc.
Proof. exact C92_order_pf. Qed.
Print Assumptions C92_order.

(** the same ring with one down only: its lowest energy is -4 *)
Definition one_conf : configuration := ex_rect 1 1 2 0 1.
Definition one_basis : list (list Z) := get [] (b <- construct_basis one_conf ;; Ok (determinants b)).
Definition one_ham : csr := get (mkCsr 0 []) (build_hamiltonian cpython one_conf ex_couplings (mkBasis one_conf one_basis) ring_switches (RList [])).
Example C92_example : filled_whole one_conf 2 /\ proper one_conf /\ proper ring_conf /\ nsites ring_conf = nsites one_conf /\ nholes one_conf = 0 /\
  Z.min (nalpha one_conf) (nbeta one_conf) < Z.min (nalpha ring_conf) (nbeta ring_conf) /\
  assembled cpython one_conf ex_couplings ring_switches (RList []) one_basis one_ham /\ eigenvector one_ham (- qz 4) (map qz [1; -1; -1; 1]).
Proof.
  split; [split; [exists 1, 1, 2; vm_compute; repeat (split; [congruence|]); reflexivity|]; split; [reflexivity|]; vm_compute; intuition congruence|].
  split; [unfold proper; vm_compute; intuition congruence|]. split; [unfold proper; vm_compute; intuition congruence|]. do 3 (split; [reflexivity|]).
  split; [split; vm_compute; reflexivity|]. split; [reflexivity|]. split; [vm_compute; reflexivity|]. exists (qz 1). split; [left; reflexivity | discriminate].
Qed.

(** C93 *)
Theorem C93_reversed :
  forall E c w K S arg l m e v, set_iter_ok E -> filled_whole c w -> proper c -> assembled E c K S arg l m ->
  nholes c = 0 -> nalpha c = nbeta c -> s_bij S = true -> (0 < i_J K)%Qc -> (forall u, zlen u = csr_dim m -> (e * inner u u <= csr_mean m u)%Qc) ->
  eigenvector m e v ->
  reverse_spins_vect 0%Qc E (mkBasis c l) v = Ok (map (fun x => if Z.odd (nbeta c) then (- x)%Qc else x) v).
Proof. exact C93_reversed_pf. Qed.
Print Assumptions C93_reversed.

(** the ring has two downs: even; the two sites have one: odd *)
Example C93_example : nalpha ring_conf = nbeta ring_conf /\ reverse_spins_vect 0%Qc cpython (mkBasis ring_conf ring_basis) ring_state = Ok ring_state /\
  nalpha (ex_rect 2 1 1 0 1) = nbeta (ex_rect 2 1 1 0 1) /\ eigenvector (pair_ham 1) (- qz 2) (map qz [1; -1]) /\
  reverse_spins_vect 0%Qc cpython (mkBasis (ex_rect 2 1 1 0 1) (pair_basis 1)) (map qz [1; -1]) = Ok (map qz [-1; 1]).
Proof.
  split; [reflexivity|]. split; [vm_compute; reflexivity|]. split; [reflexivity|]. split; [|vm_compute; reflexivity].
  split; [reflexivity|]. split; [vm_compute; reflexivity|]. exists (qz 1). split; [left; reflexivity | discriminate].
Qed.

(** C94 *)
Theorem C94_certificate :
  forall E c w r K S arg l m e v, set_iter_ok E -> filled c w r -> assembled E c K S arg l m ->
  nholes c = 0 \/ (s_bt S = false /\ s_bSD S = false /\ s_btN S = false /\ (0 <= i_Jhpar K)%Qc /\ (0 <= i_Jhper K)%Qc) -> (0 <= i_J K)%Qc ->
  eigenvector m e v -> follows c l (down_sign (nsites c) (point w)) v -> lowest m e.
Proof. exact C94_certificate_pf. Qed.
Print Assumptions C94_certificate.

Theorem C94_characterised :
  forall E c w K S arg l m e v, set_iter_ok E -> filled_whole c w -> assembled E c K S arg l m ->
  nholes c = 0 -> s_bij S = true -> (0 < i_J K)%Qc -> eigenvector m e v ->
  (lowest m e <-> follows c l (down_sign (nsites c) (point w)) v \/ follows c l (down_sign (nsites c) (point w)) (map (fun x => - x)%Qc v)).
Proof. exact C94_characterised_pf. Qed.
Print Assumptions C94_characterised.

(** four sites in a ring, two downs: the signs of the state of energy -3J are Marshall's *)
Example C94_example : set_iter_ok cpython /\ filled_whole ring_conf 2 /\ assembled cpython ring_conf ex_couplings ring_switches (RList []) ring_basis ring_ham /\
  nholes ring_conf = 0 /\ s_bij ring_switches = true /\ i_J ex_couplings = qz 2 /\ eigenvector ring_ham (- qz 6) (map (fun x => - x)%Qc ring_state) /\
  follows ring_conf ring_basis (down_sign (nsites ring_conf) (point 2)) (map (fun x => - x)%Qc ring_state).
Proof.
  split; [exact cpython_ok|]. split; [exact (proj1 ring_ok)|]. split; [exact (proj2 ring_ok)|]. split; [reflexivity|]. split; [reflexivity|]. split; [reflexivity|].
  split; [exact ring_opposite | exact ring_follows].
Qed.

(** C95 *)
Theorem C95_elements :
  forall E c w r K S arg l m i j d d' s t, set_iter_ok E -> filled c w r -> assembled E c K S arg l m -> unfrustrated K S ->
  i <> j -> nth_error l i = Some d -> nth_error l j = Some d' ->
  describes (nsites c) (nholes c) (nbeta c) d s -> describes (nsites c) (nholes c) (nbeta c) d' t ->
  (hop_sign K (nsites c) (point w) s * hop_sign K (nsites c) (point w) t * csr_at m (Z.of_nat i) (Z.of_nat j) <= 0)%Qc.
Proof. exact C95_elements_pf. Qed.
Print Assumptions C95_elements.

Theorem C95_lowest :
  forall E c w r K S arg l m e v, set_iter_ok E -> filled c w r -> assembled E c K S arg l m -> unfrustrated K S ->
  eigenvector m e v -> follows c l (hop_sign K (nsites c) (point w)) v -> lowest m e.
Proof. exact C95_lowest_pf. Qed.
Print Assumptions C95_lowest.

Theorem C95_sectors :
  forall E c c' w K S arg arg' l l' m m' e v, set_iter_ok E -> filled_whole c w -> filled_whole c' w -> proper c -> proper c' ->
  holes_in_order E c -> nsites c' = nsites c -> nholes c' = nholes c -> s_bz S = s_bij S -> unfrustrated K S ->
  assembled E c K S arg l m -> assembled E c' K S arg' l' m' -> eigenvector m e v -> follows c l (hop_sign K (nsites c) (point w)) v ->
  let j := (half * qz (nsites c - nholes c))%Qc in
  exists v', eigenvector m' e v' /\ follows c' l' (hop_sign K (nsites c') (point w)) v' /\ compute_S2 E c' v' = Ok (map (fun y => (j * (j + 1) * y)%Qc) v') /\ lowest m' e.
Proof. exact C95_sectors_pf. Qed.
Print Assumptions C95_sectors.

Theorem C95_frustrated_refuted :
  exists E c w K S arg l m e v, set_iter_ok E /\ filled_whole c w /\ proper c /\ assembled E c K S arg l m /\
  s_bSD S = false /\ s_btN S = false /\ s_bij S = true /\ (0 < i_J K)%Qc /\
  eigenvector m e v /\ follows c l (hop_sign K (nsites c) (point w)) v /\ ~ lowest m e.
Proof. exact C95_frustrated_refuted_pf. Qed.
Print Assumptions C95_frustrated_refuted.

(** one hole and three spins on four sites in a ring, t = 1, ferromagnetic exchanges: three ups, then one down *)
Example C95_example : set_iter_ok cpython /\ filled_whole (ferro_conf 0) 2 /\ filled_whole (ferro_conf 1) 2 /\ proper (ferro_conf 0) /\ proper (ferro_conf 1) /\
  holes_in_order cpython (ferro_conf 0) /\ nsites (ferro_conf 1) = nsites (ferro_conf 0) /\ nholes (ferro_conf 1) = nholes (ferro_conf 0) /\
  s_bz ferro_switches = s_bij ferro_switches /\ unfrustrated ferro_couplings ferro_switches /\
  assembled cpython (ferro_conf 0) ferro_couplings ferro_switches (RList []) (ferro_basis 0) (ferro_ham 0) /\
  assembled cpython (ferro_conf 1) ferro_couplings ferro_switches (RList []) (ferro_basis 1) (ferro_ham 1) /\
  eigenvector (ferro_ham 0) (- qz 3) ferro_state /\ follows (ferro_conf 0) (ferro_basis 0) (hop_sign ferro_couplings (nsites (ferro_conf 0)) (point 2)) ferro_state /\
  map this (times (ferro_ham 1) (map qz [1; 1; 1; -1; -1; -1; -1; -1; -1; 1; 1; 1])) = map (fun x => this (qz x)) [-3; -3; -3; 3; 3; 3; 3; 3; 3; -3; -3; -3].
Proof.
  destruct (ferro_ok 0) as (F0 & P0 & A0); [split; discriminate|]. destruct (ferro_ok 1) as (F1 & P1 & A1); [split; discriminate|].
  split; [exact cpython_ok|]. split; [exact F0|]. split; [exact F1|]. split; [exact P0|]. split; [exact P1|]. split; [left; vm_compute; discriminate|].
  split; [reflexivity|]. split; [reflexivity|]. split; [reflexivity|]. split; [exact ferro_unfrustrated|]. split; [exact A0|]. split; [exact A1|].
  split; [exact ferro_eigen|]. split; [exact ferro_follows|]. vm_compute. reflexivity.
Qed.

(** C96 *)
Theorem C96_unique :
  forall E c w K S arg l m e v, set_iter_ok E -> filled_whole c w -> assembled E c K S arg l m ->
  ferromagnetic K S -> nholes c = 0 \/ (s_bt S = true /\ i_t K <> 0%Qc) -> lowest m e -> eigenvector m e v ->
  (follows c l (hop_sign K (nsites c) (point w)) v \/ follows c l (hop_sign K (nsites c) (point w)) (map (fun x => - x)%Qc v)) /\
  forall v', eigenvector m e v' -> exists x, v' = map (fun y => (x * y)%Qc) v.
Proof. exact C96_unique_pf. Qed.
Print Assumptions C96_unique.

Theorem C96_spin :
  forall E c w K S arg l m e v, set_iter_ok E -> filled_whole c w -> proper c -> holes_in_order E c -> assembled E c K S arg l m ->
  ferromagnetic K S -> nholes c = 0 \/ (s_bt S = true /\ i_t K <> 0%Qc) -> s_bz S = true -> lowest m e -> eigenvector m e v ->
  let j := (half * qz (nsites c - nholes c))%Qc in
  compute_S2 E c v = Ok (map (fun y => (j * (j + 1) * y)%Qc) v).
Proof. exact C96_spin_pf. Qed.
Print Assumptions C96_spin.

(** one hole, two ups and one down on four sites in a ring: spin 3/2 *)
Example C96_example : set_iter_ok cpython /\ filled_whole (ferro_conf 1) 2 /\ proper (ferro_conf 1) /\ holes_in_order cpython (ferro_conf 1) /\
  assembled cpython (ferro_conf 1) ferro_couplings ferro_switches (RList []) (ferro_basis 1) (ferro_ham 1) /\
  ferromagnetic ferro_couplings ferro_switches /\ (s_bt ferro_switches = true /\ i_t ferro_couplings = qz 1) /\ s_bz ferro_switches = true /\
  lowest (ferro_ham 1) (- qz 3) /\ eigenvector (ferro_ham 1) (- qz 3) ferro_state1 /\
  (nholes (ferro_conf 1) = 1 /\ nalpha (ferro_conf 1) = 2 /\ nbeta (ferro_conf 1) = 1) /\ this (half * qz 3 * (half * qz 3 + 1))%Qc = (15 # 4)%Q.
Proof.
  destruct (ferro_ok 1) as (F1 & P1 & A1); [split; discriminate|].
  split; [exact cpython_ok|]. split; [exact F1|]. split; [exact P1|]. split; [left; vm_compute; discriminate|]. split; [exact A1|]. split; [exact ferro_magnetic|].
  split; [split; reflexivity|]. split; [reflexivity|]. split; [exact ferro_lowest1|]. split; [exact ferro_eigen1|]. split; [vm_compute; auto | vm_compute; reflexivity].
Qed.
