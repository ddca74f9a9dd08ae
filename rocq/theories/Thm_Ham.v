(** Theorems on the Hamiltonian (C28-C35) and on the couplings of one determinant (C41). *)
From Coq Require Import ZArith List Bool Permutation QArith Qcanon.
From Verif Require Import PyBase PyFacts Runtimes Lattice Base Interact Ham Spec SpecOps SpecTJ Geometry HamSpec FInter FHam FDyn FDraw Examples.
Import ListNotations.
Open Scope Z_scope.

(** 2x2 sites, one hole, one down, two ups: 12 determinants *)
Definition ex_on : switches := mkSwitches true true true true true true.
Definition ex_m : csr := get (mkCsr 0 []) (b <- construct_basis ex22 ;; build_hamiltonian cpython ex22 ex_couplings b ex_on (RList [])).
Definition ex_l : list (list Z) := get [] (b <- construct_basis ex22 ;; Ok (determinants b)).

Example ex22_filled : filled_whole ex22 2 /\ sized ex22 /\ assembled cpython ex22 ex_couplings ex_on (RList []) ex_l ex_m.
Proof.
  split; [|split].
  - split; [exists 1, 1, 2; vm_compute; repeat (split; [congruence|]); reflexivity|]. split; [reflexivity|]. vm_compute. intuition congruence.
  - unfold sized. vm_compute. intuition congruence.
  - split; vm_compute; reflexivity.
Qed.

(** C28 *)
Theorem C28_assembly :
  forall E c w r K S arg, set_iter_ok E -> filled c w r ->
  exists l m, assembled E c K S arg l m /\ csr_dim m = Z.of_nat (length l) /\ csr_dim m = compute_dimension (nsites c) (nalpha c) (nbeta c) /\
    (forall x i j, In (x, i, j) (csr_entries m) -> 0 <= i < csr_dim m /\ 0 <= j < csr_dim m) /\
    (forall d, In d l -> exists s, describes (nsites c) (nholes c) (nbeta c) d s /\ sector (nsites c) (nholes c) (nbeta c) s).
Proof. exact C28_assembly_pf. Qed.
Print Assumptions C28_assembly.

Example C28_example : csr_dim ex_m = 12 /\ length (csr_entries ex_m) = 108%nat /\
  nth_error ex_l 0 = Some [0; 1; 2; 3] /\ nth_error ex_l 11 = Some [3; 2; 0; 1].
Proof. vm_compute. auto 10. Qed.

(** C29 *)
Theorem C29_elements :
  forall E c w r K S arg l m i j d e s t, set_iter_ok E -> filled c w r -> assembled E c K S arg l m ->
  nth_error l i = Some d -> nth_error l j = Some e ->
  describes (nsites c) (nholes c) (nbeta c) d s -> describes (nsites c) (nholes c) (nbeta c) e t ->
  csr_at m (Z.of_nat i) (Z.of_nat j) = tj_element (between (nsites c) (point w) r r) K S s t.
Proof. exact C29_elements_pf. Qed.
Print Assumptions C29_elements.

Example C29_example :
  map (fun j => csr_at ex_m 0 j) (zrange 0 12) =
  map (fun e => tj_element (between 4 (point 2) (zrange 0 4) (zrange 0 4)) ex_couplings ex_on
        (fun x => if x =? 0 then Hole else if x =? 1 then Down else Up) e)
      (map (fun p => fun x => if x =? fst p then Hole else if x =? snd p then Down else Up)
         [(0, 1); (0, 2); (0, 3); (1, 0); (1, 2); (1, 3); (2, 0); (2, 1); (2, 3); (3, 0); (3, 1); (3, 2)]) /\
  csr_at ex_m 0 0 <> 0%Qc /\ csr_at ex_m 0 1 = 0%Qc /\ csr_at ex_m 0 3 = qz 1.
Proof. split; [vm_compute; reflexivity|]. split; [vm_compute; discriminate|]. split; apply Qc_is_canon; vm_compute; reflexivity. Qed.

(** C30 *)
Theorem C30_symmetric :
  forall E c w r K S arg l m i j, set_iter_ok E -> filled c w r -> assembled E c K S arg l m ->
  csr_at m i j = csr_at m j i.
Proof. exact C30_symmetric_pf. Qed.
Print Assumptions C30_symmetric.

Example C30_example : csr_at ex_m 0 11 = csr_at ex_m 11 0 /\ csr_at ex_m 0 10 = csr_at ex_m 10 0 /\ csr_at ex_m 0 9 = qz 6 /\ csr_at ex_m 9 0 = qz 6.
Proof. vm_compute. auto 10. Qed.

(** C31 *)
Theorem C31_rotations :
  forall E c K S arg l m k i j d e, set_iter_ok E ->
  sized c -> nbh c = nbv c -> filled_whole c (nbh c * nblocs_side c) -> assembled E c K S arg l m ->
  nth_error l i = Some d -> nth_error l j = Some e ->
  exists i' j', get_index_in_basis c (rotate_determinant k c d) = Ok i' /\ get_index_in_basis c (rotate_determinant k c e) = Ok j' /\
    csr_at m i' j' = csr_at m (Z.of_nat i) (Z.of_nat j).
Proof. exact C31_rotations_pf. Qed.
Print Assumptions C31_rotations.

Theorem C31_half_turn :
  forall E c K S arg l m k i j d e, set_iter_ok E ->
  sized c -> k mod 4 = 2 -> filled_whole c (nbh c * nblocs_side c) -> assembled E c K S arg l m ->
  nth_error l i = Some d -> nth_error l j = Some e ->
  exists i' j', get_index_in_basis c (rotate_determinant k c d) = Ok i' /\ get_index_in_basis c (rotate_determinant k c e) = Ok j' /\
    csr_at m i' j' = csr_at m (Z.of_nat i) (Z.of_nat j).
Proof. exact C31_half_turn_pf. Qed.
Print Assumptions C31_half_turn.

Example C31_example : nbh ex22 = nbv ex22 /\ rotate_determinant 1 ex22 [0; 1; 2; 3] = [2; 0; 1; 3] /\
  get_index_in_basis ex22 [2; 0; 1; 3] = Ok 6 /\ rotate_determinant 1 ex22 [0; 3; 1; 2] = [2; 1; 0; 3] /\
  get_index_in_basis ex22 [2; 1; 0; 3] = Ok 7 /\ csr_at ex_m 6 7 = csr_at ex_m 0 2 /\ csr_at ex_m 0 2 = qz 2.
Proof. vm_compute. auto 10. Qed.

(** C32 *)
Theorem C32_spin_reversal :
  forall E c w K S arg l m, set_iter_ok E -> filled_whole c w -> 0 <= nalpha c -> assembled E c K S arg l m ->
  exists c' rev l' m', reverse_spins_basis E (mkBasis c l) = Ok (mkBasis c' rev) /\ assembled E c' K S arg l' m' /\
    Permutation rev l' /\ csr_dim m' = csr_dim m /\
    forall i j d e, nth_error rev i = Some d -> nth_error rev j = Some e ->
    exists i' j', get_index_in_basis c' d = Ok i' /\ get_index_in_basis c' e = Ok j' /\
      csr_at m' i' j' = csr_at m (Z.of_nat i) (Z.of_nat j).
Proof. exact C32_spin_reversal_pf. Qed.
Print Assumptions C32_spin_reversal.

Example C32_example : exists c' rev, reverse_spins_basis cpython (mkBasis ex22 ex_l) = Ok (mkBasis c' rev) /\
  nbeta c' = 2 /\ nalpha c' = 1 /\ nth_error rev 0 = Some [0; 2; 3; 1].
Proof. eexists _, _. split; [vm_compute; reflexivity|]. vm_compute. auto 10. Qed.

(** C33 *)
Theorem C33_row_sums :
  forall E c w r K arg l m i, set_iter_ok E -> filled c w r ->
  assembled E c K (mkSwitches false true true false false false) arg l m -> 0 <= i < csr_dim m ->
  sum_sites (csr_dim m) (fun j => csr_at m i j) = 0%Qc.
Proof. exact C33_row_sums_pf. Qed.
Print Assumptions C33_row_sums.

Example C33_example :
  let m := get (mkCsr 0 []) (build_hamiltonian cpython ex22 ex_couplings (mkBasis ex22 ex_l) (mkSwitches false true true false false false) (RList [])) in
  map (fun j => csr_at m 0 j) [0; 1; 2] = [Q2Qc (- (2 # 1)); 0%Qc; Q2Qc (2 # 1)].
Proof. vm_compute. reflexivity. Qed.

(** C34 *)
Theorem C34_order :
  forall E E' c w r K S arg arg' l l' m m', set_iter_ok E -> set_iter_ok E' -> filled c w r ->
  assembled E c K S arg l m -> assembled E' c K S arg' l' m' ->
  l = l' /\ csr_dim m = csr_dim m' /\ forall i j, csr_at m i j = csr_at m' i j.
Proof. exact C34_order_pf. Qed.
Print Assumptions C34_order.

Example C34_example : exists m, set_iter_ok descending /\ set_iter_ok cpython /\
  assembled descending ex22 ex_couplings ex_on (RNested []) ex_l m /\ csr_entries m <> csr_entries ex_m /\ csr_at m 0 5 = csr_at ex_m 0 5.
Proof.
  eexists. split; [exact descending_ok|]. split; [exact cpython_ok|]. split; [split; vm_compute; reflexivity|]. split; vm_compute; [discriminate | reflexivity].
Qed.

(** C35 *)
Theorem C35_additive :
  forall E c w r K S arg l m mt mz mij mSD mtN mV, set_iter_ok E -> filled c w r ->
  assembled E c K S arg l m ->
  assembled E c K only_t arg l mt -> assembled E c K only_z arg l mz -> assembled E c K only_ij arg l mij ->
  assembled E c K only_SD arg l mSD -> assembled E c K only_tN arg l mtN -> assembled E c K only_V arg l mV ->
  forall i j, csr_at m i j =
    (only (s_bt S) (csr_at mt i j) + only (s_bz S) (csr_at mz i j) + only (s_bij S) (csr_at mij i j)
     + only (s_bSD S) (csr_at mSD i j) + only (s_btN S) (csr_at mtN i j) + only (s_bV S) (csr_at mV i j))%Qc.
Proof. exact C35_additive_pf. Qed.
Print Assumptions C35_additive.

Theorem C35_all_off :
  forall E c w r K arg l m, set_iter_ok E -> filled c w r ->
  assembled E c K (mkSwitches false false false false false false) arg l m ->
  csr_entries m = [] /\ csr_dim m = Z.of_nat (length l).
Proof. exact C35_all_off_pf. Qed.
Print Assumptions C35_all_off.

Theorem C35_linear :
  forall E c w r a b K K' S arg l m1 m2 m, set_iter_ok E -> filled c w r ->
  assembled E c K S arg l m1 -> assembled E c K' S arg l m2 -> assembled E c (combine_couplings a b K K') S arg l m ->
  forall i j, csr_at m i j = (a * csr_at m1 i j + b * csr_at m2 i j)%Qc.
Proof. exact C35_linear_pf. Qed.
Print Assumptions C35_linear.

Example C35_example : exists m, assembled cpython ex22 ex_couplings only_V (RList []) ex_l m /\ csr_at m 0 0 = 0%Qc /\
  csr_entries (get ex_m (build_hamiltonian cpython ex22 ex_couplings (mkBasis ex22 ex_l) (mkSwitches false false false false false false) (RList []))) = [] /\
  i_J (combine_couplings (qz 3) (qz 2) ex_couplings ex_couplings) = qz 10.
Proof. eexists. split; [split; vm_compute; reflexivity|]. vm_compute. auto 10. Qed.

(** C41 *)
Theorem C41_dynamic :
  forall E c w r K S d s, set_iter_ok E -> filled c w r ->
  describes (nsites c) (nholes c) (nbeta c) d s ->
  let L := between (nsites c) (point w) r r in
  exists dict, compute_dynamic_interactions E c K S d = Ok dict /\ NoDup (map fst dict) /\
    (forall k, In k (map fst dict) <-> exists t, reached L S s t /\ determinant_of (nsites c) (nholes c) (nbeta c) k t) /\
    (forall k x t, In (k, x) dict -> describes (nsites c) (nholes c) (nbeta c) k t ->
       x = (tj_element L K (dynamic S) s t + only (s_bij S) (op_flip L K s t))%Qc) /\
    (forall k t, determinant_of (nsites c) (nholes c) (nbeta c) k t -> ~ In k (map fst dict) ->
       (tj_element L K (dynamic S) s t + only (s_bij S) (op_flip L K s t))%Qc = 0%Qc).
Proof. exact C41_dynamic_pf. Qed.
Print Assumptions C41_dynamic.

Theorem C41_row :
  forall E c w r K S d arg l m i j k, set_iter_ok E -> filled c w r -> s_bij S = false ->
  assembled E c K (dynamic S) arg l m -> nth_error l i = Some d -> nth_error l j = Some k ->
  exists dict, compute_dynamic_interactions E c K S d = Ok dict /\ NoDup (map fst dict) /\
    (forall x, In (k, x) dict -> x = csr_at m (Z.of_nat i) (Z.of_nat j)) /\
    (~ In k (map fst dict) -> csr_at m (Z.of_nat i) (Z.of_nat j) = 0%Qc) /\
    (forall k' , In k' (map fst dict) -> In k' l).
Proof. exact C41_row_pf. Qed.
Print Assumptions C41_row.

Example C41_example : exists dict,
  compute_dynamic_interactions cpython ex22 ex_couplings (mkSwitches true true false true true true) [0; 1; 2; 3] = Ok dict /\
  map fst dict = [[1; 0; 2; 3]; [2; 1; 0; 3]; [3; 1; 0; 2]; [3; 0; 1; 2]] /\ map snd dict = [qz 1; qz 1; qz 1; qz 6].
Proof. eexists. split; [vm_compute; reflexivity|]. split; vm_compute; reflexivity. Qed.

Theorem C41_drawn :
  forall E c pos r0 r1 K S d s, set_iter_ok E -> drawn c pos -> straightness_decided E c pos ->
  sites_restriction c = RTuple r0 r1 -> describes (nsites c) (nholes c) (nbeta c) d s ->
  (forall e, In e r1 -> s e = Hole -> In e r0) -> s_bij S = false ->
  let L := between (nsites c) pos r0 r1 in
  exists dict, compute_dynamic_interactions E c K S d = Ok dict /\ NoDup (map fst dict) /\
    (forall k, In k (map fst dict) <-> exists t, reached L S s t /\ determinant_of (nsites c) (nholes c) (nbeta c) k t) /\
    (forall k x t, In (k, x) dict -> describes (nsites c) (nholes c) (nbeta c) k t -> x = tj_element L K (dynamic S) s t) /\
    (forall k t, determinant_of (nsites c) (nholes c) (nbeta c) k t -> ~ In k (map fst dict) -> tj_element L K (dynamic S) s t = 0%Qc).
Proof. exact C41_drawn_pf. Qed.
Print Assumptions C41_drawn.

(** two squares side by side, the holes of the left one and the electrons of the right one: the hole of site 1 *)
Example C41_drawn_example : exists dict,
  drawn ex_halves (fun x => point 4 (ex_iso x)) /\ straightness_decided ex_clusters_runtime ex_halves (fun x => point 4 (ex_iso x)) /\
  sites_restriction ex_halves = RTuple (zrange 0 4) (zrange 4 8) /\ describes (nsites ex_halves) (nholes ex_halves) (nbeta ex_halves) [1; 3; 5; 7; 0; 2; 4; 6] ex_halves_state /\
  (forall e, In e (zrange 4 8) -> ex_halves_state e = Hole -> In e (zrange 0 4)) /\
  compute_dynamic_interactions ex_clusters_runtime ex_halves ex_couplings (mkSwitches true true false true true true) [1; 3; 5; 7; 0; 2; 4; 6] = Ok dict /\
  map fst dict = [[4; 3; 5; 7; 0; 1; 2; 6]; [5; 1; 3; 7; 0; 2; 4; 6]; [6; 3; 5; 7; 0; 1; 2; 4]; [5; 3; 4; 7; 0; 1; 2; 6]] /\
  map snd dict = [qz 1; qz 3; qz 7; qz 5].
Proof.
  eexists. split; [apply ex_halves_drawn|]. split; [apply ex_halves_drawn|]. split; [vm_compute; reflexivity|].
  split; [apply describesb_ok; vm_compute; reflexivity|].
  split; [intros e H; cbn in H; destruct H as [<-|[<-|[<-|[<-|[]]]]]; discriminate|].
  split; [vm_compute; reflexivity|]. split; vm_compute; reflexivity.
Qed.

Theorem C41_spin_flip_refuted :
  exists E c w r K S arg l m d dict k x,
  set_iter_ok E /\ filled c w r /\ assembled E c K (dynamic S) arg l m /\ nth_error l 0 = Some d /\ nth_error l 1 = Some k /\
  compute_dynamic_interactions E c K S d = Ok dict /\ In (k, x) dict /\ x <> csr_at m 0 1.
Proof. exact C41_spin_flip_refuted_pf. Qed.
Print Assumptions C41_spin_flip_refuted.
