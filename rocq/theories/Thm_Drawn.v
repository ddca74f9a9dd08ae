(** Theorems on the Hamiltonian of any drawn lattice (C103). *)
From Coq Require Import ZArith List Bool Lia QArith Qcanon.
From Verif Require Import PyBase PyFacts Runtimes Lattice Base Interact Ham Spin Spec SpecOps SpecTJ SpinDefs Geometry HamSpec MotionDefs TraceDefs DrawnDefs FSites FGeo FInter FTop FDrawn FDrawnSpin Examples Thm_Spin.
Import ListNotations.
Open Scope Z_scope.

(** C103 *)
Theorem C103_assembly :
  forall E c pos r K S arg, set_iter_ok E -> filled_drawn E c pos r ->
  exists l m, assembled E c K S arg l m /\ csr_dim m = Z.of_nat (length l) /\ csr_dim m = compute_dimension (nsites c) (nalpha c) (nbeta c) /\
    (forall x i j, In (x, i, j) (csr_entries m) -> 0 <= i < csr_dim m /\ 0 <= j < csr_dim m) /\ forall i j, csr_at m i j = csr_at m j i.
Proof. exact C103_assembly_pf. Qed.
Print Assumptions C103_assembly.

Theorem C103_numbers :
  forall E c pos r K S arg l m i j d e s t, set_iter_ok E -> filled_drawn E c pos r -> assembled E c K S arg l m ->
  nth_error l i = Some d -> nth_error l j = Some e ->
  describes (nsites c) (nholes c) (nbeta c) d s -> describes (nsites c) (nholes c) (nbeta c) e t ->
  let L := between (nsites c) pos r r in csr_at m (Z.of_nat i) (Z.of_nat j) = tj_by L (number_doping L) K S s t.
Proof. exact C103_numbers_pf. Qed.
Print Assumptions C103_numbers.

Theorem C103_elements :
  forall E c pos r K S arg l m i j d e s t, set_iter_ok E -> filled_drawn E c pos r -> assembled E c K S arg l m -> flips_agree c pos K S ->
  nth_error l i = Some d -> nth_error l j = Some e ->
  describes (nsites c) (nholes c) (nbeta c) d s -> describes (nsites c) (nholes c) (nbeta c) e t ->
  csr_at m (Z.of_nat i) (Z.of_nat j) = tj_element (between (nsites c) pos r r) K S s t.
Proof. exact C103_elements_pf. Qed.
Print Assumptions C103_elements.

Theorem C103_figures :
  forall E E' c c' pos pos' f K S arg arg' l l' m m', set_iter_ok E -> set_iter_ok E' ->
  filled_drawn_whole E c pos -> filled_drawn_whole E' c' pos' -> same_filling c c' -> same_figure (nsites c) pos pos' f ->
  flips_agree c pos K S -> flips_agree c' pos' K S -> assembled E c K S arg l m -> assembled E' c' K S arg' l' m' ->
  l' = l /\ csr_dim m' = csr_dim m /\
  (forall i j i' j' d e d' e' s t s' t', nth_error l i = Some d -> nth_error l j = Some e -> nth_error l i' = Some d' -> nth_error l j' = Some e' ->
    describes (nsites c) (nholes c) (nbeta c) d s -> describes (nsites c) (nholes c) (nbeta c) e t ->
    describes (nsites c) (nholes c) (nbeta c) d' s' -> describes (nsites c) (nholes c) (nbeta c) e' t' ->
    carried (nsites c) f s s' -> carried (nsites c) f t t' -> csr_at m' (Z.of_nat i') (Z.of_nat j') = csr_at m (Z.of_nat i) (Z.of_nat j)) /\
  (forall e v, eigenvector m e v -> exists v', moved c l f v v' /\ eigenvector m' e v' /\ inner v' v' = inner v v).
Proof. exact C103_figures_pf. Qed.
Print Assumptions C103_figures.

Theorem C103_energies :
  forall E E' c c' pos pos' f K S arg arg' l l' m m', set_iter_ok E -> set_iter_ok E' ->
  filled_drawn_whole E c pos -> filled_drawn_whole E' c' pos' -> same_filling c c' -> same_figure (nsites c) pos pos' f ->
  flips_agree c pos K S -> flips_agree c' pos' K S -> assembled E c K S arg l m -> assembled E' c' K S arg' l' m' ->
  same_energies m m'.
Proof. exact C103_energies_pf. Qed.
Print Assumptions C103_energies.

Theorem C103_row_sums :
  forall E c pos r K arg l m i, set_iter_ok E -> filled_drawn E c pos r -> one_exchange c K ->
  assembled E c K (mkSwitches false true true false false false) arg l m -> 0 <= i < csr_dim m ->
  sum_sites (csr_dim m) (fun j => csr_at m i j) = 0%Qc.
Proof. exact C103_row_sums_pf. Qed.
Print Assumptions C103_row_sums.

Theorem C103_spin :
  forall E c pos K S arg l m v, set_iter_ok E -> filled_drawn_whole E c pos -> flips_agree c pos K S -> proper c -> holes_in_order E c ->
  s_bz S = s_bij S -> assembled E c K S arg l m -> length v = length l ->
  exists v', compute_S2 E c v = Ok v' /\ compute_S2 E c (times m v) = Ok (times m v').
Proof. exact C103_spin_pf. Qed.
Print Assumptions C103_spin.

Theorem C103_rectangle :
  forall E c w r K S, filled c w r -> filled_drawn E c (point w) r /\ flips_agree c (point w) K S.
Proof. exact C103_rectangle_pf. Qed.
Print Assumptions C103_rectangle.

Theorem C103_ring :
  forall E c r, let w := nblocs_side c * nbh c in let h := nblocs_side c * nbv c in
  1 <= nbh c -> 1 <= nbv c -> 1 <= nblocs_side c -> 2 <= w -> 2 <= h ->
  build_bond_matrix_neel_embedding (nbh c) (nbv c) (nblocs_side c) = Ok (bond_matrix c) -> nsites c = mrows (bond_matrix c) -> lattice_type c = Peripheral ->
  sites_restriction c = RTuple r r -> 0 <= nholes c -> 0 <= nbeta c -> nalpha c = nsites c - nholes c - nbeta c ->
  filled_drawn E c (ringed_point w h) r.
Proof. exact C103_ring_pf. Qed.
Print Assumptions C103_ring.

Theorem C103_clusters :
  forall E c P iso r, let w := nblocs_side c * nbh c in
  1 <= nbh c -> 1 <= nbv c -> 1 <= nblocs_side c ->
  build_rectangular_bond_matrix (nbh c) (nbv c) (nblocs_side c) = Ok P ->
  nsites c = mrows P -> mrows (bond_matrix c) = nsites c -> mcols (bond_matrix c) = nsites c -> lattice_type c = Clusters ->
  (forall i j, 0 <= i < nsites c -> 0 <= j < nsites c -> iso i = iso j -> i = j) ->
  (forall i j, 0 <= i < nsites c -> 0 <= j < nsites c -> mat_at (bond_matrix c) i j = mat_at P (iso i) (iso j)) ->
  search_finds (nsites c) (transfer E (bond_matrix c) P) iso ->
  sites_restriction c = RTuple r r -> 0 <= nholes c -> 0 <= nbeta c -> nalpha c = nsites c - nholes c - nbeta c ->
  filled_drawn E c (fun x => point w (iso x)) r /\ same_figure (nsites c) (fun x => point w (iso x)) (point w) iso.
Proof. exact C103_clusters_pf. Qed.
Print Assumptions C103_clusters.

Theorem C103_transposed :
  forall E E' c c' w h K S arg arg' l l' m m', set_iter_ok E -> set_iter_ok E' -> filled_whole c w -> filled_whole c' h ->
  nsites c = w * h -> same_filling c c' -> assembled E c K S arg l m -> assembled E' c' K S arg' l' m' -> same_energies m m'.
Proof. exact C103_transposed_pf. Qed.
Print Assumptions C103_transposed.

Theorem C103_clusters_refuted :
  exists E c pos K arg l m i, set_iter_ok E /\ lattice_type c = Clusters /\ filled_drawn_whole E c pos /\
  assembled E c K (mkSwitches false true true false false false) arg l m /\ 0 <= i < csr_dim m /\ sum_sites (csr_dim m) (fun j => csr_at m i j) <> 0%Qc.
Proof. exact C103_clusters_refuted_pf. Qed.
Print Assumptions C103_clusters_refuted.

Theorem C103_ring_refuted :
  exists E c pos K arg l m i, set_iter_ok E /\ lattice_type c = Peripheral /\ filled_drawn_whole E c pos /\
  assembled E c K (mkSwitches false true true false false false) arg l m /\ 0 <= i < csr_dim m /\ sum_sites (csr_dim m) (fun j => csr_at m i j) <> 0%Qc.
Proof. exact C103_ring_refuted_pf. Qed.
Print Assumptions C103_ring_refuted.

(** Two squares side by side, numbered square after square, with one hole and three downs, beside the rectangle of the same size numbered row by row;
    one exchange for all bonds.  With several exchanges, the flip of sites 1 and 4 is taken beside the hole at site 0, although the three sites are aligned. *)
Definition even_couplings : interactions := mkInter 1%Qc (qz 2) (qz 2) (qz 2) (qz 5) (qz 6) (qz 7) (qz 8) (qz 9) (qz 10).
Example C103_clusters_example : let pos := fun x => point 4 (ex_iso x) in let c := ex_clusters in let c' := ex_rect 2 1 2 1 3 in
  set_iter_ok ex_clusters_runtime /\ filled_drawn_whole ex_clusters_runtime c pos /\ filled_whole c' 4 /\ same_filling c c' /\ same_figure (nsites c) pos (point 4) ex_iso /\
  proper c /\ holes_in_order ex_clusters_runtime c /\ one_exchange c even_couplings /\ flips_agree c pos even_couplings (mkSwitches true true true true true true) /\
  search_finds (nsites c) (transfer ex_clusters_runtime (bond_matrix c) (bond_matrix c)) ex_iso /\
  ex_iso 2 = 4 /\ let L := between 8 pos (zrange 0 8) (zrange 0 8) in
  number_doping L ex_iso_state 1 4 = Beside /\ bond_doping L ex_iso_state 1 4 = Aligned.
Proof.
  cbv zeta. split; [intros l; exact (cpython_ok l)|]. split; [exact ex_clusters_filled|].
  split; [repeat split; try (vm_compute; congruence); exists 2, 1, 2; repeat split; vm_compute; congruence|].
  split; [vm_compute; auto|]. split; [split; [|left; intros x y _ _; split; reflexivity]|].
  { intros x Hx. assert (B : forallb (fun s => (0 <=? ex_iso s) && (ex_iso s <? 8)) (zrange 0 8) = true) by reflexivity.
    rewrite forallb_forall in B. specialize (B x (proj2 (in_zrange x 0 8) Hx)). apply andb_true_iff in B. rewrite Z.leb_le, Z.ltb_lt in B. exact B. }
  split; [vm_compute; intuition congruence|].
  split; [exact (C37_eight_sites ex_clusters ltac:(vm_compute; congruence))|].
  split; [right; split; reflexivity|]. split; [right; left; right; split; reflexivity|]. split; [exact ex_search|]. split; [reflexivity|]. split; vm_compute; reflexivity.
Qed.

(** A ring around a square, with one hole and six downs. *)
Example C103_ring_example : let c := ex_ring 1 1 2 1 6 in
  set_iter_ok cpython /\ filled_drawn_whole cpython c (ringed_point 2 2) /\ one_exchange c even_couplings /\ flips_agree c (ringed_point 2 2) even_couplings (mkSwitches true true true true true true) /\
  build_bond_matrix_neel_embedding 1 1 2 = Ok (bond_matrix c) /\ lattice_type c = Peripheral /\ nsites c = 12.
Proof.
  cbv zeta. split; [exact cpython_ok|]. split; [exact ex_ring_filled|]. split; [right; split; reflexivity|]. split; [right; left; right; split; reflexivity|]. repeat split; reflexivity.
Qed.

(** One spin and five holes on three columns of two sites, and on two columns of three: other matrices, the same energies. *)
Definition all_switches : switches := mkSwitches true true true true true true.
Definition wide : configuration := ex_rect 3 2 1 5 1.
Definition tall : configuration := ex_rect 2 3 1 5 1.
Definition five_holes : list det := [[0; 1; 2; 3; 4; 5]; [0; 1; 2; 3; 5; 4]; [0; 1; 2; 4; 5; 3]; [0; 1; 3; 4; 5; 2]; [0; 2; 3; 4; 5; 1]; [1; 2; 3; 4; 5; 0]].
Definition wide_ham : csr := get (mkCsr 0 []) (build_hamiltonian cpython wide ex_couplings (mkBasis wide five_holes) all_switches (RList [])).
Definition tall_ham : csr := get (mkCsr 0 []) (build_hamiltonian cpython tall ex_couplings (mkBasis tall five_holes) all_switches (RList [])).
Example C103_transposed_example : filled_whole wide 3 /\ filled_whole tall 2 /\ nsites wide = 3 * 2 /\ same_filling wide tall /\
  assembled cpython wide ex_couplings all_switches (RList []) five_holes wide_ham /\ assembled cpython tall ex_couplings all_switches (RList []) five_holes tall_ham /\
  csr_at wide_ham 0 2 <> csr_at tall_ham 0 2.
Proof.
  split; [repeat split; try (vm_compute; congruence); exists 3, 2, 1; repeat split; vm_compute; congruence|].
  split; [repeat split; try (vm_compute; congruence); exists 2, 3, 1; repeat split; vm_compute; congruence|].
  split; [reflexivity|]. split; [vm_compute; auto|].
  split; [split; vm_compute; reflexivity|]. split; [split; vm_compute; reflexivity|].
  intros Q. apply (f_equal this) in Q. revert Q. vm_compute. discriminate.
Qed.
