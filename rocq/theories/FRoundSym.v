(** Final lemmas for C114: the rounded Hamiltonian is symmetric. *)
From Coq Require Import ZArith List Bool Lia Permutation QArith Qcanon Lqa.
From Verif Require Import PyBase PyFacts Runtimes Lattice Base Interact Ham Round Spec SpecOps SpecTJ SpinDefs Geometry HamSpec SignDefs EnergyDefs RangeDefs RoundDefs Examples.
From Verif Require Import PSpin PQc PBasis PSites PRep PMat PGeo PInter PHam POps FGeo FSites FInter FHam PRound PRound2 FRound FRound2 PRoundSym.
Import ListNotations.
Open Scope Z_scope.

Lemma summed_range : forall F dim h x i j, In (x, i, j) (sum_duplicates F dim h) -> 0 <= i < dim /\ 0 <= j < dim.
Proof.
  intros F dim h x i j H. unfold sum_duplicates in H. apply in_flat_map in H. destruct H as (i' & Hi & H). apply in_flat_map in H. destruct H as (j' & Hj & H).
  apply in_zrange in Hi. apply in_zrange in Hj. destruct (at_place h i' j'); [destruct H|]. destruct H as [[= _ <- <-]|[]]. lia.
Qed.
(** an element off the diagonal is the sum of the values of the codes *)
Lemma fl_entries : forall F E c w r K S arg l m, (forall q, Permutation q (add_order F q)) -> set_iter_ok E -> filled c w r -> assembled_fl F E c K S arg l m ->
  exists es, build_with E codes (mkBasis c (dl c)) S = Ok es /\ l = dl c /\ csr_dim m = zlen (dl c) /\ in_range c (csr_entries m) /\
    forall i j, 0 <= i < zlen (dl c) -> 0 <= j < zlen (dl c) -> i <> j -> csr_at m i j = add_all F (add_order F (map (decode (rounded_values F E c K)) (at_place es i j))).
Proof.
  intros F E c w r K S arg l m HO HE HC [A B]. destruct (built E c w r K S arg HE HC) as (es & E1 & _). rewrite A in E1. injection E1 as ->. clear es.
  rewrite build_fl_split in B. destruct (entries_fl F E (mkBasis c (dl c)) K S) as [h|] eqn:Q; [|discriminate]. cbn [bind] in B. unfold coo_to_csr_fl in B. destruct (forallb _ h) in B; [|discriminate]. injection B as <-.
  rewrite rounded_with in Q. destruct (run_decodes E c (dl c) _ S h Q) as (es & B & D). exists es. split; [exact B|]. split; [reflexivity|].
  assert (L : zlen (dl c) = compute_dimension (nsites c) (nalpha c) (nbeta c)) by (apply (dl_length c (point w)); [apply row_major_drawn, HC | apply HC ..]). rewrite <- L.
  split; [reflexivity|]. split; [intros x i j I; exact (summed_range _ _ _ _ _ _ I)|]. intros i j Hi Hj N. rewrite csr_at_coo. cbn [csr_entries]. rewrite (at_summed F _ h i j HO Hi Hj), (D i j N). reflexivity.
Qed.
Lemma C114_symmetric_pf : forall F E c w r K S arg l m i j, (forall q, Permutation q (add_order F q)) -> set_iter_ok E -> filled c w r -> assembled_fl F E c K S arg l m ->
  csr_at m i j = csr_at m j i.
Proof.
  intros F E c w r K S arg l m i j HO HE HC HA. destruct (fl_entries _ _ _ _ _ _ _ _ _ _ HO HE HC HA) as (es & B & _ & D & R & H).
  revert i j. apply (csr_all c w r m (fun i j => csr_at m j i) HC D R).
  - intros i j N. apply (csr_zero c m D R). tauto.
  - intros i j d e Nd Ne. destruct (Nat.eq_dec i j) as [->|N]; [reflexivity|].
    assert (Li : (i < length (dl c))%nat) by (apply nth_error_Some; congruence). assert (Lj : (j < length (dl c))%nat) by (apply nth_error_Some; congruence).
    rewrite !H by (unfold zlen; lia). do 3 f_equal. rewrite <- (Nat2Z.id i) in Nd. rewrite <- (Nat2Z.id j) in Ne.
    apply (places_same E E c w r S es es (Z.of_nat i) (Z.of_nat j) (Z.of_nat j) (Z.of_nat i) d e e d); try assumption; try lia.
    + intros M. apply mirror_sym.
    + intros K'. apply (tj_sym (between (nsites c) (point w) r r) (nsites c) eq_refl (fun _ _ => eq_refl)).
Qed.
Lemma C114_order_pf : forall F E E' c w r K S arg arg' l l' m m' i j, (forall q, Permutation q (add_order F q)) -> set_iter_ok E -> set_iter_ok E' -> filled c w r ->
  assembled_fl F E c K S arg l m -> assembled_fl F E' c K S arg' l' m' -> i <> j -> csr_at m i j = csr_at m' i j.
Proof.
  intros F E E' c w r K S arg arg' l l' m m' i j HO HE HE' HC HA HA' N. destruct (fl_entries _ _ _ _ _ _ _ _ _ _ HO HE HC HA) as (es & B & _ & D & R & H).
  destruct (fl_entries _ _ _ _ _ _ _ _ _ _ HO HE' HC HA') as (es' & B' & _ & D' & R' & H').
  destruct (Z_le_dec 0 i), (Z_lt_dec i (zlen (dl c))), (Z_le_dec 0 j), (Z_lt_dec j (zlen (dl c)));
    try (rewrite (csr_zero c m D R), (csr_zero c m' D' R') by tauto; reflexivity).
  destruct (pick _ (dl c) i) as (d & Hd); [lia|]. destruct (pick _ (dl c) j) as (e & He); [lia|].
  rewrite H, H' by lia. change (decode (rounded_values F E' c K)) with (decode (rounded_values F E c K)). do 3 f_equal.
  apply (places_same E E' c w r S es es' i j i j d e d e); try assumption; reflexivity.
Qed.
Lemma C114_lower_pf : forall F E c w r K S arg l m m1 i j, (forall q, Permutation q (add_order F q)) -> set_iter_ok E -> filled c w r -> assembled_fl F E c K S arg l m ->
  lower_triangle m m1 -> csr_at m1 i j = csr_at m i j.
Proof.
  intros F E c w r K S arg l m m1 i j HO HE HC HA [_ T]. destruct (Z_le_dec j i) as [G|G]; [apply (T i j G)|]. rewrite (proj2 (T j i ltac:(lia))). now apply (C114_symmetric_pf F E c w r K S arg l m).
Qed.

(** ** the diagonal depends on the order of the sets and on the orientation of the lattice *)
Definition chain : configuration := ex_rect 5 1 1 1 2.
Definition chain_couplings : interactions := mkInter 0 (binary 53 (qfrac 6 10)) (binary 53 (qfrac 1 10)) 0 0 0 0 0 0 0.
Definition chain_switches : switches := mkSwitches false true false false false false.
Definition chain_basis : list (list Z) := match construct_basis chain with Ok b => determinants b | Err _ => [] end.
Definition chain_ham (E : runtime) : csr := match build_hamiltonian_fl binary64 E chain chain_couplings (mkBasis chain chain_basis) chain_switches (RList []) with Ok m => m | Err _ => mkCsr 0 [] end.
Lemma chain_filled : filled_whole chain 5.
Proof. split; [exists 5, 1, 1; vm_compute; repeat (split; [congruence|]); reflexivity|]; split; [reflexivity|]; vm_compute; intuition congruence. Qed.
Lemma chain_assembled : forall E, match build_hamiltonian_fl binary64 E chain chain_couplings (mkBasis chain chain_basis) chain_switches (RList []) with Ok _ => true | Err _ => false end = true ->
  assembled_fl binary64 E chain chain_couplings chain_switches (RList []) chain_basis (chain_ham E).
Proof. intros E H. split; [vm_compute; reflexivity|]. unfold chain_ham. destruct (build_hamiltonian_fl _ _ _ _ _ _ _); [reflexivity | discriminate]. Qed.
Lemma C114_half_turn_refuted_pf : exists E c K S l m i d i', set_iter_ok E /\ sized c /\ filled_whole c (nbh c * nblocs_side c) /\ assembled_fl binary64 E c K S (RList []) l m /\
  nth_error l i = Some d /\ get_index_in_basis c (rotate_determinant 2 c d) = Ok i' /\ csr_at m i' i' <> csr_at m (Z.of_nat i) (Z.of_nat i).
Proof.
  exists cpython, chain, chain_couplings, chain_switches, chain_basis, (chain_ham cpython), 4%nat, [0; 2; 4; 1; 3], 25. split; [exact cpython_ok|].
  split; [unfold sized; vm_compute; intuition congruence|]. split; [exact chain_filled|]. split; [apply chain_assembled; vm_compute; reflexivity|]. split; [vm_compute; reflexivity|]. split; [vm_compute; reflexivity|].
  intros H. apply (f_equal this) in H. vm_compute in H. discriminate.
Qed.
Lemma C114_set_order_refuted_pf : exists E E' c w K S l m m' i, set_iter_ok E /\ set_iter_ok E' /\ filled_whole c w /\ assembled_fl binary64 E c K S (RList []) l m /\ assembled_fl binary64 E' c K S (RList []) l m' /\
  csr_at m i i <> csr_at m' i i.
Proof.
  exists ascending, descending, chain, 5, chain_couplings, chain_switches, chain_basis, (chain_ham ascending), (chain_ham descending), 4. split; [exact ascending_ok|]. split; [exact descending_ok|].
  split; [exact chain_filled|]. split; [apply chain_assembled; vm_compute; reflexivity|]. split; [apply chain_assembled; vm_compute; reflexivity|].
  intros H. apply (f_equal this) in H. vm_compute in H. discriminate.
Qed.
