(** Two sites beside two sites, one hole and one spin up on each (C85). *)
From Coq Require Import ZArith List Bool QArith Qcanon Lia.
From Verif Require Import PyBase PyFacts Runtimes Lattice Base Interact Ham Prob Dav Files Emb Spec SpecOps SpecTJ HamSpec SpinDefs ProbDefs Geometry EmbDefs DynDefs.
From Verif Require Import Examples PSpin FSites FInter FEmbSecond.
Import ListNotations.
Open Scope Z_scope.

Definition ex2 : configuration := ex_rect 2 1 1 1 0.
Definition ex2_basis : list det := [[0; 1]; [1; 0]].
Definition ex2_states (k : nat) : occupation := fun x => if x =? Z.of_nat k then Hole else Up.
Definition ex2_runtime : runtime := mkRuntime (set_iter cpython) (fun _ _ _ r s => if r =? s then ROne else RZero).
Definition ex2_inter : interactions := mkInter (qz 1) (qz 2) (qz 3) (qz 4) (qz 5) (qz 6) (qz 7) (qz 8) (qz 9) (qz 10).
Definition ex2_thr : Qc := qfrac 1 1000.
Definition ex2_energy : Qc := qz (-50).
Definition ex2_gs : list Qc := [1%Qc; 1%Qc].
Definition ex2_ham : csr := mkCsr 2 [(1%Qc, 0, 0)].

Lemma ex2_numbering : numbering_found ex2_runtime 2 1 1.
Proof.
  destruct (build_bond_matrix_block_embedding 2 1 1) as [m|] eqn:Hm; [|vm_compute in Hm; discriminate].
  destruct (build_rectangular_bond_matrix (2 * 2) 1 1) as [P|] eqn:HP; [|vm_compute in HP; discriminate].
  exists m, P, (fun i => i). cbv zeta. split; [exact Hm|]. split; [exact HP|]. split; [auto|]. split.
  - intros i j Hi Hj. apply Z.eqb_eq.
    assert (B : match build_bond_matrix_block_embedding 2 1 1, build_rectangular_bond_matrix (2 * 2) 1 1 with
      | Ok m, Ok P => forallb (fun i => forallb (fun j => mat_at m i j =? mat_at P i j) (zrange 0 4)) (zrange 0 4)
      | _, _ => false end = true) by (vm_compute; reflexivity).
    rewrite Hm, HP in B. exact (forall_zrange2 4 _ B i j Hi Hj).
  - exists 0. split; [vm_compute; split; congruence|]. split.
    + split; [reflexivity|]. intros r s _ _. cbn [transfer ex2_runtime]. destruct (r =? s); auto.
    + split; [intros j Hj; lia|]. intros s Hs. split; [exact Hs|]. intros r _. cbn [transfer ex2_runtime].
      destruct (Z.eqb_spec r s); split; congruence.
Qed.

Lemma ex2_listed : listed (nsites ex2) (nholes ex2) (nbeta ex2) ex2_basis ex2_states.
Proof.
  intros k d H. destruct k as [|[|k]]; [| |destruct k; discriminate H]; injection H as <-; apply describesb_ok; vm_compute; reflexivity.
Qed.

(** only one state of the pair is reached, from either state of the first block *)
Lemma ex2_lent : forall k, (k < 2)%nat -> filter (fun v => lent_by 2 1 2 ex2_states (ex2_states k) (spelt v)) (words 4) = [[Up; Up; Hole; Hole]].
Proof. intros [|[|k]] H; [vm_compute; reflexivity | vm_compute; reflexivity | lia]. Qed.

Lemma ex2_division : forall k v, (k < length ex2_basis)%nat -> In v (words (Z.to_nat (2 * nsites ex2))) ->
  lent_by 2 1 (length ex2_gs) ex2_states (ex2_states k) (spelt v) = true -> (qz 2 * ex2_energy)%Qc <> pair_energy 2 1 ex2_inter (spelt v).
Proof.
  intros k v Hk Hv Hl. assert (I : In v (filter (fun v => lent_by 2 1 2 ex2_states (ex2_states k) (spelt v)) (words 4))) by (apply filter_In; split; assumption).
  rewrite (ex2_lent k Hk) in I. destruct I as [<-|[]]. intros Q. apply (f_equal this) in Q. vm_compute in Q. discriminate.
Qed.

Lemma ex2_mediated : mediated 2 1 ex2_inter ex2_thr ex2_energy ex2_states ex2_gs (spelt [Up; Up; Hole; Hole]) (ex2_states 0) (ex2_states 1) = qfrac (-72) 109.
Proof. apply Qc_is_canon. vm_compute. reflexivity. Qed.

Lemma C85_once_refuted_pf : exists E c I l st gs energy thr ham nb pB u full h,
  let w := nblocs_side c * nbh c in let ht := nblocs_side c * nbv c in
  set_iter_ok E /\ sized c /\ proper c /\ numbering_found E (nbh c) (nbv c) (nblocs_side c) /\
  construct_basis c = Ok (mkBasis c l) /\ listed (nsites c) (nholes c) (nbeta c) l st /\ csr_dim ham = zlen l /\
  length gs = length l /\ inner gs gs <> 0%Qc /\
  (forall k v, (k < length l)%nat -> In v (words (Z.to_nat (2 * nsites c))) -> lent_by w ht (length gs) st (st k) (spelt v) = true ->
     (qz 2 * energy)%Qc <> pair_energy w ht I (spelt v)) /\
  neighbor_basis E (mkBasis c l) false = Ok nb /\ get_spins_probabilitites_lattice (mkBasis c l) gs false = Ok pB /\
  block_surroundings E c (b_conf nb) = Ok (u, full) /\
  dress_blocks E I (mkBasis c l) true (mkDyn c nb u full true thr energy gs (csr_dim ham)) pB (csr_entries ham) = Ok h /\
  let reached_once := sum_states (2 * nsites c) (fun p => only (existsb (fun k => lent_by w ht (length gs) st (st k) p) (seq 0 (length gs)))
                                                               (mediated w ht I thr energy st gs p (st 0%nat) (st 1%nat))) in
  csr_at (mkCsr (csr_dim ham) h) 0 1 = (csr_at ham 0 1 + qz 2 * reached_once)%Qc /\ reached_once <> 0%Qc.
Proof.
  assert (H1 : set_iter_ok ex2_runtime) by (intros l; exact (cpython_ok l)).
  assert (H2 : sized ex2) by (unfold sized; vm_compute; intuition congruence).
  assert (H3 : proper ex2) by (unfold proper; vm_compute; intuition congruence).
  assert (H4 : construct_basis ex2 = Ok (mkBasis ex2 ex2_basis)) by (vm_compute; reflexivity).
  assert (H5 : csr_dim ex2_ham = zlen ex2_basis) by reflexivity.
  assert (H6 : length ex2_gs = length ex2_basis) by reflexivity.
  assert (H7 : inner ex2_gs ex2_gs <> 0%Qc) by (intros Q; apply (f_equal this) in Q; vm_compute in Q; discriminate).
  destruct (C85_dressing_pf ex2_runtime ex2 ex2_inter ex2_basis ex2_states false ex2_gs ex2_energy ex2_thr ex2_ham
    H1 H2 H3 ex2_numbering H4 ex2_listed H5 H6 H7 ltac:(discriminate) ex2_division) as (nb & pB & u & full & h & A1 & A2 & A3 & A4 & A5).
  exists ex2_runtime, ex2, ex2_inter, ex2_basis, ex2_states, ex2_gs, ex2_energy, ex2_thr, ex2_ham, nb, pB, u, full, h. cbv zeta.
  repeat (split; [first [assumption | exact ex2_numbering | exact ex2_listed | exact ex2_division]|]).
  change (nblocs_side ex2 * nbh ex2) with 2 in *. change (nblocs_side ex2 * nbv ex2) with 1 in *.
  set (M := mediated 2 1 ex2_inter ex2_thr ex2_energy ex2_states ex2_gs).
  assert (W : words (Z.to_nat (2 * nsites ex2)) = words 4) by reflexivity.
  assert (Once : sum_states (2 * nsites ex2) (fun p => only (existsb (fun k => lent_by 2 1 2 ex2_states (ex2_states k) p) (seq 0 2)) (M p (ex2_states 0%nat) (ex2_states 1%nat))) = qfrac (-72) 109).
  { unfold sum_states. rewrite W. rewrite <- (qsum_filter _ (fun v => M (spelt v) (ex2_states 0%nat) (ex2_states 1%nat)) (fun v => existsb (fun k => lent_by 2 1 2 ex2_states (ex2_states k) (spelt v)) (seq 0 2))).
    assert (F : filter (fun v => existsb (fun k => lent_by 2 1 2 ex2_states (ex2_states k) (spelt v)) (seq 0 2)) (words 4) = [[Up; Up; Hole; Hole]]) by (vm_compute; reflexivity).
    rewrite F, qsum_one. exact ex2_mediated. }
  assert (Both : second_order 2 1 ex2_inter ex2_thr ex2_energy ex2_states ex2_gs (ex2_states 0%nat) (ex2_states 1%nat) = (qz 2 * qfrac (-72) 109)%Qc).
  { unfold second_order, sum_states. change (length ex2_gs) with 2%nat. cbn [seq]. rewrite !qsum_cons, qsum_nil.
    change (2 * (2 * 1)) with 4. change (Z.to_nat 4) with 4%nat.
    rewrite <- (qsum_filter _ (fun v => M (spelt v) (ex2_states 0%nat) (ex2_states 1%nat)) (fun v => lent_by 2 1 2 ex2_states (ex2_states 0) (spelt v))).
    rewrite <- (qsum_filter _ (fun v => M (spelt v) (ex2_states 0%nat) (ex2_states 1%nat)) (fun v => lent_by 2 1 2 ex2_states (ex2_states 1) (spelt v))).
    rewrite (ex2_lent 0), (ex2_lent 1), qsum_one by lia. unfold M. rewrite ex2_mediated. apply Qc_is_canon. vm_compute. reflexivity. }
  change (length ex2_gs) with 2%nat.
  rewrite Once. split; [|intros Q; apply (f_equal this) in Q; vm_compute in Q; discriminate].
  rewrite A5 by (vm_compute; split; congruence). change (Z.to_nat 0) with 0%nat. change (Z.to_nat 1) with 1%nat. rewrite Both.
  change (0 =? 1) with false. cbn [only]. ring.
Qed.
