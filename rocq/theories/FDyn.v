(** Final lemmas for C41. *)
From Coq Require Import ZArith List Bool Lia Permutation QArith Qcanon.
From Verif Require Import PyBase PyFacts Runtimes Lattice Base Interact Ham Spec SpecOps SpecTJ Geometry HamSpec
  PBasis PSites PInter PSpin POps FSites PHam PDyn FHam Examples FInter.
Import ListNotations.
Open Scope Z_scope.

Lemma C41_dynamic_pf : forall E c w r K S d s, set_iter_ok E -> filled c w r ->
  describes (nsites c) (nholes c) (nbeta c) d s ->
  let L := between (nsites c) (point w) r r in
  exists dict, compute_dynamic_interactions E c K S d = Ok dict /\ NoDup (map fst dict) /\
    (forall k, In k (map fst dict) <-> exists t, reached L S s t /\ determinant_of (nsites c) (nholes c) (nbeta c) k t) /\
    (forall k x t, In (k, x) dict -> describes (nsites c) (nholes c) (nbeta c) k t ->
       x = (tj_element L K (dynamic S) s t + only (s_bij S) (op_flip L K s t))%Qc) /\
    (forall k t, determinant_of (nsites c) (nholes c) (nbeta c) k t -> ~ In k (map fst dict) ->
       (tj_element L K (dynamic S) s t + only (s_bij S) (op_flip L K s t))%Qc = 0%Qc).
Proof.
  intros E c w r K S d s HE (RM & HR & _) D L.
  destruct (dynamic_ok E c w r K d s HE RM HR D L eq_refl (fun _ _ => eq_refl)
    (fun x _ => proj1 (between_ok (nsites c) (point w) r r x)) (fun x _ => proj2 (between_ok (nsites c) (point w) r r x)) S) as (dict & A & B & C & F & G).
  exists dict. split; [assumption|]. split; [assumption|]. split; [exact C|]. split; [exact F|].
  intros k t Hk N. apply G.
  - destruct Hk as [Hk _]. eapply describes_sector, Hk.
  - intros k' Hk'. assert (k' = k) as ->; [|exact N]. destruct Hk as [H1 H2], Hk' as [H3 H4].
    rewrite (increasing_canon _ _ _ _ _ H1 H2). now rewrite (increasing_canon _ _ _ _ _ H3 H4).
Qed.

Lemma in_dl_iff : forall c w r k, filled c w r ->
  (In k (dl c) <-> exists t, determinant_of (nsites c) (nholes c) (nbeta c) k t).
Proof.
  intros c w r k (RM & _ & Hh & Hb & _). unfold dl. rewrite in_dets by (apply (row_major_drawn c w RM)). rewrite !Z2Nat.id by assumption. split.
  - intros (t & S & ->). exists t. split; [now apply canon_describes | now apply canon_increasing].
  - intros (t & D & I). exists t. split; [eapply describes_sector, D | eapply increasing_canon; eassumption].
Qed.

(** without spin flips, the row of the matrix without its diagonal terms *)
Lemma C41_row_pf : forall E c w r K S d arg l m i j k, set_iter_ok E -> filled c w r -> s_bij S = false ->
  assembled E c K (dynamic S) arg l m -> nth_error l i = Some d -> nth_error l j = Some k ->
  exists dict, compute_dynamic_interactions E c K S d = Ok dict /\ NoDup (map fst dict) /\
    (forall x, In (k, x) dict -> x = csr_at m (Z.of_nat i) (Z.of_nat j)) /\
    (~ In k (map fst dict) -> csr_at m (Z.of_nat i) (Z.of_nat j) = 0%Qc) /\
    (forall k' , In k' (map fst dict) -> In k' l).
Proof.
  intros E c w r K S d arg l m i j k HE HF HB HA Hd Hk. pose proof HF as (RM & HR & Hh & Hb & Ha).
  destruct (core _ _ _ _ _ _ _ _ _ HE HF HA) as (-> & _ & _ & M).
  pose proof (dl_describes _ _ _ _ _ HF Hd) as Dd. pose proof (dl_describes _ _ _ _ _ HF Hk) as Dk.
  destruct (C41_dynamic_pf E c w r K S d _ HE HF Dd) as (dict & A & B & C & F & G). exists dict.
  rewrite HB in F, G. cbn [only] in F, G. rewrite (M i j d k _ _ Hd Hk Dd Dk).
  split; [assumption|]. split; [assumption|]. split; [|split].
  - intros x Hx. rewrite (F k x _ Hx Dk). ring.
  - intros N. rewrite <- (G k (state_of c k)); [ring| |assumption].
    apply nth_error_In in Hk. apply (in_dl_iff c w r k HF) in Hk. destruct Hk as (t & _ & Ik). split; assumption.
  - intros k' H. apply C in H. destruct H as (t & _ & D1 & I1). apply (in_dl_iff c w r k' HF). exists t. split; assumption.
Qed.

Lemma C41_spin_flip_refuted_pf : exists E c w r K S arg l m d dict k x,
  set_iter_ok E /\ filled c w r /\ assembled E c K (dynamic S) arg l m /\ nth_error l 0 = Some d /\ nth_error l 1 = Some k /\
  compute_dynamic_interactions E c K S d = Ok dict /\ In (k, x) dict /\ x <> csr_at m 0 1.
Proof.
  exists cpython, (ex_rect 2 1 1 0 1), 2, [0; 1], ex_couplings, only_ij, (RList []), [[0; 1]; [1; 0]].
  eexists. exists [0; 1], [([1; 0], qz 2)], [1; 0], (qz 2).
  split; [exact cpython_ok|]. split.
  { split; [exists 2, 1, 1; vm_compute; repeat (split; [congruence|]); reflexivity|]. split; [reflexivity|]. vm_compute. intuition congruence. }
  split; [split; [reflexivity|vm_compute; reflexivity]|]. split; [reflexivity|]. split; [reflexivity|].
  split; [vm_compute; reflexivity|]. split; [left; reflexivity|]. vm_compute. discriminate.
Qed.
