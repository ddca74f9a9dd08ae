(** The example of two squares of four sites side by side. *)
From Coq Require Import ZArith List Bool QArith Qcanon Lia.
From Verif Require Import PyBase PyFacts Runtimes Lattice Base Interact Spec Geometry Emb EmbDefs Examples FInter.
Import ListNotations.
Open Scope Z_scope.

Lemma ex_numbering : numbering_found ex_clusters_runtime 1 1 2.
Proof.
  exists (bond_matrix ex_clusters), ex_rect_4x2, ex_iso. cbv zeta. split; [reflexivity|]. split; [reflexivity|]. split; [|split].
  - intros i j Hi Hj Q.
    assert (B : (if ex_iso i =? ex_iso j then i =? j else true) = true).
    { revert i j Hi Hj Q. assert (B := forall_zrange2 8 (fun i j => if ex_iso i =? ex_iso j then i =? j else true) eq_refl). auto. }
    rewrite Q, Z.eqb_refl in B. now apply Z.eqb_eq.
  - intros i j Hi Hj. apply Z.eqb_eq.
    assert (B : forallb (fun i => forallb (fun j => mat_at (bond_matrix ex_clusters) i j =? mat_at ex_rect_4x2 (ex_iso i) (ex_iso j)) (zrange 0 8)) (zrange 0 8) = true) by (vm_compute; reflexivity).
    exact (forall_zrange2 8 _ B i j Hi Hj).
  - exists 0. split; [vm_compute; split; congruence|]. split.
    + split; [reflexivity|]. intros r s _ _. cbn [transfer ex_clusters_runtime]. destruct (r =? ex_iso s); auto.
    + split; [intros j Hj; lia|]. intros s Hs.
      assert (B : forallb (fun s => (0 <=? ex_iso s) && (ex_iso s <? 8)) (zrange 0 8) = true) by reflexivity.
      rewrite forallb_forall in B. assert (I : In s (zrange 0 8)) by (apply in_zrange; exact Hs).
      specialize (B s I). apply andb_true_iff in B. destruct B as [B1 B2].
      apply Z.leb_le in B1. apply Z.ltb_lt in B2. split; [split; [exact B1 | exact B2]|].
      intros r _. cbn [transfer ex_clusters_runtime]. destruct (Z.eqb_spec r (ex_iso s)); split; congruence.
Qed.
