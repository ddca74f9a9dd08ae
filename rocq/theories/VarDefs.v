(** Vocabulary of the statements on the lowest value of modified_davidson_algorithm.  Used in statements only. *)
From Coq Require Import ZArith List Bool QArith Qcanon.
From Verif Require Import PyBase SpinDefs Dav DavDefs.
Import ListNotations.
Open Scope Z_scope.

(** The values and vectors [e] diagonalise [R] within [eps]: unit vectors, each value near the mean of [R] on its vector,
    and no unit vector with a mean below all the values. *)
Definition accurate (eps : Qc) (R : list (list Qc)) (e : list Qc * list (list Qc)) : Prop :=
  length (fst e) = length R /\ length (snd e) = length R /\
  (forall k, (k < length R)%nat -> let y := nth k (snd e) [] in
     length y = length R /\ inner y y = 1%Qc /\
     (inner y (image R y) <= nth k (fst e) 0 + eps)%Qc /\ (nth k (fst e) 0 <= inner y (image R y) + eps)%Qc) /\
  forall y, length y = length R -> inner y y = 1%Qc -> exists k, (k < length R)%nat /\ (nth k (fst e) 0 <= inner y (image R y) + eps)%Qc.

(** Along the iterations the bases are orthonormal, the projected matrices are diagonalised within [eps],
    and each new basis spans the vectors found before. *)
Definition well_behaved (N : numerics) (A : list (list Qc)) (nb : Z) (tol : Qc) (dim_max : Z) (K0 : list (list Qc)) (eps : Qc) : Prop :=
  forall i K, search_space N A nb tol dim_max K0 i K ->
    orthonormal K /\ accurate eps (projected A K) (eigh N (projected A K)) /\
    forall vals vects K', dav_step N A nb tol dim_max K = Ok (Continue vals vects K') -> forall x, In x vects -> combination (length A) K' x.

(** The first value of one iteration. *)
Definition lowest_value (r : res dav_out) (l : Qc) : Prop :=
  exists vals vects, (r = Ok (Converged vals vects) \/ exists K', r = Ok (Continue vals vects K')) /\ nth_error vals 0 = Some l.

(** The mean of [A] on a vector. *)
Definition mean (A : list (list Qc)) (x : list Qc) : Qc := inner x (image A x).
