(** Vocabulary of the statements on the order of the values of modified_davidson_algorithm.  Used in statements only. *)
From Coq Require Import ZArith List Bool QArith Qcanon.
From Verif Require Import PyBase SpecTJ SpinDefs Dav DavDefs.
Import ListNotations.
Open Scope Z_scope.

(** On the orthonormal vectors [snd e], the form [R] is the sum of the squares weighted by the values [fst e], within [eps]. *)
Definition diagonalised (eps : Qc) (R : list (list Qc)) (e : list Qc * list (list Qc)) : Prop :=
  length (fst e) = length R /\ length (snd e) = length R /\ tall (length R) (snd e) /\ orthonormal (snd e) /\
  forall c, length c = length R ->
    let y := blend (length R) (snd e) c in
    let x := qsum (fun k => nth k (fst e) 0 * (nth k c 0 * nth k c 0))%Qc (seq 0 (length R)) in
    (inner y (image R y) <= x + eps * inner c c)%Qc /\ (x <= inner y (image R y) + eps * inner c c)%Qc.

(** The same along the iterations; the bases are orthonormal, and each new one spans the vectors found before. *)
Definition well_diagonalised (N : numerics) (A : list (list Qc)) (nb : Z) (tol : Qc) (dim_max : Z) (K0 : list (list Qc)) (eps : Qc) : Prop :=
  forall i K, search_space N A nb tol dim_max K0 i K ->
    orthonormal K /\ diagonalised eps (projected A K) (eigh N (projected A K)) /\
    forall vals vects K', dav_step N A nb tol dim_max K = Ok (Continue vals vects K') -> forall x, In x vects -> combination (length A) K' x.

(** The value of rank [k] of one iteration. *)
Definition value_at (r : res dav_out) (k : nat) (l : Qc) : Prop :=
  exists vals vects, (r = Ok (Converged vals vects) \/ exists K', r = Ok (Continue vals vects K')) /\ nth_error vals k = Some l.

(** How many of the levels are at most [u]. *)
Definition levels_below (es : list (Qc * list Qc)) (u : Qc) : nat :=
  length (filter (fun p => if Qclt_le_dec u (fst p) then false else true) es).
