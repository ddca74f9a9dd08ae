(** Finite sums of real numbers. *)
From Coq Require Import Reals Lra Lia Arith.
Open Scope R_scope.

(** [f 0 + ... + f (n - 1)] *)
Fixpoint rsum (n : nat) (f : nat -> R) : R := match n with O => 0 | S k => rsum k f + f k end.
