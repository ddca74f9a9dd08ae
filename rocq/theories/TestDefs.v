(** What the last test of /repo/tests/test_hamiltonian_construction.py asserts.  Used in statements only. *)
From Coq Require Import ZArith List Bool QArith Qcanon.
From Verif Require Import PyBase Lattice Base Interact Ham Round SpecOps SignDefs.
Import ListNotations.
Open Scope Z_scope.

(** assertAlmostEqual(a, b, n) (tests/test_hamiltonian_construction.py:78): [a == b], or the float [abs(a - b)] rounds to zero at [n] decimals. *)
Definition almost_equal (F : floats) (n : Z) (a b : Qc) : bool :=
  let x := (magnitude (fl F (a - b)) * qz (10 ^ n))%Qc in
  Qc_eq_bool a b || (nearest_even (Qnum (this x)) (Zpos (Qden (this x))) =? 0).
(** tests/test_hamiltonian_construction.py:70-78, for one determinant of index [i] and one number [rot] of turns *)
Definition rotation_asserted (F : floats) (c : configuration) (m : csr) (i : Z) (d : det) (rot : Z) : Prop :=
  exists i', get_index_in_basis c (rotate_determinant rot c d) = Ok i' /\ almost_equal F 5 (csr_at m i i) (csr_at m i' i') = true.
