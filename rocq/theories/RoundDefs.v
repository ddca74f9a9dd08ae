(** Vocabulary of the statements on rounded arithmetic.  Used in statements only. *)
From Coq Require Import ZArith List Bool Permutation QArith Qcanon.
From Verif Require Import PyBase Lattice Base Interact Ham Round Spec SpecOps SpecTJ SpecSpin SpinDefs SignDefs.
Import ListNotations.
Open Scope Z_scope.

(** Every operation has the relative error [u] at most; the order of additions only permutes. *)
Definition rounds (u : Qc) (F : floats) : Prop :=
  (0 <= u)%Qc /\ (forall x, (magnitude (fl F x - x) <= u * magnitude x)%Qc) /\ forall l, Permutation l (add_order F l).
(** nothing is rounded *)
Definition exact_floats (F : floats) : Prop := (forall x, fl F x = x) /\ forall l, Permutation l (add_order F l).

(** [l] is the basis and [m] the Hamiltonian built with the operations of [F]. *)
Definition assembled_fl (F : floats) (E : runtime) (c : configuration) (K : interactions) (S : switches) (arg : restriction)
    (l : list (list Z)) (m : csr) : Prop :=
  construct_basis c = Ok (mkBasis c l) /\ build_hamiltonian_fl F E c K (mkBasis c l) S arg = Ok m.

Definition positive_couplings (K : interactions) : interactions :=
  let a p := magnitude (p K) in
  mkInter (a i_t) (a i_J) (a i_Jhpar) (a i_Jhper) (a i_hSDpar) (a i_hSDper) (a i_tNNN) (a i_tnNNN) (a i_VNN) (a i_VNNNper).
(** crossings of singlets, both images counted with the same sign *)
Definition op_crossings (L : lattice) (K : interactions) (s t : occupation) : Qc :=
  let n := lat_size L in
  sum_sites n (fun h => sum_sites n (fun m => sum_sites n (fun e =>
    only (lat_from L h && lat_to L m && lat_to L e && bonded L h m && bonded L m e && holeb (s h) && oppositeb (s m) (s e))
         ((if lineb2 (lat_pos L h) (lat_pos L e) then i_hSDpar K else i_hSDper K)
          * (only (sameb n t (shift_state h m e s)) 1 + only (sameb n t (swap_state h e s)) 1))%Qc))).
(** The sum of the magnitudes of the terms of the element between [s] and [t]. *)
Definition tj_size (L : lattice) (K : interactions) (S : switches) (s t : occupation) : Qc :=
  let P := positive_couplings K in
  (only (s_bt S) (op_hop L P s t)
   + only (s_bz S) (only (sameb (lat_size L) s t) (- op_static L P s))
   + only (s_bij S) (op_flip L P s t)
   + only (s_bSD S) (op_crossings L P s t)
   + only (s_btN S) (op_next_hop L P s t)
   + only (s_bV S) (only (sameb (lat_size L) s t) (op_repulsion L P s)))%Qc.
(** The number of roundings that matter for an element, with [h] holes and [bonds] bonds. *)
Definition roundings (h bonds : Z) : Z := 36 * h + 2 * bonds + 4.
(** [(1 + u)^k - 1] *)
Definition growth (u : Qc) (k : Z) : Qc := ((1 + u) ^ Z.to_nat k - 1)%Qc.
(** powers of 2, and the numbers with [p] bits *)
Definition power2 (e : Z) : Qc := if 0 <=? e then qz (2 ^ e) else (1 / qz (2 ^ (- e)))%Qc.
Definition has_bits (p : Z) (y : Qc) : Prop := exists z e, Z.abs z < 2 ^ p /\ y = (qz z * power2 e)%Qc.
(** the last of the [p] bits is 0 *)
Definition even_bits (p : Z) (y : Qc) : Prop := exists z e, Z.even z = true /\ 2 ^ (p - 1) <= Z.abs z < 2 ^ p /\ y = (qz z * power2 e)%Qc.
(** [y] is the number of [p] bits nearest to [x]; of two such numbers it is the one whose last bit is 0. *)
Definition nearest_to (p : Z) (x y : Qc) : Prop :=
  has_bits p y /\ forall y', has_bits p y' ->
    (magnitude (y - x) <= magnitude (y' - x))%Qc /\ (magnitude (y' - x) = magnitude (y - x) -> y' = y \/ even_bits p y).
(** [m1] is the symmetric matrix read from the lower triangle of [m], as numpy.linalg.eigh reads it *)
Definition lower_triangle (m m1 : csr) : Prop :=
  csr_dim m1 = csr_dim m /\ forall i j, j <= i -> csr_at m1 i j = csr_at m i j /\ csr_at m1 j i = csr_at m i j.
(** [lin.norm] on [v]: the square of the result has the relative error [d] at most *)
Definition norm_within (d : Qc) (norm : list Qc -> Qc) (v : list Qc) : Prop :=
  (magnitude (norm v * norm v - inner v v) <= d * inner v v)%Qc.
(** relative error of a rounded quotient by the rounded square of such a norm, for a numerator of relative error [g] *)
Definition quotient_error (u d g : Qc) : Qc := ((u * (1 + g) + g + (u + d + u * d)) / (1 - (u + d + u * d)))%Qc.
