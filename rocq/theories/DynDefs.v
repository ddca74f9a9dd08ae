(** Two blocks side by side, the states reached from theirs by one exchange, and what they mediate.  Used in statements only. *)
From Coq Require Import ZArith List Bool QArith Qcanon.
From Verif Require Import Spec SpecOps SpecTJ Interact.
Import ListNotations.
Open Scope Z_scope.

(** The words of [m] letters, and the states they spell. *)
Fixpoint words (m : nat) : list (list particle) :=
  match m with
  | O => [[]]
  | S m => flat_map (fun u => [Hole :: u; Down :: u; Up :: u]) (words m)
  end.
Definition spelt (u : list particle) : occupation := fun x => nth (Z.to_nat x) u Hole.
(** sum over the states of [n] sites *)
Definition sum_states (n : Z) (f : occupation -> Qc) : Qc := qsum (fun u => f (spelt u)) (words (Z.to_nat n)).

Section Pair.
(** two [w] by [h] blocks; the numbers of the second one follow those of the first one *)
Variables (w h : Z) (K : interactions).
Let n := w * h.
Definition pair_lattice : lattice := whole (2 * (w * h)) (blocks_point w h).
(** one or two bonds apart *)
Definition close_sites (x y : Z) : bool := bonded pair_lattice x y || two_bonds pair_lattice x y.

(** [p] is made of [s] and [t] by exchanging a hole of the first block and a spin of the second one *)
Definition lent (s t p : occupation) : bool :=
  existsb (fun a => existsb (fun b =>
    holeb (s a) && negb (holeb (t b)) && close_sites a (n + b) && sameb (2 * n) p (swap_state a (n + b) (join_states n s t)))
    (sites n)) (sites n).
(** some state of the second block is enough *)
Definition lent_by (m : nat) (st : nat -> occupation) (s p : occupation) : bool := existsb (fun k => lent s (st k) p) (seq 0 m).

(** only the jumps over one and two bonds *)
Definition jumps : switches := mkSwitches true false false false true false.
Definition jump (p s t : occupation) : Qc := tj_element pair_lattice K jumps p (join_states n s t).
Definition pair_energy (p : occupation) : Qc := (op_static pair_lattice K p + op_repulsion pair_lattice K p)%Qc.

(** small couplings are left out *)
Definition kept_above (threshold x : Qc) : Qc := if Qclt_le_dec (if Qclt_le_dec x 0 then - x else x)%Qc threshold then 0%Qc else x.

(** coupling of [s] and [t] through [p], the second block being in the state of coordinates [gs] before and after *)
Definition mediated (threshold energy : Qc) (st : nat -> occupation) (gs : list Qc) (p s t : occupation) : Qc :=
  qsum (fun k1 => qsum (fun k2 =>
    only (negb (sameb n s t && Nat.eqb k1 k2))
         (kept_above threshold (nth k1 gs 0 * nth k2 gs 0 * (jump p s (st k1) * jump p t (st k2)) / (qz 2 * energy - pair_energy p))%Qc))
    (seq 0 (length gs))) (seq 0 (length gs)).
Definition second_order (threshold energy : Qc) (st : nat -> occupation) (gs : list Qc) (s t : occupation) : Qc :=
  qsum (fun k => sum_states (2 * n) (fun p => only (lent_by (length gs) st (st k) p) (mediated threshold energy st gs p s t)))
       (seq 0 (length gs)).
End Pair.
