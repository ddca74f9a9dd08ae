(** Couplings in other units of energy.  Used in statements only. *)
From Coq Require Import ZArith List QArith Qcanon.
From Verif Require Import PyBase Interact Round.
Open Scope Z_scope.

Definition scaled (s : Qc) (K : interactions) : interactions :=
  (mkInter (s * i_t K) (s * i_J K) (s * i_Jhpar K) (s * i_Jhper K) (s * i_hSDpar K) (s * i_hSDper K) (s * i_tNNN K) (s * i_tnNNN K) (s * i_VNN K) (s * i_VNNNper K))%Qc.
(** rounding in the other units is the same *)
Definition rescales (s : Qc) (F : floats) : Prop := forall x, fl F (s * x)%Qc = (s * fl F x)%Qc.
(** the order in which entries are added depends on their places in the list, not on their values *)
Definition by_place (F : floats) : Prop := forall (f : Qc -> Qc) l, add_order F (map f l) = map f (add_order F l).
