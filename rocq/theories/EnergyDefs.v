(** Vocabulary of the statements on the range of the energies.  Used in statements only. *)
From Coq Require Import ZArith List Bool QArith Qcanon.
From Verif Require Import PyBase Lattice Base Interact Spec SpecTJ SpinDefs.
Import ListNotations.
Open Scope Z_scope.

(** Both parts of the exchanges act, and nothing else; the exchanges are between 0 and [Jm]. *)
Definition exchanges_only (c : configuration) (K : interactions) (S : switches) (Jm : Qc) : Prop :=
  s_bz S = true /\ s_bij S = true /\ (0 <= i_J K)%Qc /\ (i_J K <= Jm)%Qc /\
  (nholes c = 0 \/
   (s_bt S = false /\ s_bSD S = false /\ s_btN S = false /\ s_bV S = false /\
    (0 <= i_Jhpar K)%Qc /\ (i_Jhpar K <= Jm)%Qc /\ (0 <= i_Jhper K)%Qc /\ (i_Jhper K <= Jm)%Qc)).
(** bonds of [h] rows of [w] sites *)
Definition grid_bonds (w h : Z) : Z := h * (w - 1) + w * (h - 1).
