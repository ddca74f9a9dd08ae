(** Vocabulary of the statements on energies at two sets of couplings.  Used in statements only. *)
From Coq Require Import ZArith List Bool QArith Qcanon.
From Verif Require Import PyBase Base Interact Spec SpecTJ SpinDefs.
Import ListNotations.
Open Scope Z_scope.

(** The repulsions of [K'] are not smaller, the other couplings are those of [K]. *)
Definition stronger_repulsions (K K' : interactions) : Prop :=
  (i_VNN K <= i_VNN K')%Qc /\ (i_VNNNper K <= i_VNNNper K')%Qc /\
  i_t K' = i_t K /\ i_J K' = i_J K /\ i_Jhpar K' = i_Jhpar K /\ i_Jhper K' = i_Jhper K /\
  i_hSDpar K' = i_hSDpar K /\ i_hSDper K' = i_hSDper K /\ i_tNNN K' = i_tNNN K /\ i_tnNNN K' = i_tnNNN K.
(** The exchanges of [K'] are not smaller, the other couplings are those of [K]. *)
Definition stronger_exchanges (K K' : interactions) : Prop :=
  (i_J K <= i_J K')%Qc /\ (i_Jhpar K <= i_Jhpar K')%Qc /\ (i_Jhper K <= i_Jhper K')%Qc /\
  i_t K' = i_t K /\ i_hSDpar K' = i_hSDpar K /\ i_hSDper K' = i_hSDper K /\ i_tNNN K' = i_tNNN K /\ i_tnNNN K' = i_tnNNN K /\
  i_VNN K' = i_VNN K /\ i_VNNNper K' = i_VNNNper K.
