(** Order of couplings and of rounded numbers.  Used in statements only. *)
From Coq Require Import ZArith QArith Qcanon.
From Verif Require Import PyBase Interact Round.
Open Scope Z_scope.

Definition monotone (F : floats) : Prop := forall x y, (x <= y)%Qc -> (fl F x <= fl F y)%Qc.
(** weaker exchanges and stronger repulsions; the other couplings may be any *)
Definition raises (K K' : interactions) : Prop :=
  (i_J K' <= i_J K)%Qc /\ (i_Jhpar K' <= i_Jhpar K)%Qc /\ (i_Jhper K' <= i_Jhper K)%Qc /\ (i_VNN K <= i_VNN K')%Qc /\ (i_VNNNper K <= i_VNNNper K')%Qc.
