(** Models with a single exchange coupling.  Used in statements only. *)
From Coq Require Import ZArith QArith Qcanon.
From Verif Require Import PyBase Interact Round.
Open Scope Z_scope.

(** the doped bonds have the coupling of the others, as in the t-J model without hole dependence *)
Definition single_exchange (K : interactions) : Prop := i_Jhpar K = i_J K /\ i_Jhper K = i_J K.
(** zero and numbers already rounded are not changed *)
Definition settles (F : floats) : Prop := fl F 0%Qc = 0%Qc /\ forall x, fl F (fl F x) = fl F x.
