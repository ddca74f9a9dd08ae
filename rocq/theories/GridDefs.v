(** Couplings that are never rounded.  Used in statements only. *)
From Coq Require Import ZArith List Bool QArith Qcanon.
From Verif Require Import PyBase Interact SpecOps RangeDefs.
Import ListNotations.
Open Scope Z_scope.

Definition multiple (g x : Qc) : Prop := exists k, x = (qz k * g)%Qc.
(** The couplings are multiples of [g]; those of the exchanges, which are halved, are multiples of [2 g]. *)
Definition on_grid (g : Qc) (K : interactions) : Prop :=
  multiple (qz 2 * g) (i_J K) /\ multiple (qz 2 * g) (i_Jhpar K) /\ multiple (qz 2 * g) (i_Jhper K) /\
  multiple g (i_t K) /\ multiple g (i_hSDpar K) /\ multiple g (i_hSDper K) /\ multiple g (i_tNNN K) /\ multiple g (i_tnNNN K) /\
  multiple g (i_VNN K) /\ multiple g (i_VNNNper K).
(** no number met while the Hamiltonian is built is larger *)
Definition largest_number (z : sizes) (h bonds : Z) : Qc :=
  (energy_bound z (mkSwitches true true true true true true) h bonds + z_J z)%Qc.
